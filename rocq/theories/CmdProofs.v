(** * Arguments: numbers and parameters of type float. *)
From Coq Require Import NArith ZArith QArith Qabs Ascii String List Arith Bool Lia Floats.SpecFloat.
From Verif Require Import Base Float32 FloatBits Bytes BinSpec StreamModel BinModel TextModel TextProofs ParamModel ParamProofs ConvertModel DivFacts TsvModel TsvSpec TsvText TsvProofs LloydModel NormModel DistModel RecallModel TruthModel
  PoolModel GreedyModel SearchModel HnswModel PruneModel BuildModel EntryModel RngModel ClosestModel FlatModel IvfModel LshModel IndexFileModel SystemModel ToolModel CmdModel CmdSpec.
Import ListNotations.
Local Open Scope string_scope.

(** ** Numbers *)
Lemma digit_char : forall d, (d <= 9)%N -> N_of_ascii (ascii_of_N (48 + d)) = (48 + d)%N.
Proof. intros d H. apply N_ascii_embedding. lia. Qed.

Lemma digits_list : forall ds acc cnt, Forall (fun d => (d <= 9)%N) ds ->
  digits (string_of_list_ascii (map (fun d => ascii_of_N (48 + d)) ds)) acc cnt = (fold_left (fun a d => (a * 10 + d)%N) ds acc, (cnt + length ds)%nat, "").
Proof.
  induction ds as [|d ds IH]; intros acc cnt H; [cbn; rewrite Nat.add_0_r; reflexivity|]. inversion H; subst.
  change (digits (String (ascii_of_N (48 + d)) (string_of_list_ascii (map (fun d => ascii_of_N (48 + d)) ds))) acc cnt = (fold_left (fun a d => (a * 10 + d)%N) ds (acc * 10 + d)%N, (cnt + S (length ds))%nat, "")).
  cbn [digits]. unfold is_digit. rewrite digit_char by auto. destruct (N.leb_spec 48 (48 + d)); [|lia]. destruct (N.leb_spec (48 + d) 57); [|lia]. cbn [andb].
  rewrite IH by auto. replace (48 + d - 48)%N with d by lia. do 2 f_equal. lia.
Qed.

Lemma all_digits_list : forall ds, Forall (fun d => (d <= 9)%N) ds -> all_digits (string_of_list_ascii (map (fun d => ascii_of_N (48 + d)) ds)) = true.
Proof.
  induction ds as [|d ds IH]; intros H; [reflexivity|]. inversion H; subst. cbn [map string_of_list_ascii all_digits]. rewrite IH by auto. unfold is_digit. rewrite digit_char by auto.
  destruct (N.leb_spec 48 (48 + d)); [|lia]. destruct (N.leb_spec (48 + d) 57); [|lia]. reflexivity.
Qed.

Lemma atoi_numeral : forall s n, number_arg s n -> atoi s = Ok (Z.of_N n).
Proof.
  intros s n [[ds [_ [H [-> ->]]]] B]. unfold atoi. pose proof (all_digits_list _ H) as A. rewrite skip_digit, sign_digit by auto. rewrite digits_list by auto.
  set (n := fold_left _ _ _) in *. destruct (Z.leb_spec (-2147483648) (Z.of_N n)); [|lia]. destruct (Z.leb_spec (Z.of_N n) 2147483647); [|change (2 ^ 31)%N with 2147483648%N in B; lia]. reflexivity.
Qed.

Lemma u32_small : forall n, (n < 2 ^ 31)%N -> int_u32 (Z.of_N n) = n.
Proof. intros n H. change (2 ^ 31)%N with 2147483648%N in H. unfold int_u32. rewrite Z.mod_small by lia. apply N2Z.id. Qed.
Lemma u64_small : forall n, (n < 2 ^ 31)%N -> int_u64 (Z.of_N n) = n.
Proof. intros n H. change (2 ^ 31)%N with 2147483648%N in H. unfold int_u64. rewrite Z.mod_small by lia. apply N2Z.id. Qed.

Lemma atoi_all : forall ss ns, Forall2 number_arg ss ns -> exists zs, map_res atoi ss = Ok zs /\ map int_u64 zs = ns.
Proof.
  intros ss ns H. induction H as [|s n ss ns H _ [zs [E1 E2]]]; [exists []; split; reflexivity|]. exists (Z.of_N n :: zs). cbn [map_res map]. rewrite (atoi_numeral _ _ H), E1. cbn [bind].
  split; [reflexivity|]. rewrite E2, u64_small by apply H. reflexivity.
Qed.

(** The text of a number is a numeral. *)
Lemma numeral_app : forall a b n d, numeral a n -> (d <= 9)%N -> b = String (ascii_of_N (48 + d)) "" -> numeral (a ++ b) (n * 10 + d).
Proof.
  intros a b n d [ds [Nn [F [-> ->]]]] Hd ->. exists (ds ++ [d])%list. split; [destruct ds; discriminate|]. split; [apply Forall_app; split; [exact F|constructor; auto]|].
  rewrite fold_left_app. split; [|reflexivity]. rewrite map_app. induction ds as [|x ds IH] in |- *; [reflexivity|]. cbn. f_equal. exact IH.
Qed.

(** ** Floats written as parameters *)
Lemma take_end : forall l sgn man dot sci a, take_num sgn man dot sci (l ++ [32%N]) = (a, [32%N]) -> take_num sgn man dot sci l = (a, []).
Proof.
  induction l as [|c l IH]; intros sgn man dot sci a H.
  - cbn in H. destruct (sgn && false); destruct ((32 =? 46)%N && negb dot && negb sci) eqn:E; cbn in *; try congruence; repeat match goal with |- context [if ?x then _ else _] => destruct x end; cbn in *; congruence.
  - cbn [app take_num] in *.
    destruct (sgn && signc c); [destruct (take_num _ _ _ _ (l ++ [32%N])) as [b r] eqn:E; injection H as <- ->; now rewrite (IH _ _ _ _ _ E)|].
    destruct (digitc c); [destruct (take_num _ _ _ _ (l ++ [32%N])) as [b r] eqn:E; injection H as <- ->; now rewrite (IH _ _ _ _ _ E)|].
    destruct ((c =? 46)%N && negb dot && negb sci); [destruct (take_num _ _ _ _ (l ++ [32%N])) as [b r] eqn:E; injection H as <- ->; now rewrite (IH _ _ _ _ _ E)|].
    destruct (((c =? 101) || (c =? 69))%N && negb sci && man); [destruct (take_num _ _ _ _ (l ++ [32%N])) as [b r] eqn:E; injection H as <- ->; now rewrite (IH _ _ _ _ _ E)|].
    injection H as <- H. destruct l; discriminate.
Qed.

Lemma scan_text_end : forall c l b, is_ws c = false -> scan Float (c :: l ++ [32%N], true) None = (([32%N], true), Some b) -> scan Float (c :: l, true) None = (([], true), Some b).
Proof.
  intros c l b W H. unfold scan in *. cbn [skip_ws] in *. rewrite W in *. destruct (take_num true false false false (c :: l ++ [32%N])) as [tok rest] eqn:E.
  destruct (parse_num tok) as [[[s D] q]|] eqn:P; [|discriminate]. destruct (strtof s D q) as [x|] eqn:Q; [|discriminate]. injection H as -> <-.
  rewrite (take_end (c :: l) _ _ _ _ _ E), P, Q. reflexivity.
Qed.

Lemma notation_bytes : forall t q, notation_of t q -> is_bytes t.
Proof.
  intros t q [s [A [B [tail [x [_ [HA [HB [T [-> _]]]]]]]]]].
  assert (D : forall l, is_digits l -> is_bytes (digits_text l)).
  { intros l Hl. unfold digits_text, is_bytes. apply Forall_map. eapply Forall_impl; [|exact Hl]. intros d Hd. cbn beta in Hd. unfold is_byte. lia. }
  unfold is_bytes in *. apply Forall_app. split; [destruct s; repeat constructor|]. apply Forall_app. split; [apply D, HA|]. apply Forall_app. split.
  - destruct B as [|b B]; [constructor|]. constructor; [reflexivity|apply D, HB].
  - inversion T as [|s' E HE1 HE2]; [constructor|]. apply Forall_app. split; [destruct s'; repeat constructor|apply D, HE2].
Qed.

Lemma conv_float : forall x, finite x -> exists y, conv_f32 (text_of (show_float x)) = Val y /\ by_six_digits x y /\ show_float y = show_float x /\ finite y.
Proof.
  intros x F. destruct (f32_of_bits_of_f32 x (bits_finite x F)) as [B1 B2]. destruct (scan_elem Float (bits_of_f32 x)) as [b [[q [K1 [K2 [K3 K4]]]] [_ [[_ Fb] Sc]]]].
  { split; [exact B2|]. rewrite B1. exact F. }
  cbn [show_elem] in *. rewrite B1 in *. exists (f32_of_bits b). split; [|split; [exists q; auto|split; [exact K4|exact Fb]]].
  unfold conv_f32. rewrite bytes_of_text_of by (eapply notation_bytes; exact K2). specialize (Sc [] 32%N [] None ltac:(constructor) eq_refl). cbn [app] in Sc.
  destruct K2 as [s [A [B [tail [xx [NA [HA [HB [T [E _]]]]]]]]]].
  assert (W : first_ok (show_float x)) by (rewrite E; apply first_digits; auto). destruct (show_float x) as [|c l]; [destruct W|]. rewrite (scan_text_end c l b W Sc). reflexivity.
Qed.

Lemma conv_infinite : forall x, ~ finite x -> f32_valid x = true -> conv_f32 (text_of (show_float x)) = BadText.
Proof.
  intros [s|s| |s m e] F V.
  - exfalso. apply F. exact I.
  - destruct s; vm_compute; reflexivity.
  - vm_compute. reflexivity.
  - exfalso. apply F. exact V.
Qed.
