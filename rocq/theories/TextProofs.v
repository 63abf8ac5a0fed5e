(** * Lemmas about text. *)
From Coq Require Import NArith ZArith Ascii String List Bool Lia Sorting.Sorted Sorting.Permutation ZifyBool ZifyNat ZifyN.
From Verif Require Import Base Bytes TextModel.
Import ListNotations.
Local Open Scope string_scope.
Ltac Zify.zify_post_hook ::= Z.div_mod_to_equations.

Lemma text_of_bytes_of : forall s, text_of (bytes_of s) = s.
Proof.
  intros s. unfold text_of, bytes_of. rewrite map_map. rewrite <- (string_of_list_ascii_of_string s) at 2. f_equal.
  rewrite <- (map_id (list_ascii_of_string s)) at 2. apply map_ext. intros a. apply ascii_N_embedding.
Qed.

Lemma bytes_of_text_of : forall b, is_bytes b -> bytes_of (text_of b) = b.
Proof.
  intros b H. unfold text_of, bytes_of. rewrite list_ascii_of_string_of_list_ascii. rewrite map_map.
  rewrite <- (map_id b) at 2. apply map_ext_in. intros a Ha. apply N_ascii_embedding. unfold is_bytes in H. rewrite Forall_forall in H. apply H. auto.
Qed.

Lemma bytes_of_is_bytes : forall s, is_bytes (bytes_of s).
Proof.
  intros s. unfold is_bytes, bytes_of. apply Forall_forall. intros x Hx. apply in_map_iff in Hx. destruct Hx as [a [<- _]].
  unfold is_byte. apply N_ascii_bounded.
Qed.

(** Strings *)
Lemma sapp_assoc : forall a b c : string, (a ++ b) ++ c = a ++ (b ++ c).
Proof. induction a as [|x a IH]; intros b c; cbn [append]; [reflexivity|]. rewrite IH. reflexivity. Qed.

Lemma sapp_nil : forall a : string, a ++ "" = a.
Proof. induction a as [|x a IH]; cbn [append]; [reflexivity|]. rewrite IH. reflexivity. Qed.

Lemma sapp_inj_l : forall a b c : string, a ++ b = a ++ c -> b = c.
Proof. induction a as [|x a IH]; intros b c H; cbn [append] in H; [auto|]. apply IH. congruence. Qed.

(** Does a character occur? *)
Fixpoint has (c : ascii) (s : string) : bool :=
  match s with EmptyString => false | String a t => Ascii.eqb a c || has c t end.

Lemma has_app : forall c a b, has c (a ++ b) = has c a || has c b.
Proof. intros c a b. induction a as [|x a IH]; cbn; [auto|]. rewrite IH. apply orb_assoc. Qed.

(** getline *)
Lemma getlines_app : forall c p s, has c p = false -> getlines c (p ++ String c s) = p :: getlines c s.
Proof.
  intros c p s. induction p as [|a p IH]; intros H; cbn [append getlines has] in *.
  - rewrite Ascii.eqb_refl. reflexivity.
  - apply orb_false_iff in H. destruct H as [H1 H2]. rewrite H1, IH by auto. reflexivity.
Qed.

Lemma getlines_last : forall c p, has c p = false -> p <> "" -> getlines c p = [p].
Proof.
  intros c p. induction p as [|a p IH]; intros H Hne; [congruence|]. cbn [getlines has] in *.
  apply orb_false_iff in H. destruct H as [H1 H2]. rewrite H1. destruct p as [|b p]; [reflexivity|].
  rewrite IH by (auto; discriminate). reflexivity.
Qed.

Lemma getlines_no : forall c s p, In p (getlines c s) -> has c p = false.
Proof.
  intros c s. induction s as [|a s IH]; intros p Hp; [destruct Hp|]. cbn [getlines] in Hp.
  destruct (Ascii.eqb a c) eqn:E.
  - destruct Hp as [<-|Hp]; [reflexivity|auto].
  - destruct (getlines c s) as [|q r] eqn:Eg.
    + destruct Hp as [<-|[]]. cbn. rewrite E. reflexivity.
    + destruct Hp as [<-|Hp].
      * cbn. rewrite E. apply IH. left. reflexivity.
      * apply IH. right. auto.
Qed.

Lemma getlines_keep : forall c d s p, has d s = false -> In p (getlines c s) -> has d p = false.
Proof.
  intros c d s. induction s as [|a s IH]; intros p Hs Hp; [destruct Hp|]. cbn [getlines has] in *.
  apply orb_false_iff in Hs. destruct Hs as [H1 H2].
  destruct (Ascii.eqb a c) eqn:E.
  - destruct Hp as [<-|Hp]; [reflexivity|auto].
  - destruct (getlines c s) as [|q r] eqn:Eg.
    + destruct Hp as [<-|[]]. cbn. rewrite H1. reflexivity.
    + destruct Hp as [<-|Hp].
      * cbn. rewrite H1. apply IH; auto. left. reflexivity.
      * apply IH; auto. right. auto.
Qed.

Lemma erase_id : forall c s, has c s = false -> erase c s = s.
Proof.
  intros c s. induction s as [|a s IH]; intros H; cbn [erase has] in *; [reflexivity|].
  apply orb_false_iff in H. destruct H as [H1 H2]. rewrite H1, IH by auto. reflexivity.
Qed.

Lemma erase_has : forall c d s, has d (erase c s) = if Ascii.eqb c d then false else has d s.
Proof.
  intros c d s. induction s as [|a s IH]; cbn [erase has].
  - destruct (Ascii.eqb c d); reflexivity.
  - destruct (Ascii.eqb a c) eqn:E.
    + rewrite IH. destruct (Ascii.eqb c d) eqn:F; [reflexivity|]. apply Ascii.eqb_eq in E. subst a. rewrite F. reflexivity.
    + cbn [has]. rewrite IH. destruct (Ascii.eqb c d) eqn:F; [|reflexivity]. apply Ascii.eqb_eq in F. subst d. rewrite E. reflexivity.
Qed.

(** ** Order of strings *)
Definition sle (x y : string) : Prop := String.leb x y = true.

Lemma scompare_refl : forall x, String.compare x x = Eq.
Proof. induction x as [|a x IH]; cbn; [auto|]. unfold Ascii.compare. rewrite N.compare_refl. auto. Qed.

Lemma sle_refl : forall x, sle x x.
Proof. intros x. unfold sle, String.leb. rewrite scompare_refl. reflexivity. Qed.

Lemma sle_total : forall x y, String.leb x y = false -> sle y x.
Proof. intros x y H. unfold sle, String.leb in *. rewrite String.compare_antisym. destruct (String.compare x y); cbn; congruence. Qed.

Lemma ascii_compare_trans : forall a b c, Ascii.compare a b = Lt -> Ascii.compare b c = Lt -> Ascii.compare a c = Lt.
Proof. intros a b c. unfold Ascii.compare. rewrite !N.compare_lt_iff. lia. Qed.

Lemma ascii_compare_eq : forall a b, Ascii.compare a b = Eq <-> a = b.
Proof. intros a b. split; [apply Ascii.compare_eq_iff|]. intros ->. unfold Ascii.compare. apply N.compare_refl. Qed.

Lemma scompare_trans : forall x y z, String.compare x y = Lt -> String.compare y z = Lt -> String.compare x z = Lt.
Proof.
  induction x as [|a x IH]; intros [|b y] [|c z] H1 H2; cbn [String.compare] in *; try discriminate; try reflexivity.
  destruct (Ascii.compare a b) eqn:E1; [|clear H1|discriminate].
  - apply ascii_compare_eq in E1. subst b. destruct (Ascii.compare a c) eqn:E2; [|reflexivity|discriminate]. eapply IH; eauto.
  - destruct (Ascii.compare b c) eqn:E2; [| |discriminate].
    + apply ascii_compare_eq in E2. subst c. rewrite E1. reflexivity.
    + rewrite (ascii_compare_trans _ _ _ E1 E2). reflexivity.
Qed.

Lemma sle_cases : forall x y, sle x y -> x = y \/ String.compare x y = Lt.
Proof.
  intros x y H. unfold sle, String.leb in H. destruct (String.compare x y) eqn:E; [left; apply String.compare_eq_iff; auto|auto|discriminate].
Qed.

Lemma sle_trans : forall x y z, sle x y -> sle y z -> sle x z.
Proof.
  intros x y z H1 H2. destruct (sle_cases _ _ H1) as [->|E1]; [auto|]. destruct (sle_cases _ _ H2) as [<-|E2]; [auto|].
  unfold sle, String.leb. rewrite (scompare_trans _ _ _ E1 E2). reflexivity.
Qed.

Lemma str_insert_perm : forall x l, Permutation (x :: l) (str_insert x l).
Proof.
  intros x l. induction l as [|y t IH]; cbn; [auto|]. destruct (String.leb x y); [auto|].
  eapply Permutation_trans; [apply perm_swap|]. constructor. auto.
Qed.

Lemma str_sort_perm : forall l, Permutation l (str_sort l).
Proof.
  induction l as [|x t IH]; cbn; [auto|]. eapply Permutation_trans; [|apply str_insert_perm]. constructor. auto.
Qed.

Lemma str_insert_sorted : forall x l, StronglySorted sle l -> StronglySorted sle (str_insert x l).
Proof.
  intros x l. induction l as [|y t IH]; intros H; cbn [str_insert]; [repeat constructor|].
  inversion H as [|? ? Hs Hf]. subst. destruct (String.leb x y) eqn:E.
  - constructor; auto. constructor; [exact E|]. rewrite Forall_forall in *. intros z Hz. eapply sle_trans; [exact E|]. auto.
  - constructor; [auto|]. rewrite Forall_forall in *. intros z Hz.
    apply (Permutation_in _ (Permutation_sym (str_insert_perm x t))) in Hz. destruct Hz as [<-|Hz]; [apply sle_total; auto|auto].
Qed.

Lemma str_sort_sorted : forall l, StronglySorted sle (str_sort l).
Proof. induction l as [|x t IH]; cbn; [constructor|]. apply str_insert_sorted. auto. Qed.

Lemma str_insert_le : forall x l, Forall (sle x) l -> str_insert x l = x :: l.
Proof. intros x [|y t] H; cbn; [auto|]. inversion H as [|? ? Hx _]. subst. unfold sle in Hx. rewrite Hx. reflexivity. Qed.

Lemma str_sort_id : forall l, StronglySorted sle l -> str_sort l = l.
Proof.
  induction l as [|x t IH]; intros H; cbn; [auto|]. inversion H as [|? ? Hs Hf]. subst. rewrite IH by auto. apply str_insert_le. auto.
Qed.

Lemma sle_empty : forall x, sle "" x.
Proof. intros [|a x]; reflexivity. Qed.

Lemma sle_empty_r : forall x, sle x "" -> x = "".
Proof. intros [|a x] H; [auto|discriminate]. Qed.

(** ** Decimal numbers *)
Lemma digit_val : forall d, (d < 10)%N -> N_of_ascii (digit d) = (48 + d)%N.
Proof. intros d H. unfold digit, chr. apply N_ascii_embedding. lia. Qed.

Lemma digit_is : forall d, (d < 10)%N -> is_digit (digit d) = true.
Proof. intros d H. unfold is_digit. rewrite digit_val by auto. lia. Qed.

Lemma show_aux_acc : forall fuel n acc, show_aux fuel n acc = show_aux fuel n "" ++ acc.
Proof.
  induction fuel as [|fuel IH]; intros n acc; cbn [show_aux]; [reflexivity|].
  destruct (n <? 10)%N; [reflexivity|]. rewrite IH. rewrite (IH _ (String _ "")). rewrite sapp_assoc. reflexivity.
Qed.

Lemma digits_app : forall a b acc cnt v k, digits a acc cnt = (v, k, "") -> digits (a ++ b) acc cnt = digits b v k.
Proof.
  induction a as [|x a IH]; intros b acc cnt v k H; cbn [digits append] in *.
  - assert (acc = v) by congruence. assert (cnt = k) by congruence. subst. reflexivity.
  - destruct (is_digit x); [auto|]. discriminate.
Qed.

Lemma digits_show_aux : forall fuel n, (n < 10 ^ N.of_nat fuel)%N -> (1 <= fuel)%nat ->
  exists k, (1 <= k)%nat /\ forall c0, digits (show_aux fuel n "") 0 c0 = (n, (c0 + k)%nat, "").
Proof.
  induction fuel as [|fuel IH]; intros n H Hf; [lia|]. cbn [show_aux].
  destruct (n <? 10)%N eqn:E; [apply N.ltb_lt in E|apply N.ltb_ge in E].
  - exists 1%nat. split; [lia|]. intros c0. cbn [digits]. rewrite digit_is, digit_val by auto. f_equal. f_equal; lia.
  - rewrite Nat2N.inj_succ, N.pow_succ_r' in H.
    assert (Hq : (n / 10 < 10 ^ N.of_nat fuel)%N) by (apply N.div_lt_upper_bound; lia).
    assert (Hf1 : (1 <= fuel)%nat).
    { destruct fuel; [|lia]. cbn in H. lia. }
    destruct (IH (n / 10)%N Hq Hf1) as [k [Hk Hd]]. exists (S k). split; [lia|]. intros c0.
    rewrite show_aux_acc. rewrite (digits_app _ _ _ _ _ _ (Hd c0)). cbn [digits].
    assert (Hm : (n mod 10 < 10)%N) by (apply N.mod_lt; lia).
    rewrite digit_is, digit_val by auto. f_equal. f_equal; [|lia]. pose proof (N.div_mod n 10 ltac:(lia)). lia.
Qed.

Lemma size_bound : forall n, (n < 10 ^ N.of_nat (S (N.size_nat n)))%N.
Proof.
  intros n. assert (H : (n < 2 ^ N.of_nat (N.size_nat n))%N).
  { destruct n as [|p]; [reflexivity|]. cbn [N.size_nat].
    induction p as [p IH|p IH|]; cbn [Pos.size_nat]; rewrite ?Nat2N.inj_succ, ?N.pow_succ_r'; try reflexivity; lia. }
  rewrite Nat2N.inj_succ, N.pow_succ_r'.
  assert (2 ^ N.of_nat (N.size_nat n) <= 10 ^ N.of_nat (N.size_nat n))%N by (apply N.pow_le_mono_l; lia). lia.
Qed.

Lemma digits_show : forall n, exists k, (1 <= k)%nat /\ digits (show n) 0 0 = (n, k, "").
Proof.
  intros n. unfold show. destruct (digits_show_aux (S (N.size_nat n)) n (size_bound n)) as [k [H1 H2]]; [lia|].
  exists k. split; [auto|]. apply H2.
Qed.

Lemma show_inj : forall a b, show a = show b -> a = b.
Proof.
  intros a b H. destruct (digits_show a) as [k [_ Ha]]. destruct (digits_show b) as [k' [_ Hb]]. rewrite H, Hb in Ha. congruence.
Qed.

Fixpoint all_digits (s : string) : bool :=
  match s with EmptyString => true | String a t => is_digit a && all_digits t end.

Lemma all_digits_app : forall a b, all_digits (a ++ b) = all_digits a && all_digits b.
Proof. intros a b. induction a as [|x a IH]; cbn; [auto|]. rewrite IH. apply andb_assoc. Qed.

Lemma show_aux_digits : forall fuel n, all_digits (show_aux fuel n "") = true.
Proof.
  induction fuel as [|fuel IH]; intros n; cbn [show_aux]; [reflexivity|].
  destruct (n <? 10)%N eqn:E; [apply N.ltb_lt in E|].
  - cbn. rewrite digit_is by auto. reflexivity.
  - rewrite show_aux_acc, all_digits_app, IH. cbn. rewrite digit_is by (apply N.mod_lt; lia). reflexivity.
Qed.

Lemma show_digits : forall n, all_digits (show n) = true.
Proof. intros n. apply show_aux_digits. Qed.

Lemma show_nonempty : forall n, show n <> "".
Proof. intros n H. destruct (digits_show n) as [k [Hk E]]. rewrite H in E. cbn in E. assert (k = 0%nat) by congruence. lia. Qed.

Lemma digit_no : forall a c, is_digit a = true -> is_digit c = false -> Ascii.eqb a c = false.
Proof. intros a c Ha Hc. apply Ascii.eqb_neq. intros ->. congruence. Qed.

Lemma digits_no : forall s c, all_digits s = true -> is_digit c = false -> has c s = false.
Proof.
  induction s as [|a s IH]; intros c H Hc; cbn [has all_digits] in *; [auto|]. apply andb_true_iff in H. destruct H as [H1 H2].
  rewrite (digit_no _ _ H1 Hc). cbn [orb]. apply IH; auto.
Qed.

(** A digit is neither a space nor a sign. *)
Lemma digit_not_space : forall a, is_digit a = true -> is_space a = false.
Proof. intros a H. unfold is_digit, is_space in *. lia. Qed.

Lemma skip_digit : forall s, all_digits s = true -> skip_space s = s.
Proof. intros [|a s] H; [auto|]. cbn in *. apply andb_true_iff in H. destruct H as [H _]. rewrite digit_not_space by auto. reflexivity. Qed.

Lemma sign_digit : forall s, all_digits s = true -> sign s = (false, s).
Proof.
  intros [|a s] H; [auto|]. cbn [sign all_digits] in *. apply andb_true_iff in H. destruct H as [H _].
  rewrite !(digit_no a) by auto. reflexivity.
Qed.

Lemma stoul_show : forall n, (n < 2 ^ 64)%N -> stoul (show n) = Ok n.
Proof.
  intros n H. unfold stoul. rewrite skip_digit by apply show_digits. rewrite sign_digit by apply show_digits.
  destruct (digits_show n) as [k [Hk ->]]. assert (E : Nat.eqb k 0 = false) by (apply Nat.eqb_neq; lia). rewrite E.
  assert (E2 : (18446744073709551616 <=? n)%N = false) by (apply N.leb_gt; exact H). rewrite E2. reflexivity.
Qed.

Lemma stoul_space_show : forall n, (n < 2 ^ 64)%N -> stoul (String " " (show n)) = Ok n.
Proof. intros n H. rewrite <- (stoul_show n H). reflexivity. Qed.
