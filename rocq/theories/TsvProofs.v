(** * The text converters. *)
From Coq Require Import ZArith NArith QArith Qabs Lia Lqa List Bool Arith SpecFloat.
From Verif Require Import Base Bytes Float32 FloatBits DivFacts StreamModel BinModel BinProofs BinProofs2 ClosestModel ClosestProofs ConvertModel ConvertProofs TsvModel TsvSpec TsvNum TsvNum2 TsvNum3 TsvNum4 TsvText.
Import ListNotations.
Local Open Scope nat_scope.

(** ** One element *)

Definition elem_ok (t : elem_type) (x : N) : Prop :=
  match t with Byte => (x < 256)%N /\ is_ws x = false | Float => (x < 2 ^ 32)%N /\ finite (f32_of_bits x) end.

(** What an element becomes when it is written and read. *)
Definition kept (t : elem_type) (x y : N) : Prop :=
  match t with
  | Byte => y = x
  | Float => exists q, closest_decimal (fvalue (f32_of_bits x)) q /\ notation_of (show_elem Float x) q /\ closest_float q (f32_of_bits y) /\
      show_float (f32_of_bits y) = show_float (f32_of_bits x)
  end.

Definition first_ok (l : list N) : Prop := match l with c :: _ => is_ws c = false | [] => False end.

Lemma skip_lead : forall lead l, Forall (fun c => is_ws c = true) lead -> first_ok l -> skip_ws (lead ++ l) = l.
Proof.
  induction lead as [|c lead IH]; intros l H F.
  - destruct l as [|c l]; [destruct F|]. cbn in *. rewrite F. reflexivity.
  - inversion H; subst. cbn. rewrite H2. auto.
Qed.

Lemma bits_finite : forall x, finite x -> f32_valid x = true.
Proof. intros [s|s| |s m e] H; cbn in H; try contradiction; auto. Qed.

Lemma six_k : forall s m e, f32_valid (S754_finite s m e) = true -> (-99 <= snd (sci6 m e) <= 99)%Z.
Proof.
  intros s m e V. destruct (sci6_six s m e V) as [_ [k0 [F [K _]]]]. destruct (float_range s m e V) as [R1 R2].
  destruct (range_ok _ R1 R2) as [A B]. destruct F as [F1 F2].
  assert (k0 < 39)%Z by (apply (bp_lt_inv 10); [lia|]; lra). assert (-51 < k0 + 1)%Z by (apply (bp_lt_inv 10); [lia|]; lra). lia.
Qed.

Lemma first_digits : forall s A r, A <> [] -> is_digits A -> first_ok (minus s ++ chars A ++ r).
Proof.
  intros s A r NA HA. destruct s; [reflexivity|]. destruct A as [|a A]; [contradiction|]. inversion HA; subst. cbn. apply char_digit. auto.
Qed.

Lemma tail_text : forall tail x, tail_of tail x -> exponent_text tail x.
Proof.
  intros tail x H. inversion H as [|s E NE HE]; subst; [constructor|].
  pose proof (an_exponent s E NE HE) as X. unfold signed in X. destruct s; exact X.
Qed.

Lemma fmt_notation : forall s D k, (100000 <= D < 1000000)%Z -> (-99 <= k <= 99)%Z ->
  notation_of (minus s ++ fmt_dec D k) (if s then - dval (D, k) else dval (D, k))%Q.
Proof.
  intros s D k HD HK. destruct (fmt_form D k HD HK) as [A [B [tail [x [NA [HA [HB [T [E [V X]]]]]]]]]].
  exists s, A, (strip0 B), tail, x. split; [auto|]. split; [auto|]. split; [apply strip0_digits; auto|]. split; [apply tail_text; auto|].
  split. { rewrite E. unfold frac, minus. destruct (strip0 B); reflexivity. }
  change (number (A ++ strip0 B)) with (numa 0 (A ++ strip0 B)).
  rewrite numa_app in V. destruct (strip0_num (numa 0 A) B) as [S1 S2]. rewrite S1, <- numa_app in V. set (D' := numa 0 (A ++ strip0 B)) in *.
  set (j := (Z.of_nat (length B) - Z.of_nat (length (strip0 B)))%Z) in *.
  assert (Q : (dval (D, k) == inject_Z D' * bp 10 (x - Z.of_nat (length (strip0 B))))%Q).
  { unfold dval. cbn [fst snd]. rewrite <- V. rewrite inject_Z_mult. rewrite <- (bp_nonneg 10 j) by (unfold j; lia). rewrite <- Qmult_assoc. rewrite <- bp_add by lia.
    replace (j + (k - 5))%Z with (x - Z.of_nat (length (strip0 B)))%Z by (unfold j; lia). reflexivity. }
  change ((10 # 1) ^ (x - Z.of_nat (length (strip0 B))))%Q with (bp 10 (x - Z.of_nat (length (strip0 B)))).
  unfold signed. destruct s; rewrite Q; [rewrite inject_Z_opp; ring|reflexivity].
Qed.

Lemma zero_closest : forall s, closest_decimal 0 0 /\ closest_float 0 (S754_zero s) /\ notation_of (minus s ++ [48%N]) 0.
Proof.
  intro s. split; [|split].
  - split; [exists 0%Z, 0%Z; split; [reflexivity|reflexivity]|]. intros y' _. change (Qabs (0 - 0)) with 0%Q. apply Qabs_nonneg.
  - split; [exact I|]. intros g _. change (Qabs (0 - fvalue (S754_zero s))) with 0%Q. apply Qabs_nonneg.
  - exists s, [0%Z], [], [], 0%Z. split; [discriminate|]. split; [repeat constructor; lia|]. split; [constructor|]. split; [constructor|].
    split; [destruct s; reflexivity|]. destruct s; reflexivity.
Qed.

(** Reading the text of an element, after and before white space. *)
Lemma scan_elem : forall t x, elem_ok t x -> exists y, kept t x y /\ (y < 256 ^ N.of_nat (width t))%N /\ elem_ok t y /\
  forall lead c rest val, Forall (fun c => is_ws c = true) lead -> is_ws c = true ->
    scan t (lead ++ show_elem t x ++ c :: rest, true) val = ((c :: rest, true), Some y).
Proof.
  intros [|] x H.
  - destruct H as [Hx F]. unfold show_elem. destruct (f32_of_bits x) as [s|s| |s m e] eqn:Ex; cbn in F; try contradiction.
    + (* zero *)
      exists (bits_of_f32 (S754_zero s)). destruct (f32_of_bits_of_f32 (S754_zero s) eq_refl) as [B1 B2].
      split. { cbn [kept show_elem]. rewrite Ex, B1. destruct (zero_closest s) as [Z1 [Z2 Z3]]. exists 0%Q. auto. }
      split; [exact B2|]. split; [split; [exact B2|rewrite B1; exact I]|].
      intros lead c rest val Hl Hc. unfold scan. cbn [show_float].
      pose proof (take_ok s [0%Z] [] [] 0%Z c rest ltac:(discriminate) ltac:(repeat constructor; lia) ltac:(constructor) ltac:(constructor) Hc) as TK.
      pose proof (parse_ok s [0%Z] [] [] 0%Z ltac:(discriminate) ltac:(repeat constructor; lia) ltac:(constructor) ltac:(constructor)) as PK.
      change (minus s ++ chars [0%Z] ++ frac [] ++ []) with (minus s ++ [48%N]) in *.
      rewrite skip_lead by (auto; destruct s; reflexivity).
      destruct ((minus s ++ [48%N]) ++ c :: rest) as [|c0 r0] eqn:E0; [destruct s; discriminate|]. rewrite TK, PK. reflexivity.
    + (* a number *)
      cbn [show_float]. pose proof (sci6_six s m e F) as S6. pose proof (six_k s m e F) as K. destruct (again s m e F) as [p [e' [A1 [A2 A3]]]].
      destruct (float_range s m e F) as [R1 R2]. pose proof (bp_pos 2 (-149) ltac:(lia)) as Pt.
      assert (Vp : (0 < inject_Z (Zpos m) * bp 2 e)%Q) by lra. pose proof (six_max _ _ _ Vp R2 S6) as Lm.
      destruct (sci6 m e) as [D k] eqn:Es. cbn [fst snd] in *. exists (bits_of_f32 (S754_finite s p e')).
      destruct (f32_of_bits_of_f32 _ A2) as [B1 B2]. pose proof (six_range _ _ _ S6) as RD.
      split. { cbn [kept show_elem]. rewrite Ex, B1. cbn [show_float]. rewrite Es, A3. exists (if s then - dval (D, k) else dval (D, k))%Q.
        pose proof (six_closest s _ D k S6) as C6.
        split; [|split; [apply fmt_notation; auto|split; [|reflexivity]]].
        - destruct C6 as [C7 C8]. split; [exact C7|]. intros y' Hy. specialize (C8 y' Hy). rewrite fvalue_bp. exact C8.
        - apply (strtof_closest s D (k - 5)); auto; [lia|]. pose proof limit_max as LM. unfold dval in Lm. cbn [fst snd] in Lm. lra. }
      split; [exact B2|]. split; [split; [exact B2|rewrite B1; exact A2]|].
      intros lead c rest val Hl Hc. unfold scan. destruct (scan_fmt s D k c rest RD K Hc) as [tok [r [D' [q' [T1 [T2 [T3 [T4 T5]]]]]]]].
      rewrite skip_lead; [|auto|].
      2:{ destruct (fmt_form D k RD K) as [A [B [tail [xx [NA [HA [HB [T [E _]]]]]]]]]. rewrite E. rewrite <- !app_assoc. apply first_digits; auto. }
      destruct ((minus s ++ fmt_dec D k) ++ c :: rest) as [|c0 r0] eqn:E0; [destruct (minus s ++ fmt_dec D k); discriminate|].
      rewrite T1, T2, T4. rewrite <- T5, A1. reflexivity.
  - destruct H as [Hx F]. exists x. split; [reflexivity|]. split; [exact Hx|]. split; [split; auto|].
    intros lead c rest val Hl Hc. unfold scan, show_elem. rewrite skip_lead by auto. reflexivity.
Qed.
