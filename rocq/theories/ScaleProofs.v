(** * Multiplying floats by a power of two: comparisons, quotients, rounding. *)
From Coq Require Import ZArith Bool Lia Floats.SpecFloat.
From Verif Require Import Float32 ConvProofs OrderSpec.
Local Open Scope Z_scope.

(** ** Comparisons and quotients *)
Lemma scale_compare : forall j a b, SFcompare (fscale j a) (fscale j b) = SFcompare a b.
Proof.
  intros j [sa|sa| |sa ma ea] [sb|sb| |sb mb eb]; try reflexivity. unfold fscale, SFcompare.
  assert (E : (ea + j ?= eb + j) = (ea ?= eb)) by (destruct (Z.compare_spec (ea + j) (eb + j)), (Z.compare_spec ea eb); lia || reflexivity). rewrite E. reflexivity.
Qed.

Lemma scale_flt : forall j a b, flt (fscale j a) (fscale j b) = flt a b.
Proof. intros. unfold flt, SFltb. now rewrite scale_compare. Qed.

Lemma scale_fle : forall j a b, fle (fscale j a) (fscale j b) = fle a b.
Proof. intros. unfold fle, SFleb. now rewrite scale_compare. Qed.

Lemma scale_fdiv : forall j a b, fdiv (fscale j a) (fscale j b) = fdiv a b.
Proof.
  intros j [sa|sa| |sa ma ea] [sb|sb| |sb mb eb]; try reflexivity. unfold fdiv, fscale, SFdiv, SFdiv_core_binary.
  replace (ea + j - (eb + j)) with (ea - eb) by lia.
  replace (Zdigits2 (Zpos ma) + (ea + j) - (Zdigits2 (Zpos mb) + (eb + j))) with (Zdigits2 (Zpos ma) + ea - (Zdigits2 (Zpos mb) + eb)) by lia.
  reflexivity.
Qed.

Lemma scale_0 : forall a, fscale 0 a = a.
Proof. intros [sa|sa| |sa ma ea]; try reflexivity. cbn. now rewrite Z.add_0_r. Qed.

Lemma scale_add : forall i j a, fscale i (fscale j a) = fscale (j + i) a.
Proof. intros i j [sa|sa| |sa ma ea]; try reflexivity. cbn. now rewrite Z.add_assoc. Qed.

(** ** Rounding, away from the subnormal numbers *)
Notation dg := (fun m => Zpos (digits2_pos m)).

Definition close (s : bool) (m : positive) (e : Z) : f32 := if e <=? 104 then S754_finite s m e else S754_infinity s.

Lemma aux_small : forall s m e, dg m = 24 -> -149 <= e -> binary_round_aux prec emax s (Zpos m) e loc_Exact = close s m e.
Proof.
  intros s m e Hd He. unfold binary_round_aux, shr_fexp, prec, emax. cbn [Zdigits2]. rewrite Hd.
  replace (fexp 24 128 (24 + e) - e) with 0 by (unfold fexp, emin; lia). cbn [shr shr_record_of_loc loc_of_shr_record shr_m round_nearest_even].
  cbn [Zdigits2]. rewrite Hd. replace (fexp 24 128 (24 + e) - e) with 0 by (unfold fexp, emin; lia). cbn [shr shr_m]. reflexivity.
Qed.

Lemma aux_large : forall m q, dg m = 24 + Zpos q -> exists mo c, dg mo = 24 /\ Zpos q <= c <= Zpos q + 1 /\
  forall s e, -125 <= dg m + e -> binary_round_aux prec emax s (Zpos m) e loc_Exact = close s mo (e + c).
Proof.
  intros p q Hd. cbv beta in *. pose proof (digits2_bounds p) as B. rewrite Hd in B.
  assert (P : 0 < 2 ^ Zpos q) by (apply Z.pow_pos_nonneg; lia).
  assert (E1 : 2 ^ (24 + Zpos q) = 2 ^ 24 * 2 ^ Zpos q) by (apply Z.pow_add_r; lia). assert (E2 : 2 ^ (24 + Zpos q - 1) = 2 ^ 23 * 2 ^ Zpos q) by (rewrite <- Z.pow_add_r by lia; f_equal; lia).
  rewrite E1, E2 in B. assert (Q : 2 ^ 23 <= Zpos p / 2 ^ Zpos q < 2 ^ 24). { split; [apply Z.div_le_lower_bound; lia|apply Z.div_lt_upper_bound; lia]. }
  pose proof (round_ne_bounds (Zpos p) q ltac:(lia)) as R.
  assert (F : forall s e, -125 <= 24 + Zpos q + e -> binary_round_aux prec emax s (Zpos p) e loc_Exact =
      let '(mrs, e') := shr_fexp 24 128 (round_ne (Zpos p) q) (e + Zpos q) loc_Exact in
      match shr_m mrs with Z0 => S754_zero s | Zpos m => if e' <=? 128 - 24 then S754_finite s m e' else S754_infinity s | Zneg _ => S754_nan end).
  { intros s e He. unfold binary_round_aux, prec, emax. unfold shr_fexp at 1. cbn [Zdigits2]. rewrite Hd. replace (fexp 24 128 (24 + Zpos q + e) - e) with (Zpos q) by (unfold fexp, emin; lia).
    cbn [shr shr_record_of_loc]. rewrite (round_shifted (Zpos p) q _ ltac:(lia) (shifted_iter (Zpos p) q ltac:(lia))). reflexivity. }
  set (rn := round_ne (Zpos p) q) in *. clearbody rn.
  destruct (Z.eq_dec rn (2 ^ 24)) as [E|E].
  - exists 8388608%positive, (Zpos q + 1). split; [reflexivity|]. split; [lia|]. intros s e He. rewrite (F s e ltac:(lia)), E. unfold shr_fexp. rewrite (digits2_unique (2 ^ 24) 25) by (cbn; lia).
    replace (fexp 24 128 (25 + (e + Zpos q)) - (e + Zpos q)) with 1 by (unfold fexp, emin; lia). vm_compute (shr_record_of_loc (2 ^ 24) loc_Exact). cbn [shr iter_pos shr_1 shr_m].
    unfold close. replace (e + Zpos q + 1) with (e + (Zpos q + 1)) by lia. reflexivity.
  - destruct rn as [|m|m]; [lia| |lia]. exists m, (Zpos q). assert (Dm : Zdigits2 (Zpos m) = 24) by (apply digits2_unique; cbn; lia). split; [exact Dm|]. split; [lia|].
    intros s e He. rewrite (F s e ltac:(lia)). unfold shr_fexp. rewrite Dm.
    replace (fexp 24 128 (24 + (e + Zpos q)) - (e + Zpos q)) with 0 by (unfold fexp, emin; lia). cbn [shr shr_record_of_loc shr_m]. reflexivity.
Qed.

Lemma shift_digits : forall q m, dg (shift_pos q m) = dg m + Zpos q.
Proof.
  intros q m. cbv beta. change (Zpos (digits2_pos (shift_pos q m))) with (Zdigits2 (Zpos (shift_pos q m))). apply digits2_unique; [lia|].
  rewrite shift_pos_correct, Z.pow_pos_fold. pose proof (digits2_bounds m) as B. set (d := Zpos (digits2_pos m)) in *.
  replace (d + Zpos q - 1) with (Zpos q + (d - 1)) by lia. rewrite (Z.add_comm d). rewrite !Z.pow_add_r by lia.
  pose proof (Z.pow_pos_nonneg 2 (Zpos q) ltac:(lia) ltac:(lia)). split; [apply Z.mul_le_mono_nonneg_l; lia|apply Z.mul_lt_mono_pos_l; lia].
Qed.

(** What rounding does to the digits does not depend on the exponent. *)
Lemma round_core : forall m, exists mo c, dg mo = 24 /\ dg m - 24 <= c <= dg m - 23 /\
  forall s e, -125 <= dg m + e -> binary_round prec emax s m e = close s mo (e + c) /\
    (24 <= dg m -> binary_round_aux prec emax s (Zpos m) e loc_Exact = close s mo (e + c)).
Proof.
  intros m. cbv beta. destruct (24 - Zpos (digits2_pos m)) as [|q|q] eqn:E.
  - exists m, 0. split; [lia|]. split; [lia|]. intros s e He.
    assert (A : binary_round_aux prec emax s (Zpos m) e loc_Exact = close s m (e + 0)) by (rewrite Z.add_0_r; apply aux_small; lia).
    split; [|auto]. unfold binary_round, shl_align. replace (fexp prec emax (Zpos (digits2_pos m) + e) - e) with 0 by (unfold fexp, emin, prec, emax; lia). exact A.
  - exists (shift_pos q m), (- Zpos q). split; [rewrite shift_digits; lia|]. split; [lia|]. intros s e He. split; [|lia].
    unfold binary_round, shl_align. replace (fexp prec emax (Zpos (digits2_pos m) + e) - e) with (Zneg q) by (unfold fexp, emin, prec, emax; lia).
    replace (fexp prec emax (Zpos (digits2_pos m) + e)) with (e + - Zpos q) by (unfold fexp, emin, prec, emax; lia). apply aux_small; [rewrite shift_digits; lia|lia].
  - destruct (aux_large m q ltac:(cbv beta; lia)) as [mo [c [H1 [H2 H3]]]]. exists mo, c. split; [exact H1|]. split; [lia|]. intros s e He.
    split; [|intros _; apply H3; exact He]. rewrite <- H3 by exact He. unfold binary_round, shl_align. replace (fexp prec emax (Zpos (digits2_pos m) + e) - e) with (Zpos q) by (unfold fexp, emin, prec, emax; lia). reflexivity.
Qed.

(** Twice the digits at one exponent less is the same number. *)
Lemma round_double : forall s m e, -126 <= dg m + e -> binary_round prec emax s (xO m) e = binary_round prec emax s m (e + 1).
Proof.
  intros s m e He. cbv beta in *. assert (Dx : Zpos (digits2_pos (xO m)) = Zpos (digits2_pos m) + 1) by (cbn [digits2_pos]; lia).
  destruct (24 - Zpos (digits2_pos m)) as [|q|q] eqn:E.
  - unfold binary_round, shl_align, prec, emax. rewrite Dx. replace (fexp 24 128 (Zpos (digits2_pos m) + 1 + e) - e) with 1 by (unfold fexp, emin; lia).
    replace (fexp 24 128 (Zpos (digits2_pos m) + (e + 1)) - (e + 1)) with 0 by (unfold fexp, emin; lia).
    unfold binary_round_aux. unfold shr_fexp at 1 3. cbn [Zdigits2]. rewrite Dx.
    replace (fexp 24 128 (Zpos (digits2_pos m) + 1 + e) - e) with 1 by (unfold fexp, emin; lia).
    replace (fexp 24 128 (Zpos (digits2_pos m) + (e + 1)) - (e + 1)) with 0 by (unfold fexp, emin; lia). reflexivity.
  - unfold binary_round, shl_align, prec, emax. rewrite Dx.
    replace (fexp 24 128 (Zpos (digits2_pos m) + (e + 1)) - (e + 1)) with (Zneg q) by (unfold fexp, emin; lia).
    destruct (Pos.eq_dec q 1) as [->|Nq].
    + replace (fexp 24 128 (Zpos (digits2_pos m) + 1 + e) - e) with 0 by (unfold fexp, emin; lia).
      replace (fexp 24 128 (Zpos (digits2_pos m) + (e + 1))) with e by (unfold fexp, emin; lia). reflexivity.
    + replace (fexp 24 128 (Zpos (digits2_pos m) + 1 + e) - e) with (Zneg (Pos.pred q)) by (unfold fexp, emin; lia).
      replace (fexp 24 128 (Zpos (digits2_pos m) + 1 + e)) with (fexp 24 128 (Zpos (digits2_pos m) + (e + 1))) by (f_equal; lia).
      replace (shift_pos (Pos.pred q) m~0) with (shift_pos q m); [reflexivity|].
      apply Pos2Z.inj. rewrite !shift_pos_correct, !Z.pow_pos_fold, Pos2Z.inj_xO. replace (Zpos q) with (Z.succ (Zpos (Pos.pred q))) by lia. rewrite Z.pow_succ_r by lia. lia.
  - unfold binary_round, shl_align, prec, emax. rewrite Dx. replace (fexp 24 128 (Zpos (digits2_pos m) + 1 + e) - e) with (Zpos (Pos.succ q)) by (unfold fexp, emin; lia).
    replace (fexp 24 128 (Zpos (digits2_pos m) + (e + 1)) - (e + 1)) with (Zpos q) by (unfold fexp, emin; lia).
    unfold binary_round_aux. unfold shr_fexp at 1 3. cbn [Zdigits2]. rewrite Dx.
    replace (fexp 24 128 (Zpos (digits2_pos m) + 1 + e) - e) with (Zpos (Pos.succ q)) by (unfold fexp, emin; lia).
    replace (fexp 24 128 (Zpos (digits2_pos m) + (e + 1)) - (e + 1)) with (Zpos q) by (unfold fexp, emin; lia).
    cbn [shr shr_record_of_loc]. rewrite iter_pos_succ, <- iter_pos_comm. cbn [shr_1 orb]. replace (e + 1 + Zpos q) with (e + Zpos (Pos.succ q)) by lia. reflexivity.
Qed.

Lemma round_shift : forall (j : nat) s m e, -126 <= dg m + e -> forall m', Zpos m' = Zpos m * 2 ^ Z.of_nat j ->
  binary_round prec emax s m' e = binary_round prec emax s m (e + Z.of_nat j).
Proof.
  induction j as [|j IH]; intros s m e He m' Em.
  - assert (m' = m) as -> by (cbn in Em; lia). now rewrite Z.add_0_r.
  - rewrite Nat2Z.inj_succ, Z.pow_succ_r in Em by lia.
    rewrite (IH s (xO m) e).
    + rewrite round_double by (cbv beta in *; lia). f_equal. lia.
    + cbv beta in *. cbn [digits2_pos]. lia.
    + rewrite Em, Pos2Z.inj_xO. lia.
Qed.
