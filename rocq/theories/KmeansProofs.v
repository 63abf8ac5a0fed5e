(** Means minimise sums of squares; the sum over a partition. *)
From Coq Require Import NArith ZArith Reals Lra Lia List Arith Bool Permutation Floats.SpecFloat.
From Verif Require Import Base Float32 DivFacts DistSpec ListLemmas RealSpec RealDistProofs L2ErrorProofs BlasModel BlasSpec BlasProofs BlasProofs3 LloydModel LloydSpec MeanSpec MeanProofs2 MeanProofs3 MeanProofs5 KmeansSpec.
Import ListNotations.
Local Open Scope R_scope.

(** ** Sums *)
Lemma isum_swap : forall (f : nat -> nat -> R) l m, isum (fun p => isum (f p) m) l = isum (fun j => isum (fun p => f p j) l) m.
Proof.
  intros f l m. induction l as [|p l IH].
  - unfold isum at 1. cbn. symmetry. induction m as [|j m IH]; [reflexivity|]. rewrite isum_cons, IH. unfold isum. cbn. ring.
  - rewrite isum_cons, IH, <- isum_plus. apply isum_ext. intros j _. now rewrite isum_cons.
Qed.
Lemma isum_const : forall c l, isum (fun _ : nat => c) l = INR (length l) * c.
Proof. intros c l. induction l as [|p l IH]; [unfold isum; cbn; ring|]. rewrite isum_cons, IH. cbn [length]. rewrite S_INR. ring. Qed.
Lemma isum_zero : forall l, isum (fun _ : nat => 0) l = 0.
Proof. intros l. rewrite isum_const. ring. Qed.
Lemma isum_one : forall nc a c0 x, isum (fun c => if (a =? c)%nat then x else 0) (seq c0 nc) = if ((c0 <=? a) && (a <? c0 + nc))%nat then x else 0.
Proof.
  induction nc as [|nc IH]; intros a c0 x; cbn [seq].
  - change (isum _ []) with 0. destruct (Nat.leb_spec c0 a); destruct (Nat.ltb_spec a (c0 + 0)); cbn [andb]; (lra || (exfalso; lia)).
  - rewrite isum_cons, IH. destruct (Nat.eqb_spec a c0); destruct (Nat.leb_spec (S c0) a); destruct (Nat.ltb_spec a (S c0 + nc)); destruct (Nat.leb_spec c0 a); destruct (Nat.ltb_spec a (c0 + S nc)); cbn [andb]; (lra || (exfalso; lia)).
Qed.
Lemma isum_filter : forall f (b : nat -> bool) l, isum f (filter b l) = isum (fun p => if b p then f p else 0) l.
Proof. intros f b l. induction l as [|p l IH]; [reflexivity|]. cbn [filter]. destruct (b p) eqn:E; rewrite isum_cons; [rewrite isum_cons|]; rewrite E, IH; lra. Qed.
Lemma isum_partition : forall (f : nat -> R) (assign : nat -> nat) nc l, (forall p, In p l -> (assign p < nc)%nat) -> isum f l = isum (fun c => isum f (filter (fun p => (assign p =? c)%nat) l)) (seq 0 nc).
Proof.
  intros f assign nc l H. transitivity (isum (fun c => isum (fun p => if (assign p =? c)%nat then f p else 0) l) (seq 0 nc)).
  - rewrite isum_swap. apply isum_ext. intros p Hp. rewrite (isum_one nc (assign p) 0 (f p)). specialize (H p Hp). destruct (Nat.ltb_spec (assign p) (0 + nc)); [reflexivity | lia].
  - apply isum_ext. intros c _. now rewrite isum_filter.
Qed.

(** ** Squares about the mean *)
Lemma variance : forall (f : nat -> R) l c, l <> [] -> isum (fun p => (f p - c) ^ 2) l = isum (fun p => (f p - mean (map f l)) ^ 2) l + INR (length l) * (c - mean (map f l)) ^ 2.
Proof.
  intros f l c Hl. assert (L : INR (length l) <> 0) by (destruct l; [congruence|]; cbn [length]; rewrite S_INR; pose proof (pos_INR (length l)); lra).
  set (m := mean (map f l)). assert (M : isum f l = m * INR (length l)) by (unfold m, mean, isum; rewrite map_length; field; exact L).
  assert (X : forall d, isum (fun p => (f p - d) ^ 2) l = isum (fun p => f p ^ 2) l + (- (2) * d) * isum f l + INR (length l) * d ^ 2).
  { intros d. rewrite <- isum_scale, <- isum_const, <- !isum_plus. apply isum_ext. intros p _. ring. }
  rewrite !X, M. ring.
Qed.
Lemma square_mean : forall (f : nat -> R) l, l <> [] -> INR (length l) * mean_abs (map f l) ^ 2 <= isum (fun p => f p ^ 2) l.
Proof.
  intros f l Hl. pose proof (variance (fun p => Rabs (f p)) l 0 Hl) as V.
  assert (E : mean (map (fun p => Rabs (f p)) l) = mean_abs (map f l)) by (unfold mean_abs; now rewrite map_map). rewrite E in V.
  assert (P : 0 <= isum (fun p => (Rabs (f p) - mean_abs (map f l)) ^ 2) l) by (apply isum_nonneg; intros; apply pow2_ge_0).
  assert (Q : isum (fun p => (Rabs (f p) - 0) ^ 2) l = isum (fun p => f p ^ 2) l). { apply isum_ext. intros p _. rewrite Rminus_0_r. apply pow2_abs. }
  rewrite Q in V. replace ((0 - mean_abs (map f l)) ^ 2) with (mean_abs (map f l) ^ 2) in V by ring. lra.
Qed.

(** ** The computed mean of up to 2^28 numbers *)
Lemma mean_square_error : forall xs, (1 <= length xs)%nat -> (Z.of_nat (length xs) <= 2 ^ 28)%Z -> (forall x, In x xs -> finite x /\ f32_valid x = true /\ Rabs (real x) <= powerRZ 2 126) ->
  finite (mean_of xs) /\ Rabs (real (mean_of xs) - mean (map real xs)) <= powerRZ 2 (-22) * mean_abs (map real xs) + powerRZ 2 (-149).
Proof.
  intros xs L1 L2 H. destruct (mean_of_ok xs L1 L2 H) as [F B]. split; [exact F|]. eapply Rle_trans; [exact B|]. pose proof (mean_abs_ge (map real xs)) as G. pose proof (mean_abs_pos (map real xs)) as P.
  assert (P2 : INR (length xs) <= powerRZ 2 28) by (rewrite INR_IZR_INZ; change (powerRZ 2 28) with (2 ^ 28); rewrite (pow_IZR 2 28); apply IZR_le; exact L2).
  set (k := INR (length xs)) in *. set (ma := mean_abs (map real xs)) in *.
  assert (A : powerRZ 2 (-24) * Rabs (mean (map real xs)) <= powerRZ 2 (-24) * ma) by (apply Rmult_le_compat_l; [apply powerRZ_le; lra | exact G]).
  assert (E51 : powerRZ 2 28 * powerRZ 2 (-51) = powerRZ 2 (-23)) by (rewrite <- powerRZ_add by lra; reflexivity).
  assert (E22 : powerRZ 2 (-22) = 4 * powerRZ 2 (-24)) by (replace (-22)%Z with (2 + -24)%Z by reflexivity; rewrite powerRZ_add by lra; change (powerRZ 2 2) with (2 ^ 2); ring).
  assert (E23 : powerRZ 2 (-23) = 2 * powerRZ 2 (-24)) by (replace (-23)%Z with (1 + -24)%Z by reflexivity; rewrite powerRZ_add by lra; rewrite powerRZ_1; reflexivity).
  assert (E1 : powerRZ 2 (-51) <= powerRZ 2 (-24)). { replace (-24)%Z with (27 + -51)%Z by reflexivity. rewrite powerRZ_add by lra. assert (0 < powerRZ 2 (-51)) by (apply powerRZ_lt; lra). assert (1 <= powerRZ 2 27) by (change (powerRZ 2 27) with (2 ^ 27); apply pow_R1_Rle; lra). nra. }
  assert (0 < powerRZ 2 (-51)) by (apply powerRZ_lt; lra).
  assert (B1 : (k + 1) * powerRZ 2 (-51) <= 3 * powerRZ 2 (-24)). { assert (k * powerRZ 2 (-51) <= powerRZ 2 28 * powerRZ 2 (-51)) by (apply Rmult_le_compat_r; lra). lra. }
  assert (B2 : (k + 1) * powerRZ 2 (-51) * ma <= 3 * powerRZ 2 (-24) * ma) by (apply Rmult_le_compat_r; assumption). rewrite E22. lra.
Qed.
(** One coordinate of a cluster: against every other centre. *)
Lemma coordinate_optimal : forall (x : nat -> f32) docs d, docs <> [] -> (Z.of_nat (length docs) <= 2 ^ 28)%Z -> (forall p, In p docs -> finite (x p) /\ f32_valid (x p) = true /\ Rabs (real (x p)) <= powerRZ 2 126) ->
  finite (mean_of (map x docs)) /\
  isum (fun p => (real (x p) - real (mean_of (map x docs))) ^ 2) docs <= isum (fun p => (real (x p) - d) ^ 2) docs + powerRZ 2 (-43) * isum (fun p => real (x p) ^ 2) docs + INR (length docs) * powerRZ 2 (-297).
Proof.
  intros x docs d Hd HL H. destruct (mean_square_error (map x docs)) as [F B]; [rewrite map_length; destruct docs; [congruence|cbn; lia] | now rewrite map_length | intros y Hy; apply in_map_iff in Hy as [p [<- Hp]]; auto |].
  split; [exact F|]. rewrite map_map in B. set (c := real (mean_of (map x docs))) in *. set (f := fun p => real (x p)) in *. change (map (fun p => real (x p)) docs) with (map f docs) in B.
  change (isum (fun p => (f p - c) ^ 2) docs <= isum (fun p => (f p - d) ^ 2) docs + powerRZ 2 (-43) * isum (fun p => f p ^ 2) docs + INR (length docs) * powerRZ 2 (-297)).
  rewrite (variance f docs c Hd), (variance f docs d Hd). set (m := mean (map f docs)) in *. set (ma := mean_abs (map f docs)) in *. set (V := isum (fun p => (f p - m) ^ 2) docs).
  pose proof (square_mean f docs Hd) as S. fold ma in S. pose proof (pos_INR (length docs)) as Pk. set (k := INR (length docs)) in *. pose proof (mean_abs_pos (map f docs)) as Pm. fold ma in Pm.
  assert (Sq : (c - m) ^ 2 <= powerRZ 2 (-43) * ma ^ 2 + powerRZ 2 (-297)).
  { rewrite <- pow2_abs. set (t := powerRZ 2 (-149)) in *. set (e := powerRZ 2 (-22)) in *. assert (Pt : 0 < t) by (apply powerRZ_lt; lra). assert (Pe : 0 < e) by (apply powerRZ_lt; lra).
    assert (E1 : powerRZ 2 (-43) = 2 * e ^ 2). { unfold e. replace (-43)%Z with (1 + (-22 + -22))%Z by reflexivity. rewrite !powerRZ_add by lra. rewrite powerRZ_1. ring. }
    assert (E2 : powerRZ 2 (-297) = 2 * t ^ 2). { unfold t. replace (-297)%Z with (1 + (-149 + -149))%Z by reflexivity. rewrite !powerRZ_add by lra. rewrite powerRZ_1. ring. }
    rewrite E1, E2. assert (Q : Rabs (c - m) ^ 2 <= (e * ma + t) ^ 2) by (apply pow_incr; split; [apply Rabs_pos | exact B]). eapply Rle_trans; [exact Q|]. pose proof (pow2_ge_0 (e * ma - t)). nra. }
  assert (A1 : k * (c - m) ^ 2 <= k * (powerRZ 2 (-43) * ma ^ 2 + powerRZ 2 (-297))) by (apply Rmult_le_compat_l; assumption).
  assert (A2 : powerRZ 2 (-43) * (k * ma ^ 2) <= powerRZ 2 (-43) * isum (fun p => f p ^ 2) docs) by (apply Rmult_le_compat_l; [apply powerRZ_le; lra | exact S]).
  assert (A3 : 0 <= k * (d - m) ^ 2) by (apply Rmult_le_pos; [exact Pk | apply pow2_ge_0]). lra.
Qed.
