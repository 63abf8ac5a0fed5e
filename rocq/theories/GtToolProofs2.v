(** The ground truth tool: entries. *)
From Coq Require Import NArith ZArith Reals Lra Lia List Arith Bool Sorting.Sorted Permutation Floats.SpecFloat.
From Flocq Require Import Core.
From Verif Require Import Base Float32 DivFacts FloatBits DistSpec DistModel FusedModel RealSpec FloatReal L2ErrorProofs RealDistProofs NormModel NormProofs PqModel ClosestModel TopKSpec GtModel GtSpec HeapSpec GtProofs GtProofs2 GtProofs3 MeanProofs3
  BinSpec TruthModel TruthSpec PqFileProofs2 BlasModel BlasSpec BlasProofs BlasProofs2 BlasProofs3 BlasProofs4 BlasProofs5 BlasProofs6 BlasProofs7 GtToolModel GtToolSpec GtToolProofs.
Import ListNotations.
Local Open Scope R_scope.

Lemma scales_m1 : scales f32_m1 (-1).
Proof.
  destruct (of_Z_int (-1) ltac:(lia)) as [F [V R]]. change (f32_of_Z (-1)) with f32_m1 in *. split; [split; auto|]. split; [exact R|].
  intros x [Fx Vx] B. assert (Ff : finite (fmul f32_m1 x)) by (apply fmul_fin; auto; rewrite R; apply rnd_small, B).
  destruct (fmul_rnd f32_m1 x V Vx Ff) as [Vf Q]. split; [split; auto|]. rewrite Q, R. apply round_generic; auto with typeclass_instances. replace (-1 * real x) with (- real x) by ring. apply generic_format_opp, real_format, Vx.
Qed.

(** ** One inner product *)
Lemma mip_num : forall w p q fa fb, way_ok (length p) false w -> length p = length q -> good p -> good q -> lim (length p) -> sq p <= bpow radix2 100 -> sq q <= bpow radix2 100 ->
  (forall l, (l < length p)%nat -> fa l = Ok (at_ p l)) -> (forall l, (l < length p)%nat -> fb l = Ok (at_ q l)) ->
  exists r, gemm_entry w (length p) f32_m1 fa fb None = Ok r /\ num r /\ Rabs (real r - - ip p q) <= (INR (length p) + 4) * powerRZ 2 (-24) * (sq p + sq q) + (INR (length p) + 4) * powerRZ 2 (-148).
Proof.
  intros w p q fa fb W L Gp Gq Lm Bp Bq Fa Fb.
  assert (A1 : Rabs (-1) = 1) by (rewrite Rabs_left by lra; ring). pose proof (aip_pos p q) as Ap. pose proof (aip_le p q L) as A2.
  destruct (entry_ok w (length p) f32_m1 (-1) fa fb (at_ p) (at_ q) None) as [r [Hr [Nr D]]].
  - exact scales_m1.
  - rewrite A1. lra.
  - exact W.
  - intros l Hl. split; [apply Fa, Hl|]. split; [apply Fb, Hl|]. split; [apply num_at; auto|]. split; [apply num_at; auto; lia|]. apply abs_100. eapply Rle_trans; [apply coord_le, Hl|exact Bp].
  - discriminate.
  - cbn [val]. rewrite A1, Rabs_R0. fold (aip p q). apply room; [exact Lm|]. split; [lra|]. apply bp_le with (100 + 1)%Z; [lia|]. apply Rle_trans with (sq p + sq q); [lra|]. apply bp_two; auto.
  - cbn [val] in D. rewrite A1, Rabs_R0 in D. fold (aip p q) in D. change (isum _ (seq 0 (length p))) with (ip p q) in D. exists r. split; [exact Hr|]. split; [exact Nr|].
    replace (real r - - ip p q) with (real r - (-1 * ip p q + 0)) by ring. eapply Rle_trans; [exact D|].
    set (d := length p) in *. unfold lim in Lm. pose proof (pos_INR d) as Pd. pose proof tiny_pos as PT. pose proof ulp_pos as U.
    assert (T47 : powerRZ 2 (-148) = 4 * tiny) by (unfold tiny; replace (-148)%Z with (2 + -150)%Z by reflexivity; rewrite powerRZ_add by lra; f_equal; change (powerRZ 2 2) with (2 ^ 2); ring).
    assert (El : E (d + 2) - 1 <= 2 * (INR d + 2) * ulp).
    { replace (INR d + 2) with (INR (d + 2)) by (rewrite plus_INR; cbn; ring). apply E_lin. eapply Rle_trans; [apply (INR_ulp (d + 2) 21); lia|]. change (21 - 24)%Z with (-3)%Z. cbn. lra. }
    destruct (E_two (d + 2) ltac:(lia)) as [_ E2]. pose proof (E_ge (d + 2)) as E1. apply Rplus_le_compat.
    + change (powerRZ 2 (-24)) with ulp. apply Rle_trans with (2 * (INR d + 2) * ulp * ((sq p + sq q) / 2)); [apply Rmult_le_compat; lra|].
      replace (2 * (INR d + 2) * ulp * ((sq p + sq q) / 2)) with ((INR d + 2) * ulp * (sq p + sq q)) by field. apply Rmult_le_compat_r; [lra|]. apply Rmult_le_compat_r; lra.
    + rewrite T47. replace (INR (2 * d + 3)) with (2 * INR d + 3) by (rewrite plus_INR, mult_INR; cbn; ring). apply Rle_trans with ((2 * INR d + 3) * tiny * 2); [apply Rmult_le_compat_l; [apply Rmult_le_pos; lra|lra]|].
      replace ((2 * INR d + 3) * tiny * 2) with ((4 * INR d + 6) * tiny) by ring. replace ((INR d + 4) * (4 * tiny)) with ((4 * INR d + 16) * tiny) by ring. apply Rmult_le_compat_r; lra.
Qed.

Lemma mip_exact : forall w k fa fb (X Y : nat -> f32) (zx zy : nat -> Z), way_ok k false w ->
  (forall l, (l < k)%nat -> fa l = Ok (X l) /\ fb l = Ok (Y l) /\ num (X l) /\ num (Y l) /\ real (X l) = IZR (zx l) /\ real (Y l) = IZR (zy l) /\ (Z.abs (zx l) <= 2 ^ 24)%Z) ->
  (isumZ (fun l => Z.abs (zx l * zy l)) (seq 0 k) <= 2 ^ 24)%Z ->
  exists r, gemm_entry w k f32_m1 fa fb None = Ok r /\ num r /\ real r = IZR (- isumZ (fun l => zx l * zy l)%Z (seq 0 k)).
Proof.
  intros w k fa fb X Y zx zy Hw Hl B. destruct scales_m1 as [Na [Ra Sc]].
  assert (Part : forall t l, Permutation (fred_items t) (seq 0 k) -> NoDup l -> incl l (fred_items t) -> (Z.abs (isumZ (fun l => zx l * zy l)%Z l) <= 2 ^ 24)%Z).
  { intros t l P ND I. eapply Z.le_trans; [apply zsum_abs|]. eapply Z.le_trans; [|exact B]. apply zsum_incl; auto; [|intros; apply Z.abs_nonneg]. intros i Hi. apply (Permutation_in _ P), I, Hi. }
  assert (NDt : forall t, Permutation (fred_items t) (seq 0 k) -> NoDup (fred_items t)) by (intros t P; apply (Permutation_NoDup (Permutation_sym P)), seq_NoDup).
  assert (Opp : forall z, (Z.abs z <= 2 ^ 24)%Z -> exact (IZR (-1 * z))) by (intros z Hz; apply exact_int; lia).
  replace (- isumZ (fun l => zx l * zy l)%Z (seq 0 k))%Z with (-1 * isumZ (fun l => zx l * zy l)%Z (seq 0 k))%Z by ring.
  destruct w as [t|t fused]; cbn [gemm_entry way_ok] in *.
  - destruct (fred_exact_sub (fun l => do x <- fa l; do y <- fb l; Ok (fmul f32_m1 x, y)) (fun l => IZR (-1 * (zx l * zy l))) t (NDt t Hw)) as [r [Hr [Nr Rr]]].
    + intros i Hi. pose proof (Permutation_in _ Hw Hi) as Q. apply in_seq in Q. destruct (Hl i) as [H1 [H2 [H3 [H4 [H5 [H6 H7]]]]]]; [lia|]. rewrite H1, H2. cbn [bind].
      destruct (Sc (X i) H3) as [Nf Rf]. { rewrite H5, <- mult_IZR. apply Opp, H7. }
      eexists _, _. split; [reflexivity|]. split; [exact Nf|]. split; [exact H4|]. rewrite Rf, H5, H6, !mult_IZR. ring.
    + intros l ND I. rewrite isum_Z, zsum_scale. apply Opp. eapply Part; eauto.
    + exists r. split; [exact Hr|]. split; [exact Nr|]. rewrite Rr, isum_Z, zsum_scale, (isumZ_perm _ _ _ Hw). reflexivity.
  - destruct (fred_exact_sub (fun l => do x <- fa l; do y <- fb l; Ok (x, y)) (fun l => IZR (zx l * zy l)) t (NDt t Hw)) as [s [Hs [Ns Rs]]].
    + intros i Hi. pose proof (Permutation_in _ Hw Hi) as Q. apply in_seq in Q. destruct (Hl i) as [H1 [H2 [H3 [H4 [H5 [H6 H7]]]]]]; [lia|]. rewrite H1, H2. cbn [bind].
      eexists _, _. split; [reflexivity|]. split; [exact H3|]. split; [exact H4|]. now rewrite H5, H6, mult_IZR.
    + intros l ND I. rewrite isum_Z. apply exact_int. eapply Part; eauto.
    + rewrite isum_Z, (isumZ_perm _ _ _ Hw) in Rs. rewrite Hs. cbn [bind]. eexists. split; [reflexivity|]. destruct (Sc s Ns) as [Nf Rf].
      { rewrite Rs, <- mult_IZR. apply Opp. rewrite <- (isumZ_perm _ _ _ Hw). apply (Part t); auto. apply incl_refl. }
      split; [exact Nf|]. rewrite Rf, Rs, mult_IZR. reflexivity.
Qed.

(** ** An entry of a part *)
Definition at_part (W : gt_ways) (p : nat) : gt_ways := mkWays (fun _ => w_points W p) (fun _ => w_queries W p) (fun _ => w_dist W p).
Lemma at_part_ok : forall dim W p, ways_ok dim W -> ways_ok dim (at_part W p).
Proof. intros dim W p [A [B C]]. unfold ways_ok, at_part. cbn. split; [intros; apply A|]. split; [intros; apply B|intros; apply C]. Qed.

Lemma part_l2 : forall W p bs dim np points nq queries q j, (j < np)%nat -> part_entry W false p bs dim np points nq queries q j = gt_entry (at_part W p) bs np dim np nq points queries q j.
Proof.
  intros W p bs dim np points nq queries q j H. unfold part_entry, gt_entry. cbn zeta. rewrite (Nat.div_small j np) by exact H. cbn [Nat.mul skipn at_part w_points w_queries w_dist]. rewrite !Nat.sub_0_r, Nat.min_id. reflexivity.
Qed.

Lemma part_mip : forall W p bs dim rows qrows (N : list f32 -> f32 -> Prop) (R : list f32 -> list f32 -> f32 -> Prop), (1 <= bs)%nat -> ways_ok dim W -> (forall r, In r rows -> length r = dim) -> (forall r, In r qrows -> length r = dim) ->
  (forall t r fac, In r rows \/ In r qrows -> Permutation (fred_items t) (seq 0 dim) -> (forall l, (l < dim)%nat -> fac l = Ok (at_ r l, at_ r l)) -> exists v, fred_eval fac t = Ok v /\ N r v) ->
  (forall w p q fa fb, In p rows -> In q qrows -> way_ok dim false w -> (forall l, (l < dim)%nat -> fa l = Ok (at_ p l)) -> (forall l, (l < dim)%nat -> fb l = Ok (at_ q l)) -> exists r, gemm_entry w dim f32_m1 fa fb None = Ok r /\ R p q r) ->
  forall q j rq rp, nth_error qrows q = Some rq -> nth_error rows j = Some rp ->
  exists v, part_entry W true p bs dim (length rows) (concat rows) (length qrows) (concat qrows) q j = Ok v /\ R rp rq v.
Proof.
  intros W p bs dim rows qrows N R Hbs [Wp [Wq Wd]] Hr Hq HN HR q j rq rp Eq Ep. unfold part_entry.
  assert (Lp : (j < length rows)%nat) by (apply nth_error_Some; congruence). assert (Lq : (q < length qrows)%nat) by (apply nth_error_Some; congruence).
  set (m := length rows) in *. set (b := (q / bs)%nat). set (qb := (b * bs)%nat). set (qe := if (length qrows <? (b + 1) * bs)%nat then length qrows else ((b + 1) * bs)%nat).
  assert (Hqb : (qb <= q /\ q < qb + bs)%nat) by (unfold qb, b; pose proof (Nat.div_mod q bs ltac:(lia)); pose proof (Nat.mod_upper_bound q bs ltac:(lia)); lia).
  assert (Hqe : (q < qe /\ qe <= length qrows)%nat) by (unfold qe; destruct (Nat.ltb_spec (length qrows) ((b + 1) * bs)); unfold qb in Hqb; lia).
  rewrite (skipn_concat _ dim qb qrows Hq).
  assert (Hq' : forall r, In r (skipn qb qrows) -> In r qrows) by (intros r Hi; rewrite <- (firstn_skipn qb qrows); apply in_or_app; auto).
  destruct (l2sq_ok (w_points W p) rows m dim N) as [pn [Hpn [Lpn Npn]]]; [auto|unfold m; lia| |].
  { intros i r fac Hi Er Hf. apply HN; auto. left. eapply nth_error_In; eauto. }
  destruct (l2sq_ok (w_queries W p) qrows (length qrows) dim N) as [qn [Hqn [Lqn Nqn]]]; [auto|lia| |].
  { intros i r fac Hi Er Hf. apply HN; auto. right. eapply nth_error_In; eauto. }
  rewrite Hpn. cbn [bind]. rewrite Hqn. cbn [bind]. unfold inner_prod_to_points.
  destruct (sgemm_col (w_dist W p b 0) true false m (qe - qb) dim f32_m1 (concat rows) dim (concat (skipn qb qrows)) dim false []
    (fun i k v => forall p q, nth_error rows i = Some p -> nth_error (skipn qb qrows) k = Some q -> R p q v)) as [C [HC [LC PC]]].
  { intros i k Hi Hk. destruct (nth_error rows i) as [p0|] eqn:E1; [|apply nth_error_None in E1; unfold m in Hi; lia].
    destruct (nth_error (skipn qb qrows) k) as [q0|] eqn:E2; [|apply nth_error_None in E2; rewrite skipn_length in E2; lia].
    destruct (HR (w_dist W p b 0 (i + k * m)) p0 q0 (fun l => rd (concat rows) (place ColMajor true i l dim)) (fun l => rd (concat (skipn qb qrows)) (place ColMajor false l k dim))) as [v [Hv Rv]].
    - eapply nth_error_In; eauto.
    - apply Hq'. eapply nth_error_In; eauto.
    - apply Wd.
    - intros l Hl. cbn [place]. apply rd_concat; auto.
    - intros l Hl. cbn [place]. rewrite Nat.add_comm. apply rd_concat; auto.
    - exists None, v. split; [reflexivity|]. split; [exact Hv|]. intros p1 q1 Q1 Q2. injection Q1 as <-. injection Q2 as <-. exact Rv. }
  rewrite HC. cbn [bind]. destruct (PC j (q - qb)%nat) as [v [Hv Rv]]; [exact Lp|lia|]. exists v. split; [unfold rd; now rewrite Hv|]. apply Rv; [exact Ep|]. rewrite nth_skipn_. replace (qb + (q - qb))%nat with q by lia. exact Eq.
Qed.
