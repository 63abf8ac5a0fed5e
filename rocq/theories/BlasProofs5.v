(** Squared distances of integer vectors by matrix products are exact while the squared
    norms and the distance are at most 2^24. *)
From Coq Require Import ZArith Reals Lra Lia List Arith Bool Permutation Floats.SpecFloat.
From Flocq Require Import Core.
From Verif Require Import Base Float32 DivFacts DistSpec DistModel FusedModel RealSpec FloatReal L2ErrorProofs RealDistProofs NormProofs PqModel BlasModel BlasSpec BlasProofs BlasProofs2 BlasProofs3.
Import ListNotations.
Local Open Scope R_scope.

Definition exact (x : R) : Prop := rnd x = x /\ Rabs x <= bpow radix2 127.

Lemma nodup_l : forall (l m : list nat), NoDup (l ++ m) -> NoDup l.
Proof. intros l m H. induction l as [|x l IH]; [constructor|]. cbn in H. apply NoDup_cons_iff in H. destruct H as [N H]. constructor; [|auto]. intros I. apply N, in_or_app. auto. Qed.
Lemma nodup_r : forall (l m : list nat), NoDup (l ++ m) -> NoDup m.
Proof. intros l m H. induction l as [|x l IH]; [exact H|]. cbn in H. apply NoDup_cons_iff in H. now apply IH. Qed.

(** A sum all of whose partial sums are floats. *)
Lemma fred_exact_sub : forall fac (e : nat -> R) t, NoDup (fred_items t) ->
  (forall i, In i (fred_items t) -> exists x y, fac i = Ok (x, y) /\ num x /\ num y /\ real x * real y = e i) ->
  (forall l, NoDup l -> incl l (fred_items t) -> exact (isum e l)) ->
  exists r, fred_eval fac t = Ok r /\ num r /\ real r = isum e (fred_items t).
Proof.
  intros fac e t. induction t as [|i|l IHl r IHr|i r IHr]; intros ND Hi Ex; cbn [fred_eval fred_items] in *.
  - eexists. repeat split.
  - destruct (Hi i (or_introl eq_refl)) as [x [y [Hx [[Fx Vx] [[Fy Vy] R]]]]]. rewrite Hx. cbn [bind fst snd]. eexists. split; [reflexivity|].
    destruct (Ex [i] ND (incl_refl _)) as [R1 R2]. assert (Q0 : isum e [i] = real x * real y) by (unfold isum, real_sum; cbn; rewrite R; ring). rewrite Q0 in *.
    assert (F : finite (fmul x y)) by (apply fmul_fin; auto; apply rnd_small, R2). destruct (fmul_rnd x y Vx Vy F) as [V Q]. split; [split; auto|]. now rewrite Q, R1.
  - destruct IHl as [x [Hx [[Fx Vx] Rx]]].
    { now apply nodup_l in ND. } { intros; apply Hi, in_or_app; auto. } { intros m Hm I. apply Ex; auto. intros z Hz. apply in_or_app. left. now apply I. }
    destruct IHr as [y [Hy [[Fy Vy] Ry]]].
    { now apply nodup_r in ND. } { intros; apply Hi, in_or_app; auto. } { intros m Hm I. apply Ex; auto. intros z Hz. apply in_or_app. right. now apply I. }
    rewrite Hx, Hy. cbn [bind]. eexists. split; [reflexivity|]. destruct (Ex _ ND (incl_refl _)) as [R1 R2]. rewrite isum_app in *. rewrite <- Rx, <- Ry in *.
    assert (F : finite (fadd x y)) by (apply fadd_fin; auto; apply rnd_small, R2). destruct (fadd_rnd x y Vx Vy Fx Fy F) as [V Q]. split; [split; auto|]. now rewrite Q, R1.
  - destruct (Hi i (or_introl eq_refl)) as [x [y [Hx [[Fx Vx] [[Fy Vy] R]]]]].
    destruct IHr as [w [Hw [[Fw Vw] Rw]]].
    { now apply NoDup_cons_iff in ND. } { intros; apply Hi; right; auto. } { intros m Hm I. apply Ex; auto. intros z Hz. right. now apply I. }
    rewrite Hx, Hw. cbn [bind fst snd]. eexists. split; [reflexivity|]. destruct (Ex _ ND (incl_refl _)) as [R1 R2].
    assert (Q0 : isum e (i :: fred_items r) = real x * real y + real w) by (rewrite R, Rw; reflexivity). rewrite Q0 in *.
    assert (F : finite (ffma x y w)) by (apply ffma_fin; auto; apply rnd_small, R2). destruct (ffma_rnd x y w Fx Fy Fw F) as [V Q]. split; [split; auto|]. now rewrite Q, R1.
Qed.

Lemma exact_int : forall z, (Z.abs z <= 2 ^ 24)%Z -> exact (IZR z).
Proof.
  intros z H. destruct (int_rnd z H) as [R _]. split; [exact R|]. rewrite <- abs_IZR. apply Rle_trans with (IZR (2 ^ 24)); [apply IZR_le, H|]. rewrite (IZR_Zpower radix2) by lia. apply bpow_le. lia.
Qed.
Lemma exact_even : forall z, (Z.abs z <= 2 ^ 24)%Z -> exact (IZR (-2 * z)).
Proof.
  intros z H. split.
  - apply round_generic; [auto with typeclass_instances|]. rewrite mult_IZR. apply format_scale. apply int_format, H.
  - rewrite <- abs_IZR. apply Rle_trans with (IZR (2 ^ 25)); [apply IZR_le; lia|]. rewrite (IZR_Zpower radix2) by lia. apply bpow_le. lia.
Qed.

Lemma zsum_incl : forall (f : nat -> Z) l m, NoDup l -> incl l m -> (forall i, 0 <= f i)%Z -> (isumZ f l <= isumZ f m)%Z.
Proof.
  intros f l. induction l as [|x l IH]; intros m ND I P.
  - unfold isumZ. cbn. clear I. induction m as [|a m IHm]; cbn; [lia|]. pose proof (P a). lia.
  - apply NoDup_cons_iff in ND. destruct ND as [Nx ND]. assert (Hx : In x m) by (apply I; left; auto). apply in_split in Hx. destruct Hx as [m1 [m2 ->]].
    assert (I' : incl l (m1 ++ m2)). { intros y Hy. assert (In y (m1 ++ x :: m2)) by (apply I; right; auto). apply in_or_app. apply in_app_or in H. destruct H as [|[->|]]; auto. contradiction. }
    specialize (IH _ ND I' P). rewrite zsum_app in *. rewrite !zsum_cons. lia.
Qed.
Lemma zsum_abs : forall (f : nat -> Z) l, (Z.abs (isumZ f l) <= isumZ (fun i => Z.abs (f i)) l)%Z.
Proof. intros f l. unfold isumZ. induction l; cbn; lia. Qed.
Lemma isum_Z : forall (z : nat -> Z) l, isum (fun i => IZR (z i)) l = IZR (isumZ z l).
Proof. intros z l. unfold isum, real_sum, isumZ. induction l as [|x l IH]; cbn; [reflexivity|]. now rewrite IH, plus_IZR. Qed.

(** A product with alpha = -2 into an empty entry. *)
Lemma dot_exact : forall w k fa fb (X Y : nat -> f32) (zx zy : nat -> Z), way_ok k false w ->
  (forall l, (l < k)%nat -> fa l = Ok (X l) /\ fb l = Ok (Y l) /\ num (X l) /\ num (Y l) /\ real (X l) = IZR (zx l) /\ real (Y l) = IZR (zy l) /\ (Z.abs (zx l) <= 2 ^ 24)%Z) ->
  (isumZ (fun l => Z.abs (zx l * zy l)) (seq 0 k) <= 2 ^ 24)%Z ->
  exists r, gemm_entry w k f32_m2 fa fb None = Ok r /\ num r /\ real r = IZR (-2 * isumZ (fun l => zx l * zy l)%Z (seq 0 k)).
Proof.
  intros w k fa fb X Y zx zy Hw Hl B. destruct scales_m2 as [Na [Ra Sc]].
  assert (Part : forall t l, Permutation (fred_items t) (seq 0 k) -> NoDup l -> incl l (fred_items t) -> (Z.abs (isumZ (fun l => zx l * zy l)%Z l) <= 2 ^ 24)%Z).
  { intros t l P ND I. eapply Z.le_trans; [apply zsum_abs|]. eapply Z.le_trans; [|exact B]. apply zsum_incl; auto; [|intros; apply Z.abs_nonneg]. intros i Hi. apply (Permutation_in _ P), I, Hi. }
  assert (NDt : forall t, Permutation (fred_items t) (seq 0 k) -> NoDup (fred_items t)) by (intros t P; apply (Permutation_NoDup (Permutation_sym P)), seq_NoDup).
  destruct w as [t|t fused]; cbn [gemm_entry way_ok] in *.
  - destruct (fred_exact_sub (fun l => do x <- fa l; do y <- fb l; Ok (fmul f32_m2 x, y)) (fun l => IZR (-2 * (zx l * zy l))) t (NDt t Hw)) as [r [Hr [Nr Rr]]].
    + intros i Hi. pose proof (Permutation_in _ Hw Hi) as Q. apply in_seq in Q. destruct (Hl i) as [H1 [H2 [H3 [H4 [H5 [H6 H7]]]]]]; [lia|]. rewrite H1, H2. cbn [bind].
      destruct (Sc (X i) H3) as [Nf Rf]. { rewrite H5, <- mult_IZR. apply exact_even, H7. }
      eexists _, _. split; [reflexivity|]. split; [exact Nf|]. split; [exact H4|]. rewrite Rf, H5, H6, !mult_IZR. ring.
    + intros l ND I. rewrite isum_Z, zsum_scale. apply exact_even. eapply Part; eauto.
    + exists r. split; [exact Hr|]. split; [exact Nr|]. rewrite Rr, isum_Z, zsum_scale, (isumZ_perm _ _ _ Hw). reflexivity.
  - destruct (fred_exact_sub (fun l => do x <- fa l; do y <- fb l; Ok (x, y)) (fun l => IZR (zx l * zy l)) t (NDt t Hw)) as [s [Hs [Ns Rs]]].
    + intros i Hi. pose proof (Permutation_in _ Hw Hi) as Q. apply in_seq in Q. destruct (Hl i) as [H1 [H2 [H3 [H4 [H5 [H6 H7]]]]]]; [lia|]. rewrite H1, H2. cbn [bind].
      eexists _, _. split; [reflexivity|]. split; [exact H3|]. split; [exact H4|]. now rewrite H5, H6, mult_IZR.
    + intros l ND I. rewrite isum_Z. apply exact_int. eapply Part; eauto.
    + rewrite isum_Z, (isumZ_perm _ _ _ Hw) in Rs. rewrite Hs. cbn [bind]. eexists. split; [reflexivity|]. destruct (Sc s Ns) as [Nf Rf].
      { rewrite Rs, <- mult_IZR. apply exact_even. rewrite <- (isumZ_perm _ _ _ Hw). apply (Part t); auto. apply incl_refl. }
      split; [exact Nf|]. rewrite Rf, Rs, mult_IZR. reflexivity.
Qed.

(** Adding one number to an entry. *)
Lemma plus_exact : forall w x y c fa fb, way_ok 1 true w -> num x -> num y -> num c -> fa O = Ok x -> fb O = Ok y -> exact (real x * real y) -> Rabs (real x) <= bpow radix2 127 -> exact (real c) -> exact (real x * real y + real c) ->
  exists r, gemm_entry w 1 f32_one fa fb (Some c) = Ok r /\ num r /\ real r = real x * real y + real c.
Proof.
  intros w x y c fa fb Hw Nx Ny Nc Fa Fb Ep Bx Ec Es. destruct scales_one as [N1 [R1 Sc]].
  destruct w as [t|t fused]; cbn [gemm_entry way_ok] in *.
  - set (e := fun l => match l with O => real x * real y | _ => real c end).
    assert (ND : NoDup (fred_items t)) by (apply (Permutation_NoDup (Permutation_sym Hw)), seq_NoDup).
    destruct (Sc x Nx) as [Nf Rf]; [rewrite Rmult_1_l; exact Bx|].
    destruct (fred_exact_sub (fun l => if (l =? 1)%nat then Ok (f32_one, c) else do x <- fa l; do y <- fb l; Ok (fmul f32_one x, y)) e t ND) as [r [Hr [Nr Rr]]].
    + intros i Hi. pose proof (Permutation_in _ Hw Hi) as Q. apply in_seq in Q. destruct i as [|[|i]]; [| |lia].
      * cbn [Nat.eqb]. rewrite Fa, Fb. cbn [bind]. eexists _, _. split; [reflexivity|]. split; [exact Nf|]. split; [exact Ny|]. rewrite Rf. cbn [e]. ring.
      * cbn [Nat.eqb]. eexists _, _. split; [reflexivity|]. split; [exact N1|]. split; [exact Nc|]. rewrite R1. cbn [e]. ring.
    + intros l NDl I. assert (I2 : incl l [0; 1]%nat) by (intros z Hz; apply (Permutation_in _ Hw), I, Hz). clear I.
      assert (L2 : (length l <= 2)%nat) by (apply (NoDup_incl_length NDl I2)).
      destruct l as [|a [|b [|? ?]]]; cbn [length] in L2; [| | |lia]; unfold isum, real_sum; cbn [map fold_right].
      * change 0 with (IZR 0). apply exact_int. lia.
      * rewrite Rplus_0_r. destruct (I2 a (or_introl eq_refl)) as [<-|[<-|[]]]; cbn [e]; auto.
      * rewrite Rplus_0_r. apply NoDup_cons_iff in NDl. destruct NDl as [Na _].
        destruct (I2 a (or_introl eq_refl)) as [<-|[<-|[]]], (I2 b (or_intror (or_introl eq_refl))) as [<-|[<-|[]]]; cbn [e]; auto; try (exfalso; apply Na; left; reflexivity).
        rewrite Rplus_comm. exact Es.
    + exists r. split; [exact Hr|]. split; [exact Nr|]. rewrite Rr, (isum_perm _ _ _ Hw). unfold isum, real_sum. cbn. ring.
  - assert (ND : NoDup (fred_items t)) by (apply (Permutation_NoDup (Permutation_sym Hw)), seq_NoDup).
    destruct (fred_exact_sub (fun l => do x <- fa l; do y <- fb l; Ok (x, y)) (fun _ => real x * real y) t ND) as [s [Hs [Ns Rs]]].
    + intros i Hi. pose proof (Permutation_in _ Hw Hi) as Q. apply in_seq in Q. assert (i = O) by lia. subst i. rewrite Fa, Fb. cbn [bind]. eexists _, _. split; [reflexivity|]. auto.
    + intros l NDl I. assert (I2 : incl l [0]%nat) by (intros z Hz; apply (Permutation_in _ Hw), I, Hz).
      assert (L2 : (length l <= 1)%nat) by (apply (NoDup_incl_length NDl I2)). destruct l as [|a [|? ?]]; cbn [length] in L2; [| |lia]; unfold isum, real_sum; cbn [map fold_right].
      * change 0 with (IZR 0). apply exact_int. lia.
      * rewrite Rplus_0_r. exact Ep.
    + rewrite Hs. cbn [bind]. rewrite (isum_perm _ _ _ Hw) in Rs. unfold isum, real_sum in Rs. cbn [seq map fold_right] in Rs. rewrite Rplus_0_r in Rs.
      eexists. split; [reflexivity|]. destruct (Sc s Ns) as [[Ff Vf] Rf]; [rewrite Rmult_1_l, Rs; apply Ep|]. rewrite Rmult_1_l in Rf. destruct Nc as [Fc Vc]. destruct Ns as [Fs Vs]. destruct N1 as [F1 V1].
      destruct fused.
      * assert (Q0 : real f32_one * real s + real c = real x * real y + real c) by (rewrite R1, Rs; ring).
        assert (F : finite (ffma f32_one s c)) by (apply ffma_fin; auto; rewrite Q0; apply rnd_small, Es). destruct (ffma_rnd f32_one s c F1 Fs Fc F) as [V Q]. rewrite Q0 in Q. split; [split; auto|]. rewrite Q. apply Es.
      * assert (Q0 : real (fmul f32_one s) + real c = real x * real y + real c) by (rewrite Rf, Rs; ring).
        assert (F : finite (fadd (fmul f32_one s) c)) by (apply fadd_fin; auto; rewrite Q0; apply rnd_small, Es). destruct (fadd_rnd (fmul f32_one s) c Vf Vc Ff Fc F) as [V Q]. rewrite Q0 in Q. split; [split; auto|]. rewrite Q. apply Es.
Qed.

(** ** The three products *)
Definition zat (z : list Z) (l : nat) : Z := nth l z 0%Z.
Definition zsq (z : list Z) : Z := isumZ (fun l => zat z l * zat z l)%Z (seq 0 (length z)).
Definition zip (a b : list Z) : Z := isumZ (fun l => zat a l * zat b l)%Z (seq 0 (length a)).

Lemma zsq_int : forall z, zsq z = int_sq z.
Proof.
  intros z. unfold zsq, int_sq, isumZ. f_equal. unfold zat. induction z as [|x z IH]; [reflexivity|]. cbn [length seq map nth]. f_equal. rewrite <- seq_shift, map_map. exact IH.
Qed.
Lemma zat_real : forall (p : list f32) z l, holds_ints p z -> (l < length p)%nat -> real (at_ p l) = IZR (zat z l).
Proof.
  intros p z l H Hl. destruct (nth_error p l) as [x|] eqn:Q; [|apply nth_error_None in Q; lia]. destruct (holds_nth p z l x H) as [_ R]; [unfold rd; now rewrite Q|]. unfold at_. rewrite (nth_error_nth _ _ _ Q). exact R.
Qed.
Lemma sq_expand : forall a b, length a = length b -> sq_dist a b = (zsq a + zsq b - 2 * zip a b)%Z.
Proof.
  intros a b L. unfold sq_dist, zsum. rewrite (combine_seqZ (fun x y => (x - y) * (x - y))%Z a b L). unfold zsq, zip. rewrite <- L.
  change (fold_right Z.add 0%Z (map (fun i => (zat a i - zat b i) * (zat a i - zat b i))%Z (seq 0 (length a))) = (isumZ (fun l => (zat a l * zat a l)%Z) (seq 0 (length a)) + isumZ (fun l => (zat b l * zat b l)%Z) (seq 0 (length a)) - 2 * isumZ (fun l => (zat a l * zat b l)%Z) (seq 0 (length a)))%Z).
  unfold isumZ. induction (seq 0 (length a)) as [|i l IH]; cbn [map fold_right]; [reflexivity|]. rewrite IH. ring.
Qed.
Lemma sq_dist_pos : forall a b, (0 <= sq_dist a b)%Z.
Proof. intros a b. unfold sq_dist, zsum. induction (combine a b) as [|[x y] l IH]; cbn; [lia|]. assert (0 <= (x - y) * (x - y))%Z by (apply Z.square_nonneg). lia. Qed.
Lemma zsq_pos : forall a, (0 <= zsq a)%Z.
Proof. intros a. unfold zsq, isumZ. induction (seq 0 (length a)) as [|i l IH]; cbn; [lia|]. assert (0 <= zat a i * zat a i)%Z by (apply Z.square_nonneg). lia. Qed.
Lemma zip_abs : forall a b, length a = length b -> (2 * isumZ (fun l => Z.abs (zat a l * zat b l)) (seq 0 (length a)) <= zsq a + zsq b)%Z.
Proof.
  intros a b L. unfold zsq. rewrite <- L, <- zsum_scale. unfold isumZ. induction (seq 0 (length a)) as [|i l IH]; cbn [map fold_right]; [lia|].
  assert (2 * Z.abs (zat a i * zat b i) <= zat a i * zat a i + zat b i * zat b i)%Z.
  { pose proof (Z.square_nonneg (zat a i - zat b i)). pose proof (Z.square_nonneg (zat a i + zat b i)). lia. }
  lia.
Qed.
Lemma zat_le : forall a l, (zsq a <= 2 ^ 24)%Z -> (l < length a)%nat -> (Z.abs (zat a l) <= 2 ^ 24)%Z.
Proof.
  intros a l H Hl. assert (Q : (zat a l * zat a l <= zsq a)%Z) by (apply (isumZ_ge (fun l => zat a l * zat a l)%Z); [intros; apply Z.square_nonneg|apply in_seq; lia]). nia.
Qed.

Lemma norm_exact : forall t (p : list f32) z fac, Permutation (fred_items t) (seq 0 (length p)) -> good p -> holds_ints p z -> (zsq z <= 2 ^ 24)%Z ->
  (forall l, (l < length p)%nat -> fac l = Ok (at_ p l, at_ p l)) -> exists r, fred_eval fac t = Ok r /\ num r /\ real r = IZR (zsq z).
Proof.
  intros t p z fac P G H B F. pose proof (holds_length p z H) as L.
  destruct (tree_exact fac (fun l => zat z l * zat z l)%Z t (length p) P) as [r [Hr [Nr R]]].
  - intros i Hi. rewrite (F i Hi). eexists _, _. split; [reflexivity|]. split; [apply num_at; auto|]. split; [apply num_at; auto|]. rewrite (zat_real p z i H Hi), mult_IZR. reflexivity.
  - rewrite L. erewrite zsum_ext; [exact B|]. intros i _. apply Z.abs_eq, Z.square_nonneg.
  - exists r. split; [exact Hr|]. split; [exact Nr|]. rewrite R, L. reflexivity.
Qed.

Lemma gt_int : forall w0 w1 w2 (p q : list f32) zp zq pn qn f0 g0 f1 g1 f2 g2, way_ok (length p) false w0 -> way_ok 1 true w1 -> way_ok 1 true w2 -> length p = length q -> good p -> good q -> holds_ints p zp -> holds_ints q zq ->
  (zsq zp <= 2 ^ 24)%Z -> (zsq zq <= 2 ^ 24)%Z -> (sq_dist zp zq <= 2 ^ 24)%Z -> num pn -> num qn -> real pn = IZR (zsq zp) -> real qn = IZR (zsq zq) ->
  (forall l, (l < length p)%nat -> f0 l = Ok (at_ p l)) -> (forall l, (l < length p)%nat -> g0 l = Ok (at_ q l)) -> f1 O = Ok pn -> g1 O = Ok f32_one -> f2 O = Ok f32_one -> g2 O = Ok qn ->
  exists r0 r1 r2, gemm_entry w0 (length p) f32_m2 f0 g0 None = Ok r0 /\ gemm_entry w1 1 f32_one f1 g1 (Some r0) = Ok r1 /\ gemm_entry w2 1 f32_one f2 g2 (Some r1) = Ok r2 /\ num r2 /\ real r2 = IZR (sq_dist zp zq).
Proof.
  intros w0 w1 w2 p q zp zq pn qn f0 g0 f1 g1 f2 g2 W0 W1 W2 L Gp Gq Hp Hq Bp Bq Bd Np Nq Rp Rq F0 G0 F1 G1 F2 G2.
  pose proof (holds_length p zp Hp) as Lp. pose proof (holds_length q zq Hq) as Lq. assert (Lz : length zp = length zq) by congruence.
  destruct scales_one as [N1 [R1 _]]. pose proof (zsq_pos zp) as Pp. pose proof (zsq_pos zq) as Pq. pose proof (sq_dist_pos zp zq) as Pd. pose proof (sq_expand zp zq Lz) as X. pose proof (zip_abs zp zq Lz) as A.
  assert (Az : (Z.abs (zip zp zq) <= isumZ (fun l => Z.abs (zat zp l * zat zq l)) (seq 0 (length zp)))%Z) by apply zsum_abs.
  destruct (dot_exact w0 (length p) f0 g0 (at_ p) (at_ q) (zat zp) (zat zq) W0) as [r0 [H0 [Nr0 D0]]].
  { intros l Hl. split; [apply F0, Hl|]. split; [apply G0, Hl|]. split; [apply num_at; auto|]. split; [apply num_at; auto; lia|]. split; [apply zat_real; auto|]. split; [apply zat_real; auto; lia|]. apply zat_le; [exact Bp|lia]. }
  { rewrite Lp. lia. }
  rewrite Lp in D0. fold (zip zp zq) in D0. exists r0.
  destruct (plus_exact w1 pn f32_one r0 f1 g1 W1 Np N1 Nr0 F1 G1) as [r1 [H1 [Nr1 D1]]].
  { rewrite R1, Rmult_1_r, Rp. apply exact_int. lia. } { rewrite Rp. apply exact_int. lia. } { rewrite D0. apply exact_even. lia. } { rewrite R1, Rmult_1_r, Rp, D0, <- plus_IZR. apply exact_int. lia. }
  rewrite R1, Rmult_1_r, Rp, D0, <- plus_IZR in D1. exists r1.
  destruct (plus_exact w2 f32_one qn r1 f2 g2 W2 N1 Nq Nr1 F2 G2) as [r2 [H2 [Nr2 D2]]].
  { rewrite R1, Rmult_1_l, Rq. apply exact_int. lia. } { rewrite R1. apply (exact_int 1). lia. } { rewrite D1. apply exact_int. lia. } { rewrite R1, Rmult_1_l, Rq, D1, <- plus_IZR. apply exact_int. lia. }
  rewrite R1, Rmult_1_l, Rq, D1, <- plus_IZR in D2. exists r2. split; [exact H0|]. split; [exact H1|]. split; [exact H2|]. split; [exact Nr2|]. rewrite D2, X. f_equal. lia.
Qed.
