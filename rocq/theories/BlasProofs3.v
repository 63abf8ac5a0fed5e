(** The distance of one point and one query, as computed by three matrix products. *)
From Coq Require Import ZArith Reals Lra Lia List Arith Bool Permutation Floats.SpecFloat.
From Flocq Require Import Core.
From Verif Require Import Base Float32 DivFacts DistSpec DistModel FusedModel RealSpec FloatReal L2ErrorProofs RealDistProofs NormProofs PqModel BlasModel BlasSpec BlasProofs BlasProofs2.
Import ListNotations.
Local Open Scope R_scope.

Definition at_ (p : list f32) (l : nat) : f32 := nth l p f32_zero.
Definition sq (p : list f32) : R := isum (fun l => real (at_ p l) * real (at_ p l)) (seq 0 (length p)).
Definition ip (p q : list f32) : R := isum (fun l => real (at_ p l) * real (at_ q l)) (seq 0 (length p)).
Definition aip (p q : list f32) : R := isum (fun l => Rabs (real (at_ p l) * real (at_ q l))) (seq 0 (length p)).

Lemma isum_mono : forall f g l, (forall i, In i l -> f i <= g i) -> isum f l <= isum g l.
Proof. intros f g l H. unfold isum, real_sum. induction l as [|x l IH]; cbn; [lra|]. pose proof (H x (or_introl eq_refl)). assert (forall i, In i l -> f i <= g i) by (intros; apply H; right; auto). specialize (IH H1). lra. Qed.
Lemma isum_plus : forall f g l, isum (fun i => f i + g i) l = isum f l + isum g l.
Proof. intros f g l. unfold isum, real_sum. induction l as [|x l IH]; cbn; [ring|rewrite IH; ring]. Qed.

Lemma sq_pos : forall p, 0 <= sq p.
Proof. intros p. apply isum_nonneg. intros i _. nra. Qed.
Lemma aip_pos : forall p q, 0 <= aip p q.
Proof. intros p q. apply isum_nonneg. intros; apply Rabs_pos. Qed.
Lemma ip_le : forall p q, Rabs (ip p q) <= aip p q.
Proof. intros p q. apply isum_abs. intros; lra. Qed.
Lemma aip_le : forall p q, length p = length q -> 2 * aip p q <= sq p + sq q.
Proof.
  intros p q L. unfold aip, sq. rewrite <- L, <- isum_plus, <- isum_scale. apply isum_mono. intros i _. rewrite Rabs_mult.
  pose proof (Rabs_pos (real (at_ p i))). pose proof (Rabs_pos (real (at_ q i))).
  rewrite <- (Rabs_pos_eq (real (at_ p i) * real (at_ p i))) by nra. rewrite <- (Rabs_pos_eq (real (at_ q i) * real (at_ q i))) by nra. rewrite !Rabs_mult.
  pose proof (Rle_0_sqr (Rabs (real (at_ p i)) - Rabs (real (at_ q i)))) as Q. unfold Rsqr in Q. lra.
Qed.
Lemma l2_expand : forall p q : list f32, length p = length q -> exact_l2 p q = sq p + sq q - 2 * ip p q.
Proof.
  intros p q L. rewrite (ei_sum p q L). unfold sq, ip. rewrite <- L. rewrite <- isum_plus. replace (- (2 * isum (fun l => real (at_ p l) * real (at_ q l)) (seq 0 (length p)))) with (-2 * isum (fun l => real (at_ p l) * real (at_ q l)) (seq 0 (length p))) by ring.
  unfold Rminus. replace (- (2 * isum (fun l => real (at_ p l) * real (at_ q l)) (seq 0 (length p)))) with (-2 * isum (fun l => real (at_ p l) * real (at_ q l)) (seq 0 (length p))) by ring.
  rewrite <- isum_scale, <- isum_plus. apply isum_ext. intros i _. unfold ei, at_. ring.
Qed.
Lemma coord_le : forall p l, (l < length p)%nat -> real (at_ p l) * real (at_ p l) <= sq p.
Proof. intros p l H. apply (isum_ge (fun l => real (at_ p l) * real (at_ p l))); [intros; nra|apply in_seq; lia]. Qed.

(** ** Room *)
Definition lim (k : nat) : Prop := (Z.of_nat k <= 2 ^ 20)%Z.
Lemma E_two : forall k, (Z.of_nat k <= 2 ^ 21)%Z -> E k - 1 <= / 4 /\ E k <= 2.
Proof.
  intros k H. pose proof (INR_ulp k 21 ltac:(lia) H) as I. change (21 - 24)%Z with (-3)%Z in I. assert (B : bpow radix2 (-3) = / 8) by (cbn; lra). rewrite B in I. pose proof (E_lin k ltac:(lra)). pose proof ulp_pos. lra.
Qed.
Lemma few_tiny : forall k, (Z.of_nat k <= 2 ^ 30)%Z -> INR k * tiny <= / 4.
Proof.
  intros k H. rewrite INR_IZR_INZ. apply Rle_trans with (IZR (2 ^ 30) * tiny).
  - apply Rmult_le_compat_r; [pose proof tiny_pos; lra|]. apply IZR_le, H.
  - rewrite (IZR_Zpower radix2) by lia. replace tiny with (bpow radix2 (-150)) by (unfold tiny; rewrite bpow_powerRZ; reflexivity). rewrite <- bpow_plus. apply Rle_trans with (bpow radix2 (-2)); [apply bpow_le; lia|cbn; lra].
Qed.
Lemma room : forall k M, lim k -> 0 <= M <= bpow radix2 110 -> E (k + 3) * M + INR (2 * k + 3) * tiny * E (k + 3) <= bpow radix2 127.
Proof.
  intros k M L H. unfold lim in L. destruct (E_two (k + 3) ltac:(lia)) as [_ E2]. pose proof (E_ge (k + 3)). pose proof (few_tiny (2 * k + 3) ltac:(lia)) as T. pose proof tiny_pos. pose proof (pos_INR (2 * k + 3)).
  apply Rle_trans with (2 * bpow radix2 110 + / 4 * 2).
  - apply Rplus_le_compat; apply Rmult_le_compat; try lra. apply Rmult_le_pos; lra.
  - assert (1 <= bpow radix2 110) by (change 1 with (bpow radix2 0); apply bpow_le; lia).
    apply Rle_trans with (4 * bpow radix2 110); [lra|]. change 4 with (bpow radix2 2). rewrite <- bpow_plus. apply bpow_le. lia.
Qed.
Lemma err_small : forall k M, lim k -> 0 <= M -> (E (k + 2) - 1) * M + INR (2 * k + 3) * tiny * E (k + 2) <= M + 1.
Proof.
  intros k M L H. unfold lim in L. destruct (E_two (k + 2) ltac:(lia)) as [E1 E2]. pose proof (E_ge (k + 2)). pose proof (few_tiny (2 * k + 3) ltac:(lia)) as T. pose proof tiny_pos. pose proof (pos_INR (2 * k + 3)).
  apply Rplus_le_compat; [rewrite <- (Rmult_1_l M) at 2; apply Rmult_le_compat_r; lra|].
  apply Rle_trans with (/ 4 * 2); [apply Rmult_le_compat; try lra; apply Rmult_le_pos; lra|lra].
Qed.

(** ** The norms *)
Lemma sdot_ok : forall t p fac, Permutation (fred_items t) (seq 0 (length p)) -> good p -> lim (length p) -> sq p <= bpow radix2 100 ->
  (forall l, (l < length p)%nat -> fac l = Ok (at_ p l, at_ p l)) ->
  exists r, fred_eval fac t = Ok r /\ num r /\ Rabs (real r - sq p) <= (E (length p) - 1) * sq p + INR (length p) * tiny * E (length p).
Proof.
  intros t p fac P G L B F. pose proof (sq_pos p) as Pp.
  assert (A : isum (fun i => Rabs ((fun l => real (at_ p l) * real (at_ p l)) i)) (seq 0 (length p)) = sq p).
  { apply isum_ext. intros i _. cbn. rewrite Rabs_pos_eq by nra. reflexivity. }
  destruct (tree_ok fac (fun l => real (at_ p l) * real (at_ p l)) t (length p) P) as [r [Hr [Nr D]]].
  - intros i Hi. rewrite (F i Hi). assert (N : num (at_ p i)) by (apply (G (at_ p i)), nth_In, Hi). eexists _, _. split; [reflexivity|]. auto.
  - rewrite A. unfold lim in L. pose proof (room (length p) (sq p) L) as Rm. eapply Rle_trans; [|apply Rm; split; [exact Pp|eapply Rle_trans; [exact B|apply bpow_le; lia]]].
    pose proof tiny_pos. pose proof (pos_INR (length p)). pose proof (E_ge (length p)).
    apply Rplus_le_compat; [apply Rmult_le_compat_r; [auto|apply E_mono; lia]|]. apply Rmult_le_compat; try lra; [apply Rmult_le_pos; lra| |apply E_mono; lia].
    apply Rmult_le_compat_r; [lra|apply le_INR; lia].
  - rewrite A in D. exists r. auto.
Qed.

(** ** Two and more terms *)
Lemma num_at : forall p l, good p -> (l < length p)%nat -> num (at_ p l).
Proof. intros p l G H. apply (G (at_ p l)), nth_In, H. Qed.
Lemma abs_100 : forall x, x * x <= bpow radix2 100 -> Rabs x <= bpow radix2 125.
Proof.
  intros x H. assert (1 <= bpow radix2 100) by (change 1 with (bpow radix2 0); apply bpow_le; lia).
  apply Rle_trans with (bpow radix2 100); [|apply bpow_le; lia]. destruct (Rle_dec (Rabs x) 1); [lra|].
  apply Rle_trans with (Rabs x * Rabs x); [nra|]. rewrite <- Rabs_mult, Rabs_pos_eq by nra. exact H.
Qed.

(** One number plus another. *)
Lemma plus_ok : forall w (x c y : f32) fa fb, way_ok 1 true w -> num x -> num y -> num c -> fa O = Ok x -> fb O = Ok y -> Rabs (real x * real y) <= bpow radix2 108 -> Rabs (real x) <= bpow radix2 125 -> Rabs (real c) <= bpow radix2 108 ->
  exists r, gemm_entry w 1 f32_one fa fb (Some c) = Ok r /\ num r /\ Rabs (real r - (real x * real y + real c)) <= (E 3 - 1) * (Rabs (real x * real y) + Rabs (real c)) + 5 * tiny * E 3.
Proof.
  intros w x c y fa fb W Nx Ny Nc Fa Fb Bx Bx' Bc.
  destruct (entry_ok w 1 f32_one 1 fa fb (fun _ => x) (fun _ => y) (Some c)) as [r [Hr [Nr D]]].
  - exact scales_one.
  - rewrite Rabs_R1. lra.
  - exact W.
  - intros l Hl. assert (l = O) by lia. subst l. auto.
  - intros v [= <-]. exact Nc.
  - cbn [val]. apply (room 1); [unfold lim; cbn; lia|]. unfold isum, real_sum. cbn [seq map fold_right]. rewrite Rabs_R1. split; [pose proof (Rabs_pos (real x * real y)); pose proof (Rabs_pos (real c)); lra|].
    apply Rle_trans with (2 * bpow radix2 108); [lra|]. change 2 with (bpow radix2 1). rewrite <- bpow_plus. apply bpow_le. lia.
  - exists r. split; [exact Hr|]. split; [exact Nr|]. cbn [val] in D. unfold isum, real_sum in D. cbn [seq map fold_right] in D. rewrite Rabs_R1, Rplus_0_r, Rmult_1_l, Rplus_0_r, Rmult_1_l in D.
    cbn [Nat.add Nat.mul] in D. replace (INR 5) with 5 in D by (cbn; ring). exact D.
Qed.
