(** Entries of matrix products of integers are exact. *)
From Coq Require Import ZArith Reals Lra Lia List Arith Bool Permutation Floats.SpecFloat.
From Flocq Require Import Core.
From Verif Require Import Base Float32 DivFacts DistSpec DistModel FusedModel RealSpec FloatReal L2ErrorProofs RealDistProofs PqModel BlasModel BlasSpec BlasProofs.
Import ListNotations.
Local Open Scope R_scope.

Definition zpos (z : nat -> Z) (l : list nat) : Z := isumZ (fun i => Z.max (z i) 0) l.
Definition zneg (z : nat -> Z) (l : list nat) : Z := isumZ (fun i => Z.max (- z i) 0) l.

Lemma zsum_app : forall (h : nat -> Z) l m, isumZ h (l ++ m) = (isumZ h l + isumZ h m)%Z.
Proof. intros h l m; unfold isumZ; induction l as [|x l IH]; cbn; [lia|rewrite IH; lia]. Qed.
Lemma zsum_cons : forall (h : nat -> Z) i l, isumZ h (i :: l) = (h i + isumZ h l)%Z.
Proof. reflexivity. Qed.
Lemma zpos_ge : forall z l, (0 <= zpos z l)%Z.
Proof. intros z l. unfold zpos, isumZ. induction l; cbn; lia. Qed.
Lemma zneg_ge : forall z l, (0 <= zneg z l)%Z.
Proof. intros z l. unfold zneg, isumZ. induction l; cbn; lia. Qed.
Lemma zsum_split : forall z l, isumZ z l = (zpos z l - zneg z l)%Z.
Proof. intros z l. unfold zpos, zneg, isumZ. induction l; cbn; lia. Qed.

(** Every partial sum lies between minus the sum of the negative items and the sum of the
    positive ones. *)
Lemma fred_exact2 : forall fac (z : nat -> Z) t,
  (forall i, In i (fred_items t) -> exists x y, fac i = Ok (x, y) /\ num x /\ num y /\ real x * real y = IZR (z i)) ->
  (zpos z (fred_items t) <= 2 ^ 24)%Z -> (zneg z (fred_items t) <= 2 ^ 24)%Z ->
  exists r, fred_eval fac t = Ok r /\ num r /\ real r = IZR (isumZ z (fred_items t)).
Proof.
  intros fac z t. induction t as [|i|l IHl r IHr|i r IHr]; intros Hi Bp Bn; cbn [fred_eval fred_items] in *.
  - eexists. repeat split.
  - destruct (Hi i (or_introl eq_refl)) as [x [y [Hx [[Fx Vx] [[Fy Vy] R]]]]]. rewrite Hx. cbn [bind fst snd]. eexists. split; [reflexivity|].
    unfold zpos, zneg in *. rewrite zsum_cons in *. change (isumZ (fun i => Z.max (z i) 0) []) with 0%Z in Bp. change (isumZ (fun i => Z.max (- z i) 0) []) with 0%Z in Bn. change (isumZ z []) with 0%Z.
    destruct (int_rnd (z i)) as [R1 R2]; [lia|]. assert (F : finite (fmul x y)) by (apply fmul_fin; auto; rewrite R; exact R2). destruct (fmul_rnd x y Vx Vy F) as [V Q].
    split; [split; auto|]. rewrite Q, R, R1. f_equal. lia.
  - pose proof (zpos_ge z (fred_items l)). pose proof (zpos_ge z (fred_items r)). pose proof (zneg_ge z (fred_items l)). pose proof (zneg_ge z (fred_items r)).
    pose proof (zsum_split z (fred_items l)) as Sl. pose proof (zsum_split z (fred_items r)) as Sr.
    assert (Tp : zpos z (fred_items l ++ fred_items r) = (zpos z (fred_items l) + zpos z (fred_items r))%Z) by apply zsum_app.
    assert (Tn : zneg z (fred_items l ++ fred_items r) = (zneg z (fred_items l) + zneg z (fred_items r))%Z) by apply zsum_app.
    destruct IHl as [x [Hx [[Fx Vx] Rx]]]; [intros; apply Hi, in_or_app; auto|lia|lia|]. destruct IHr as [y [Hy [[Fy Vy] Ry]]]; [intros; apply Hi, in_or_app; auto|lia|lia|].
    rewrite Hx, Hy. cbn [bind]. eexists. split; [reflexivity|]. rewrite zsum_app.
    destruct (int_rnd (isumZ z (fred_items l) + isumZ z (fred_items r))) as [R1 R2]; [lia|]. rewrite plus_IZR in R1, R2. rewrite <- Rx, <- Ry in *.
    assert (F : finite (fadd x y)) by (apply fadd_fin; auto). destruct (fadd_rnd x y Vx Vy Fx Fy F) as [V Q]. split; [split; auto|]. rewrite Q, R1, plus_IZR, <- Rx, <- Ry. reflexivity.
  - pose proof (zpos_ge z (fred_items r)). pose proof (zneg_ge z (fred_items r)). pose proof (zsum_split z (fred_items r)) as Sr.
    assert (Tp : zpos z (i :: fred_items r) = (Z.max (z i) 0 + zpos z (fred_items r))%Z) by reflexivity.
    assert (Tn : zneg z (i :: fred_items r) = (Z.max (- z i) 0 + zneg z (fred_items r))%Z) by reflexivity.
    destruct (Hi i (or_introl eq_refl)) as [x [y [Hx [[Fx Vx] [[Fy Vy] R]]]]].
    destruct IHr as [w [Hw [[Fw Vw] Rw]]]; [intros; apply Hi; right; auto|lia|lia|]. rewrite Hx, Hw. cbn [bind fst snd]. eexists. split; [reflexivity|]. rewrite zsum_cons.
    destruct (int_rnd (z i + isumZ z (fred_items r))) as [R1 R2]; [lia|]. rewrite plus_IZR in R1, R2. rewrite <- R, <- Rw in R1, R2.
    assert (F : finite (ffma x y w)) by (apply ffma_fin; auto). destruct (ffma_rnd x y w Fx Fy Fw F) as [V Q]. split; [split; auto|]. rewrite Q, R1, plus_IZR, R, Rw. reflexivity.
Qed.

Lemma zsum_ext : forall f g l, (forall i, In i l -> f i = g i) -> isumZ f l = isumZ g l.
Proof. intros f g l H. unfold isumZ. f_equal. apply map_ext_in, H. Qed.
Lemma zsum_last : forall f k, isumZ f (seq 0 (k + 1)) = (isumZ f (seq 0 k) + f k)%Z.
Proof. intros f k. rewrite seq_app, zsum_app. cbn [seq Nat.add]. rewrite zsum_cons. change (isumZ f []) with 0%Z. lia. Qed.
Lemma zsum_scale : forall a f l, isumZ (fun i => a * f i)%Z l = (a * isumZ f l)%Z.
Proof. intros a f l. unfold isumZ. induction l as [|x l IH]; cbn; [lia|rewrite IH; lia]. Qed.
Lemma zsum_mono : forall f g l, (forall i, In i l -> f i <= g i)%Z -> (isumZ f l <= isumZ g l)%Z.
Proof. intros f g l H. unfold isumZ. induction l as [|x l IH]; cbn; [lia|]. pose proof (H x (or_introl eq_refl)). assert (forall i, In i l -> f i <= g i)%Z by (intros; apply H; right; auto). specialize (IH H1). lia. Qed.

Definition zval (c : option f32) (zc : Z) : Prop := match c with Some v => num v /\ real v = IZR zc | None => zc = 0%Z end.

(** ** One entry.  [sp] and [sn] bound the positive and the negative summands. *)
Lemma entry_exact : forall w k alpha a fa fb (X Y : nat -> f32) (zx zy : nat -> Z) c zc sp sn, scales alpha (IZR a) -> (a = 1 \/ a = -2)%Z -> way_ok k (has c) w ->
  (forall l, (l < k)%nat -> fa l = Ok (X l) /\ fb l = Ok (Y l) /\ num (X l) /\ num (Y l) /\ real (X l) = IZR (zx l) /\ real (Y l) = IZR (zy l) /\ (Z.abs (zx l) <= 2 ^ 24)%Z) -> zval c zc ->
  (zpos (fun l => a * (zx l * zy l)) (seq 0 k) <= sp)%Z -> (zneg (fun l => a * (zx l * zy l)) (seq 0 k) <= sn)%Z -> (sp <= 2 ^ 24)%Z -> (sn <= 2 ^ 24)%Z -> (sp + Z.max zc 0 <= 2 ^ 24)%Z -> (sn + Z.max (- zc) 0 <= 2 ^ 24)%Z ->
  exists r, gemm_entry w k alpha fa fb c = Ok r /\ num r /\ real r = IZR (a * isumZ (fun l => zx l * zy l)%Z (seq 0 k) + zc).
Proof.
  intros w k alpha a fa fb X Y zx zy c zc sp sn [Na [Ra Sc]] Ha Hw Hl Hc Hp Hn Bp Bn Cp Cn.
  destruct w as [t|t fused]; cbn [gemm_entry way_ok] in *.
  - set (z := fun l => if (l =? k)%nat then zc else (a * (zx l * zy l))%Z).
    set (n := if has c then (k + 1)%nat else k) in *.
    assert (Zk : forall l, In l (seq 0 k) -> z l = (a * (zx l * zy l))%Z) by (intros l Hl'; apply in_seq in Hl'; unfold z; destruct (Nat.eqb_spec l k); [lia|reflexivity]).
    assert (Z1 : isumZ z (seq 0 k) = (a * isumZ (fun l => zx l * zy l) (seq 0 k))%Z) by (rewrite <- zsum_scale; apply zsum_ext, Zk).
    assert (Z2 : zpos z (seq 0 k) = zpos (fun l => a * (zx l * zy l))%Z (seq 0 k)) by (apply zsum_ext; intros i Hi; now rewrite Zk).
    assert (Z3 : zneg z (seq 0 k) = zneg (fun l => a * (zx l * zy l))%Z (seq 0 k)) by (apply zsum_ext; intros i Hi; now rewrite Zk).
    assert (Zs : isumZ z (seq 0 n) = (a * isumZ (fun l => zx l * zy l) (seq 0 k) + zc)%Z /\ (zpos z (seq 0 n) <= 2 ^ 24)%Z /\ (zneg z (seq 0 n) <= 2 ^ 24)%Z).
    { unfold n. destruct c as [v|]; cbn [has zval] in *.
      - rewrite zsum_last, Z1. unfold zpos, zneg in *. rewrite !zsum_last, Z2, Z3. unfold z. rewrite Nat.eqb_refl. repeat split; lia.
      - subst zc. rewrite Z1, Z2, Z3. repeat split; lia. }
    destruct Zs as [Zs [Zp Zn]].
    destruct (fred_exact2 (fun l => match c with
                          | Some v => if (l =? k)%nat then Ok (f32_one, v) else do x <- fa l; do y <- fb l; Ok (fmul alpha x, y)
                          | None => do x <- fa l; do y <- fb l; Ok (fmul alpha x, y)
                          end) z t) as [r [Hr [Nr Rr]]].
    + intros i Hi. pose proof (Permutation_in _ Hw Hi) as Q. apply in_seq in Q.
      assert (Body : (i < k)%nat -> exists x y, (do x <- fa i; do y <- fb i; Ok (fmul alpha x, y)) = Ok (x, y) /\ num x /\ num y /\ real x * real y = IZR (z i)).
      { intros Hi'. destruct (Hl i Hi') as [H1 [H2 [H3 [H4 [H5 [H6 H7]]]]]]. rewrite H1, H2. cbn [bind].
        destruct (Sc (X i) H3) as [Nf Rf].
        { rewrite H5, <- mult_IZR, <- abs_IZR. apply Rle_trans with (IZR (2 ^ 25)); [apply IZR_le; destruct Ha; subst a; lia|]. rewrite (IZR_Zpower radix2) by lia. apply bpow_le. lia. }
        eexists _, _. split; [reflexivity|]. split; [exact Nf|]. split; [exact H4|]. rewrite Rf, H5, H6, Zk by (apply in_seq; lia). rewrite !mult_IZR. ring. }
      unfold n in Q. destruct c as [v|]; cbn [has zval] in *; [|apply Body; lia]. destruct (Nat.eqb_spec i k) as [->|Ne]; [|apply Body; lia].
      eexists _, _. split; [reflexivity|]. destruct scales_one as [N1 [R1 _]]. split; [exact N1|]. split; [apply Hc|]. unfold z. rewrite Nat.eqb_refl, R1, (proj2 Hc). ring.
    + unfold zpos in *. rewrite (isumZ_perm _ _ _ Hw). exact Zp.
    + unfold zneg in *. rewrite (isumZ_perm _ _ _ Hw). exact Zn.
    + exists r. split; [exact Hr|]. split; [exact Nr|]. rewrite Rr, (isumZ_perm _ _ _ Hw), Zs. reflexivity.
  - set (T := isumZ (fun l => zx l * zy l)%Z (seq 0 k)).
    assert (Tb : (zpos (fun l => zx l * zy l)%Z (seq 0 k) <= Z.max sp sn)%Z /\ (zneg (fun l => zx l * zy l)%Z (seq 0 k) <= Z.max sp sn)%Z).
    { assert (M1 : (isumZ (fun i => Z.max (zx i * zy i) 0) (seq 0 k) <= if (a =? 1)%Z then sp else sn)%Z).
      { destruct Ha; subst a; cbn [Z.eqb]; (eapply Z.le_trans; [|first [exact Hp|exact Hn]]); apply zsum_mono; intros; lia. }
      assert (M2 : (isumZ (fun i => Z.max (- (zx i * zy i)) 0) (seq 0 k) <= if (a =? 1)%Z then sn else sp)%Z).
      { destruct Ha; subst a; cbn [Z.eqb]; (eapply Z.le_trans; [|first [exact Hp|exact Hn]]); apply zsum_mono; intros; lia. }
      unfold zpos, zneg. destruct (a =? 1)%Z; lia. }
    destruct (fred_exact2 (fun l => do x <- fa l; do y <- fb l; Ok (x, y)) (fun l => zx l * zy l)%Z t) as [s [Hs [Ns Rs]]].
    + intros i Hi. pose proof (Permutation_in _ Hw Hi) as Q. apply in_seq in Q. destruct (Hl i) as [H1 [H2 [H3 [H4 [H5 [H6 H7]]]]]]; [lia|]. rewrite H1, H2. cbn [bind]. eexists _, _. split; [reflexivity|]. split; [exact H3|]. split; [exact H4|].
      rewrite H5, H6, mult_IZR. reflexivity.
    + unfold zpos in *. rewrite (isumZ_perm _ _ _ Hw). lia.
    + unfold zneg in *. rewrite (isumZ_perm _ _ _ Hw). lia.
    + rewrite Hs. cbn [bind]. rewrite (isumZ_perm _ _ _ Hw) in Rs. fold T in Rs.
      assert (aT : (- sn <= a * T <= sp)%Z).
      { unfold T. rewrite <- zsum_scale, zsum_split. pose proof (zpos_ge (fun l => a * (zx l * zy l))%Z (seq 0 k)). pose proof (zneg_ge (fun l => a * (zx l * zy l))%Z (seq 0 k)). lia. }
      assert (bT : (Z.abs (a * T) <= 2 ^ 24)%Z) by lia.
      destruct (Sc s Ns) as [Nf Rf].
      { rewrite Rs, <- mult_IZR, <- abs_IZR. apply Rle_trans with (IZR (2 ^ 24)); [apply IZR_le; lia|]. rewrite (IZR_Zpower radix2) by lia. apply bpow_le. lia. }
      rewrite Rs, <- mult_IZR in Rf. destruct c as [v|]; cbn [zval] in Hc.
      * destruct Hc as [[Fv Vv] Rv]. destruct (int_rnd (a * T + zc)) as [R1 R2]; [lia|]. destruct Nf as [Ff Vf]. destruct Ns as [Fs Vs]. destruct Na as [Fa Va]. destruct fused.
        -- assert (Q0 : real alpha * real s + real v = IZR (a * T + zc)) by (rewrite Ra, Rs, Rv, plus_IZR, mult_IZR; ring).
           assert (F : finite (ffma alpha s v)) by (apply ffma_fin; auto; rewrite Q0; exact R2). destruct (ffma_rnd alpha s v Fa Fs Fv F) as [V Q]. rewrite Q0, R1 in Q.
           exists (ffma alpha s v). repeat split; auto.
        -- assert (Q0 : real (fmul alpha s) + real v = IZR (a * T + zc)) by (rewrite Rf, Rv, plus_IZR; reflexivity).
           assert (F : finite (fadd (fmul alpha s) v)) by (apply fadd_fin; auto; rewrite Q0; exact R2). destruct (fadd_rnd (fmul alpha s) v Vf Vv Ff Fv F) as [V Q]. rewrite Q0, R1 in Q.
           exists (fadd (fmul alpha s) v). repeat split; auto.
      * exists (fmul alpha s). split; [reflexivity|]. split; [exact Nf|]. rewrite Rf. f_equal. lia.
Qed.
