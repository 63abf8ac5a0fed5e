(** Rotations and the memory budget. *)
From Coq Require Import ZArith Reals Lra Lia String List Arith Bool Permutation Floats.SpecFloat.
From Flocq Require Import Core Mult_error.
From Flocq Require BinarySingleNaN.
From Verif Require Import Base Float32 DivFacts FloatBits DistSpec DistModel FusedModel RealSpec FloatReal L2ErrorProofs RealDistProofs NormProofs MeanProofs3 Float64Real StatsProofs
  BlasModel BlasSpec BlasProofs BlasProofs2 BlasProofs3 BlasProofs4 BlasProofs5 BlasProofs6 MathModel MathSpec MathProofs.
Import ListNotations.
Local Open Scope R_scope.

Lemma aip_exact : forall p q : list f32, length p = length q -> aip p q = exact_abs_ip p q.
Proof. intros p q L. rewrite api_sum by exact L. reflexivity. Qed.
Lemma ip_exact_ : forall p q : list f32, length p = length q -> ip p q = exact_ip p q.
Proof. intros p q L. rewrite pi_sum by exact L. reflexivity. Qed.

(** One entry with alpha = 1 into an empty place. *)
Lemma one_entry : forall w p q fa fb, way_ok (length p) false w -> length p = length q -> good p -> good q -> lim (length p) -> exact_ip p p <= bpow radix2 100 -> exact_ip q q <= bpow radix2 100 ->
  (forall l, (l < length p)%nat -> fa l = Ok (at_ p l)) -> (forall l, (l < length p)%nat -> fb l = Ok (at_ q l)) ->
  exists r, gemm_entry w (length p) f32_one fa fb None = Ok r /\ num r /\
    Rabs (real r - exact_ip p q) <= (E (length p + 2) - 1) * exact_abs_ip p q + INR (2 * length p + 3) * tiny * E (length p + 2).
Proof.
  intros w p q fa fb W L Gp Gq Lm Bp Bq Fa Fb. rewrite <- (ip_exact_ p p eq_refl) in Bp. rewrite <- (ip_exact_ q q eq_refl) in Bq. change (ip p p) with (sq p) in Bp. change (ip q q) with (sq q) in Bq.
  destruct (entry_ok w (length p) f32_one 1 fa fb (at_ p) (at_ q) None) as [r [Hr [Nr D]]].
  - exact scales_one.
  - rewrite Rabs_R1. lra.
  - exact W.
  - intros l Hl. split; [apply Fa, Hl|]. split; [apply Fb, Hl|]. split; [apply num_at; auto|]. split; [apply num_at; auto; lia|]. apply abs_100. eapply Rle_trans; [apply coord_le, Hl|exact Bp].
  - intros v H. discriminate.
  - rewrite Rabs_R1. fold (aip p q). cbn [val]. rewrite Rabs_R0. apply room; [exact Lm|]. pose proof (aip_pos p q). pose proof (aip_le p q L). split; [lra|].
    apply Rle_trans with (bpow radix2 100); [lra|apply bpow_le; lia].
  - rewrite Rabs_R1 in D. fold (aip p q) (ip p q) in D. cbn [val] in D. rewrite Rabs_R0, Rmult_1_l, !Rplus_0_r, Rmult_1_l in D. rewrite ip_exact_, aip_exact in D by exact L. exists r. auto.
Qed.

Lemma line_at : forall (t : bool) dim (M : list (list f32)) j l, length M = dim -> (forall r, In r M -> length r = dim) -> (j < dim)%nat -> (l < dim)%nat -> rd (concat M) (place RowMajor t l j dim) = Ok (at_ (line_of t M j) l).
Proof.
  intros t dim M j l LM HM Hj Hl. destruct t; cbn [place line_of].
  - rewrite Nat.add_comm. apply rd_concat; auto. apply nth_error_nth'. lia.
  - destruct (nth_error M l) as [r|] eqn:Er; [|apply nth_error_None in Er; lia]. rewrite (rd_concat dim M l r j HM Er Hj). f_equal. unfold at_. symmetry.
    rewrite (nth_indep _ f32_zero (nth j r f32_zero)) by (rewrite map_length; lia). erewrite nth_error_nth; [reflexivity|]. rewrite nth_error_map, Er. reflexivity.
Qed.
Lemma line_length : forall (t : bool) dim (M : list (list f32)) j, length M = dim -> (forall r, In r M -> length r = dim) -> (j < dim)%nat -> length (line_of t M j) = dim.
Proof. intros t dim M j LM HM Hj. destruct t; cbn [line_of]; [apply HM, nth_In; lia|now rewrite map_length]. Qed.
Lemma line_good : forall (t : bool) dim (M : list (list f32)) j, length M = dim -> (forall r, In r M -> length r = dim /\ good r) -> (j < dim)%nat -> good (line_of t M j).
Proof.
  intros t dim M j LM HM Hj x Hx. destruct t; cbn [line_of] in Hx.
  - apply (proj2 (HM (nth j M []) ltac:(apply nth_In; lia))), Hx.
  - apply in_map_iff in Hx as [r [<- Hr]]. destruct (HM r Hr) as [L G]. apply G, nth_In. lia.
Qed.

Lemma rotated : forall ws (transpose : bool) dim rows M, (Z.of_nat dim <= 2 ^ 20)%Z -> length M = dim -> (forall r, In r rows \/ In r M -> length r = dim /\ good r) -> (forall x, way_ok dim false (ws x)) ->
  (forall r, In r rows -> exact_ip r r <= powerRZ 2 100) -> (forall j, (j < dim)%nat -> exact_ip (line_of transpose M j) (line_of transpose M j) <= powerRZ 2 100) ->
  exists out, rotate_data ws (concat rows) (length rows) dim (concat M) transpose = Ok out /\ length out = (length rows * dim)%nat /\
    forall i r j, nth_error rows i = Some r -> (j < dim)%nat -> exists v, nth_error out (i * dim + j) = Some v /\ finite v /\
      Rabs (real v - exact_ip r (line_of transpose M j)) <= ((1 + ulp) ^ (dim + 2) - 1) * exact_abs_ip r (line_of transpose M j) + INR (2 * dim + 3) * tiny * (1 + ulp) ^ (dim + 2).
Proof.
  intros ws t dim rows M Hd LM HR HW BR BM. assert (P100 : powerRZ 2 100 = bpow radix2 100) by (change 2 with (IZR radix2); now rewrite <- bpow_powerRZ). rewrite P100 in *. unfold rotate_data. assert (HL : forall r, In r rows -> length r = dim) by (intros r Hr; apply HR; auto). assert (HM : forall r, In r M -> length r = dim) by (intros r Hr; apply HR; auto).
  destruct (sgemm_row ws false t (length rows) dim dim f32_one (concat rows) dim (concat M) dim false [] (fun i j v => forall r, nth_error rows i = Some r -> num v /\
      Rabs (real v - exact_ip r (line_of t M j)) <= ((1 + ulp) ^ (dim + 2) - 1) * exact_abs_ip r (line_of t M j) + INR (2 * dim + 3) * tiny * (1 + ulp) ^ (dim + 2))) as [out [Ho [Lo P]]].
  - intros i j Hi Hj. exists None. destruct (nth_error rows i) as [r|] eqn:Er; [|apply nth_error_None in Er; lia]. pose proof (nth_error_In _ _ Er) as Ir. pose proof (HL r Ir) as Lr.
    destruct (one_entry (ws (i * dim + j)%nat) r (line_of t M j) (fun l => rd (concat rows) (place RowMajor false i l dim)) (fun l => rd (concat M) (place RowMajor t l j dim))) as [v [Hv [Nv D]]].
    + rewrite Lr. apply HW.
    + rewrite (line_length t dim) by auto. exact Lr.
    + apply (HR r). auto.
    + apply (line_good t dim); auto.
    + unfold lim. rewrite Lr. exact Hd.
    + auto.
    + auto.
    + intros l Hl. cbn [place]. apply rd_concat; auto. lia.
    + intros l Hl. apply line_at; auto. lia.
    + rewrite Lr in Hv, D. exists v. split; [reflexivity|]. split; [exact Hv|]. intros r' [= <-]. auto.
  - exists out. split; [exact Ho|]. split; [exact Lo|]. intros i r j Er Hj. destruct (P i j ltac:(apply nth_error_Some; congruence) Hj) as [v [Hv Q]]. destruct (Q r Er) as [[Fv _] D]. eauto.
Qed.

(** Integers. *)
Lemma zsum_at : forall (zx zy : list Z) (h : Z -> Z -> Z), length zx = length zy -> isumZ (fun l => h (nth l zx 0%Z) (nth l zy 0%Z)) (seq 0 (length zx)) = fold_right Z.add 0%Z (map (fun p => h (fst p) (snd p)) (combine zx zy)).
Proof.
  intros zx. unfold isumZ. induction zx as [|a zx IH]; intros [|b zy] h L; try discriminate; [reflexivity|]. cbn [length seq map combine fold_right fst snd nth]. rewrite <- seq_shift, map_map. cbn [nth]. rewrite IH by (cbn in L; lia). reflexivity.
Qed.
Lemma zabs_split : forall z l, (zpos z l <= isumZ (fun i => Z.abs (z i)) l)%Z /\ (zneg z l <= isumZ (fun i => Z.abs (z i)) l)%Z.
Proof. intros z l. split; apply zsum_mono; intros; lia. Qed.
Lemma ints_at : forall (p : list f32) z l, holds_ints p z -> (l < length p)%nat -> real (at_ p l) = IZR (nth l z 0%Z).
Proof.
  intros p z l H. revert l. induction H as [|x k p z Hx H IH]; intros l Hl; [cbn in Hl; lia|]. destruct l as [|l]; unfold at_; cbn [nth].
  - destruct x; try assumption; destruct Hx.
  - apply IH. cbn in Hl. lia.
Qed.
Lemma ints_length : forall (p : list f32) z, holds_ints p z -> length p = length z.
Proof. intros p z H. induction H; cbn; congruence. Qed.

Lemma rotated_ints : forall ws (transpose : bool) dim rows M zr zm, length M = dim -> (forall r, In r rows \/ In r M -> length r = dim /\ good r) -> (forall x, way_ok dim false (ws x)) ->
  (forall i r, nth_error rows i = Some r -> holds_ints r (zr i) /\ forall x, In x (zr i) -> (Z.abs x <= 2 ^ 24)%Z) -> (forall j, (j < dim)%nat -> holds_ints (line_of transpose M j) (zm j)) ->
  (forall i j, (i < length rows)%nat -> (j < dim)%nat -> (int_abs_dot (zr i) (zm j) <= 2 ^ 24)%Z) ->
  exists out, rotate_data ws (concat rows) (length rows) dim (concat M) transpose = Ok out /\ length out = (length rows * dim)%nat /\
    forall i j, (i < length rows)%nat -> (j < dim)%nat -> exists v, nth_error out (i * dim + j) = Some v /\ finite v /\ real v = IZR (int_dot (zr i) (zm j)).
Proof.
  intros ws t dim rows M zr zm LM HR HW HI HJ B. unfold rotate_data. assert (HL : forall r, In r rows -> length r = dim) by (intros r Hr; apply HR; auto). assert (HM : forall r, In r M -> length r = dim) by (intros r Hr; apply HR; auto).
  destruct (sgemm_row ws false t (length rows) dim dim f32_one (concat rows) dim (concat M) dim false [] (fun i j v => num v /\ real v = IZR (int_dot (zr i) (zm j)))) as [out [Ho [Lo P]]].
  - intros i j Hi Hj. exists None. destruct (nth_error rows i) as [r|] eqn:Er; [|apply nth_error_None in Er; lia]. pose proof (nth_error_In _ _ Er) as Ir. pose proof (HL r Ir) as Lr. destruct (HI i r Er) as [Hz Hb]. pose proof (HJ j Hj) as Hq. pose proof (line_length t dim M j LM HM Hj) as Lq. set (q := line_of t M j) in *.
    pose proof (ints_length _ _ Hz) as L1. pose proof (ints_length _ _ Hq) as L2. assert (Lz : length (zr i) = length (zm j)) by congruence. assert (Lz2 : length (zr i) = dim) by congruence.
    pose proof (zsum_at (zr i) (zm j) (fun a b => Z.abs (a * b)) Lz) as S1. pose proof (zsum_at (zr i) (zm j) Z.mul Lz) as S2. cbn beta in S1, S2. rewrite Lz2 in S1, S2. specialize (B i j Hi Hj). unfold int_abs_dot in B. rewrite <- S1 in B.
    assert (Q : isumZ (fun l => Z.abs (1 * (nth l (zr i) 0 * nth l (zm j) 0)))%Z (seq 0 dim) = isumZ (fun l => Z.abs (nth l (zr i) 0 * nth l (zm j) 0))%Z (seq 0 dim)) by (apply zsum_ext; intros; f_equal; lia).
    destruct (zabs_split (fun l => 1 * (nth l (zr i) 0 * nth l (zm j) 0))%Z (seq 0 dim)) as [A1 A2]. rewrite Q in A1, A2.
    destruct (entry_exact (ws (i * dim + j)%nat) dim f32_one 1 (fun l => rd (concat rows) (place RowMajor false i l dim)) (fun l => rd (concat M) (place RowMajor t l j dim)) (at_ r) (at_ q) (fun l => nth l (zr i) 0%Z) (fun l => nth l (zm j) 0%Z) None 0%Z (2 ^ 24)%Z (2 ^ 24)%Z) as [v [Hv [Nv Rv]]]; try lia.
    + exact scales_one.
    + apply HW.
    + intros l Hl. split; [cbn [place]; apply rd_concat; auto|]. split; [apply line_at; auto|]. split; [apply num_at; [apply (HR r); auto|lia]|]. split; [apply num_at; [apply (line_good t dim); auto|lia]|]. split; [apply ints_at; [exact Hz|lia]|]. split; [apply ints_at; [exact Hq|lia]|]. apply Hb, nth_In. lia.
    + reflexivity.
    + exists v. split; [reflexivity|]. split; [exact Hv|]. split; [exact Nv|]. rewrite Rv. unfold int_dot. rewrite <- S2. f_equal. lia.
  - exists out. split; [exact Ho|]. split; [exact Lo|]. intros i j Hi Hj. destruct (P i j Hi Hj) as [v [Hv [[Fv _] R]]]. eauto.
Qed.

(** ** Coming back from the residuals *)
Lemma back_ints : forall x c zx zc, f32_valid x = true -> f32_valid c = true -> finite x -> finite c -> real x = IZR zx -> real c = IZR zc -> (Z.abs zx + Z.abs zc <= 2 ^ 24)%Z ->
  let r := fadd (fsub x c) c in finite r /\ real r = real x.
Proof.
  intros x c zx zc Vx Vc Fx Fc Rx Rc B r. destruct (int_rnd (zx - zc) ltac:(lia)) as [A1 A2]. destruct (int_rnd zx ltac:(lia)) as [B1 B2].
  assert (S1 : finite (fsub x c)) by (apply fsub_fin; auto; rewrite Rx, Rc, <- minus_IZR; exact A2). destruct (fsub_rnd x c Vx Vc Fx Fc S1) as [V1 R1]. rewrite Rx, Rc, <- minus_IZR, A1, minus_IZR in R1.
  assert (Q : real (fsub x c) + real c = IZR zx) by (rewrite R1, Rc; lra). assert (F : finite r) by (apply fadd_fin; auto; rewrite Q; exact B2). split; [exact F|]. destruct (fadd_rnd _ _ V1 Vc S1 Fc F) as [_ R]. unfold r. rewrite R, Q, B1. auto.
Qed.

Definition two_25 : f32 := f32_of_Z 33554432.
Lemma back_lost : real (fadd (fsub f32_one two_25) two_25) = 0 /\ real f32_one = 1.
Proof. split; [vm_compute; lra|]. cbv. lra. Qed.

(** ** The memory budget *)
Lemma dsub_B : forall x y : b64, SFsub 53 1024 (BinarySingleNaN.B2SF x) (BinarySingleNaN.B2SF y) = BinarySingleNaN.B2SF (BinarySingleNaN.Bminus BinarySingleNaN.mode_NE x y).
Proof. intros [sx|sx| |sx mx ex Hx] [sy|sy| |sy my ey Hy]; try reflexivity; try (cbn; case Bool.eqb; reflexivity). cbn. unfold Zminus. rewrite <- cond_Zopp_negb. apply normalize_equiv64. Qed.
Lemma dsub_ok : forall x y, f64_valid x = true -> f64_valid y = true -> finite x -> finite y -> Rabs (rnd64 (real x - real y)) < bpow radix2 1024 ->
  finite (SFsub 53 1024 x y) /\ f64_valid (SFsub 53 1024 x y) = true /\ real (SFsub 53 1024 x y) = rnd64 (real x - real y).
Proof.
  intros x y Vx Vy Fx Fy H. destruct (to_B64 x Vx) as [bx <-]. destruct (to_B64 y Vy) as [by' <-]. rewrite dsub_B. rewrite !real_B2R64 in *. apply finite_B64 in Fx, Fy.
  pose proof (BinarySingleNaN.Bminus_correct 53 1024 _ _ BinarySingleNaN.mode_NE bx by' Fx Fy) as C. rewrite Rlt_bool_true in C by exact H. destruct C as [C1 [C2 _]]. split; [apply finite_B64, C2|]. split; [apply B_valid64|exact C1].
Qed.
Lemma dlt_real : forall x y, f64_valid x = true -> f64_valid y = true -> finite x -> finite y -> SFltb x y = true <-> real x < real y.
Proof.
  intros x y Vx Vy Fx Fy. destruct (to_B64 x Vx) as [bx <-]. destruct (to_B64 y Vy) as [by' <-]. rewrite !real_B2R64. apply finite_B64 in Fx, Fy.
  pose proof (BinarySingleNaN.Bltb_correct 53 1024 bx by' Fx Fy) as C. unfold BinarySingleNaN.Bltb in C. rewrite C. destruct (Rlt_bool_spec (BinarySingleNaN.B2R bx) (BinarySingleNaN.B2R by')); intuition (try lra; discriminate).
Qed.
Lemma format64 : forall x, f64_valid x = true -> generic_format radix2 (FLT_exp (-1074) 53) (real x).
Proof. intros x V. destruct (to_B64 x V) as [b <-]. rewrite real_B2R64. apply BinarySingleNaN.generic_format_B2R. Qed.
Lemma kilo_ok : finite kilo /\ f64_valid kilo = true /\ real kilo = bpow radix2 10.
Proof. split; [exact I|]. split; [reflexivity|]. unfold real, kilo. change (bpow radix2 10) with 1024. change (powerRZ 2 (-42)) with (/ (2 ^ 42)). lra. Qed.
Lemma times_kilo : forall x, f64_valid x = true -> finite x -> Rabs (real x) <= bpow radix2 960 ->
  let y := SFmul 53 1024 x kilo in finite y /\ f64_valid y = true /\ real y = real x * bpow radix2 10.
Proof.
  intros x V F B y. destruct kilo_ok as [Fk [Vk Rk]]. assert (G : rnd64 (real x * real kilo) = real x * bpow radix2 10).
  { rewrite Rk. apply round_generic; [auto with typeclass_instances|]. apply mult_bpow_pos_exact_FLT; [apply format64, V|lia]. }
  assert (S : Rabs (rnd64 (real x * real kilo)) < bpow radix2 1024).
  { rewrite G, Rabs_mult, (Rabs_pos_eq (bpow radix2 10)) by apply bpow_ge_0. apply Rle_lt_trans with (bpow radix2 960 * bpow radix2 10); [apply Rmult_le_compat_r; [apply bpow_ge_0|exact B]|]. rewrite <- bpow_plus. apply bpow_lt. lia. }
  assert (Fy : finite y) by (apply (dmul_fin x kilo); auto). destruct (dmul_rnd x kilo V Vk Fy) as [Vy Ry]. split; [exact Fy|]. split; [exact Vy|]. rewrite <- G. exact Ry.
Qed.
Lemma giga : forall x, f64_valid x = true -> finite x -> Rabs (real x) <= bpow radix2 900 ->
  let y := SFmul 53 1024 (SFmul 53 1024 (SFmul 53 1024 x kilo) kilo) kilo in finite y /\ real y = real x * powerRZ 2 30.
Proof.
  intros x V F B y. destruct (times_kilo x V F) as [F1 [V1 R1]]; [apply Rle_trans with (1 := B), bpow_le; lia|].
  assert (St : forall k a b, Rabs a <= bpow radix2 k -> b = a * bpow radix2 10 -> Rabs b <= bpow radix2 (k + 10)). { intros k a b A ->. rewrite Rabs_mult, (Rabs_pos_eq (bpow radix2 10)) by apply bpow_ge_0. rewrite bpow_plus. apply Rmult_le_compat_r; [apply bpow_ge_0|exact A]. }
  pose proof (St _ _ _ B R1) as B1. destruct (times_kilo _ V1 F1) as [F2 [V2 R2]]; [apply Rle_trans with (1 := B1), bpow_le; lia|]. pose proof (St _ _ _ B1 R2) as B2.
  destruct (times_kilo _ V2 F2) as [F3 [V3 R3]]; [apply Rle_trans with (1 := B2), bpow_le; lia|]. split; [exact F3|]. unfold y. rewrite R3, R2, R1. change 2 with (IZR radix2). rewrite <- bpow_powerRZ. change 30%Z with (10 + 10 + 10)%Z. rewrite !bpow_plus. ring.
Qed.
Lemma cached_ok : finite cached_gb /\ f64_valid cached_gb = true /\ real cached_gb = / 4.
Proof. split; [exact I|]. split; [reflexivity|]. unfold real, cached_gb. change (powerRZ 2 (-54)) with (/ (2 ^ 54)). lra. Qed.
Lemma threshold_ok : finite threshold_gb /\ f64_valid threshold_gb = true /\ real threshold_gb = 1.
Proof. split; [exact I|]. split; [reflexivity|]. unfold real, threshold_gb. change (powerRZ 2 (-52)) with (/ (2 ^ 52)). lra. Qed.

Lemma above_54 : forall x, generic_format radix2 (FLT_exp (-1074) 53) x -> 5 / 4 < x -> 5 / 4 + bpow radix2 (-52) <= x.
Proof.
  intros x G H. assert (F : generic_format radix2 (FLT_exp (-1074) 53) (5 / 4)). { apply generic_format_FLT. exists (Float radix2 5 (-2)); cbn [Fnum Fexp]; [unfold F2R; cbn; lra|reflexivity|lia]. }
  pose proof (succ_le_lt radix2 (FLT_exp (-1074) 53) (5 / 4) x F G H) as Q. rewrite succ_eq_pos in Q by lra. rewrite ulp_neq_0 in Q by lra. unfold cexp in Q. rewrite (mag_unique radix2 (5 / 4) 1) in Q; [exact Q|]. rewrite Rabs_pos_eq by lra. cbn. lra.
Qed.
Lemma rnd_above : forall x, generic_format radix2 (FLT_exp (-1074) 53) x -> 5 / 4 < x -> 1 < rnd64 (x - / 4).
Proof.
  intros x G H. pose proof (above_54 x G H) as Q. assert (P : 0 < bpow radix2 (-52)) by apply bpow_gt_0. apply Rlt_le_trans with (1 + bpow radix2 (-52)); [lra|]. apply round_ge_generic; [auto with typeclass_instances..| |lra].
  apply generic_format_FLT. exists (Float radix2 (2 ^ 52 + 1) (-52)); cbn [Fnum Fexp]; [|reflexivity|lia]. unfold F2R. cbn [Fnum Fexp]. rewrite plus_IZR, Rmult_plus_distr_r, Rmult_1_l. f_equal. change (2 ^ 52)%Z with (radix2 ^ 52)%Z. rewrite IZR_Zpower by lia. rewrite <- bpow_plus. reflexivity.
Qed.
Lemma rnd_below : forall x, x <= 5 / 4 -> rnd64 (x - / 4) <= 1.
Proof. intros x H. apply round_le_generic; [auto with typeclass_instances..| |lra]. apply (int64_format 1). lia. Qed.

Lemma budget : forall (atof : string -> spec_float) s, let x := atof s in f64_valid x = true -> finite x -> 0 <= real x <= powerRZ 2 800 ->
  let b := get_memory_budget atof s in finite b /\ (real x <= 5 / 4 -> real b = real x * powerRZ 2 30) /\
    (5 / 4 < real x -> Rabs (real b - (real x - / 4) * powerRZ 2 30) <= powerRZ 2 (-53) * ((real x - / 4) * powerRZ 2 30)).
Proof.
  intros atof s x V F [B0 B1] b. assert (P : powerRZ 2 800 = bpow radix2 800) by (change 2 with (IZR radix2); now rewrite <- bpow_powerRZ). rewrite P in B1.
  destruct cached_ok as [Fc [Vc Rc]]. destruct threshold_ok as [Ft [Vt Rt]]. assert (Bp : 1 <= bpow radix2 800) by (change 1 with (bpow radix2 0); apply bpow_le; lia).
  assert (B2 : Rabs (real x - real cached_gb) <= bpow radix2 800) by (rewrite Rc; apply Rabs_le; lra).
  destruct (dsub_ok x cached_gb V Vc F Fc) as [Fd [Vd Rd]]; [apply small64; apply Rle_trans with (1 := B2), bpow_le; lia|]. rewrite Rc in Rd. pose proof (dlt_real threshold_gb _ Vt Vd Ft Fd) as C. rewrite Rt, Rd in C.
  assert (Bd : Rabs (real (SFsub 53 1024 x cached_gb)) <= bpow radix2 900). { rewrite Rd. apply abs_round_le_generic; [auto with typeclass_instances..| |rewrite <- Rc; apply Rle_trans with (1 := B2), bpow_le; lia]. apply generic_format_bpow'; [auto with typeclass_instances|]. unfold FLT_exp. lia. }
  unfold b, get_memory_budget. fold x. cbn zeta. destruct (SFltb threshold_gb (SFsub 53 1024 x cached_gb)) eqn:E.
  - assert (L : 5 / 4 < real x). { destruct (Rlt_or_le (5 / 4) (real x)) as [|Q]; [auto|]. pose proof (rnd_below _ Q). pose proof (proj1 C eq_refl). lra. }
    destruct (giga _ Vd Fd Bd) as [Fb Rb]. split; [exact Fb|]. split; [lra|]. intros _. rewrite Rb, Rd. destruct (rnd64_rel (real x - / 4)) as [d [Hd Q]].
    + right. rewrite Rabs_pos_eq by lra. apply Rle_trans with (bpow radix2 0); [apply bpow_le; lia|cbn; lra].
    + rewrite Q. assert (0 < powerRZ 2 30) by (apply powerRZ_lt; lra). replace ((real x - / 4) * (1 + d) * powerRZ 2 30 - (real x - / 4) * powerRZ 2 30) with (d * ((real x - / 4) * powerRZ 2 30)) by ring.
      rewrite Rabs_mult, (Rabs_pos_eq ((real x - / 4) * powerRZ 2 30)) by (apply Rmult_le_pos; lra). apply Rmult_le_compat_r; [apply Rmult_le_pos; lra|exact Hd].
  - destruct (giga x V F) as [Fb Rb]; [rewrite Rabs_pos_eq by lra; apply Rle_trans with (1 := B1), bpow_le; lia|]. split; [exact Fb|]. split; [auto|]. intros L. pose proof (rnd_above _ (format64 x V) L) as Q. apply C in Q. discriminate.
Qed.

Definition gb_125 : spec_float := S754_finite false 5629499534213120 (-52).
Definition gb_1375 : spec_float := S754_finite false 6192449487634432 (-52).
Lemma budget_shrinks : exists (atof : string -> spec_float) s1 s2, f64_valid (atof s1) = true /\ f64_valid (atof s2) = true /\ real (atof s1) = 5 / 4 /\ real (atof s2) = 11 / 8 /\
  real (get_memory_budget atof s1) = 5 / 4 * powerRZ 2 30 /\ real (get_memory_budget atof s2) = 9 / 8 * powerRZ 2 30.
Proof.
  exists (fun s => if String.eqb s "1.25" then gb_125 else gb_1375), "1.25"%string, "1.375"%string. split; [reflexivity|]. split; [reflexivity|]. cbn [String.eqb]. 
  assert (A : get_memory_budget (fun s => if String.eqb s "1.25" then gb_125 else gb_1375) "1.25" = S754_finite false 5629499534213120 (-22)) by (vm_compute; reflexivity).
  assert (B : get_memory_budget (fun s => if String.eqb s "1.25" then gb_125 else gb_1375) "1.375" = S754_finite false 5066549580791808 (-22)) by (vm_compute; reflexivity).
  rewrite A, B. cbn [String.eqb Ascii.eqb Bool.eqb]. unfold real, gb_125, gb_1375. change (powerRZ 2 (-52)) with (/ (2 ^ 52)). change (powerRZ 2 (-22)) with (/ (2 ^ 22)). change (powerRZ 2 30) with (2 ^ 30). repeat split; lra.
Qed.

(** ** Subtract the centres, add them again *)
Lemma there_and_back : forall dim centers ids n nc order1 order2 (data : list f32), length centers = (nc * dim)%nat -> length ids = n -> (forall i id, nth_error ids i = Some id -> (id < nc)%nat) -> Permutation order1 (seq 0 n) -> Permutation order2 (seq 0 n) -> length data = (n * dim)%nat ->
  (forall x, In x data \/ In x centers -> finite x /\ f32_valid x = true) ->
  exists mid out, process_residuals dim centers ids true order1 data = Ok mid /\ process_residuals dim centers ids false order2 mid = Ok out /\ length out = length data /\
    forall i d id x c, (d < dim)%nat -> nth_error ids i = Some id -> nth_error data (i * dim + d) = Some x -> nth_error centers (id * dim + d) = Some c -> exists r, nth_error out (i * dim + d) = Some r /\
      (Rabs (real x) <= powerRZ 2 125 -> Rabs (real c) <= powerRZ 2 125 -> finite r /\ Rabs (real r - real x) <= 3 * ulp * (Rabs (real x) + Rabs (real c))) /\
      (forall zx zc, real x = IZR zx -> real c = IZR zc -> (Z.abs zx + Z.abs zc <= 2 ^ 24)%Z -> finite r /\ real r = real x).
Proof.
  intros dim centers ids n nc o1 o2 data Lc LI HI P1 P2 L Hf. destruct (residuals dim centers ids true n nc o1 data Lc LI HI P1 L) as [mid [E1 [L1 C1]]]. destruct (residuals dim centers ids false n nc o2 mid Lc LI HI P2 L1) as [out [E2 [L2 C2]]].
  exists mid, out. split; [exact E1|]. split; [exact E2|]. split; [congruence|]. intros i d id x c Hd Hid Hx Hc. pose proof (C1 i d id x c Hd Hid Hx Hc) as M. pose proof (C2 i d id _ c Hd Hid M Hc) as O. exists (fadd (fsub x c) c). split; [exact O|].
  destruct (Hf x (or_introl (nth_error_In _ _ Hx))) as [Fx Vx]. destruct (Hf c (or_intror (nth_error_In _ _ Hc))) as [Fc Vc]. split.
  - intros. now apply back.
  - intros zx zc Rx Rc B. exact (back_ints x c zx zc Vx Vc Fx Fc Rx Rc B).
Qed.
