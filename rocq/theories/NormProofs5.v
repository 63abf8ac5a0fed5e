(** Scaling to unit norm: tests/utils/vector_analysis.cpp. *)
From Coq Require Import NArith ZArith Reals Lra Lia List Arith Bool Permutation Floats.SpecFloat.
From Flocq Require Raux.
From Verif Require Import Base Bytes Float32 FloatBits DivFacts DistSpec DistModel StreamModel BinModel BinSpec BinProofs ClosestModel ConvertModel ConvertProofs FusedModel RealSpec L2ErrorProofs RealDistProofs NormModel NormSpec NormProofs NormProofs2 NormProofs3 NormProofs4.
Import ListNotations.

(** ** One vector divided by its norm *)
Lemma sqrt_close : forall a, (0 <= a)%R -> (Rabs (sqrt a - 1) <= Rabs (a - 1))%R.
Proof.
  intros a H. pose proof (sqrt_pos a) as P. pose proof (sqrt_def a H) as Q. replace (a - 1)%R with ((sqrt a - 1) * (sqrt a + 1))%R by (rewrite <- Q at 3; ring).
  rewrite Rabs_mult, (Rabs_pos_eq (sqrt a + 1)) by lra. pose proof (Rabs_pos (sqrt a - 1)). nra.
Qed.

Lemma self_real : forall d S N M2, dim_ok d -> (powerRZ 2 (-99) <= S)%R -> (S * (1 - 2.1 * (INR d * ulp)) <= N <= S * (1 + 2.1 * (INR d * ulp)))%R ->
  (N * (1 - 2 * ulp) <= M2 <= N * (1 + 3 * ulp))%R -> (0 < M2 /\ 0 < S /\ S <= 2 * M2 /\ Rabs (S / M2 - 1) <= 2.6 * (INR d * ulp) + 5 * ulp)%R.
Proof.
  intros d S N M2 Hd HS [H1 H2] [H3 H4]. destruct (dim_facts d Hd) as [[K0 K1] _]. destruct pow_facts as [_ [P99 [_ [P101 _]]]]. pose proof ulp_val as [U1 U2]. set (k := (INR d * ulp)%R) in *. clearbody k.
  assert (S0 : (0 < S)%R) by lra. assert (A1 : (S * (1 - 2.1 * k) * (1 - 2 * ulp) <= M2)%R) by (eapply Rle_trans; [|exact H3]; apply Rmult_le_compat_r; lra).
  assert (A2 : (M2 <= S * (1 + 2.1 * k) * (1 + 3 * ulp))%R) by (eapply Rle_trans; [exact H4|]; apply Rmult_le_compat_r; lra).
  assert (Ku : (0 <= k * ulp <= / 16 * ulp)%R) by (split; [apply Rmult_le_pos; lra|apply Rmult_le_compat_r; lra]).
  assert (B1 : (1 - 2.1 * k - 2 * ulp <= (1 - 2.1 * k) * (1 - 2 * ulp))%R) by lra. assert (B2 : ((1 + 2.1 * k) * (1 + 3 * ulp) <= 1 + 2.1 * k + 3.5 * ulp)%R) by lra.
  assert (C1 : (S * (1 - 2.1 * k - 2 * ulp) <= M2)%R) by (eapply Rle_trans; [|exact A1]; rewrite Rmult_assoc; apply Rmult_le_compat_l; lra).
  assert (C2 : (M2 <= S * (1 + 2.1 * k + 3.5 * ulp))%R) by (eapply Rle_trans; [exact A2|]; rewrite Rmult_assoc; apply Rmult_le_compat_l; lra).
  assert (M0 : (S * (3 / 4) <= M2)%R) by (eapply Rle_trans; [|exact C1]; apply Rmult_le_compat_l; lra). assert (M1 : (0 < M2)%R) by lra.
  split; [exact M1|]. split; [exact S0|]. split; [lra|].
  assert (Q : (S / M2 - 1 = (S - M2) / M2)%R) by (field; lra). rewrite Q. unfold Rdiv. rewrite Rabs_mult, (Rabs_pos_eq (/ M2)) by (apply Rlt_le, Rinv_0_lt_compat; auto).
  apply Rmult_le_reg_r with M2; auto. rewrite Rmult_assoc, Rinv_l, Rmult_1_r by lra.
  apply Rle_trans with (S * (2.1 * k + 3.5 * ulp))%R.
  - assert (0 <= S * ulp)%R by (apply Rmult_le_pos; lra). apply Rabs_le. split; lra.
  - apply Rle_trans with ((2.6 * k + 5 * ulp) * (S * (1 - 2.1 * k - 2 * ulp)))%R; [|apply Rmult_le_compat_l; lra].
    replace ((2.6 * k + 5 * ulp) * (S * (1 - 2.1 * k - 2 * ulp)))%R with (S * ((2.6 * k + 5 * ulp) * (1 - 2.1 * k - 2 * ulp)))%R by ring. apply Rmult_le_compat_l; [lra|].
    apply Rle_trans with ((2.6 * k + 5 * ulp) * (1 - 2.1 * / 16 - 2 * / 1000000))%R; [lra|]. apply Rmult_le_compat_l; lra.
Qed.

Lemma normal_ok : forall k d f v, dim_ok d -> length v = d -> Forall (elem_ok k) v -> Permutation (fred_items f) (seq 0 d) -> (powerRZ 2 (-99) <= elem_sq k v <= powerRZ 2 125)%R ->
  exists N, sum_sq f (fvec k v) = Ok N /\ finite N /\ normalised k v (map (fun c => fdiv c (fsqrt N)) (fvec k v)).
Proof.
  intros k d f v Hd Lv Ev Hf [B1 B2]. assert (Lf : length (fvec k v) = d) by (unfold fvec; now rewrite map_length).
  destruct (norm_near f (fvec k v)) as [N [E [FN [VN [N0 Nn]]]]]; rewrite ?Lf, ?fvec_sq; auto using fvec_good. rewrite Lf, fvec_sq in Nn by auto. fold (near d (elem_sq k v) (real N)) in Nn.
  exists N. split; [exact E|]. split; [exact FN|].
  assert (S0 : (0 <= elem_sq k v)%R) by (rewrite <- fvec_sq by auto; apply self_ip_pos).
  destruct (scale_real d (elem_sq k v) (elem_sq k v) (real N) (real N) Hd (conj B1 B2) Nn (Rle_refl _) (conj S0 (Rle_refl _)) Nn) as [L12 L34].
  destruct (scale_ok N VN FN L34) as [VM [FM [PM HM]]]. set (M := fsqrt N) in *.
  destruct (self_real d (elem_sq k v) (real N) (real M * real M) Hd B1 L12 HM) as [P1 [P2 [P3 P4]]].
  assert (P3' := P3). rewrite <- fvec_sq in P3' by auto. destruct (scaled M (fvec k v) VM FM PM (fvec_good k v Ev) P3') as [Go [Fo Bo]]. rewrite fvec_sq in Bo by auto. rewrite Lf in Bo.
  destruct (dim_facts d Hd) as [[K0 K1] [T0 T1]]. destruct pow_facts as [_ [P99 [_ [P101 [_ [_ [P1' P22]]]]]]]. pose proof ulp_val as [U1 U2]. pose proof tiny_pos as T. pose proof tiny_ulp as TU.
  assert (T2 : (INR d * tiny <= INR d * ulp)%R). { eapply Rle_trans; [exact T1|]. rewrite Rmult_assoc. rewrite <- (Rmult_1_r (INR d * ulp)) at 2. apply Rmult_le_compat_l; [lra|]. nra. }
  replace (3 * INR d * tiny)%R with (3 * (INR d * tiny))%R in Bo by ring.
  assert (T3 : (INR d * tiny <= INR d * ulp * / 1000000)%R). { eapply Rle_trans; [exact T1|]. rewrite <- (Rmult_1_r (INR d * ulp * / 1000000)) at 2. apply Rmult_le_compat_l; lra. }
  assert (Kd : ((INR (length v) + 20) * (4 * ulp) = 4 * (INR d * ulp) + 80 * ulp)%R) by (rewrite Lv; ring).
  set (a := (elem_sq k v / (real M * real M))%R) in *. assert (P4' := P4). apply Raux.Rabs_le_inv in P4'. assert (Ha : (a <= 1.2)%R) by lra. assert (Ua : (ulp * a <= ulp * 1.2)%R) by (apply Rmult_le_compat_l; lra).
  assert (A0 : (0 <= a)%R) by (unfold a; apply Rmult_le_pos; [auto|apply Rlt_le, Rinv_0_lt_compat; auto]).
  unfold normalised. rewrite P22, Kd. split; [now rewrite map_length, Lf, Lv|]. split; [intros c Hc; apply Go, Hc|]. split.
  - intros j e He. destruct (Forall2_nth _ _ _ _ _ Fo j (kval k e)) as [c [Hc Bc]]; [unfold fvec; apply map_nth_error; auto|]. exists c. split; [exact Hc|].
    assert (Ie := nth_error_In _ _ He). assert (Ev' := Ev). rewrite Forall_forall in Ev'. destruct (kval_ok k e (Ev' e Ie)) as [_ [_ Re]]. rewrite Re in Bc.
    set (x := elem_real k e) in *. assert (Hx : (x * x <= elem_sq k v)%R). { rewrite <- fvec_sq by auto. rewrite <- Re. apply self_ip_coord. unfold fvec. apply in_map. exact Ie. }
    set (S := elem_sq k v) in *. assert (Sp : (0 < sqrt S)%R) by (apply sqrt_lt_R0; auto). pose proof (sqrt_def S S0) as Sd.
    set (y := (x / sqrt S)%R). assert (Hy : (Rabs y <= 1)%R). { assert (y * y <= 1)%R. { unfold y. replace (x / sqrt S * (x / sqrt S))%R with (x * x / S)%R by (rewrite <- Sd at 1; field; lra). apply Rmult_le_reg_r with S; auto. unfold Rdiv. rewrite Rmult_assoc, Rinv_l by lra. lra. } apply Rabs_le. split; nra. }
    assert (Sa : (sqrt a = sqrt S / real M)%R). { unfold a. rewrite sqrt_div_alt by auto. rewrite sqrt_square by lra. reflexivity. }
    assert (Hxm : (x / real M = y * sqrt a)%R) by (rewrite Sa; unfold y; field; lra).
    assert (Hd1 : (Rabs (x / real M - y) <= Rabs (a - 1))%R). { rewrite Hxm. replace (y * sqrt a - y)%R with (y * (sqrt a - 1))%R by ring. rewrite Rabs_mult. pose proof (sqrt_close a A0). pose proof (Rabs_pos (sqrt a - 1)). pose proof (Rabs_pos y). nra. }
    assert (Hxm2 : (Rabs (x / real M) <= 2)%R). { replace (x / real M)%R with ((x / real M - y) + y)%R by ring. eapply Rle_trans; [apply Rabs_triang|]. lra. }
    assert (Ux : (ulp * Rabs (x / real M) <= ulp * 2)%R) by (apply Rmult_le_compat_l; lra).
    assert (Tu : (tiny <= ulp)%R) by nra.
    replace (real c - y)%R with ((real c - x / real M) + (x / real M - y))%R by ring. eapply Rle_trans; [apply Rabs_triang|]. lra.
  - rewrite float_sq_row. apply Raux.Rabs_le_inv in Bo. apply Rabs_le. lra.
Qed.

(** ** The loops over the rows *)
Lemma rows_split : forall k d (vs : list (list N)), (forall v, In v vs -> length v = d) -> map (fun i => map (kval k) (firstn d (skipn (i * d) (concat vs)))) (seq 0 (length vs)) = map (fvec k) vs.
Proof.
  intros k d. induction vs as [|v vs IH]; intros H; [reflexivity|]. pose proof (H v (or_introl eq_refl)) as Lv. cbn [length seq map concat]. f_equal.
  - cbn [Nat.mul skipn]. rewrite firstn_len_app by auto. reflexivity.
  - rewrite <- seq_shift, map_map. rewrite <- IH by (intros; apply H; right; auto). apply map_ext. intros i. f_equal. f_equal. cbn [Nat.mul]. rewrite <- Lv at 1. rewrite skipn_app. rewrite skipn_all2 by lia. cbn [app]. f_equal. lia.
Qed.

Lemma map_res_map : forall (A B C : Type) (h : A -> B) (g : B -> res C) s, map_res g (map h s) = map_res (fun x => g (h x)) s.
Proof. intros A B C h g. induction s as [|y s IHs]; cbn; [reflexivity|]. now rewrite IHs. Qed.
Lemma map_res_ext : forall (A B : Type) (f g : A -> res B) s, (forall x, In x s -> f x = g x) -> map_res f s = map_res g s.
Proof. induction s as [|y s IHs]; intros H; cbn; [reflexivity|]. rewrite (H y) by (left; auto). rewrite IHs by (intros; apply H; right; auto). reflexivity. Qed.

Lemma kstore_float : forall o, map_res (kstore KFloat) o = Ok (map bits_of_f32 o).
Proof. intros o. apply map_res_pure. reflexivity. Qed.
