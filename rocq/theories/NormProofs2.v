(** Scaling to unit norm: all rows. *)
From Coq Require Import NArith ZArith Reals Lra Lia List Arith Bool Permutation Floats.SpecFloat.
From Flocq Require Import Core.
From Verif Require Import Base Bytes Float32 FloatBits DivFacts DistSpec DistModel DistProofs2 ConvertModel FusedModel FusedProofs RealSpec FloatReal L2ErrorProofs RealDistProofs NormModel NormSpec NormProofs.
Import ListNotations.
Local Open Scope R_scope.

(** ** Elements as floats *)
Lemma kval_ok : forall k e, elem_ok k e -> finite (kval k e) /\ f32_valid (kval k e) = true /\ real (kval k e) = elem_real k e.
Proof.
  intros [] e H; cbn [elem_ok kval elem_real] in *.
  - destruct H as [H F]. split; [exact F|]. split; [apply f32_of_bits_valid|reflexivity].
  - unfold int8_val. assert (B : (Z.abs (if (e <? 128)%N then Z.of_N e else Z.of_N e - 256) <= 2 ^ 24)%Z) by (destruct (e <? 128)%N; lia). apply of_Z_int in B. exact B.
  - assert (B : (Z.abs (Z.of_N e) <= 2 ^ 24)%Z) by lia. apply of_Z_int in B. exact B.
Qed.
Definition fvec (k : ktype) (v : list N) : list f32 := map (kval k) v.
Lemma fvec_good : forall k v, Forall (elem_ok k) v -> good (fvec k v).
Proof. intros k v H c Hc. apply in_map_iff in Hc. destruct Hc as [e [<- He]]. rewrite Forall_forall in H. destruct (kval_ok k e (H e He)) as [A [B _]]. auto. Qed.
Lemma fvec_sq : forall k v, Forall (elem_ok k) v -> exact_ip (fvec k v) (fvec k v) = elem_sq k v.
Proof.
  intros k v H. rewrite (proj1 (self_ip _)). unfold elem_sq, fvec. rewrite map_map. f_equal. apply map_ext_in. intros e He. rewrite Forall_forall in H.
  destruct (kval_ok k e (H e He)) as [_ [_ ->]]. ring.
Qed.
Lemma float_sq_row : forall o, float_sq o = row_sq o.
Proof. intros o. unfold float_sq, row_sq. f_equal. apply map_ext. intros c. ring. Qed.

(** ** The largest norm *)
Lemma max_norm2_ok : forall ns, Forall (fun x => finite x /\ f32_valid x = true /\ 0 <= real x) ns -> ns <> [] ->
  In (max_norm2 ns) ns /\ forall x, In x ns -> real x <= real (max_norm2 ns).
Proof.
  assert (G : forall ns m, finite m -> f32_valid m = true -> 0 <= real m -> Forall (fun x => finite x /\ f32_valid x = true /\ 0 <= real x) ns ->
    let r := fold_left (fun m x => if fgt m x then m else x) ns m in (r = m \/ In r ns) /\ real m <= real r /\ forall x, In x ns -> real x <= real r).
  { induction ns as [|x ns IH]; intros m F V P H; cbn [fold_left].
    - split; [auto|]. split; [lra|]. intros x [].
    - inversion H as [|? ? [Fx [Vx Px]] Hr]; subst. destruct (fgt m x) eqn:C.
      + apply (flt_real x m) in C; auto. destruct (IH m F V P Hr) as [A [B D]]. split; [destruct A; auto; right; right; auto|]. split; [exact B|]. intros y [->|Hy]; [lra|auto].
      + assert (real m <= real x). { destruct (Rle_or_lt (real m) (real x)); auto. apply (flt_real x m) in H0; auto. change (fgt m x) with (flt x m) in C. congruence. }
        destruct (IH x Fx Vx Px Hr) as [A [B D]]. split; [right; destruct A as [->|A]; [left|right]; auto|]. split; [lra|]. intros y [->|Hy]; auto. }
  intros [|x ns] H N; [congruence|]. unfold max_norm2. cbn [fold_left]. inversion H as [|? ? [Fx [Vx Px]] Hr]; subst.
  destruct (fgt f32_zero x) eqn:C.
  - apply (flt_real x f32_zero) in C; auto; try exact I. cbn [real f32_zero] in C. lra.
  - destruct (G ns x Fx Vx Px Hr) as [A [B D]]. split; [destruct A as [->|A]; [left|right]; auto|]. intros y [->|Hy]; auto.
Qed.

Lemma real_max : forall (A : Type) (g : A -> R) (l : list A), l <> [] -> exists m, In m l /\ forall x, In x l -> g x <= g m.
Proof.
  intros A g. induction l as [|a l IH]; intros N; [congruence|]. destruct l as [|b l].
  - exists a. split; [left; auto|]. intros x [->|[]]. lra.
  - destruct IH as [m [Hm H]]; [discriminate|]. destruct (Rle_or_lt (g m) (g a)).
    + exists a. split; [left; auto|]. intros x [->|Hx]; [lra|]. specialize (H x Hx). lra.
    + exists m. split; [right; auto|]. intros x [->|Hx]; [lra|auto].
Qed.

(** ** All rows *)
Definition near (d : nat) (S N : R) : Prop := Rabs (N - S) <= 2 * INR d * ulp * S + 2 * INR d * tiny.

Lemma pow_facts : tiny <= ulp * / 1000000 * powerRZ 2 (-101) /\ powerRZ 2 (-99) = 4 * powerRZ 2 (-101) /\ powerRZ 2 (-100) = 2 * powerRZ 2 (-101) /\ 0 < powerRZ 2 (-101) /\ powerRZ 2 126 = 2 * powerRZ 2 125 /\ 1 <= powerRZ 2 125 /\ powerRZ 2 (-101) <= 1 /\ powerRZ 2 (-22) = 4 * ulp.
Proof.
  assert (P : forall z, powerRZ 2 (z + 1) = 2 * powerRZ 2 z) by (intros; rewrite powerRZ_add by lra; rewrite powerRZ_1; ring).
  split; [|split; [|split; [|split; [|split; [|split; [|split]]]]]].
  - apply Rle_trans with (ulp * powerRZ 2 (-20) * powerRZ 2 (-101)).
    + unfold tiny, ulp. rewrite <- !powerRZ_add by lra. change (-24 + -20 + -101)%Z with (-145)%Z. change 2 with (IZR radix2). rewrite <- !bpow_powerRZ. apply bpow_le. lia.
    + apply Rmult_le_compat_r; [apply Rlt_le, powerRZ_lt; lra|]. apply Rmult_le_compat_l; [pose proof ulp_pos; lra|]. change 2 with (IZR radix2) at 1. rewrite <- bpow_powerRZ. change (bpow radix2 (-20)) with (/ 1048576). lra.
  - change (-99)%Z with (-101 + 1 + 1)%Z. rewrite !P. ring.
  - change (-100)%Z with (-101 + 1)%Z. apply P.
  - apply powerRZ_lt. lra.
  - change 126%Z with (125 + 1)%Z. apply P.
  - change 2 with (IZR radix2). rewrite <- bpow_powerRZ. change 1 with (bpow radix2 0). apply bpow_le. lia.
  - change 2 with (IZR radix2). rewrite <- bpow_powerRZ. change 1 with (bpow radix2 0). apply bpow_le. lia.
  - unfold ulp. change (-22)%Z with (-24 + 1 + 1)%Z. rewrite !P. ring.
Qed.

(** The scale and one row, in the reals. *)
Lemma dim_facts : forall d, dim_ok d -> 0 <= INR d * ulp <= / 16 /\ 0 <= INR d * tiny <= INR d * ulp * / 1000000 * powerRZ 2 (-101).
Proof.
  intros d H. pose proof (dim_ulp d H). pose proof (pos_INR d). pose proof ulp_val as [U1 U2]. pose proof tiny_pos. destruct pow_facts as [T _].
  split; [split; [apply Rmult_le_pos; lra|auto]|]. split; [apply Rmult_le_pos; lra|]. replace (INR d * ulp * / 1000000 * powerRZ 2 (-101)) with (INR d * (ulp * / 1000000 * powerRZ 2 (-101))) by ring. apply Rmult_le_compat_l; auto.
Qed.

Lemma scale_real : forall d Sm S Nm Ns, dim_ok d -> powerRZ 2 (-99) <= Sm <= powerRZ 2 125 -> near d Sm Ns -> Ns <= Nm -> 0 <= S <= Sm -> near d S Nm ->
  Sm * (1 - 2.1 * (INR d * ulp)) <= Nm <= Sm * (1 + 2.1 * (INR d * ulp)) /\ powerRZ 2 (-100) <= Nm <= powerRZ 2 126.
Proof.
  intros d Sm S Nm Ns Hd [B1 B2] H1 H2 [S0 S1] H3. destruct (dim_facts d Hd) as [[K0 K1] [T0 T1]]. destruct pow_facts as [_ [P99 [P100 [P101 [P126 _]]]]].
  unfold near in *. set (k := INR d * ulp) in *. set (t := INR d * tiny) in *.
  replace (2 * INR d * ulp * Sm + 2 * INR d * tiny) with (2 * k * Sm + 2 * t) in H1 by (unfold k, t; ring). replace (2 * INR d * ulp * S + 2 * INR d * tiny) with (2 * k * S + 2 * t) in H3 by (unfold k, t; ring).
  apply Rabs_le_inv in H1, H3. clearbody k t.
  assert (T2 : t <= k * Sm * / 1000000). { eapply Rle_trans; [exact T1|]. replace (k * / 1000000 * powerRZ 2 (-101)) with (k * / 1000000 * powerRZ 2 (-101)) by ring. replace (k * Sm * / 1000000) with (k * / 1000000 * Sm) by ring. apply Rmult_le_compat_l; lra. }
  assert (KS : k * S <= k * Sm) by (apply Rmult_le_compat_l; lra). assert (KS0 : 0 <= k * Sm) by (apply Rmult_le_pos; lra). assert (KS1 : k * Sm <= / 16 * Sm) by (apply Rmult_le_compat_r; lra).
  repeat split; lra.
Qed.

Lemma row_real : forall d Sm S N Nm M2 O L, dim_ok d -> powerRZ 2 (-99) <= Sm -> 0 <= S <= Sm -> near d S N ->
  Sm * (1 - 2.1 * (INR d * ulp)) <= Nm -> Nm * (1 - 2 * ulp) <= M2 ->
  Rabs (O - S / M2) <= 3 * ulp * (S / M2) + 3 * INR d * tiny -> Rabs (L + N / M2 - 1) <= 12 * ulp ->
  S <= 2 * M2 /\ Rabs (O + L - 1) <= (INR d + 20) * powerRZ 2 (-22).
Proof.
  intros d Sm S N Nm M2 O L Hd B1 [S0 S1] HN H1 H2 HO HL. destruct (dim_facts d Hd) as [[K0 K1] [T0 T1]]. destruct pow_facts as [_ [P99 [P100 [P101 [P126 [_ [P1 ->]]]]]]]. pose proof ulp_val as [U1 U2].
  unfold near in HN. set (t := INR d * tiny) in *. replace ((INR d + 20) * (4 * ulp)) with (4 * (INR d * ulp) + 80 * ulp) by ring. set (k := INR d * ulp) in *.
  replace (2 * INR d * ulp * S + 2 * INR d * tiny) with (2 * k * S + 2 * t) in HN by (unfold k, t; ring). replace (3 * INR d * tiny) with (3 * t) in HO by (unfold t; ring). clearbody k t.
  assert (M3 : Sm * (3 / 4) <= M2). { assert (Sm * (1 - 2.1 * / 16) <= Nm) by (eapply Rle_trans; [|exact H1]; apply Rmult_le_compat_l; lra). assert (Nm * (1 - 2 * / 1000000) <= M2) by (eapply Rle_trans; [|exact H2]; apply Rmult_le_compat_l; lra). lra. }
  assert (M4 : 0 < M2) by lra. split; [lra|].
  set (s := S / M2) in *. set (b := N / M2) in *.
  assert (Hs0 : 0 <= s) by (unfold s; apply Rmult_le_pos; [auto|apply Rlt_le, Rinv_0_lt_compat; lra]).
  assert (Hs : s <= 4 / 3) by (unfold s; apply Rmult_le_reg_r with M2; auto; unfold Rdiv at 1; rewrite Rmult_assoc, Rinv_l by lra; lra).
  assert (Hb : Rabs (b - s) <= 2 * k * s + 2 * (t / M2)).
  { replace (b - s) with ((N - S) * / M2) by (unfold b, s, Rdiv; ring). rewrite Rabs_mult, (Rabs_pos_eq (/ M2)) by (apply Rlt_le, Rinv_0_lt_compat; auto).
    replace (2 * k * s + 2 * (t / M2)) with ((2 * k * S + 2 * t) * / M2) by (unfold s, Rdiv; ring). apply Rmult_le_compat_r; auto. apply Rlt_le, Rinv_0_lt_compat; auto. }
  assert (Ht : t / M2 <= k * / 1000000). { apply Rmult_le_reg_r with M2; auto. unfold Rdiv. rewrite Rmult_assoc, Rinv_l by lra. rewrite Rmult_1_r. eapply Rle_trans; [exact T1|]. apply Rmult_le_compat_l; lra. }
  assert (T2 : t <= k * / 1000000). { eapply Rle_trans; [exact T1|]. rewrite <- (Rmult_1_r (k * / 1000000)) at 2. apply Rmult_le_compat_l; lra. }
  assert (Ks : k * s <= k * (4 / 3)) by (apply Rmult_le_compat_l; auto). assert (Us : ulp * s <= ulp * (4 / 3)) by (apply Rmult_le_compat_l; lra).
  apply Rabs_le_inv in HO, HL, Hb. apply Rabs_le. lra.
Qed.

Lemma Forall2_nth : forall (A B : Type) (P : A -> B -> Prop) l m, Forall2 P l m -> forall i x, nth_error l i = Some x -> exists y, nth_error m i = Some y /\ P x y.
Proof. intros A B P l m H. induction H as [|x y l m Hxy H IH]; intros [|i] z E; cbn in *; try discriminate; [injection E as <-; eauto|eauto]. Qed.

Lemma row_ok : forall k d f v N M Nm Sm, dim_ok d -> length v = d -> Forall (elem_ok k) v -> f32_valid M = true -> finite M -> 0 < real M -> 
  real Nm * (1 - 2 * ulp) <= real M * real M <= real Nm * (1 + 3 * ulp) -> powerRZ 2 (-100) <= real Nm <= powerRZ 2 126 ->
  powerRZ 2 (-99) <= Sm -> elem_sq k v <= Sm -> Sm * (1 - 2.1 * (INR d * ulp)) <= real Nm -> f32_valid N = true -> finite N -> 0 <= real N <= real Nm -> near d (elem_sq k v) (real N) ->
  sum_sq f (fvec k v) = Ok N -> unit_scaled k M v (prep_row M N (fvec k v)).
Proof.
  intros k d f v N M Nm Sm Hd Hv Ev VM FM PM HM HNm HS HSv HS1 VN FN HN Hn _.
  destruct (last_ok M Nm N VM FM PM VN FN HN HNm HM) as [Fl [Vl [Rl Bl]]].
  pose proof (fvec_sq k v Ev) as Sq. pose proof (self_ip_pos (fvec k v)) as S0. rewrite Sq in S0.
  assert (S2 : elem_sq k v <= 2 * (real M * real M)).
  { destruct (dim_facts d Hd) as [[K0 K1] _]. pose proof ulp_val as [U1 U2]. destruct pow_facts as [_ [_ [_ [P101 _]]]]. assert (0 < powerRZ 2 (-99)) by (apply powerRZ_lt; lra).
    assert (Sm * (1 - 2.1 * / 16) <= real Nm) by (eapply Rle_trans; [|exact HS1]; apply Rmult_le_compat_l; lra).
    assert (real Nm * (1 - 2 * / 1000000) <= real M * real M) by (eapply Rle_trans; [|apply HM]; apply Rmult_le_compat_l; lra). lra. }
  assert (SS := S2). rewrite <- Sq in SS.
  destruct (scaled M (fvec k v) VM FM PM (fvec_good k v Ev) SS) as [Go [Fo Bo]]. rewrite Sq in Bo. unfold fvec in Bo at 2. rewrite map_length, Hv in Bo.
  assert (Lf : length (map (fun c => fdiv c M) (fvec k v)) = length v) by (unfold fvec; now rewrite !map_length).
  unfold unit_scaled, prep_row. split; [rewrite app_length, Lf; cbn; lia|]. split.
  { intros c Hc. apply in_app_or in Hc. destruct Hc as [Hc|[<-|[]]]; [apply Go, Hc|exact Fl]. }
  split; [|split].
  - intros j e He. destruct (Forall2_nth _ _ _ _ _ Fo j (kval k e)) as [c [Hc Bc]]; [unfold fvec; apply map_nth_error; auto|].
    exists c. split; [rewrite nth_error_app1; auto; apply nth_error_Some; unfold f32 in *; congruence|].
    rewrite Forall_forall in Ev. destruct (kval_ok k e (Ev e (nth_error_In _ _ He))) as [_ [_ Re]]. rewrite Re in Bc. exact Bc.
  - exists (last_coord M N). split; [|exact Rl]. rewrite nth_error_app2 by (rewrite Lf; lia). rewrite Lf, Nat.sub_diag. reflexivity.
  - rewrite Hv. destruct (row_real d Sm (elem_sq k v) (real N) (real Nm) (real M * real M) (row_sq (map (fun c => fdiv c M) (fvec k v))) (real (last_coord M N) * real (last_coord M N)) Hd HS (conj S0 HSv) Hn HS1 (proj1 HM) Bo Bl) as [_ R].
    rewrite float_sq_row. unfold row_sq in *. rewrite map_app, real_sum_app. cbn [map real_sum fold_right]. rewrite Rplus_0_r. exact R.
Qed.

(** Everything from the norms of the rows. *)
Lemma rows_ok_any : forall k d f vs, dim_ok d -> vs <> [] -> Permutation (fred_items f) (seq 0 d) ->
  (forall v, In v vs -> length v = d /\ Forall (elem_ok k) v /\ elem_sq k v <= powerRZ 2 125) ->
  (exists v, In v vs /\ powerRZ 2 (-99) <= elem_sq k v) ->
  exists norms, map_res (fun v => sum_sq f (fvec k v)) vs = Ok norms /\ length norms = length vs /\ Forall (fun x => finite x /\ f32_valid x = true /\ 0 <= real x) norms /\ norms <> [] /\ (exists x, In x norms /\ 0 < real x) /\
    forall Nm, In Nm norms -> (forall x, In x norms -> real x <= real Nm) -> let M := fsqrt Nm in finite M /\ 0 < real M /\
    (exists m, In m vs /\ (forall v, In v vs -> elem_sq k v <= elem_sq k m) /\ Rabs (real M ^ 2 - elem_sq k m) <= (INR d + 4) * powerRZ 2 (-22) * elem_sq k m) /\
    Forall2 (unit_scaled k M) vs (map (fun p => prep_row M (fst p) (fvec k (snd p))) (combine norms vs)).
Proof.
  intros k d f vs Hd Hne Hf Hv [v0 [Hv0 Hb]].
  assert (Hn : forall v, In v vs -> exists N, sum_sq f (fvec k v) = Ok N /\ finite N /\ f32_valid N = true /\ 0 <= real N /\ near d (elem_sq k v) (real N)).
  { intros v Iv. destruct (Hv v Iv) as [Lv [Ev Bv]]. assert (Lf : length (fvec k v) = d) by (unfold fvec; now rewrite map_length).
    destruct (norm_near f (fvec k v)) as [N [A [B [C [D F]]]]]; rewrite ?Lf, ?fvec_sq; auto using fvec_good.
    exists N. rewrite Lf, fvec_sq in F by auto. auto 6. }
  assert (Hms : exists norms, map_res (fun v => sum_sq f (fvec k v)) vs = Ok norms /\ Forall2 (fun v N => sum_sq f (fvec k v) = Ok N /\ finite N /\ f32_valid N = true /\ 0 <= real N /\ near d (elem_sq k v) (real N)) vs norms).
  { clear - Hn. induction vs as [|v vs IH]; [exists []; split; [reflexivity|constructor]|]. destruct (Hn v (or_introl eq_refl)) as [N HN]. destruct IH as [ns [E F]]; [intros w Hw; apply Hn; right; auto|].
    exists (N :: ns). cbn [map_res]. destruct HN as [HN HN']. rewrite HN. cbn [bind]. rewrite E. cbn [bind]. split; [reflexivity|]. constructor; auto. }
  destruct Hms as [norms [E F2]]. exists norms. split; [exact E|]. split; [clear - F2; induction F2; cbn; congruence|].
  assert (Nne : norms <> []) by (intros ->; inversion F2; subst; congruence).
  assert (Fn : Forall (fun x => finite x /\ f32_valid x = true /\ 0 <= real x) norms).
  { clear - F2. induction F2 as [|v N vs ns [_ [A [B [C _]]]] _ IH]; constructor; auto. }
  assert (Hpos : exists x, In x norms /\ 0 < real x).
  { destruct (In_nth_error _ _ Hv0) as [i0 Hi0]. destruct (Forall2_nth _ _ _ _ _ F2 i0 v0 Hi0) as [x [Hx [_ [_ [_ [_ Nx]]]]]]. exists x. split; [eapply nth_error_In; eauto|].
    destruct (Hv v0 Hv0) as [_ [_ Bv]]. destruct (scale_real d (elem_sq k v0) (elem_sq k v0) (real x) (real x) Hd (conj Hb Bv) Nx ltac:(lra) ltac:(destruct pow_facts as [_ [P99 [_ [P101 _]]]]; lra) Nx) as [_ [L3 _]]. destruct pow_facts as [_ [_ [P100 [P101 _]]]]. lra. }
  split; [exact Fn|]. split; [exact Nne|]. split; [exact Hpos|]. intros Nm Hin Hmax.
  destruct (real_max _ (elem_sq k) vs Hne) as [m [Hm Hmm]].
  destruct (In_nth_error _ _ Hm) as [im Him]. destruct (Forall2_nth _ _ _ _ _ F2 im m Him) as [Ns [HNs [_ [_ [_ [_ Nears]]]]]].
  assert (Hx : exists x, In x vs /\ near d (elem_sq k x) (real Nm)).
  { clear - F2 Hin. revert Hin. generalize Nm. clear Nm. induction F2 as [|v N vs ns H _ IH]; intros Nm Hin; [destruct Hin|]. destruct Hin as [<-|Hin].
    - exists v. split; [left; auto|apply H]. - destruct (IH _ Hin) as [x [A B]]. exists x. split; [right; auto|auto]. }
  destruct Hx as [x [Ix Nearx]]. destruct (Hv m Hm) as [_ [Em Bm]]. destruct (Hv x Ix) as [_ [Ex _]].
  assert (Sx0 : 0 <= elem_sq k x) by (rewrite <- fvec_sq by auto; apply self_ip_pos).
  assert (Bm0 : powerRZ 2 (-99) <= elem_sq k m) by (specialize (Hmm v0 Hv0); lra).
  destruct (scale_real d (elem_sq k m) (elem_sq k x) (real Nm) (real Ns) Hd (conj Bm0 Bm) Nears (Hmax Ns (nth_error_In _ _ HNs)) (conj Sx0 (Hmm x Ix)) Nearx) as [[L1 L2] [L3 L4]].
  rewrite Forall_forall in Fn. destruct (Fn Nm Hin) as [FNm [VNm _]].
  destruct (scale_ok Nm VNm FNm (conj L3 L4)) as [VM [FM [PM HM]]]. cbv zeta. set (M := fsqrt Nm) in *.
  split; [exact FM|]. split; [exact PM|]. split.
  - exists m. split; [exact Hm|]. split; [exact Hmm|]. destruct (dim_facts d Hd) as [[K0 K1] _]. destruct pow_facts as [_ [P99 [P100 [P101 [P126 [_ [P1 ->]]]]]]]. pose proof ulp_val as [U1 U2].
    replace ((INR d + 4) * (4 * ulp) * elem_sq k m) with (elem_sq k m * (4 * (INR d * ulp) + 16 * ulp)) by ring. replace (real M ^ 2) with (real M * real M) by ring. destruct HM as [HM1 HM2]. set (m2 := real M * real M) in *. set (kk := INR d * ulp) in *. clearbody m2 kk.
    set (s := elem_sq k m) in *. assert (0 < s) by lra. clearbody s. clear - HM1 HM2 L1 L2 U1 U2 K0 K1 H.
    assert (A1 : s * (1 - 2.1 * kk) * (1 - 2 * ulp) <= m2) by (eapply Rle_trans; [|exact HM1]; apply Rmult_le_compat_r; lra).
    assert (A2 : m2 <= s * (1 + 2.1 * kk) * (1 + 3 * ulp)) by (eapply Rle_trans; [exact HM2|]; apply Rmult_le_compat_r; lra).
    assert (A3 : 0 <= s * kk * ulp <= s * ulp * / 16). { split; [apply Rmult_le_pos; [apply Rmult_le_pos|]; lra|]. replace (s * kk * ulp) with (s * ulp * kk) by ring. apply Rmult_le_compat_l; [apply Rmult_le_pos; lra|auto]. }
    assert (A4 : 0 <= s * kk) by (apply Rmult_le_pos; lra). assert (A5 : 0 <= s * ulp) by (apply Rmult_le_pos; lra). apply Rabs_le. split; lra.
  - assert (G : forall vs' ns', incl vs' vs -> incl ns' norms -> Forall2 (fun v N => sum_sq f (fvec k v) = Ok N /\ finite N /\ f32_valid N = true /\ 0 <= real N /\ near d (elem_sq k v) (real N)) vs' ns' ->
      Forall2 (unit_scaled k M) vs' (map (fun p => prep_row M (fst p) (fvec k (snd p))) (combine ns' vs'))).
    { intros vs' ns' I1 I2 H. induction H as [|v N vs' ns' [A [B [C [D Nv]]]] _ IH]; cbn [combine map]; [constructor|]. constructor.
      - cbn [fst snd]. assert (Iv : In v vs) by (apply I1; left; auto). destruct (Hv v Iv) as [Lv [Ev _]]. eapply (row_ok k d f v N M Nm (elem_sq k m)); eauto; try (split; auto); try (apply Hmax, I2; left; auto).
      - apply IH; intros y Hy; [apply I1|apply I2]; right; auto. }
    apply G; auto using incl_refl.
Qed.

Lemma rows_ok : forall k d f vs, dim_ok d -> vs <> [] -> Permutation (fred_items f) (seq 0 d) ->
  (forall v, In v vs -> length v = d /\ Forall (elem_ok k) v /\ elem_sq k v <= powerRZ 2 125) ->
  (exists v, In v vs /\ powerRZ 2 (-99) <= elem_sq k v) ->
  exists norms, map_res (fun v => sum_sq f (fvec k v)) vs = Ok norms /\ length norms = length vs /\
    let M := fsqrt (max_norm2 norms) in finite M /\ 0 < real M /\
    (exists m, In m vs /\ (forall v, In v vs -> elem_sq k v <= elem_sq k m) /\ Rabs (real M ^ 2 - elem_sq k m) <= (INR d + 4) * powerRZ 2 (-22) * elem_sq k m) /\
    Forall2 (unit_scaled k M) vs (map (fun p => prep_row M (fst p) (fvec k (snd p))) (combine norms vs)).
Proof.
  intros k d f vs Hd Hne Hf Hv Hb. destruct (rows_ok_any k d f vs Hd Hne Hf Hv Hb) as [norms [E [L [Fn [Nne [_ H]]]]]]. exists norms. split; [exact E|]. split; [exact L|].
  destruct (max_norm2_ok norms Fn Nne) as [Hin Hmax]. exact (H _ Hin Hmax).
Qed.
