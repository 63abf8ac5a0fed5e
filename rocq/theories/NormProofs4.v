(** Scaling to unit norm: prepare_base_for_inner_products, and the distances to queries. *)
From Coq Require Import NArith ZArith Reals Lra Lia List Arith Bool Permutation Floats.SpecFloat.
From Flocq Require Raux.
From Verif Require Import Base Bytes Float32 FloatBits DivFacts DistSpec StreamModel BinModel BinSpec BinProofs ClosestModel ClosestProofs ConvertModel ConvertProofs FusedModel RealSpec L2ErrorProofs NormModel NormSpec NormProofs NormProofs2 NormProofs3.
Import ListNotations.

Lemma elems_range : forall k d vs, (forall v, In v vs -> length v = d /\ Forall (elem_ok k) v) -> in_range (kwidth k) vs d.
Proof.
  intros k d vs H v Hv. destruct (H v Hv) as [L F]. split; [exact L|]. intros e He. rewrite Forall_forall in F. specialize (F e He). destruct k; cbn in F |- *; [destruct F as [F _]|..]; exact F.
Qed.

Lemma prepare_ok : forall k f bs g1 g2 n d vs, 1 <= bs -> length g1 = 4 -> length g2 = 4 -> length vs = n -> 1 <= n -> (N.of_nat n < 2 ^ 32)%N -> (Z.of_nat d <= 2 ^ 20)%Z ->
  Permutation (fred_items f) (seq 0 d) ->
  (forall v, In v vs -> length v = d /\ Forall (elem_ok k) v /\ (elem_sq k v <= powerRZ 2 125)%R) -> (exists v, In v vs /\ (powerRZ 2 (-99) <= elem_sq k v)%R) ->
  exists M out, prepare_base k f bs g1 g2 (Some (bin_file (kwidth k) (N.of_nat n) (N.of_nat d) (concat vs))) =
    Ok (bin_file 4 (N.of_nat n) (N.of_nat (d + 1)) (map bits_of_f32 (concat out)), M) /\
    finite M /\ (0 < real M)%R /\
    (exists m, In m vs /\ (forall v, In v vs -> elem_sq k v <= elem_sq k m)%R /\ (Rabs (real M ^ 2 - elem_sq k m) <= (INR d + 4) * powerRZ 2 (-22) * elem_sq k m)%R) /\
    Forall2 (unit_scaled k M) vs out.
Proof.
  intros k f bs g1 g2 n d vs Hbs L1 L2 Ln Hn Rn Hd Hf Hv Hb.
  assert (Ne : vs <> []) by (intros ->; cbn in Ln; lia). destruct (rows_ok k d f vs Hd Ne Hf Hv Hb) as [norms [E [Lno [FM [PM [Hm F2]]]]]].
  exists (fsqrt (max_norm2 norms)), (out_rows k (fsqrt (max_norm2 norms)) norms vs). split; [|auto].
  assert (Ir : in_range (kwidth k) vs d) by (apply elems_range; intros v Iv; destruct (Hv v Iv) as [A [B _]]; auto).
  unfold prepare_base, bin_file. cbn [open_file]. assert (Rd : u32_range (N.of_nat d)) by (unfold u32_range; lia).
  rewrite read_header_app by auto. rewrite !Nat2N.id. set (b := if n <=? bs then n else bs).
  assert (B1 : 1 <= b) by (unfold b; destruct (n <=? bs); lia). destruct (b =? 0) eqn:Eb; [apply Nat.eqb_eq in Eb; lia|].
  destruct (n_blocks_bounds n b B1) as [C _].
  destruct (norm_blocks_ok k f b n d (n_blocks n b) 0 vs (repeat 0%N (b * d * kwidth k)) norms Ir ltac:(lia) ltac:(cbn; lia) E) as [buf Eq]. rewrite Eq. cbn [bind].
  unfold seek8. cbn [s_good]. rewrite app_assoc, skipn_len_app by (now rewrite app_length, !u32_length).
  rewrite (out_blocks_ok k (fsqrt (max_norm2 norms)) norms b n d (n_blocks n b) 0 vs buf Ir) by (try lia; cbn; lia). cbn [bind].
  f_equal. f_equal. f_equal. f_equal. rewrite N.mod_small by lia. f_equal. lia.
Qed.

(** ** Order of distances and order of inner products *)
Local Open Scope R_scope.
Lemma dot_near : forall k M q x o, Forall2 (fun e c => Rabs (real c - elem_real k e / real M) <= ulp * Rabs (elem_real k e / real M) + tiny) x o -> length q = length x -> 0 < real M ->
  Rabs (exact_ip q o - query_dot k q x / real M) <= ulp * (query_abs k q x / real M) + tiny * abs_sum q.
Proof.
  intros k M q x o H. revert q. induction H as [|e c x o Hec H IH]; intros [|a q] L PM; try discriminate.
  - unfold exact_ip, query_dot, query_abs, abs_sum. cbn. unfold Rdiv. rewrite !Rmult_0_l, Rmult_0_r, Rminus_0_r, Rabs_R0. lra.
  - specialize (IH q ltac:(cbn in L; lia) PM). unfold exact_ip, query_dot, query_abs, abs_sum, real_sum in *. cbn [combine map fold_right fst snd] in *.
    set (A := fold_right Rplus 0 (map (fun p => real (fst p) * real (snd p)) (combine q o))) in *. set (B := fold_right Rplus 0 (map (fun p => real (fst p) * elem_real k (snd p)) (combine q x))) in *.
    set (C := fold_right Rplus 0 (map (fun p => Rabs (real (fst p) * elem_real k (snd p))) (combine q x))) in *. set (D := fold_right Rplus 0 (map (fun c => Rabs (real c)) q)) in *.
    replace (real a * real c + A - (real a * elem_real k e + B) / real M) with (real a * (real c - elem_real k e / real M) + (A - B / real M)) by (field; lra).
    eapply Rle_trans; [apply Rabs_triang|]. rewrite Rabs_mult.
    assert (S : Rabs (real a) * Rabs (real c - elem_real k e / real M) <= Rabs (real a) * (ulp * Rabs (elem_real k e / real M) + tiny)) by (apply Rmult_le_compat_l; auto using Rabs_pos).
    assert (Q : Rabs (elem_real k e / real M) = Rabs (elem_real k e) / real M) by (unfold Rdiv; rewrite Rabs_mult, Rabs_inv, (Rabs_pos_eq (real M)) by lra; reflexivity).
    rewrite Q in S. rewrite Rabs_mult.
    replace (ulp * ((Rabs (real a) * Rabs (elem_real k e) + C) / real M) + tiny * (Rabs (real a) + D)) with (Rabs (real a) * (ulp * (Rabs (elem_real k e) / real M) + tiny) + (ulp * (C / real M) + tiny * D)) by (field; lra). lra.
Qed.

Lemma l2_expand : forall q o l, length q = length o -> exact_l2 (q ++ [f32_zero]) (o ++ [l]) = float_sq q + float_sq (o ++ [l]) - 2 * exact_ip q o.
Proof.
  induction q as [|a q IH]; intros [|c o] l L; try discriminate.
  - unfold exact_l2, float_sq, exact_ip, real_sum. cbn [app combine map fold_right fst snd real f32_zero]. ring.
  - specialize (IH o l ltac:(cbn in L; lia)). unfold exact_l2, float_sq, exact_ip, real_sum in *. cbn [app combine map fold_right fst snd] in *. rewrite IH. ring.
Qed.

Lemma unit_split : forall k M x o, unit_scaled k M x o -> exists os l, o = os ++ [l] /\ length os = length x /\
  Forall2 (fun e c => Rabs (real c - elem_real k e / real M) <= ulp * Rabs (elem_real k e / real M) + tiny) x os.
Proof.
  intros k M x o [L [_ [H _]]]. destruct (@exists_last _ o) as [os [l ->]]; [intros ->; discriminate|]. exists os, l. split; [reflexivity|]. rewrite app_length in L. cbn in L. assert (Lo : length os = length x) by lia. split; [exact Lo|].
  clear L. revert os Lo H. induction x as [|e x IH]; intros [|c os] Lo H; try discriminate; constructor.
  - destruct (H 0%nat e eq_refl) as [c' [E B]]. cbn in E. injection E as <-. exact B.
  - apply IH; [cbn in Lo; lia|]. intros j e' He. destruct (H (S j) e' He) as [c' [E B]]. exists c'. split; auto.
Qed.

Lemma unit_order : forall k M q x y ox oy, 0 < real M -> length q = length x -> length q = length y -> unit_scaled k M x ox -> unit_scaled k M y oy ->
  query_dot k q y / real M + (INR (length q) + 20) * powerRZ 2 (-22) + powerRZ 2 (-24) * ((query_abs k q x + query_abs k q y) / real M) + powerRZ 2 (-149) * abs_sum q < query_dot k q x / real M ->
  exact_l2 (q ++ [f32_zero]) ox < exact_l2 (q ++ [f32_zero]) oy.
Proof.
  intros k M q x y ox oy PM Lx Ly Hx Hy H. pose proof Hx as [_ [_ [_ [_ Nx]]]]. pose proof Hy as [_ [_ [_ [_ Ny]]]].
  destruct (unit_split _ _ _ _ Hx) as [a [l [-> [La Fa]]]]. destruct (unit_split _ _ _ _ Hy) as [b [m [-> [Lb Fb]]]].
  pose proof (dot_near k M q x a Fa Lx PM) as Dx. pose proof (dot_near k M q y b Fb Ly PM) as Dy.
  pose proof (l2_expand q a l (eq_trans Lx (eq_sym La))) as Ea. pose proof (l2_expand q b m (eq_trans Ly (eq_sym Lb))) as Eb. eapply Rle_lt_trans; [right; exact Ea|]. eapply Rlt_le_trans; [|right; symmetry; exact Eb]. clear Ea Eb. rewrite <- Lx in Nx. rewrite <- Ly in Ny. change (powerRZ 2 (-24)) with ulp in H.
  assert (T : powerRZ 2 (-149) = 2 * tiny) by (unfold tiny; change (-149)%Z with (1 + -150)%Z; rewrite powerRZ_add by lra; rewrite powerRZ_1; ring). rewrite T in H.
  apply Raux.Rabs_le_inv in Nx, Ny, Dx, Dy. unfold Rdiv in *. lra.
Qed.
