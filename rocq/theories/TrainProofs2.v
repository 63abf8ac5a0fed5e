(** Searching an index built with the training, and builds that fail. *)
From Coq Require Import NArith ZArith Reals Lra Lia String List Arith Bool Sorting.Permutation Floats.SpecFloat.
From Flocq Require Import Core.
From Verif Require Import Base Float32 PoolModel TopKSpec FilterSpec SearchSpec SearchModel ClosestModel ClosestSpec FlatModel FlatSpec IvfModel IvfProofs AcceptProofs PqModel DivFacts DistSpec RealSpec FloatReal L2ErrorProofs RealDistProofs SliceModel LloydModel RandModel RandProofs RandProofs2 BlasModel BlasSpec KmeansModel KmeansSpec KmeansProofs4 TrainModel TrainSpec TrainProofs.
Import ListNotations.
Local Open Scope R_scope.

Lemma top_apart : forall (f : nat -> f32) k all sel, is_top_k k (score f all) (score f sel) -> forall c c', In c sel -> In c' all -> ~ In c' sel -> fle (f c) (f c') = true.
Proof.
  intros f k all sel [rest [P [_ [_ H]]]] c c' Hc Ha Hn. assert (I : In (c', f c') (score f all)) by (unfold score; apply in_map_iff; exists c'; auto).
  apply (Permutation_in _ P) in I. apply in_app_or in I. destruct I as [I|I].
  - unfold score in I. apply in_map_iff in I. destruct I as [x [E Hx]]. inversion E. subst. contradiction.
  - assert (Ic : In (c, f c) (score f sel)) by (unfold score; apply in_map_iff; exists c; auto). exact (H _ _ Ic I).
Qed.


Lemma probed_apart : forall (inv : list (list nat)) probed, NoDup (concat inv) -> NoDup probed -> (forall c, In c probed -> (c < length inv)%nat) -> NoDup (concat (map (fun c => nth c inv []) probed)).
Proof.
  intros inv probed Ha Hp Hlt. set (others := filter (fun c => negb (existsb (Nat.eqb c) probed)) (seq 0 (length inv))).
  assert (ND : NoDup (probed ++ others)).
  { clear Ha Hlt. assert (X : forall c, In c probed -> ~ In c others). { intros c Hc Ho. apply filter_In in Ho. destruct Ho as [_ Ho]. apply negb_true_iff in Ho. rewrite <- not_true_iff_false in Ho. apply Ho. apply existsb_exists. exists c. split; [exact Hc|apply Nat.eqb_refl]. }
    assert (No : NoDup others) by apply NoDup_filter, seq_NoDup. clearbody others. induction probed as [|c l IH]; [exact No|]. inversion Hp. subst. cbn. constructor; [|apply IH; auto; intros; apply X; now right]. rewrite in_app_iff. intros [Q|Q]; [contradiction|]. apply (X c (or_introl eq_refl) Q). }
  assert (Lt : forall c, In c (probed ++ others) -> (c < length inv)%nat). { intros c Hc. apply in_app_or in Hc. destruct Hc as [Hc|Hc]; [auto|]. apply filter_In in Hc. destruct Hc as [Hc _]. apply in_seq in Hc. lia. }
  assert (All : forall c, In c (seq 0 (length inv)) -> In c (probed ++ others)).
  { intros c Hc. apply in_or_app. destruct (existsb (Nat.eqb c) probed) eqn:E; [left|right; apply filter_In; split; [exact Hc|now rewrite E]]. apply existsb_exists in E. destruct E as [x [Hx E]]. apply Nat.eqb_eq in E. now subst. }
  assert (Len : length (probed ++ others) = length inv). { apply Nat.le_antisymm; rewrite <- (seq_length (length inv) 0); apply NoDup_incl_length; auto using seq_NoDup. intros c Hc. apply in_seq. pose proof (Lt c Hc). lia. }
  pose proof (all_probed inv (length inv) (probed ++ others) eq_refl ND Len Lt) as P. apply (Permutation_NoDup (Permutation_sym P)) in Ha. rewrite map_app, concat_app in Ha. now apply ListLemmas.NoDup_app_l in Ha.
Qed.

Lemma search_built : forall m dr mbs csz (conv : N -> f32) dim nc rate (rows : list (list N)) B, let frows := map (map conv) rows in let train := sample_of rate dr frows in
  machine_ok dim (length rows) mbs (4 * B) m -> draws_ok dr -> (1 <= mbs)%nat -> (1 <= csz)%nat -> (1 <= nc)%nat -> (Z.of_nat dim <= 2 ^ 20)%Z ->
  vectors dim B frows -> 1 <= B <= powerRZ 2 98 -> train <> [] -> few_or_distinct dr (length train) nc ->
  forall centers inv ws q tags labels dist probe k filters indices distances,
  ivf_train_build m dr (nc - 1) mbs csz conv dim (length rows) nc rate (concat rows) [] = Ok (centers, inv) ->
  block_ways_ok dim ws -> vectors dim B [q] -> (probe <= nc)%nat -> (1 <= k)%nat ->
  (filters = [] \/ length (pts_to_labels labels) = length rows) -> finite_distances (length rows) dist -> room k indices distances ->
  exists acc probed ids indices' distances' cmps,
    filter_test (universal_of labels) (pts_to_labels labels) filters acc /\
    length probed = probe /\ NoDup probed /\ (forall c, In c probed -> (c < nc)%nat) /\
    (forall c c', In c probed -> (c' < nc)%nat -> ~ In c' probed -> exact_l2 q (nth c centers []) <= exact_l2 q (nth c' centers []) + (INR dim + 4) * powerRZ 2 (-16) * B) /\
    ivf_search_from (m_nrm2 m) ws (m_pop m) mbs dim (mkIvf (length rows) tags nc inv labels) centers q dist probe k filters indices distances = Ok (indices', distances', length ids, cmps) /\
    is_top_k k (score dist (filter acc (concat (map (fun c => nth c inv []) probed)))) (score dist ids) /\
    (probe = nc -> is_top_k k (score dist (filter acc (seq 0 (length rows)))) (score dist ids)) /\
    holds dist ids indices indices' distances distances'.
Proof.
  intros m dr mbs csz conv dim nc rate rows B frows train Hm Hd Hmb Hcs Hnc Ld V PB Hn L23 centers inv ws q tags labels dist probe k filters indices distances Eb HW Vq Hpr Hk Hlab Hdist Hroom.
  destruct (build_ok m dr mbs csz conv dim nc rate rows B Hm Hd Hmb Hcs Hnc Ld V PB Hn L23) as [seeds [cs [iv [Eb' [_ [_ [Lc [Vc [_ [Li [Pi _]]]]]]]]]]].
  rewrite Eb in Eb'. injection Eb' as <- <-.
  assert (Hcne : centers <> []) by (intros Q; rewrite Q in Lc; cbn in Lc; lia).
  destruct (query_matrix (m_nrm2 m) ws mbs dim q centers B Hmb Ld HW Vq Vc PB Hcne (mo_norms _ _ _ _ _ Hm)) as [dm [Em [NN [Far Near]]]].
  assert (Em' : closest_matrix (m_nrm2 m) ws mbs dim 1 nc q (concat centers) = Ok dm) by (rewrite <- Lc; exact Em). clear Em. rename Em' into Em.
  assert (Far' : exists c, (c < nc)%nat /\ flt (dm 0%nat c) FLT_MAX = true) by (rewrite <- Lc; exact Far).
  set (ix := mkIvf (length rows) tags nc inv labels).
  assert (Hok : ivf_ok ix). { split; [exact Li|]. intros l id H1 H2. assert (H : In id (concat inv)) by (apply in_concat; exists l; auto). apply (Permutation_in _ Pi) in H. apply in_seq in H. cbn. lia. }
  destruct (ivf_search_probed_test (m_pop m) mbs ix (dm 0%nat) dist probe k filters indices distances (mo_pop _ _ _ _ _ Hm) Hmb Hok Hpr Hk Hlab NN Far' Hdist Hroom) as [acc [probed [ids [i' [d' [cmps [A [Lp [ND [Lt [T [S [T2 [N2 [_ H]]]]]]]]]]]]]]].
  exists acc, probed, ids, i', d', cmps. split; [exact A|]. split; [exact Lp|]. split; [exact ND|]. split; [exact Lt|]. split.
  { intros c c' Hc Hc' Hni. apply Near; [eapply Nat.lt_le_trans; [apply Lt; exact Hc|apply Nat.eq_le_incl; symmetry; exact Lc]|eapply Nat.lt_le_trans; [exact Hc'|apply Nat.eq_le_incl; symmetry; exact Lc]|]. apply (top_apart _ _ _ _ T c c' Hc); [apply in_seq; cbn; lia|exact Hni]. }
  split. { unfold ivf_search_from. change (ivf_nc ix) with nc. assert (Q : (nc <? probe)%nat = false) by (apply Nat.ltb_ge; exact Hpr). rewrite Q, Em. cbn [bind]. exact S. }
  assert (NDl : NoDup (concat (map (fun c => nth c inv []) probed))).
  { assert (NDa : NoDup (concat inv)) by (apply (Permutation_NoDup (Permutation_sym Pi)), seq_NoDup). apply probed_apart; auto. intros c Hc. rewrite Li. apply Lt. exact Hc. }
  split; [|split; [|exact H]].
  - rewrite nodup_fixed_point in T2 by (now apply NoDup_filter). exact T2.
  - intros E. eapply IvfProofs.top_k_perm; [|exact T2]. unfold score. apply Permutation_map. apply nodup_perm_seq. eapply Permutation_trans; [|exact Pi]. apply (all_probed inv nc); auto. congruence.
Qed.

(** Builds that read what is not there. *)
Lemma sample_none : forall rate dr frows, (forall i, picked_train (f64_of_f32 rate) (dr_sample dr i) = false) -> sample_of rate dr frows = [].
Proof. intros rate dr frows H. unfold sample_of. replace (filter _ _) with (@nil nat); [reflexivity|]. induction (seq 0 (length frows)) as [|x l IH]; [reflexivity|]. cbn [filter]. rewrite H. exact IH. Qed.

Lemma build_empty : forall m dr fuel mbs csz (conv : N -> f32) dim nc rate (rows : list (list N)) old, (forall r, In r rows -> length r = dim) -> sample_of rate dr (map (map conv) rows) = [] ->
  ivf_train_build m dr fuel mbs csz conv dim (length rows) nc rate (concat rows) old = UB.
Proof.
  intros m dr fuel mbs csz conv dim nc rate rows old H E. unfold ivf_train_build. rewrite slice_train by exact H. rewrite E. cbn [bind]. unfold first_centers. cbn [length]. change ((2 ^ 23 <? N.of_nat 0)%N) with false. cbv iota. unfold kmeans_pp, rd. destruct (dr_first dr 0); reflexivity.
Qed.

Lemma build_none : forall m dr fuel mbs csz (conv : N -> f32) dim rate (rows : list (list N)) old, (forall r, In r rows -> length r = dim) -> (Z.of_nat (length (sample_of rate dr (map (map conv) rows))) <= 2 ^ 23)%Z ->
  ivf_train_build m dr fuel mbs csz conv dim (length rows) 0 rate (concat rows) old = UB.
Proof.
  intros m dr fuel mbs csz conv dim rate rows old H L. unfold ivf_train_build. rewrite slice_train by exact H. cbn [bind]. unfold first_centers. assert (Q : (2 ^ 23 <? N.of_nat (length (sample_of rate dr (map (map conv) rows))))%N = false) by (apply N.ltb_ge; lia). rewrite Q.
  unfold kmeans_pp. destruct (rd _ _) as [x| | | |] eqn:R; unfold rd in R; destruct (nth_error _ _) in R; try discriminate; reflexivity.
Qed.

(** Every rate below 1 can leave the sample empty. *)
Lemma last_word : forall rate, f32_valid rate = true -> finite rate -> flt rate f32_one = true -> picked_train (f64_of_f32 rate) 4294967295 = false.
Proof.
  intros rate V F L. unfold picked_train. destruct (of_f32_any _ V F) as [F6 [V6 [R6 _]]]. destruct one64 as [F1 [V1 R1]].
  assert (Lr : real rate < 1). { apply flt_real in L; auto; try reflexivity; try exact I. rewrite one_real in L. exact L. }
  assert (Q : SFltb (f64_of_f32 rate) f64_one = true) by (apply dlt_real; auto; rewrite R6, R1; exact Lr). rewrite Q.
  change (uniform32 f32_zero f32_one 4294967295) with f32_below_one || (replace (uniform32 f32_zero f32_one 4294967295) with f32_below_one by (vm_compute; reflexivity)).
  apply not_true_is_false. intros P. assert (Vb : f32_valid f32_below_one = true) by reflexivity. destruct (of_f32_any f32_below_one Vb I) as [Fb [Vb6 [Rb _]]]. apply dlt_real in P; auto. rewrite R6, Rb in P.
  rewrite below_real in P. assert (G : generic_format radix2 (FLT_exp (-149) 24) (real rate)) by (apply L2ErrorProofs.real_format, V).
  assert (G1 : generic_format radix2 (FLT_exp (-149) 24) (bpow radix2 0)) by (apply generic_format_bpow'; [auto with typeclass_instances|]; unfold FLT_exp; lia).
  change 1 with (bpow radix2 0) in Lr. apply (pred_ge_gt radix2 (FLT_exp (-149) 24) _ _ G G1) in Lr. rewrite pred_bpow in Lr. change (bpow radix2 0) with 1 in Lr. unfold FLT_exp in Lr. cbn [Z.sub Z.max] in Lr. change (Z.max (0 - 24) (-149)) with (-24)%Z in Lr. lra.
Qed.


Lemma rate_fails : forall rate, f32_valid rate = true -> finite rate -> flt rate f32_one = true -> exists dr, draws_ok dr /\
  forall m fuel mbs csz (conv : N -> f32) dim nc (rows : list (list N)) old, (forall r, In r rows -> length r = dim) -> ivf_train_build m dr fuel mbs csz conv dim (length rows) nc rate (concat rows) old = UB.
Proof.
  intros rate V F L. exists (mkDraws (fun _ => 4294967295%N) (fun _ => 0%nat) (fun _ => 0%N) (fun _ i => i)). split.
  - split; [intros i; reflexivity|]. split; [intros i; reflexivity|]. intros t Ht. cbn. lia.
  - intros. apply build_empty; auto. apply sample_none. intros i. now apply last_word.
Qed.

Lemma repeated_fails : forall m dr fuel mbs csz (conv : N -> f32) dim nc rate (rows : list (list N)) old i j, let t := length (sample_of rate dr (map (map conv) rows)) in
  (forall r, In r rows -> length r = dim) -> (2 ^ 23 < Z.of_nat t)%Z -> (forall i, (i < nc)%nat -> (dr_points dr t i < t)%nat) -> (i < j < nc)%nat -> dr_points dr t i = dr_points dr t j ->
  ivf_train_build m dr fuel mbs csz conv dim (length rows) nc rate (concat rows) old = UB.
Proof.
  intros m dr fuel mbs csz conv dim nc rate rows old i j t H L Hr Hij E. unfold ivf_train_build. rewrite slice_train by exact H. cbn [bind]. unfold first_centers. fold t.
  assert (Q : (2 ^ 23 <? N.of_nat t)%N = true) by (apply N.ltb_lt; lia). rewrite Q. destruct (LloydProofs2.random_centers_ok (sample_of rate dr (map (map conv) rows)) (dr_points dr t) nc Hr) as [out [-> [Lo Ho]]]. cbn [bind].
  assert (N0 : In None out). { apply nth_error_In with j. rewrite (Ho j) by lia. assert (X : existsb (Nat.eqb (dr_points dr t j)) (map (dr_points dr t) (seq 0 j)) = true); [|now rewrite X]. apply existsb_exists. exists (dr_points dr t i). split; [apply in_map; apply in_seq; lia|]. rewrite E. apply Nat.eqb_refl. }
  assert (U : all_written out = UB). { clear - N0. unfold all_written. induction out as [|o l IH]; [destruct N0|]. cbn. destruct o as [x|]; [|reflexivity]. destruct N0 as [N0|N0]; [discriminate|]. now rewrite (IH N0). }
  now rewrite U.
Qed.
