(** The build of an IVF index from the training on. *)
From Coq Require Import NArith ZArith Reals Lra Lia List Arith Bool Sorting.Permutation Floats.SpecFloat.
From Verif Require Import Base Float32 DivFacts DistSpec RealSpec FloatReal L2ErrorProofs RealDistProofs ListLemmas ClosestModel ClosestSpec PqModel SliceModel SliceProofs LloydModel LloydProofs2 RandModel RandProofs RandProofs2 BlasModel BlasSpec BlasProofs BlasProofs5 BlasProofs6 BlasProofs7 BlasProofs8 BlasProofs9 KmeansModel KmeansSpec KmeansProofs3 KmeansProofs4 KmeansProofs6 IvfModel TrainModel TrainSpec.
Import ListNotations.
Local Open Scope R_scope.

Lemma collect_some : forall (l : list (list f32)), all_written (map Some l) = Ok l.
Proof. unfold all_written. induction l as [|x l IH]; [reflexivity|]. cbn. now rewrite IH. Qed.

Lemma sum_sq_coord : forall (r : list f32) v B, In v r -> sum_sq r <= B -> real v ^ 2 <= B.
Proof.
  intros r v B. unfold sum_sq, real_sum. assert (P : forall l : list f32, 0 <= fold_right Rplus 0 (map (fun x => real x ^ 2) l)).
  { induction l as [|x l IH]; cbn [map fold_right]; [lra|]. pose proof (pow2_ge_0 (real x)). lra. }
  induction r as [|x r IH]; intros I H; [destruct I|]; cbn [map fold_right] in H; destruct I as [->|I]; [pose proof (P r); lra|]. apply IH; auto. pose proof (pow2_ge_0 (real x)). lra.
Qed.

Lemma coord_bound : forall dim B (r : list f32) v, row_good dim B r -> B <= powerRZ 2 98 -> In v r -> Rabs (real v) <= powerRZ 2 49.
Proof.
  intros dim B r v [L [G S]] HB I. pose proof (sum_sq_coord r v B I S) as Q. assert (P : 0 < powerRZ 2 49) by (apply powerRZ_lt; lra).
  assert (E : powerRZ 2 98 = powerRZ 2 49 ^ 2) by (replace 98%Z with (49 + 49)%Z by reflexivity; rewrite powerRZ_add by lra; ring).
  apply Rsqr_incr_0_var; [|lra]. rewrite <- Rsqr_abs. unfold Rsqr. rewrite E in HB. cbn [pow] in *. lra.
Qed.

Lemma first_few : forall dr (train : list (list f32)) nc dim B, draws_ok dr -> train <> [] -> (Z.of_nat (length train) <= 2 ^ 23)%Z -> (Z.of_nat dim <= 2 ^ 20)%Z -> (1 <= nc)%nat ->
  vectors dim B train -> B <= powerRZ 2 98 ->
  exists seeds, first_centers (nc - 1) dr train nc = Ok seeds /\ length seeds = nc /\ forall s, In s seeds -> In s train.
Proof.
  intros dr train nc dim B [_ [Hd Hf]] Hn L23 Ld Hc V HB. unfold first_centers.
  assert (Q : (2 ^ 23 <? N.of_nat (length train))%N = false) by (apply N.ltb_ge; lia). rewrite Q.
  assert (L1 : (1 <= length train)%nat) by (destruct train; [congruence|cbn; lia]).
  assert (Hr : forall x, In x train -> length x = dim /\ forall v, In v x -> finite v /\ f32_valid v = true /\ Rabs (real v) <= powerRZ 2 49).
  { intros x Hx. pose proof (vectors_good _ _ _ x V Hx) as G. split; [apply G|]. intros v Hv. destruct (proj1 (proj2 G) v Hv) as [F W]. repeat split; auto. exact (coord_bound _ _ _ _ G HB Hv). }
  destruct (kmeans_pp_calc dim train (dr_first dr (length train)) (dr_darts dr) nc ltac:(lia) ltac:(lia) Hr Hd (Hf _ L1) Hc) as [picked [flag [centers E]]].
  rewrite E. cbn [bind]. destruct (kmeans_pp_result _ _ _ _ _ _ _ _ _ (Hf _ L1) Hc E) as [Lp [Ip [_ Ec]]].
  exists (map (fun p => nth p train []) picked). subst centers. rewrite <- (map_map (fun p => nth p train []) Some), collect_some. split; [reflexivity|]. split; [now rewrite map_length|].
  intros s Hs. apply in_map_iff in Hs. destruct Hs as [p [<- Hp]]. apply nth_In. auto.
Qed.


Lemma collect_nth : forall (cs : list (option (list f32))) (f : nat -> list f32), (forall i, (i < length cs)%nat -> nth_error cs i = Some (Some (f i))) -> cs = map Some (map f (seq 0 (length cs))).
Proof.
  induction cs as [|c cs IH]; intros f H; [reflexivity|]. cbn [length seq map]. pose proof (H 0%nat ltac:(cbn; lia)) as H0. cbn in H0. injection H0 as ->. f_equal. rewrite <- seq_shift, (map_map S f). apply (IH (fun i => f (S i))). intros i Hi. apply (H (S i)). cbn. lia.
Qed.
Lemma first_ok : forall dr (train : list (list f32)) nc dim B, draws_ok dr -> train <> [] -> few_or_distinct dr (length train) nc -> (Z.of_nat dim <= 2 ^ 20)%Z -> (1 <= nc)%nat ->
  vectors dim B train -> B <= powerRZ 2 98 ->
  exists seeds, first_centers (nc - 1) dr train nc = Ok seeds /\ length seeds = nc /\ forall s, In s seeds -> In s train.
Proof.
  intros dr train nc dim B Hd Hn Hf Ld Hc V HB. destruct (Z.le_gt_cases (Z.of_nat (length train)) (2 ^ 23)) as [L|L]; [now apply (first_few dr train nc dim B)|].
  destruct Hf as [Hf|[_ [Hr Hdis]]]; [lia|]. unfold first_centers. assert (Q : (2 ^ 23 <? N.of_nat (length train))%N = true) by (apply N.ltb_lt; lia). rewrite Q.
  destruct (random_centers_ok train (dr_points dr (length train)) nc Hr) as [out [-> [Lo Ho]]]. cbn [bind].
  rewrite (collect_nth out (fun i => nth (dr_points dr (length train) i) train [])).
  - rewrite collect_some. eexists. split; [reflexivity|]. split; [now rewrite map_length, seq_length|]. intros s Hs. apply in_map_iff in Hs. destruct Hs as [i [<- Hi]]. apply in_seq in Hi. apply nth_In. apply Hr. lia.
  - intros i Hi. rewrite Lo in Hi. rewrite (Ho i Hi). destruct (existsb _ _) eqn:E; [|reflexivity]. exfalso. apply existsb_exists in E. destruct E as [x [Hx E]]. apply Nat.eqb_eq in E. apply in_map_iff in Hx. destruct Hx as [k [<- Hk]]. apply in_seq in Hk. apply (Hdis k i); [lia|congruence].
Qed.

Lemma sample_in : forall rate dr frows s, In s (sample_of rate dr frows) -> In s frows.
Proof.
  intros rate dr frows s H. apply in_map_iff in H. destruct H as [p [<- Hp]]. apply filter_In in Hp. destruct Hp as [Hp _]. apply in_seq in Hp. apply nth_In. lia.
Qed.

Lemma vectors_incl : forall dim B a b, vectors dim B b -> (forall r, In r a -> In r b) -> vectors dim B a.
Proof. intros dim B a b H I r Hr. apply H. auto. Qed.
Lemma vectors_more : forall dim B C a, vectors dim B a -> B <= C -> vectors dim C a.
Proof. intros dim B C a H I r Hr. destruct (H r Hr) as [L [F S]]. repeat split; auto; try apply F; auto. lra. Qed.

Lemma combine_seq_nth : forall {A : Type} (l : list A) k c x, In (c, x) (combine (seq k (length l)) l) -> nth_error l (c - k) = Some x /\ (k <= c)%nat.
Proof.
  induction l as [|y l IH]; intros k c x H; [destruct H|]. cbn [length seq combine] in H. destruct H as [E|H].
  - inversion E. subst. rewrite Nat.sub_diag. auto.
  - destruct (IH _ _ _ H) as [E L]. replace (c - k)%nat with (S (c - S k)) by lia. split; [exact E|lia].
Qed.

Lemma real_sum_app : forall a b, real_sum (a ++ b) = real_sum a + real_sum b.
Proof. unfold real_sum. induction a as [|x a IH]; intros b; cbn; [lra|]. rewrite IH. lra. Qed.
Lemma real_sum_perm : forall a b, Permutation a b -> real_sum a = real_sum b.
Proof. unfold real_sum. induction 1; cbn; lra. Qed.

(** A bound for every point gives one for the sum. *)
Lemma lists_le : forall frows centers (inv : list (list nat)) e, centers <> [] -> length inv = length centers -> Permutation (concat inv) (seq 0 (length frows)) ->
  (forall c l j c', nth_error inv c = Some l -> In j l -> (c' < length centers)%nat -> exact_l2 (nth j frows []) (nth c centers []) <= exact_l2 (nth j frows []) (nth c' centers []) + e) ->
  lists_cost frows centers inv <= objective frows centers + INR (length frows) * e.
Proof.
  intros frows centers inv e Hne Hl Hp H. unfold lists_cost.
  assert (A : forall ll, (forall cl, In cl ll -> nth_error inv (fst cl) = Some (snd cl)) ->
    real_sum (concat (map (fun cl => map (fun j => exact_l2 (nth j frows []) (nth (fst cl) centers [])) (snd cl)) ll)) <= real_sum (map (fun j => to_closest centers (nth j frows []) + e) (concat (map snd ll)))).
  { induction ll as [|[c l] ll IH]; intros Hll; [cbn; lra|]. cbn [map concat snd fst]. rewrite map_app, !real_sum_app. apply Rplus_le_compat; [|apply IH; intros; apply Hll; now right].
    pose proof (Hll (c, l) (or_introl eq_refl)) as Ec. cbn [fst snd] in Ec. assert (Q : forall j, In j l -> exact_l2 (nth j frows []) (nth c centers []) <= to_closest centers (nth j frows []) + e).
    { intros j Hj. assert (exact_l2 (nth j frows []) (nth c centers []) - e <= to_closest centers (nth j frows [])); [|lra]. apply to_closest_ge; [exact Hne|]. intros c' Hc'. pose proof (H c l j c' Ec Hj Hc'). lra. }
    clear - Q. unfold real_sum. induction l as [|j l IH]; cbn; [lra|]. apply Rplus_le_compat; [apply Q; now left|apply IH; intros; apply Q; now right]. }
  eapply Rle_trans; [apply A|].
  - intros [c l] Hcl. destruct (combine_seq_nth inv 0 c l Hcl) as [E _]. rewrite Nat.sub_0_r in E. exact E.
  - assert (S : map snd (combine (seq 0 (length inv)) inv) = inv).
    { clear. generalize 0%nat. induction inv as [|x l IH]; intros k; [reflexivity|]. cbn. now rewrite IH. }
    rewrite S. rewrite (real_sum_perm _ (map (fun j => to_closest centers (nth j frows []) + e) (seq 0 (length frows)))) by (now apply Permutation_map).
    unfold objective. assert (M : map (fun j => to_closest centers (nth j frows []) + e) (seq 0 (length frows)) = map (fun x => to_closest centers x + e) frows).
    { rewrite <- (map_map (fun j => nth j frows []) (fun x => to_closest centers x + e)). f_equal. clear. induction frows as [|x l IH]; [reflexivity|]. cbn [length seq map nth]. f_equal. rewrite <- seq_shift, map_map. exact IH. }
    rewrite M. clear. unfold real_sum. induction frows as [|x l IH]; [cbn; lra|]. cbn [map fold_right length]. rewrite S_INR. lra.
Qed.

Lemma slice_train : forall (conv : N -> f32) dim dr rate (rows : list (list N)), (forall r, In r rows -> length r = dim) ->
  slice_memory conv dim (fun i => picked_train (f64_of_f32 rate) (dr_sample dr i)) (concat rows) 0 (length rows) = Ok (sample_of rate dr (map (map conv) rows)).
Proof.
  intros conv dim dr rate rows H. rewrite (slice_memory_ok conv dim _ rows H (length rows) 0) by lia. f_equal. unfold sample_of. rewrite map_length. apply map_ext_in. intros p Hp.
  apply filter_In in Hp. destruct Hp as [Hp _]. apply in_seq in Hp. rewrite (nth_indep _ [] (map conv [])) by (rewrite map_length; lia). now rewrite map_nth.
Qed.

Lemma build_ok : forall m dr mbs csz (conv : N -> f32) dim nc rate (rows : list (list N)) B, let frows := map (map conv) rows in let train := sample_of rate dr frows in
  machine_ok dim (length rows) mbs (4 * B) m -> draws_ok dr -> (1 <= mbs)%nat -> (1 <= csz)%nat -> (1 <= nc)%nat -> (Z.of_nat dim <= 2 ^ 20)%Z ->
  vectors dim B frows -> 1 <= B <= powerRZ 2 98 -> train <> [] -> few_or_distinct dr (length train) nc ->
  exists seeds centers inv, ivf_train_build m dr (nc - 1) mbs csz conv dim (length rows) nc rate (concat rows) [] = Ok (centers, inv) /\
    length seeds = nc /\ (forall s, In s seeds -> In s train) /\
    length centers = nc /\ vectors dim (4 * B) centers /\
    objective train centers <= objective train seeds + 10 * (INR (length train) * ((INR dim + 4) * powerRZ 2 (-16) * B)) /\
    length inv = nc /\ Permutation (concat inv) (seq 0 (length rows)) /\
    (forall c l j c', nth_error inv c = Some l -> In j l -> (c' < nc)%nat ->
       exact_l2 (nth j frows []) (nth c centers []) <= exact_l2 (nth j frows []) (nth c' centers []) + (INR dim + 4) * powerRZ 2 (-16) * B) /\
    lists_cost frows centers inv <= objective frows centers + INR (length rows) * ((INR dim + 4) * powerRZ 2 (-16) * B).
Proof.
  intros m dr mbs csz conv dim nc rate rows B frows train Hm Hd Hmb Hcs Hnc Ld V PB Hn L23. unfold ivf_train_build.
  assert (Hrow : forall r, In r rows -> length r = dim).
  { intros r Hr. assert (I : In (map conv r) frows) by (apply in_map; exact Hr). destruct (V _ I) as [L _]. now rewrite map_length in L. }
  rewrite (slice_train conv dim dr rate rows Hrow). fold frows. fold train. cbn [bind].
  assert (Vt : vectors dim B train) by (apply (vectors_incl _ _ _ frows V); intros r; apply sample_in).
  destruct (first_ok dr train nc dim B Hd Hn L23 Ld Hnc Vt ltac:(lra)) as [seeds [Es [Ls Is]]]. rewrite Es. cbn [bind].
  assert (Vs : vectors dim (4 * B) seeds) by (apply (vectors_more _ B); [apply (vectors_incl _ _ _ train Vt Is)|lra]).
  assert (Hs : seeds <> []) by (intros ->; cbn in Ls; lia).
  destruct (kmeans_run (m_nrm2 m) (m_train_ways m) (m_pop m) mbs csz calc_distance dim train (m_train_orders m (length train)) seeds (m_junk m (length train)) (repeat [] nc) B k_reps) as [st [Er [Lc [Vc [O _]]]]];
    try exact Hs; auto; try (apply Hm); try lra.
  { destruct L23 as [?|[? _]]; lia. }
  rewrite Ls in Er, Lc. rewrite Er. cbn [bind].
  assert (Hcne : ll_centers st <> []) by (intros Q; rewrite Q in Lc; cbn in Lc; lia).
  assert (Hrn : frows <> []). { intros Q. apply Hn. unfold train. rewrite Q. reflexivity. }
  assert (P98 : 4 * B <= powerRZ 2 100). { replace 100%Z with (2 + 98)%Z by reflexivity. rewrite powerRZ_add by lra. change (powerRZ 2 2) with (2 ^ 2). lra. }
  assert (HR : forall r, In r frows \/ In r (ll_centers st) -> length r = dim /\ (forall x, In x r -> finite x /\ valid_binary 24 128 x = true) /\ sum_sq r <= powerRZ 2 100 /\ norm_near r (m_nrm2 m r)).
  { intros r Hr. assert (G : vectors dim (4 * B) [r]).
    { intros r' [<-|[]]. destruct Hr as [Hr|Hr]; [apply (vectors_more _ B (4 * B) _ V); [lra|exact Hr]|apply Vc; exact Hr]. }
    destruct (vectors_good _ _ _ r G (or_introl eq_refl)) as [A1 [A2 A3]]. split; [exact A1|]. split; [exact A2|]. split; [lra|]. apply Hm. exact G. }
  assert (Lf : length frows = length rows) by (unfold frows; apply map_length).
  destruct (ivf_on_ok (m_nrm2 m) (m_ways m) (m_pop m) mbs dim frows (ll_centers st) (m_orders m)) as [inv [Ei [Li [Pi Ni]]]]; auto; try (apply Hm).
  { rewrite Lf. apply Hm. }
  assert (Hc : map conv (concat rows) = concat frows) by (unfold frows; apply concat_map).
  rewrite Lf, Lc in Ei. rewrite Hc, Ei. cbn [bind]. exists seeds, (ll_centers st), inv. split; [reflexivity|]. split; [exact Ls|]. split; [exact Is|]. split; [exact Lc|]. split; [exact Vc|].
  split; [replace 10 with (INR k_reps) by (cbn; lra); exact O|]. split; [congruence|]. split; [rewrite <- Lf; exact Pi|].
  assert (Near : forall c l j c', nth_error inv c = Some l -> In j l -> (c' < nc)%nat ->
       exact_l2 (nth j frows []) (nth c (ll_centers st) []) <= exact_l2 (nth j frows []) (nth c' (ll_centers st) []) + (INR dim + 4) * powerRZ 2 (-16) * B).
  { intros c l j c' Hcl Hj Hc'. rewrite <- Lc in Hc'. pose proof (Ni c l j c' Hcl Hj Hc') as Q. eapply Rle_trans; [exact Q|].
    assert (Ij : In (nth j frows []) frows). { apply nth_In. assert (I : In j (concat inv)) by (apply in_concat; exists l; split; [eapply nth_error_In; eauto|exact Hj]). apply (Permutation_in _ Pi) in I. apply in_seq in I. lia. }
    assert (Icc : forall c0, (c0 < length (ll_centers st))%nat -> sum_sq (nth c0 (ll_centers st) []) <= 4 * B).
    { intros c0 H0. apply (vectors_good _ _ _ _ Vc (nth_In _ _ H0)). }
    assert (Lcc : (c < length (ll_centers st))%nat) by (rewrite <- Li; apply nth_error_Some; congruence).
    pose proof (Icc c Lcc) as S1. pose proof (Icc c' Hc') as S2. assert (S3 : sum_sq (nth j frows []) <= B) by (apply (vectors_good _ _ _ _ V Ij)).
    set (D := INR dim + 4). assert (PD : 4 <= D) by (unfold D; pose proof (pos_INR dim); lra). set (u := powerRZ 2 (-20)). assert (Pu : 0 < u) by (apply powerRZ_lt; lra).
    assert (E16 : powerRZ 2 (-16) = 16 * u) by (unfold u; replace (-16)%Z with (4 + -20)%Z by reflexivity; rewrite powerRZ_add by lra; f_equal; change (powerRZ 2 4) with (2 ^ 4); ring).
    assert (E46 : powerRZ 2 (-146) <= u). { unfold u. rewrite <- !BlasProofs7.pw. apply Raux.bpow_le. lia. }
    rewrite E16. set (q := 2 * sum_sq (nth j frows []) + sum_sq (nth c (ll_centers st) []) + sum_sq (nth c' (ll_centers st) [])). assert (Pq : q <= 10 * B) by (unfold q; lra).
    apply Rle_trans with (exact_l2 (nth j frows []) (nth c' (ll_centers st) []) + (D * u * (10 * B) + D * u)).
    - assert (0 <= D * u) by (apply Rmult_le_pos; lra). assert (D * u * q <= D * u * (10 * B)) by (apply Rmult_le_compat_l; lra). assert (D * powerRZ 2 (-146) <= D * u) by (apply Rmult_le_compat_l; lra).
      change (INR dim + 4) with D. fold q. fold u. lra.
    - assert (0 <= D * u) by (apply Rmult_le_pos; lra). assert (D * u * 1 <= D * u * B) by (apply Rmult_le_compat_l; lra). replace (D * (16 * u) * B) with (16 * (D * u * B)) by ring. replace (D * u * (10 * B)) with (10 * (D * u * B)) by ring. lra. }
  split; [exact Near|]. rewrite <- Lf. apply lists_le; auto. intros c l j c' H1 H2 H3. apply (Near c l j c' H1 H2). now rewrite <- Lc.
Qed.

(** Training on all points. *)
Lemma sample_all : forall rate dr frows, draws_ok dr -> SFltb (f64_of_f32 rate) f64_one = false -> sample_of rate dr frows = frows.
Proof.
  intros rate dr frows [Hd _] H. unfold sample_of. rewrite filter_all by (intros i _; now apply train_all). clear. induction frows as [|x l IH]; [reflexivity|]. cbn [length seq map nth]. f_equal. rewrite <- seq_shift, map_map. exact IH.
Qed.

Definition err (dim : nat) (B : R) : R := (INR dim + 4) * powerRZ 2 (-16) * B.

Lemma build_all : forall m dr mbs csz (conv : N -> f32) dim nc rate (rows : list (list N)) B, let frows := map (map conv) rows in
  machine_ok dim (length rows) mbs (4 * B) m -> draws_ok dr -> (1 <= mbs)%nat -> (1 <= csz)%nat -> (1 <= nc)%nat -> (Z.of_nat dim <= 2 ^ 20)%Z ->
  vectors dim B frows -> 1 <= B <= powerRZ 2 98 -> rows <> [] -> few_or_distinct dr (length rows) nc -> SFltb (f64_of_f32 rate) f64_one = false ->
  exists seeds centers inv, ivf_train_build m dr (nc - 1) mbs csz conv dim (length rows) nc rate (concat rows) [] = Ok (centers, inv) /\
    length seeds = nc /\ (forall s, In s seeds -> In s frows) /\
    lists_cost frows centers inv <= objective frows seeds + 11 * (INR (length rows) * ((INR dim + 4) * powerRZ 2 (-16) * B)).
Proof.
  cbv zeta. intros m dr mbs csz conv dim nc rate rows B Hm Hd Hmb Hcs Hnc Ld V PB Hn L23 Hr. assert (E : sample_of rate dr (map (map conv) rows) = map (map conv) rows) by (now apply sample_all).
  pose proof (build_ok m dr mbs csz conv dim nc rate rows B Hm Hd Hmb Hcs Hnc Ld V PB) as K. cbv zeta in K. rewrite E in K. rewrite map_length in K.
  destruct K as [seeds [centers [inv [Eb [Ls [Is [_ [_ [O [_ [_ [_ C]]]]]]]]]]]]; [destruct rows; [congruence|discriminate]|exact L23|].
  exists seeds, centers, inv. split; [exact Eb|]. split; [exact Ls|]. split; [exact Is|]. lra.
Qed.

Lemma query_matrix : forall nrm2 ws mbs dim q centers B, (1 <= mbs)%nat -> (Z.of_nat dim <= 2 ^ 20)%Z -> block_ways_ok dim ws -> vectors dim B [q] -> vectors dim (4 * B) centers -> 1 <= B <= powerRZ 2 98 -> centers <> [] ->
  (forall r, vectors dim (4 * B) [r] -> norm_near r (nrm2 r)) ->
  exists dm, closest_matrix nrm2 ws mbs dim 1 (length centers) q (concat centers) = Ok dm /\ (forall c, is_nan (dm 0%nat c) = false) /\ (exists c, (c < length centers)%nat /\ flt (dm 0%nat c) FLT_MAX = true) /\
    forall c c', (c < length centers)%nat -> (c' < length centers)%nat -> fle (dm 0%nat c) (dm 0%nat c') = true -> exact_l2 q (nth c centers []) <= exact_l2 q (nth c' centers []) + err dim B.
Proof.
  intros nrm2 ws mbs dim q centers B Hmb Ld HW Vq Vc PB Hc HN.
  assert (P98 : 4 * B <= powerRZ 2 100). { replace 100%Z with (2 + 98)%Z by reflexivity. rewrite powerRZ_add by lra. change (powerRZ 2 2) with (2 ^ 2). lra. }
  destruct (matrix_ok nrm2 ws mbs dim [q] centers) as [dm [E [NN D]]]; auto.
  { intros r Hr. assert (G : vectors dim (4 * B) [r]).
    { intros r' [<-|[]]. destruct Hr as [Hr|Hr]; [apply (vectors_more _ B (4 * B) _ Vq); [lra|exact Hr]|apply Vc; exact Hr]. }
    destruct (vectors_good _ _ _ r G (or_introl eq_refl)) as [A1 [A2 A3]]. split; [exact A1|]. split; [exact A2|]. split; [lra|]. apply HN. exact G. }
  cbn [concat length] in E. rewrite app_nil_r in E. exists dm. split; [exact E|]. split; [intros c; apply NN|].
  set (D4 := INR dim + 4) in *. assert (PD : 4 <= D4) by (unfold D4; pose proof (pos_INR dim); lra). set (u := powerRZ 2 (-20)) in *. assert (Pu : 0 < u) by (apply powerRZ_lt; lra).
  assert (E16 : powerRZ 2 (-16) = 16 * u) by (unfold u; replace (-16)%Z with (4 + -20)%Z by reflexivity; rewrite powerRZ_add by lra; f_equal; change (powerRZ 2 4) with (2 ^ 4); ring).
  assert (E46 : powerRZ 2 (-147) <= u). { unfold u. rewrite <- !BlasProofs7.pw. apply Raux.bpow_le. lia. }
  assert (P0 : 0 <= D4 * u) by (apply Rmult_le_pos; lra).
  assert (Sq : sum_sq q <= B) by (apply (vectors_good _ _ _ q Vq); now left).
  assert (Near : forall c, (c < length centers)%nat -> num (dm 0%nat c) /\ Rabs (real (dm 0%nat c) - exact_l2 q (nth c centers [])) <= 6 * (D4 * u * B)).
  { intros c Hcl. destruct (D 0%nat c ltac:(cbn; lia) Hcl) as [N0 R0]. split; [exact N0|]. cbn [nth] in R0. eapply Rle_trans; [exact R0|].
    assert (Sc : sum_sq (nth c centers []) <= 4 * B) by (apply (vectors_good _ _ _ _ Vc (nth_In _ _ Hcl))).
    assert (X1 : D4 * u * (sum_sq q + sum_sq (nth c centers [])) <= D4 * u * (5 * B)) by (apply Rmult_le_compat_l; lra).
    assert (X2 : D4 * powerRZ 2 (-147) <= D4 * u) by (apply Rmult_le_compat_l; lra). assert (X3 : D4 * u * 1 <= D4 * u * B) by (apply Rmult_le_compat_l; lra).
    apply Rle_trans with (D4 * u * (5 * B) + D4 * u); [exact (Rplus_le_compat _ _ _ _ X1 X2)|]. replace (D4 * u * (5 * B)) with (5 * (D4 * u * B)) by ring. lra. }
  split.
  - exists 0%nat. assert (H0 : (0 < length centers)%nat) by (destruct centers; [congruence|cbn; lia]). split; [exact H0|]. destruct (Near 0%nat H0) as [[F1 V1] R1]. apply flt_real; auto; try reflexivity; try exact I.
    apply Raux.Rabs_le_inv in R1. assert (Sc : sum_sq (nth 0 centers []) <= 4 * B) by (apply (vectors_good _ _ _ _ Vc (nth_In _ _ H0))).
    assert (Lq : length q = length (nth 0 centers [])). { exact (eq_trans (proj1 (vectors_good _ _ _ q Vq (or_introl eq_refl))) (eq_sym (proj1 (vectors_good _ _ _ _ Vc (nth_In _ _ H0))))). }
    rewrite sq_sum in Sq, Sc. rewrite (BlasProofs3.l2_expand q _ Lq) in R1. pose proof (Raux.Rabs_le_inv _ _ (BlasProofs3.ip_le q (nth 0 centers []))) as Li. pose proof (BlasProofs3.aip_le q _ Lq) as La.
    assert (U2 : D4 * u <= 2). { assert (Dd : INR dim <= IZR (2 ^ 20)) by (rewrite INR_IZR_INZ; apply IZR_le; exact Ld). assert (E20 : IZR (2 ^ 20) * u = 1). { unfold u. change (2 ^ 20)%Z with (2 ^ Z.of_nat 20)%Z. rewrite <- (pow_IZR 2 20). change (2 ^ 20)%R with (powerRZ 2 20). rewrite <- powerRZ_add by lra. reflexivity. }
      assert (IZR (2 ^ 20) = 1048576) by reflexivity. unfold D4. nra. }
    assert (UB' : D4 * u * B <= 2 * B) by (apply Rmult_le_compat_r; lra).
    assert (Rm : powerRZ 2 127 < real FLT_MAX).
    { unfold FLT_MAX. cbn [real]. change (1 * 16777215 * powerRZ 2 104)%R with (1 * IZR 16777215 * powerRZ 2 104)%R. replace (powerRZ 2 127)%R with (powerRZ 2 23 * powerRZ 2 104)%R by (rewrite <- powerRZ_add by lra; reflexivity). rewrite Rmult_1_l. apply Rmult_lt_compat_r; [apply powerRZ_lt; lra|].
      change (powerRZ 2 23)%R with (2 ^ 23)%R. rewrite (pow_IZR 2 23). apply IZR_lt. reflexivity. }
    assert (P27 : 64 * powerRZ 2 98 <= powerRZ 2 127). { rewrite <- !BlasProofs7.pw. change 64 with (Raux.bpow Zaux.radix2 6). rewrite <- Raux.bpow_plus. apply Raux.bpow_le. lia. }
    lra.
  - intros c c' H1 H2 L. destruct (Near c H1) as [[F1 V1] R1]. destruct (Near c' H2) as [[F2 V2] R2]. apply sle_real in L; auto. apply Raux.Rabs_le_inv in R1, R2. unfold err. fold D4. rewrite E16.
    replace (D4 * (16 * u) * B) with (16 * (D4 * u * B)) by ring. assert (0 <= D4 * u * B) by (apply Rmult_le_pos; lra). lra.
Qed.
