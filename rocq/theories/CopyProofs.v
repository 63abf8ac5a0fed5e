(** * Copies of a vector: proofs. *)
From Coq Require Import NArith String List Arith Lia Bool Sorting.Sorted Sorting.Permutation Floats.SpecFloat.
From Verif Require Import Base Float32 PoolModel TopKSpec SortSpec GraphSpec GreedyModel SearchSpec SearchModel PruneModel PruneSpec ListLemmas PoolProofs PoolProofs2 PruneProofs BuildProofs2
  EntryModel EntrySpec RngModel RngSpec RngProofs LimitProofs AcceptProofs ClosestModel ClosestSpec FlatModel FlatSpec IvfModel IvfProofs LshModel LshSpec LshProofs AskProofs CopySpec.
Import ListNotations.

(** ** Division *)
Lemma over_zero : forall a x, flt a (S754_infinity false) = true -> flt f32_zero x = true -> flt a (fdiv x f32_zero) = true.
Proof. intros a x Ha Hx. destruct x as [s|s| |s m e]; try discriminate; destruct s; try discriminate; exact Ha. Qed.

Lemma zero_over : forall a x s, fgt f32_zero a = false -> flt a (fdiv (S754_zero s) x) = false.
Proof.
  intros a x s Ha. destruct x as [t|t| |t m e]; cbn; destruct a as [r|r| |r p q]; try reflexivity; destruct r; try reflexivity; try discriminate; destruct s, t; reflexivity.
Qed.

Lemma is_zero : forall x, feq x f32_zero = true -> exists s, x = S754_zero s.
Proof. intros [s|s| |s m e] H; try discriminate; [exists s; reflexivity| |]; destruct s; discriminate. Qed.

(** ** Kept candidates *)
Lemma select_pos : forall (A : Type) (keep : list bool) (cs : list A) j c, nth_error (select keep cs) j = Some c ->
  exists p, nth_error cs p = Some c /\ nth p keep false = true /\ select (firstn p keep) cs = firstn j (select keep cs).
Proof.
  intros A keep. induction keep as [|b keep IH]; intros cs j c H; [destruct j; discriminate|].
  destruct cs as [|x cs]; [destruct b, j; discriminate|]. destruct b; cbn [select] in H.
  - destruct j as [|j].
    + cbn in H. injection H as ->. exists 0. split; [reflexivity|]. split; reflexivity.
    + cbn in H. destruct (IH cs j c H) as [p [H1 [H2 H3]]]. exists (S p). split; [exact H1|]. split; [exact H2|]. cbn [firstn select]. rewrite H3. reflexivity.
  - destruct (IH cs j c H) as [p [H1 [H2 H3]]]. exists (S p). split; [exact H1|]. split; [exact H2|]. cbn [firstn select]. exact H3.
Qed.

Lemma prune_one_copy : forall sortf sp prm point far cands,
  sorts sortf -> prune_input_ok sp cands -> fgt f32_zero (bp_alpha prm) = false -> flt (bp_alpha prm) (S754_infinity false) = true ->
  (forall z, In z cands -> ndist z = far (nid z)) ->
  exists out, prune_alpha sortf sp prm point cands [] = Ok out /\
    forall i j x y, i < j -> nth_error out i = Some x -> nth_error out j = Some y -> same_place (sp_pd sp) y x ->
      (sp_filtered sp = false \/ forall l, In l (labels_of sp y) -> In l (labels_of sp x)) -> flt f32_zero (far y) = false.
Proof.
  intros sortf sp prm point far cands Hs Hin Ha Hinf Hfar.
  destruct (prune_alpha_exact sortf sp prm point cands Hs Hin Ha) as [keep [[Hlen HK] E]].
  set (cs := firstn (bp_C prm) (sortf cands)) in *. exists (map nid (select keep cs)). split; [exact E|].
  intros i j x y Hij Hx Hy Hz Hl. rewrite nth_error_map in Hx, Hy.
  destruct (nth_error (select keep cs) i) as [kx|] eqn:Ex; [|discriminate]. destruct (nth_error (select keep cs) j) as [cy|] eqn:Ey; [|discriminate].
  cbn in Hx, Hy. injection Hx as <-. injection Hy as <-.
  destruct (select_pos _ keep cs j cy Ey) as [p [H1 [H2 H3]]]. apply (HK p cy H1) in H2. destruct H2 as [_ [_ Hno]].
  assert (Hk : In kx (select (firstn p keep) cs)).
  { rewrite H3. apply nth_error_In with (n := i). rewrite nth_error_firstn_lt by exact Hij. exact Ex. }
  specialize (Hno kx Hk). destruct (flt f32_zero (far (nid cy))) eqn:F; [exfalso|reflexivity]. apply Hno. split; [exact Hl|].
  unfold same_place in Hz. rewrite Hz. apply over_zero; [exact Hinf|].
  assert (Hc : In cy cands).
  { destruct (Hs cands) as [P _]; [intros z Hz'; apply Hin; exact Hz'|]. apply (Permutation_in _ (Permutation_sym P)).
    apply nth_error_In in H1. unfold cs in H1. apply In_firstn in H1. exact H1. }
  rewrite (Hfar cy Hc). exact F.
Qed.

(** The candidates at distance zero, without the point itself. *)
Definition zeros (point : nat) (cs : list neighbor) : list neighbor := filter (fun z => negb (nid z =? point) && feq (ndist z) f32_zero) cs.

Lemma zeros_first : forall occl R point cs keep, kept occl R point cs keep -> (forall k c, feq (ndist c) f32_zero = true -> ~ occl k c) ->
  forall i, i <= length cs -> (forall p c, p < i -> nth_error cs p = Some c -> feq (ndist c) f32_zero = true) ->
  select (firstn i keep) cs = firstn R (zeros point (firstn i cs)).
Proof.
  intros occl R point cs keep [Hlen HK] Hno. induction i as [|i IH]; intros Hi Hz; [cbn; destruct R; reflexivity|].
  assert (Hc : exists c, nth_error cs i = Some c) by (destruct (nth_error cs i) as [c|] eqn:Q; [eauto|apply nth_error_None in Q; lia]).
  destruct Hc as [c Hc]. rewrite (select_next _ keep cs i c Hc) by lia. rewrite (firstn_next _ cs i c Hc). unfold zeros. rewrite filter_app.
  cbn [filter]. rewrite (Hz i c (Nat.lt_succ_diag_r i) Hc), andb_true_r.
  specialize (IH ltac:(lia) (fun p c' Hp => Hz p c' (Nat.lt_lt_succ_r _ _ Hp))). specialize (HK i c Hc). fold (zeros point (firstn i cs)). rewrite IH in *.
  set (zs := zeros point (firstn i cs)) in *.
  destruct (nid c =? point) eqn:Ep; cbn [negb].
  - apply Nat.eqb_eq in Ep. rewrite app_nil_r. destruct (nth i keep false) eqn:Ek; [|apply app_nil_r].
    destruct (proj1 HK eq_refl) as [Hne _]. contradiction.
  - apply Nat.eqb_neq in Ep. rewrite firstn_app. rewrite firstn_length in HK. destruct (Nat.lt_ge_cases (length zs) R) as [Hl|Hg].
    + assert (Ek : nth i keep false = true).
      { apply HK. split; [exact Ep|]. split; [lia|]. intros k _. apply Hno. apply (Hz i c); [lia|exact Hc]. }
      rewrite Ek. f_equal. rewrite firstn_all2 by (cbn; lia). reflexivity.
    + assert (Ek : nth i keep false = false).
      { destruct (nth i keep false) eqn:Q; [|reflexivity]. destruct (proj1 HK eq_refl) as [_ [Hb _]]. lia. }
      rewrite Ek. f_equal. replace (R - length zs) with 0 by lia. reflexivity.
Qed.

Lemma zeros_prefix : forall point cs, StronglySorted (fun x y => fle (ndist x) (ndist y) = true) cs -> (forall z, In z cs -> fle f32_zero (ndist z) = true) ->
  exists i, i <= length cs /\ (forall p c, p < i -> nth_error cs p = Some c -> feq (ndist c) f32_zero = true) /\ zeros point cs = zeros point (firstn i cs).
Proof.
  intros point cs H. induction H as [|c cs H IH F]; intros Hn; [exists 0; split; [lia|]; split; [intros; lia|reflexivity]|].
  destruct (feq (ndist c) f32_zero) eqn:E.
  - destruct IH as [i [Hi [Hz Heq]]]; [intros z Hz; apply Hn; right; exact Hz|]. exists (S i). split; [cbn; lia|]. split.
    + intros [|p] c' Hp Hc; [cbn in Hc; injection Hc as <-; exact E|]. apply (Hz p c'); [lia|exact Hc].
    + unfold zeros in *. cbn [filter firstn]. rewrite Heq. reflexivity.
  - exists 0. split; [lia|]. split; [intros; lia|]. cbn [firstn]. unfold zeros. cbn [filter]. rewrite E, andb_false_r.
    assert (G : forall z, In z cs -> feq (ndist z) f32_zero = false).
    { intros z Hz. rewrite Forall_forall in F. specialize (F z Hz). pose proof (Hn c (or_introl eq_refl)) as Hc. clear -E F Hc. revert E F Hc.
      destruct (ndist c) as [s|s| |s m e], (ndist z) as [t|t| |t m' e']; try discriminate; try reflexivity; destruct s; try discriminate; try reflexivity; try (destruct t; try discriminate; reflexivity). }
    clear -G. induction cs as [|d cs IH]; [reflexivity|]. cbn [filter]. rewrite (G d) by (left; reflexivity). rewrite andb_false_r. apply IH. intros z Hz. apply G. right. exact Hz.
Qed.

Lemma prune_copies : forall sortf sp prm point cands,
  sorts sortf -> prune_input_ok sp cands -> fgt f32_zero (bp_alpha prm) = false -> (forall z, In z cands -> fle f32_zero (ndist z) = true) ->
  exists rest, prune_alpha sortf sp prm point cands [] =
      Ok (firstn (bp_R prm) (map nid (filter (fun z => negb (nid z =? point) && feq (ndist z) f32_zero) (firstn (bp_C prm) (sortf cands)))) ++ rest) /\
    (bp_R prm <= length (filter (fun z => negb (nid z =? point) && feq (ndist z) f32_zero) (firstn (bp_C prm) (sortf cands))) -> rest = []).
Proof.
  intros sortf sp prm point cands Hs Hin Ha Hn.
  destruct (prune_alpha_exact sortf sp prm point cands Hs Hin Ha) as [keep [HK E]].
  destruct (Hs cands) as [P S]; [intros z Hz; apply Hin; exact Hz|].
  assert (S' : StronglySorted (fun x y => fle (ndist x) (ndist y) = true) (firstn (bp_C prm) (sortf cands))).
  { rewrite <- (firstn_skipn (bp_C prm) (sortf cands)) in S. apply ssorted_app in S. apply S. }
  assert (N' : forall z, In z (firstn (bp_C prm) (sortf cands)) -> fle f32_zero (ndist z) = true).
  { intros z Hz. apply Hn. apply (Permutation_in _ (Permutation_sym P)). apply In_firstn in Hz. exact Hz. }
  set (cs := firstn (bp_C prm) (sortf cands)) in *. fold (zeros point cs).
  destruct (zeros_prefix point cs S' N') as [i [Hi [Hz Heq]]].
  assert (Hno : forall k c, feq (ndist c) f32_zero = true -> ~ occludes sp (bp_alpha prm) k c).
  { intros k c Hc [_ Ho]. apply is_zero in Hc. destruct Hc as [s Hc]. rewrite Hc, zero_over in Ho by exact Ha. discriminate. }
  pose proof (zeros_first _ _ _ _ _ HK Hno i Hi Hz) as Q. destruct (select_firstn_longer _ i keep cs) as [more M].
  exists (map nid more). rewrite E, M, Q, <- Heq, map_app, firstn_map. split; [reflexivity|].
  intros HR. pose proof (kept_length _ _ _ _ _ HK) as HL. rewrite M, Q, <- Heq, app_length, firstn_length in HL. destruct more; [reflexivity|cbn in HL; lia].
Qed.

Lemma filter_shorter : forall (A : Type) (f : A -> bool) l, length (filter f l) <= length l.
Proof. intros A f l. induction l as [|x l IH]; cbn; [lia|]. destruct (f x); cbn; lia. Qed.

(** ** The relative neighbourhood graph *)
Lemma rng_lists : forall sortf sp tags centroid order ix md, rng_input_ok sortf sp tags centroid order -> rng_build sortf sp tags centroid order = Ok (ix, md) ->
  forall x l, nth_error (ix_graph ix) x = Some l -> x < sp_n sp /\ prune_alpha sortf sp (rng_params sp) x (rng_pool sp x) [] = Ok l.
Proof.
  intros sortf sp tags centroid order ix md Hin E x l Hx. pose proof (rng_build_core _ _ _ _ _ Hin) as [ix' [md' [E' [Hix [Hn _]]]]].
  rewrite E in E'. injection E' as <- <-. destruct Hin as [Hs Hn10 Hnan Ht Hc Hcn Hl Ho].
  assert (Hxn : x < sp_n sp).
  { destruct Hix as [_ [[Hg _] _]]. rewrite <- Hn, <- Hg. apply nth_error_Some. congruence. }
  split; [exact Hxn|]. unfold rng_build in E.
  destruct (calculate_medoid (sp_n sp) centroid) as [s| | | |]; try discriminate. cbn [bind] in E.
  destruct (rng_loop_ok sortf sp Hs Hn10 Hnan Hl order (repeat [] (sp_n sp))) as [g [Eg [Hg [_ Hin]]]].
  { eapply Permutation_NoDup; [apply Permutation_sym; exact Ho|apply seq_NoDup]. }
  { intros z Hz. apply (Permutation_in _ Ho) in Hz. apply in_seq in Hz. lia. }
  { apply repeat_length. }
  rewrite Eg in E. cbn [bind] in E. destruct (update_degree_stats true (sp_n sp) 0 g) as [d| | | |]; try discriminate. cbn [bind] in E. injection E as <- _. cbn [ix_graph] in Hx.
  destruct (Hin x []) as [l' [E1 E2]].
  - apply (Permutation_in _ (Permutation_sym Ho)). apply in_seq. lia.
  - rewrite (nth_error_nth' (repeat [] (sp_n sp)) []) by (rewrite repeat_length; auto). f_equal. apply nth_repeat.
  - cbn [app] in E2. rewrite Hx in E2. injection E2 as ->. exact E1.
Qed.

Lemma rng_copies : forall sortf sp tags centroid order ix md, rng_input_ok sortf sp tags centroid order -> dissimilarity (sp_pd sp) -> sp_filtered sp = false ->
  rng_build sortf sp tags centroid order = Ok (ix, md) ->
  forall x l, nth_error (ix_graph ix) x = Some l ->
    (forall y, y < sp_n sp -> y <> x -> same_place (sp_pd sp) y x -> In y l) /\
    (forall y z, In y l -> In z l -> y <> z -> same_place (sp_pd sp) y z -> feq (sp_pd sp y x) f32_zero = true \/ feq (sp_pd sp z x) f32_zero = true).
Proof.
  intros sortf sp tags centroid order ix md Hin Hd Hf E x l Hx.
  destruct (rng_lists _ _ _ _ _ _ _ Hin E x l Hx) as [Hxn Ep]. destruct Hin as [Hs Hn10 Hnan Ht Hc Hcn Hl Ho].
  pose proof (rng_pool_ok sp x Hnan Hl) as Hpool. split.
  - intros y Hy Hne Hz.
    destruct (prune_copies sortf sp (rng_params sp) x (rng_pool sp x) Hs Hpool) as [rest [Eq _]]; [reflexivity| |].
    { intros z Hz'. apply rng_pool_In in Hz'. destruct Hz' as [j [_ [_ ->]]]. apply Hd. }
    rewrite Ep in Eq. injection Eq as ->. apply in_or_app. left.
    destruct (Hs (rng_pool sp x)) as [P _]; [intros z Hz'; apply Hpool; exact Hz'|].
    assert (Hfn : firstn (bp_C (rng_params sp)) (sortf (rng_pool sp x)) = sortf (rng_pool sp x)).
    { apply firstn_all2. rewrite <- (Permutation_length P). apply rng_pool_len. }
    cbn [rng_params bp_R bp_C] in *. rewrite Hfn, firstn_all2.
    + apply in_map_iff. exists (mkN y (sp_pd sp y x) true). split; [reflexivity|]. apply filter_In. split.
      * apply (Permutation_in _ P). apply rng_pool_In. exists y. auto.
      * cbn [nid ndist]. rewrite (proj2 (Nat.eqb_neq y x) Hne). unfold same_place in Hz. rewrite Hz. reflexivity.
    + rewrite map_length. eapply Nat.le_trans; [apply filter_shorter|]. rewrite <- (Permutation_length P). apply rng_pool_len.
  - intros y z Hy Hz Hne Hsame. destruct (In_nth_error _ _ Hy) as [i Hi]. destruct (In_nth_error _ _ Hz) as [j Hj].
    destruct (prune_one_copy sortf sp (rng_params sp) x (fun j => sp_pd sp j x) (rng_pool sp x) Hs Hpool) as [out [Eq H]]; [reflexivity|reflexivity| |].
    { intros w Hw. apply rng_pool_In in Hw. destruct Hw as [k [_ [_ ->]]]. reflexivity. }
    rewrite Ep in Eq. injection Eq as <-.
    assert (Z : forall w, flt f32_zero (sp_pd sp w x) = false -> feq (sp_pd sp w x) f32_zero = true).
    { intros w F. pose proof (ds_nonneg _ Hd w x) as G. revert F G. destruct (sp_pd sp w x) as [s|s| |s m e]; try discriminate; destruct s; try discriminate; reflexivity. }
    destruct (Nat.lt_total i j) as [H1|[H1|H1]].
    + right. apply Z. apply (H i j y z); auto. unfold same_place in *. rewrite (ds_sym _ Hd). exact Hsame.
    + subst j. rewrite Hi in Hj. injection Hj as ->. contradiction.
    + left. apply Z. apply (H j i z y); auto.
Qed.

(** ** IVF and LSH *)
Lemma first_nearest_unique : forall row nc a b, first_nearest row nc a -> first_nearest row nc b -> a = b.
Proof.
  intros row nc a b [Ha [La Fa]] [Hb [Lb Fb]]. destruct (Nat.lt_total a b) as [H|[H|H]]; [|exact H|].
  - pose proof (Fb a H) as X. pose proof (La b Hb) as Y. exfalso. revert X Y. generalize (row a), (row b). intros u v X Y.
    pose proof (flt_fle_false _ _ X) as Q. congruence.
  - pose proof (Fa b H) as X. pose proof (Lb a Ha) as Y. exfalso. revert X Y. generalize (row a), (row b). intros u v X Y.
    pose proof (flt_fle_false _ _ X) as Q. congruence.
Qed.

Lemma ivf_copies : forall popf mbs dmat n nc orders, pops popf -> 1 <= n -> 1 <= mbs -> block_orders n 1 (min n mbs) orders ->
  (forall j c, is_nan (dmat j c) = false) -> (forall j, j < n -> exists c, c < nc /\ flt (dmat j c) FLT_MAX = true) ->
  exists inv, ivf_build popf mbs dmat n nc orders [] = Ok inv /\
    forall x y, x < n -> y < n -> (forall c, dmat x c = dmat y c) -> forall l, In l inv -> In x l -> In y l.
Proof.
  intros popf mbs dmat n nc orders Hp Hn Hm Ho Hnan Hfin.
  destruct (ivf_build_appends popf mbs dmat n nc orders [] Hp Hn Hm Ho Hnan Hfin) as [assign [inv [E [Hl [Ha Hi]]]]].
  exists inv. split; [exact E|]. intros x y Hx Hy Hxy l Il Ix.
  assert (Eq : assign y = assign x).
  { apply (first_nearest_unique (dmat y) nc); [apply Ha; exact Hy|]. destruct (Ha x Hx) as [A [B C]]. split; [exact A|]. split; intros j Hj; rewrite <- !Hxy; auto. }
  destruct (In_nth_error _ _ Il) as [c Hc].
  assert (Hcn : c < nc) by (rewrite <- Hl; apply nth_error_Some; congruence).
  destruct (Hi c Hcn) as [new [Hnew P]]. rewrite Hc in Hnew. injection Hnew as ->. assert (Z : match c with 0 | _ => [] end = @nil nat) by (destruct c; reflexivity). cbn [nth] in *. rewrite Z in *. cbn [app] in *.
  apply (Permutation_in _ P) in Ix. apply filter_In in Ix. destruct Ix as [_ Ix]. apply (Permutation_in _ (Permutation_sym P)). apply filter_In.
  split; [apply in_seq; lia|]. rewrite Eq. exact Ix.
Qed.

Lemma lsh_copies : forall dotf data ts planes ix q dist m indices distances,
  (ts <= 64)%N -> l_tags ix = seq 0 (l_n ix) -> lsh_new ix -> 1 <= m -> finite_distances (l_n ix) dist -> room m indices distances ->
  exists ix' ix'' ids i' d' c,
    lsh_build dotf data ts planes ix = Ok ix' /\
    lsh_search dotf ix' q dist m [] indices distances = Ok ((i', d', length ids, c), ix'') /\ holds dist ids indices i' distances d' /\
    forall x y, In x ids -> y < l_n ix -> data y = data x -> In y ids \/ (length ids = m /\ forall z, In z ids -> fle (dist z) (dist y) = true).
Proof.
  intros dotf data ts planes ix q dist m ind dst Hts Htag Hnew Hm Hd Hr.
  destruct (lsh_search_ok dotf data ts planes ix q dist m [] ind dst) as [ix' [ix'' [c [ids [i' [d' [B [S [N [C [T H]]]]]]]]]]]; auto.
  exists ix', ix'', ids, i', d', (length c). split; [exact B|]. split; [exact S|]. split; [exact H|].
  intros x y Hx Hy Hxy. apply (top_in _ _ _ _ _ T) in Hx. apply C in Hx. destruct Hx as [_ [_ Hcol]].
  assert (Hyc : In y c) by (apply C; split; [exact Hy|]; split; [reflexivity|]; rewrite Hxy; exact Hcol).
  destruct T as [rest [P [L [_ R]]]].
  assert (Hs : In (y, dist y) (score dist ids ++ rest)).
  { apply (Permutation_in _ P). unfold score. apply in_map_iff. exists y. auto. }
  apply in_app_or in Hs. destruct Hs as [Hs|Hs].
  - left. unfold score in Hs. apply in_map_iff in Hs. destruct Hs as [w [Ew Hw]]. injection Ew as <- _. exact Hw.
  - right. split.
    + pose proof (Permutation_length P) as PL. unfold score in L, PL. rewrite !map_length in L. rewrite app_length, !map_length in PL.
      assert (1 <= length rest) by (destruct rest; [destruct Hs|cbn; lia]). lia.
    + intros z Hz. apply (R (z, dist z) (y, dist y)); [unfold score; apply in_map_iff; exists z; auto|exact Hs].
Qed.
