(** * Lemmas for C123: graph search with shortcuts. *)
From Coq Require Import Reals Lra String List Arith Lia Bool Sorting.Sorted.
From Verif Require Import Base Float32 PoolModel SortSpec GraphSpec GreedyModel GreedyProofs SearchModel SearchSpec SearchProofs HnswModel HnswSpec HnswProofs ListLemmas
  FilterSpec AcceptProofs WideProofs HwideProofs ApproxSpec.
Import ListNotations.

Lemma least : forall (f : nat -> R) l, l <> [] -> exists x, In x l /\ forall y, In y l -> (f x <= f y)%R.
Proof.
  intros f l. induction l as [|a l IH]; intros H; [congruence|]. destruct l as [|b l].
  - exists a. split; [left; reflexivity|]. intros y [<-|[]]. lra.
  - destruct IH as [x [Hx Hm]]; [discriminate|]. destruct (Rle_or_lt (f a) (f x)) as [C|C].
    + exists a. split; [left; reflexivity|]. intros y [<-|Hy]; [lra|]. specialize (Hm y Hy). lra.
    + exists x. split; [right; exact Hx|]. intros y [<-|Hy]; [lra|]. apply Hm. exact Hy.
Qed.

Lemma factor_ge : forall c alpha, (1 <= c)%R -> (c < alpha)%R -> (c <= guarantee c alpha)%R.
Proof.
  intros c alpha H1 H2. unfold guarantee. apply Rmult_le_reg_r with (alpha - c)%R; [lra|].
  unfold Rdiv. rewrite Rmult_assoc, Rinv_l by lra. nra.
Qed.

Lemma factor_bound : forall c alpha z y, (1 <= c)%R -> (c < alpha)%R -> (alpha * z <= c * (alpha * y + (z + y)))%R -> (z <= guarantee c alpha * y)%R.
Proof.
  intros c alpha z y H1 H2 H. unfold guarantee. apply Rmult_le_reg_r with (alpha - c)%R; [lra|].
  unfold Rdiv. replace (c * (alpha + 1) * / (alpha - c) * y * (alpha - c))%R with (c * (alpha + 1) * y * (/ (alpha - c) * (alpha - c)))%R by ring.
  rewrite Rinv_l by lra. nra.
Qed.

(** The whole list of a search. *)
Lemma list_near : forall acc dist g starts L ids n apart away alpha c,
  greedy_answer acc dist g starts L ids -> 1 <= L -> starts <> [] -> length starts <= L -> graph_ok n g ->
  (forall x, In x starts -> x < n /\ acc x = true) ->
  metric n apart away -> shortcuts acc n apart alpha g -> ordered_within c n away dist -> (1 <= c)%R -> (c < alpha)%R ->
  forall y, y < n -> acc y = true -> In y ids \/ (length ids = L /\ forall z, In z ids -> (away z <= guarantee c alpha * away y)%R).
Proof.
  intros acc dist g starts L ids n apart away alpha c [Nd [Hl [Hso [Hre Hfix]]]] HL Hne Hsl Hg Hst Hm Hsc Hor Hc Ha y Hy Hay.
  assert (Hv : forall x, In x ids -> x < n /\ acc x = true).
  { intros x Hx. specialize (Hre x Hx). destruct Hre as [x Hs|x w R [nb [E [I A]]]]; [apply Hst, Hs|].
    split; [|exact A]. eapply Hg; eauto. }
  assert (Hi : ids <> []).
  { destruct starts as [|s starts]; [congruence|]. destruct (Hfix s) as [H|[H _]].
    - right. split; [left; reflexivity|exact Hsl].
    - intros ->. destruct H.
    - intros ->. cbn in H. lia. }
  destruct (in_dec Nat.eq_dec y ids) as [|Hn]; [left; auto|right].
  destruct (least (fun x => apart x y) ids Hi) as [v [Hvi Hmin]].
  destruct (Hv v Hvi) as [Vn Va].
  destruct (Hsc v y Vn Hy Va Hay) as [w [Ew Hw]]; [intros ->; auto|].
  assert (Wn : w < n) by (destruct Ew as [nb [E [I A]]]; eapply Hg; eauto).
  destruct (Hfix w) as [Hin|[Hlen Hle]]; [left; exists v; auto| |].
  - exfalso. destruct Hw as [->|[_ Hw]]; [auto|]. specialize (Hmin w Hin). lra.
  - split; [exact Hlen|]. destruct (least (fun x => - away x)%R ids Hi) as [t [Ht Hmax]].
    assert (Bt : (away t <= guarantee c alpha * away y)%R).
    { destruct (Hv t Ht) as [Tn Ta]. pose proof (Hor t w Tn Wn (Hle t Ht)) as O.
      destruct (Hm y y Hy Hy) as [_ [Py _]].
      destruct Hw as [->|[Hw _]].
      - eapply Rle_trans; [exact O|]. apply Rmult_le_compat_r; [exact Py|]. apply factor_ge; auto.
      - apply factor_bound; auto. destruct (Hm w y Wn Hy) as [_ [_ [W _]]]. destruct (Hm v y Vn Hy) as [_ [_ [_ V]]].
        specialize (Hmax v Hvi). assert (alpha * away w <= alpha * away y + (away t + away y))%R by nra.
        assert (alpha * away t <= alpha * (c * away w))%R by (apply Rmult_le_compat_l; lra).
        replace (alpha * (c * away w))%R with (c * (alpha * away w))%R in H0 by ring.
        eapply Rle_trans; [exact H0|]. apply Rmult_le_compat_l; lra. }
    intros z Hz. specialize (Hmax z Hz). lra.
Qed.

(** The part of it that is reported. *)
Lemma reported_near : forall acc dist g starts L ids n apart away alpha c k,
  greedy_answer acc dist g starts L ids -> 1 <= L -> starts <> [] -> length starts <= L -> graph_ok n g -> k <= L ->
  (forall x, In x starts -> x < n /\ acc x = true) ->
  metric n apart away -> shortcuts acc n apart alpha g -> ordered_within c n away dist -> (1 <= c)%R -> (c < alpha)%R ->
  near_best acc n away (guarantee c alpha) k (firstn k ids).
Proof.
  intros acc dist g starts L ids n apart away alpha c k G HL Hne Hsl Hg Hk Hst Hm Hsc Hor Hc Ha.
  pose proof (list_near _ _ _ _ _ _ _ _ _ _ _ G HL Hne Hsl Hg Hst Hm Hsc Hor Hc Ha) as B.
  destruct G as [Nd [Hl [Hso [Hre _]]]].
  assert (Hv : forall x, In x ids -> x < n).
  { intros x Hx. eapply reach_lt; [exact Hg| |exact (Hre x Hx)]. intros s Hs. apply Hst, Hs. }
  assert (F : forall y, y < n -> (0 <= away y)%R) by (intros y Hy; apply (Hm y y Hy Hy)).
  pose proof (factor_ge c alpha Hc Ha) as FC.
  (* everything after position i is no nearer, up to the factor, than what is at i *)
  assert (After : forall i z y, nth_error ids i = Some z -> y < n -> acc y = true -> ~ In y (firstn i ids) -> (away z <= guarantee c alpha * away y)%R).
  { intros i z y Hz Hy Hay Hn. assert (Zi : In z ids) by (eapply nth_error_In; exact Hz).
    destruct (B y Hy Hay) as [Hin|[_ H]]; [|apply H; exact Zi].
    apply In_nth_error in Hin. destruct Hin as [j Hj]. assert (Hij : i <= j).
    { destruct (Nat.le_gt_cases i j) as [|Lt]; [auto|exfalso]. apply Hn. apply nth_error_In with j. rewrite nth_error_firstn_lt by exact Lt. exact Hj. }
    destruct (Nat.eq_dec i j) as [->|Ne].
    - assert (z = y) by congruence. subst z. specialize (F y Hy). nra.
    - assert (fle (dist z) (dist y) = true).
      { clear - Hso Hz Hj Hij Ne. revert i j Hz Hj Hij Ne. induction Hso as [|a l S IH Fa]; intros i j Hz Hj Hij Ne; [destruct i; discriminate|].
        destruct j as [|j]; [lia|]. destruct i as [|i]; cbn in *.
        - injection Hz as <-. rewrite Forall_forall in Fa. apply Fa. eapply nth_error_In. exact Hj.
        - apply (IH i j); auto; lia. }
      specialize (Hor z y (Hv z Zi) Hy H). eapply Rle_trans; [exact Hor|]. apply Rmult_le_compat_r; [apply F, Hy|exact FC]. }
  split.
  - intros y Hy Hay. destruct (in_dec Nat.eq_dec y (firstn k ids)) as [|Hn]; [left; auto|right].
    assert (Hkl : k <= length ids).
    { destruct (B y Hy Hay) as [Hin|[H _]]; [|lia]. destruct (Nat.le_gt_cases k (length ids)) as [|Lt]; [auto|exfalso].
      apply Hn. rewrite firstn_all2 by lia. exact Hin. }
    split; [rewrite firstn_length; lia|]. intros z Hz. apply In_nth_error in Hz. destruct Hz as [i Hi].
    assert (Lik : i < k). { assert (i < length (firstn k ids)) by (apply nth_error_Some; congruence). rewrite firstn_length in H. lia. }
    rewrite nth_error_firstn_lt in Hi by exact Lik. apply (After i); auto. intros C. apply Hn.
    apply In_nth_error in C. destruct C as [j Hj]. assert (Lj : j < length (firstn i ids)) by (apply nth_error_Some; congruence). rewrite firstn_length in Lj.
    rewrite nth_error_firstn_lt in Hj by lia. apply nth_error_In with j. rewrite nth_error_firstn_lt by lia. exact Hj.
  - intros i z some Hi Hls Nds Hs.
    assert (Lik : i < k). { assert (i < length (firstn k ids)) by (apply nth_error_Some; congruence). rewrite firstn_length in H. lia. }
    rewrite nth_error_firstn_lt in Hi by exact Lik.
    assert (X : exists y, In y some /\ ~ In y (firstn i ids)).
    { destruct (Forall_Exists_dec (fun y => In y (firstn i ids)) (fun y => in_dec Nat.eq_dec y (firstn i ids)) some) as [A|E].
      - exfalso. rewrite Forall_forall in A. pose proof (NoDup_incl_length Nds A) as Q. rewrite firstn_length in Q. lia.
      - apply Exists_exists in E. exact E. }
    destruct X as [y [Y1 Y2]]. exists y. split; [exact Y1|]. destruct (Hs y Y1). apply (After i); auto.
Qed.

(** ** The searches *)
Lemma vamana_near : forall sortf ix dist L k filters indices distances apart away alpha c,
  sorts sortf -> index_ok ix -> 1 <= L -> (forall id, is_nan (dist id) = false) ->
  (filters = [] \/ length (pts_to_labels (ix_labels ix)) = ix_n ix) ->
  k <= L -> k <= length indices -> k <= length distances -> length filters <= L ->
  exists acc starts, filter_test (universal_of (ix_labels ix)) (pts_to_labels (ix_labels ix)) filters acc /\
    (filters = [] -> starts = [ix_start ix]) /\
    (filters <> [] -> forall id, In id starts <-> exists x, In x filters /\ medoid_of (ix_medoids ix) x = Some id) /\
    (starts <> [] -> (forall x, In x starts -> acc x = true) ->
     metric (ix_n ix) apart away -> shortcuts acc (ix_n ix) apart alpha (ix_graph ix) -> ordered_within c (ix_n ix) away dist -> (1 <= c)%R -> (c < alpha)%R ->
     exists ids indices' distances',
       vamana_search sortf ix dist L k filters indices distances = Ok (indices', distances', length ids) /\
       reports (ix_n ix) (ix_tags ix) dist indices' distances' ids /\
       near_best acc (ix_n ix) away (guarantee c alpha) k ids).
Proof.
  intros sortf ix dist L k fs ind dst apart away alpha c Hs Hix HL Hnan Hfl Hk Hi Hd Hf.
  destruct (vamana_search_answer sortf ix dist L k fs ind dst) as [acc [starts [ids [ind' [dst' [A1 [A2 [A3 [A4 [A5 [_ [_ A6]]]]]]]]]]]]; auto; [lia|].
  exists acc, starts. split; [exact A1|]. split; [exact A2|]. split; [intros H; apply (A3 H)|].
  intros Hne Hsa Hm Hsc Hor Hc Ha. exists (firstn k ids), ind', dst'. rewrite firstn_length. split; [exact A5|]. split; [exact A6|].
  apply (reported_near acc dist (ix_graph ix) starts L ids (ix_n ix) apart away alpha c k); auto; try apply Hix.
  - destruct fs as [|f fs]; [rewrite (A2 eq_refl); cbn; lia|]. destruct (A3 ltac:(discriminate)) as [B _]. lia.
  - intros x Hx. split; [|auto]. destruct Hix as [_ [_ [_ [H1 H2]]]].
    destruct fs as [|f fs]; [rewrite (A2 eq_refl) in Hx; destruct Hx as [<-|[]]; exact H1|].
    apply (A3 ltac:(discriminate)) in Hx. destruct Hx as [y [_ Hx]]. apply H2 with y. clear - Hx.
    induction (ix_medoids ix) as [|[l i] m IH]; cbn in Hx; [discriminate|]. destruct (String.eqb y l) eqn:E; [|right; auto].
    apply String.eqb_eq in E. subst. injection Hx as ->. left. reflexivity.
Qed.

Lemma vamana_near_plain : forall sortf ix dist L k indices distances apart away alpha c,
  sorts sortf -> index_ok ix -> 1 <= L -> (forall id, is_nan (dist id) = false) ->
  k <= L -> k <= length indices -> k <= length distances ->
  metric (ix_n ix) apart away -> shortcuts (fun _ => true) (ix_n ix) apart alpha (ix_graph ix) -> ordered_within c (ix_n ix) away dist -> (1 <= c)%R -> (c < alpha)%R ->
  exists ids indices' distances',
    vamana_search sortf ix dist L k [] indices distances = Ok (indices', distances', length ids) /\
    reports (ix_n ix) (ix_tags ix) dist indices' distances' ids /\
    near_best (fun _ => true) (ix_n ix) away (guarantee c alpha) k ids.
Proof.
  intros sortf ix dist L k ind dst apart away alpha c Hs Hix HL Hnan Hk Hi Hd Hm Hsc Hor Hc Ha.
  destruct (rng_search_answer sortf ix dist L k [] ind dst) as [ids [ind' [dst' [A4 [A5 [_ [_ A6]]]]]]]; auto; [lia|].
  rewrite rng_is_vamana in A5. exists (firstn k ids), ind', dst'. rewrite firstn_length. split; [exact A5|]. split; [exact A6|].
  apply (reported_near (fun _ => true) dist (ix_graph ix) [ix_start ix] L ids (ix_n ix) apart away alpha c k); auto; try apply Hix.
  - discriminate.
  - intros x [<-|[]]. split; [apply Hix|reflexivity].
Qed.

Lemma rng_near : forall sortf ix dist L k filters indices distances apart away alpha c,
  sorts sortf -> index_ok ix -> 1 <= L -> (forall id, is_nan (dist id) = false) ->
  k <= L -> k <= length indices -> k <= length distances ->
  metric (ix_n ix) apart away -> shortcuts (fun _ => true) (ix_n ix) apart alpha (ix_graph ix) -> ordered_within c (ix_n ix) away dist -> (1 <= c)%R -> (c < alpha)%R ->
  exists ids indices' distances',
    rng_search sortf ix dist L k filters indices distances = Ok (indices', distances', length ids) /\
    reports (ix_n ix) (ix_tags ix) dist indices' distances' ids /\
    near_best (fun _ => true) (ix_n ix) away (guarantee c alpha) k ids.
Proof.
  intros sortf ix dist L k fs ind dst apart away alpha c Hs Hix HL Hnan Hk Hi Hd Hm Hsc Hor Hc Ha. rewrite rng_is_vamana.
  apply (vamana_near_plain sortf ix dist L k ind dst apart away alpha c); auto.
Qed.

Lemma hnsw_near : forall sortf ix inner dist L k filters indices distances apart away alpha c,
  sorts sortf -> levels_ok (ix :: inner) -> (forall id, is_nan (dist id) = false) ->
  1 <= k <= L -> k <= length indices -> k <= length distances ->
  metric (ix_n ix) apart away -> shortcuts (fun _ => true) (ix_n ix) apart alpha (ix_graph ix) -> ordered_within c (ix_n ix) away dist -> (1 <= c)%R -> (c < alpha)%R ->
  exists ids indices' distances',
    hnsw_search sortf (ix :: inner) dist L k filters indices distances = Ok (indices', distances', length ids) /\
    reports (ix_n ix) (ix_tags ix) dist indices' distances' ids /\
    near_best (fun _ => true) (ix_n ix) away (guarantee c alpha) k ids.
Proof.
  intros sortf ix inner dist L k fs ind dst apart away alpha c Hs Hlv Hnan [Hk1 Hk] Hi Hd Hm Hsc Hor Hc Ha. assert (HL : 1 <= L) by lia.
  destruct (handed_down_some sortf L k ix inner dist Hs HL Hk Hlv Hnan) as [entry [Hh Hne]].
  destruct (handed_down_len _ _ _ _ _ _ _ Hs HL Hk Hlv Hnan Hh) as [Hel Hev].
  destruct Hlv as [[Hn [Hg [Ht [Hst Hmed]]]] _].
  destruct (search_reports sortf (ix_n ix) dist (passes_filter (ix_labels ix) []) (fun _ => true) L (ix_graph ix) entry (ix_tags ix) k ind dst)
    as [st [ind' [dst' [E [R [Hcu [S1 [S2 [Hrep Hreach]]]]]]]]]; auto; try lia.
  destruct (greedy_answers sortf (ix_n ix) dist (passes_filter (ix_labels ix) []) (fun _ => true) L (ix_graph ix) entry) as [st' [E' G]]; auto.
  assert (st' = st) by congruence. subst st'.
  exists (firstn k (map nid (found st))), ind', dst'. split; [|split; [exact Hrep|]].
  - rewrite (hnsw_enter _ _ _ _ _ _ _ _ _ _ Hh), E. cbn [bind]. rewrite R. cbn [bind]. rewrite firstn_length, map_length, Hcu. reflexivity.
  - apply (reported_near (fun _ => true) dist (ix_graph ix) entry L _ (ix_n ix) apart away alpha c k); auto.
Qed.
