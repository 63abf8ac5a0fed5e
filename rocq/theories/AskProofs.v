(** * Asking for more answers, more hash tables, more hyperplanes: proofs. *)
From Coq Require Import NArith String List Arith Lia Bool Sorting.Sorted Sorting.Permutation Floats.SpecFloat.
From Verif Require Import Base Float32 PoolModel TopKSpec SortSpec ListLemmas PoolProofs PoolProofs2 FilterProofs
  AcceptProofs ClosestModel ClosestSpec FlatModel FlatSpec FlatProofs IvfModel IvfProofs LshModel LshSpec LshProofs HeapSpec GtModel GtSpec GtProofs GtProofs2 GtProofs3
  WideSpec GreedyModel SearchSpec SearchModel GreedyProofs SearchProofs LongerSpec LongerProofs LongerProofs2 MoreProofs AskSpec.
Import ListNotations.

(** ** Prefixes *)
Lemma F2_nth : forall A B (R : A -> B -> Prop) l l', length l = length l' ->
  (forall i x y, nth_error l i = Some x -> nth_error l' i = Some y -> R x y) -> Forall2 R l l'.
Proof.
  intros A B R. induction l as [|a l IH]; intros [|b l'] H Hn; try discriminate; constructor.
  - apply (Hn 0); reflexivity.
  - apply IH; [cbn in H; lia|]. intros i x y Hx Hy. apply (Hn (S i)); assumption.
Qed.

Lemma rows_prefix : forall k k' c c' o o', k <= k' -> is_top_k k c o -> is_top_k k' c' o' -> NoDup c -> NoDup c' -> incl c c' -> incl c' c ->
  (forall z, In z c -> is_nan (snd z) = false) -> as_near_rows o (firstn k o').
Proof.
  intros k k' c c' o o' Hk T T' N N' I I' Hn.
  pose proof (top_k_firstn k k' c' o' Hk T') as T2.
  assert (Hlen : length c = length c') by (pose proof (NoDup_incl_length N I); pose proof (NoDup_incl_length N' I'); lia).
  apply F2_nth.
  - destruct T as [r [_ [L _]]]. destruct T2 as [r2 [_ [L2 _]]]. exact (eq_trans L (eq_trans (f_equal (min k) Hlen) (eq_sym L2))).
  - intros i x y Hx Hy.
    destruct (top_k_dominates k k c c' o (firstn k o') T T2 (le_n _) N I (fun z H => Hn z (I' z H)) i x Hx) as [y' [Ey Hyx]].
    destruct (top_k_dominates k k c' c (firstn k o') o T2 T (le_n _) N' I' Hn i y Hy) as [x' [Ex Hxy]].
    pose proof (eq_trans (eq_sym Ey) Hy) as Q1. injection Q1 as ->. pose proof (eq_trans (eq_sym Ex) Hx) as Q2. injection Q2 as ->. apply fle_both; assumption.
Qed.

Lemma ids_prefix : forall dist m m' c c' ids ids', m <= m' -> is_top_k m (score dist c) (score dist ids) -> is_top_k m' (score dist c') (score dist ids') ->
  NoDup c -> NoDup c' -> incl c c' -> incl c' c -> (forall id, is_nan (dist id) = false) -> as_near dist ids (firstn m ids').
Proof.
  intros dist m m' c c' ids ids' Hm T T' N N' I I' Hn.
  assert (J : forall a b, incl a b -> incl (score dist a) (score dist b)).
  { intros a b H u Hu. unfold score in *. apply in_map_iff in Hu. destruct Hu as [z [<- Hz]]. apply in_map_iff. exists z. auto. }
  pose proof (rows_prefix m m' _ _ _ _ Hm T T' (score_NoDup dist c N) (score_NoDup dist c' N') (J _ _ I) (J _ _ I')) as P.
  rewrite <- score_firstn in P. unfold as_near_rows in P. unfold as_near.
  assert (G : forall a b, Forall2 (fun x y => feq (snd x) (snd y) = true) (score dist a) (score dist b) -> Forall2 (fun x y => feq (dist x) (dist y) = true) a b).
  { induction a as [|x a IH]; intros [|y b] H; inversion H; subst; constructor; auto. }
  apply G. apply P. intros z Hz. unfold score in Hz. apply in_map_iff in Hz. destruct Hz as [w [<- _]]. apply Hn.
Qed.

Lemma near_same : forall n dist ids ids', no_ties n dist -> (forall x, In x ids -> x < n) -> (forall x, In x ids' -> x < n) -> as_near dist ids ids' -> ids = ids'.
Proof.
  intros n dist ids ids' T B B' H. induction H as [|x y l l' E H IH]; [reflexivity|]. f_equal.
  - apply T; [apply B; left; reflexivity|apply B'; left; reflexivity|exact E].
  - apply IH; intros z Hz; [apply B|apply B']; right; exact Hz.
Qed.

Lemma top_in : forall dist m c ids x, is_top_k m (score dist c) (score dist ids) -> In x ids -> In x c.
Proof.
  intros dist m c ids x [rest [P _]] Hx.
  assert (Hs : In (x, dist x) (score dist c)).
  { apply (Permutation_in _ (Permutation_sym P)). apply in_or_app. left. unfold score. apply in_map_iff. exists x. auto. }
  unfold score in Hs. apply in_map_iff in Hs. destruct Hs as [z [E Hz]]. injection E as <- _. exact Hz.
Qed.

Lemma ivf_ask_more : forall popf mbs ix cdist dist probe m m' filters indices distances indices' distances',
  pops popf -> 1 <= mbs -> ivf_ok ix -> probe <= ivf_nc ix -> 1 <= m -> m <= m' ->
  (filters = [] \/ length (pts_to_labels (ivf_labels ix)) = ivf_n ix) ->
  (forall c, is_nan (cdist c) = false) -> (exists c, c < ivf_nc ix /\ flt (cdist c) FLT_MAX = true) ->
  finite_distances (ivf_n ix) dist -> room m indices distances -> room m' indices' distances' ->
  exists ids i1 d1 ids' i2 d2 c,
    ivf_search popf mbs ix cdist dist probe m filters indices distances = Ok (i1, d1, length ids, c) /\ holds dist ids indices i1 distances d1 /\
    ivf_search popf mbs ix cdist dist probe m' filters indices' distances' = Ok (i2, d2, length ids', c) /\ holds dist ids' indices' i2 distances' d2 /\
    as_near dist ids (firstn m ids') /\ (no_ties (ivf_n ix) dist -> ids = firstn m ids').
Proof.
  intros popf mbs ix cdist dist probe m m' fs ind dst ind' dst' Hp Hmb [Hl Hin] Hpr Hm Hmm Hlab Hnan Hfin Hd Hr Hr'.
  destruct (ivf_candidates_ok popf mbs ix cdist probe Hp Hmb Hpr Hl Hnan Hfin) as [probed [A [B [C [D E]]]]].
  set (cands := concat (map (fun c => nth c (ivf_inv ix) []) probed)) in *.
  assert (Hc : forall id, In id cands -> id < ivf_n ix).
  { intros id H. unfold cands in H. apply in_concat in H. destruct H as [l [H1 H2]]. apply in_map_iff in H1.
    destruct H1 as [c [<- Hc]]. apply (Hin (nth c (ivf_inv ix) [])); auto. apply nth_In. rewrite Hl. auto. }
  assert (Q : forall k i0 d0, 1 <= k -> room k i0 d0 -> exists ids i' d', flat_search (ivf_n ix) dist (passes_filter (ivf_labels ix) fs) k cands i0 d0 =
      Ok (i', d', length ids, length (nodup Nat.eq_dec (filter (acc_of (ivf_labels ix) fs) cands))) /\
    is_top_k k (score dist (nodup Nat.eq_dec (filter (acc_of (ivf_labels ix) fs) cands))) (score dist ids) /\ holds dist ids i0 i' d0 d').
  { intros k i0 d0 Hk Hrk. destruct (flat_search_ok (ivf_n ix) dist (passes_filter (ivf_labels ix) fs) (acc_of (ivf_labels ix) fs) k cands i0 d0)
      as [ids [i' [d' [E2 [T [N [F H]]]]]]]; auto.
    - intros id Hid. apply (acc_of_ok _ _ (ivf_n ix)); auto.
    - exists ids, i', d'. auto. }
  destruct (Q m ind dst Hm Hr) as [ids [i1 [d1 [R1 [T1 H1]]]]]. destruct (Q m' ind' dst') as [ids' [i2 [d2 [R2 [T2 H2]]]]]; [lia|exact Hr'|].
  do 7 eexists. unfold ivf_search. rewrite E. cbn [bind]. split; [exact R1|]. split; [exact H1|]. split; [exact R2|]. split; [exact H2|].
  assert (P : as_near dist ids (firstn m ids')).
  { eapply ids_prefix; [exact Hmm|exact T1|exact T2|apply NoDup_nodup|apply NoDup_nodup|apply incl_refl|apply incl_refl|apply Hd]. }
  split; [exact P|]. intros T. apply (near_same (ivf_n ix) dist); [exact T| | |exact P].
  - intros x Hx. apply (top_in _ _ _ _ _ T1) in Hx. apply nodup_In in Hx. apply filter_In in Hx. apply Hc. apply Hx.
  - intros x Hx. apply In_firstn in Hx. apply (top_in _ _ _ _ _ T2) in Hx. apply nodup_In in Hx. apply filter_In in Hx. apply Hc. apply Hx.
Qed.

Lemma lsh_ask_more : forall dotf data ts planes ix q dist m m' filters indices distances indices' distances',
  (ts <= 64)%N -> l_tags ix = seq 0 (l_n ix) -> lsh_new ix -> 1 <= m -> m <= m' ->
  (filters = [] \/ length (pts_to_labels (l_labels ix)) = l_n ix) ->
  finite_distances (l_n ix) dist -> room m indices distances -> room m' indices' distances' ->
  exists ix' ids i1 d1 ix1 ids' i2 d2 ix2 c,
    lsh_build dotf data ts planes ix = Ok ix' /\
    lsh_search dotf ix' q dist m filters indices distances = Ok ((i1, d1, length ids, c), ix1) /\ holds dist ids indices i1 distances d1 /\
    lsh_search dotf ix' q dist m' filters indices' distances' = Ok ((i2, d2, length ids', c), ix2) /\ holds dist ids' indices' i2 distances' d2 /\
    as_near dist ids (firstn m ids') /\ (no_ties (l_n ix) dist -> ids = firstn m ids').
Proof.
  intros dotf data ts planes ix q dist m m' fs ind dst ind' dst' Hts Htag Hnew Hm Hmm Hlab Hd Hr Hr'.
  destruct (lsh_search_ok dotf data ts planes ix q dist m fs ind dst) as [ix' [ix1 [c1 [ids [i1 [d1 [B [S1 [N1 [C1 [T1 H1]]]]]]]]]]]; auto.
  destruct (lsh_search_ok dotf data ts planes ix q dist m' fs ind' dst') as [ix'' [ix2 [c2 [ids' [i2 [d2 [B' [S2 [N2 [C2 [T2 H2]]]]]]]]]]]; auto; [lia|].
  rewrite B in B'. injection B' as <-.
  assert (I : incl c1 c2) by (intros x Hx; apply C2; apply C1; exact Hx).
  assert (I' : incl c2 c1) by (intros x Hx; apply C1; apply C2; exact Hx).
  assert (Hlen : length c1 = length c2) by (pose proof (NoDup_incl_length N1 I); pose proof (NoDup_incl_length N2 I'); lia).
  exists ix', ids, i1, d1, ix1, ids', i2, d2, ix2, (length c1). split; [exact B|]. split; [exact S1|]. split; [exact H1|]. rewrite Hlen. split; [exact S2|]. split; [exact H2|].
  assert (P : as_near dist ids (firstn m ids')).
  { eapply ids_prefix; [exact Hmm|exact T1|exact T2|exact N1|exact N2|exact I|exact I'|apply Hd]. }
  split; [exact P|]. intros T. apply (near_same (l_n ix) dist); [exact T| | |exact P].
  - intros x Hx. apply (top_in _ _ _ _ _ T1) in Hx. apply C1 in Hx. apply Hx.
  - intros x Hx. apply In_firstn in Hx. apply (top_in _ _ _ _ _ T2) in Hx. apply C2 in Hx. apply Hx.
Qed.

(** ** More tables *)
Lemma top_more2 : forall m m' c c' dist ids ids', is_top_k m (score dist c) (score dist ids) -> is_top_k m' (score dist c') (score dist ids') -> m <= m' ->
  NoDup c -> incl c c' -> (forall id, is_nan (dist id) = false) -> no_worse dist ids ids'.
Proof.
  intros m m' c c' dist ids ids' A B Hm Nd I Hn i x Hx.
  destruct (top_k_dominates m m' _ _ _ _ A B Hm) with (i := i) (x := (x, dist x)) as [y [Hy Hle]].
  - apply score_NoDup. exact Nd.
  - intros u Hu. unfold score in *. apply in_map_iff in Hu. destruct Hu as [a [<- Ha]]. apply in_map_iff. exists a. auto.
  - intros u Hu. unfold score in Hu. apply in_map_iff in Hu. destruct Hu as [a [<- Ha]]. apply Hn.
  - unfold score. rewrite nth_error_map, Hx. reflexivity.
  - unfold score in Hy. rewrite nth_error_map in Hy. destruct (nth_error ids' i) as [w|]; [|discriminate]. cbn in Hy. injection Hy as <-.
    exists w. split; [reflexivity|exact Hle].
Qed.

Lemma lsh_wider : forall dotf data ts ts' planes planes' ix q dist m m' filters indices distances indices' distances',
  (ts <= 64)%N -> (ts' <= 64)%N -> (forall v w, collide dotf planes v w -> collide dotf planes' v w) ->
  l_tags ix = seq 0 (l_n ix) -> lsh_new ix -> 1 <= m -> m <= m' ->
  (filters = [] \/ length (pts_to_labels (l_labels ix)) = l_n ix) ->
  finite_distances (l_n ix) dist -> room m indices distances -> room m' indices' distances' ->
  exists ix1 ids i1 d1 c1 ix1' ix2 ids' i2 d2 c2 ix2',
    lsh_build dotf data ts planes ix = Ok ix1 /\ lsh_build dotf data ts' planes' ix = Ok ix2 /\
    lsh_search dotf ix1 q dist m filters indices distances = Ok ((i1, d1, length ids, c1), ix1') /\ holds dist ids indices i1 distances d1 /\
    lsh_search dotf ix2 q dist m' filters indices' distances' = Ok ((i2, d2, length ids', c2), ix2') /\ holds dist ids' indices' i2 distances' d2 /\
    no_worse dist ids ids' /\ c1 <= c2 /\
    (forall x, In x ids -> x < l_n ix) /\ (forall x, In x ids' -> x < l_n ix).
Proof.
  intros dotf data ts ts' planes planes' ix q dist m m' fs ind dst ind' dst' Hts Hts' Hcol Htag Hnew Hm Hmm Hlab Hd Hr Hr'.
  destruct (lsh_search_ok dotf data ts planes ix q dist m fs ind dst) as [ix1 [ix1' [c1 [ids [i1 [d1 [B [S1 [N1 [C1 [T1 H1]]]]]]]]]]]; auto.
  destruct (lsh_search_ok dotf data ts' planes' ix q dist m' fs ind' dst') as [ix2 [ix2' [c2 [ids' [i2 [d2 [B' [S2 [N2 [C2 [T2 H2]]]]]]]]]]]; auto; [lia|].
  assert (I : incl c1 c2).
  { intros x Hx. apply C1 in Hx. destruct Hx as [Hx [Ha Hc]]. apply C2. split; [exact Hx|]. split; [exact Ha|apply Hcol; exact Hc]. }
  exists ix1, ids, i1, d1, (length c1), ix1', ix2, ids', i2, d2, (length c2), ix2'.
  split; [exact B|]. split; [exact B'|]. split; [exact S1|]. split; [exact H1|]. split; [exact S2|]. split; [exact H2|].
  split; [eapply top_more2; [exact T1|exact T2|exact Hmm|exact N1|exact I|apply Hd]|]. split; [apply NoDup_incl_length; assumption|]. split.
  - intros x Hx. apply (top_in _ _ _ _ _ T1) in Hx. apply C1 in Hx. apply Hx.
  - intros x Hx. apply (top_in _ _ _ _ _ T2) in Hx. apply C2 in Hx. apply Hx.
Qed.

Lemma lsh_more_tables : forall dotf data ts planes more ix q dist m m' filters indices distances indices' distances',
  (ts <= 64)%N -> l_tags ix = seq 0 (l_n ix) -> lsh_new ix -> 1 <= m -> m <= m' ->
  (filters = [] \/ length (pts_to_labels (l_labels ix)) = l_n ix) ->
  finite_distances (l_n ix) dist -> room m indices distances -> room m' indices' distances' ->
  exists ix1 ids i1 d1 c1 ix1' ix2 ids' i2 d2 c2 ix2',
    lsh_build dotf data ts planes ix = Ok ix1 /\ lsh_build dotf data ts (planes ++ more) ix = Ok ix2 /\
    lsh_search dotf ix1 q dist m filters indices distances = Ok ((i1, d1, length ids, c1), ix1') /\ holds dist ids indices i1 distances d1 /\
    lsh_search dotf ix2 q dist m' filters indices' distances' = Ok ((i2, d2, length ids', c2), ix2') /\ holds dist ids' indices' i2 distances' d2 /\
    no_worse dist ids ids' /\ c1 <= c2.
Proof.
  intros dotf data ts planes more ix q dist m m' fs ind dst ind' dst' Hts Htag Hnew Hm Hmm Hlab Hd Hr Hr'.
  destruct (lsh_wider dotf data ts ts planes (planes ++ more) ix q dist m m' fs ind dst ind' dst')
    as [ix1 [ids [i1 [d1 [c1 [ix1' [ix2 [ids' [i2 [d2 [c2 [ix2' [B [B' [S1 [H1 [S2 [H2 [W [C _]]]]]]]]]]]]]]]]]]]]; auto.
  { intros v w [pl [Hp Hs]]. exists pl. split; [apply in_or_app; left; exact Hp|exact Hs]. }
  exists ix1, ids, i1, d1, c1, ix1', ix2, ids', i2, d2, c2, ix2'. repeat (split; [assumption|]). assumption.
Qed.

Lemma lsh_tables_recall : forall dotf data ts planes more ix q dist k indices distances truth,
  (ts <= 64)%N -> l_tags ix = seq 0 (l_n ix) -> lsh_new ix -> 1 <= k ->
  finite_distances (l_n ix) dist -> no_ties (l_n ix) dist -> room k indices distances -> nearest_among k (fun x => x < l_n ix) dist truth ->
  exists ix1 ids i1 d1 c1 ix1' ix2 ids' i2 d2 c2 ix2',
    lsh_build dotf data ts planes ix = Ok ix1 /\ lsh_build dotf data ts (planes ++ more) ix = Ok ix2 /\
    lsh_search dotf ix1 q dist k [] indices distances = Ok ((i1, d1, length ids, c1), ix1') /\ holds dist ids indices i1 distances d1 /\
    lsh_search dotf ix2 q dist k [] indices distances = Ok ((i2, d2, length ids', c2), ix2') /\ holds dist ids' indices i2 distances d2 /\
    hits truth ids <= hits truth ids'.
Proof.
  intros dotf data ts planes more ix q dist k ind dst truth Hts Htag Hnew Hm Hd Ht Hr Hn.
  destruct (lsh_wider dotf data ts ts planes (planes ++ more) ix q dist k k [] ind dst ind dst)
    as [ix1 [ids [i1 [d1 [c1 [ix1' [ix2 [ids' [i2 [d2 [c2 [ix2' [B [B' [S1 [H1 [S2 [H2 [W [C [I I']]]]]]]]]]]]]]]]]]]]]; auto.
  { intros v w [pl [Hp Hs]]. exists pl. split; [apply in_or_app; left; exact Hp|exact Hs]. }
  exists ix1, ids, i1, d1, c1, ix1', ix2, ids', i2, d2, c2, ix2'. repeat (split; [assumption|]).
  apply (no_worse_hits (l_n ix) dist ids ids' k (fun x => x < l_n ix) truth); auto.
Qed.

(** ** More hyperplanes in each table *)
Lemma collide_fewer : forall dotf planes planes' v w, more_planes planes planes' -> collide dotf planes' v w -> collide dotf planes v w.
Proof.
  intros dotf planes planes' v w H [pl [Hp Hs]]. induction H as [|a b l l' [c E] H IH]; [destruct Hp|].
  destruct Hp as [<-|Hp].
  - exists a. split; [left; reflexivity|]. subst b. unfold sign_pattern in *. rewrite !map_app in Hs.
    assert (L : length (map (fun hp => fgt (dotf hp v) f32_zero) a) = length (map (fun hp => fgt (dotf hp w) f32_zero) a)) by (rewrite !map_length; reflexivity).
    revert L Hs. generalize (map (fun hp => fgt (dotf hp v) f32_zero) c), (map (fun hp => fgt (dotf hp w) f32_zero) c).
    generalize (map (fun hp => fgt (dotf hp v) f32_zero) a), (map (fun hp => fgt (dotf hp w) f32_zero) a).
    induction l0 as [|x l0 IHl]; intros [|y l1] e1 e2 L Hs; try discriminate; [reflexivity|]. cbn in Hs. injection Hs as -> Hs. f_equal. eapply IHl; [cbn in L; lia|exact Hs].
  - destruct (IH Hp) as [p2 [Hp2 Hs2]]. exists p2. split; [right; exact Hp2|exact Hs2].
Qed.

Lemma lsh_more_planes : forall dotf data ts ts' planes planes' ix q dist m filters indices distances,
  (ts <= 64)%N -> (ts' <= 64)%N -> more_planes planes planes' -> l_tags ix = seq 0 (l_n ix) -> lsh_new ix -> 1 <= m ->
  (filters = [] \/ length (pts_to_labels (l_labels ix)) = l_n ix) -> finite_distances (l_n ix) dist -> room m indices distances ->
  exists ix1 ids i1 d1 c1 ix1' ix2 ids' i2 d2 c2 ix2',
    lsh_build dotf data ts planes ix = Ok ix1 /\ lsh_build dotf data ts' planes' ix = Ok ix2 /\
    lsh_search dotf ix1 q dist m filters indices distances = Ok ((i1, d1, length ids, c1), ix1') /\ holds dist ids indices i1 distances d1 /\
    lsh_search dotf ix2 q dist m filters indices distances = Ok ((i2, d2, length ids', c2), ix2') /\ holds dist ids' indices i2 distances d2 /\
    no_worse dist ids' ids /\ c2 <= c1.
Proof.
  intros dotf data ts ts' planes planes' ix q dist m fs ind dst Hts Hts' Hp Htag Hnew Hm Hlab Hd Hr.
  destruct (lsh_wider dotf data ts' ts planes' planes ix q dist m m fs ind dst ind dst)
    as [ix1 [ids [i1 [d1 [c1 [ix1' [ix2 [ids' [i2 [d2 [c2 [ix2' [B [B' [S1 [H1 [S2 [H2 [W [C _]]]]]]]]]]]]]]]]]]]]; auto.
  { intros v w. apply collide_fewer. exact Hp. }
  exists ix2, ids', i2, d2, c2, ix2', ix1, ids, i1, d1, c1, ix1'. repeat (split; [assumption|]). assumption.
Qed.

(** ** Ground truth *)
Lemma row_same : forall n dist (row row' : list scored), no_ties n dist -> (forall z, In z row -> fst z < n /\ snd z = dist (fst z)) ->
  (forall z, In z row' -> fst z < n /\ snd z = dist (fst z)) -> as_near_rows row row' -> row = row'.
Proof.
  intros n dist row row' T B B' H. induction H as [|x y l l' E H IH]; [reflexivity|]. f_equal.
  - destruct (B x (or_introl eq_refl)) as [Bx Ex]. destruct (B' y (or_introl eq_refl)) as [By Ey].
    destruct x as [x dx], y as [y dy]. cbn in *. subst dx dy. rewrite (T x y Bx By E). reflexivity.
  - apply IH; intros z Hz; [apply B|apply B']; right; exact Hz.
Qed.

Lemma top_row_in : forall k n dist (row : list scored), is_top_k k (score dist (seq 0 n)) row -> forall z, In z row -> fst z < n /\ snd z = dist (fst z).
Proof.
  intros k n dist row [rest [P _]] z Hz.
  assert (Hs : In z (score dist (seq 0 n))) by (apply (Permutation_in _ (Permutation_sym P)); apply in_or_app; left; exact Hz).
  unfold score in Hs. apply in_map_iff in Hs. destruct Hs as [w [<- Hw]]. apply in_seq in Hw. cbn. split; [lia|reflexivity].
Qed.

Lemma rows_ask_more : forall k k' n dist (row row' : list scored), k <= k' -> (forall p, is_nan (dist p) = false) ->
  is_top_k k (score dist (seq 0 n)) row -> is_top_k k' (score dist (seq 0 n)) row' ->
  as_near_rows row (firstn k row') /\ (no_ties n dist -> row = firstn k row').
Proof.
  intros k k' n dist row row' Hk Hn T T'.
  assert (P : as_near_rows row (firstn k row')).
  { eapply rows_prefix; [exact Hk|exact T|exact T'| | |apply incl_refl|apply incl_refl|]; try (apply score_NoDup; apply seq_NoDup).
    intros z Hz. apply (score_nan dist (seq 0 n)); assumption. }
  split; [exact P|]. intros Ht. apply (row_same n dist); auto.
  - apply (top_row_in k). exact T.
  - intros z Hz. apply In_firstn in Hz. apply (top_row_in k' n dist row' T'). exact Hz.
Qed.

Lemma knn_ask_more : forall pushf takef pushf' takef' bs bs' k k' npoints nq dmat orders orders' out0 out0', heap_ok pushf takef -> heap_ok pushf' takef' ->
  (forall q p, is_nan (dmat q p) = false) -> 1 <= bs -> 1 <= bs' -> 1 <= k -> k <= k' -> k' <= npoints -> batch_orders nq bs orders -> batch_orders nq bs' orders' ->
  length out0 = nq * k -> length out0' = nq * k' ->
  exists out out', exact_knn pushf takef bs k npoints nq dmat orders out0 = Ok out /\ exact_knn pushf' takef' bs' k' npoints nq dmat orders' out0' = Ok out' /\
    forall q, q < nq -> as_near_rows (row_of k q out) (firstn k (row_of k' q out')) /\ (no_ties npoints (dmat q) -> row_of k q out = firstn k (row_of k' q out')).
Proof.
  intros pushf takef pushf' takef' bs bs' k k' n nq dmat orders orders' o o' Hh Hh' Hn Hb Hb' Hk Hkk Hkn Ho Ho' Hl Hl'.
  destruct (exact_knn_ok pushf takef bs k n nq dmat orders o) as [out [E [_ R]]]; auto; [lia|].
  destruct (exact_knn_ok pushf' takef' bs' k' n nq dmat orders' o') as [out' [E' [_ R']]]; auto; [lia|].
  exists out, out'. split; [exact E|]. split; [exact E'|]. intros q Hq. destruct (R q Hq) as [T _]. destruct (R' q Hq) as [T' _].
  eapply rows_ask_more; eauto.
Qed.

Lemma truth_ask_more : forall pushf takef sortf bs ps ps' n nq k k' dmat orders orders', heap_ok pushf takef -> sorts_pairs sortf ->
  (forall q p, is_nan (dmat q p) = false) -> 1 <= bs -> 1 <= ps -> 1 <= ps' -> 1 <= n -> 1 <= k -> 1 <= k' ->
  min k (last_part n ps) <= min k' (last_part n ps') -> (forall p, batch_orders nq bs (orders p)) -> (forall p, batch_orders nq bs (orders' p)) ->
  exists j j' out out', ground_truth pushf takef sortf bs ps n nq k dmat orders = Ok (j, out) /\ ground_truth pushf takef sortf bs ps' n nq k' dmat orders' = Ok (j', out') /\
    j <= j' /\ forall q, q < nq -> as_near_rows (row_of j q out) (firstn j (row_of j' q out')) /\ (no_ties n (dmat q) -> row_of j q out = firstn j (row_of j' q out')).
Proof.
  intros pushf takef sortf bs ps ps' n nq k k' dmat orders orders' Hh Hs Hn Hb Hp Hp' Hn1 Hk Hk' Hle Ho Ho'.
  destruct (ground_truth_ok pushf takef sortf bs ps n nq k dmat orders) as [out [E [_ R]]]; auto.
  destruct (ground_truth_ok pushf takef sortf bs ps' n nq k' dmat orders') as [out' [E' [_ R']]]; auto.
  exists (min k (last_part n ps)), (min k' (last_part n ps')), out, out'. split; [exact E|]. split; [exact E'|]. split; [exact Hle|].
  intros q Hq. eapply rows_ask_more; [exact Hle|apply Hn|apply R; exact Hq|apply R'; exact Hq].
Qed.
