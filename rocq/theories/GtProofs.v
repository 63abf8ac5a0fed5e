(** * Lemmas about the ground truth computation. *)
From Coq Require Import List Arith Bool Lia Sorting.Sorted Sorting.Permutation Floats.SpecFloat.
From Verif Require Import Base Float32 TopKSpec ListLemmas ClosestModel ClosestProofs HeapSpec GtModel GtSpec.
Import ListNotations.

Lemma col_ok : forall npoints row p, p < npoints -> col npoints row p = Ok (row p).
Proof. intros. unfold col. now rewrite (proj2 (Nat.ltb_lt _ _)). Qed.

Lemma score_app : forall row a b, score row (a ++ b) = score row a ++ score row b.
Proof. intros. apply map_app. Qed.

Lemma score_nan : forall row l z, (forall p, is_nan (row p) = false) -> In z (score row l) -> is_nan (snd z) = false.
Proof. intros row l z H Hz. apply in_map_iff in Hz. destruct Hz as [x [<- _]]. apply H. Qed.

(** The [k] nearest of the first [p] points are in the heap. *)
Definition keeps (k : nat) (cands h : list (nat * f32)) : Prop :=
  exists rest : list (nat * f32), Permutation cands (h ++ rest) /\ length h = k /\ forall x y, In x h -> In y rest -> no_farther x y.

Lemma knn_fill_ok : forall pushf takef npoints row, heap_ok pushf takef -> forall cnt p h, p + cnt <= npoints ->
  exists h', knn_fill pushf npoints row p cnt h = Ok h' /\ Permutation (h ++ score row (seq p cnt)) h'.
Proof.
  intros pushf takef npoints row [Hp _]. induction cnt as [|cnt IH]; intros p h H; cbn [knn_fill].
  - exists h. split; [auto|]. cbn. now rewrite app_nil_r.
  - rewrite col_ok by lia. cbn [bind]. destruct (IH (S p) (pushf (p, row p) h)) as [h' [E P]]; [lia|]. exists h'. split; [auto|].
    rewrite <- P. cbn [seq score map]. rewrite <- (Hp (p, row p) h). cbn [app]. now rewrite <- Permutation_middle.
Qed.

Lemma knn_scan_ok : forall pushf takef npoints row k, heap_ok pushf takef -> (forall p, is_nan (row p) = false) -> 1 <= k ->
  forall cnt p h, p + cnt <= npoints -> keeps k (score row (seq 0 p)) h ->
  exists h', knn_scan pushf takef k npoints row p cnt h = Ok h' /\ keeps k (score row (seq 0 (p + cnt))) h'.
Proof.
  intros pushf takef npoints row k HO Hn Hk. pose proof HO as [Hp [_ Ht]]. induction cnt as [|cnt IH]; intros p h H K; cbn [knn_scan].
  - rewrite Nat.add_0_r. eauto.
  - destruct K as [rest [P [HL HR]]].
    assert (Hnan : forall z, In z h -> is_nan (snd z) = false).
    { intros z Hz. apply (score_nan row (seq 0 p)); auto. apply (Permutation_in _ (Permutation_sym P)). apply in_app_iff. auto. }
    destruct (Ht h) as [t [r [Et [Pt Hmax]]]]; [intros ->; cbn in HL; lia|auto|]. rewrite Et. cbn [bind].
    rewrite col_ok by lia. cbn [bind].
    assert (Htin : In t h) by (apply (Permutation_in _ (Permutation_sym Pt)); now left).
    assert (Hle : forall a, In a h -> fle (snd a) (snd t) = true).
    { intros a Ha. apply (Permutation_in _ Pt) in Ha. destruct Ha as [<-|Ha]; [apply fle_refl; auto|auto]. }
    assert (P2 : Permutation (score row (seq 0 (S p))) ((p, row p) :: h ++ rest)).
    { rewrite seq_S, score_app. cbn [plus score map]. rewrite Permutation_app_comm. cbn [app]. now constructor. }
    assert (Next : forall h2, keeps k (score row (seq 0 (S p))) h2 ->
              exists h', knn_scan pushf takef k npoints row (S p) cnt h2 = Ok h' /\ keeps k (score row (seq 0 (p + S cnt))) h').
    { intros h2 K2. replace (p + S cnt) with (S p + cnt) by lia. apply IH; [lia|auto]. }
    destruct (fgt (snd t) (row p)) eqn:E.
    + unfold fgt in E. change (SFltb (row p) (snd t)) with (flt (row p) (snd t)) in E.
      set (h1 := pushf (p, row p) h). assert (Ph1 : Permutation ((p, row p) :: h) h1) by apply Hp.
      assert (HL1 : length h1 = S k) by (rewrite <- (Permutation_length Ph1); cbn; lia).
      rewrite (proj2 (Nat.ltb_lt _ _)) by lia.
      assert (Hnan1 : forall z, In z h1 -> is_nan (snd z) = false).
      { intros z Hz. apply (Permutation_in _ (Permutation_sym Ph1)) in Hz. destruct Hz as [<-|Hz]; [apply Hn|auto]. }
      destruct (Ht h1) as [x [r1 [Ex [Px Hx]]]]; [intros X; rewrite X in HL1; cbn in HL1; lia|auto|]. rewrite Ex. cbn [bind]. apply Next.
      exists (x :: rest). split; [|split].
      * rewrite P2. rewrite <- Permutation_middle. change (x :: r1 ++ rest) with ((x :: r1) ++ rest). rewrite <- Px, <- Ph1. reflexivity.
      * apply Permutation_length in Px. cbn in Px. lia.
      * intros a b Ha [<-|Hb]; [now apply Hx|].
        assert (Ha' : In a ((p, row p) :: h)) by (apply (Permutation_in _ (Permutation_sym Ph1)); apply (Permutation_in _ (Permutation_sym Px)); now right).
        destruct Ha' as [<-|Ha']; [|now apply HR]. unfold no_farther. cbn [snd]. eapply fle_trans; [apply flt_fle; exact E|]. now apply HR.
    + cbn [bind]. rewrite (proj2 (Nat.ltb_ge _ _)) by lia. cbn [bind]. apply Next. exists ((p, row p) :: rest). split; [|split; [auto|]].
      * rewrite P2. now rewrite <- Permutation_middle.
      * intros a b Ha [<-|Hb]; [|now apply HR]. unfold no_farther. cbn [snd]. eapply fle_trans; [apply Hle; auto|].
        apply flt_false_fle; [apply Hn|now apply Hnan|exact E].
Qed.

Lemma knn_emit_ok : forall pushf takef k q, heap_ok pushf takef -> forall cnt h out, length h = cnt -> (forall z, In z h -> is_nan (snd z) = false) ->
  cnt + q * k <= length out ->
  exists out' l, knn_emit takef k q cnt h out = Ok out' /\ length out' = length out /\ Permutation h l /\ by_distance l /\
    (forall j, j < cnt -> nth_error out' (j + q * k) = nth_error l j) /\
    (forall j, j < q * k \/ cnt + q * k <= j -> nth_error out' j = nth_error out j).
Proof.
  intros pushf takef k q [_ [_ Ht]]. induction cnt as [|cnt IH]; intros h out HL Hn Hlen; cbn [knn_emit].
  - destruct h; [|discriminate]. exists out, []. repeat split; auto; [constructor|intros j Hj; lia].
  - destruct (Ht h) as [x [r [Ex [Px Hx]]]]; [intros ->; discriminate|auto|]. rewrite Ex. cbn [bind fst snd].
    assert (HLr : length r = cnt) by (apply Permutation_length in Px; cbn in Px; lia).
    assert (Hnr : forall z, In z r -> is_nan (snd z) = false) by (intros z Hz; apply Hn; apply (Permutation_in _ (Permutation_sym Px)); now right).
    destruct (wr_nth _ out (cnt + q * k) x) as [o1 [E1 [L1 N1]]]; [lia|]. rewrite E1. cbn [bind].
    destruct (IH r o1 HLr Hnr) as [out' [l [E2 [L2 [Pl [Sl [Hj Ho]]]]]]]; [lia|].
    exists out', (l ++ [x]). split; [auto|]. split; [lia|]. split; [|split; [|split]].
    + rewrite Px, Pl. apply Permutation_cons_append.
    + assert (Hmax : forall y, In y l -> no_farther y x) by (intros y Hy; apply Hx; apply (Permutation_in _ (Permutation_sym Pl)); auto).
      clear -Sl Hmax. induction l as [|a l IHl]; [repeat constructor|]. apply StronglySorted_inv in Sl. destruct Sl as [S1 S2]. cbn. constructor.
      * apply IHl; auto. intros y Hy. apply Hmax. now right.
      * apply Forall_app. split; [auto|]. constructor; [apply Hmax; now left|constructor].
    + intros j Hjlt. assert (Ll : length l = cnt) by (apply Permutation_length in Pl; lia). destruct (Nat.eq_dec j cnt) as [->|Hne].
      * rewrite Ho by lia. rewrite N1. destruct (Nat.eq_dec (cnt + q * k) (cnt + q * k)) as [_|C]; [|congruence]. rewrite nth_error_app2 by lia. rewrite Ll, Nat.sub_diag. reflexivity.
      * rewrite Hj by lia. rewrite nth_error_app1 by lia. reflexivity.
    + intros j Hj2. rewrite Ho by lia. rewrite N1. destruct (Nat.eq_dec j (cnt + q * k)); [lia|auto].
Qed.

Lemma nth_error_row : forall k i out j, nth_error (row_of k i out) j = if j <? k then nth_error out (i * k + j) else None.
Proof.
  intros k i out j. unfold row_of. destruct (j <? k) eqn:E.
  - apply Nat.ltb_lt in E. rewrite nth_error_firstn_lt by auto.
    generalize (i * k). intros m. revert out. induction m as [|m IH]; intros out; [reflexivity|]. destruct out; [now destruct j|]. cbn. apply IH.
  - apply Nat.ltb_ge in E. apply nth_error_None. rewrite firstn_length. lia.
Qed.

Lemma nth_error_ext2 : forall (A : Type) (a b : list A), (forall i, nth_error a i = nth_error b i) -> a = b.
Proof.
  intros A. induction a as [|x a IH]; intros [|y b] H; auto; try (specialize (H 0); discriminate).
  f_equal; [specialize (H 0); cbn in H; congruence|apply IH; intros i; apply (H (S i))].
Qed.

Lemma knn_query_ok : forall pushf takef k npoints dmat q out, heap_ok pushf takef -> (forall p, is_nan (dmat q p) = false) ->
  1 <= k -> k <= npoints -> k + q * k <= length out ->
  exists out', knn_query pushf takef k npoints dmat q out = Ok out' /\ length out' = length out /\
    is_top_k k (score (dmat q) (seq 0 npoints)) (row_of k q out') /\ length (row_of k q out') = k /\ (forall q', q' <> q -> row_of k q' out' = row_of k q' out).
Proof.
  intros pushf takef k npoints dmat q out HO Hn Hk1 Hk Hlen. unfold knn_query.
  destruct (knn_fill_ok pushf takef npoints (dmat q) HO k 0 []) as [h [-> P]]; [lia|]. cbn [bind]. cbn [app] in P.
  assert (K : keeps k (score (dmat q) (seq 0 k)) h).
  { exists []. rewrite app_nil_r. split; [auto|]. split; [rewrite <- (Permutation_length P); unfold score; now rewrite map_length, seq_length|]. intros x y _ []. }
  destruct (knn_scan_ok pushf takef npoints (dmat q) k HO Hn Hk1 (npoints - k) k h) as [h2 [-> K2]]; [lia|auto|]. cbn [bind].
  replace (k + (npoints - k)) with npoints in K2 by lia. destruct K2 as [rest [P2 [HL HR]]].
  assert (Hnh : forall z, In z h2 -> is_nan (snd z) = false).
  { intros z Hz. apply (score_nan (dmat q) (seq 0 npoints)); auto. apply (Permutation_in _ (Permutation_sym P2)). apply in_app_iff. auto. }
  destruct (knn_emit_ok pushf takef k q HO k h2 out HL Hnh Hlen) as [out' [l [E [L [Pl [Sl [Hj Ho]]]]]]].
  assert (Ll : length l = k) by (rewrite <- (Permutation_length Pl); auto).
  assert (R : row_of k q out' = l).
  { apply nth_error_ext2. intros j. rewrite nth_error_row. destruct (j <? k) eqn:Ej.
    - apply Nat.ltb_lt in Ej. rewrite Nat.add_comm. now apply Hj.
    - apply Nat.ltb_ge in Ej. symmetry. apply nth_error_None. lia. }
  exists out'. split; [auto|]. split; [auto|]. rewrite R. split; [|split; [auto|]].
  - exists rest. split; [now rewrite P2, Pl|]. split; [unfold score; rewrite map_length, seq_length, Nat.min_l by lia; exact Ll|]. split; [auto|].
    intros x y Hx Hy. apply HR; auto. apply (Permutation_in _ (Permutation_sym Pl)); auto.
  - intros q' Hq. apply nth_error_ext2. intros j. rewrite !nth_error_row. destruct (j <? k) eqn:Ej; [|auto]. apply Nat.ltb_lt in Ej. apply Ho.
    destruct (Nat.lt_trichotomy q' q) as [Hl|[Hl|Hl]]; [left; nia|congruence|right; nia].
Qed.

Lemma knn_queries_ok : forall pushf takef k npoints nq dmat, heap_ok pushf takef -> (forall q p, is_nan (dmat q p) = false) -> 1 <= k -> k <= npoints ->
  forall qs out, NoDup qs -> (forall q, In q qs -> q < nq) -> length out = nq * k ->
  exists out', knn_queries pushf takef k npoints dmat qs out = Ok out' /\ length out' = length out /\
    (forall q, In q qs -> is_top_k k (score (dmat q) (seq 0 npoints)) (row_of k q out') /\ length (row_of k q out') = k) /\
    (forall q, ~ In q qs -> row_of k q out' = row_of k q out).
Proof.
  intros pushf takef k npoints nq dmat HO Hn Hk1 Hk. induction qs as [|q t IH]; intros out ND Hq HL; cbn [knn_queries].
  - exists out. split; [auto|]. split; [auto|]. split; [intros q []|auto].
  - inversion ND as [|a b Hnin ND']; subst.
    destruct (knn_query_ok pushf takef k npoints dmat q out HO (Hn q) Hk1 Hk) as [o1 [-> [L1 [T1 [TL F1]]]]]; [specialize (Hq q (or_introl eq_refl)); nia|].
    cbn [bind]. destruct (IH o1 ND') as [out' [-> [L2 [T2 F2]]]]; [intros; apply Hq; now right|congruence|].
    exists out'. split; [auto|]. split; [congruence|]. split.
    + intros q' [<-|Hin]; [rewrite F2 by auto; auto|now apply T2].
    + intros q' Hin. rewrite F2 by (intros X; apply Hin; now right). apply F1. intros ->. apply Hin. now left.
Qed.

Lemma knn_queries_app : forall pushf takef k npoints dmat a b out,
  knn_queries pushf takef k npoints dmat (a ++ b) out = do o <- knn_queries pushf takef k npoints dmat a out; knn_queries pushf takef k npoints dmat b o.
Proof.
  intros pushf takef k npoints dmat a b. induction a as [|q a IH]; intros out; [reflexivity|]. cbn [app knn_queries].
  destruct (knn_query pushf takef k npoints dmat q out); cbn [bind]; auto.
Qed.

Lemma knn_batches_concat : forall pushf takef k npoints dmat orders cnt b out,
  knn_batches pushf takef k npoints dmat orders b cnt out = knn_queries pushf takef k npoints dmat (concat (map orders (seq b cnt))) out.
Proof.
  intros pushf takef k npoints dmat orders. induction cnt as [|cnt IH]; intros b out; [reflexivity|]. cbn [knn_batches seq map concat].
  rewrite knn_queries_app. destruct (knn_queries pushf takef k npoints dmat (orders b) out); cbn [bind]; auto.
Qed.

Lemma batches_perm : forall nq bs orders, 1 <= bs -> batch_orders nq bs orders ->
  Permutation (concat (map orders (seq 0 (n_blocks nq bs)))) (seq 0 nq).
Proof.
  intros nq bs orders Hbs H. destruct (n_blocks_bounds nq bs Hbs) as [B1 B2].
  assert (E : concat (map (fun b => seq (b * bs) (min bs (nq - b * bs))) (seq 0 (n_blocks nq bs))) = seq 0 nq).
  { rewrite blocks_seq by lia. cbn. now rewrite Nat.sub_0_r. }
  rewrite <- E. clear -H. induction (seq 0 (n_blocks nq bs)) as [|b l IH]; [constructor|]. cbn. apply Permutation_app; [apply H|auto].
Qed.

Lemma exact_knn_ok : forall pushf takef bs k npoints nq dmat orders out, heap_ok pushf takef -> (forall q p, is_nan (dmat q p) = false) ->
  1 <= bs -> 1 <= k -> k <= npoints -> batch_orders nq bs orders -> length out = nq * k ->
  exists out', exact_knn pushf takef bs k npoints nq dmat orders out = Ok out' /\ length out' = nq * k /\
    (forall q, q < nq -> is_top_k k (score (dmat q) (seq 0 npoints)) (row_of k q out') /\ length (row_of k q out') = k).
Proof.
  intros pushf takef bs k npoints nq dmat orders out HO Hn Hbs Hk1 Hk Hb HL. unfold exact_knn. rewrite knn_batches_concat.
  pose proof (batches_perm nq bs orders Hbs Hb) as P.
  destruct (knn_queries_ok pushf takef k npoints nq dmat HO Hn Hk1 Hk (concat (map orders (seq 0 (n_blocks nq bs)))) out) as [out' [E [L [T _]]]].
  - apply (Permutation_NoDup (Permutation_sym P)). apply seq_NoDup.
  - intros q Hq. apply (Permutation_in _ P) in Hq. apply in_seq in Hq. lia.
  - auto.
  - exists out'. split; [auto|]. split; [congruence|]. intros q Hq. apply T. apply (Permutation_in _ (Permutation_sym P)). apply in_seq. lia.
Qed.
