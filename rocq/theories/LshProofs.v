From Coq Require Import ZArith NArith String List Arith Lia Bool Sorting.Sorted Sorting.Permutation.
From Verif Require Import Base Float32 Bytes PoolModel TopKSpec FilterSpec SearchSpec SearchModel ListLemmas FilterProofs SearchProofs
  PoolSafety FlatModel FlatSpec FlatProofs LshModel LshSpec IvfProofs ClosestProofs.
Import ListNotations.

(** ** Maps *)
(** The vector stored for a key; a missing key counts as empty. *)
Definition bucket (m : list (N * list nat)) (k : N) : list nat :=
  match map_get m k with Some l => l | None => [] end.

Lemma map_get_update : forall m k f k',
  map_get (map_update m k f) k' = if N.eqb k' k then Some (f (bucket m k)) else map_get m k'.
Proof.
  intros m k f k'. unfold bucket. induction m as [|[k1 l] t IH]; cbn [map_update map_get].
  - destruct (N.ltb_spec k' k); destruct (N.eqb_spec k' k); auto; lia.
  - destruct (N.ltb_spec k k1) as [H|H]; cbn [map_get].
    + destruct (N.ltb_spec k' k), (N.eqb_spec k' k), (N.ltb_spec k' k1), (N.eqb_spec k' k1); auto; lia.
    + destruct (N.eqb_spec k k1) as [->|Hne]; cbn [map_get].
      * destruct (N.ltb_spec k' k1), (N.eqb_spec k' k1); auto; lia.
      * destruct (N.ltb_spec k' k1), (N.eqb_spec k' k), (N.eqb_spec k' k1); auto; try lia.
        all: rewrite IH; destruct (N.eqb_spec k' k); auto; lia.
Qed.

Lemma bucket_update : forall m k f k', bucket (map_update m k f) k' = if N.eqb k' k then f (bucket m k) else bucket m k'.
Proof. intros. unfold bucket at 1. rewrite map_get_update. destruct (N.eqb k' k); reflexivity. Qed.

Lemma bucket_touch : forall m k k', bucket (map_update m k (fun l => l)) k' = bucket m k'.
Proof. intros. rewrite bucket_update. destruct (N.eqb_spec k' k); subst; auto. Qed.

Lemma bits_value_inj : forall a b, length a = length b -> bits_value a = bits_value b -> a = b.
Proof.
  induction a as [|x a IH]; intros [|y b] HL H; try discriminate; [reflexivity|]. cbn [bits_value] in H. cbn in HL.
  destruct x, y; (f_equal; apply IH; [lia|lia]) || lia.
Qed.

Lemma bits_value_bound : forall a, (bits_value a < 2 ^ N.of_nat (length a))%N.
Proof.
  induction a as [|x a IH]; [cbn; lia|]. cbn [bits_value length]. rewrite Nat2N.inj_succ, N.pow_succ_r'. destruct x; lia.
Qed.

Lemma hash_pattern : forall dotf t v w, get_hash dotf t v = get_hash dotf t w <->
  sign_pattern dotf (t_hps t) v = sign_pattern dotf (t_hps t) w.
Proof.
  intros dotf t v w. unfold get_hash, sign_pattern. split; intros H; [|rewrite H; auto].
  apply bits_value_inj; auto. rewrite !map_length. auto.
Qed.

(** ** Build *)
Definition tag_of (tags : list nat) (j : nat) : nat := nth j tags 0.

Lemma fill_table_ok : forall dotf data tags cnt i t, i + cnt <= length tags ->
  exists t', fill_table dotf data tags i cnt t = Ok t' /\ t_hps t' = t_hps t /\
    forall k, bucket (t_map t') k = bucket (t_map t) k ++
      map (tag_of tags) (filter (fun j => N.eqb k (get_hash dotf t (data j))) (seq i cnt)).
Proof.
  intros dotf data tags cnt. induction cnt as [|cnt IH]; intros i t H; cbn [fill_table].
  - exists t. split; [auto|]. split; [auto|]. intros k. cbn. rewrite app_nil_r. auto.
  - destruct (rd_lt _ tags i) as [tag Et]; [lia|]. rewrite Et. cbn [bind]. apply rd_ok in Et.
    destruct (IH (S i) (add_vector t (get_hash dotf t (data i)) tag)) as [t' [E [Hh Hb]]]; [lia|].
    exists t'. split; [auto|]. split; [rewrite Hh; reflexivity|]. intros k. rewrite Hb. unfold add_vector at 1. cbn [t_map].
    rewrite bucket_update. cbn [seq filter]. change (get_hash dotf (add_vector t (get_hash dotf t (data i)) tag)) with (get_hash dotf t).
    destruct (N.eqb_spec k (get_hash dotf t (data i))) as [->|Hne]; [|auto].
    rewrite <- app_assoc. cbn [app map]. unfold tag_of at 2. rewrite (nth_error_nth _ _ 0 Et). reflexivity.
Qed.

Lemma fill_tables_ok : forall dotf data tags n ts, n <= length tags ->
  exists ts', fill_tables dotf data tags n ts = Ok ts' /\
    Forall2 (fun t t' => t_hps t' = t_hps t /\ forall k, bucket (t_map t') k = bucket (t_map t) k ++
      map (tag_of tags) (filter (fun j => N.eqb k (get_hash dotf t (data j))) (seq 0 n))) ts ts'.
Proof.
  intros dotf data tags n ts H. induction ts as [|t ts IH]; cbn [fill_tables].
  - exists []. split; [auto|constructor].
  - destruct (fill_table_ok dotf data tags n 0 t) as [t' [E [Hh Hb]]]; [auto|]. rewrite E. cbn [bind].
    destruct IH as [ts' [E2 F]]. rewrite E2. cbn [bind]. exists (t' :: ts'). split; [auto|]. constructor; auto.
Qed.

Lemma lookup_fst : forall dotf q ts, fst (lookup_all dotf q ts) = concat (map (fun t => bucket (t_map t) (get_hash dotf t q)) ts).
Proof.
  intros dotf q ts. induction ts as [|t ts IH]; cbn [lookup_all]; [reflexivity|]. cbn [get_bucket].
  destruct (lookup_all dotf q ts) as [ls rest]. cbn in *. rewrite IH. reflexivity.
Qed.

Lemma lookup_snd : forall dotf q ts, snd (lookup_all dotf q ts) =
  map (fun t => mkT (t_hps t) (map_update (t_map t) (get_hash dotf t q) (fun l => l))) ts.
Proof.
  intros dotf q ts. induction ts as [|t ts IH]; cbn [lookup_all]; [reflexivity|]. cbn [get_bucket].
  destruct (lookup_all dotf q ts) as [ls rest]. cbn in *. rewrite IH. reflexivity.
Qed.

(** A new index: nothing in it yet. *)
Definition lsh_new (ix : lsh_index) : Prop := l_tables ix = [].

Lemma lsh_build_ok : forall dotf data ts planes ix, (ts <= 64)%N -> length (l_tags ix) = l_n ix -> lsh_new ix ->
  exists ix', lsh_build dotf data ts planes ix = Ok ix' /\ l_n ix' = l_n ix /\ l_tags ix' = l_tags ix /\ l_labels ix' = l_labels ix /\
    l_num_tables ix' = N.of_nat (length planes) /\ l_table_size ix' = ts /\
    Forall2 (fun hps t' => t_hps t' = hps /\ forall k, bucket (t_map t') k =
      map (tag_of (l_tags ix)) (filter (fun j => N.eqb k (get_hash dotf (mkT hps []) (data j))) (seq 0 (l_n ix)))) planes (l_tables ix').
Proof.
  intros dotf data ts planes ix Hts Ht Hn. unfold lsh_build.
  replace (64 <? ts)%N with false by (symmetry; apply N.ltb_ge; auto). cbn [andb].
  destruct (fill_tables_ok dotf data (l_tags ix) (l_n ix) (l_tables ix ++ map (fun hps => mkT hps []) planes)) as [ts' [E F]]; [lia|].
  rewrite E. cbn [bind]. eexists. split; [reflexivity|]. cbn. repeat (split; [reflexivity|]).
  rewrite Hn in F. cbn [app] in F. clear E Hn. remember (map (fun hps => mkT hps []) planes) as l eqn:El. revert planes El.
  induction F as [|t t' l l' [H1 H2] F IH]; intros planes El; destruct planes as [|p planes]; try discriminate; constructor.
  - cbn in El. inversion El. subst t. cbn in H1, H2. auto.
  - apply IH. cbn in El. inversion El. auto.
Qed.

(** Candidates of a freshly built index. *)
Lemma built_candidates : forall dotf data n tags planes ts q,
  Forall2 (fun hps t' => t_hps t' = hps /\ forall k, bucket (t_map t') k =
      map (tag_of tags) (filter (fun j => N.eqb k (get_hash dotf (mkT hps []) (data j))) (seq 0 n))) planes ts ->
  forall id, In id (fst (lookup_all dotf q ts)) <->
    exists j, j < n /\ tag_of tags j = id /\ collide dotf planes q (data j).
Proof.
  intros dotf data n tags planes ts q F id. rewrite lookup_fst. split.
  - intros H. apply in_concat in H. destruct H as [l [H1 H2]]. apply in_map_iff in H1. destruct H1 as [t [<- Ht]].
    assert (exists hps, In hps planes /\ t_hps t = hps /\ forall k, bucket (t_map t) k =
      map (tag_of tags) (filter (fun j => N.eqb k (get_hash dotf (mkT hps []) (data j))) (seq 0 n))) as [hps [Hp [E1 E2]]].
    { clear - F Ht. induction F as [|p t' l l' H F IH]; [destruct Ht|]. destruct Ht as [->|Ht]; [exists p; split; [left; auto|auto]|].
      destruct (IH Ht) as [hps [A B]]. exists hps. split; [right; auto|auto]. }
    rewrite E2 in H2. apply in_map_iff in H2. destruct H2 as [j [Ej Hj]]. apply filter_In in Hj. destruct Hj as [Hj Hh].
    apply in_seq in Hj. exists j. split; [lia|]. split; [auto|]. exists hps. split; [auto|].
    apply N.eqb_eq in Hh. rewrite <- E1. apply hash_pattern. rewrite Hh. subst hps. reflexivity.
  - intros [j [Hj [Ej [hps [Hp He]]]]]. apply in_concat.
    assert (exists t, In t ts /\ t_hps t = hps /\ forall k, bucket (t_map t) k =
      map (tag_of tags) (filter (fun j => N.eqb k (get_hash dotf (mkT hps []) (data j))) (seq 0 n))) as [t [Ht [E1 E2]]].
    { clear - F Hp. induction F as [|p t' l l' H F IH]; [destruct Hp|]. destruct Hp as [->|Hp]; [exists t'; split; [left; auto|auto]|].
      destruct (IH Hp) as [t [A B]]. exists t. split; [right; auto|auto]. }
    exists (bucket (t_map t) (get_hash dotf t q)). split; [apply in_map_iff; exists t; auto|].
    rewrite E2. apply in_map_iff. exists j. split; [auto|]. apply filter_In. split; [apply in_seq; lia|].
    apply N.eqb_eq. rewrite <- E1 in He. apply hash_pattern in He. rewrite He. subst hps. reflexivity.
Qed.

(** ** Search after build, default tags *)
Lemma tag_of_seq : forall n j, j < n -> tag_of (seq 0 n) j = j.
Proof. intros n j H. unfold tag_of. rewrite seq_nth by auto. reflexivity. Qed.

Lemma lsh_search_ok : forall dotf data ts planes ix q dist m filters indices distances,
  (ts <= 64)%N -> l_tags ix = seq 0 (l_n ix) -> lsh_new ix -> 1 <= m ->
  (filters = [] \/ length (pts_to_labels (l_labels ix)) = l_n ix) ->
  finite_distances (l_n ix) dist -> room m indices distances ->
  exists ix' ix'' cands ids indices' distances',
    lsh_build dotf data ts planes ix = Ok ix' /\
    lsh_search dotf ix' q dist m filters indices distances = Ok ((indices', distances', length ids, length cands), ix'') /\
    NoDup cands /\
    (forall id, In id cands <->
       id < l_n ix /\ acc_of (l_labels ix) filters id = true /\ collide dotf planes q (data id)) /\
    is_top_k m (score dist cands) (score dist ids) /\
    holds dist ids indices indices' distances distances'.
Proof.
  intros dotf data ts planes ix q dist m filters indices distances Hts Htag Hnew Hm Hlab Hd Hr.
  destruct (lsh_build_ok dotf data ts planes ix Hts) as [ix' [E [En [Et [El [_ [_ F]]]]]]].
  { rewrite Htag. apply seq_length. } { auto. }
  pose proof (built_candidates dotf data (l_n ix) (l_tags ix) planes (l_tables ix') q F) as Hc.
  exists ix'. unfold lsh_search. destruct (lookup_all dotf q (l_tables ix')) as [cands ts'] eqn:Elk. cbn [fst] in Hc.
  assert (Hlt : forall id, In id cands -> id < l_n ix).
  { intros id H. apply Hc in H. destruct H as [j [H1 [H2 _]]]. rewrite Htag, tag_of_seq in H2 by auto. lia. }
  destruct (flat_search_ok (l_n ix') dist (passes_filter (l_labels ix') filters) (acc_of (l_labels ix') filters) m cands indices distances)
    as [ids [i' [d' [E2 [T [N [Fa H]]]]]]]; auto.
  { intros id Hid. rewrite El. apply (acc_of_ok _ _ (l_n ix)); auto. }
  { intros id Hid _. rewrite En. auto. } { rewrite En. auto. }
  rewrite E2. cbn [bind]. rewrite El in *.
  eexists. exists (nodup Nat.eq_dec (filter (acc_of (l_labels ix) filters) cands)), ids, i', d'.
  split; [auto|]. split; [reflexivity|]. split; [apply NoDup_nodup|]. split; [|split; auto].
  intros id. rewrite nodup_In, filter_In. split.
  - intros [H1 H2]. pose proof (Hlt id H1). apply Hc in H1. destruct H1 as [j [Hj [Ej C]]]. rewrite Htag, tag_of_seq in Ej by auto.
    subst j. auto.
  - intros [H1 [H2 H3]]. split; [|auto]. apply Hc. exists id. split; [auto|]. split; [|auto]. rewrite Htag. apply tag_of_seq. auto.
Qed.

Lemma top_k_first : forall m dist cands ids i, 1 <= m -> is_top_k m (score dist cands) (score dist ids) -> In i cands ->
  (forall id, is_nan (dist id) = false) ->
  exists f rest, ids = f :: rest /\ fle (dist f) (dist i) = true.
Proof.
  intros m dist cands ids i Hm [rest [P [L [Hs Hf]]]] Hi Hn. destruct ids as [|f ids].
  - exfalso. unfold score in L. rewrite !map_length in L. cbn in L. assert (length cands = 0) by lia. destruct cands; [destruct Hi|discriminate].
  - exists f, ids. split; [auto|].
    assert (Hin : In (i, dist i) (score dist cands)) by (unfold score; apply in_map_iff; exists i; auto).
    apply (Permutation_in _ P) in Hin. apply in_app_or in Hin. destruct Hin as [Hin|Hin].
    + destruct Hin as [E|Hin]; [inversion E; subst; apply fle_refl; auto|].
      inversion Hs as [|? ? _ Fa]. subst. rewrite Forall_forall in Fa. apply (Fa _ Hin).
    + apply (Hf (f, dist f) (i, dist i)); [left; auto|auto].
Qed.

Lemma acc_of_nil : forall lc id, acc_of lc [] id = true.
Proof. intros. reflexivity. Qed.

Lemma lsh_finds : forall dotf data ts planes ix i dist m indices distances,
  (ts <= 64)%N -> l_tags ix = seq 0 (l_n ix) -> lsh_new ix -> planes <> [] -> 1 <= m -> i < l_n ix ->
  finite_distances (l_n ix) dist -> room m indices distances ->
  exists ix' ix'' f rest indices' distances' cmps,
    lsh_build dotf data ts planes ix = Ok ix' /\
    lsh_search dotf ix' (data i) dist m [] indices distances = Ok ((indices', distances', length (f :: rest), cmps), ix'') /\
    holds dist (f :: rest) indices indices' distances distances' /\
    fle (dist f) (dist i) = true.
Proof.
  intros dotf data ts planes ix i dist m indices distances Hts Htag Hnew Hp Hm Hi Hd Hr.
  destruct (lsh_search_ok dotf data ts planes ix (data i) dist m [] indices distances Hts Htag Hnew Hm (or_introl eq_refl) Hd Hr)
    as [ix' [ix'' [cands [ids [i' [d' [E1 [E2 [N [Hc [T H]]]]]]]]]]].
  assert (Hin : In i cands).
  { apply Hc. split; [auto|]. split; [reflexivity|]. destruct planes as [|p planes]; [congruence|]. exists p. split; [left; auto|auto]. }
  destruct (top_k_first m dist cands ids i Hm T Hin (proj1 Hd)) as [f [rest [-> Hle]]].
  exists ix', ix'', f, rest, i', d', (length cands). auto.
Qed.

(** ** Any tags, any filter: reported points match *)
Lemma lsh_search_filtered : forall dotf ix q dist m filters indices distances, 1 <= m ->
  (forall t l id, In t (l_tables ix) -> In l (map snd (t_map t)) -> In id l -> id < l_n ix) ->
  length (pts_to_labels (l_labels ix)) = l_n ix ->
  finite_distances (l_n ix) dist -> room m indices distances ->
  exists ids ix' indices' distances' cmps,
    lsh_search dotf ix q dist m filters indices distances = Ok ((indices', distances', length ids, cmps), ix') /\
    holds dist ids indices indices' distances distances' /\
    forall id, In id ids -> exists labels, nth_error (pts_to_labels (l_labels ix)) id = Some labels /\
      matches (universal_of (l_labels ix)) filters labels.
Proof.
  intros dotf ix q dist m filters indices distances Hm Hids Hlab Hd Hr.
  unfold lsh_search. destruct (lookup_all dotf q (l_tables ix)) as [cands ts'] eqn:Elk.
  assert (Hlt : forall id, In id cands -> id < l_n ix).
  { intros id H. replace cands with (fst (lookup_all dotf q (l_tables ix))) in H by (rewrite Elk; auto). rewrite lookup_fst in H.
    apply in_concat in H. destruct H as [l [H1 H2]]. apply in_map_iff in H1. destruct H1 as [t [<- Ht]].
    apply (Hids t (bucket (t_map t) (get_hash dotf t q))); auto. unfold bucket in *.
    destruct (map_get (t_map t) (get_hash dotf t q)) as [l|] eqn:Eg; [|destruct H2].
    clear - Eg. revert Eg. generalize (get_hash dotf t q). intros k. induction (t_map t) as [|[k' l'] mm IH]; cbn; [discriminate|].
    destruct (N.ltb k k'); [discriminate|]. destruct (N.eqb k k'); [intros E; inversion E; auto|auto]. }
  destruct (flat_search_ok (l_n ix) dist (passes_filter (l_labels ix) filters) (acc_of (l_labels ix) filters) m cands indices distances)
    as [ids [i' [d' [E2 [T [N [Fa H]]]]]]]; auto.
  { intros id Hid. apply (acc_of_ok _ _ (l_n ix)); auto. }
  rewrite E2. cbn [bind]. exists ids. eexists. exists i', d'. eexists. split; [reflexivity|]. split; [auto|].
  intros id Hid. destruct (Fa id Hid) as [F1 F2]. destruct (nth_error (pts_to_labels (l_labels ix)) id) as [labels|] eqn:El.
  - exists labels. split; [auto|]. eapply acc_matches; eauto.
  - apply nth_error_None in El. specialize (Hlt id F1). lia.
Qed.

(** ** Stored tags beyond the data *)
Lemma process_loop_app : forall n dist accept m l1 l2 st, process_loop n dist accept m st (l1 ++ l2) =
  (do st' <- process_loop n dist accept m st l1; process_loop n dist accept m st' l2).
Proof.
  intros n dist accept m l1. induction l1 as [|x l1 IH]; intros l2 st; cbn [app process_loop]; [reflexivity|].
  destruct (process_one n dist accept m st x); cbn [bind]; auto.
Qed.

Lemma process_one_ins : forall n dist accept m st id st', process_one n dist accept m st id = Ok st' ->
  (forall x, In x (p_ins st) -> x < n) -> (forall x, In x (p_ins st') -> x < n).
Proof.
  intros n dist accept m st id st' H Hi. unfold process_one in H.
  destruct (accept id) as [ok| | | |]; try discriminate. cbn [bind] in H.
  destruct (negb ok); [assert (st' = st) by congruence; subst; auto|].
  destruct (set_mem id (p_ins st)); [assert (st' = st) by congruence; subst; auto|].
  destruct (id <? n) eqn:E; [|discriminate]. apply Nat.ltb_lt in E. cbn [bind] in H.
  assert (forall arr cur cm b, st' = mkP arr cur (id :: p_ins st) cm b -> forall x, In x (p_ins st') -> x < n) as K.
  { intros arr cur cm b -> x. cbn. intros [<-|Hx]; auto. }
  destruct (0 <? p_cur st).
  - destruct (rd (p_arr st) (p_cur st - 1)); try discriminate. cbn [bind] in H.
    destruct (fge (dist id) (ndist a) && (p_cur st =? m)).
    + eapply K. inversion H. reflexivity.
    + destruct (insert_into_pool (p_arr st) (p_cur st) (mkN id (dist id) true)) as [[arr r]| | | |]; try discriminate. cbn [bind] in H.
      eapply K. inversion H. reflexivity.
  - cbn [bind] in H. destruct (insert_into_pool (p_arr st) (p_cur st) (mkN id (dist id) true)) as [[arr r]| | | |]; try discriminate.
    cbn [bind] in H. eapply K. inversion H. reflexivity.
Qed.

Lemma process_loop_ins : forall n dist accept m l st st', process_loop n dist accept m st l = Ok st' ->
  (forall x, In x (p_ins st) -> x < n) -> (forall x, In x (p_ins st') -> x < n).
Proof.
  intros n dist accept m l. induction l as [|x l IH]; intros st st' H Hi; cbn [process_loop] in H.
  - assert (st' = st) by congruence. subst. auto.
  - destruct (process_one n dist accept m st x) as [st1| | | |] eqn:E; try discriminate. cbn [bind] in H.
    eapply IH; [exact H|]. eapply process_one_ins; eauto.
Qed.

Lemma split_first : forall (n : nat) l, (exists x, In x l /\ n <= x) ->
  exists l1 x l2, l = l1 ++ x :: l2 /\ n <= x /\ forall y, In y l1 -> y < n.
Proof.
  intros n l. induction l as [|y l IH]; intros [x [Hx Hn]]; [destruct Hx|].
  destruct (Nat.lt_ge_cases y n) as [Hy|Hy].
  - destruct Hx as [->|Hx]; [lia|]. destruct IH as [l1 [z [l2 [-> [H1 H2]]]]]; [exists x; auto|].
    exists (y :: l1), z, l2. split; [auto|]. split; [auto|]. intros w [<-|Hw]; auto.
  - exists [], y, l. split; [auto|]. split; [auto|]. intros w [].
Qed.

Lemma flat_search_beyond : forall n dist lc m cands indices distances, 1 <= m -> finite_distances n dist ->
  (exists x, In x cands /\ n <= x) ->
  flat_search n dist (passes_filter lc []) m cands indices distances = UB.
Proof.
  intros n dist lc m cands indices distances Hm [Hnan Hfin] Hx. apply split_first in Hx. destruct Hx as [l1 [x [l2 [-> [Hn Hl]]]]].
  unfold flat_search, process_candidates. rewrite process_loop_app.
  set (st0 := mkP (p_arr (empty_pool m)) (p_cur (empty_pool m)) (p_ins (empty_pool m)) (p_cmps (empty_pool m)) m).
  destruct (process_loop_safe n dist (passes_filter lc []) (fun _ => true) m l1 st0) as [st1 [E [B _]]].
  - repeat split; cbn; try lia. rewrite repeat_length. lia.
  - reflexivity.
  - intros; auto.
  - intros _. assert (filter (fun _ : nat => true) l1 = l1) as -> by (clear; induction l1; cbn; congruence). destruct l1; [auto|].
    apply Hfin. apply Hl. left. auto.
  - rewrite E. cbn [bind process_loop]. unfold process_one. cbn [passes_filter bind negb].
    destruct (set_mem x (p_ins st1)) eqn:Es.
    + exfalso. unfold set_mem in Es. apply existsb_exists in Es. destruct Es as [y [Hy Ey]]. apply Nat.eqb_eq in Ey. subst y.
      assert (x < n); [|lia]. eapply (process_loop_ins n dist (passes_filter lc []) m l1 st0); [exact E| |exact Hy]. intros z [].
    + replace (x <? n) with false by (symmetry; apply Nat.ltb_ge; auto). reflexivity.
Qed.

Lemma lsh_tags_ub : forall dotf data ts planes ix i dist m indices distances,
  (ts <= 64)%N -> length (l_tags ix) = l_n ix -> lsh_new ix -> planes <> [] -> 1 <= m -> i < l_n ix ->
  finite_distances (l_n ix) dist ->
  (exists tag, nth_error (l_tags ix) i = Some tag /\ l_n ix <= tag) ->
  exists ix', lsh_build dotf data ts planes ix = Ok ix' /\
    lsh_search dotf ix' (data i) dist m [] indices distances = UB.
Proof.
  intros dotf data ts planes ix i dist m indices distances Hts Htl Hnew Hp Hm Hi Hd [tag [Ht Hn]].
  destruct (lsh_build_ok dotf data ts planes ix Hts Htl Hnew) as [ix' [E [En [Et [El [_ [_ F]]]]]]].
  exists ix'. split; [auto|]. pose proof (built_candidates dotf data (l_n ix) (l_tags ix) planes (l_tables ix') (data i) F tag) as Hc.
  unfold lsh_search. destruct (lookup_all dotf (data i) (l_tables ix')) as [cands ts'] eqn:Elk. cbn [fst] in Hc.
  rewrite flat_search_beyond; [reflexivity|auto|rewrite En; auto|]. exists tag. rewrite En. split; [|auto]. apply Hc.
  exists i. split; [auto|]. split; [unfold tag_of; apply nth_error_nth; auto|]. destruct planes as [|p planes]; [congruence|].
  exists p. split; [left; auto|auto].
Qed.

Lemma Forall2_weaken : forall (A B : Type) (P Q : A -> B -> Prop) l l', (forall a b, P a b -> Q a b) -> Forall2 P l l' -> Forall2 Q l l'.
Proof. intros A B P Q l l' H F. induction F; constructor; auto. Qed.

Lemma Forall2_len : forall (A B : Type) (P : A -> B -> Prop) l l', Forall2 P l l' -> length l = length l'.
Proof. intros A B P l l' F. induction F; cbn; auto. Qed.

(** ** Sequences of searches *)
Record lsh_query : Type := mkQ {
  q_vec : list f32; q_dist : nat -> f32; q_count : nat; q_filters : list label;
  q_indices : list nat; q_distances : option (list f32)
}.

Definition lsh_answer (dotf : list N -> list f32 -> f32) (ix : lsh_index) (q : lsh_query) :=
  lsh_search dotf ix (q_vec q) (q_dist q) (q_count q) (q_filters q) (q_indices q) (q_distances q).

(** One search after the other on the same index. *)
Fixpoint lsh_answers (dotf : list N -> list f32 -> f32) (ix : lsh_index) (qs : list lsh_query)
  : res (list (list nat * option (list f32) * nat * nat) * lsh_index) :=
  match qs with
  | [] => Ok ([], ix)
  | q :: rest =>
      do r <- lsh_answer dotf ix q;
      do t <- lsh_answers dotf (snd r) rest;
      Ok (fst r :: fst t, snd t)
  end.

(** The same tables up to empty buckets. *)
Definition same_table (t t' : table) : Prop := t_hps t' = t_hps t /\ forall k, bucket (t_map t') k = bucket (t_map t) k.
Definition same_index (ix ix' : lsh_index) : Prop :=
  l_n ix' = l_n ix /\ l_tags ix' = l_tags ix /\ l_labels ix' = l_labels ix /\ l_num_tables ix' = l_num_tables ix /\
  l_table_size ix' = l_table_size ix /\ Forall2 same_table (l_tables ix) (l_tables ix').

Lemma same_index_refl : forall ix, same_index ix ix.
Proof.
  intros ix. repeat (split; [reflexivity|]). induction (l_tables ix); constructor; auto. split; auto.
Qed.

Lemma same_index_trans : forall a b c, same_index a b -> same_index b c -> same_index a c.
Proof.
  intros a b c [A1 [A2 [A3 [A4 [A5 A6]]]]] [B1 [B2 [B3 [B4 [B5 B6]]]]].
  repeat (split; [congruence|]). revert A6 B6. generalize (l_tables a) (l_tables b) (l_tables c). intros x y z F. revert z.
  induction F as [|t t' l l' [H1 H2] F IH]; intros z G; inversion G as [|? t'' ? l'' [G1 G2] G3]; subst; constructor; auto.
  split; [congruence|]. intros k. rewrite G2. auto.
Qed.

Lemma lookup_same : forall dotf q ts ts', Forall2 same_table ts ts' ->
  fst (lookup_all dotf q ts') = fst (lookup_all dotf q ts).
Proof.
  intros dotf q ts ts' F. rewrite !lookup_fst. induction F as [|t t' l l' [H1 H2] F IH]; [reflexivity|]. cbn [map concat].
  rewrite IH. f_equal. rewrite H2. f_equal. unfold get_hash. rewrite H1. reflexivity.
Qed.

Lemma search_same : forall dotf ix q r ix', lsh_answer dotf ix q = Ok (r, ix') -> same_index ix ix'.
Proof.
  intros dotf ix q r ix' H. unfold lsh_answer, lsh_search in H.
  destruct (lookup_all dotf (q_vec q) (l_tables ix)) as [cands ts'] eqn:E.
  destruct (flat_search (l_n ix) (q_dist q) (passes_filter (l_labels ix) (q_filters q)) (q_count q) cands (q_indices q) (q_distances q));
    try discriminate. cbn [bind] in H. assert (ix' = mkLsh (l_n ix) (l_tags ix) (l_labels ix) (l_num_tables ix) (l_table_size ix) ts') by congruence.
  subst ix'. repeat (split; [reflexivity|]). cbn. replace ts' with (snd (lookup_all dotf (q_vec q) (l_tables ix))) by (rewrite E; auto).
  rewrite lookup_snd. clear. generalize (l_tables ix) as l. induction l as [|x l IH]; [constructor|]. cbn [map]. constructor; [|auto]. split; [auto|]. intros k. cbn [t_map]. apply bucket_touch.
Qed.

Lemma answer_same : forall dotf ix ix' q r ix1, same_index ix ix' -> lsh_answer dotf ix q = Ok (r, ix1) ->
  exists ix2, lsh_answer dotf ix' q = Ok (r, ix2).
Proof.
  intros dotf ix ix' q r ix1 [A1 [A2 [A3 [A4 [A5 A6]]]]] H. unfold lsh_answer, lsh_search in *.
  pose proof (lookup_same dotf (q_vec q) _ _ A6) as Hl.
  destruct (lookup_all dotf (q_vec q) (l_tables ix)) as [c1 t1]. destruct (lookup_all dotf (q_vec q) (l_tables ix')) as [c2 t2].
  cbn [fst] in Hl. subst c2. rewrite A1, A3.
  destruct (flat_search (l_n ix) (q_dist q) (passes_filter (l_labels ix) (q_filters q)) (q_count q) c1 (q_indices q) (q_distances q));
    try discriminate. cbn [bind] in *. eexists. f_equal. f_equal. congruence.
Qed.

Lemma same_index_sym : forall a b, same_index a b -> same_index b a.
Proof.
  intros a b [A1 [A2 [A3 [A4 [A5 A6]]]]]. repeat (split; [congruence|]). revert A6. generalize (l_tables a) (l_tables b). intros x y F.
  induction F as [|t t' l l' [H1 H2] F IH]; constructor; auto. split; [congruence|]. intros k. auto.
Qed.

Lemma lsh_answers_same : forall dotf qs ix outs ix', lsh_answers dotf ix qs = Ok (outs, ix') ->
  same_index ix ix' /\
  Forall2 (fun q out => exists ix1, lsh_answer dotf ix q = Ok (out, ix1)) qs outs.
Proof.
  intros dotf qs. induction qs as [|q qs IH]; intros ix outs ix' H; cbn [lsh_answers] in H.
  - assert (outs = [] /\ ix' = ix) as [-> ->] by (split; congruence). split; [apply same_index_refl|constructor].
  - destruct (lsh_answer dotf ix q) as [[r ix1]| | | |] eqn:E1; try discriminate. cbn [bind fst snd] in H.
    destruct (lsh_answers dotf ix1 qs) as [[rs ix2]| | | |] eqn:E2; try discriminate. cbn [bind fst snd] in H.
    assert (outs = r :: rs /\ ix' = ix2) as [-> ->] by (split; congruence).
    destruct (IH _ _ _ E2) as [S2 F2]. pose proof (search_same _ _ _ _ _ E1) as S1. split; [eapply same_index_trans; eauto|].
    constructor; [exists ix1; auto|]. eapply Forall2_weaken; [|exact F2]. intros q' o [ix3 E3].
    eapply answer_same; [apply same_index_sym; exact S1|exact E3].
Qed.

(** ** Files *)
Lemma get_int_enc : forall k x tail, (x < 256 ^ N.of_nat k)%N -> get_int k (enc k x ++ tail) = Ok (x, tail).
Proof.
  intros k x tail H. unfold get_int. rewrite app_length, enc_length. replace (k <=? k + length tail) with true by (symmetry; apply Nat.leb_le; lia).
  rewrite firstn_len_app, skipn_len_app by apply enc_length. rewrite dec_enc by auto. reflexivity.
Qed.

Lemma get_u32s_enc : forall xs tail, (forall x, In x xs -> (x < 2 ^ 32)%N) ->
  get_u32s (length xs) (enc_all 4 xs ++ tail) = Ok (xs, tail).
Proof.
  induction xs as [|x xs IH]; intros tail H; [reflexivity|]. cbn [length get_u32s]. unfold enc_all. cbn [flat_map]. rewrite <- app_assoc.
  rewrite get_int_enc by (apply (H x); left; auto). cbn [bind fst snd]. fold (enc_all 4 xs). rewrite IH by (intros y Hy; apply H; right; auto).
  reflexivity.
Qed.

Lemma get_planes_enc : forall dim hps tail, (forall hp, In hp hps -> length hp = dim /\ forall x, In x hp -> (x < 2 ^ 32)%N) ->
  get_planes dim (length hps) (flat_map (enc_all 4) hps ++ tail) = Ok (hps, tail).
Proof.
  intros dim hps. induction hps as [|hp hps IH]; intros tail H; [reflexivity|]. cbn [length get_planes flat_map]. rewrite <- app_assoc.
  destruct (H hp (or_introl eq_refl)) as [H1 H2]. subst dim. rewrite get_u32s_enc by auto. cbn [bind fst snd].
  rewrite IH by (intros y Hy; apply H; right; auto). reflexivity.
Qed.

Definition nonempty (p : N * list nat) : bool := match snd p with [] => false | _ => true end.

Lemma map_update_end : forall m k f, (forall p, In p m -> (fst p < k)%N) -> map_update m k f = m ++ [(k, f [])].
Proof.
  induction m as [|[k' l] m IH]; intros k f H; [reflexivity|]. cbn [map_update]. pose proof (H _ (or_introl eq_refl)) as Hk. cbn in Hk.
  destruct (N.ltb_spec k k'); [lia|]. destruct (N.eqb_spec k k'); [lia|]. rewrite IH by (intros p Hp; apply H; right; auto). reflexivity.
Qed.

Lemma map_update_last : forall m k l f, (forall p, In p m -> (fst p < k)%N) -> map_update (m ++ [(k, l)]) k f = m ++ [(k, f l)].
Proof.
  induction m as [|[k' l'] m IH]; intros k l f H.
  - cbn. rewrite N.ltb_irrefl, N.eqb_refl. reflexivity.
  - cbn [app map_update]. pose proof (H _ (or_introl eq_refl)) as Hk. cbn in Hk.
    destruct (N.ltb_spec k k'); [lia|]. destruct (N.eqb_spec k k'); [lia|]. rewrite IH by (intros p Hp; apply H; right; auto). reflexivity.
Qed.

Lemma fold_add : forall hps k ids m, (forall p, In p m -> (fst p < k)%N) ->
  fold_left (fun t id => add_vector t k (N.to_nat id)) (map N.of_nat ids) (mkT hps m) =
  mkT hps (m ++ filter nonempty [(k, ids)]).
Proof.
  intros hps k ids m H. destruct ids as [|x ids]; [cbn; rewrite app_nil_r; reflexivity|]. cbn [map fold_left]. unfold add_vector at 2. cbn [t_hps t_map].
  rewrite map_update_end by auto. rewrite Nat2N.id. cbn [app]. change (filter nonempty [(k, x :: ids)]) with [(k, [x] ++ ids)].
  generalize [x]. induction ids as [|y ids IH]; intros acc; cbn [map fold_left].
  - rewrite app_nil_r. reflexivity.
  - unfold add_vector at 2. cbn [t_hps t_map]. rewrite map_update_last by auto. rewrite Nat2N.id, IH, <- app_assoc. reflexivity.
Qed.

Definition map_writable (m : list (N * list nat)) : Prop :=
  keys_sorted m /\ (N.of_nat (length m) < 2 ^ 32)%N /\
  forall k l, In (k, l) m -> (k < 2 ^ 64)%N /\ (N.of_nat (length l) < 2 ^ 32)%N /\ forall id, In id l -> (N.of_nat id < 2 ^ 32)%N.

Lemma get_buckets_enc : forall hps m2 m1 tail,
  keys_sorted m2 -> (forall p q, In p m1 -> In q m2 -> (fst p < fst q)%N) ->
  (forall k l, In (k, l) m2 -> (k < 2 ^ 64)%N /\ (N.of_nat (length l) < 2 ^ 32)%N /\ forall id, In id l -> (N.of_nat id < 2 ^ 32)%N) ->
  get_buckets (length m2) (mkT hps m1) (flat_map bucket_bytes m2 ++ tail) = Ok (mkT hps (m1 ++ filter nonempty m2), tail).
Proof.
  intros hps m2. induction m2 as [|[k l] m2 IH]; intros m1 tail Hs Hlt Hw; cbn [length get_buckets flat_map].
  - cbn. rewrite app_nil_r. reflexivity.
  - destruct (Hw k l (or_introl eq_refl)) as [W1 [W2 W3]]. unfold bucket_bytes at 1. cbn [fst snd]. rewrite <- !app_assoc.
    unfold u64. rewrite get_int_enc by (exact W1). cbn [bind fst snd]. unfold u32. rewrite get_int_enc by (exact W2). cbn [bind fst snd].
    rewrite Nat2N.id. replace (length l) with (length (map N.of_nat l)) by apply map_length.
    rewrite get_u32s_enc.
    2: { intros x Hx. apply in_map_iff in Hx. destruct Hx as [y [<- Hy]]. auto. }
    cbn [bind fst snd]. rewrite fold_add by (intros p Hp; apply (Hlt p (k, l)); [auto|left; auto]).
    inversion Hs as [|? ? Hs' Hf]. subst. rewrite Forall_forall in Hf. rewrite IH.
    + f_equal. f_equal. rewrite <- app_assoc. cbn [filter]. destruct (nonempty (k, l)); reflexivity.
    + auto.
    + intros p q Hp Hq. apply in_app_or in Hp. destruct Hp as [Hp|Hp]; [apply Hlt; [auto|right; auto]|].
      apply filter_In in Hp. destruct Hp as [[<-|[]] _]. apply Hf. auto.
    + intros k' l' H'. apply Hw. right. auto.
Qed.

Definition table_writable (dim tsize : nat) (t : table) : Prop :=
  length (t_hps t) = tsize /\
  (forall hp, In hp (t_hps t) -> length hp = dim /\ forall x, In x hp -> (x < 2 ^ 32)%N) /\ map_writable (t_map t).

Definition drop_empty (t : table) : table := mkT (t_hps t) (filter nonempty (t_map t)).

Lemma get_tables_enc : forall dim tsize ts tail, tsize <= 64 -> (forall t, In t ts -> table_writable dim tsize t) ->
  get_tables dim tsize (length ts) (flat_map table_bytes ts ++ tail) = Ok (map drop_empty ts).
Proof.
  intros dim tsize ts tail Ht. induction ts as [|t ts IH]; intros H; [reflexivity|]. cbn [length get_tables flat_map].
  destruct (H t (or_introl eq_refl)) as [W1 [W2 [W3 [W4 W5]]]]. unfold table_bytes at 1. rewrite <- !app_assoc. cbn [app expect]. rewrite N.eqb_refl. cbn [bind].
  replace (64 <? tsize) with false by (symmetry; apply Nat.ltb_ge; auto).
  rewrite <- W1. rewrite get_planes_enc by auto. cbn [bind fst snd expect]. rewrite N.eqb_refl. cbn [bind].
  unfold u32. rewrite get_int_enc by (exact W4). cbn [bind fst snd]. rewrite Nat2N.id.
  rewrite get_buckets_enc; auto. 2: { intros p q []. } cbn [bind fst snd app expect]. rewrite N.eqb_refl. cbn [bind].
  rewrite W1, IH by (intros x Hx; apply H; right; auto). reflexivity.
Qed.

Definition lsh_writable (dim : nat) (ix : lsh_index) : Prop :=
  l_num_tables ix = N.of_nat (length (l_tables ix)) /\ (l_num_tables ix < 2 ^ 32)%N /\ (l_table_size ix <= 64)%N /\
  forall t, In t (l_tables ix) -> table_writable dim (N.to_nat (l_table_size ix)) t.

Lemma lsh_round_trip : forall dim ix fresh, lsh_writable dim ix ->
  lsh_load dim (lsh_bytes ix) fresh =
    Ok (mkLsh (l_n fresh) (l_tags fresh) (l_labels fresh) (l_num_tables fresh) (l_table_size fresh) (map drop_empty (l_tables ix))).
Proof.
  intros dim ix fresh [H1 [H2 [H3 H4]]]. unfold lsh_load, lsh_bytes. cbn [app expect]. rewrite N.eqb_refl. cbn [bind].
  unfold u32. rewrite get_int_enc by (exact H2). cbn [bind fst snd].
  rewrite get_int_enc by (change (256 ^ N.of_nat 4)%N with (2 ^ 32)%N; lia). cbn [bind fst snd].
  rewrite H1, Nat2N.id. rewrite <- (app_nil_r (flat_map table_bytes (l_tables ix))).
  rewrite get_tables_enc by (auto; lia). reflexivity.
Qed.

Lemma lsh_resave : forall dim ix fresh, l_num_tables ix = 0%N -> (l_table_size ix < 2 ^ 32)%N ->
  lsh_load dim (lsh_bytes ix) fresh =
    Ok (mkLsh (l_n fresh) (l_tags fresh) (l_labels fresh) (l_num_tables fresh) (l_table_size fresh) []).
Proof.
  intros dim ix fresh H1 H2. unfold lsh_load, lsh_bytes. cbn [app expect]. rewrite N.eqb_refl. cbn [bind].
  unfold u32. rewrite get_int_enc by (rewrite H1; reflexivity). cbn [bind fst snd].
  rewrite get_int_enc by (exact H2). cbn [bind fst snd]. rewrite H1. reflexivity.
Qed.

(** ** A built index can be written *)
Lemma keys_update : forall m k f, keys_sorted m -> keys_sorted (map_update m k f).
Proof.
  intros m k f H. induction H as [|[k' l] t Hs IH Hf]; cbn [map_update].
  - repeat constructor.
  - destruct (N.ltb_spec k k').
    + constructor; [constructor; auto|]. constructor; [cbn; auto|]. rewrite Forall_forall in *. intros p Hp. specialize (Hf p Hp). cbn in *. lia.
    + destruct (N.eqb_spec k k') as [->|Hne].
      * constructor; auto.
      * constructor; [exact IH|]. rewrite Forall_forall in *. clear IH Hs. induction t as [|[k1 l1] t IH]; cbn [map_update].
        -- intros p [<-|[]]. cbn. lia.
        -- intros p. destruct (N.ltb k k1); [intros [<-|Hp]; [cbn; lia|apply Hf; auto]|].
           destruct (N.eqb k k1); [intros [<-|Hp]; [apply (Hf (k1, l1)); left; auto|apply Hf; right; auto]|].
           intros [<-|Hp]; [apply Hf; left; auto|]. apply IH; auto. intros x Hx. apply Hf. right. auto.
Qed.

Lemma update_In : forall m k f k' l, In (k', l) (map_update m k f) -> In (k', l) m \/ (k' = k /\ exists o, l = f o /\ (o = [] \/ In (k, o) m)).
Proof.
  induction m as [|[k1 l1] m IH]; intros k f k' l; cbn [map_update].
  - intros [E|[]]. inversion E. right. split; [auto|]. exists []. auto.
  - destruct (N.ltb k k1).
    + intros [E|H]; [inversion E; right; split; [auto|]; exists []; auto|left; auto].
    + destruct (N.eqb_spec k k1) as [->|].
      * intros [E|H]; [inversion E; right; split; [auto|]; exists l1; split; [auto|right; left; auto]|left; right; auto].
      * intros [E|H]; [left; left; auto|]. destruct (IH _ _ _ _ H) as [A|[A [o [B C]]]]; [left; right; auto|].
        right. split; [auto|]. exists o. split; [auto|]. destruct C as [C|C]; [auto|right; right; auto].
Qed.

(** The shape of a table filled by build: sorted, non-empty buckets, short keys. *)
Definition built_map (tsize : nat) (bound : nat) (ids : nat -> Prop) (m : list (N * list nat)) : Prop :=
  keys_sorted m /\ (forall k l, In (k, l) m -> (k < 2 ^ N.of_nat tsize)%N /\ l <> [] /\ length l <= bound /\ forall id, In id l -> ids id).

Lemma add_built : forall t k id tsize bound (ids : nat -> Prop), (k < 2 ^ N.of_nat tsize)%N -> ids id ->
  built_map tsize bound ids (t_map t) -> built_map tsize (S bound) ids (t_map (add_vector t k id)).
Proof.
  intros t k id tsize bound ids Hk Hid [H1 H2]. unfold add_vector. cbn [t_map]. split; [apply keys_update; auto|].
  intros k' l H. apply update_In in H. destruct H as [H|[-> [o [-> Ho]]]].
  - destruct (H2 _ _ H) as [A [B [C D]]]. repeat (split; [solve [auto]|]). auto.
  - split; [auto|]. split; [intros C; apply app_eq_nil in C; destruct C; discriminate|]. rewrite app_length. cbn [length].
    destruct Ho as [->|Ho].
    + cbn. split; [lia|]. intros x [<-|[]]. auto.
    + destruct (H2 _ _ Ho) as [A [B [C D]]]. split; [lia|]. intros x Hx. apply in_app_or in Hx. destruct Hx as [Hx|[<-|[]]]; auto.
Qed.

Lemma hash_bound : forall dotf t v, (get_hash dotf t v < 2 ^ N.of_nat (length (t_hps t)))%N.
Proof. intros. unfold get_hash. eapply N.lt_le_trans; [apply bits_value_bound|]. rewrite map_length. lia. Qed.

Lemma fill_built : forall dotf data tags (ids : nat -> Prop), (forall t, In t tags -> ids t) -> forall cnt i t t' bound,
  fill_table dotf data tags i cnt t = Ok t' -> built_map (length (t_hps t)) bound ids (t_map t) ->
  t_hps t' = t_hps t /\ built_map (length (t_hps t)) (bound + cnt) ids (t_map t').
Proof.
  intros dotf data tags ids Hids cnt. induction cnt as [|cnt IH]; intros i t t' bound H B; cbn [fill_table] in H.
  - assert (t' = t) by congruence. subst. rewrite Nat.add_0_r. auto.
  - destruct (rd tags i) as [tag| | | |] eqn:E; try discriminate. cbn [bind] in H. apply rd_ok in E. apply nth_error_In in E.
    destruct (IH _ _ _ (S bound) H) as [H1 H2].
    + unfold add_vector at 1. cbn [t_hps]. apply add_built; auto. apply hash_bound.
    + cbn [add_vector t_hps] in H1, H2. replace (bound + S cnt) with (S bound + cnt) by lia. auto.
Qed.

Lemma fill_tables_built : forall dotf data tags n (ids : nat -> Prop), (forall t, In t tags -> ids t) -> forall ts ts',
  fill_tables dotf data tags n ts = Ok ts' -> (forall t, In t ts -> t_map t = []) ->
  map t_hps ts' = map t_hps ts /\ forall t', In t' ts' -> built_map (length (t_hps t')) n ids (t_map t').
Proof.
  intros dotf data tags n ids Hids ts. induction ts as [|t ts IH]; intros ts' H He; cbn [fill_tables] in H.
  - assert (ts' = []) by congruence. subst. split; [auto|intros t []].
  - destruct (fill_table dotf data tags 0 n t) as [t1| | | |] eqn:E; try discriminate. cbn [bind] in H.
    destruct (fill_tables dotf data tags n ts) as [ts1| | | |] eqn:E1; try discriminate. cbn [bind] in H.
    assert (ts' = t1 :: ts1) by congruence. subst. destruct (IH ts1 eq_refl) as [A B]; [intros x Hx; apply He; right; auto|].
    destruct (fill_built dotf data tags ids Hids n 0 t t1 0 E) as [C D].
    { rewrite (He t) by (left; auto). split; [constructor|intros k l []]. }
    split; [cbn; congruence|]. intros t' [<-|Ht]; [|auto]. rewrite C. exact D.
Qed.

Lemma lsh_built_shape : forall dotf data ts planes ix ix', lsh_build dotf data ts planes ix = Ok ix' -> lsh_new ix ->
  map t_hps (l_tables ix') = planes /\ l_num_tables ix' = N.of_nat (length planes) /\ l_table_size ix' = ts /\
  forall t, In t (l_tables ix') -> built_map (length (t_hps t)) (l_n ix) (fun x => In x (l_tags ix)) (t_map t).
Proof.
  intros dotf data ts planes ix ix' H Hn. unfold lsh_build in H. destruct ((64 <? ts)%N && negb (length planes =? 0)); [discriminate|].
  rewrite Hn in H. cbn [app] in H.
  destruct (fill_tables dotf data (l_tags ix) (l_n ix) (map (fun hps => mkT hps []) planes)) as [ts'| | | |] eqn:E; try discriminate.
  cbn [bind] in H. assert (ix' = mkLsh (l_n ix) (l_tags ix) (l_labels ix) (N.of_nat (length planes)) ts ts') by congruence. subst ix'. cbn.
  destruct (fill_tables_built dotf data (l_tags ix) (l_n ix) (fun x => In x (l_tags ix)) (fun t H => H) _ _ E) as [A B].
  { intros t Ht. apply in_map_iff in Ht. destruct Ht as [p [<- _]]. reflexivity. }
  split; [rewrite A, map_map; cbn; apply map_id|]. auto.
Qed.

(** Lookups add empty buckets under short keys only. *)
Lemma touch_map : forall m k, keys_sorted m -> filter nonempty (map_update m k (fun l => l)) = filter nonempty m.
Proof.
  intros m k H. induction H as [|[k' l] t Hs IH Hf]; cbn [map_update]; [reflexivity|].
  destruct (N.ltb k k'); [reflexivity|]. destruct (N.eqb k k'); [reflexivity|]. cbn [filter]. rewrite IH. reflexivity.
Qed.

Definition touched (tsize bound : nat) (ids : nat -> Prop) (m0 m : list (N * list nat)) : Prop :=
  keys_sorted m /\ filter nonempty m = m0 /\
  (forall k l, In (k, l) m -> (k < 2 ^ N.of_nat tsize)%N /\ length l <= bound /\ forall id, In id l -> ids id).

Lemma built_touched : forall tsize bound ids m, built_map tsize bound ids m -> touched tsize bound ids m m.
Proof.
  intros tsize bound ids m [H1 H2]. split; [auto|]. split.
  - clear H1. induction m as [|[k l] m IH]; [reflexivity|]. cbn [filter]. destruct (H2 k l (or_introl eq_refl)) as [_ [Hne _]].
    unfold nonempty at 1. cbn [snd]. destruct l; [congruence|]. f_equal. apply IH. intros k' l' H. apply H2. right. auto.
  - intros k l H. destruct (H2 _ _ H) as [A [B [C D]]]. auto.
Qed.

Lemma touched_update : forall tsize bound ids m0 m k, (k < 2 ^ N.of_nat tsize)%N -> touched tsize bound ids m0 m ->
  touched tsize bound ids m0 (map_update m k (fun l => l)).
Proof.
  intros tsize bound ids m0 m k Hk [H1 [H2 H3]]. split; [apply keys_update; auto|]. split; [rewrite touch_map; auto|].
  intros k' l H. apply update_In in H. destruct H as [H|[-> [o [-> Ho]]]]; [auto|]. split; [auto|]. destruct Ho as [->|Ho].
  - cbn. split; [lia|intros x []].
  - apply (H3 k). auto.
Qed.

Definition touched_table (bound : nat) (ids : nat -> Prop) (t0 t : table) : Prop :=
  t_hps t = t_hps t0 /\ touched (length (t_hps t0)) bound ids (t_map t0) (t_map t).

Lemma search_touched : forall dotf ix q r ix' bound ids ts0, lsh_answer dotf ix q = Ok (r, ix') ->
  Forall2 (touched_table bound ids) ts0 (l_tables ix) -> Forall2 (touched_table bound ids) ts0 (l_tables ix').
Proof.
  intros dotf ix q r ix' bound ids ts0 H F. unfold lsh_answer, lsh_search in H.
  destruct (lookup_all dotf (q_vec q) (l_tables ix)) as [cands ts'] eqn:E.
  destruct (flat_search (l_n ix) (q_dist q) (passes_filter (l_labels ix) (q_filters q)) (q_count q) cands (q_indices q) (q_distances q));
    try discriminate. cbn [bind] in H. assert (l_tables ix' = ts') as -> by (inversion H; reflexivity).
  replace ts' with (snd (lookup_all dotf (q_vec q) (l_tables ix))) by (rewrite E; auto). rewrite lookup_snd.
  clear - F. induction F as [|t0 t l l' [H1 H2] F IH]; [constructor|]. cbn [map]. constructor; [|auto]. split; [auto|]. cbn [t_map].
  apply touched_update; [|auto]. rewrite <- H1. apply hash_bound.
Qed.

Lemma answers_touched : forall dotf bound ids ts0 qs ix outs ix', lsh_answers dotf ix qs = Ok (outs, ix') ->
  Forall2 (touched_table bound ids) ts0 (l_tables ix) -> Forall2 (touched_table bound ids) ts0 (l_tables ix').
Proof.
  intros dotf bound ids ts0 qs. induction qs as [|q qs IH]; intros ix outs ix' H F; cbn [lsh_answers] in H.
  - assert (ix' = ix) by congruence. subst. auto.
  - destruct (lsh_answer dotf ix q) as [[r ix1]| | | |] eqn:E1; try discriminate. cbn [bind fst snd] in H.
    destruct (lsh_answers dotf ix1 qs) as [[rs ix2]| | | |] eqn:E2; try discriminate. cbn [bind fst snd] in H.
    assert (ix' = ix2) by congruence. subst. eapply IH; [exact E2|]. eapply search_touched; eauto.
Qed.

(** The whole life: build, search any number of times, save, load. *)
Lemma lsh_life : forall dotf data ts planes ix ix1 qs outs ix2 dim fresh,
  lsh_build dotf data ts planes ix = Ok ix1 -> lsh_new ix -> (ts <= 64)%N ->
  (forall hps, In hps planes -> N.of_nat (length hps) = ts /\
     forall hp, In hp hps -> length hp = dim /\ forall x, In x hp -> (x < 2 ^ 32)%N) ->
  (N.of_nat (length planes) < 2 ^ 32)%N -> (N.of_nat (l_n ix) < 2 ^ 32)%N -> (forall t, In t (l_tags ix) -> (N.of_nat t < 2 ^ 32)%N) ->
  lsh_answers dotf ix1 qs = Ok (outs, ix2) ->
  (forall t, In t (l_tables ix2) -> (N.of_nat (length (t_map t)) < 2 ^ 32)%N) ->
  exists ix3, lsh_load dim (lsh_bytes ix2) fresh = Ok ix3 /\ l_tables ix3 = l_tables ix1 /\
    l_num_tables ix3 = l_num_tables fresh /\ l_table_size ix3 = l_table_size fresh.
Proof.
  intros dotf data ts planes ix ix1 qs outs ix2 dim fresh Hb Hn Hts Hpl Hnp Hnn Htg Ha Hbk.
  destruct (lsh_built_shape _ _ _ _ _ _ Hb Hn) as [S1 [S2 [S3 S4]]].
  set (ids := fun x => In x (l_tags ix)) in *.
  assert (F0 : Forall2 (touched_table (l_n ix) ids) (l_tables ix1) (l_tables ix1)).
  { clear - S4. revert S4. generalize (l_tables ix1) as l. induction l as [|t l IH]; intros S4; constructor.
    - split; [auto|]. apply built_touched. apply S4. left. auto.
    - apply IH. intros x Hx. apply S4. right. auto. }
  pose proof (answers_touched dotf (l_n ix) ids (l_tables ix1) qs ix1 outs ix2 Ha F0) as F.
  destruct (lsh_answers_same dotf qs ix1 outs ix2 Ha) as [[A1 [A2 [A3 [A4 [A5 A6]]]]] _].
  assert (W : lsh_writable dim ix2).
  { split; [|split; [|split]].
    - rewrite A4, S2. f_equal. rewrite <- (Forall2_len _ _ _ _ _ F). rewrite <- S1. rewrite map_length. reflexivity.
    - rewrite A4, S2. auto.
    - rewrite A5, S3. auto.
    - intros t Ht.
      assert (exists t0, In t0 (l_tables ix1) /\ touched_table (l_n ix) ids t0 t) as [t0 [Ht0 [T1 [T2 [T3 T4]]]]].
      { clear - F Ht. induction F as [|t0 t' l l' H F IH]; [destruct Ht|]. destruct Ht as [->|Ht]; [exists t0; split; [left; auto|auto]|].
        destruct (IH Ht) as [x [P Q]]. exists x. split; [right; auto|auto]. }
      assert (Hp : In (t_hps t) planes). { rewrite <- S1, T1. apply in_map. auto. }
      destruct (Hpl _ Hp) as [P1 P2]. split; [rewrite A5, S3; lia|]. split; [auto|]. split; [auto|]. split; [auto|].
      intros k l Hkl. destruct (T4 k l Hkl) as [U1 [U2 U3]]. split; [|split].
      + eapply N.lt_le_trans; [exact U1|]. apply N.pow_le_mono_r; [lia|]. rewrite <- T1. lia.
      + lia.
      + intros id Hid. apply Htg. apply U3. auto. }
  rewrite (lsh_round_trip dim ix2 fresh W). eexists. split; [reflexivity|]. cbn. split; [|auto].
  clear - F. induction F as [|t0 t l l' [H1 [H2 [H3 H4]]] F IH]; [reflexivity|]. cbn [map]. f_equal; [|exact IH].
  unfold drop_empty. rewrite H1, H3. destruct t0; reflexivity.
Qed.

(** ** Building twice *)
Lemma get_tables_some : forall dim tsize ts more tail, tsize <= 64 -> (forall t, In t ts -> table_writable dim tsize t) ->
  get_tables dim tsize (length ts) (flat_map table_bytes (ts ++ more) ++ tail) = Ok (map drop_empty ts).
Proof. intros. rewrite flat_map_app, <- app_assoc. apply get_tables_enc; auto. Qed.

Lemma fill_tables_app : forall dotf data tags n a b, fill_tables dotf data tags n (a ++ b) =
  (do x <- fill_tables dotf data tags n a; do y <- fill_tables dotf data tags n b; Ok (x ++ y)).
Proof.
  intros dotf data tags n a b. induction a as [|t a IH]; cbn [app fill_tables bind].
  - destruct (fill_tables dotf data tags n b); reflexivity.
  - destruct (fill_table dotf data tags 0 n t); cbn [bind]; auto. rewrite IH.
    destruct (fill_tables dotf data tags n a); cbn [bind]; auto. destruct (fill_tables dotf data tags n b); reflexivity.
Qed.

(** After a second build with as many tables as before: twice as many tables, the
    first half lists every point twice, and a saved file only brings back that half. *)
Lemma lsh_rebuild : forall dotf data ts planes1 planes2 ix ix1 ix2,
  (ts <= 64)%N -> length (l_tags ix) = l_n ix -> lsh_new ix ->
  lsh_build dotf data ts planes1 ix = Ok ix1 -> lsh_build dotf data ts planes2 ix1 = Ok ix2 ->
  length (l_tables ix2) = length planes1 + length planes2 /\ l_num_tables ix2 = N.of_nat (length planes2) /\
  forall i hps t, nth_error planes1 i = Some hps -> nth_error (l_tables ix2) i = Some t ->
    t_hps t = hps /\ forall k, bucket (t_map t) k =
      map (tag_of (l_tags ix)) (filter (fun j => N.eqb k (get_hash dotf (mkT hps []) (data j))) (seq 0 (l_n ix))) ++
      map (tag_of (l_tags ix)) (filter (fun j => N.eqb k (get_hash dotf (mkT hps []) (data j))) (seq 0 (l_n ix))).
Proof.
  intros dotf data ts planes1 planes2 ix ix1 ix2 Hts Htag Hnew H1 H2.
  destruct (lsh_build_ok dotf data ts planes1 ix Hts Htag Hnew) as [ix1' [E [En [Et [El [Enum [Ets F]]]]]]].
  assert (ix1' = ix1) by congruence. subst ix1'. unfold lsh_build in H2.
  replace (64 <? ts)%N with false in H2 by (symmetry; apply N.ltb_ge; auto). cbn [andb] in H2.
  rewrite fill_tables_app in H2.
  destruct (fill_tables_ok dotf data (l_tags ix1) (l_n ix1) (l_tables ix1)) as [a [Ea Fa]]; [rewrite Et, En; lia|]. rewrite Ea in H2. cbn [bind] in H2.
  destruct (fill_tables_ok dotf data (l_tags ix1) (l_n ix1) (map (fun hps => mkT hps []) planes2)) as [b [Eb Fb]]; [rewrite Et, En; lia|].
  rewrite Eb in H2. cbn [bind] in H2.
  assert (ix2 = mkLsh (l_n ix1) (l_tags ix1) (l_labels ix1) (N.of_nat (length planes2)) ts (a ++ b)) by congruence. subst ix2. cbn.
  split; [|split; [auto|]].
  - rewrite app_length. rewrite <- (Forall2_len _ _ _ _ _ Fa), <- (Forall2_len _ _ _ _ _ Fb), <- (Forall2_len _ _ _ _ _ F), map_length. reflexivity.
  - intros i hps t Hi Ht. assert (Hia : i < length a).
    { rewrite <- (Forall2_len _ _ _ _ _ Fa), <- (Forall2_len _ _ _ _ _ F). apply nth_error_Some. congruence. }
    rewrite nth_error_app1 in Ht by auto. clear Hia. revert i Hi Ht. clear - F Fa En Et.
    revert a Fa. induction F as [|p t0 l l' [P1 P2] F IH]; intros a Fa i Hi Ht; [destruct i; discriminate|].
    inversion Fa as [|? t1 ? a' [A1 A2] Fa']. subst. destruct i as [|i]; cbn in Hi, Ht.
    + assert (t1 = t) by congruence. subst t1. assert (t_hps t0 = hps) as Ehps by congruence. split; [congruence|]. intros k.
      unfold get_hash in P2, A2. cbn [t_hps] in P2. rewrite A2, P2, En, Et, Ehps. reflexivity.
    + eapply IH; eauto.
Qed.

Lemma lsh_rebuild_file : forall dim ix more fresh,
  l_num_tables ix = N.of_nat (length (l_tables ix) - more) -> more <= length (l_tables ix) -> (l_num_tables ix < 2 ^ 32)%N -> (l_table_size ix <= 64)%N ->
  (forall t, In t (l_tables ix) -> table_writable dim (N.to_nat (l_table_size ix)) t) ->
  exists ix', lsh_load dim (lsh_bytes ix) fresh = Ok ix' /\
    l_tables ix' = map drop_empty (firstn (length (l_tables ix) - more) (l_tables ix)).
Proof.
  intros dim ix more fresh H1 Hm H2 H3 H4. unfold lsh_load, lsh_bytes. cbn [app expect]. rewrite N.eqb_refl. cbn [bind].
  unfold u32. rewrite get_int_enc by (exact H2). cbn [bind fst snd].
  rewrite get_int_enc by (change (256 ^ N.of_nat 4)%N with (2 ^ 32)%N; lia). cbn [bind fst snd].
  rewrite H1, Nat2N.id. set (k := length (l_tables ix) - more).
  pose proof (get_tables_some dim (N.to_nat (l_table_size ix)) (firstn k (l_tables ix)) (skipn k (l_tables ix)) []) as G.
  rewrite firstn_skipn, app_nil_r, firstn_length_le in G by (unfold k; lia). rewrite G.
  - cbn [bind]. eexists. split; reflexivity.
  - lia.
  - intros t Ht. apply H4. rewrite <- (firstn_skipn k (l_tables ix)). apply in_or_app. auto.
Qed.
