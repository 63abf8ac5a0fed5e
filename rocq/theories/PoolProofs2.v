(** * Pool lemmas in the shape of the theorems of PropPool.v. *)
From Coq Require Import String List Arith Lia Bool ZArith Sorting.Sorted Sorting.Permutation.
From Verif Require Import Base Float32 PoolModel TopKSpec FilterSpec PoolProofs PoolSafety FilterProofs.
Import ListNotations.

Lemma insert_new_sorted : forall pool spare tail nn,
  pool <> [] -> StronglySorted nle pool ->
  (forall z, In z pool -> is_nan (ndist z) = false) -> is_nan (ndist nn) = false ->
  (forall z, In z pool -> nid z <> nid nn) ->
  exists before after,
    pool = before ++ after /\
    insert_into_pool (pool ++ spare :: tail) (length pool) nn
      = Ok (before ++ nn :: after ++ tail, length before) /\
    StronglySorted nle (before ++ nn :: after).
Proof.
  intros pool spare tail nn H1 H2 H3 H4 H5.
  destruct (insert_fresh pool spare tail nn H1 H2 H3 H4 H5) as [P1 [P2 [E [I [A B]]]]].
  exists P1, P2. split; auto. split; auto. apply insert_sorted; auto. rewrite <- E. auto.
Qed.

Lemma NoDup_app_l : forall (A : Type) (o r : list A), NoDup (o ++ r) -> NoDup o.
Proof.
  intros A o r H. induction o as [|x l IH]; constructor.
  - cbn in H. apply NoDup_cons_iff in H. intros C. apply (proj1 H). apply in_or_app. auto.
  - cbn in H. apply NoDup_cons_iff in H. apply IH. tauto.
Qed.

Lemma top_k_NoDup : forall k c out, NoDup (map fst c) -> is_top_k k c out -> NoDup (map fst out).
Proof.
  intros k c out H [rest [A _]]. apply (Permutation_map fst) in A. rewrite map_app in A.
  apply (Permutation_NoDup A) in H. eapply NoDup_app_l. exact H.
Qed.

Lemma score_fst : forall dist l, map fst (score dist l) = l.
Proof. intros. unfold score. rewrite map_map. cbn. apply map_id. Qed.

Lemma feed_top : forall n dist accept acc m batches, 1 <= m ->
  (forall id, In id (concat batches) -> accept id = Ok (acc id)) ->
  (forall id, In id (concat batches) -> acc id = true -> id < n) ->
  (forall id, is_nan (dist id) = false) ->
  match filter acc (concat batches) with [] => True | id :: _ => flt (dist id) FLT_MAX = true end ->
  exists st, feed n dist accept m (empty_pool m) batches = Ok st /\
    is_top_k m (score dist (nodup Nat.eq_dec (filter acc (concat batches))))
      (map nkey (pool_entries st)) /\
    NoDup (map nid (pool_entries st)) /\
    p_cmps st = length (nodup Nat.eq_dec (filter acc (concat batches))).
Proof.
  intros n dist accept acc m batches Hm Ha Hn Hnan Hf.
  destruct (feed_spec n dist accept acc m 0 batches (empty_pool m)) as [st [E [W [[T1 [T2 T3]] I]]]]; auto.
  - apply empty_pool_wf; auto.
  - apply empty_pool_top.
  - cbn. tauto.
  - apply first_ok_empty. auto.
  - assert (P : Permutation (p_ins st) (nodup Nat.eq_dec (filter acc (concat batches)))).
    { apply NoDup_Permutation; auto; [apply NoDup_nodup|].
      intros x. rewrite nodup_In, filter_In, I. cbn. tauto. }
    exists st. split; [auto|]. split; [|split].
    + eapply top_k_perm; [|exact T3]. apply Permutation_map. auto.
    + replace (map nid (pool_entries st)) with (map fst (map nkey (pool_entries st))) by (rewrite map_map; reflexivity).
      eapply top_k_NoDup; [|exact T3]. rewrite score_fst. auto.
    + rewrite Nat.add_0_r in T2. rewrite T2. apply Permutation_length. auto.
Qed.

Lemma feed_first_far : forall n dist accept m id rest,
  accept id = Ok true -> id < n -> flt (dist id) FLT_MAX = false ->
  feed n dist accept m (empty_pool m) [id :: rest] = UB.
Proof.
  intros n dist accept m id rest Ha Hn Hf. cbn [feed]. unfold process_candidates. cbn [process_loop].
  unfold process_one. rewrite Ha. cbn [bind negb empty_pool p_ins p_arr p_cur set_mem existsb].
  apply Nat.ltb_lt in Hn. rewrite Hn. cbn [bind]. rewrite Nat.ltb_irrefl. cbn [bind].
  unfold insert_into_pool. replace (m + 1) with (S m) by lia. cbn [repeat].
  unfold rd. cbn [nth_error bind ndist]. change (fgt (ndist default_neighbor) (dist id)) with (flt (dist id) FLT_MAX).
  rewrite Hf. reflexivity.
Qed.

Lemma feed_capacity_zero : exists n dist accept batches,
  (forall id, is_nan (dist id) = false /\ flt (dist id) FLT_MAX = true) /\
  (forall id, accept id = Ok true) /\ (forall id, In id (concat batches) -> id < n) /\
  feed n dist accept 0 (empty_pool 0) batches = UB.
Proof.
  exists 2, (fun _ => f32_one), (fun _ => Ok true), [[0; 1]]. split; [|split; [|split]].
  - intros; vm_compute; auto.
  - reflexivity.
  - cbn. intros id [<-|[<-|[]]]; lia.
  - vm_compute. reflexivity.
Qed.

Lemma filter_unsorted : exists lc filters id curr,
  nth_error (pts_to_labels lc) id = Some curr /\ sorted_labels curr /\
  share_label filters curr /\ passes_filter lc filters id = Ok false.
Proof.
  exists (mkL [["a"; "b"]]%string true "0"%string), ["c"; "a"]%string, 0, ["a"; "b"]%string.
  split; [reflexivity|]. split; [repeat constructor; discriminate|]. split; [|vm_compute; reflexivity].
  exists "a"%string. cbn. tauto.
Qed.
