(** * HNSW: theorems. *)
From Coq Require Import ZArith SpecFloat String List Arith Lia Bool Sorting.Sorted Sorting.Permutation.
From Verif Require Import Base Float32 Float32Facts PoolModel TopKSpec SortSpec SortInst GraphSpec GreedyModel SearchSpec SearchModel PruneModel
  BuildModel BuildSpec BuildWitness EntrySpec HnswModel HnswSpec HnswProofs HnswProofs2 HnswProofs3.
Import ListNotations.

(** Twelve points on a line with the caller's tags 100, 101, ...; ten of them in the
    inner level; L = 6, R = 4. *)
Definition h_space : space := mkSp 12 line_pd false (mkL [] true "0"%string).
Definition h_sample : list nat := [0; 1; 2; 3; 4; 5; 6; 7; 8; 10].
Definition h_cent (n c : nat) : list f32 := map (fun i => line_pd i c) (seq 0 n).
Definition h_choices : list hchoice :=
  [mkHC h_sample (h_cent 12 5) (one_thread 12 60) (seq 0 12); mkHC [] (h_cent 10 4) (one_thread 10 60) (seq 0 10)].
Definition h_prm : bparams := mkB 6 4 750 f12 0.
Definition h_levels : hnsw :=
  match hnsw_build isort h_prm h_space (seq 100 12) h_choices with Ok l => l | _ => [] end.

Lemma one_thread_In : forall n k i, In i (one_thread n k) -> i < n.
Proof.
  intros n k i H. unfold one_thread in H. apply in_concat in H. destruct H as [l [H1 H2]].
  apply in_map_iff in H1. destruct H1 as [j [<- H1]]. apply repeat_spec in H2. subst. apply in_seq in H1. lia.
Qed.

Lemma h_cent_nan : forall n c d, In d (h_cent n c) -> is_nan d = false.
Proof. intros n c d H. apply in_map_iff in H. destruct H as [i [<- _]]. apply f32_of_Z_not_nan. Qed.

Example h_case_hyps : hinput_ok isort h_prm h_space (seq 100 12) h_choices.
Proof.
  constructor.
  - exact isort_sorts.
  - cbn. lia.
  - intros a b. apply f32_of_Z_not_nan.
  - reflexivity.
  - reflexivity.
  - cbn [choices_ok h_choices hc_sample hc_centroid hc_sched hc_order h_space sp_n].
    split; [lia|]. split; [reflexivity|]. split; [apply h_cent_nan|]. split; [apply one_thread_In|].
    split; [apply Permutation_refl|]. split; [unfold h_sample; cbn [In]; intros i Hi; lia|]. split.
    { unfold h_sample. repeat (constructor; [|repeat (constructor; try lia)]). constructor. }
    split; [unfold h_sample; cbn [length]; lia|]. split; [reflexivity|]. split; [apply h_cent_nan|]. split; [apply one_thread_In|].
    split; [apply Permutation_refl|exact I].
Qed.

Example h_case_built : hnsw_build isort h_prm h_space (seq 100 12) h_choices = Ok h_levels.
Proof. vm_compute. reflexivity. Qed.

(** C72.  A whole HNSW build, whatever the samples, the interleaving and the order of
    the cleanup, yields on every level a well-formed graph with valid edges, no node
    among its own neighbours and degree at most R; the tags of the top level are the
    caller's, those of an inner level the sampled points of the level above; the entry
    point of each level is the point nearest its centroid.  [Fuel] is a schedule that
    stops before all locations are done. *)
Theorem C72_hnsw_build : forall sortf prm cs sp tags, hinput_ok sortf prm sp tags cs ->
  (exists levels, hnsw_build sortf prm sp tags cs = Ok levels /\ levels_ok levels /\
     levels_degree (bp_R prm) levels /\ built_from (sp_n sp) tags cs levels) \/
  hnsw_build sortf prm sp tags cs = Fuel.
Proof. exact hnsw_build_ok. Qed.
Print Assumptions C72_hnsw_build.

(** C72.  For all samples some interleaving finishes the build, ... *)
Theorem C72_hnsw_build_completes : forall sortf prm cs sp tags, hinput_ok sortf prm sp tags cs ->
  exists cs' levels, Forall2 other_schedule cs cs' /\ hinput_ok sortf prm sp tags cs' /\
    hnsw_build sortf prm sp tags cs' = Ok levels.
Proof. exact hnsw_build_completes. Qed.
Print Assumptions C72_hnsw_build_completes.

(** ... and no level runs for ever. *)
Theorem C72_hnsw_level_terminates : forall env sched, henv_ok env -> h_busy env (build_init (he_b env)) sched ->
  length sched <= sp_n (be_sp (he_b env)) *
    ((sp_n (be_sp (he_b env)) + 1) * (bp_L (be_prm (he_b env)) + 1) + 2 * bp_R (be_prm (he_b env)) + 3).
Proof. exact h_terminates. Qed.
Print Assumptions C72_hnsw_level_terminates.

Example C72_case : map (fun ix => (ix_start ix, ix_tags ix, ix_graph ix)) h_levels =
  [(5, [100; 101; 102; 103; 104; 105; 106; 107; 108; 109; 110; 111],
    [[1]; [0; 2; 0]; [1; 3; 1]; [2; 4; 2]; [3; 5; 3]; [4; 4; 6]; [5; 5; 7]; [6; 6; 8]; [7; 7; 10; 9]; [8; 10]; [8; 9; 9; 11]; [10]]);
   (4, [0; 1; 2; 3; 4; 5; 6; 7; 8; 10],
    [[4; 1]; [0; 4; 2]; [1; 4; 3]; [4; 2]; [3; 5]; [4; 6]; [5; 7]; [6; 8]; [7; 9]; [8]])].
Proof. vm_compute. reflexivity. Qed.

(** An environment of one level, for C72_hnsw_level_terminates and C37. *)
Definition h_env : henv := mkH (mkEnv isort line_space (mkB 20 16 750 f12 1) 4 []) [].
Example h_env_hyps : henv_ok h_env.
Proof.
  constructor; [exact isort_sorts| |reflexivity|exact I].
  constructor; cbn; try lia; try discriminate. intros a b. apply f32_of_Z_not_nan.
Qed.

Example C72_busy_case : h_busy h_env (build_init (he_b h_env)) [3; 7; 3].
Proof.
  cbn [h_busy]. split; [eexists; split; [reflexivity|reflexivity]|].
  intros st E. assert (E' : st = match h_step h_env (build_init (he_b h_env)) 3 with Ok s => s | _ => st end) by (rewrite E; auto).
  vm_compute in E'. subst st. split; [eexists; split; [reflexivity|reflexivity]|]. clear E. intros st E.
  match type of E with h_step ?e ?s ?i = _ => assert (E' : st = match h_step e s i with Ok s' => s' | _ => st end) by (rewrite E; auto) end.
  vm_compute in E'. subst st. split; [eexists; split; [reflexivity|reflexivity]|]. auto.
Qed.

(** C36, C09.  Search on any number of levels with res_count at most L: there are
    entry points of the outermost level, obtained from the inner levels through their
    tags, and internal ids of the points found, from which the buffers are filled:
    as many results as reported, the caller's tags and genuine distances in ascending
    order, no point twice, and the rest of the buffers untouched.  Every entry point
    is a point of the outermost level, every result is reachable from them, and the
    best result is no farther than any of them. *)
Theorem C36_hnsw_search : forall sortf L rc, sorts sortf -> 1 <= L -> rc <= L -> forall inner ix dist filters ind dst,
  levels_ok (ix :: inner) -> (forall id, is_nan (dist id) = false) -> rc <= length ind -> rc <= length dst ->
  exists entry ids ind' dst',
    hnsw_search sortf (ix :: inner) dist L rc filters ind dst = Ok (ind', dst', length ids) /\
    length ids <= rc /\ (1 <= rc -> ids <> []) /\
    same_from rc ind' ind /\ same_from rc dst' dst /\
    reports (ix_n ix) (ix_tags ix) dist ind' dst' ids /\
    handed_down sortf L rc ix inner dist entry /\
    (forall e, In e entry -> e < ix_n ix) /\
    (forall id, In id ids -> reach (fun _ => true) (ix_graph ix) (fun x => In x entry) id) /\
    (forall e f rest, In e entry -> ids = f :: rest -> fle (dist f) (dist e) = true).
Proof. exact hnsw_search_ok. Qed.
Print Assumptions C36_hnsw_search.

Example C36_case_hyps : levels_ok h_levels.
Proof.
  exact (built_levels_ok _ _ _ _ _ _ h_case_hyps h_case_built).
Qed.

Example C36_case :
  hnsw_search isort h_levels (line_pd 9) 6 3 [] (repeat 7 4) (repeat f32_one 4) =
    Ok ([109; 108; 110; 7], map f32_of_Z [0; 1; 1; 1]%Z, 3).
Proof. vm_compute. reflexivity. Qed.

(** C36.  With more results than L asked for, an index with an inner level writes past
    its L-slot buffer of entry points. *)
Theorem C36_hnsw_search_past_list : forall sortf L rc ix inn inner dist filters ind dst, sorts sortf -> 1 <= L -> L < rc ->
  levels_ok (ix :: inn :: inner) -> (forall id, is_nan (dist id) = false) ->
  hnsw_search sortf (ix :: inn :: inner) dist L rc filters ind dst = UB.
Proof. exact hnsw_search_past. Qed.
Print Assumptions C36_hnsw_search_past_list.

Example C36_past_case : hnsw_search isort h_levels (line_pd 9) 2 3 [] (repeat 7 4) (repeat f32_one 4) = UB.
Proof. vm_compute. reflexivity. Qed.

(** C73.  The filters given to an HNSW search have no influence. *)
Theorem C73_hnsw_ignores_filters : forall sortf levels dist L rc f1 f2 ind dst,
  hnsw_search sortf levels dist L rc f1 ind dst = hnsw_search sortf levels dist L rc f2 ind dst.
Proof. intros sortf [|ix inner]; reflexivity. Qed.
Print Assumptions C73_hnsw_ignores_filters.

Example C73_case :
  hnsw_search isort h_levels (line_pd 9) 6 3 ["nobody"%string] (repeat 7 4) (repeat f32_one 4) =
    Ok ([109; 108; 110; 7], map f32_of_Z [0; 1; 1; 1]%Z, 3).
Proof. vm_compute. reflexivity. Qed.

(** C21.  A build whose innermost level has fewer than ten points divides by zero
    (reads distances[0] of an empty array when it has none). *)
Theorem C21_hnsw_small_level : forall sortf prm cs sp tags m c loc sched, innermost (sp_n sp) cs = Some (m, c) ->
  m < 10 -> length (hc_centroid c) = m -> (forall d, In d (hc_centroid c) -> is_nan d = false) ->
  hc_sched c = loc :: sched -> (1 <= m -> loc < m) ->
  hnsw_build sortf prm sp tags cs = UB.
Proof. exact hnsw_small. Qed.
Print Assumptions C21_hnsw_small_level.

Example C21_hnsw_case : hnsw_build isort h_prm h_space (seq 100 12)
  [mkHC [0; 2; 4; 6; 8; 9; 10; 11] (h_cent 12 5) [] (seq 0 12); mkHC [] (h_cent 8 4) [0] (seq 0 8)] = UB.
Proof. vm_compute. reflexivity. Qed.

(** C22.  An HNSW build leaves the maximum degree at 0: a finished build with
    non-empty lists. *)
Theorem C22_hnsw_max_degree_refuted : exists sortf prm cs sp tags levels, hinput_ok sortf prm sp tags cs /\
  hnsw_build sortf prm sp tags cs = Ok levels /\
  exists ix x l, In ix levels /\ nth_error (ix_graph ix) x = Some l /\ hnsw_max_degree < length l.
Proof.
  exists isort, h_prm, h_choices, h_space, (seq 100 12), h_levels. split; [exact h_case_hyps|]. split; [exact h_case_built|].
  exists (hd (mkI 0 [] (mkL [] true "0"%string) [] 0 []) h_levels), 1, [0; 2; 0].
  split; [vm_compute; left; reflexivity|]. split; [vm_compute; reflexivity|]. unfold hnsw_max_degree. cbn. lia.
Qed.
Print Assumptions C22_hnsw_max_degree_refuted.

(** C37.  In every reachable state of the build of a level, a search that found fewer
    than L points hands (0, FLT_MAX) to the pruning, L + 1 minus the number of points
    found times. *)
Theorem C37_phantom_candidates : forall env sched st loc gs, henv_ok env ->
  (forall i, In i sched -> i < sp_n (be_sp (he_b env))) ->
  h_run env (build_init (he_b env)) sched = Ok st ->
  nth_error (bs_tasks st) loc = Some (TSearch gs) -> length (found gs) < bp_L (be_prm (he_b env)) ->
  p_arr (g_pool gs) = found gs ++ repeat default_neighbor (bp_L (be_prm (he_b env)) + 1 - length (found gs)).
Proof. exact h_phantoms. Qed.
Print Assumptions C37_phantom_candidates.

(** C37.  With a pruning rule other than 0 they become links: the list of such a point
    is filled up to R (or to the number of slots) with links to point 0. *)
Theorem C37_phantom_links : forall env sched st loc gs, henv_ok env ->
  (forall i, In i sched -> i < sp_n (be_sp (he_b env))) ->
  h_run env (build_init (he_b env)) sched = Ok st ->
  nth_error (bs_tasks st) loc = Some (TSearch gs) -> greedy_running gs = false ->
  length (found gs) < bp_L (be_prm (he_b env)) -> bp_rule (be_prm (he_b env)) <> 0 -> loc <> 0 ->
  exists links st', h_step env st loc = Ok st' /\ nth_error (bs_tasks st') loc = Some (TLink links) /\
    (forall y, In y links -> y = 0 \/ In y (map nid (found gs))) /\
    length links = min (bp_R (be_prm (he_b env)))
      (length (filter (fun z => negb (nid z =? loc)) (found gs)) + (bp_L (be_prm (he_b env)) + 1 - length (found gs))).
Proof. exact h_phantom_links. Qed.
Print Assumptions C37_phantom_links.

(** The search for point 7, run first: it finds the entry point 4 only, and links to
    point 0 fifteen times although nothing led there. *)
Example C37_case :
  match h_run h_env (build_init (he_b h_env)) (repeat 7 2) with
  | Ok st => match nth_error (bs_tasks st) 7 with
             | Some (TSearch gs) => (greedy_running gs, map nid (found gs),
                 match h_step h_env st 7 with Ok st' => nth_error (bs_tasks st') 7 | _ => None end)
             | _ => (true, [], None)
             end
  | _ => (true, [], None)
  end = (false, [4], Some (TLink (4 :: repeat 0 15))).
Proof. vm_compute. reflexivity. Qed.

(** And in a finished one-thread build: point 9 lists point 0 eight times. *)
Example C37_built_case :
  match hnsw_build isort (mkB 20 16 750 f12 1) line_space (seq 100 10) [mkHC [] (h_cent 10 4) (one_thread 10 80) (seq 0 10)] with
  | Ok [ix] => nth_error (ix_graph ix) 9
  | _ => None
  end = Some ([8; 7; 6; 5; 4; 3; 2; 1] ++ repeat 0 8).
Proof. vm_compute. reflexivity. Qed.
