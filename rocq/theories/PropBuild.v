(** * Theorems: the concurrent Vamana build (C16-C22, C25, C26, C68).

    [env] holds the data set, the parameters and the entry points; a schedule is
    any list of locations, the task of each location making its next step when it
    is picked: every interleaving of the locked sections, for any number of
    threads.  [build_input_ok]: at least ten points, L >= 1, no NaN distance, valid
    entry points. *)
From Coq Require Import ZArith SpecFloat String List Arith Lia Bool Sorting.Sorted Sorting.Permutation.
From Verif Require Import Base Float32 PoolModel TopKSpec SortSpec GraphSpec GreedyModel SearchModel PruneModel PruneSpec
  SortInst BuildModel BuildSpec BuildProofs2 LockProofs EntryModel EntrySpec EntryProofs VamanaModel VamanaProofs BuildWitness EntrySpread.
Import ListNotations.

(** C16.  On every schedule, at every moment, no edge leaves the data set and no
    node lists itself, and nothing undefined happens. *)
Theorem C16_build_edges : forall env sched, sorts (be_sort env) -> build_input_ok env ->
  (forall i, In i sched -> i < sp_n (be_sp env)) ->
  exists st, build_run env (build_init env) sched = Ok st /\ length (bs_graph st) = sp_n (be_sp env) /\
    forall x l y, nth_error (bs_graph st) x = Some l -> In y l -> y < sp_n (be_sp env) /\ y <> x.
Proof. exact build_edges_always. Qed.
Print Assumptions C16_build_edges.

(** C17.  At every moment of every schedule a list has at most ceil(1.3 R) + R
    entries. *)
Theorem C17_build_degree : forall env sched, sorts (be_sort env) -> build_input_ok env ->
  (forall i, In i sched -> i < sp_n (be_sp env)) ->
  exists st, build_run env (build_init env) sched = Ok st /\
    forall x l, nth_error (bs_graph st) x = Some l ->
      length l <= slack (bp_R (be_prm env)) + bp_R (be_prm env).
Proof. exact build_degree_always. Qed.
Print Assumptions C17_build_degree.

(** C16, C17.  After the cleanup loop, whatever order its iterations run in, edges
    are still valid and every list has at most R entries. *)
Theorem C17_final_degree : forall env sched st order, sorts (be_sort env) -> build_input_ok env ->
  (forall i, In i sched -> i < sp_n (be_sp env)) ->
  build_run env (build_init env) sched = Ok st ->
  Permutation order (seq 0 (sp_n (be_sp env))) ->
  exists g, cleanup env (bs_graph st) order = Ok g /\ length g = sp_n (be_sp env) /\
    forall x l, nth_error g x = Some l ->
      (forall y, In y l -> y < sp_n (be_sp env) /\ y <> x) /\ length l <= bp_R (be_prm env).
Proof. exact build_final. Qed.
Print Assumptions C17_final_degree.

(** C18.  A schedule that never picks a finished location has at most
    n ((n+1)(L+1) + 2R + 3) steps. *)
Theorem C18_build_terminates : forall env sched, sorts (be_sort env) -> build_input_ok env ->
  busy env (build_init env) sched ->
  length sched <= sp_n (be_sp env) *
    ((sp_n (be_sp env) + 1) * (bp_L (be_prm env) + 1) + 2 * bp_R (be_prm env) + 3).
Proof. exact build_terminates. Qed.
Print Assumptions C18_build_terminates.

(** C18.  From every state the build can reach, it can be completed. *)
Theorem C18_build_completes : forall env sched st, sorts (be_sort env) -> build_input_ok env ->
  (forall i, In i sched -> i < sp_n (be_sp env)) -> build_run env (build_init env) sched = Ok st ->
  exists sched' st', (forall i, In i sched' -> i < sp_n (be_sp env)) /\
    busy env st sched' /\ build_run env st sched' = Ok st' /\ all_done st' = true.
Proof. exact build_completes_run. Qed.
Print Assumptions C18_build_completes.

(** C18.  In every completed build each location appended its links exactly once. *)
Theorem C18_links_once : forall env sched st, sorts (be_sort env) -> build_input_ok env ->
  (forall i, In i sched -> i < sp_n (be_sp env)) ->
  build_run env (build_init env) sched = Ok st -> all_done st = true ->
  forall loc, loc < sp_n (be_sp env) -> links env (build_init env) sched loc = 1.
Proof. exact links_once. Qed.
Print Assumptions C18_links_once.

(** C18, locks made explicit.  No two threads ever hold the same lock unless both
    hold it shared. *)
Theorem C18_lock_exclusion : forall env sched st, sorts (be_sort env) -> build_input_ok env ->
  (forall i, In i sched -> i < sp_n (be_sp env)) -> lock_run env (lock_init env) sched = Ok st ->
  forall i j x wi wj, i <> j -> nth_error (ls_held st) i = Some (Some (x, wi)) ->
    nth_error (ls_held st) j = Some (Some (x, wj)) -> wi = false /\ wj = false.
Proof. exact lock_excl_run. Qed.
Print Assumptions C18_lock_exclusion.

(** C18.  No deadlock: after any schedule either everything is finished or some
    thread can move. *)
Theorem C18_no_deadlock : forall env sched, sorts (be_sort env) -> build_input_ok env ->
  (forall i, In i sched -> i < sp_n (be_sp env)) ->
  exists st, lock_run env (lock_init env) sched = Ok st /\
    (all_done (ls_b st) = true \/ exists i st', i < sp_n (be_sp env) /\ lock_step env st i = Ok (Some st')).
Proof. exact lock_progress_run. Qed.
Print Assumptions C18_no_deadlock.

(** C18.  No livelock: the number of steps at which some thread moves (acquires a
    lock, or works and releases) is bounded. *)
Theorem C18_lock_terminates : forall env sched, sorts (be_sort env) -> build_input_ok env ->
  moving env (lock_init env) sched ->
  length sched <= sp_n (be_sp env) *
    (2 * ((sp_n (be_sp env) + 1) * (bp_L (be_prm env) + 1) + 2 * bp_R (be_prm env) + 3) + 1).
Proof. exact lock_moving_bound. Qed.
Print Assumptions C18_lock_terminates.

(** Every state of the build with locks is a state of the build without them, so
    C16 and C17 hold of it too. *)
Theorem C18_lock_refines : forall env sched st, sorts (be_sort env) -> build_input_ok env ->
  (forall i, In i sched -> i < sp_n (be_sp env)) -> lock_run env (lock_init env) sched = Ok st ->
  exists sched', (forall i, In i sched' -> i < sp_n (be_sp env)) /\
    build_run env (build_init env) sched' = Ok (ls_b st).
Proof. exact lock_refines. Qed.
Print Assumptions C18_lock_refines.

(** ** A concrete data set ([line_env], BuildWitness.v): ten points on a line, entry
    point 4, L = 100, R = 64, C = 750, alpha = 1.2, one thread. *)
Example build_case_hyps : sorts (be_sort line_env) /\ build_input_ok line_env /\
  (forall i, In i (one_thread 10 30) -> i < 10).
Proof.
  split; [exact isort_sorts|]. split; [exact line_ok|].
  intros i H. unfold one_thread in H. apply in_concat in H. destruct H as [l [H1 H2]].
  apply in_map_iff in H1. destruct H1 as [j [<- H1]]. apply repeat_spec in H2. subst. apply in_seq in H1. lia.
Qed.

(** C19.  Lists that went through pruning have no duplicates. *)
Theorem C19_pruned_no_duplicates : forall sortf sp prm point cands, sorts sortf -> prune_input_ok sp cands ->
  NoDup (map nid cands) ->
  (exists out, prune_alpha sortf sp prm point cands [] = Ok out /\ NoDup out) /\
  (exists out, prune_topk sortf prm point cands [] = Ok out /\ NoDup out).
Proof. exact pruned_nodup. Qed.
Print Assumptions C19_pruned_no_duplicates.

(** C19.  So have lists re-pruned during reciprocal linking, even from a list with
    duplicates. *)
Theorem C19_repruned_no_duplicates : forall env des nbrs, sorts (be_sort env) -> build_input_ok env ->
  des < sp_n (be_sp env) -> (forall y, In y nbrs -> y < sp_n (be_sp env)) ->
  exists new, reprune env des nbrs = Ok new /\ NoDup new /\ ~ In des new /\ length new <= bp_R (be_prm env) /\
    forall y, In y new -> In y nbrs.
Proof. exact reprune_nodup. Qed.
Print Assumptions C19_repruned_no_duplicates.

(** C19.  But a finished build, run by one thread, can list a neighbour twice. *)
Theorem C19_no_duplicates_refuted :
  exists env sched st g, sorts (be_sort env) /\ build_input_ok env /\
    StronglySorted le sched /\
    build_run env (build_init env) sched = Ok st /\ all_done st = true /\
    cleanup env (bs_graph st) (seq 0 (sp_n (be_sp env))) = Ok g /\
    exists x l, nth_error g x = Some l /\ ~ NoDup l.
Proof. exact duplicate_witness. Qed.
Print Assumptions C19_no_duplicates_refuted.

(** C20.  One thread running the reciprocal phase of [loc] alone, from any reachable
    state: each target that already listed loc is unchanged, each with room gets loc
    appended, each full one gets the re-pruned list of its old neighbours and loc;
    nothing else changes. *)
Theorem C20_reciprocal_sequential : forall env sched st loc todo, sorts (be_sort env) -> build_input_ok env ->
  (forall i, In i sched -> i < sp_n (be_sp env)) ->
  build_run env (build_init env) sched = Ok st -> nth_error (bs_tasks st) loc = Some (TRecip todo) ->
  exists k st', build_run env st (repeat loc k) = Ok st' /\ nth_error (bs_tasks st') loc = Some (TRecip []) /\
    (forall des old, In des todo -> nth_error (bs_graph st) des = Some old ->
       exists new, nth_error (bs_graph st') des = Some new /\ recip_outcome env loc des old new) /\
    (forall x, ~ In x todo -> nth_error (bs_graph st') x = nth_error (bs_graph st) x).
Proof. exact recip_reachable. Qed.
Print Assumptions C20_reciprocal_sequential.

(** C20.  Re-pruning considers loc among the candidates, with its true distance. *)
Theorem C20_reprune_candidates : forall env des old loc new, sorts (be_sort env) -> build_input_ok env ->
  des < sp_n (be_sp env) -> loc < sp_n (be_sp env) -> loc <> des -> (forall y, In y old -> y < sp_n (be_sp env)) ->
  reprune env des (old ++ [loc]) = Ok new ->
  exists p, dummy_pool (be_sp env) des [] (old ++ [loc]) = Ok p /\ In loc (map nid p) /\ NoDup (map nid p) /\
    (forall y, In y (map nid p) <-> (In y old \/ y = loc) /\ y <> des) /\
    (forall z, In z p -> ndist z = sp_pd (be_sp env) des (nid z)) /\
    (if bp_rule (be_prm env) =? 0 then prune_alpha (be_sort env) (be_sp env) (be_prm env) des p []
     else prune_topk (be_sort env) (be_prm env) des p []) = Ok new.
Proof. exact reprune_candidates. Qed.
Print Assumptions C20_reprune_candidates.

(** C20.  With two threads (locations 0-63 and 64-127, each in order from its first) there is a schedule
    in which location [b] finishes with its reciprocal edge in place at s, and the
    next step of location [a] removes it although the list a writes was computed
    without ever seeing b. *)
Theorem C20_lost_update_refuted :
  exists env sched st st' s a b new, sorts (be_sort env) /\ build_input_ok env /\ sp_n (be_sp env) = 128 /\
    StronglySorted le (filter (fun i => i <? 64) sched) /\
    StronglySorted le (filter (fun i => 64 <=? i) sched) /\
    (forall i j, In j sched -> i < j -> i / 64 = j / 64 -> In i sched) /\
    (forall i, In i sched -> i < 128) /\
    build_run env (build_init env) sched = Ok st /\
    (forall i, In i sched -> i <> a -> exists t, nth_error (bs_tasks st) i = Some t /\ task_done t = true) /\
    nth_error (bs_tasks st) b = Some (TRecip []) /\
    (exists l, nth_error (bs_graph st) b = Some l /\ In s l) /\
    (exists l, nth_error (bs_graph st) s = Some l /\ In b l) /\
    nth_error (bs_tasks st) a = Some (TOver s new []) /\ ~ In b new /\
    build_step env st a = Ok st' /\
    (exists l, nth_error (bs_graph st') s = Some l /\ ~ In b l).
Proof. exact lost_update_witness. Qed.
Print Assumptions C20_lost_update_refuted.

(** C21.  With 1 to 9 points the first step of the loop divides by zero, whatever
    the parameters and whichever location runs first; from 10 on nothing undefined
    happens (C16_build_edges). *)
Theorem C21_vamana_small_data : forall env loc sched, 1 <= sp_n (be_sp env) < 10 -> loc < sp_n (be_sp env) ->
  build_run env (build_init env) (loc :: sched) = UB.
Proof. exact small_build. Qed.
Print Assumptions C21_vamana_small_data.

Example C21_case : build_run (mkEnv isort (mkSp 9 line_pd false (mkL [] true "0"%string)) (mkB 100 64 750 f12 0) 4 [])
  (build_init (mkEnv isort (mkSp 9 line_pd false (mkL [] true "0"%string)) (mkB 100 64 750 f12 0) 4 [])) [0] = UB.
Proof. vm_compute. reflexivity. Qed.

(** C22.  The reported maximum degree is the longest list; the in-degrees printed
    are the numbers of listings. *)
Theorem C22_max_degree : forall g old, graph_ok (length g) g ->
  exists m ind, update_degree_stats true (length g) old g = Ok (m, ind) /\ max_length g m /\
    length ind = length g /\ forall x, x < length g -> nth_error ind x = Some (in_degree g x).
Proof. exact degree_stats_ok. Qed.
Print Assumptions C22_max_degree.

Example C22_case : update_degree_stats true 4 7 [[1; 2]; [2; 3; 0]; []; [2; 2]] = Ok (3, [1; 1; 4; 1]).
Proof. reflexivity. Qed.

(** C25.  The entry point is the first index of smallest distance to the centroid. *)
Theorem C25_entry_point : forall n ds, 1 <= n -> length ds = n -> (forall d, In d ds -> is_nan d = false) ->
  exists i, calculate_medoid n ds = Ok i /\ i < n /\ first_min ds i.
Proof. exact calculate_medoid_ok. Qed.
Print Assumptions C25_entry_point.

Example C25_case : calculate_medoid 5 (map f32_of_Z [7; 3; 9; 3; 4]%Z) = Ok 1.
Proof. vm_compute. reflexivity. Qed.

(** C26.  Whatever the order of the critical sections and the random numbers, an
    entry point of label x carries x or the universal label, and every label that
    some point carries has an entry point. *)
Theorem C26_label_entry_points : forall lc work, (forall x r, In (x, r) work -> length r = 25) ->
  exists st, label_medoids lc work (mkMS [] []) = Ok st /\
    (forall x id, medoid_of (ms_medoids st) x = Some id ->
       carries (pts_to_labels lc) id x \/
       exists u, universal_of lc = Some u /\ carries (pts_to_labels lc) id u) /\
    (forall x, In x (map fst work) -> (exists id, carries (pts_to_labels lc) id x) ->
       exists id, medoid_of (ms_medoids st) x = Some id).
Proof. exact label_medoids_final. Qed.
Print Assumptions C26_label_entry_points.

(** C26.  The entry point of a label is one of the points drawn for it among those that carry
    the label (or the universal one), and none of the points drawn serves fewer of the
    labels handled before. *)
Theorem C26_spread : forall lc before x draws id0, draws <> [] -> (forall y r, In (y, r) before -> r <> []) ->
  (carries (pts_to_labels lc) id0 x \/ exists u, universal_of lc = Some u /\ carries (pts_to_labels lc) id0 u) ->
  exists st st' pts p, label_medoids lc before (mkMS [] []) = Ok st /\ label_medoids lc (before ++ [(x, draws)]) (mkMS [] []) = Ok st' /\
    StronglySorted lt pts /\ (forall id, In id pts <-> carries (pts_to_labels lc) id x \/ exists u, universal_of lc = Some u /\ carries (pts_to_labels lc) id u) /\
    ms_medoids st' = (x, p) :: ms_medoids st /\
    (exists r, In r draws /\ nth_error pts (r mod length pts) = Some p) /\
    (forall r q, In r draws -> nth_error pts (r mod length pts) = Some q -> serves (ms_medoids st) p <= serves (ms_medoids st) q).
Proof. exact label_medoids_spread. Qed.
Print Assumptions C26_spread.

Example C26_spread_case : let lc := mkL [["a"; "b"]; ["a"; "b"; "c"]; ["c"]]%string false "0"%string in
  (do st <- label_medoids lc [("a", [0; 2]); ("b", [0; 1])]%string (mkMS [] []); Ok (ms_medoids st)) = Ok [("b", 1); ("a", 0)]%string /\
  (do st <- label_medoids lc [("a", [0; 2]); ("b", [0; 1]); ("c", [0; 2; 1])]%string (mkMS [] []); Ok (ms_medoids st)) = Ok [("c", 2); ("b", 1); ("a", 0)]%string.
Proof. split; vm_compute; reflexivity. Qed.

Open Scope string_scope.
Example C26_case :
  (do st <- label_medoids (mkL [["a"]; ["b"]; ["a"; "b"]; ["c"]] true "0")
     [("b", repeat 3 25); ("a", repeat 1 25); ("c", seq 0 25)] (mkMS [] []);
   Ok (map (medoid_of (ms_medoids st)) ["a"; "b"; "c"; "d"])) = Ok [Some 2; Some 2; Some 3; None].
Proof. vm_compute. reflexivity. Qed.
Close Scope string_scope.

(** C68.  A whole build, whatever the schedule, the random numbers and the order of
    the cleanup, yields a well-formed index (so all search theorems apply to it)
    with valid edges, degree at most R, the right maximum degree and entry point.
    [Fuel] is a schedule that stops before all locations are done. *)
Theorem C68_vamana_build : forall v, vinput_ok v ->
  (exists ix md, vamana_build v = Ok (ix, md) /\ index_ok ix /\
     ix_n ix = sp_n (vi_sp v) /\ ix_tags ix = vi_tags v /\ ix_labels ix = sp_labels (vi_sp v) /\
     first_min (vi_centroid v) (ix_start ix) /\ max_length (ix_graph ix) md /\ md <= bp_R (vi_prm v) /\
     forall x l, nth_error (ix_graph ix) x = Some l ->
       (forall y, In y l -> y < sp_n (vi_sp v) /\ y <> x) /\ length l <= bp_R (vi_prm v)) \/
  vamana_build v = Fuel.
Proof. exact vamana_build_ok. Qed.
Print Assumptions C68_vamana_build.

(** C68.  There is a completing schedule for every input. *)
Theorem C68_vamana_build_completes : forall v, vinput_ok v ->
  exists sched, vinput_ok (mkV (vi_sort v) (vi_sp v) (vi_prm v) (vi_tags v) (vi_centroid v) (vi_work v) sched (vi_order v)) /\
    vamana_build (mkV (vi_sort v) (vi_sp v) (vi_prm v) (vi_tags v) (vi_centroid v) (vi_work v) sched (vi_order v)) <> Fuel.
Proof. exact vamana_build_completes. Qed.
Print Assumptions C68_vamana_build_completes.

Definition line_input : vinput :=
  mkV isort line_space (mkB 100 64 750 f12 0) (seq 0 10) (map (fun i => line_pd i 4) (seq 0 10)) []
    (one_thread 10 30) (seq 0 10).
Example C68_case : exists ix, vamana_build line_input = Ok (ix, 6) /\ ix_start ix = 4 /\
  ix_graph ix = [[4; 1]; [0; 4; 2]; [1; 4; 3]; [4; 2]; [0; 1; 2; 3; 3; 5]; [4; 6]; [5; 7]; [6; 8]; [7; 9]; [8]].
Proof. eexists. vm_compute. auto. Qed.
