(** * HNSW: src/hnsw.cpp. *)
From Coq Require Import String List Arith Bool.
From Verif Require Import Base Float32 PoolModel GraphSpec GreedyModel SearchModel PruneModel BuildModel EntryModel.
Import ListNotations.

(** An HNSW object is the list of its levels, outermost first: [_cur_level_number]
    is the number of levels below, [_inner_index] the rest of the list.  The tag map
    of an inner level holds the ids its points have in the level above
    (src/hnsw.cpp:141-143 passes inner_level_pts as list_of_tags). *)
Definition hnsw := list gindex.

(** Distance of the query to the points of the inner level: its vectors are copies of
    the sampled vectors of the level above (src/hnsw.cpp:137-142). *)
Definition inner_dist (inn : gindex) (dist : nat -> f32) : nat -> f32 :=
  fun i => dist (nth i (ix_tags inn) 0).

(** src/hnsw.cpp:268-301.  [search_filters] is not used.  For an inner level the
    buffers are init_ids and tmp_dists, L slots each, and init_ids is cut to the
    returned count (280-285). *)
Fixpoint hnsw_search (sortf : list neighbor -> list neighbor) (levels : hnsw) (dist : nat -> f32)
    (L res_count : nat) (filters : list label) (indices : list nat) (distances : list f32)
  : res (list nat * list f32 * nat) :=
  match levels with
  | [] => UB
  | ix :: inner =>
      do init <- match inner with
                 | [] => Ok [ix_start ix]
                 | inn :: _ =>
                     do r <- hnsw_search sortf inner (inner_dist inn dist) L res_count []
                               (repeat 0 L) (repeat f32_zero L);
                     let '(ids, _, cnt) := r in Ok (firstn cnt ids)
                 end;
      do st <- greedy_search sortf (ix_n ix) dist (passes_filter (ix_labels ix) []) L (ix_graph ix) init;
      do bufs <- report (ix_tags ix) (p_arr (g_pool st)) 0 res_count indices distances;
      Ok (bufs, min res_count (p_cur (g_pool st)))
  end.

(** ** Build of one level: src/hnsw.cpp:147-258 *)

(** Data, parameters and start node of the level, and its finished inner levels. *)
Record henv : Type := mkH { he_b : benv; he_inner : hnsw }.

(** src/hnsw.cpp:192-201: start nodes of the search for [loc]. *)
Definition h_init_ids (env : henv) (loc : nat) : res (list nat) :=
  match he_inner env with
  | [] => Ok [be_start (he_b env)]
  | inn :: _ =>
      let L := bp_L (be_prm (he_b env)) in
      do r <- hnsw_search (be_sort (he_b env)) (he_inner env) (inner_dist inn (sp_pd (be_sp (he_b env)) loc))
                L L [] (repeat 0 L) (repeat f32_zero L);
      let '(ids, _, cnt) := r in Ok (firstn cnt ids)
  end.

(** src/hnsw.cpp:208-213: pruning of best_L_nodes, all L + 1 slots of it. *)
Definition h_prune (env : henv) (loc : nat) (st : gstate) : res (list nat) :=
  let b := he_b env in
  if bp_rule (be_prm b) =? 0 then prune_alpha (be_sort b) (be_sp b) (be_prm b) loc (p_arr (g_pool st)) []
  else prune_topk (be_sort b) (be_prm b) loc (p_arr (g_pool st)) [].

(** One step of the iteration for [loc]: src/hnsw.cpp:171-226.  The states and the
    steps after pruning are those of the Vamana build (BuildModel.task_step): append
    of the own links, add_reciprocal_edges.  The search of the inner level touches
    nothing that changes and is taken as one step. *)
Definition h_task_step (env : henv) (loc : nat) (g : graph) (t : task) : res (graph * task) :=
  let sp := be_sp (he_b env) in
  let prm := be_prm (he_b env) in
  match t with
  | TStart =>
      if sp_n sp / 10 =? 0 then UB
      else
        do ids <- h_init_ids env loc;
        do st0 <- greedy_init (be_sort (he_b env)) (sp_n sp) (sp_pd sp loc) (bp_L prm) ids;
        Ok (g, TSearch st0)
  | TSearch st =>
      if greedy_running st then
        do st' <- greedy_step (sp_n sp) (sp_pd sp loc) (passes_filter (sp_labels sp) []) (bp_L prm) g st;
        Ok (g, TSearch st')
      else
        do pruned <- h_prune env loc st;
        Ok (g, TLink pruned)
  | _ => task_step (he_b env) loc g t
  end.

Definition h_step (env : henv) (st : bstate) (loc : nat) : res bstate :=
  do t <- rd (bs_tasks st) loc;
  do gt <- h_task_step env loc (bs_graph st) t;
  let (g', t') := gt in
  do ts <- wr (bs_tasks st) loc t';
  Ok (mkBS g' ts).

(** Any interleaving, as in BuildModel. *)
Fixpoint h_run (env : henv) (st : bstate) (sched : list nat) : res bstate :=
  match sched with
  | [] => Ok st
  | loc :: rest => do st' <- h_step env st loc; h_run env st' rest
  end.

(** src/hnsw.cpp:229-257: final cleanup of one node; pool and rule are those of
    [reprune]. *)
Definition h_cleanup_node (env : henv) (g : graph) (node : nat) : res graph :=
  do nbrs <- rd g node;
  if bp_R (be_prm (he_b env)) <? length nbrs then
    do new <- reprune (he_b env) node nbrs;
    wr g node new
  else Ok g.

Fixpoint h_cleanup (env : henv) (g : graph) (nodes : list nat) : res graph :=
  match nodes with
  | [] => Ok g
  | x :: rest => do g' <- h_cleanup_node env g x; h_cleanup env g' rest
  end.

(** ** The whole build: src/hnsw.cpp:122-265 *)

(** What is outside the program's control at one level: which points rand() puts
    into the next inner level (unused at level 0), the distances to the centroid,
    the interleaving and the order of the cleanup loop. *)
Record hchoice : Type := mkHC {
  hc_sample : list nat;
  hc_centroid : list f32;
  hc_sched : list nat;
  hc_order : list nat
}.

(** The data of the inner level: src/hnsw.cpp:137-142.  HNSW has no labels
    (src/hnsw.cpp:16). *)
Definition sub_space (sp : space) (sample : list nat) : space :=
  mkSp (length sample) (fun a b => sp_pd sp (nth a sample 0) (nth b sample 0)) (sp_filtered sp) (sp_labels sp).

(** One choice per level, outermost first.  [Fuel]: a schedule ends too early.  The
    maximum degree is never computed (260 is commented out): it keeps the value 0 of
    include/graph_index.h. *)
Fixpoint hnsw_build (sortf : list neighbor -> list neighbor) (prm : bparams) (sp : space) (tags : list nat)
    (cs : list hchoice) : res hnsw :=
  match cs with
  | [] => UB
  | c :: rest =>
      do inner <- match rest with
                  | [] => Ok []
                  | _ :: _ => hnsw_build sortf prm (sub_space sp (hc_sample c)) (hc_sample c) rest
                  end;
      do s <- calculate_medoid (sp_n sp) (hc_centroid c);
      let env := mkH (mkEnv sortf sp prm s []) inner in
      do st <- h_run env (build_init (he_b env)) (hc_sched c);
      if all_done st then
        do g <- h_cleanup env (bs_graph st) (hc_order c);
        Ok (mkI (sp_n sp) tags (sp_labels sp) [] s g :: inner)
      else Fuel
  end.

Definition hnsw_max_degree : nat := 0.
