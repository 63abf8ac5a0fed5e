(** * Vamana build with threads: src/vamana.cpp:219-337 and
    src/graph_index.cpp:235-303. *)
From Coq Require Import String List Arith Bool.
From Verif Require Import Base Float32 PoolModel GraphSpec GreedyModel SearchModel PruneModel.
Import ListNotations.

(** Everything the parallel loop reads and does not change. *)
Record benv : Type := mkEnv {
  be_sort : list neighbor -> list neighbor;  (* std::sort *)
  be_sp : space;
  be_prm : bparams;
  be_start : nat;                            (* _start_node *)
  be_medoids : list (label * nat)            (* _filter_to_medoid_id *)
}.

(** One iteration of the loop over [location], cut at the places where it touches
    the shared adjacency lists.
    - [TStart]: not started;
    - [TSearch]: inside greedy_search_to_fixed_point;
    - [TLink]: pruned_list computed, own links not yet appended;
    - [TRecip]: in add_reciprocal_edges, the targets still to be visited;
    - [TOver]: a target was found full, the re-pruned list has been computed from
      the copy and is about to overwrite the target's list.
    [TRecip []] is a finished iteration. *)
Inductive task : Type :=
| TStart
| TSearch (st : gstate)
| TLink (pruned : list nat)
| TRecip (todo : list nat)
| TOver (des : nat) (new : list nat) (todo : list nat).

Definition task_done (t : task) : bool := match t with TRecip [] => true | _ => false end.

(** src/vamana.cpp:270-284: labels used as filter for [location]. *)
Definition task_filters (env : benv) (loc : nat) : res (list label) :=
  if sp_filtered (be_sp env) then rd (pts_to_labels (sp_labels (be_sp env))) loc else Ok [].

(** src/vamana.cpp:272-281 and 149-150: start nodes of the search for [location]. *)
Definition task_init_ids (env : benv) (filters : list label) : list nat :=
  match filter_starts (be_medoids env) filters with
  | [] => [be_start env]
  | ids => ids
  end.

(** src/graph_index.cpp:273-284 (= src/vamana.cpp:308-319): the candidate pool made
    of an adjacency list, without repetitions and without the node itself. *)
Fixpoint dummy_pool (sp : space) (des : nat) (visited : list nat) (nbrs : list nat) : res (list neighbor) :=
  match nbrs with
  | [] => Ok []
  | c :: rest =>
      if negb (set_mem c visited) && negb (c =? des) then
        do d <- data_dist sp des c;
        do p <- dummy_pool sp des (c :: visited) rest;
        Ok (mkN c d true :: p)
      else dummy_pool sp des visited rest
  end.

(** src/graph_index.cpp:286-291 *)
Definition reprune (env : benv) (des : nat) (nbrs : list nat) : res (list nat) :=
  do p <- dummy_pool (be_sp env) des [] nbrs;
  if bp_rule (be_prm env) =? 0 then prune_alpha (be_sort env) (be_sp env) (be_prm env) des p []
  else prune_topk (be_sort env) (be_prm env) des p [].

(** The next step of the iteration for [loc] on the current adjacency lists.  Each
    step contains at most one locked section:
    - TStart (src/vamana.cpp:247-284): local; the progress test divides by
      _num_points / 10;
    - TSearch: one loop iteration of the search, reading one adjacency list under
      its lock (src/graph_index.cpp:88-91); or, when it is over, the local pruning
      (src/vamana.cpp:288);
    - TLink (src/vamana.cpp:293-297): append under the own lock; the [reserve] at
      291 (outside the lock) changes no list contents and is not modelled;
    - TRecip (src/graph_index.cpp:248-265): test and append under the target's
      lock; when the list is full, copy it, and prune the copy locally.  The test
      size < 1.3 * R in double arithmetic is 10 * size < 13 * R: the nearest double
      of 1.3 has relative error 3.4e-17, less than half an ulp, so the product is
      exact when 1.3 R is an integer and on the same side of every integer
      otherwise;
    - TOver (src/graph_index.cpp:293-299): overwrite under the target's lock. *)
Definition task_step (env : benv) (loc : nat) (g : graph) (t : task) : res (graph * task) :=
  let sp := be_sp env in
  let prm := be_prm env in
  match t with
  | TStart =>
      if sp_n sp / 10 =? 0 then UB
      else
        do fs <- task_filters env loc;
        do st0 <- greedy_init (be_sort env) (sp_n sp) (sp_pd sp loc) (bp_L prm) (task_init_ids env fs);
        Ok (g, TSearch st0)
  | TSearch st =>
      do fs <- task_filters env loc;
      if greedy_running st then
        do st' <- greedy_step (sp_n sp) (sp_pd sp loc) (passes_filter (sp_labels sp) fs) (bp_L prm) g st;
        Ok (g, TSearch st')
      else
        do pruned <- prune_alpha (be_sort env) sp prm loc (rev (g_exp st)) [];
        Ok (g, TLink pruned)
  | TLink pruned =>
      do old <- rd g loc;
      do g' <- wr g loc (old ++ pruned);
      Ok (g', TRecip pruned)
  | TRecip [] => Ok (g, TRecip [])
  | TRecip (des :: todo) =>
      do pool <- rd g des;
      if set_mem loc pool then Ok (g, TRecip todo)
      else if 10 * length pool <? 13 * bp_R prm then
        do g' <- wr g des (pool ++ [loc]);
        Ok (g', TRecip todo)
      else
        do new <- reprune env des (pool ++ [loc]);
        Ok (g, TOver des new todo)
  | TOver des new todo =>
      do g' <- wr g des new;
      Ok (g', TRecip todo)
  end.

(** Shared adjacency lists and one task per location.  Any number of threads and
    any assignment of locations to threads (schedule(static, 64)) gives some
    interleaving of the tasks' steps; a schedule is the sequence of locations whose
    task makes the next step (a finished task's step changes nothing). *)
Record bstate : Type := mkBS { bs_graph : graph; bs_tasks : list task }.

Definition build_step (env : benv) (st : bstate) (loc : nat) : res bstate :=
  do t <- rd (bs_tasks st) loc;
  do gt <- task_step env loc (bs_graph st) t;
  let (g', t') := gt in
  do ts <- wr (bs_tasks st) loc t';
  Ok (mkBS g' ts).

Fixpoint build_run (env : benv) (st : bstate) (sched : list nat) : res bstate :=
  match sched with
  | [] => Ok st
  | loc :: rest => do st' <- build_step env st loc; build_run env st' rest
  end.

(** src/vamana.cpp:237: a fresh index has n empty lists. *)
Definition build_init (env : benv) : bstate :=
  mkBS (repeat [] (sp_n (be_sp env))) (repeat TStart (sp_n (be_sp env))).

Definition all_done (st : bstate) : bool := forallb task_done (bs_tasks st).

(** src/vamana.cpp:303-328: final cleanup of one node (reads and writes only that
    node's list). *)
Definition cleanup_node (env : benv) (g : graph) (node : nat) : res graph :=
  do nbrs <- rd g node;
  if bp_R (be_prm env) <? length nbrs then
    do p <- dummy_pool (be_sp env) node [] nbrs;
    do new <- prune_alpha (be_sort env) (be_sp env) (be_prm env) node p [];
    wr g node new
  else Ok g.

(** The cleanup loop, nodes taken in the order given. *)
Fixpoint cleanup (env : benv) (g : graph) (nodes : list nat) : res graph :=
  match nodes with
  | [] => Ok g
  | x :: rest => do g' <- cleanup_node env g x; cleanup env g' rest
  end.

(** What the theorems assume about the inputs of build: at least ten points (C21),
    L >= 1, no NaN distance, valid start node and label entry points, labels for
    every point. *)
Record build_input_ok (env : benv) : Prop := {
  bi_n : 10 <= sp_n (be_sp env);
  bi_L : 1 <= bp_L (be_prm env);
  bi_nan : forall a b, is_nan (sp_pd (be_sp env) a b) = false;
  bi_start : be_start env < sp_n (be_sp env);
  bi_med : forall x id, In (x, id) (be_medoids env) -> id < sp_n (be_sp env);
  bi_lab : sp_filtered (be_sp env) = true -> length (pts_to_labels (sp_labels (be_sp env))) = sp_n (be_sp env)
}.

(** ** Locks

    The same build with the per-node std::shared_timed_mutex made explicit.  A step
    that touches adjacency list x first acquires lock x (shared for the search,
    exclusive otherwise), executes, and releases it. *)

(** The lock the next step of a task needs: (node, exclusive?).
    src/graph_index.cpp:89, src/vamana.cpp:294, src/graph_index.cpp:249, 294. *)
Definition lock_need (loc : nat) (t : task) : option (nat * bool) :=
  match t with
  | TStart => None
  | TSearch st =>
      if greedy_running st then
        match nth_error (p_arr (g_pool st)) (g_k st) with
        | Some x => if nflag x then Some (nid x, false) else None
        | None => None
        end
      else None
  | TLink _ => Some (loc, true)
  | TRecip [] => None
  | TRecip (des :: _) => Some (des, true)
  | TOver des _ _ => Some (des, true)
  end.

(** [ls_held] : the lock each location's thread holds at the moment. *)
Record lstate : Type := mkLS { ls_b : bstate; ls_held : list (option (nat * bool)) }.

(** Two lock holds on the same node exclude each other unless both are shared. *)
Definition lock_conflict (a b : nat * bool) : bool :=
  (fst a =? fst b) && (snd a || snd b).

Definition lock_free (held : list (option (nat * bool))) (want : nat * bool) : bool :=
  forallb (fun h => match h with None => true | Some x => negb (lock_conflict x want) end) held.

(** [None]: the thread is blocked (or finished) and nothing happens. *)
Definition lock_step (env : benv) (st : lstate) (loc : nat) : res (option lstate) :=
  do t <- rd (bs_tasks (ls_b st)) loc;
  do h <- rd (ls_held st) loc;
  if task_done t then Ok None
  else
    match h, lock_need loc t with
    | None, Some want =>
        if lock_free (ls_held st) want then
          do held <- wr (ls_held st) loc (Some want);
          Ok (Some (mkLS (ls_b st) held))
        else Ok None
    | _, _ =>
        do b <- build_step env (ls_b st) loc;
        do held <- wr (ls_held st) loc None;
        Ok (Some (mkLS b held))
    end.

Fixpoint lock_run (env : benv) (st : lstate) (sched : list nat) : res lstate :=
  match sched with
  | [] => Ok st
  | loc :: rest =>
      do o <- lock_step env st loc;
      lock_run env (match o with Some st' => st' | None => st end) rest
  end.

Definition lock_init (env : benv) : lstate := mkLS (build_init env) (repeat None (sp_n (be_sp env))).
