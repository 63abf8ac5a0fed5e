(** * Search entry points of the graph indices. *)
From Coq Require Import String List Arith Bool.
From Verif Require Import Base Float32 PoolModel GraphSpec GreedyModel.
Import ListNotations.

(** src/index.cpp:87-101: the tag map built by the constructor. *)
Definition make_tags (n : nat) (list_of_tags : list nat) : res (list nat) :=
  if negb (length list_of_tags =? n) && negb (length list_of_tags =? 0) then Throw
  else if negb (length list_of_tags =? 0) then Ok list_of_tags
  else Ok (seq 0 n).

(** src/vamana.cpp:362-367 (= src/relative_ng.cpp:224-229, src/hnsw.cpp:294-299):
    the loop that fills the caller's buffers, from slot [i] on, [cnt] slots to go.
    [arr] is top_candidate_list. *)
Fixpoint report (tags : list nat) (arr : list neighbor) (i cnt : nat)
    (indices : list nat) (distances : list f32) : res (list nat * list f32) :=
  match cnt with
  | O => Ok (indices, distances)
  | S cnt' =>
      do x <- rd arr i;
      do t <- rd tags (nid x);
      do indices' <- wr indices i t;
      do x2 <- rd arr i;
      do distances' <- wr distances i (ndist x2);
      report tags arr (S i) cnt' indices' distances'
  end.

(** std::unordered_map<label, _u32> _filter_to_medoid_id (include/vamana.h) as
    an association list. *)
Fixpoint medoid_of (m : list (label * nat)) (x : label) : option nat :=
  match m with
  | [] => None
  | (y, id) :: t => if String.eqb x y then Some id else medoid_of t x
  end.

(** src/vamana.cpp:349-352: start nodes of a filtered search. *)
Fixpoint filter_starts (m : list (label * nat)) (filters : list label) : list nat :=
  match filters with
  | [] => []
  | x :: t => match medoid_of m x with
              | Some id => id :: filter_starts m t
              | None => filter_starts m t
              end
  end.

(** The loaded or built state a search reads. *)
Record gindex : Type := mkI {
  ix_n : nat;                        (* _num_points *)
  ix_tags : list nat;                (* _tag_map *)
  ix_labels : label_ctx;             (* _pts_to_labels etc. *)
  ix_medoids : list (label * nat);   (* _filter_to_medoid_id *)
  ix_start : nat;                    (* _start_node *)
  ix_graph : graph                   (* _out_nbrs *)
}.

(** What a built index satisfies (C16, C26): at least one point, valid edges, one
    tag per point, valid entry points. *)
Definition index_ok (ix : gindex) : Prop :=
  1 <= ix_n ix /\ graph_ok (ix_n ix) (ix_graph ix) /\ length (ix_tags ix) = ix_n ix /\
  ix_start ix < ix_n ix /\ (forall x id, In (x, id) (ix_medoids ix) -> id < ix_n ix).

(** The filter test of src/index.cpp:245-262 as a boolean (it is defined for every
    point that has a label list). *)
Definition acc_of (lc : label_ctx) (filters : list label) (id : nat) : bool :=
  match passes_filter lc filters id with Ok b => b | _ => false end.

(** src/vamana.cpp:349-354 *)
Definition vamana_init_ids (ix : gindex) (filters : list label) : list nat :=
  match filters with [] => [ix_start ix] | _ => filter_starts (ix_medoids ix) filters end.

(** src/vamana.cpp:340-369: [dist] is the distance of the query to each point.
    Returns the buffers, the returned count and the final search state (for
    the statistics).  Buffers are the caller's memory: slots beyond their length
    are not theirs. *)
Definition vamana_search (sortf : list neighbor -> list neighbor) (ix : gindex) (dist : nat -> f32)
    (L res_count : nat) (filters : list label) (indices : list nat) (distances : list f32)
  : res (list nat * list f32 * nat) :=
  do st <- greedy_search sortf (ix_n ix) dist (passes_filter (ix_labels ix) filters) L
             (ix_graph ix) (vamana_init_ids ix filters);
  do bufs <- report (ix_tags ix) (p_arr (g_pool st)) 0 res_count indices distances;
  Ok (bufs, min res_count (p_cur (g_pool st))).

(** src/relative_ng.cpp:207-231: the [search_filters] argument is not used. *)
Definition rng_search (sortf : list neighbor -> list neighbor) (ix : gindex) (dist : nat -> f32)
    (L res_count : nat) (filters : list label) (indices : list nat) (distances : list f32)
  : res (list nat * list f32 * nat) :=
  do st <- greedy_search sortf (ix_n ix) dist (passes_filter (ix_labels ix) []) L
             (ix_graph ix) [ix_start ix];
  do bufs <- report (ix_tags ix) (p_arr (g_pool st)) 0 res_count indices distances;
  Ok (bufs, min res_count (p_cur (g_pool st))).
