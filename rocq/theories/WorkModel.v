(** * The counters of a search: QueryStats (include/percentile_stats.h:14-35).

    The fields n_hops and n_cmps are doubles; only unsigned counts are added to them, exactly as
    long as the sums stay below 2^53.  Here they are natural numbers. *)
From Coq Require Import NArith String List Arith Bool.
From Verif Require Import Base Float32 PoolModel GreedyModel SearchModel HnswModel FlatModel IvfModel LshModel.
Import ListNotations.

(** The object the caller passes; [None] is the null pointer.  Hops first. *)
Definition counters := option (nat * nat).

(** src/graph_index.cpp:111-114. *)
Definition add_counts (c : counters) (st : gstate) : counters :=
  match c with None => None | Some (h, m) => Some (h + g_hops st, m + p_cmps (g_pool st)) end.

(** src/vamana.cpp:340-369 with its [stats] argument. *)
Definition vamana_search_counted (sortf : list neighbor -> list neighbor) (ix : gindex) (dist : nat -> f32)
    (L res_count : nat) (filters : list label) (indices : list nat) (distances : list f32) (c : counters)
  : res (list nat * list f32 * nat * counters) :=
  do st <- greedy_search sortf (ix_n ix) dist (passes_filter (ix_labels ix) filters) L
             (ix_graph ix) (vamana_init_ids ix filters);
  let c' := add_counts c st in
  do bufs <- report (ix_tags ix) (p_arr (g_pool st)) 0 res_count indices distances;
  Ok (bufs, min res_count (p_cur (g_pool st)), c').

(** src/relative_ng.cpp:207-231 with its [stats] argument. *)
Definition rng_search_counted (sortf : list neighbor -> list neighbor) (ix : gindex) (dist : nat -> f32)
    (L res_count : nat) (filters : list label) (indices : list nat) (distances : list f32) (c : counters)
  : res (list nat * list f32 * nat * counters) :=
  do st <- greedy_search sortf (ix_n ix) dist (passes_filter (ix_labels ix) []) L
             (ix_graph ix) [ix_start ix];
  let c' := add_counts c st in
  do bufs <- report (ix_tags ix) (p_arr (g_pool st)) 0 res_count indices distances;
  Ok (bufs, min res_count (p_cur (g_pool st)), c').

(** src/hnsw.cpp:268-301 with its [stats] argument; the inner levels get the same object (285). *)
Fixpoint hnsw_search_counted (sortf : list neighbor -> list neighbor) (levels : hnsw) (dist : nat -> f32)
    (L res_count : nat) (filters : list label) (indices : list nat) (distances : list f32) (c : counters)
  : res (list nat * list f32 * nat * counters) :=
  match levels with
  | [] => UB
  | ix :: inner =>
      do ic <- match inner with
               | [] => Ok ([ix_start ix], c)
               | inn :: _ =>
                   do r <- hnsw_search_counted sortf inner (inner_dist inn dist) L res_count []
                             (repeat 0 L) (repeat f32_zero L) c;
                   let '(ids, _, cnt, c1) := r in Ok (firstn cnt ids, c1)
               end;
      let (init, c1) := ic in
      do st <- greedy_search sortf (ix_n ix) dist (passes_filter (ix_labels ix) []) L (ix_graph ix) init;
      let c2 := add_counts c1 st in
      do bufs <- report (ix_tags ix) (p_arr (g_pool st)) 0 res_count indices distances;
      Ok (bufs, min res_count (p_cur (g_pool st)), c2)
  end.

(** src/ivf.cpp:164 and src/lsh.cpp:184: only n_cmps changes; the count itself is in the result of
    FlatModel.flat_search. *)
Definition add_cmps (c : counters) (cmps : nat) : counters :=
  match c with None => None | Some (h, m) => Some (h, m + cmps) end.

(** src/ivf.cpp:126-169 with its [stats] argument. *)
Definition ivf_search_counted (popf : list (nat * f32) -> list (nat * f32)) (mbs : nat) (ix : ivf_index)
    (cdist dist : nat -> f32) (probe_width res_count : nat) (filters : list label)
    (indices : list nat) (distances : option (list f32)) (c : counters) : res (list nat * option (list f32) * nat * counters) :=
  do r <- ivf_search popf mbs ix cdist dist probe_width res_count filters indices distances;
  let '(bufs, cnt, cmps) := r in Ok (bufs, cnt, add_cmps c cmps).

(** src/lsh.cpp:165-188 with its [stats] argument. *)
Definition lsh_search_counted (dotf : list N -> list f32 -> f32) (ix : lsh_index) (q : list f32) (dist : nat -> f32)
    (res_count : nat) (filters : list label) (indices : list nat) (distances : option (list f32)) (c : counters)
  : res (list nat * option (list f32) * nat * counters * lsh_index) :=
  do r <- lsh_search dotf ix q dist res_count filters indices distances;
  let '(bufs, cnt, cmps, ix') := r in Ok (bufs, cnt, add_cmps c cmps, ix').
