(** * One row of the table the search tools print: tests/search_vamana.cpp:113-176, tests/search_hnsw.cpp:112-169,
    tests/search_relng.cpp:112-170, tests/search_ivf.cpp:94-153.  The columns that measure time and the recall (CmdModel.v, StatsModel.v)
    are left out.  Formats are not modelled: the row is the floats given to the output stream. *)
From Coq Require Import NArith ZArith List Arith Bool Floats.SpecFloat.
From Verif Require Import Base Float32 DistModel LloydModel PoolModel GreedyModel SearchModel HnswModel FlatModel IvfModel StatsModel WorkModel.
Import ListNotations.

(** search_vamana.cpp:119-133: the parallel loop over the queries, in the order [order]; query [i] gets the address of its own
    element of [stats]. *)
Fixpoint stats_loop {A : Type} (search : nat -> counters -> res (A * counters)) (order : list nat) (stats : list (nat * nat)) : res (list (nat * nat)) :=
  match order with
  | [] => Ok stats
  | i :: rest =>
      do c <- rd stats i;
      do r <- search i (Some c);
      match snd r with
      | None => UB
      | Some c' => do stats' <- wr stats i c'; stats_loop search rest stats'
      end
  end.

(** The last four columns. *)
Record work_row : Type := mkWorkRow { mean_cmps : f32; mean_hops : f32; cmps_999 : f32; hops_999 : f32 }.

(** search_vamana.cpp:151-165: doubles in the statistics, floats in the table; [tc], [th] are the orders of the additions. *)
Definition row_of (sortd : list spec_float -> list spec_float) (tc th : red) (stats : list (nat * nat)) : res work_row :=
  let cmps := map (fun s => f64_of_nat (snd s)) stats in
  let hops := map (fun s => f64_of_nat (fst s)) stats in
  do mc <- get_mean_stats tc cmps;
  do mh <- get_mean_stats th hops;
  do pc <- get_percentile_stats sortd p999_f32 cmps;
  do ph <- get_percentile_stats sortd p999_f32 hops;
  Ok (mkWorkRow (f32_of_f64 mc) (f32_of_f64 mh) (f32_of_f64 pc) (f32_of_f64 ph)).

(** The statistics are new, hence zero, for every row (search_vamana.cpp:119, percentile_stats.h:20-33). *)
Definition work_columns {A : Type} (sortd : list spec_float -> list spec_float) (tc th : red) (search : nat -> counters -> res (A * counters)) (nq : nat) (order : list nat) : res work_row :=
  do stats <- stats_loop search order (repeat (0, 0) nq);
  row_of sortd tc th stats.

(** The searches of one row; the buffers were resized just before (search_vamana.cpp:116-117), so they hold zeros.
    [dist q] are the distances of query [q]. *)
Definition vamana_columns sortf sortd tc th (ix : gindex) (dist : nat -> nat -> f32) (nq L recall_at : nat) (filters : list label) (order : list nat) : res work_row :=
  work_columns sortd tc th (fun q c => vamana_search_counted sortf ix (dist q) L recall_at filters (repeat 0 recall_at) (repeat f32_zero recall_at) c) nq order.
Definition rng_columns sortf sortd tc th (ix : gindex) (dist : nat -> nat -> f32) (nq L recall_at : nat) (filters : list label) (order : list nat) : res work_row :=
  work_columns sortd tc th (fun q c => rng_search_counted sortf ix (dist q) L recall_at filters (repeat 0 recall_at) (repeat f32_zero recall_at) c) nq order.
Definition hnsw_columns sortf sortd tc th (levels : hnsw) (dist : nat -> nat -> f32) (nq L recall_at : nat) (filters : list label) (order : list nat) : res work_row :=
  work_columns sortd tc th (fun q c => hnsw_search_counted sortf levels (dist q) L recall_at filters (repeat 0 recall_at) (repeat f32_zero recall_at) c) nq order.
(** search_ivf.cpp:94-146. *)
Definition ivf_columns popf mbs sortd tc th (ix : ivf_index) (cdist dist : nat -> nat -> f32) (nq probe_width recall_at : nat) (filters : list label) (order : list nat) : res work_row :=
  work_columns sortd tc th (fun q c => ivf_search_counted popf mbs ix (cdist q) (dist q) probe_width recall_at filters (repeat 0 recall_at) (Some (repeat f32_zero recall_at)) c) nq order.
