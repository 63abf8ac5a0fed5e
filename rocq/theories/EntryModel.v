(** * Entry points and degree statistics.

    src/index.cpp:298-338, src/relative_ng.cpp:93-133, src/vamana.cpp:158-216,
    src/graph_index.cpp:306-362. *)
From Coq Require Import String List Arith Bool.
From Verif Require Import Base Float32 PoolModel GraphSpec GreedyModel SearchModel.
Import ListNotations.

(** src/index.cpp:326-333: the loop over i = 1 ... n-1. *)
Fixpoint argmin_loop (distances : list f32) (n i : nat) (min_idx : nat) (min_dist : f32) (fuel : nat) : res nat :=
  match fuel with
  | 0 => Ok min_idx
  | S fuel' =>
      do d <- rd distances i;
      if flt d min_dist then argmin_loop distances n (S i) i d fuel'
      else argmin_loop distances n (S i) min_idx min_dist fuel'
  end.

(** src/index.cpp:310-333 and src/relative_ng.cpp:105-128 (the same code).
    [distances] is the array of distances to the centroid filled by the parallel
    loop, one element per point; here they are arbitrary; MeanModel.v computes the
    centroid and the distances. *)
Definition calculate_medoid (n : nat) (distances : list f32) : res nat :=
  do d0 <- rd distances 0;
  argmin_loop distances n 1 0 d0 (n - 1).

(** ** Label entry points: src/vamana.cpp:158-216 *)

(** src/vamana.cpp:174-182: ids of the points carrying [x] or the universal label. *)
Fixpoint filtered_points (lc : label_ctx) (x : label) (i : nat) (lists : list (list label)) : list nat :=
  match lists with
  | [] => []
  | ls :: t =>
      if label_mem x ls || (use_universal_label lc && label_mem (universal_label lc) ls)
      then i :: filtered_points lc x (S i) t
      else filtered_points lc x (S i) t
  end.

(** std::unordered_map<_u32, _u32> _medoid_counts as an association list (first
    entry of a key counts). *)
Fixpoint count_of (m : list (nat * nat)) (k : nat) : option nat :=
  match m with
  | [] => None
  | (a, c) :: t => if a =? k then Some c else count_of t k
  end.

(** src/vamana.cpp:189-203: the 25 draws.  [rands] lists the values of rand(),
    [best] is best_medoid with its count; UINT_MAX is represented by [None] (the
    test [cnd == 0] makes the first draw win whatever it is). *)
Fixpoint draw_loop (pts : list nat) (rands : list nat) (cnd : nat) (best : nat) (best_cnt : option nat)
    (counts : list (nat * nat)) : res (nat * list (nat * nat)) :=
  match rands with
  | [] => Ok (best, counts)
  | r :: rest =>
      do cur <- rd pts (r mod length pts);
      let '(cnt, counts') :=
        match count_of counts cur with
        | None => (0, (cur, 0) :: counts)
        | Some c => (c, counts)
        end in
      if (match best_cnt with None => true | Some b => cnt <? b end) || (cnd =? 0)
      then draw_loop pts rest (S cnd) cur (Some cnt) counts'
      else draw_loop pts rest (S cnd) best best_cnt counts'
  end.

Record medoid_state : Type := mkMS { ms_medoids : list (label * nat); ms_counts : list (nat * nat) }.

(** src/vamana.cpp:174-208: the work for one label; everything after the scan is
    one critical section, so a schedule of the parallel loop is an order of the
    labels. *)
Definition label_medoid_step (lc : label_ctx) (x : label) (rands : list nat) (st : medoid_state) : res medoid_state :=
  match filtered_points lc x 0 (pts_to_labels lc) with
  | [] => Ok st
  | pts =>
      do bc <- draw_loop pts rands 0 0 None (ms_counts st);
      let (best, counts) := bc in
      let c := match count_of counts best with Some c => c | None => 0 end in
      Ok (mkMS ((x, best) :: ms_medoids st) ((best, S c) :: counts))
  end.

(** src/vamana.cpp:165-215: [work] is the labels in the order their critical
    sections run, each with its 25 random numbers. *)
Fixpoint label_medoids (lc : label_ctx) (work : list (label * list nat)) (st : medoid_state) : res medoid_state :=
  match work with
  | [] => Ok st
  | (x, rands) :: rest => do st' <- label_medoid_step lc x rands st; label_medoids lc rest st'
  end.

(** ** Degree statistics: src/graph_index.cpp:306-325 (the printout is in
    StatsModel).  [bump]: src/graph_index.cpp:323-325. *)
Fixpoint bump (l : list nat) (ind : list nat) : res (list nat) :=
  match l with
  | [] => Ok ind
  | x :: r => do c <- rd ind x; do ind' <- wr ind x (S c); bump r ind'
  end.

(** src/graph_index.cpp:318-326 *)
Fixpoint degree_loop (n : nat) (g : graph) (in_degrees : list nat) (max_degree : nat) : res (nat * list nat) :=
  match g with
  | [] => Ok (max_degree, in_degrees)
  | l :: t =>
      let m := if length l <? max_degree then max_degree else length l in
      do ind <- bump l in_degrees;
      degree_loop n t ind m
  end.

(** Returns the new _max_degree and the in-degree counts (those only printed). *)
Definition update_degree_stats (has_built : bool) (n : nat) (old_max : nat) (g : graph) : res (nat * list nat) :=
  if has_built then degree_loop n g (repeat 0 n) 0 else Ok (old_max, []).
