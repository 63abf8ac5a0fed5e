(** * Statistics printed by the library and the tools: include/percentile_stats.h,
    src/graph_index.cpp:305-363, include/recall_utils.h:203-211, tests/utils/vector_analysis.cpp:23-44,
    tests/search_*.cpp, tests/utils/calculate_recall.cpp.

    Printing itself (formats, widths) is not modelled: the results are the values handed to
    the output stream. *)
From Coq Require Import NArith ZArith List Arith Bool Floats.SpecFloat.
From Verif Require Import Base Bytes Float32 DistModel RecallModel LloydModel ConvertModel BinModel StreamModel GreedyModel EntryModel FusedModel NormModel TruthModel.
Import ListNotations.

(** The conversion of a floating value to an unsigned 64 bit integer: the integer part,
    undefined outside the range. *)
Definition to_u64 (x : spec_float) : res N :=
  match trunc x with
  | Some z => if ((0 <=? z) && (z <? 2 ^ 64))%Z then Ok (Z.to_N z) else UB
  | None => UB
  end.

(** include/percentile_stats.h:35-50.  [vals] are the values of the member function, one per
    query; percentile * len is a float product. *)
Definition get_percentile_stats (sortf : list spec_float -> list spec_float) (percentile : f32) (vals : list spec_float) : res spec_float :=
  do k <- to_u64 (fmul percentile (f32_of_Z (Z.of_nat (length vals))));
  rd (sortf vals) (N.to_nat k).

(** include/percentile_stats.h:52-60; [t] is the order of the additions. *)
Definition get_mean_stats (t : red) (vals : list spec_float) : res spec_float :=
  do avg <- red_eval f64_zero (fun x y => Ok (f64_add x y)) (fun i => rd vals i) t;
  Ok (f64_div avg (f64_of_nat (length vals))).

(** The constants 0.999 of the search tools (tests/search_lsh.cpp:142, 151): converted to
    float for get_percentile_stats, as a double for the latencies. *)
Definition p999_f32 : f32 := S754_finite false 16760439 (-24).
Definition p999_f64 : spec_float := S754_finite false 8998192055486251 (-53).

(** tests/search_*.cpp: latency_stats[(_u64) (0.999 * query_num)] of the sorted latencies. *)
Definition latency_999 (sortf : list spec_float -> list spec_float) (lat : list spec_float) : res spec_float :=
  do k <- to_u64 (f64_mul p999_f64 (f64_of_nat (length lat)));
  rd (sortf lat) (N.to_nat k).

(** (p / 100.0) * n as an index: src/graph_index.cpp:348, include/recall_utils.h:209,
    vector_analysis.cpp:39 (std::floor of a number that is not negative).  The release flags
    allow the division to become a product with 0.01 and the product to be regrouped. *)
Inductive pct_form : Type := Divided | Reciprocal | Regrouped.
Definition c001 : spec_float := S754_finite false 5764607523034235 (-59).
Definition pct_value (c : pct_form) (p n : nat) : spec_float :=
  match c with
  | Divided => f64_mul (f64_div (f64_of_nat p) (f64_of_nat 100)) (f64_of_nat n)
  | Reciprocal => f64_mul (f64_mul (f64_of_nat p) c001) (f64_of_nat n)
  | Regrouped => f64_mul (f64_of_nat p) (f64_mul c001 (f64_of_nat n))
  end.
Definition pct_index (c : pct_form) (p n : nat) : res N := to_u64 (pct_value c p n).

(** The table: the percentiles 0, [step], ... below 100, and the last element (reading
    before the beginning of an empty array is undefined). *)
Definition pct_points (step : nat) : list nat := filter (fun p => p mod step =? 0) (seq 0 100).
Definition pct_table {A : Type} (c : pct_form) (step : nat) (sorted : list A) : res (list A) :=
  do rows <- map_res (fun p => do k <- pct_index c p (length sorted); rd sorted (N.to_nat k)) (pct_points step);
  do last <- (if length sorted =? 0 then UB else rd sorted (length sorted - 1));
  Ok (rows ++ [last]).

(** src/graph_index.cpp:336-340. *)
Fixpoint count_zeros (l : list (nat * nat)) : nat :=
  match l with (_, 0) :: t => S (count_zeros t) | _ => 0 end.

(** src/graph_index.cpp:305-363: the maximum degree, the table of out-degrees and in-degrees,
    the percentage without incoming links, and the node with most. *)
Definition degree_report (c : pct_form) (sort_out : list nat -> list nat) (sort_in : list (nat * nat) -> list (nat * nat)) (g : graph)
  : res (nat * list nat * list nat * spec_float * nat) :=
  let n := length g in
  do r <- update_degree_stats true n 0 g;
  let ins := sort_in (combine (seq 0 n) (snd r)) in
  do outs_t <- pct_table c 10 (sort_out (map (@length nat) g));
  do ins_t <- pct_table c 10 (map snd ins);
  do top <- rd ins (n - 1);
  Ok (fst r, outs_t, ins_t, f64_div (f64_mul (f64_of_nat 100) (f64_of_nat (count_zeros ins))) (f64_of_nat n), fst top).

(** vector_analysis.cpp:23-44, option 1: the table of the sorted norms.  [f] is the order of
    the additions of a sum of squares. *)
Definition analyze_norm (c : pct_form) (k : ktype) (f : fred) (sortf : list f32 -> list f32) (g1 g2 : list N) (fl : file) : res (list f32) :=
  do r <- load_bin (kwidth k) g1 g2 fl;
  let '(npts, nd, data) := r in
  let n := N.to_nat npts in let d := N.to_nat nd in
  let rows := map (fun i => map (kval k) (firstn d (skipn (i * d) data))) (seq 0 n) in
  do norms <- map_res (fun x => do s <- sum_sq f x; Ok (fsqrt s)) rows;
  pct_table c 5 (sortf norms).

(** include/recall_utils.h:203-211: the table of the numbers of results in range.  The file
    format is load_range_truthset of TruthModel.v. *)
Definition range_report (c : pct_form) (sortf : list nat -> list nat) (lists : list (list N)) : res (list nat) :=
  pct_table c 5 (sortf (map (@length N) lists)).

(** tests/utils/calculate_recall.cpp: the percentage printed, [None] if the tool returns -1.
    [recall_at] is the third argument as an unsigned number. *)
Definition recall_tool (g g' : nat -> N) (truth results : file) (recall_at : N) : res (option f32) :=
  do gs <- load_truthset g truth;
  do our <- load_truthset g' results;
  let '(n, dim_gs, gold, gs_dist) := gs in
  let '(n', dim_or, ids, _) := our in
  if negb (n =? n')%N then Ok None
  else if ((dim_or <? recall_at) || (dim_gs <? recall_at))%N then Ok None
  else
    do hs <- recall_hits gold (option_map (map f32_of_bits) gs_dist) dim_gs ids dim_or recall_at (N.to_nat n) 0;
    Ok (Some (f32_of_f64 (recall_percent (N.of_nat (list_sum hs)) n recall_at))).
