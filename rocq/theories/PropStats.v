(** * Theorems: the statistics printed (C97).

    [percentile_rank], [ranked], [percentile_table], [sorts_as], [holds_counts], [norm_of] are
    defined in StatsSpec; [real] is the real number a float stands for. *)
From Coq Require Import NArith ZArith Reals List Arith Bool Floats.SpecFloat Sorting.Permutation.
From Verif Require Import Base Bytes Float32 DivFacts DistSpec DistModel GraphSpec EntrySpec BinSpec RecallModel RecallSpec TruthSpec LloydModel GreedyModel FusedModel RealSpec NormModel NormSpec NormCases StatsModel StatsSpec StatsProofs StatsProofs2 StatsProofs3 StatsProofs4 StatsCases.
Import ListNotations.

(** C97.  What is printed after building a graph: the maximum degree, percentiles of the
    out-degrees and in-degrees, the share of nodes nobody links to, the node most linked to. *)
Theorem C97_degree_report : forall c sort_out sort_in g, graph_ok (length g) g -> 1 <= length g -> (Z.of_nat (length g) <= 2 ^ 32)%Z ->
  (forall l, sorts_as Nat.ltb sort_out l) -> (forall l, sorts_as (fun a b => snd a <? snd b) sort_in l) ->
  exists m outs ins unreachable top, degree_report c sort_out sort_in g = Ok (m, outs, ins, unreachable, top) /\
    max_length g m /\ percentile_table Nat.ltb 10 (map (@length nat) g) outs /\ percentile_table Nat.ltb 10 (map (in_degree g) (seq 0 (length g))) ins /\
    (let u := INR (length (filter (fun x => in_degree g x =? 0) (seq 0 (length g)))) in
     finite unreachable /\ (Rabs (real unreachable - 100 * u / INR (length g)) <= powerRZ 2 (-53) * (100 * u / INR (length g)))%R) /\
    top < length g /\ (forall x, x < length g -> in_degree g x <= in_degree g top).
Proof. exact degree_report_ok. Qed.
Print Assumptions C97_degree_report.

Example C97_degree_report_applies : graph_ok (length deg_g) deg_g /\ (forall l, sorts_as Nat.ltb (isort Nat.ltb) l) /\ (forall l, sorts_as (fun a b => snd a <? snd b) (isort by_count) l) /\
  degree_report Divided (isort Nat.ltb) (isort by_count) deg_g = Ok (2, [1; 1; 1; 1; 1; 1; 1; 1; 2; 2; 2], [0; 0; 0; 0; 0; 2; 2; 2; 3; 3; 3], f64_of_nat 50, 2).
Proof. exact (conj deg_ok (conj nat_sorts (conj pair_sorts deg_runs))). Qed.

(** For an empty graph it reads before the arrays. *)
Theorem C97_degree_report_empty_refuted : forall c so si, (forall l, Permutation l (so l)) -> degree_report c so si [] = UB.
Proof. exact degree_report_empty. Qed.
Print Assumptions C97_degree_report_empty_refuted.

(** C97.  The numbers of results in range of a range ground truth. *)
Theorem C97_range_report : forall c sortf (lists : list (list N)), 1 <= length lists -> (Z.of_nat (length lists) <= 2 ^ 32)%Z -> (forall l, sorts_as Nat.ltb sortf l) ->
  exists table, range_report c sortf lists = Ok table /\ percentile_table Nat.ltb 5 (map (@length N) lists) table.
Proof. exact range_report_ok. Qed.
Print Assumptions C97_range_report.

Example C97_range_report_case : range_report Reciprocal (isort Nat.ltb) [[1; 2]; []; [3]]%N = Ok (repeat 0 7 ++ repeat 1 7 ++ repeat 2 7).
Proof. vm_compute. reflexivity. Qed.

(** C97.  The norms of the vectors of a file. *)
Theorem C97_norms : forall c k f sortf g1 g2 n d vs, (forall l, (forall x, In x l -> finite x /\ f32_valid x = true) -> sorts_as flt sortf l) ->
  length g1 = 4 -> length g2 = 4 -> length vs = n -> 1 <= n -> (N.of_nat n < 2 ^ 32)%N -> (Z.of_nat d <= 2 ^ 20)%Z ->
  Permutation (fred_items f) (seq 0 d) -> (forall v, In v vs -> length v = d /\ Forall (elem_ok k) v /\ (elem_sq k v <= powerRZ 2 125)%R) ->
  exists norms table, analyze_norm c k f sortf g1 g2 (Some (bin_file (kwidth k) (N.of_nat n) (N.of_nat d) (concat vs))) = Ok table /\
    Forall2 (norm_of k d) vs norms /\ percentile_table flt 5 norms table.
Proof. exact analyze_ok. Qed.
Print Assumptions C97_norms.

Example C97_norms_sort : forall l, (forall x, In x l -> finite x /\ f32_valid x = true) -> sorts_as flt (isort flt) l.
Proof. exact float_sorts. Qed.
Example C97_norms_file : Permutation (fred_items case_f) (seq 0 2) /\
  (forall v, In v case_vs -> length v = 2 /\ Forall (elem_ok KFloat) v /\ (powerRZ 2 (-99) <= elem_sq KFloat v <= powerRZ 2 125)%R) /\
  map (elem_sq KFloat) case_vs = [25; 1; 8]%R.
Proof. exact case_hyps. Qed.

(** C97.  get_percentile_stats. *)
Theorem C97_percentile : forall sortf p vals, sorts_as SFltb sortf vals -> f32_valid p = true -> finite p -> (0 <= real p <= 1 - powerRZ 2 (-22))%R ->
  1 <= length vals -> (Z.of_nat (length vals) < 2 ^ 63)%Z ->
  exists v k, get_percentile_stats sortf p vals = Ok v /\ ranked SFltb vals v k /\ k < length vals /\
    (Rabs (INR k - real p * INR (length vals)) <= 1 + powerRZ 2 (-22) * INR (length vals))%R.
Proof. exact percentile_ok. Qed.
Print Assumptions C97_percentile.

(** The percentile the tools ask for is 0.999. *)
Theorem C97_percentile_999 : f32_valid p999_f32 = true /\ finite p999_f32 /\ (0 <= real p999_f32 <= 1 - powerRZ 2 (-22))%R /\ (Rabs (real p999_f32 - 0.999) <= powerRZ 2 (-24))%R.
Proof. exact p999_f32_real. Qed.
Print Assumptions C97_percentile_999.

(** The percentile 1 reads past the end, any percentile of no query does. *)
Theorem C97_percentile_one_refuted : forall sortf vals, (forall l, Permutation l (sortf l)) -> (1 <= Z.of_nat (length vals) <= 2 ^ 24)%Z -> get_percentile_stats sortf f32_one vals = UB.
Proof. exact percentile_one. Qed.
Print Assumptions C97_percentile_one_refuted.
Theorem C97_percentile_empty_refuted : forall sortf p, (forall l, Permutation l (sortf l)) -> get_percentile_stats sortf p [] = UB.
Proof. exact percentile_empty. Qed.
Print Assumptions C97_percentile_empty_refuted.

(** C97.  The latencies of the search tools. *)
Theorem C97_latency : forall sortf lat, sorts_as SFltb sortf lat -> 1 <= length lat -> (Z.of_nat (length lat) <= 2 ^ 32)%Z ->
  exists v k, latency_999 sortf lat = Ok v /\ ranked SFltb lat v k /\ 1000 * k <= 999 * length lat <= 1000 * k + 1000.
Proof. exact latency_ok. Qed.
Print Assumptions C97_latency.

(** C97.  get_mean_stats of counters, the additions in any order. *)
Theorem C97_mean : forall t vals ks, holds_counts vals ks -> Permutation (red_items t) (seq 0 (length vals)) -> 1 <= length vals -> (Z.of_nat (length vals) <= 2 ^ 32)%Z ->
  (Z.of_nat (list_sum ks) <= 2 ^ 53)%Z ->
  exists r, get_mean_stats t vals = Ok r /\ finite r /\ (Rabs (real r - INR (list_sum ks) / INR (length vals)) <= powerRZ 2 (-53) * (INR (list_sum ks) / INR (length vals)))%R.
Proof. exact mean_ok. Qed.
Print Assumptions C97_mean.
Theorem C97_mean_empty_refuted : get_mean_stats RZero [] = Ok S754_nan.
Proof. exact mean_empty. Qed.
Print Assumptions C97_mean_empty_refuted.

Example C97_values_case : sorts_as SFltb (isort SFltb) lat3 /\ holds_counts lat3 [3; 1; 2] /\ latency_999 (isort SFltb) lat3 = Ok (f64_of_nat 3) /\ get_percentile_stats (isort SFltb) p999_f32 lat3 = Ok (f64_of_nat 3) /\
  get_percentile_stats (isort SFltb) (S754_finite false 8388608 (-24)) lat3 = Ok (f64_of_nat 2) /\ get_mean_stats (RAdd (RItem 2) (RAdd (RItem 0) (RItem 1))) lat3 = Ok (f64_of_nat 2).
Proof. exact (conj lat3_sorts (conj lat3_counts lat3_runs)). Qed.

(** C97.  The tool calculate_recall prints the share of the true neighbours among the
    results, as C50 counts them. *)
Theorem C97_recall_tool : forall g g' n dg gold gd dr ids rd k, truth_ok n dg gold gd -> truth_ok n dr ids rd -> (1 <= n)%N -> (1 <= k)%N -> (k <= dg)%N -> (k <= dr)%N -> (n * k <= 2 ^ 53)%N ->
  match gd with Some l => forall x, In x l -> is_nan (f32_of_bits x) = false | None => True end ->
  exists hs v, recall_tool g g' (Some (truth_file n dg gold gd)) (Some (truth_file n dr ids rd)) k = Ok (Some v) /\ length hs = N.to_nat n /\
    (forall j h, nth_error hs j = Some h -> exists tb, truth_taken (option_map (map f32_of_bits) gd) dg k (N.of_nat j) tb /\ common (prefix gold dg (N.of_nat j) tb) (prefix ids dr (N.of_nat j) k) h) /\
    (let exact := (100 * INR (list_sum hs) / (IZR (Z.of_N n) * IZR (Z.of_N k)))%R in finite v /\ (Rabs (real v - exact) <= powerRZ 2 (-23) * exact)%R).
Proof. exact recall_tool_ok. Qed.
Print Assumptions C97_recall_tool.

Example C97_recall_tool_case : truth_ok 2 2 tool_gold None /\ truth_ok 2 2 tool_res None.
Proof. exact tool_truth. Qed.

(** It refuses files about different numbers of queries and a depth neither has. *)
Theorem C97_recall_tool_refuses : forall g g' n n' dg gold gd dr ids rd k, truth_ok n dg gold gd -> truth_ok n' dr ids rd -> n <> n' \/ (dg < k)%N \/ (dr < k)%N ->
  recall_tool g g' (Some (truth_file n dg gold gd)) (Some (truth_file n' dr ids rd)) k = Ok None.
Proof. exact recall_tool_refuses. Qed.
Print Assumptions C97_recall_tool_refuses.

(** It does not refuse the depth 0 (or a word in place of a number): with distances it
    reads past the end. *)
Theorem C97_recall_tool_zero_refuted : forall g g' n dg gold gd dr ids rd, truth_ok n dg gold (Some gd) -> truth_ok n dr ids rd -> (n * dg < 2 ^ 32 - 1)%N ->
  recall_tool g g' (Some (truth_file n dg gold (Some gd))) (Some (truth_file n dr ids rd)) 0 = UB.
Proof. exact recall_tool_zero. Qed.
Print Assumptions C97_recall_tool_zero_refuted.
