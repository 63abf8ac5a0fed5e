(** * Theorems: what the degree limit, the scan limit and alpha do to a pruned list (C126).

    [tagged], [no_two_equal], [begins], [with_R], [with_C], [with_alpha]: LimitSpec.v; [prune_input_ok]: PruneSpec.v.
    [sortf] is any function that sorts, [point] the node whose list is pruned. *)
From Coq Require Import ZArith String List Arith Bool.
From Verif Require Import Base Float32 PoolModel TopKSpec SortSpec PruneModel PruneSpec SortInst LimitSpec LimitProofs LimitCases.
Import ListNotations.

(** C126.  With a smaller degree limit the list is the beginning of the list for the larger one. *)
Theorem C126_degree : forall sortf sp prm point cands R out,
  sorts sortf -> prune_input_ok sp cands -> fgt f32_zero (bp_alpha prm) = false -> R <= bp_R prm ->
  prune_alpha sortf sp prm point cands [] = Ok out ->
  prune_alpha sortf sp (with_R prm R) point cands [] = Ok (firstn R out).
Proof. exact prune_alpha_R. Qed.
Print Assumptions C126_degree.

(** C126.  The same for the rule that keeps the nearest. *)
Theorem C126_degree_topk : forall sortf prm point cands R out, R <= bp_R prm ->
  prune_topk sortf prm point cands [] = Ok out ->
  prune_topk sortf (with_R prm R) point cands [] = Ok (firstn R out).
Proof. exact prune_topk_R. Qed.
Print Assumptions C126_degree_topk.

(** C126.  Scanning more candidates only appends to the list. *)
Theorem C126_scan : forall sortf sp prm point cands C out,
  sorts sortf -> prune_input_ok sp cands -> fgt f32_zero (bp_alpha prm) = false -> bp_C prm <= C ->
  prune_alpha sortf sp prm point cands [] = Ok out ->
  exists out', prune_alpha sortf sp (with_C prm C) point cands [] = Ok out' /\ begins out out'.
Proof. exact prune_alpha_C. Qed.
Print Assumptions C126_scan.

Example C126_limits_case : sorts isort /\ prune_input_ok field (tagged (gap 0) [4; 2; 1; 3]) /\
  fgt f32_zero f32_one = false /\
  prune_alpha isort field (limits 4 4 f32_one) 0 (tagged (gap 0) [4; 2; 1; 3]) [] = Ok [1; 3; 4] /\
  prune_alpha isort field (limits 2 4 f32_one) 0 (tagged (gap 0) [4; 2; 1; 3]) [] = Ok [1; 3] /\
  prune_alpha isort field (limits 4 2 f32_one) 0 (tagged (gap 0) [4; 2; 1; 3]) [] = Ok [1] /\
  prune_alpha isort field (limits 4 3 f32_one) 0 (tagged (gap 0) [4; 2; 1; 3]) [] = Ok [1; 3] /\
  prune_topk isort (limits 4 4 f32_one) 0 (tagged (gap 0) [4; 2; 1; 3]) [] = Ok [1; 2; 3; 4] /\
  prune_topk isort (limits 2 4 f32_one) 0 (tagged (gap 0) [4; 2; 1; 3]) [] = Ok [1; 2].
Proof. exact field_limits. Qed.

(** C126.  Candidates farther than all others only append to the list. *)
Theorem C126_farther : forall sortf sp prm point d ids more out,
  sorts sortf -> prune_input_ok sp (tagged d (ids ++ more)) -> fgt f32_zero (bp_alpha prm) = false ->
  NoDup (ids ++ more) -> no_two_equal d ids ->
  (forall i j, In i ids -> In j more -> flt (d i) (d j) = true) ->
  prune_alpha sortf sp prm point (tagged d ids) [] = Ok out ->
  exists out', prune_alpha sortf sp prm point (tagged d (ids ++ more)) [] = Ok out' /\ begins out out'.
Proof. exact farther. Qed.
Print Assumptions C126_farther.

Example C126_farther_case : 
  (forall i j, In i [1; 2] -> In j [3; 4] -> flt (gap 0 i) (gap 0 j) = true) /\
  prune_alpha isort field (limits 4 4 f32_one) 0 (tagged (gap 0) [1; 2]) [] = Ok [1] /\
  prune_alpha isort field (limits 4 4 f32_one) 0 (tagged (gap 0) ([1; 2] ++ [3; 4])) [] = Ok [1; 3; 4].
Proof. exact field_farther. Qed.

(** C126.  If all candidates are scanned, leaving out any of the rejected ones changes nothing. *)
Theorem C126_rejected : forall sortf sp prm point d ids sub out,
  sorts sortf -> prune_input_ok sp (tagged d ids) -> fgt f32_zero (bp_alpha prm) = false ->
  NoDup ids -> no_two_equal d ids -> length ids <= bp_C prm ->
  prune_alpha sortf sp prm point (tagged d ids) [] = Ok out ->
  NoDup sub -> (forall i, In i sub -> In i ids) -> (forall i, In i out -> In i sub) ->
  prune_alpha sortf sp prm point (tagged d sub) [] = Ok out.
Proof. exact thin. Qed.
Print Assumptions C126_rejected.

(** C126.  Pruning a pruned list once more changes nothing. *)
Theorem C126_again : forall sortf sp prm point d ids out,
  sorts sortf -> prune_input_ok sp (tagged d ids) -> fgt f32_zero (bp_alpha prm) = false ->
  NoDup ids -> no_two_equal d ids ->
  prune_alpha sortf sp prm point (tagged d ids) [] = Ok out ->
  prune_alpha sortf sp prm point (tagged d out) [] = Ok out.
Proof. exact again. Qed.
Print Assumptions C126_again.

Example C126_again_case : NoDup [1; 2; 3; 4] /\ no_two_equal (gap 0) [1; 2; 3; 4] /\
  prune_alpha isort field (limits 4 4 f32_one) 0 (tagged (gap 0) [1; 2; 3; 4]) [] = Ok [1; 3; 4] /\
  prune_alpha isort field (limits 4 4 f32_one) 0 (tagged (gap 0) [4; 3; 1]) [] = Ok [1; 3; 4].
Proof. exact field_again. Qed.

(** C126.  If no ratio of distances exceeds alpha both rules give the same list: the R nearest. *)
Theorem C126_large_alpha : forall sortf sp prm point cands,
  sorts sortf -> prune_input_ok sp cands -> fgt f32_zero (bp_alpha prm) = false ->
  length cands <= bp_C prm -> NoDup (map nid cands) ->
  (forall k c, In k cands -> In c cands -> nid k <> nid c -> flt (bp_alpha prm) (fdiv (ndist c) (sp_pd sp (nid c) (nid k))) = false) ->
  prune_alpha sortf sp prm point cands [] = prune_topk sortf prm point cands [].
Proof. exact prune_alpha_free. Qed.
Print Assumptions C126_large_alpha.

Example C126_large_alpha_case : 
  fgt f32_zero (bp_alpha (limits 4 4 hundred)) = false /\
  (forall k c, In k (tagged (gap 0) [4; 2; 1; 3]) -> In c (tagged (gap 0) [4; 2; 1; 3]) -> nid k <> nid c ->
     flt (bp_alpha (limits 4 4 hundred)) (fdiv (ndist c) (sp_pd field (nid c) (nid k))) = false) /\
  NoDup (map nid (tagged (gap 0) [4; 2; 1; 3])) /\
  prune_alpha isort field (limits 4 4 hundred) 0 (tagged (gap 0) [4; 2; 1; 3]) [] = Ok [1; 2; 3; 4].
Proof. exact field_free. Qed.

(** A larger alpha may lose links, and leave fewer links in all. *)
Theorem C126_alpha_refuted : ~ (forall sortf sp prm point cands alpha out out',
  sorts sortf -> prune_input_ok sp cands -> fgt f32_zero (bp_alpha prm) = false -> fle (bp_alpha prm) alpha = true ->
  prune_alpha sortf sp prm point cands [] = Ok out ->
  prune_alpha sortf sp (with_alpha prm alpha) point cands [] = Ok out' ->
  (forall i, In i out -> In i out') \/ length out <= length out').
Proof. exact alpha_not_monotone. Qed.
Print Assumptions C126_alpha_refuted.

Example C126_rejected_scan_case : 
  prune_alpha isort field (limits 4 2 f32_one) 0 (tagged (gap 0) [1; 2; 3; 4]) [] = Ok [1] /\
  prune_alpha isort field (limits 4 2 f32_one) 0 (tagged (gap 0) [1; 3; 4]) [] = Ok [1; 3].
Proof. exact field_thin_short. Qed.
