(** * Theorems: recall and ground truth files (C50, C51). *)
From Coq Require Import NArith List Floats.SpecFloat Lia.
From Verif Require Import Base Bytes Float32 StreamModel BinSpec RecallModel RecallSpec RecallProofs TruthModel TruthSpec TruthProofs TruthProofs2.
Import ListNotations.
Local Open Scope N_scope.

(** C50.  Per query the hits are the distinct ids common to the ground truth taken and
    the first recall_at results, at most recall_at. *)
Theorem C50_recall : forall gold dists dim_gs results dim_or recall_at nq, matrices_ok gold dists dim_gs results dim_or recall_at nq ->
  exists hs, recall_hits gold dists dim_gs results dim_or recall_at (N.to_nat nq) 0 = Ok hs /\ length hs = N.to_nat nq /\
    forall j h, nth_error hs j = Some h -> (h <= N.to_nat recall_at)%nat /\
      exists tb, truth_taken dists dim_gs recall_at (N.of_nat j) tb /\ common (prefix gold dim_gs (N.of_nat j) tb) (prefix results dim_or (N.of_nat j) recall_at) h.
Proof. exact recall_ok. Qed.
Print Assumptions C50_recall.

(** Two queries, three ground truth columns with a tie, two result columns. *)
Definition ex_gold : list N := [5; 6; 7; 8; 9; 4].
Definition ex_dists : list f32 := [f32_zero; f32_one; f32_one; f32_zero; f32_one; FLT_MAX].
Definition ex_results : list N := [7; 5; 4; 9].
Example C50_recall_applies : matrices_ok ex_gold (Some ex_dists) 3 ex_results 2 2 2 /\
  recall_hits ex_gold (Some ex_dists) 3 ex_results 2 2 2 0 = Ok [2; 1]%nat.
Proof.
  split; [|vm_compute; reflexivity]. unfold matrices_ok. repeat (split; [reflexivity || discriminate|]).
  intros x Hx. unfold ex_dists in Hx. cbn [In] in Hx. repeat (destruct Hx as [<-|Hx]; [reflexivity|]). destruct Hx.
Qed.

(** C50.  A recall_at beyond the columns reads past the arrays. *)
Theorem C50_recall_past_end : forall gold dim_gs results dim_or recall_at nq, 1 <= nq -> N.of_nat (length gold) = dim_gs * nq -> N.of_nat (length results) = dim_or * nq ->
  dim_gs < recall_at \/ dim_or < recall_at ->
  recall_hits gold None dim_gs results dim_or recall_at (N.to_nat nq) 0 = UB.
Proof. exact recall_past_end. Qed.
Print Assumptions C50_recall_past_end.

Example C50_recall_past_end_applies : recall_hits ex_gold None 3 ex_results 2 3 2 0 = UB.
Proof. reflexivity. Qed.

(** C50.  recall_at = 0 with distances takes 2^32 - 1 ground truth entries. *)
Theorem C50_recall_zero : forall gold d dim_gs results dim_or nq, 1 <= nq -> N.of_nat (length gold) < 4294967295 -> dim_gs < 4294967296 ->
  recall_hits gold (Some d) dim_gs results dim_or 0 (N.to_nat nq) 0 = UB.
Proof. exact recall_zero. Qed.
Print Assumptions C50_recall_zero.

(** C50.  The percentage is not bounded by 100: one query with all of 11 results correct
    gives more in double arithmetic as written. *)
Theorem C50_percent_bounded_refuted : SFltb (f64_of_N 100) (recall_percent 11 1 11) = true.
Proof. vm_compute. reflexivity. Qed.
Print Assumptions C50_percent_bounded_refuted.

(** C50.  Range search: per query the distinct ids common to ground truth and results,
    and the number of distinct ids of the ground truth. *)
Theorem C50_range_recall : forall groundtruth results cnt i, (i + cnt <= length groundtruth)%nat -> (i + cnt <= length results)%nat ->
  exists hs, range_hits groundtruth results cnt i = Ok hs /\ length hs = cnt /\
    forall j h g, nth_error hs j = Some (h, g) -> exists gt rs, nth_error groundtruth (i + j) = Some gt /\ nth_error results (i + j) = Some rs /\
      common gt rs h /\ common gt gt g /\ (h <= g)%nat.
Proof. exact range_hits_ok. Qed.
Print Assumptions C50_range_recall.

Example C50_range_recall_applies : range_hits [[1; 2; 2]; []] [[2; 3; 2]; [4]] 2 0 = Ok [(1, 2); (0, 0)]%nat.
Proof. reflexivity. Qed.

(** [common] determines the number. *)
Theorem C50_common_unique : forall a b c c', common a b c -> common a b c' -> c = c'.
Proof. exact common_unique. Qed.
Print Assumptions C50_common_unique.

(** C51.  Pruning a stored ground truth keeps, per query and in order, the ids whose
    distance is at most the range. *)
Theorem C51_prune : forall g n d ids dists range, truth_ok n d ids (Some dists) ->
  prune_truthset g (Some (truth_file n d ids (Some dists))) range =
    Ok (map (fun q => in_range range (matrix_row (N.to_nat d) q ids) (matrix_row (N.to_nat d) q dists)) (seq 0 (N.to_nat n))).
Proof. exact prune_ok. Qed.
Print Assumptions C51_prune.

(** Two queries with three neighbours at distances 0, 1, 2 and 1, 2, 2 (as bit
    patterns); range 1. *)
Example C51_prune_applies : truth_ok 2 3 [5; 6; 7; 8; 9; 4] (Some [0; 1065353216; 1073741824; 1065353216; 1073741824; 1073741824]) /\
  prune_truthset (fun _ => 0) (Some (truth_file 2 3 [5; 6; 7; 8; 9; 4] (Some [0; 1065353216; 1073741824; 1065353216; 1073741824; 1073741824]))) f32_one
    = Ok [[5; 6]; [8]].
Proof.
  split.
  - unfold truth_ok, all_u32. repeat (split; [reflexivity || discriminate || (intros x Hx; cbn [In] in Hx; repeat (destruct Hx as [<-|Hx]; [reflexivity|]); destruct Hx)|]). discriminate.
  - rewrite prune_ok; [vm_compute; reflexivity|].
    unfold truth_ok, all_u32. repeat (split; [reflexivity || discriminate || (intros x Hx; cbn [In] in Hx; repeat (destruct Hx as [<-|Hx]; [reflexivity|]); destruct Hx)|]). discriminate.
Qed.

(** C51.  What is saved is loaded. *)
Theorem C51_save_load : forall g n d ids dists, truth_ok n d ids (Some dists) ->
  exists b, save_truthset ids dists n d = Ok b /\ load_truthset g (Some b) = Ok (n, d, ids, Some dists).
Proof. exact save_load_truthset. Qed.
Print Assumptions C51_save_load.

(** C51.  A stored ground truth, with or without distances, loads. *)
Theorem C51_load : forall g n d ids dists, truth_ok n d ids dists ->
  load_truthset g (Some (truth_file n d ids dists)) = Ok (n, d, ids, dists).
Proof. exact load_truthset_ok. Qed.
Print Assumptions C51_load.

(** C51.  Whatever loads is a stored ground truth: the rest throws, nothing is undefined. *)
Theorem C51_load_only : forall g b, is_bytes b -> N.of_nat (length b) < 4611686018427387904 ->
  load_truthset g (Some b) = Throw \/ exists n d ids dists, load_truthset g (Some b) = Ok (n, d, ids, dists) /\ truth_ok n d ids dists /\ b = truth_file n d ids dists.
Proof. exact load_truthset_only. Qed.
Print Assumptions C51_load_only.

(** C51.  A missing file throws, whatever the memory held. *)
Theorem C51_missing : forall g, load_truthset g None = Throw.
Proof. exact load_truthset_missing. Qed.
Print Assumptions C51_missing.

Theorem C51_prune_missing : forall g range, prune_truthset g None range = Throw.
Proof. exact prune_missing. Qed.
Print Assumptions C51_prune_missing.

(** C51.  A range ground truth file loads. *)
Theorem C51_load_range : forall g lists, lists <> [] -> N.of_nat (length lists) < 2147483648 -> N.of_nat (length (concat lists)) < 2147483648 ->
  (forall l, In l lists -> all_u32 l) -> load_range_truthset g (Some (range_file lists)) = Ok lists.
Proof. exact load_range_ok. Qed.
Print Assumptions C51_load_range.

Example C51_load_range_applies : (forall l, In l [[5; 6]; []; [7]] -> all_u32 l) /\ length (range_file [[5; 6]; []; [7]]) = 32%nat.
Proof.
  split; [|reflexivity]. intros l Hl x Hx. cbn [In] in Hl. repeat (destruct Hl as [<-|Hl]; [cbn [In] in Hx; repeat (destruct Hx as [<-|Hx]; [reflexivity|]); destruct Hx|]). destruct Hl.
Qed.

(** C51.  Without queries it reads an empty vector. *)
Theorem C51_load_range_empty : forall g, load_range_truthset g (Some (range_file [])) = UB.
Proof. exact load_range_empty. Qed.
Print Assumptions C51_load_range_empty.

(** C51.  Whatever loads is a range ground truth: the numbers of queries and results, the
    lengths, the results, perhaps more words that the header counts and nobody reads.  In
    particular a negative count is refused.  The rest throws, except a file without queries. *)
Theorem C51_load_range_only : forall g b, is_bytes b -> N.of_nat (length b) < 4611686018427387904 ->
  load_range_truthset g (Some b) = Throw \/ (load_range_truthset g (Some b) = UB /\ firstn 4 b = u32 0) \/
  exists lists extra, load_range_truthset g (Some b) = Ok lists /\ lists <> [] /\ N.of_nat (length lists) < 2147483648 /\ N.of_nat (length (concat lists) + length extra) < 2147483648 /\
    (forall l, In l lists -> all_u32 l) /\
    b = u32 (N.of_nat (length lists)) ++ u32 (N.of_nat (length (concat lists) + length extra)) ++ enc_all 4 (map (fun l => N.of_nat (length l)) lists) ++ enc_all 4 (concat lists) ++ enc_all 4 extra.
Proof. exact load_range_only. Qed.
Print Assumptions C51_load_range_only.

Example C51_load_range_only_case : let b := (u32 1 ++ u32 2 ++ u32 1 ++ u32 7 ++ u32 8)%N in is_bytes b /\ load_range_truthset (fun _ => 0) (Some b) = Ok [[7]] /\
  load_range_truthset (fun _ => 0) (Some (u32 2 ++ u32 4294967295 ++ u32 0)) = Throw.
Proof. cbv zeta. split; [repeat constructor|split; vm_compute; reflexivity]. Qed.
