(** * Theorems: neighbour pruning (C12, C13, C14, C15).

    [sortf] is any function that sorts, [sp] the data set (pairwise distances and
    labels), [point] the node whose list is pruned, [cands] its candidates with
    their distances to it. *)
From Coq Require Import ZArith String List Arith Lia Bool Sorting.Sorted Sorting.Permutation.
From Verif Require Import Base Float32 PoolModel TopKSpec SortSpec PruneModel PruneSpec SortInst PruneProofs.
Import ListNotations.

(** C12.  The output is a part of the candidates (as a multiset), at most R long,
    in distance order, without the point itself: for every alpha. *)
Theorem C12_alpha_prune_shape : forall sortf sp prm point cands,
  sorts sortf -> prune_input_ok sp cands ->
  exists ks rest, prune_alpha sortf sp prm point cands [] = Ok (map nid ks) /\
    Permutation cands (ks ++ rest) /\ length ks <= bp_R prm /\ length ks <= bp_C prm /\
    StronglySorted (fun x y => fle (ndist x) (ndist y) = true) ks /\
    (forall z, In z ks -> nid z <> point).
Proof. exact prune_alpha_shape. Qed.
Print Assumptions C12_alpha_prune_shape.

(** C13.  The output is exactly the kept candidates in the sense of [kept]. *)
Theorem C13_alpha_prune_exact : forall sortf sp prm point cands,
  sorts sortf -> prune_input_ok sp cands -> fgt f32_zero (bp_alpha prm) = false ->
  exists keep,
    kept (occludes sp (bp_alpha prm)) (bp_R prm) point (firstn (bp_C prm) (sortf cands)) keep /\
    prune_alpha sortf sp prm point cands [] = Ok (map nid (select keep (firstn (bp_C prm) (sortf cands)))).
Proof. exact prune_alpha_exact. Qed.
Print Assumptions C13_alpha_prune_exact.

(** C13.  The closest candidate is kept. *)
Theorem C13_alpha_prune_closest : forall sortf sp prm point cands c rest,
  sorts sortf -> prune_input_ok sp cands -> fgt f32_zero (bp_alpha prm) = false ->
  sortf cands = c :: rest -> nid c <> point -> 1 <= bp_R prm -> 1 <= bp_C prm ->
  exists out, prune_alpha sortf sp prm point cands [] = Ok (nid c :: out).
Proof. exact prune_alpha_first. Qed.
Print Assumptions C13_alpha_prune_closest.

(** C14.  In a filtered index a candidate among the first C that is missing from a
    list with room left has a listed neighbour carrying all of its labels. *)
Theorem C14_filtered_prune_labels : forall sortf sp prm point cands c,
  sorts sortf -> prune_input_ok sp cands -> fgt f32_zero (bp_alpha prm) = false ->
  sp_filtered sp = true ->
  In c (firstn (bp_C prm) (sortf cands)) -> nid c <> point ->
  exists out, prune_alpha sortf sp prm point cands [] = Ok out /\
    (In (nid c) out \/ length out = bp_R prm \/
     exists k, In k out /\ forall x, In x (labels_of sp (nid c)) -> In x (labels_of sp k)).
Proof. exact prune_alpha_labels. Qed.
Print Assumptions C14_filtered_prune_labels.

(** C15.  Top-K pruning: the R nearest candidates other than the point. *)
Theorem C15_topk_prune : forall sortf prm point cands,
  sorts sortf -> (forall z, In z cands -> is_nan (ndist z) = false) ->
  exists out,
    prune_topk sortf prm point cands [] = Ok (map fst out) /\
    is_top_k (bp_R prm) (map (fun z => (nid z, ndist z)) (filter (fun z => negb (nid z =? point)) cands)) out.
Proof. exact prune_topk_spec. Qed.
Print Assumptions C15_topk_prune.

(** A concrete case: points on a line at 0, 1, 3, 4, 9 with squared distances;
    labels make 3 unable to stand in for 4. *)
Definition ex_pos (i : nat) : Z := nth i [0; 1; 3; 4; 9]%Z 0%Z.
Definition ex_pd (a b : nat) : f32 := f32_of_Z ((ex_pos a - ex_pos b) * (ex_pos a - ex_pos b))%Z.
Definition ex_cands (p : nat) (ids : list nat) : list neighbor := map (fun i => mkN i (ex_pd p i) true) ids.
Open Scope string_scope.
Definition ex_space (f : bool) : space :=
  mkSp 5 ex_pd f (mkL [["a"]; ["a"]; ["a"]; ["a"; "b"]; ["b"]] true "0").
Definition ex_prm : bparams := mkB 10 4 10 f32_one 0.

Example prune_case_hyps : sorts isort /\ prune_input_ok (ex_space true) (ex_cands 1 [4; 0; 1; 3; 2]) /\
  fgt f32_zero (bp_alpha ex_prm) = false.
Proof.
  split; [exact isort_sorts|]. split; [|reflexivity]. split; [|reflexivity].
  intros z Hz. repeat (destruct Hz as [<-|Hz]; [split; [cbn; lia|vm_compute; reflexivity]|]). destruct Hz.
Qed.

(** Unfiltered, 3 and 4 are occluded by 2; filtered, 3 is kept (only it has b) and
    it occludes 4. *)
Example prune_case_run :
  prune_alpha isort (ex_space false) ex_prm 1 (ex_cands 1 [4; 0; 1; 3; 2]) [] = Ok [0; 2] /\
  prune_alpha isort (ex_space true) ex_prm 1 (ex_cands 1 [4; 0; 1; 3; 2]) [] = Ok [0; 2; 3] /\
  prune_topk isort ex_prm 1 (ex_cands 1 [4; 0; 1; 3; 2]) [] = Ok [0; 2; 3; 4].
Proof. vm_compute. auto. Qed.
