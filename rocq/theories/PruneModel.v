(** * Neighbour pruning: src/graph_index.cpp:131-232. *)
From Coq Require Import String List Arith Bool.
From Verif Require Import Base Float32 PoolModel GreedyModel.
Import ListNotations.

(** What the build reads of the data set: number of points, compare(data[a],
    data[b]) and labels.  One distance function serves both argument orders used
    in the code (a simplification only when the distance is not symmetric: the
    order of the arguments is kept as in the code). *)
Record space : Type := mkSp {
  sp_n : nat;                      (* _num_points *)
  sp_pd : nat -> nat -> f32;       (* compare(_data + a, _data + b) *)
  sp_filtered : bool;              (* _filtered_index *)
  sp_labels : label_ctx            (* _pts_to_labels, universal label *)
}.

(** The build parameters L, R, C, alpha and pruning_rule. *)
Record bparams : Type := mkB {
  bp_L : nat;
  bp_R : nat;
  bp_C : nat;
  bp_alpha : f32;
  bp_rule : nat
}.

(** compare on two stored vectors; an id >= n reads out of bounds. *)
Definition data_dist (sp : space) (a b : nat) : res f32 :=
  if (a <? sp_n sp) && (b <? sp_n sp) then Ok (sp_pd sp a b) else UB.

(** src/graph_index.cpp:170-183: may kept point [a] occlude candidate [b]? *)
Definition prune_allowed (sp : space) (a b : nat) : res bool :=
  if sp_filtered sp then
    do lb <- rd (pts_to_labels (sp_labels sp)) b;
    match lb with
    | [] => Ok true
    | _ :: _ =>
        do la <- rd (pts_to_labels (sp_labels sp)) a;
        Ok (forallb (fun x => label_mem x la) lb)
    end
  else Ok true.

(** src/graph_index.cpp:166-194: the loop over t, [cnt] values of t to go. *)
Fixpoint occlude_loop (sp : space) (cands : list neighbor) (alpha : f32) (p : neighbor)
    (t cnt : nat) (occ : list f32) : res (list f32) :=
  match cnt with
  | O => Ok occ
  | S cnt' =>
      do f <- rd occ t;
      if fgt f alpha then occlude_loop sp cands alpha p (S t) cnt' occ
      else
        do c <- rd cands t;
        do ok <- prune_allowed sp (nid p) (nid c);
        if negb ok then occlude_loop sp cands alpha p (S t) cnt' occ
        else
          do djk <- data_dist sp (nid c) (nid p);
          do occ' <- wr occ t (fmax f (fdiv (ndist c) djk));
          occlude_loop sp cands alpha p (S t) cnt' occ'
  end.

(** src/graph_index.cpp:152-196: the while loop over start. *)
Fixpoint prune_loop (fuel : nat) (sp : space) (cands : list neighbor) (R C : nat) (alpha : f32)
    (point : nat) (start : nat) (occ : list f32) (result : list neighbor) : res (list neighbor) :=
  if (length result <? R) && (start <? length cands) && (start <? C) then
    match fuel with
    | O => Fuel
    | S fuel' =>
        do p <- rd cands start;
        if nid p =? point then prune_loop fuel' sp cands R C alpha point (S start) occ result
        else
          do f <- rd occ start;
          if fgt f alpha then prune_loop fuel' sp cands R C alpha point (S start) occ result
          else
            do occ1 <- wr occ start FLT_MAX;
            do occ2 <- occlude_loop sp cands alpha p (S start)
                         (min (length cands) C - S start) occ1;
            prune_loop fuel' sp cands R C alpha point (S start) occ2 (result ++ [p])
    end
  else Ok result.

(** src/graph_index.cpp:131-205 prune_candidates_alpha_rng; [pruned0] is the
    content of pruned_list before the call (left alone if there are no
    candidates). *)
Definition prune_alpha (sortf : list neighbor -> list neighbor) (sp : space) (prm : bparams)
    (point : nat) (cands : list neighbor) (pruned0 : list nat) : res (list nat) :=
  match cands with
  | [] => Ok pruned0
  | _ :: _ =>
      let sorted := sortf cands in
      do result <- prune_loop (length sorted) sp sorted (bp_R prm) (bp_C prm) (bp_alpha prm) point 0
                     (repeat f32_zero (length sorted)) [];
      Ok (map nid (filter (fun z => negb (nid z =? point)) result))
  end.

(** src/graph_index.cpp:221-231: the loop of prune_candidates_top_K. *)
Fixpoint topk_loop (R point : nat) (cands : list neighbor) (pruned : list nat) : list nat :=
  match cands with
  | [] => pruned
  | p :: rest =>
      if length pruned <? R then
        if nid p =? point then topk_loop R point rest pruned
        else topk_loop R point rest (pruned ++ [nid p])
      else pruned
  end.

(** src/graph_index.cpp:208-232 prune_candidates_top_K. *)
Definition prune_topk (sortf : list neighbor -> list neighbor) (prm : bparams)
    (point : nat) (cands : list neighbor) (pruned0 : list nat) : res (list nat) :=
  match cands with
  | [] => Ok pruned0
  | _ :: _ => Ok (topk_loop (bp_R prm) point (sortf cands) [])
  end.
