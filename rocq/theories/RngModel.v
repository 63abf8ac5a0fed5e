(** * The RelativeNG build: src/relative_ng.cpp:136-204. *)
From Coq Require Import List Arith Bool Sorting.Permutation.
From Verif Require Import Base Float32 PoolModel SortSpec GreedyModel SearchModel PruneModel EntryModel.
Import ListNotations.

(** src/relative_ng.cpp:178-187: all other points as candidates. *)
Definition rng_pool (sp : space) (loc : nat) : list neighbor :=
  map (fun j => mkN j (sp_pd sp j loc) true) (filter (fun j => negb (j =? loc)) (seq 0 (sp_n sp))).

(** src/relative_ng.cpp:160-166: aux_params. *)
Definition rng_params (sp : space) : bparams := mkB (sp_n sp) (sp_n sp) (sp_n sp) f32_one 0.

(** src/relative_ng.cpp:168-195: one iteration of the parallel loop.  [location %
    progress_milestone] is undefined if n / 10 = 0.  It reads only the data and
    writes only the list of its own location, so iterations are taken as atomic. *)
Definition rng_step (sortf : list neighbor -> list neighbor) (sp : space) (g : graph) (loc : nat) : res graph :=
  if sp_n sp / 10 =? 0 then UB
  else
    do pruned <- prune_alpha sortf sp (rng_params sp) loc (rng_pool sp loc) [];
    do old <- rd g loc;
    wr g loc (old ++ pruned).

(** The loop; [order] is the order in which the iterations run. *)
Fixpoint rng_loop (sortf : list neighbor -> list neighbor) (sp : space) (g : graph) (order : list nat) : res graph :=
  match order with
  | [] => Ok g
  | loc :: rest => do g' <- rng_step sortf sp g loc; rng_loop sortf sp g' rest
  end.

(** src/relative_ng.cpp:136-204 on a fresh object: built index and _max_degree.
    [centroid] is the array of distances to the centroid (see calculate_medoid). *)
Definition rng_build (sortf : list neighbor -> list neighbor) (sp : space) (tags : list nat)
    (centroid : list f32) (order : list nat) : res (gindex * nat) :=
  do s <- calculate_medoid (sp_n sp) centroid;
  do g <- rng_loop sortf sp (repeat [] (sp_n sp)) order;
  do md <- update_degree_stats true (sp_n sp) 0 g;
  Ok (mkI (sp_n sp) tags (sp_labels sp) [] s g, fst md).

(** Inputs: the loop runs every location once, in any order. *)
Record rng_input_ok (sortf : list neighbor -> list neighbor) (sp : space) (tags : list nat)
    (centroid : list f32) (order : list nat) : Prop := {
  ro_sort : sorts sortf;
  ro_n : 10 <= sp_n sp;
  ro_nan : forall a b, is_nan (sp_pd sp a b) = false;
  ro_tags : length tags = sp_n sp;
  ro_cent : length centroid = sp_n sp;
  ro_cnan : forall d, In d centroid -> is_nan d = false;
  ro_lab : sp_filtered sp = true -> length (pts_to_labels (sp_labels sp)) = sp_n sp;
  ro_order : Permutation order (seq 0 (sp_n sp))
}.
