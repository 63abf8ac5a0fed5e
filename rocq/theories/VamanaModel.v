(** * The whole Vamana build: src/vamana.cpp:219-337. *)
From Coq Require Import String List Arith Bool Sorting.Permutation.
From Verif Require Import Base Float32 PoolModel SortSpec GraphSpec GreedyModel SearchModel PruneModel BuildModel EntryModel.
Import ListNotations.

(** What a build sees: data set, parameters, tags, and the choices made outside the
    program's control. *)
Record vinput : Type := mkV {
  vi_sort : list neighbor -> list neighbor;   (* std::sort *)
  vi_sp : space;
  vi_prm : bparams;
  vi_tags : list nat;                         (* _tag_map *)
  vi_centroid : list f32;                     (* distances of the points to the centroid *)
  vi_work : list (label * list nat);          (* labels in critical-section order, with rand() values *)
  vi_sched : list nat;                        (* interleaving of the parallel loop *)
  vi_order : list nat                         (* order of the cleanup loop *)
}.

(** src/vamana.cpp:222-224 and 246: entry points. *)
Definition vamana_env (v : vinput) : res benv :=
  do ms <- (if sp_filtered (vi_sp v) then label_medoids (sp_labels (vi_sp v)) (vi_work v) (mkMS [] [])
            else Ok (mkMS [] []));
  do s <- calculate_medoid (sp_n (vi_sp v)) (vi_centroid v);
  Ok (mkEnv (vi_sort v) (vi_sp v) (vi_prm v) s (ms_medoids ms)).

(** src/vamana.cpp:219-337: the built index and _max_degree.  The parallel loop
    joins its threads, so the schedule must finish every location; [Fuel] if the
    given one does not. *)
Definition vamana_build (v : vinput) : res (gindex * nat) :=
  do env <- vamana_env v;
  do st <- build_run env (build_init env) (vi_sched v);
  if all_done st then
    do g <- cleanup env (bs_graph st) (vi_order v);
    do md <- update_degree_stats true (sp_n (vi_sp v)) 0 g;
    Ok (mkI (sp_n (vi_sp v)) (vi_tags v) (sp_labels (vi_sp v)) (be_medoids env) (be_start env) g, fst md)
  else Fuel.

(** Inputs of the whole build. *)
Record vinput_ok (v : vinput) : Prop := {
  vo_sort : sorts (vi_sort v);
  vo_n : 10 <= sp_n (vi_sp v);
  vo_L : 1 <= bp_L (vi_prm v);
  vo_nan : forall a b, is_nan (sp_pd (vi_sp v) a b) = false;
  vo_tags : length (vi_tags v) = sp_n (vi_sp v);
  vo_cent : length (vi_centroid v) = sp_n (vi_sp v);
  vo_cnan : forall d, In d (vi_centroid v) -> is_nan d = false;
  vo_lab : sp_filtered (vi_sp v) = true -> length (pts_to_labels (sp_labels (vi_sp v))) = sp_n (vi_sp v);
  vo_rand : forall x r, In (x, r) (vi_work v) -> length r = 25;
  vo_sched : forall i, In i (vi_sched v) -> i < sp_n (vi_sp v);
  vo_order : Permutation (vi_order v) (seq 0 (sp_n (vi_sp v)))
}.
