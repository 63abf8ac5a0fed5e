(** * Labels that all points share: concrete cases. *)
From Coq Require Import NArith ZArith String List Arith Lia Bool Sorting.Sorted.
From Verif Require Import Base Float32 PoolModel FilterSpec SortInst GraphSpec GreedyModel SearchModel PruneModel EntryModel BuildModel VamanaModel BuildWitness ClosestModel PopInst FlatModel IvfModel LshModel
  LongerCases AskCases ShareSpec.
Import ListNotations.

(** Four points in two lists; the fourth one carries the universal label. *)
Definition crowd_labels : label_ctx := mkL [["a"; "c"]; ["a"]; ["a"; "b"]; ["u"]]%string true "u"%string.
Definition crowd : ivf_index := mkIvf 4 (seq 0 4) 2 [[0; 2]; [1; 3]] crowd_labels.
Definition crowd_lsh : res lsh_index := lsh_build seq_dot quarter 2 [[across1]; [across2]] (mkLsh 4 (seq 0 4) crowd_labels 0%N 0%N []).
Definition ask_crowd (filters : list label) := do ix <- crowd_lsh; do r <- lsh_search seq_dot ix [f32_of_Z 3; f32_of_Z 2] quarter_far 3 filters [9; 9; 9] None; Ok (fst r).

Lemma crowd_match : all_match 4 crowd_labels ["a"%string].
Proof.
  split; [reflexivity|]. split; [repeat constructor|]. intros l Hl. cbn in Hl.
  destruct Hl as [<-|[<-|[<-|[<-|[]]]]]; (split; [repeat constructor; unfold label_le; cbn; congruence|]);
    [right; left; exists "a"%string; cbn; auto|right; left; exists "a"%string; cbn; auto|right; left; exists "a"%string; cbn; auto|right; right; exists "u"%string; cbn; auto].
Qed.
Lemma crowd_case : all_match 4 crowd_labels ["a"%string] /\
  ivf_search pop_all 10 crowd (far_table [5; 7]%Z) (far_table [10; 7; 12; 9]%Z) 2 3 ["a"%string] [9; 9; 9] None = Ok ([1; 3; 0], None, 3, 4) /\
  ivf_search pop_all 10 crowd (far_table [5; 7]%Z) (far_table [10; 7; 12; 9]%Z) 2 3 ["b"%string] [9; 9; 9] None = Ok ([3; 2; 9], None, 2, 2) /\
  ask_crowd ["a"%string] = Ok ([1; 0; 2], None, 3, 3).
Proof. split; [exact crowd_match|]. repeat split; vm_compute; reflexivity. Qed.

(** Twelve points on a line, all with the label a, whose entry point is point 10. *)
Definition town (i : nat) : Z := nth i [0; 3; 4; 9; 11; 18; 20; 21; 30; 33; 34; 40]%Z 0%Z.
Definition town_pd (a b : nat) : f32 := f32_of_Z ((town a - town b) * (town a - town b))%Z.
Definition town_space : space := mkSp 12 town_pd true (mkL (repeat ["a"%string] 12) false ""%string).
Definition town_far (c : Z) (i : nat) : f32 := f32_of_Z ((town i - c) * (town i - c))%Z.
Definition no_labels : label_ctx := mkL [] false ""%string.
Definition town_input : vinput := mkV isort town_space (mkB 2 3 20 f12 0) (seq 100 12) (map (town_far 19) (seq 0 12)) [("a"%string, repeat 10 100)] (one_thread 12 60) (seq 0 12).
Definition town_plain (c : Z) : vinput := mkV isort (unlabelled town_space no_labels) (mkB 2 3 20 f12 0) (seq 100 12) (map (town_far c) (seq 0 12)) [] (one_thread 12 60) (seq 0 12).
Definition town_graph : graph := [[10; 1]; [0; 10; 2]; [1; 10; 3]; [2; 10; 4]; [3; 10; 5]; [4; 10; 6]; [5; 10; 7]; [6; 10; 8]; [10; 7; 9]; [10; 8]; [9; 11]; [10]].
Definition town_index : gindex := mkI 12 (seq 100 12) (mkL (repeat ["a"%string] 12) false ""%string) [("a"%string, 10)] 5 town_graph.

Lemma town_case : sp_filtered (vi_sp town_input) = true /\ all_have (sp_n (vi_sp town_input)) (sp_labels (vi_sp town_input)) "a"%string /\
  vamana_build town_input = Ok (town_index, 3) /\ medoid_of (ix_medoids town_index) "a"%string = Some 10 /\
  calculate_medoid (sp_n (vi_sp town_input)) (map (town_far 34) (seq 0 12)) = Ok 10 /\
  vamana_search isort town_index (town_far 10) 3 2 ["a"%string] [0; 0] [f32_zero; f32_zero] = Ok ([104; 103], [f32_of_Z 1; f32_of_Z 1], 2).
Proof. repeat split; vm_compute; reflexivity. Qed.

(** Without labels the build starts at the point next to the centroid, which is point 5:
    another graph. *)
Lemma town_other : vamana_build town_input = Ok (town_index, 3) /\ all_have 12 (ix_labels town_index) "a"%string /\
  vamana_build (mkV (vi_sort town_input) (unlabelled (vi_sp town_input) no_labels) (vi_prm town_input) (vi_tags town_input) (vi_centroid town_input) [] (vi_sched town_input) (vi_order town_input)) =
    Ok (mkI 12 (seq 100 12) no_labels [] 5 [[5; 1]; [0; 5; 2]; [1; 5; 3]; [2; 5; 4]; [3; 5]; [4; 4; 6]; [5; 7]; [6; 8; 10]; [7; 9]; [8; 10]; [9; 7; 11]; [10]], 3).
Proof. repeat split; vm_compute; reflexivity. Qed.
