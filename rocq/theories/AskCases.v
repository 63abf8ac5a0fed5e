(** * Asking for more answers, more hash tables, more hyperplanes: concrete cases. *)
From Coq Require Import NArith ZArith String List Arith Lia Bool.
From Verif Require Import Base Float32 PoolModel TopKSpec ClosestModel ClosestSpec PopInst FlatModel FlatSpec
  IvfModel IvfProofs LshModel LshProofs HeapSpec HeapInst GtModel GtSpec LongerSpec LongerCases MoreCases AskSpec.
Import ListNotations.

Lemma rack_more : ivf_ok rack /\ finite_distances (ivf_n rack) rack_far /\ no_ties (ivf_n rack) rack_far /\
  ivf_search pop_all 10 rack rack_centers rack_far 2 1 [] [9] None = Ok ([0], None, 1, 4) /\
  ivf_search pop_all 10 rack rack_centers rack_far 2 3 [] [9; 9; 9] None = Ok ([0; 3; 1], None, 3, 4) /\
  ivf_search pop_all 10 rack rack_centers rack_far 2 3 ["b"%string] [9; 9; 9] None = Ok ([1; 2; 9], None, 2, 2).
Proof.
  split; [apply rack_ok|]. split; [apply rack_ok|]. split; [apply all_apart_ok; reflexivity|]. repeat split; vm_compute; reflexivity.
Qed.

(** All points equally far: asked for one answer the search names point 0, asked for two it puts point 1 first. *)
Lemma ties_other : exists ix cdist dist indices indices', ivf_ok ix /\ finite_distances (ivf_n ix) dist /\ (forall a b, dist a = dist b) /\
  ivf_search pop_all 10 ix cdist dist 1 1 [] indices None = Ok ([0], None, 1, 2) /\
  ivf_search pop_all 10 ix cdist dist 1 2 [] indices' None = Ok ([1; 0], None, 2, 2).
Proof.
  exists (mkIvf 2 (seq 0 2) 1 [[0; 1]] (mkL [] false "0"%string)), (far_table [5]%Z), (fun _ => f32_of_Z 5), [9], [9; 9].
  split; [split; [reflexivity|]; intros l id Hl Hid; cbn in Hl; destruct Hl as [<-|[]]; cbn in *; lia|].
  split; [split; [intros; reflexivity|intros; vm_compute; reflexivity]|]. split; [reflexivity|]. split; vm_compute; reflexivity.
Qed.

(** Four points in the four quarters of the plane; hyperplanes across the first and the second coordinate. *)
Definition quarter (i : nat) : list f32 :=
  match i with 0 => [f32_of_Z 1; f32_of_Z 1] | 1 => [f32_of_Z (-1); f32_of_Z 1] | 2 => [f32_of_Z 1; f32_of_Z (-1)] | _ => [f32_of_Z (-1); f32_of_Z (-1)] end.
Definition across1 : list N := [1065353216; 0]%N.
Definition across2 : list N := [0; 1065353216]%N.
Definition quarters : lsh_index := mkLsh 4 (seq 0 4) (mkL [] false "0"%string) 0%N 0%N [].
Definition quarter_far := far_table [10; 7; 12; 9]%Z.

Definition answers (planes : list (list (list N))) (m : nat) : res (list nat * option (list f32) * nat * nat) :=
  do ix <- lsh_build seq_dot quarter 2 planes quarters;
  do r <- lsh_search seq_dot ix [f32_of_Z 3; f32_of_Z 2] quarter_far m [] (repeat 9 m) None; Ok (fst r).

Lemma quarters_ok : l_tags quarters = seq 0 (l_n quarters) /\ lsh_new quarters /\ finite_distances (l_n quarters) quarter_far /\ no_ties (l_n quarters) quarter_far.
Proof.
  split; [reflexivity|]. split; [reflexivity|]. split; [|apply all_apart_ok; reflexivity].
  split; [apply far_table_nan|]. intros id Hid. cbn in Hid. do 4 (destruct id as [|id]; [reflexivity|]). lia.
Qed.

Lemma tables_case : l_tags quarters = seq 0 (l_n quarters) /\ lsh_new quarters /\ finite_distances (l_n quarters) quarter_far /\ no_ties (l_n quarters) quarter_far /\
  answers [[across1]] 2 = Ok ([0; 2], None, 2, 2) /\ answers [[across1]; [across2]] 2 = Ok ([1; 0], None, 2, 3) /\
  answers [[across1]; [across2]] 3 = Ok ([1; 0; 2], None, 3, 3) /\ answers [] 2 = Ok ([9; 9], None, 0, 0).
Proof. split; [apply quarters_ok|]. split; [apply quarters_ok|]. split; [apply quarters_ok|]. split; [apply quarters_ok|]. repeat split; vm_compute; reflexivity. Qed.

Lemma planes_case : more_planes [[across1]; [across2]] [[across1; across2]; [across2]] /\ more_planes [[across1]] [[across1; across2]] /\
  answers [[across1; across2]; [across2]] 2 = Ok ([1; 0], None, 2, 2) /\ answers [[across1; across2]] 2 = Ok ([0; 9], None, 1, 1).
Proof.
  split; [constructor; [exists [across2]; reflexivity|constructor; [exists []; reflexivity|constructor]]|].
  split; [constructor; [exists [across2]; reflexivity|constructor]|]. split; vm_compute; reflexivity.
Qed.

(** More hyperplanes can lose the nearest point. *)
Lemma planes_lose : exists planes planes' a b, more_planes planes planes' /\ answers planes 1 = Ok ([a], None, 1, 2) /\ answers planes' 1 = Ok ([b], None, 1, 1) /\
  flt (quarter_far a) (quarter_far b) = true.
Proof.
  exists [[across2]], [[across2; across1]], 1, 0. split; [constructor; [exists [across1]; reflexivity|constructor]|]. repeat split; vm_compute; reflexivity.
Qed.

(** Ground truth: five points, two queries, one and three answers. *)
Definition gt_far (q p : nat) : f32 := f32_of_Z (Z.of_nat ((3 * q + 2 * p) mod 5)).
Lemma truth_case : no_ties 5 (gt_far 0) /\ no_ties 5 (gt_far 1) /\ batch_orders 2 2 (fun b => seq (b * 2) (min 2 (2 - b * 2))) /\
  match exact_knn heap_push heap_take 2 1 5 2 gt_far (fun b => seq (b * 2) (min 2 (2 - b * 2))) (repeat (0, f32_zero) 2) with Ok out => map fst out = [0; 1] | _ => False end /\
  match exact_knn heap_push heap_take 2 3 5 2 gt_far (fun b => seq (b * 2) (min 2 (2 - b * 2))) (repeat (0, f32_zero) 6) with Ok out => map fst out = [0; 3; 1; 1; 4; 2] | _ => False end.
Proof.
  split; [apply all_apart_ok; reflexivity|]. split; [apply all_apart_ok; reflexivity|]. split; [intros b; apply Permutation.Permutation_refl|]. split; vm_compute; reflexivity.
Qed.
