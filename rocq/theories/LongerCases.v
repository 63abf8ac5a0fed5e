(** * Cases for C120. *)
From Coq Require Import ZArith String List Arith Lia Bool Sorting.Sorted Sorting.Permutation.
From Verif Require Import Base Float32 Float32Facts PoolModel TopKSpec SortSpec SortInst GraphSpec GreedyModel SearchSpec SearchModel ClosestModel ClosestSpec FlatModel FlatSpec IvfModel PopInst IvfProofs
  HnswModel HnswSpec WideSpec LongerSpec.
Import ListNotations.

(** Distances given by a table. *)
Definition far_table (l : list Z) (id : nat) : f32 := f32_of_Z (nth id l 0%Z).

Lemma far_table_nan : forall l id, is_nan (far_table l id) = false.
Proof. intros. apply f32_of_Z_not_nan. Qed.

Definition all_apart (n : nat) (dist : nat -> f32) : bool :=
  forallb (fun a => forallb (fun b => (a =? b) || negb (feq (dist a) (dist b))) (seq 0 n)) (seq 0 n).

Lemma all_apart_ok : forall n dist, all_apart n dist = true -> no_ties n dist.
Proof.
  intros n dist H a b Ha Hb E. unfold all_apart in H. rewrite forallb_forall in H. specialize (H a ltac:(apply in_seq; lia)).
  rewrite forallb_forall in H. specialize (H b ltac:(apply in_seq; lia)). rewrite E in H. rewrite orb_false_r in H. apply Nat.eqb_eq in H. exact H.
Qed.

Definition no_labels : label_ctx := mkL [] true "0"%string.

(** 0 leads to 1 and 2, 1 to 5, 2 to 3 and 4. *)
Definition fork : graph := [[1; 2]; [5]; [3; 4]; []; []; []].
Definition fork_index : gindex := mkI 6 (seq 100 6) no_labels [] 0 fork.

Lemma fork_ok : index_ok fork_index.
Proof.
  split; [cbn; lia|]. split; [|split; [reflexivity|split; [cbn; lia|intros x id []]]].
  split; [reflexivity|]. intros x l y Hx Hy. cbn [ix_n fork_index]. unfold ix_graph, fork_index, fork in Hx.
  do 6 (destruct x as [|x]; [cbn in Hx; injection Hx as <-; cbn in Hy; lia|]). destruct x; discriminate.
Qed.

(** What a search leaves, without the parts of no interest. *)
Definition seen (r : res (list nat * list f32 * nat)) : res (list nat * nat) := do x <- r; Ok (fst (fst x), snd x).

(** Distances 8, 20, 21, 9, 10, 1: all different. *)
Definition apart := far_table [8; 20; 21; 9; 10; 1]%Z.

Lemma fork_case : index_ok fork_index /\ no_ties (ix_n fork_index) apart /\ nearest_among 2 (fun x => x < ix_n fork_index) apart [5; 0] /\
  seen (vamana_search isort fork_index apart 1 1 [] (repeat 0 2) (repeat f32_zero 2)) = Ok ([100; 0], 1) /\
  seen (vamana_search isort fork_index apart 2 2 [] (repeat 0 2) (repeat f32_zero 2)) = Ok ([105; 100], 2).
Proof.
  split; [exact fork_ok|]. split; [apply all_apart_ok; reflexivity|]. split; [|split; reflexivity].
  exists (seq 0 6). split; [apply seq_NoDup|]. split; [intros x; rewrite in_seq; cbn; lia|].
  exists (score apart [1; 2; 3; 4]). split.
  - unfold score. rewrite <- map_app. apply Permutation_map. apply NoDup_Permutation; [apply seq_NoDup| |].
    + repeat (constructor; [cbn; lia|]). constructor.
    + intros x. rewrite in_seq. cbn. lia.
  - split; [reflexivity|]. split.
    + repeat constructor.
    + intros x y [<-|[<-|[]]] [<-|[<-|[<-|[<-|[]]]]]; reflexivity.
Qed.

(** 1 and 2 equally far: the longer list drops 1 before it is expanded. *)
Definition tied := far_table [8; 20; 20; 9; 10; 1]%Z.

Lemma ties_worse : exists ix dist L L' indices distances, index_ok ix /\ (forall id, is_nan (dist id) = false) /\ 1 <= L /\ L < L' /\
  exists i1 d1 i2 d2 x y, vamana_search isort ix dist L 1 [] indices distances = Ok (i1, d1, 1) /\ reports (ix_n ix) (ix_tags ix) dist i1 d1 [x] /\
    vamana_search isort ix dist L' 1 [] indices distances = Ok (i2, d2, 1) /\ reports (ix_n ix) (ix_tags ix) dist i2 d2 [y] /\ flt (dist x) (dist y) = true.
Proof.
  exists fork_index, tied, 2, 3, [0], [f32_zero]. split; [exact fork_ok|]. split; [apply far_table_nan|]. split; [lia|]. split; [lia|].
  exists [105], [f32_of_Z 1], [100], [f32_of_Z 8], 5, 0. split; [reflexivity|].
  assert (R : forall x i d, x < 6 -> i = 100 + x -> d = tied x -> reports (ix_n fork_index) (ix_tags fork_index) tied [i] [d] [x]).
  { intros x i d Hx -> ->. split; [repeat constructor; intros []|]. split; [intros id [<-|[]]; exact Hx|]. split; [repeat constructor|].
    intros j id Hj. destruct j as [|j]; [|destruct j; discriminate]. cbn in Hj. injection Hj as <-. split; [|reflexivity].
    cbn [ix_tags fork_index]. do 6 (destruct x as [|x]; [reflexivity|]). lia. }
  split; [apply R; [lia|reflexivity|reflexivity]|]. split; [reflexivity|]. split; [apply R; [lia|reflexivity|reflexivity]|]. reflexivity.
Qed.

(** More labels than the list holds: 0 is the entry point of "a", 1 of "b". *)
Definition door_index : gindex :=
  mkI 5 (seq 100 5) (mkL (repeat ["a"%string] 5) false "0"%string) [("a"%string, 0); ("b"%string, 1)] 0 [[2]; [3; 4]; []; []; []].

Lemma door_ok : index_ok door_index.
Proof.
  split; [cbn; lia|]. split; [|split; [reflexivity|split; [cbn; lia|]]].
  - split; [reflexivity|]. intros x l y Hx Hy. cbn [ix_n door_index]. unfold ix_graph, door_index in Hx.
    do 5 (destruct x as [|x]; [cbn in Hx; injection Hx as <-; cbn in Hy; lia|]). destruct x; discriminate.
  - intros x id [E|[E|[]]]; injection E as _ <-; cbn; lia.
Qed.

Lemma doors_worse : exists ix dist fs L L' indices distances, index_ok ix /\ (forall id, is_nan (dist id) = false) /\ no_ties (ix_n ix) dist /\
  length (pts_to_labels (ix_labels ix)) = ix_n ix /\ length fs = L + 1 /\ 1 <= L /\ L < L' /\
  exists i1 d1 i2 d2 x y, vamana_search isort ix dist L 1 fs indices distances = Ok (i1, d1, 1) /\ reports (ix_n ix) (ix_tags ix) dist i1 d1 [x] /\
    vamana_search isort ix dist L' 1 fs indices distances = Ok (i2, d2, 1) /\ reports (ix_n ix) (ix_tags ix) dist i2 d2 [y] /\ flt (dist x) (dist y) = true.
Proof.
  exists door_index, (far_table [20; 8; 1; 5; 6]%Z), ["a"%string; "b"%string], 1, 2, [0], [f32_zero].
  split; [exact door_ok|]. split; [apply far_table_nan|]. split; [apply all_apart_ok; reflexivity|]. split; [reflexivity|]. split; [reflexivity|].
  split; [lia|]. split; [lia|]. exists [102], [f32_of_Z 1], [103], [f32_of_Z 5], 2, 3. split; [reflexivity|].
  assert (R : forall x i d, x < 5 -> i = 100 + x -> d = far_table [20; 8; 1; 5; 6]%Z x -> reports (ix_n door_index) (ix_tags door_index) (far_table [20; 8; 1; 5; 6]%Z) [i] [d] [x]).
  { intros x i d Hx -> ->. split; [repeat constructor; intros []|]. split; [intros id [<-|[]]; exact Hx|]. split; [repeat constructor|].
    intros j id Hj. destruct j as [|j]; [|destruct j; discriminate]. cbn in Hj. injection Hj as <-. split; [|reflexivity].
    cbn [ix_tags door_index]. do 5 (destruct x as [|x]; [reflexivity|]). lia. }
  split; [apply R; [lia|reflexivity|reflexivity]|]. split; [reflexivity|]. split; [apply R; [lia|reflexivity|reflexivity]|]. reflexivity.
Qed.

(** HNSW: the inner level holds 0, 3 and 1 of the outer one; 0 leads to 3, 3 to 1 inside, 0 to 2 outside. *)
Definition hall : hnsw :=
  [mkI 4 (seq 100 4) no_labels [] 0 [[2]; []; []; []]; mkI 3 [0; 3; 1] no_labels [] 0 [[1]; [2]; []]].
Definition hall_far := far_table [50; 30; 1; 60]%Z.

Lemma hall_ok : levels_ok hall.
Proof.
  split; [|split; [|split; [|exact I]]].
  - split; [cbn; lia|]. split; [|split; [reflexivity|split; [cbn; lia|intros x id []]]].
    split; [reflexivity|]. intros x l y Hx Hy. cbn [ix_n]. cbn [ix_graph] in Hx.
    do 4 (destruct x as [|x]; [cbn in Hx; injection Hx as <-; cbn in Hy; lia|]). destruct x; discriminate.
  - intros t Ht. cbn in Ht. cbn. lia.
  - split; [cbn; lia|]. split; [|split; [reflexivity|split; [cbn; lia|intros x id []]]].
    split; [reflexivity|]. intros x l y Hx Hy. cbn [ix_n]. cbn [ix_graph] in Hx.
    do 3 (destruct x as [|x]; [cbn in Hx; injection Hx as <-; cbn in Hy; lia|]). destruct x; discriminate.
Qed.

Lemma hall_worse : exists levels dist indices distances, levels_ok levels /\ (forall id, is_nan (dist id) = false) /\ no_ties 4 dist /\
  match levels with ix :: _ => ix_n ix = 4 /\ ix_tags ix = seq 100 4 | [] => False end /\
  seen (hnsw_search isort levels dist 1 1 [] indices distances) = Ok ([102; 0], 1) /\
  seen (hnsw_search isort levels dist 2 1 [] indices distances) = Ok ([101; 0], 1) /\
  seen (hnsw_search isort levels dist 2 2 [] indices distances) = Ok ([102; 101], 2) /\ flt (dist 2) (dist 1) = true.
Proof.
  exists hall, hall_far, [0; 0], [f32_zero; f32_zero]. split; [exact hall_ok|]. split; [apply far_table_nan|].
  split; [apply all_apart_ok; reflexivity|]. split; [split; reflexivity|]. repeat split.
Qed.

(** IVF: three lists, the query nearest to the centre of the second. *)
Definition shelf : ivf_index := mkIvf 6 (seq 0 6) 3 [[0; 3]; [1; 4]; [2; 5]] no_labels.
Definition shelf_far := far_table [2; 6; 9; 8; 5; 1]%Z.
Definition shelf_centers := far_table [7; 5; 9]%Z.

Lemma shelf_case : ivf_ok shelf /\ no_ties (ivf_nc shelf) shelf_centers /\ finite_distances (ivf_n shelf) shelf_far /\
  (do r <- ivf_search pop_all 10 shelf shelf_centers shelf_far 1 2 [] [9; 9] None; Ok (fst r)) = Ok ([4; 1], None, 2) /\
  (do r <- ivf_search pop_all 10 shelf shelf_centers shelf_far 2 2 [] [9; 9] None; Ok (fst r)) = Ok ([0; 4], None, 2) /\
  (do r <- ivf_search pop_all 10 shelf shelf_centers shelf_far 3 2 [] [9; 9] None; Ok (fst r)) = Ok ([5; 0], None, 2) .
Proof.
  split; [split; [reflexivity|]|].
  { intros l id Hl Hid. cbn in Hl. cbn. destruct Hl as [<-|[<-|[<-|[]]]]; cbn in Hid; lia. }
  split; [apply all_apart_ok; reflexivity|]. split.
  { split; [apply far_table_nan|]. intros id Hid. cbn in Hid. do 6 (destruct id as [|id]; [reflexivity|]). lia. }
  split; [reflexivity|]. split; reflexivity.
Qed.
