(** * Filter lists that ask for more: concrete cases. *)
From Coq Require Import NArith ZArith String List Arith Lia Bool Sorting.Sorted.
From Verif Require Import Base Float32 PoolModel TopKSpec SortSpec SortInst GraphSpec FilterSpec GreedyModel SearchSpec SearchModel ClosestModel ClosestSpec PopInst FlatModel FlatSpec
  IvfModel IvfProofs LshModel LshProofs LongerSpec LongerCases MoreSpec.
Import ListNotations.
Open Scope string_scope.

(** 0 is the entry point of "a" and leads to 1, which leads to 2; 3 is the entry point of "b" and of the index. *)
Definition yard : gindex :=
  mkI 4 (seq 100 4) (mkL [["a"]; ["a"]; ["a"]; ["b"]] false "0") [("a", 0); ("b", 3)] 3 [[1]; [2]; []; []].
Definition yard_far := far_table [10; 12; 1; 5]%Z.

Lemma yard_ok : index_ok yard.
Proof.
  split; [cbn; lia|]. split; [|split; [reflexivity|split; [cbn; lia|]]].
  - split; [reflexivity|]. intros x l y Hx Hy. cbn [ix_n yard]. unfold ix_graph, yard in Hx.
    do 4 (destruct x as [|x]; [cbn in Hx; injection Hx as <-; cbn in Hy; lia|]). destruct x; discriminate.
  - intros x id [E|[E|[]]]; injection E as _ <-; cbn; lia.
Qed.

Lemma le_label : forall a b, String.compare a b <> Gt -> label_le a b.
Proof. intros a b H. exact H. Qed.

Ltac sorted_now := repeat first [apply SSorted_nil | apply SSorted_cons | apply Forall_nil | apply Forall_cons; [apply le_label; vm_compute; discriminate|]].

Lemma yard_labels : (forall ls, In ls (pts_to_labels (ix_labels yard)) -> sorted_labels ls) /\ length (pts_to_labels (ix_labels yard)) = ix_n yard.
Proof.
  split; [|reflexivity]. intros ls H. cbn in H. repeat (destruct H as [<-|H]; [unfold sorted_labels; sorted_now|]). destruct H.
Qed.

(** With a list of four both filters find the nearest point with "a". *)
Lemma yard_case : index_ok yard /\ (forall ls, In ls (pts_to_labels (ix_labels yard)) -> sorted_labels ls) /\ sorted_labels ["a"; "b"] /\
  (forall x, In x ["a"] -> In x ["a"; "b"]) /\
  vamana_search isort yard yard_far 4 2 ["a"] [0; 0] [f32_zero; f32_zero] = Ok ([102; 100], [f32_of_Z 1; f32_of_Z 10], 2) /\
  vamana_search isort yard yard_far 4 2 ["a"; "b"] [0; 0] [f32_zero; f32_zero] = Ok ([102; 103], [f32_of_Z 1; f32_of_Z 5], 2).
Proof.
  split; [exact yard_ok|]. split; [apply yard_labels|]. split; [unfold sorted_labels; sorted_now|]. split; [intros x [<-|[]]; left; reflexivity|].
  split; vm_compute; reflexivity.
Qed.

(** With a list of two, asking for "b" as well loses the nearest point; so does asking for nothing, with any list. *)
Lemma narrow_worse : exists ix dist fs fs' L indices distances, index_ok ix /\ (forall id, is_nan (dist id) = false) /\ no_ties (ix_n ix) dist /\
  length (pts_to_labels (ix_labels ix)) = ix_n ix /\ (forall ls, In ls (pts_to_labels (ix_labels ix)) -> sorted_labels ls) /\
  fs <> [] /\ (forall x, In x fs -> In x fs') /\ sorted_labels fs' /\ length fs' <= L /\
  vamana_search isort ix dist L 1 fs indices distances = Ok ([102], [f32_of_Z 1], 1) /\
  vamana_search isort ix dist L 1 fs' indices distances = Ok ([103], [f32_of_Z 5], 1).
Proof.
  exists yard, yard_far, ["a"], ["a"; "b"], 2, [0], [f32_zero]. split; [exact yard_ok|]. split; [apply far_table_nan|].
  split; [apply all_apart_ok; reflexivity|]. split; [reflexivity|]. split; [apply yard_labels|]. split; [discriminate|].
  split; [intros x [<-|[]]; left; reflexivity|]. split; [unfold sorted_labels; sorted_now|]. split; [cbn; lia|]. split; vm_compute; reflexivity.
Qed.

Lemma dropped_worse : exists ix dist fs L indices distances, index_ok ix /\ (forall id, is_nan (dist id) = false) /\ no_ties (ix_n ix) dist /\
  length (pts_to_labels (ix_labels ix)) = ix_n ix /\ (forall ls, In ls (pts_to_labels (ix_labels ix)) -> sorted_labels ls) /\ ix_n ix <= L /\
  vamana_search isort ix dist L 1 fs indices distances = Ok ([102], [f32_of_Z 1], 1) /\
  vamana_search isort ix dist L 1 [] indices distances = Ok ([103], [f32_of_Z 5], 1).
Proof.
  exists yard, yard_far, ["a"], 4, [0], [f32_zero]. split; [exact yard_ok|]. split; [apply far_table_nan|].
  split; [apply all_apart_ok; reflexivity|]. split; [reflexivity|]. split; [apply yard_labels|]. split; [cbn; lia|]. split; vm_compute; reflexivity.
Qed.

(** IVF: four points in two lists. *)
Definition rack : ivf_index := mkIvf 4 (seq 0 4) 2 [[0; 3]; [1; 2]] (mkL [["a"]; ["b"]; ["b"; "c"]; ["a"]] false "0").
Definition rack_far := far_table [2; 4; 7; 3]%Z.
Definition rack_centers := far_table [5; 1]%Z.

Lemma rack_ok : ivf_ok rack /\ (forall ls, In ls (pts_to_labels (ivf_labels rack)) -> sorted_labels ls) /\ length (pts_to_labels (ivf_labels rack)) = ivf_n rack /\
  finite_distances (ivf_n rack) rack_far.
Proof.
  split; [split; [reflexivity|]|].
  { intros l id Hl Hid. cbn in Hl. cbn. destruct Hl as [<-|[<-|[]]]; cbn in Hid; lia. }
  split; [intros ls H; cbn in H; repeat (destruct H as [<-|H]; [unfold sorted_labels; sorted_now|]); destruct H|].
  split; [reflexivity|]. split; [apply far_table_nan|]. intros id Hid. cbn in Hid. do 4 (destruct id as [|id]; [reflexivity|]). lia.
Qed.

Lemma rack_case : ivf_ok rack /\ (forall ls, In ls (pts_to_labels (ivf_labels rack)) -> sorted_labels ls) /\ finite_distances (ivf_n rack) rack_far /\
  asks_more ["c"] ["b"; "c"] /\ asks_more ["b"; "c"] [] /\ sorted_labels ["b"; "c"] /\
  ivf_search pop_all 10 rack rack_centers rack_far 2 2 ["c"] [9; 9] None = Ok ([2; 9], None, 1, 1) /\
  ivf_search pop_all 10 rack rack_centers rack_far 2 2 ["b"; "c"] [9; 9] None = Ok ([1; 2], None, 2, 2) /\
  ivf_search pop_all 10 rack rack_centers rack_far 2 2 ["b"; "b"; "c"] [9; 9] None = Ok ([1; 2], None, 2, 2) /\
  ivf_search pop_all 10 rack rack_centers rack_far 2 2 [] [9; 9] None = Ok ([0; 3], None, 2, 4).
Proof.
  split; [apply rack_ok|]. split; [apply rack_ok|]. split; [apply rack_ok|]. split; [right; split; [discriminate|intros x [<-|[]]; right; left; reflexivity]|].
  split; [left; reflexivity|]. split; [unfold sorted_labels; sorted_now|]. repeat split; vm_compute; reflexivity.
Qed.

(** A label added out of order loses points that were found without it. *)
Lemma unsorted_worse : exists popf mbs ix cdist dist probe m fs fs' indices distances, pops popf /\ ivf_ok ix /\
  (forall ls, In ls (pts_to_labels (ivf_labels ix)) -> sorted_labels ls) /\ length (pts_to_labels (ivf_labels ix)) = ivf_n ix /\ finite_distances (ivf_n ix) dist /\
  asks_more fs fs' /\ probe = ivf_nc ix /\
  ivf_search popf mbs ix cdist dist probe m fs indices distances = Ok ([1], None, 1, 2) /\
  ivf_search popf mbs ix cdist dist probe m fs' indices distances = Ok ([2], None, 1, 1) /\ flt (dist 1) (dist 2) = true.
Proof.
  exists pop_all, 10, rack, rack_centers, rack_far, 2, 1, ["b"], ["c"; "b"], [9], None. split; [exact pop_all_pops|].
  split; [apply rack_ok|]. split; [apply rack_ok|]. split; [apply rack_ok|]. split; [apply rack_ok|].
  split; [right; split; [discriminate|intros x [<-|[]]; right; left; reflexivity]|]. repeat split; vm_compute; reflexivity.
Qed.

(** LSH: one table with no hyperplanes, so every point is a candidate. *)
Definition sieve : lsh_index := mkLsh 4 (seq 0 4) (mkL [["a"]; ["b"]; ["b"; "c"]; ["a"]] false "0") 0%N 0%N [].
Definition sieve_dot (a : list N) (b : list f32) : f32 := f32_zero.

Lemma sieve_case : l_tags sieve = seq 0 (l_n sieve) /\ lsh_new sieve /\ length (pts_to_labels (l_labels sieve)) = l_n sieve /\
  (forall ls, In ls (pts_to_labels (l_labels sieve)) -> sorted_labels ls) /\ finite_distances (l_n sieve) rack_far /\
  exists ix', lsh_build sieve_dot (fun _ => []) 0 [[]] sieve = Ok ix' /\
    (do r <- lsh_search sieve_dot ix' [] rack_far 2 ["c"] [9; 9] None; Ok (fst r)) = Ok ([2; 9], None, 1, 1) /\
    (do r <- lsh_search sieve_dot ix' [] rack_far 2 ["b"; "c"] [9; 9] None; Ok (fst r)) = Ok ([1; 2], None, 2, 2).
Proof.
  split; [reflexivity|]. split; [reflexivity|]. split; [reflexivity|]. split; [apply (proj1 (proj2 rack_ok))|]. split; [apply rack_ok|].
  eexists. split; [vm_compute; reflexivity|]. split; vm_compute; reflexivity.
Qed.
