(** * C120: sixteen points in space, indexed by one thread, for which a longer list gives a worse answer. *)
From Coq Require Import ZArith String List Arith Lia Bool Sorting.Sorted Sorting.Permutation.
From Verif Require Import Base Float32 Float32Facts PoolModel SortSpec SortInst GraphSpec GreedyModel SearchSpec SearchModel
  PruneModel BuildModel VamanaModel BuildWitness.
Import ListNotations.

Definition place : Type := (Z * Z * Z)%type.

(** The squared Euclidean distance; with coordinates this small the code computes it without rounding. *)
Definition apart2 (p q : place) : f32 :=
  let '(a, b, c) := p in let '(x, y, z) := q in f32_of_Z ((a - x) * (a - x) + (b - y) * (b - y) + (c - z) * (c - z)).

Definition places : list place :=
  [(5, 2, 6); (5, 3, 2); (3, 3, 5); (5, 2, 2); (3, 5, 7); (2, 7, 2); (6, 0, 1); (1, 0, 6);
   (4, 4, 1); (0, 5, 6); (6, 3, 6); (5, 1, 7); (4, 5, 7); (7, 4, 4); (1, 7, 6); (0, 6, 7)]%Z.
Definition place_of (i : nat) : place := nth i places (0, 0, 0)%Z.

(** The centroid is (57, 57, 75) / 16. *)
Definition place_centroid : list f32 :=
  map (fun p => let '(a, b, c) := p in
    fdiv (f32_of_Z ((16 * a - 57) * (16 * a - 57) + (16 * b - 57) * (16 * b - 57) + (16 * c - 75) * (16 * c - 75))) (f32_of_Z 256)) places.

Definition place_input : vinput :=
  mkV isort (mkSp 16 (fun a b => apart2 (place_of a) (place_of b)) false (mkL [] true "0"%string)) (mkB 10 2 750 f12 0) (seq 100 16)
    place_centroid [] (one_thread 16 40) (seq 0 16).

Definition place_index : gindex :=
  mkI 16 (seq 100 16) (mkL [] true "0"%string) [] 2
    [[10; 11]; [3; 8]; [0; 4]; [1; 6]; [12; 2]; [8; 9]; [3]; [2]; [1; 5]; [15; 4]; [0; 13]; [0]; [4; 2]; [10; 1]; [15; 4]; [9; 14]].

Lemma apart2_not_nan : forall p q, is_nan (apart2 p q) = false.
Proof. intros [[a b] c] [[x y] z]. apply f32_of_Z_not_nan. Qed.

Lemma place_input_ok : vinput_ok place_input.
Proof.
  constructor; cbn [place_input vi_sort vi_sp vi_prm vi_tags vi_centroid vi_work vi_sched vi_order sp_n sp_pd sp_filtered sp_labels pts_to_labels bp_L].
  - exact isort_sorts.
  - lia.
  - lia.
  - intros a b. apply apart2_not_nan.
  - reflexivity.
  - reflexivity.
  - assert (H : forallb (fun d => negb (is_nan d)) place_centroid = true) by (vm_compute; reflexivity).
    intros d Hd. rewrite forallb_forall in H. apply negb_true_iff. exact (H d Hd).
  - discriminate.
  - intros x r [].
  - intros i Hi. unfold one_thread in Hi. apply in_concat in Hi. destruct Hi as [l [Hl' Hi]]. apply in_map_iff in Hl'.
    destruct Hl' as [j [<- Hj]]. apply repeat_spec in Hi. subst. apply in_seq in Hj. lia.
  - apply Permutation_refl.
Qed.

Lemma place_built : vamana_build place_input = Ok (place_index, 2).
Proof. vm_compute. reflexivity. Qed.

(** The query (6, 7, 0). *)
Lemma built_worse : exists pts q prm v ix md,
  vinput_ok v /\ sp_pd (vi_sp v) = (fun a b => apart2 (pts a) (pts b)) /\ vi_prm v = prm /\ bp_L prm = 10 /\ bp_R prm = 2 /\ bp_C prm = 750 /\ bp_alpha prm = f12 /\
  vamana_build v = Ok (ix, md) /\
  vamana_search (vi_sort v) ix (fun id => apart2 (pts id) q) 2 1 [] [0] [f32_zero] = Ok ([108], [f32_of_Z 14], 1) /\
  vamana_search (vi_sort v) ix (fun id => apart2 (pts id) q) 3 1 [] [0] [f32_zero] = Ok ([102], [f32_of_Z 50], 1).
Proof.
  exists place_of, (6, 7, 0)%Z, (mkB 10 2 750 f12 0), place_input, place_index, 2.
  split; [exact place_input_ok|]. split; [reflexivity|]. split; [reflexivity|]. split; [reflexivity|]. split; [reflexivity|]. split; [reflexivity|]. split; [reflexivity|].
  split; [exact place_built|]. vm_compute. split; reflexivity.
Qed.
