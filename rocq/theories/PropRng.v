(** * Theorems: RelativeNG (C23, C24, C21, C69, C70).

    [sp] is the data set (pairwise distances, labels), [order] the order in which
    the iterations of the parallel loop run, [centroid] the distances to the
    centroid.  [rng_input_ok]: at least ten points, no NaN, one tag per point, every
    location run once. *)
From Coq Require Import ZArith SpecFloat String List Arith Lia Bool Sorting.Sorted Sorting.Permutation.
From Verif Require Import Base Float32 Float32Facts DivFacts PoolModel SortSpec SortInst GraphSpec SearchModel PruneModel
  EntrySpec FilterSpec RngModel RngSpec RngProofs RngWitness.
Import ListNotations.

(** C23.  Searching for the q-th indexed vector returns, for every L >= 1, a first
    result at distance zero. *)
Theorem C23_rng_finds_indexed : forall sortf sp tags centroid order ix md q L res_count filters ind dst,
  rng_input_ok sortf sp tags centroid order -> dissimilarity (sp_pd sp) ->
  rng_build sortf sp tags centroid order = Ok (ix, md) ->
  q < sp_n sp -> 1 <= L -> 1 <= res_count <= L + 1 -> res_count <= length ind -> res_count <= length dst ->
  exists ind' dst' cnt id, rng_search sortf ix (fun id => sp_pd sp id q) L res_count filters ind dst = Ok (ind', dst', cnt) /\
    1 <= cnt /\ id < sp_n sp /\ nth_error ind' 0 = nth_error tags id /\ nth_error dst' 0 = Some (sp_pd sp id q) /\
    feq (sp_pd sp id q) f32_zero = true.
Proof. exact rng_search_finds. Qed.
Print Assumptions C23_rng_finds_indexed.

(** C23.  If no other point is at distance zero, it is q's own tag. *)
Theorem C23_rng_finds_itself : forall sortf sp tags centroid order ix md q L res_count filters ind dst,
  rng_input_ok sortf sp tags centroid order -> dissimilarity (sp_pd sp) ->
  rng_build sortf sp tags centroid order = Ok (ix, md) ->
  q < sp_n sp -> (forall p, p < sp_n sp -> p <> q -> feq (sp_pd sp p q) f32_zero = false) ->
  1 <= L -> 1 <= res_count <= L + 1 -> res_count <= length ind -> res_count <= length dst ->
  exists ind' dst' cnt, rng_search sortf ix (fun id => sp_pd sp id q) L res_count filters ind dst = Ok (ind', dst', cnt) /\
    1 <= cnt /\ nth_error ind' 0 = nth_error tags q.
Proof. exact rng_search_exact. Qed.
Print Assumptions C23_rng_finds_itself.

(** C24.  From every node a walk that gets strictly closer at every step ends at a
    point at distance zero from the target. *)
Theorem C24_rng_connected : forall sortf sp tags centroid order ix md,
  rng_input_ok sortf sp tags centroid order -> dissimilarity (sp_pd sp) ->
  rng_build sortf sp tags centroid order = Ok (ix, md) ->
  forall q x, q < sp_n sp -> x < sp_n sp ->
  exists y, y < sp_n sp /\ descends (ix_graph ix) (fun id => sp_pd sp id q) x y /\ feq (sp_pd sp y q) f32_zero = true.
Proof. exact rng_connected. Qed.
Print Assumptions C24_rng_connected.

(** C24.  The build succeeds, whatever the order of its iterations, with a
    well-formed index, lists without repetition, and the relative neighbourhood
    condition. *)
Theorem C24_rng_build : forall sortf sp tags centroid order, rng_input_ok sortf sp tags centroid order ->
  dissimilarity (sp_pd sp) ->
  exists ix md, rng_build sortf sp tags centroid order = Ok (ix, md) /\ index_ok ix /\
    ix_n ix = sp_n sp /\ ix_tags ix = tags /\ ix_labels ix = sp_labels sp /\
    first_min centroid (ix_start ix) /\ max_length (ix_graph ix) md /\
    (forall x l, nth_error (ix_graph ix) x = Some l -> NoDup l /\ forall y, In y l -> y < sp_n sp /\ y <> x) /\
    rng_covers (sp_n sp) (sp_pd sp) (ix_graph ix).
Proof. exact rng_build_ok. Qed.
Print Assumptions C24_rng_build.

(** C21.  One to nine points: division by zero in the first iteration. *)
Theorem C21_rng_small_data : forall sortf sp tags centroid loc rest, 1 <= sp_n sp < 10 ->
  length centroid = sp_n sp -> (forall d, In d centroid -> is_nan d = false) ->
  rng_build sortf sp tags centroid (loc :: rest) = UB.
Proof. exact rng_small_build. Qed.
Print Assumptions C21_rng_small_data.

(** C69.  A second build on the same object doubles every list. *)
Theorem C69_rng_rebuild_doubles : forall sortf sp tags centroid order, rng_input_ok sortf sp tags centroid order ->
  exists g1 g2, rng_loop sortf sp (repeat [] (sp_n sp)) order = Ok g1 /\ rng_loop sortf sp g1 order = Ok g2 /\
    forall x l, nth_error g1 x = Some l -> nth_error g2 x = Some (l ++ l).
Proof. exact rng_rebuild. Qed.
Print Assumptions C69_rng_rebuild_doubles.

(** C70.  RelativeNG takes a filter but reports points that do not match it. *)
Theorem C70_rng_filter_refuted : exists sortf sp tags centroid order ix md dist L f ind dst ind' dst' cnt id labels,
  rng_input_ok sortf sp tags centroid order /\ rng_build sortf sp tags centroid order = Ok (ix, md) /\
  rng_search sortf ix dist L 1 [f] ind dst = Ok (ind', dst', cnt) /\ cnt = 1 /\
  nth_error ind' 0 = nth_error tags id /\ NoDup tags /\ nth_error (pts_to_labels (sp_labels sp)) id = Some labels /\
  ~ matches (universal_of (sp_labels sp)) [f] labels.
Proof. exact rng_filter_witness. Qed.
Print Assumptions C70_rng_filter_refuted.

(** Concrete cases: eleven points on a line, two of them equal (RngWitness.v). *)
Definition rng_tags : list nat := map (fun i => 100 + i) (seq 0 11).
Example rng_case_hyps : rng_input_ok isort rng_space rng_tags rng_centroid rng_order /\
  dissimilarity (sp_pd rng_space).
Proof. split; [apply rng_input_ok_any; intros C; discriminate C|exact rng_pd_dissimilarity]. Qed.

Example rng_case_run :
  match rng_build isort rng_space rng_tags rng_centroid rng_order with
  | Ok (ix, md) => (ix_start ix, md, ix_graph ix,
      do r <- rng_search isort ix (fun id => rng_pd id 9) 1 2 [] (repeat 0 3) (repeat f32_zero 3);
      Ok (fst (fst r), snd r))
  | _ => (0, 0, [], UB)
  end = (1, 3, [[6]; [8; 10]; [4; 6; 8]; [10; 5]; [2; 6; 8]; [3; 7]; [0; 2]; [5; 9]; [1; 2]; [7]; [1; 3]],
         Ok ([109; 107; 0], 1)).
Proof. vm_compute. reflexivity. Qed.
