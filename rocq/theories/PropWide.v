(** * Theorems: graph search with a list that holds every reachable point (C115).

    [nearest_among k P dist ids]: [ids] lists the [k] points nearest to the query among those with property [P];
    [uncut], [unhurried]: parameters of a build that cut no list of neighbours, and overlook no candidate
    (WideSpec.v).  [reach acc g S x]: [x] is reached from [S] along edges to accepted points. *)
From Coq Require Import String List Arith Bool Sorting.Sorted Floats.SpecFloat.
From Verif Require Import Base Float32 PoolModel TopKSpec SortSpec SortInst GraphSpec FilterSpec GreedyModel SearchModel SearchSpec PruneModel BuildModel EntrySpec VamanaModel RngModel RngSpec RngWitness BuildWitness
  WideSpec WideProofs WideProofs3 WideProofs4 WideCases.
Import ListNotations.

(** C115.  Any Vamana index, any filters: if the list holds every point that the filters let the search reach,
    the answer is exact over these points. *)
Theorem C115_vamana_wide : forall sortf ix dist L k filters indices distances,
  sorts sortf -> index_ok ix -> 1 <= L -> (forall id, is_nan (dist id) = false) ->
  (filters = [] \/ length (pts_to_labels (ix_labels ix)) = ix_n ix) -> length filters <= L ->
  k <= L + 1 -> k <= length indices -> k <= length distances ->
  exists acc starts,
    filter_test (universal_of (ix_labels ix)) (pts_to_labels (ix_labels ix)) filters acc /\
    (filters = [] -> starts = [ix_start ix]) /\
    (filters <> [] -> forall id, In id starts <-> exists x, In x filters /\ medoid_of (ix_medoids ix) x = Some id) /\
    (at_most L (reach acc (ix_graph ix) (fun x => In x starts)) ->
     exists ids indices' distances',
       vamana_search sortf ix dist L k filters indices distances = Ok (indices', distances', length ids) /\
       reports (ix_n ix) (ix_tags ix) dist indices' distances' ids /\
       nearest_among k (reach acc (ix_graph ix) (fun x => In x starts)) dist ids).
Proof. exact vamana_wide. Qed.
Print Assumptions C115_vamana_wide.

(** C115.  Whatever the threads do, a build that cuts no list leads from the entry point to every point. *)
Theorem C115_vamana_reach : forall v ix md id, vinput_ok v -> uncut v -> sp_filtered (vi_sp v) = false ->
  vamana_build v = Ok (ix, md) -> id < sp_n (vi_sp v) -> reach (fun _ => true) (ix_graph ix) (fun x => x = ix_start ix) id.
Proof. exact vamana_uncut_reach. Qed.
Print Assumptions C115_vamana_reach.

(** C115.  So a search with L at least the number of points is exact. *)
Theorem C115_vamana_exact : forall v ix md dist L k ind dst, vinput_ok v -> uncut v -> sp_filtered (vi_sp v) = false ->
  vamana_build v = Ok (ix, md) -> (forall id, is_nan (dist id) = false) -> sp_n (vi_sp v) <= L ->
  k <= L + 1 -> k <= length ind -> k <= length dst ->
  exists ids ind' dst', vamana_search (vi_sort v) ix dist L k [] ind dst = Ok (ind', dst', length ids) /\
    reports (sp_n (vi_sp v)) (vi_tags v) dist ind' dst' ids /\ nearest_among k (fun x => x < sp_n (vi_sp v)) dist ids.
Proof. exact vamana_uncut_exact. Qed.
Print Assumptions C115_vamana_exact.

Example C115_vamana_exact_case : vinput_ok (wide_of false [] []) /\ uncut (wide_of false [] []) /\
  exists ix md, vamana_build (wide_of false [] []) = Ok (ix, md) /\
  (do r <- vamana_search isort ix (fun id => rng_pd id 4) 11 5 [] (repeat 0 5) (repeat f32_zero 5); Ok (fst (fst r), snd r))
    = Ok ([102; 104; 108; 106; 100], 5).
Proof. exact plain_runs. Qed.

(** C115.  Filtered Vamana: with parameters that overlook no candidate, alpha at least 1 and no universal points,
    a search with any labels is exact over the points that carry one of them. *)
Theorem C115_filtered_exact : forall v ix md fs dist L k ind dst,
  vinput_ok v -> unhurried v -> dissimilarity (sp_pd (vi_sp v)) -> sp_filtered (vi_sp v) = true ->
  no_universal (sp_labels (vi_sp v)) -> (forall ls, In ls (pts_to_labels (sp_labels (vi_sp v))) -> sorted_labels ls) ->
  vamana_build v = Ok (ix, md) ->
  sorted_labels fs -> fs <> [] -> (forall x, In x fs -> In x (map fst (vi_work v)) /\ universal_of (sp_labels (vi_sp v)) <> Some x) ->
  (forall id, is_nan (dist id) = false) ->
  sp_n (vi_sp v) <= L -> length fs <= L -> k <= L + 1 -> k <= length ind -> k <= length dst ->
  exists ids ind' dst', vamana_search (vi_sort v) ix dist L k fs ind dst = Ok (ind', dst', length ids) /\
    reports (sp_n (vi_sp v)) (vi_tags v) dist ind' dst' ids /\
    nearest_among k (fun id => exists x, In x fs /\ carries (pts_to_labels (sp_labels (vi_sp v))) id x) dist ids.
Proof. exact vamana_filtered_exact. Qed.
Print Assumptions C115_filtered_exact.

Example C115_filtered_exact_case : (vinput_ok mix_input /\ unhurried mix_input /\ dissimilarity (sp_pd (vi_sp mix_input)) /\ sp_filtered (vi_sp mix_input) = true /\
  no_universal (sp_labels (vi_sp mix_input)) /\ (forall ls, In ls (pts_to_labels (sp_labels (vi_sp mix_input))) -> sorted_labels ls) /\
  sorted_labels ["b"%string; "c"%string] /\
  (forall x, In x ["b"%string; "c"%string] -> In x (map fst (vi_work mix_input)) /\ universal_of (sp_labels (vi_sp mix_input)) <> Some x)) /\
  exists ix md, vamana_build mix_input = Ok (ix, md) /\ map fst (ix_medoids ix) = ["b"; "a"; "c"]%string /\
  (do r <- vamana_search isort ix (fun id => rng_pd id 4) 11 5 ["b"%string; "c"%string] (repeat 0 5) (repeat f32_zero 5); Ok (fst (fst r), snd r))
    = Ok ([106; 100; 101; 103; 105], 5).
Proof. split; [exact mix_hyps | exact mix_runs]. Qed.

(** C115.  Weaker parameters, universal labels allowed: a search with exactly the labels of a point reports the
    point, or as many points as asked for that are no farther. *)
Theorem C115_own_labels : forall v ix md id ls dist L k ind dst, vinput_ok v -> uncut v -> sp_filtered (vi_sp v) = true ->
  vamana_build v = Ok (ix, md) -> nth_error (pts_to_labels (sp_labels (vi_sp v))) id = Some ls ->
  (forall x, In x ls -> In x (map fst (vi_work v))) -> (forall id, is_nan (dist id) = false) ->
  sp_n (vi_sp v) <= L -> length ls <= L -> k <= L + 1 -> k <= length ind -> k <= length dst ->
  exists ids ind' dst', vamana_search (vi_sort v) ix dist L k ls ind dst = Ok (ind', dst', length ids) /\
    reports (sp_n (vi_sp v)) (vi_tags v) dist ind' dst' ids /\
    (In id ids \/ (length ids = k /\ forall z, In z ids -> fle (dist z) (dist id) = true)).
Proof. exact vamana_uncut_own. Qed.
Print Assumptions C115_own_labels.

(** C115.  Weaker parameters, one label on every point: a search with a label is exact over the points with it. *)
Theorem C115_one_label : forall v ix md x dist L k ind dst, vinput_ok v -> uncut v -> sp_filtered (vi_sp v) = true ->
  (forall ls, In ls (pts_to_labels (sp_labels (vi_sp v))) -> exists y, ls = [y] /\ universal_of (sp_labels (vi_sp v)) <> Some y) ->
  universal_of (sp_labels (vi_sp v)) <> Some x -> In x (map fst (vi_work v)) ->
  vamana_build v = Ok (ix, md) -> (forall id, is_nan (dist id) = false) ->
  sp_n (vi_sp v) <= L -> k <= L + 1 -> k <= length ind -> k <= length dst ->
  exists ids ind' dst', vamana_search (vi_sort v) ix dist L k [x] ind dst = Ok (ind', dst', length ids) /\
    reports (sp_n (vi_sp v)) (vi_tags v) dist ind' dst' ids /\
    nearest_among k (fun id => carries (pts_to_labels (sp_labels (vi_sp v))) id x) dist ids.
Proof. exact vamana_uncut_label. Qed.
Print Assumptions C115_one_label.

(** C115.  RelativeNG: with L at least the number of points the search is exact. *)
Theorem C115_rng_exact : forall sortf sp tags centroid order ix md dist L k filters indices distances,
  rng_input_ok sortf sp tags centroid order -> dissimilarity (sp_pd sp) ->
  rng_build sortf sp tags centroid order = Ok (ix, md) -> (forall id, is_nan (dist id) = false) ->
  sp_n sp <= L -> k <= L + 1 -> k <= length indices -> k <= length distances ->
  exists ids indices' distances',
    rng_search sortf ix dist L k filters indices distances = Ok (indices', distances', length ids) /\
    reports (sp_n sp) tags dist indices' distances' ids /\
    nearest_among k (fun x => x < sp_n sp) dist ids.
Proof. exact rng_wide. Qed.
Print Assumptions C115_rng_exact.

(** C115.  In a RelativeNG a walk leads from every point to every point, equal ones included. *)
Theorem C115_rng_strongly_connected : forall sortf sp tags centroid order ix md,
  rng_input_ok sortf sp tags centroid order -> dissimilarity (sp_pd sp) ->
  rng_build sortf sp tags centroid order = Ok (ix, md) -> strongly_connected (sp_n sp) (ix_graph ix).
Proof. exact rng_strong. Qed.
Print Assumptions C115_rng_strongly_connected.

Example C115_rng_case : (rng_input_ok isort rng_space (seq 100 11) rng_centroid rng_order /\ dissimilarity (sp_pd rng_space)) /\
  match rng_build isort rng_space (seq 100 11) rng_centroid rng_order with
  | Ok (ix, md) => do r <- rng_search isort ix (fun id => rng_pd id 4) 11 5 [] (repeat 0 5) (repeat f32_zero 5); Ok (fst (fst r), snd r)
  | _ => UB
  end = Ok ([102; 104; 108; 106; 100], 5).
Proof. exact rng_wide_case. Qed.

(** A Vamana index built by one thread with L 100, R 64, C 750, alpha 1.2 from 128 points has a point that no search
    ever reports, not even one for that point, whatever L. *)
Theorem C115_vamana_misses_refuted : exists v ix md id, vinput_ok v /\ sp_filtered (vi_sp v) = false /\
  sp_n (vi_sp v) = 128 /\ vi_prm v = mkB 100 64 750 f12 0 /\ StronglySorted le (vi_sched v) /\
  vamana_build v = Ok (ix, md) /\ id < 128 /\
  (forall p, p < 128 -> p <> id -> fle f32_one (sp_pd (vi_sp v) p id) = true) /\ feq (sp_pd (vi_sp v) id id) f32_zero = true /\
  forall L k ind dst, 1 <= L -> k <= L + 1 -> k <= length ind -> k <= length dst ->
    exists ids ind' dst', vamana_search (vi_sort v) ix (fun p => sp_pd (vi_sp v) p id) L k [] ind dst = Ok (ind', dst', length ids) /\
      reports (sp_n (vi_sp v)) (vi_tags v) (fun p => sp_pd (vi_sp v) p id) ind' dst' ids /\ ~ In id ids.
Proof. exact tight_misses. Qed.
Print Assumptions C115_vamana_misses_refuted.

(** With points that carry the universal label, a filtered search never reports a point that matches, although no
    list was cut and no candidate overlooked. *)
Theorem C115_universal_refuted : exists v ix md x id ls, vinput_ok v /\ unhurried v /\ dissimilarity (sp_pd (vi_sp v)) /\ sp_filtered (vi_sp v) = true /\
  (forall l, In l (pts_to_labels (sp_labels (vi_sp v))) -> sorted_labels l) /\ In x (map fst (vi_work v)) /\
  vamana_build v = Ok (ix, md) /\ nth_error (pts_to_labels (sp_labels (vi_sp v))) id = Some ls /\
  matches (universal_of (sp_labels (vi_sp v))) [x] ls /\
  forall L k ind dst, 1 <= L -> k <= L + 1 -> k <= length ind -> k <= length dst ->
    exists ids ind' dst', vamana_search (vi_sort v) ix (fun p => sp_pd (vi_sp v) p id) L k [x] ind dst = Ok (ind', dst', length ids) /\
      reports (sp_n (vi_sp v)) (vi_tags v) (fun p => sp_pd (vi_sp v) p id) ind' dst' ids /\ ~ In id ids.
Proof. exact uni_misses. Qed.
Print Assumptions C115_universal_refuted.
