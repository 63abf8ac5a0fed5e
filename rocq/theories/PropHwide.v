(** * Theorems: HNSW with a list that holds every reachable point (C119).

    [handed_down sortf L k ix inner dist entry]: the outermost level [ix] is entered at the points [entry], its start node or what
    the levels below report (HnswSpec.v).  [nearest_among k P dist ids]: [ids] lists the [k] points nearest to the query
    among those with property [P] (WideSpec.v).  [patient n prm]: the parameters overlook no candidate and cut no list
    in a build over [n] points (HwideSpec.v). *)
From Coq Require Import String List Arith Bool Sorting.Sorted Floats.SpecFloat.
From Verif Require Import Base Float32 PoolModel TopKSpec SortSpec SortInst GraphSpec GreedyModel SearchModel SearchSpec PruneModel BuildModel BuildWitness EntrySpec HnswModel HnswSpec RngSpec RngWitness
  WideSpec HwideSpec HwideProofs HwideProofs2 HwideCases.
Import ListNotations.

(** C119.  Any HNSW object: if the list holds every point that the outermost graph leads to from where it is entered, the
    answer is exact over these points. *)
Theorem C119_hnsw_wide : forall sortf ix inner dist L k filters indices distances,
  sorts sortf -> levels_ok (ix :: inner) -> 1 <= L -> (forall id, is_nan (dist id) = false) ->
  k <= L -> k <= length indices -> k <= length distances ->
  exists entry, handed_down sortf L k ix inner dist entry /\
    (at_most L (reach (fun _ => true) (ix_graph ix) (fun x => In x entry)) ->
     exists ids indices' distances',
       hnsw_search sortf (ix :: inner) dist L k filters indices distances = Ok (indices', distances', length ids) /\
       reports (ix_n ix) (ix_tags ix) dist indices' distances' ids /\
       nearest_among k (reach (fun _ => true) (ix_graph ix) (fun x => In x entry)) dist ids).
Proof. exact hnsw_wide. Qed.
Print Assumptions C119_hnsw_wide.

(** C119.  Whatever the samples, the threads and the order of the cleanup, a build with patient parameters leaves on every
    level a graph in which a walk leads from every point to every point. *)
Theorem C119_connected : forall sortf prm cs sp tags levels ix, hinput_ok sortf prm sp tags cs ->
  patient (sp_n sp) prm -> dissimilarity (sp_pd sp) -> hnsw_build sortf prm sp tags cs = Ok levels ->
  In ix levels -> strongly_connected (ix_n ix) (ix_graph ix).
Proof. exact hnsw_patient_strong. Qed.
Print Assumptions C119_connected.

(** C119.  So a search with L at least the number of points is exact. *)
Theorem C119_exact : forall sortf prm cs sp tags levels dist L k filters indices distances,
  hinput_ok sortf prm sp tags cs -> patient (sp_n sp) prm -> dissimilarity (sp_pd sp) -> hnsw_build sortf prm sp tags cs = Ok levels ->
  (forall id, is_nan (dist id) = false) -> sp_n sp <= L -> k <= L -> k <= length indices -> k <= length distances ->
  exists ids indices' distances',
    hnsw_search sortf levels dist L k filters indices distances = Ok (indices', distances', length ids) /\
    reports (sp_n sp) tags dist indices' distances' ids /\ nearest_among k (fun x => x < sp_n sp) dist ids.
Proof. exact hnsw_patient_exact. Qed.
Print Assumptions C119_exact.

Example C119_exact_case : hinput_ok isort (hp_prm 0) hp_space (seq 100 12) hp_choices /\ patient (sp_n hp_space) (hp_prm 0) /\ dissimilarity (sp_pd hp_space) /\
  hnsw_build isort (hp_prm 0) hp_space (seq 100 12) hp_choices = Ok (hp_levels 0) /\
  (do r <- hnsw_search isort (hp_levels 0) (rng_pd 9) 12 5 [] (repeat 0 5) (repeat f32_zero 5); Ok (fst (fst r), snd r)) = Ok ([109; 107; 111; 105; 103], 5).
Proof. exact hp_case_alpha. Qed.

Example C119_exact_topk_case : hinput_ok isort (hp_prm 1) hp_space (seq 100 12) hp_choices /\ patient (sp_n hp_space) (hp_prm 1) /\ dissimilarity (sp_pd hp_space) /\
  hnsw_build isort (hp_prm 1) hp_space (seq 100 12) hp_choices = Ok (hp_levels 1) /\
  (do r <- hnsw_search isort (hp_levels 1) (rng_pd 9) 12 5 [] (repeat 0 5) (repeat f32_zero 5); Ok (fst (fst r), snd r)) = Ok ([109; 107; 111; 105; 103], 5).
Proof. exact hp_case_topk. Qed.

(** With other parameters this fails: an HNSW object of two levels, built by one thread with L 100, R 64, C 750, alpha 1.2 from
    128 points, has a point that no search ever reports, not even one for that point, whatever L. *)
Theorem C119_hnsw_misses_refuted : exists sortf prm cs sp tags levels id, hinput_ok sortf prm sp tags cs /\ length cs = 2 /\
  sp_n sp = 128 /\ prm = mkB 100 64 750 f12 0 /\ (forall c, In c cs -> StronglySorted le (hc_sched c)) /\
  hnsw_build sortf prm sp tags cs = Ok levels /\ id < 128 /\
  (forall p, p < 128 -> p <> id -> fle f32_one (sp_pd sp p id) = true) /\ feq (sp_pd sp id id) f32_zero = true /\
  forall L k filters ind dst, 1 <= L -> k <= L -> k <= length ind -> k <= length dst ->
    exists ids ind' dst', hnsw_search sortf levels (fun p => sp_pd sp p id) L k filters ind dst = Ok (ind', dst', length ids) /\
      reports (sp_n sp) tags (fun p => sp_pd sp p id) ind' dst' ids /\ ~ In id ids.
Proof. exact ht_misses. Qed.
Print Assumptions C119_hnsw_misses_refuted.
