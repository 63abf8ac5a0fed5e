(** * Theorems: lifetimes of index objects (C112).

    The heap lists the live blocks and how each was obtained.  [make_from_file] and [make_empty] are the two
    constructors, [run] a history of loads, builds, searches and saves whose exceptions are caught, [destroy]
    the destructor.  [KPlain] stands for Vamana, RelativeNG (which has no [make_empty]) and LSH.  In the
    conclusions [E] is what is lost; every block that was live before is still live. *)
From Coq Require Import List Arith Bool Permutation.
From Verif Require Import Base LifeModel LifeSpec LifeProofs3 LifeProofs4 LifeProofs5 LifeCases.
Import ListNotations.

(** C112.  Vamana, RelativeNG, LSH made from a file: the destructor is safe after every history; each load
    loses the old data and the old tags. *)
Theorem C112_plain_file : forall m f h0 o h1 cs o' h2, heap_ok h0 -> make_from_file KPlain m f h0 = Done (Some o, h1) -> run cs o h1 = Done (o', h2) ->
  exists h3 E, destroy o' h2 = Ok h3 /\ Permutation (h_live h3) (E ++ h_live h0) /\ length E = count loads_data cs + count loads_tags cs.
Proof. exact plain_file. Qed.
Print Assumptions C112_plain_file.

(** C112.  Vamana, LSH made for loading: the destructor is safe if some load got past its data file, otherwise
    it frees a pointer that was never set. *)
Theorem C112_plain_empty : forall m h0 o h1 cs o' h2, heap_ok h0 -> make_empty KPlain m h0 = Done (Some o, h1) -> run cs o h1 = Done (o', h2) ->
  if existsb (reads KPlain) cs
  then exists h3 E, destroy o' h2 = Ok h3 /\ Permutation (h_live h3) (E ++ h_live h0) /\ length E = (count loads_data cs - 1) + (count loads_tags cs - 1)
  else destroy o' h2 = UB.
Proof. exact plain_empty. Qed.
Print Assumptions C112_plain_empty.

Example C112_plain_case : heap_ok l_heap /\ (end_of (make_from_file KPlain true l_full l_heap) [Build [l_build]; Use true] = Left 2 /\
  end_of (make_from_file KPlain true l_full l_heap) [Load [l_full] true; Load [l_nodata] true; Load [l_notags] true; Use true] = Left 5 /\
  end_of (make_empty KPlain true l_heap) [Load [l_nodata] true] = Undefined /\
  end_of (make_empty KPlain true l_heap) [Load [l_nodata] true; Load [l_full] true; Use false; Load [l_full] true] = Left 4 /\
  end_of (make_empty KPlain true l_heap) [Use true] = Undefined).
Proof. exact (conj l_heap_ok l_plain). Qed.

(** C112.  HNSW made from a file: the destructor is safe after every history. *)
Theorem C112_hnsw_file : forall level m f h0 o h1 cs o' h2, heap_ok h0 -> make_from_file (KHnsw level) m f h0 = Done (Some o, h1) -> run cs o h1 = Done (o', h2) ->
  exists h3 E, destroy o' h2 = Ok h3 /\ Permutation (h_live h3) (E ++ h_live h0).
Proof. exact hnsw_file. Qed.
Print Assumptions C112_hnsw_file.

(** C112.  HNSW made for loading: safe if some load loaded every inner level and read the outermost data
    file, undefined otherwise. *)
Theorem C112_hnsw_empty : forall level m h0 o h1 cs o' h2, heap_ok h0 -> make_empty (KHnsw level) m h0 = Done (Some o, h1) -> run cs o h1 = Done (o', h2) ->
  if existsb (reads (KHnsw level)) cs
  then exists h3 E, destroy o' h2 = Ok h3 /\ Permutation (h_live h3) (E ++ h_live h0)
  else destroy o' h2 = UB.
Proof. exact hnsw_empty. Qed.
Print Assumptions C112_hnsw_empty.

(** Loading into an HNSW index made from a file follows a null pointer. *)
Theorem C112_hnsw_load_refuted : forall level m f h0 o h1 fs c us, make_from_file (KHnsw (S level)) m f h0 = Done (Some o, h1) ->
  run (Load fs c :: us) o h1 = Bad.
Proof. exact hnsw_load_bad. Qed.
Print Assumptions C112_hnsw_load_refuted.

Example C112_hnsw_case : end_of (make_from_file (KHnsw 2) true l_full l_heap) [Build [l_build; l_build; l_build]; Use true] = Left 2 /\
  end_of (make_from_file (KHnsw 2) true l_full l_heap) [Build [l_build; mkBuild true l_nodata true]; Build [l_build; mkBuild true l_notags true]] = Left 10 /\
  end_of (make_from_file (KHnsw 2) true l_full l_heap) [Load [l_full; l_full; l_full] true] = Undefined /\
  end_of (make_empty (KHnsw 2) true l_heap) [Load [l_full; l_full; l_full] true; Use true; Build [l_build; l_build; l_build]] = Left 12 /\
  end_of (make_empty (KHnsw 2) true l_heap) [Load [l_full; l_full; l_full] true; Use true] = Left 2 /\
  end_of (make_empty (KHnsw 2) true l_heap) [Load [l_full; l_notags; l_full] true] = Undefined /\
  existsb (reads (KHnsw 2)) [Load [l_full; l_notags; l_full] true] = false /\ existsb (reads (KHnsw 2)) [Load [l_notags; l_full; l_full] true] = true.
Proof. exact l_hnsw. Qed.

(** C112.  IVF, made either way: the destructor is safe if the centres were last set by a build; if they
    were never set, or last set by a load, it is undefined. *)
Theorem C112_ivf : forall h0 o h1 cs o' h2, heap_ok h0 -> made KIvf h0 o h1 -> run cs o h1 = Done (o', h2) ->
  match fold_left centres cs None with
  | Some FArr => exists h3 E, destroy o' h2 = Ok h3 /\ Permutation (h_live h3) (E ++ h_live h0)
  | _ => destroy o' h2 = UB
  end.
Proof. exact ivf_life. Qed.
Print Assumptions C112_ivf.

(** An IVF index loaded from complete files, searched and destroyed: centres from aligned_alloc meet delete[]. *)
Theorem C112_ivf_search_refuted : forall h0 o h1 f fs us, heap_ok h0 -> make_empty KIvf true h0 = Done (Some o, h1) -> full f = true -> forallb is_use us = true ->
  exists o' h2, run (Load (f :: fs) true :: us) o h1 = Done (o', h2) /\ destroy o' h2 = UB.
Proof. exact ivf_search. Qed.
Print Assumptions C112_ivf_search_refuted.

Example C112_ivf_case : end_of (make_from_file KIvf true l_full l_heap) [Build [l_build]; Use true] = Left 2 /\
  end_of (make_from_file KIvf true l_full l_heap) [] = Undefined /\
  end_of (make_empty KIvf true l_heap) [Load [l_full] true; Use true] = Undefined /\
  end_of (make_empty KIvf true l_heap) [Load [l_full] true; Build [l_build]; Use true] = Left 3 /\
  fold_left centres [Load [l_full] true; Build [l_build]; Use true] None = Some FArr.
Proof. exact l_ivf. Qed.

(** C112.  A build tool: made from a file, one build (inner levels made from good files), searches and saves,
    destroyed: nothing is lost and nothing else freed. *)
Theorem C112_build_tool : forall k m f h0 o h1 ins us o' h2, heap_ok h0 ->
  make_from_file k m f h0 = Done (Some o, h1) -> forallb (fun i => full (temp i)) ins = true -> (k = KIvf -> exists i ins', ins = i :: ins' /\ params_ok i = true) ->
  forallb is_use us = true -> run (Build ins :: us) o h1 = Done (o', h2) ->
  exists h3, destroy o' h2 = Ok h3 /\ Permutation (h_live h3) (h_live h0).
Proof. exact build_then_use. Qed.
Print Assumptions C112_build_tool.

(** C112.  A search tool, but for IVF: made for loading, one load of complete files, searches: the same. *)
Theorem C112_search_tool : forall k m h0 o h1 f fs c us o' h2, heap_ok h0 -> k <> KIvf ->
  make_empty k m h0 = Done (Some o, h1) -> full f = true -> forallb full fs = true -> forallb is_use us = true ->
  run (Load (f :: fs) c :: us) o h1 = Done (o', h2) ->
  exists h3, destroy o' h2 = Ok h3 /\ Permutation (h_live h3) (h_live h0).
Proof. exact load_then_use. Qed.
Print Assumptions C112_search_tool.

(** A second build loses the centres of the first, *)
Theorem C112_ivf_two_builds_refuted : forall m f h0 o h1 i ins j jns o' h2, heap_ok h0 -> make_from_file KIvf m f h0 = Done (Some o, h1) ->
  params_ok i = true -> params_ok j = true -> run [Build (i :: ins); Build (j :: jns)] o h1 = Done (o', h2) ->
  exists h3, destroy o' h2 = Ok h3 /\ length (h_live h3) = length (h_live h0) + 1.
Proof. exact ivf_two_builds. Qed.
Print Assumptions C112_ivf_two_builds_refuted.

(** and for HNSW the five blocks of every inner level. *)
Theorem C112_hnsw_two_builds_refuted : forall level m f h0 o h1 ins jns o1 h2 o2 h3, heap_ok h0 -> make_from_file (KHnsw level) m f h0 = Done (Some o, h1) ->
  step (Build ins) o h1 = Done (o1, h2) -> step (Build jns) o1 h2 = Done (o2, h3) ->
  exists h4, destroy o2 h3 = Ok h4 /\ length (h_live h4) = length (h_live h0) + 5 * level.
Proof. exact hnsw_two_builds. Qed.
Print Assumptions C112_hnsw_two_builds_refuted.

Example C112_two_builds_case : exists o1 h1 o2 h2 o3 h3, make_from_file (KHnsw 2) true l_full l_heap = Done (Some o1, h1) /\ step (Build [l_build; l_build; l_build]) o1 h1 = Done (o2, h2) /\
  step (Build [l_build; l_build; l_build]) o2 h2 = Done (o3, h3) /\
  end_of (make_from_file (KHnsw 2) true l_full l_heap) [Build [l_build; l_build; l_build]; Build [l_build; l_build; l_build]] = Left 12 /\
  end_of (make_from_file KIvf true l_full l_heap) [Build [l_build]; Build [l_build]] = Left 3.
Proof. exact l_two. Qed.

(** LSH and IVF can be copied; destroying the object and its copy frees the same blocks twice. *)
Theorem C112_copy_refuted : forall h0 o h1 cs o' h2 h3, heap_ok h0 -> made KPlain h0 o h1 -> run cs o h1 = Done (o', h2) -> destroy o' h2 = Ok h3 -> destroy o' h3 = UB.
Proof. exact plain_copy. Qed.
Print Assumptions C112_copy_refuted.

(**  *)
Theorem C112_ivf_copy_refuted : forall h0 o h1 cs o' h2 h3, heap_ok h0 -> made KIvf h0 o h1 -> run cs o h1 = Done (o', h2) -> destroy o' h2 = Ok h3 -> destroy o' h3 = UB.
Proof. exact ivf_copy. Qed.
Print Assumptions C112_ivf_copy_refuted.

Example C112_copy_case : match make_from_file KPlain true l_full l_heap with Done (Some o, h) => match destroy o h with Ok h3 => destroy o h3 = UB | _ => False end | _ => False end /\
  match make_from_file KIvf true l_full l_heap with Done (Some o, h) => match run [Build [l_build]] o h with Done (o', h') => match destroy o' h' with Ok h3 => destroy o' h3 = UB | _ => False end | _ => False end | _ => False end.
Proof. exact l_copy. Qed.

(** C112.  After a build that returned, a search or a save finds everything it reads, *)
Theorem C112_use_built : forall k m f h0 o h1 ins o' h2 r, make_from_file k m f h0 = Done (Some o, h1) -> step (Build ins) o h1 = Done (o', h2) ->
  step (Use r) o' h2 = if r then Done (o', h2) else Threw (o', h2).
Proof. exact use_built. Qed.
Print Assumptions C112_use_built.

(** and after a load that returned. *)
Theorem C112_use_loaded : forall k m h0 o h1 fs c o' h2 r, make_empty k m h0 = Done (Some o, h1) -> step (Load fs c) o h1 = Done (o', h2) ->
  step (Use r) o' h2 = if r then Done (o', h2) else Threw (o', h2).
Proof. exact use_loaded. Qed.
Print Assumptions C112_use_loaded.

(** Before, it does not: an index made for loading has no data, *)
Theorem C112_use_empty_refuted : forall k m h0 o h1 r cs, make_empty k m h0 = Done (Some o, h1) -> run (Use r :: cs) o h1 = Bad.
Proof. exact use_empty. Qed.
Print Assumptions C112_use_empty_refuted.

(** one of IVF, or of HNSW with inner levels, made from a file no centres or no inner levels, *)
Theorem C112_use_unbuilt_refuted : forall k m f h0 o h1 r cs, match k with KPlain | KHnsw O => False | KIvf | KHnsw (S _) => True end ->
  make_from_file k m f h0 = Done (Some o, h1) -> run (Use r :: cs) o h1 = Bad.
Proof. exact use_unbuilt. Qed.
Print Assumptions C112_use_unbuilt_refuted.

(** nor when an HNSW build stopped before the first inner level was made. *)
Theorem C112_use_stopped_refuted : forall level m f h0 o h1 i ins r cs, heap_ok h0 -> make_from_file (KHnsw (S level)) m f h0 = Done (Some o, h1) ->
  params_ok i = false \/ data_ok (temp i) = false -> run (Build (i :: ins) :: Use r :: cs) o h1 = Bad.
Proof. exact use_stopped. Qed.
Print Assumptions C112_use_stopped_refuted.

Example C112_use_case : (exists o h o' h', make_from_file (KHnsw 2) true l_full l_heap = Done (Some o, h) /\ step (Build [l_build; l_build; l_build]) o h = Done (o', h')) /\
  (exists o h o' h', make_empty (KHnsw 2) true l_heap = Done (Some o, h) /\ step (Load [l_full; l_full; l_full] true) o h = Done (o', h')) /\
  heap_ok l_heap /\ data_ok (temp (mkBuild true l_nodata true)) = false.
Proof. exact l_use. Qed.
