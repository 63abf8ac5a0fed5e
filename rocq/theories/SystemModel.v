(** * Whole programs: constructing an index from the user's files, building, saving,
    loading, and the search tools that answer a file of queries.

    src/index.cpp:74-105, tests/build_vamana.cpp:17-50, tests/search_vamana.cpp:22-186
    (tests/search_relng.cpp, tests/search_hnsw.cpp, tests/search_ivf.cpp alike). *)
From Coq Require Import NArith String List Arith Bool.
From Verif Require Import Base Float32 Bytes StreamModel BinModel BinSpec TextModel PoolModel GraphSpec GreedyModel SearchModel HnswModel
  PruneModel BuildModel EntryModel VamanaModel ClosestModel FlatModel IvfModel IndexFileModel.
Import ListNotations.
Local Open Scope string_scope.

(** src/index.cpp:89-104: the tag map. *)
Definition tag_map (n : N) (list_of_tags : list N) : res (list N) :=
  if negb (N.eqb (N.of_nat (length list_of_tags)) n) && negb (Nat.eqb (length list_of_tags) 0) then Throw
  else if negb (Nat.eqb (length list_of_tags) 0) then Ok list_of_tags
  else Ok (map N.of_nat (seq 0 (N.to_nat n))).

(** src/index.cpp:74-106: the constructor that reads the data file, takes the tags and
    parses the label file unless its name is empty.  The distance functions are chosen
    by the metric, see DistModel.v. *)
Definition construct (w : nat) (g : nat -> list N) (data_name : string) (list_of_tags : list N) (labels_name : string) (d : fs) : res ann :=
  do r <- load_aligned_bin w (g 0) (g 1) (d data_name);
  let '(n, dim, adim, rows) := r in
  do tags <- tag_map n list_of_tags;
  let a := mkA n dim adim rows tags false [] [] true "0" in
  if String.eqb labels_name "" then Ok a
  else parse_label_file (d labels_name) (mkA n dim adim rows tags true [] [] true "0").

(** ** What the search and build models read of an object.  Counts and ids are [N] in
    the file models and [nat] in the others. *)
Definition labels_view (a : ann) : label_ctx := mkL (a_pts a) (a_use_univ a) (a_univ a).

Definition ids_view (l : list N) : list nat := map N.to_nat l.

Definition graph_view (x : gann) : gindex :=
  mkI (N.to_nat (a_n (g_ann x))) (ids_view (a_tags (g_ann x))) (labels_view (g_ann x))
    (map (fun p => (fst p, N.to_nat (snd p))) (g_medoids x)) (N.to_nat (g_start x)) (map ids_view (g_lists x)).

Definition ivf_view (a : ann) (k : N) (lists : list (list N)) : ivf_index :=
  mkIvf (N.to_nat (a_n a)) (ids_view (a_tags a)) (N.to_nat k) (map ids_view lists) (labels_view a).

(** A vector in memory: the bytes of its aligned elements.  A distance function is any
    function of two such vectors. *)
Definition vec := list (option N).

(** The data set a build sees. *)
Definition space_view (pd : vec -> vec -> f32) (a : ann) : space :=
  mkSp (N.to_nat (a_n a)) (fun i j => pd (nth i (a_data a) []) (nth j (a_data a) [])) (a_filtered a) (labels_view a).

(** The object after a build that gave index [ix] and maximum degree [md]: the part of
    the constructor is unchanged. *)
Definition built (a : ann) (ix : gindex) (md : nat) : gann :=
  mkGA a (N.of_nat md) (N.of_nat (ix_start ix)) (map (map N.of_nat) (ix_graph ix))
    (map (fun p => (fst p, N.of_nat (snd p))) (ix_medoids ix)).

(** tests/build_vamana.cpp:17-50: construct, build, save.  [prm] are the parameters,
    [cent], [work], [sched], [order] the centroid distances, random numbers and
    schedules of VamanaModel. *)
Definition vamana_tool (w : nat) (g : nat -> list N) (sortf : list neighbor -> list neighbor) (pd : vec -> vec -> f32)
    (data_name : string) (list_of_tags : list N) (labels_name : string) (prm : bparams)
    (cent : list f32) (work : list (label * list nat)) (sched order : list nat) (save_path : string) (d : fs) : res (gann * fs) :=
  do a <- construct w g data_name list_of_tags labels_name d;
  do r <- vamana_build (mkV sortf (space_view pd a) prm (ids_view (a_tags a)) cent work sched order);
  let x := built a (fst r) (snd r) in
  do d' <- save_vamana w save_path x d;
  Ok (x, d').

(** ** The search tools *)

(** A search of one index: query vector, L (or probe width), buffers behind the
    pointers passed; gives the buffers and the count. *)
Definition searcher := vec -> nat -> list nat -> list f32 -> res (list nat * list f32 * nat).

Definition query_dist (qd : vec -> vec -> f32) (a : ann) (q : vec) : nat -> f32 := fun id => qd q (nth id (a_data a) []).

Definition vamana_searcher (sortf : list neighbor -> list neighbor) (qd : vec -> vec -> f32) (filters : list label) (k : nat) (x : gann) : searcher :=
  fun q L ids ds => vamana_search sortf (graph_view x) (query_dist qd (g_ann x) q) L k filters ids ds.

Definition rng_searcher (sortf : list neighbor -> list neighbor) (qd : vec -> vec -> f32) (k : nat) (x : gann) : searcher :=
  fun q L ids ds => rng_search sortf (graph_view x) (query_dist qd (g_ann x) q) L k [] ids ds.

(** Levels outermost first; files number them from the innermost (src/hnsw.cpp:45-47). *)
Definition hnsw_searcher (sortf : list neighbor -> list neighbor) (qd : vec -> vec -> f32) (k : nat) (levels : list gann) : searcher :=
  fun q L ids ds =>
    match levels with
    | [] => UB
    | x :: _ => hnsw_search sortf (map graph_view levels) (query_dist qd (g_ann x) q) L k [] ids ds
    end.

(** The elements of each centre: in the array of a built index, and in the rows of a
    loaded one. *)
Definition centres_of_array (adim k : nat) (centers : list N) : list (list (option N)) :=
  map (fun c => map (fun j => nth_error centers (c * adim + j)) (seq 0 adim)) (seq 0 k).
Definition centres_of_rows (adim : nat) (rows : list vec) : list (list (option N)) :=
  map (fun row => map (mem_elem 4 row) (seq 0 adim)) rows.

(** [cd q c] is the computed distance of query q to a centre with elements c; the
    distances to all centres are computed first (src/math_utils.cpp:60-75).  The buffers
    are never null in the tools. *)
Definition ivf_searcher (popf : list (nat * f32) -> list (nat * f32)) (mbs : nat) (qd : vec -> vec -> f32) (cd : vec -> list (option N) -> f32)
    (filters : list label) (k : nat) (a : ann) (centres : list (list (option N))) (nc : N) (lists : list (list N)) : searcher :=
  fun q probe ids ds =>
    do r <- ivf_search popf mbs (ivf_view a nc lists) (fun c => nth c (map (cd q) centres) f32_zero) (query_dist qd a q) probe k filters ids (Some ds);
    let '(ids', ds', cnt, _) := r in
    match ds' with Some v => Ok (ids', v, cnt) | None => UB end.

(** The query vector [query + i * query_aligned_dim] as the search reads it: as many
    elements as the index's vectors have.  Beyond the array of queries the read is
    undefined (taken so even if the search computes no distance). *)
Definition query_vec (w : nat) (adim qadim : N) (mem : list vec) (i : nat) : res vec :=
  let off := i * (N.to_nat qadim * w) in
  let len := N.to_nat adim * w in
  let m := concat mem in
  if (length m <? off + len)%nat then UB else Ok (firstn len (skipn off m)).

(** tests/search_vamana.cpp:126-131: iteration [i] of the parallel loop: the pointers
    point into the arrays of all results. *)
Definition answer_one (w : nat) (adim qadim : N) (mem : list vec) (srch : searcher) (k L : nat) (i : nat) (st : list nat * list f32)
  : res (list nat * list f32) :=
  do q <- query_vec w adim qadim mem i;
  do r <- srch q L (skipn (i * k) (fst st)) (skipn (i * k) (snd st));
  let '(ids, ds, _) := r in
  Ok (firstn (i * k) (fst st) ++ ids, firstn (i * k) (snd st) ++ ds)%list.

(** tests/search_vamana.cpp:124-135: the iterations in the order [order].  They write
    disjoint parts of the arrays and read nothing another one writes, so any
    interleaving of the threads amounts to some order. *)
Fixpoint answer_all (w : nat) (adim qadim : N) (mem : list vec) (srch : searcher) (k L : nat) (order : list nat) (st : list nat * list f32)
  : res (list nat * list f32) :=
  match order with
  | [] => Ok st
  | i :: rest => do st' <- answer_one w adim qadim mem srch k L i st; answer_all w adim qadim mem srch k L rest st'
  end.

(** tests/search_vamana.cpp:113-167: one value of L, on zeroed arrays (vector::resize of
    an empty vector).  Without queries latency_stats[0] is read from an empty vector.
    Recall and timing are printed only and not modelled; no truth set is given. *)
Definition run_test (w : nat) (adim qadim : N) (mem : list vec) (srch : searcher) (nq k L : nat) (order : list nat) : res (list nat) :=
  do st <- answer_all w adim qadim mem srch k L order (repeat 0 (k * nq), repeat f32_zero (k * nq));
  if (nq =? 0)%nat then UB else Ok (fst st).

Fixpoint run_tests (w : nat) (adim qadim : N) (mem : list vec) (srch : searcher) (nq k : nat) (Ls : list N) (order : N -> list nat)
  : res (list (N * list nat)) :=
  match Ls with
  | [] => Ok []
  | L :: rest =>
      do ids <- run_test w adim qadim mem srch nq k (N.to_nat L) (order L);
      do r <- run_tests w adim qadim mem srch nq k rest order;
      Ok ((L, ids) :: r)
  end.

(** tests/search_vamana.cpp:174-175 *)
Definition result_name (prefix : string) (L : N) : string := prefix ++ "_" ++ show L ++ "_idx_uint32.bin".

(** tests/search_vamana.cpp:171-179 *)
Fixpoint save_results (prefix : string) (nq k : N) (rs : list (N * list nat)) (d : fs) : res fs :=
  match rs with
  | [] => Ok d
  | (L, ids) :: rest =>
      do b <- save_bin 4 (map N.of_nat ids) nq k;
      save_results prefix nq k rest (fs_set d (result_name prefix L) (Some b))
  end.

(** tests/search_vamana.cpp:69-179 behind the arguments: [args] are the values of L on
    the command line, [least] the smallest accepted (recall_at; 1 for IVF).  [None]: the
    tool returns -1. *)
Definition search_tool (w : nat) (g1 g2 : list N) (query_name prefix : string) (k : N) (least : N) (args : list N)
    (order : N -> list nat) (load : fs -> res (N * searcher)) (d : fs) : res (option fs) :=
  match filter (fun L => (least <=? L)%N) args with
  | [] => Ok None
  | Ls =>
      do r <- load_aligned_bin w g1 g2 (d query_name);
      let '(nq, _, qadim, mem) := r in
      do ix <- load d;
      let (adim, srch) := ix : N * searcher in
      do rs <- run_tests w adim qadim mem srch (N.to_nat nq) (N.to_nat k) Ls order;
      do d' <- save_results prefix nq k rs d;
      Ok (Some d')
  end.

(** The index each tool loads: tests/search_vamana.cpp:96-97 and the like. *)
Definition load_for_vamana (w : nat) (g : nat -> list N) (sortf : list neighbor -> list neighbor) (qd : vec -> vec -> f32)
    (filters : list label) (k : nat) (name : string) (d : fs) : res (N * searcher) :=
  do r <- load_vamana w g name (new_gann 0 0 0) d;
  Ok (a_adim (g_ann (fst r)), vamana_searcher sortf qd filters k (fst r)).

Definition load_for_rng (w : nat) (g : nat -> list N) (sortf : list neighbor -> list neighbor) (qd : vec -> vec -> f32)
    (k : nat) (name : string) (d : fs) : res (N * searcher) :=
  do r <- load_rng w g name (new_gann 0 0 0) d;
  Ok (a_adim (g_ann (fst r)), rng_searcher sortf qd k (fst r)).

(** tests/search_hnsw.cpp:90-91; [levels] objects, innermost first. *)
Definition load_for_hnsw (w : nat) (g : nat -> list N) (sortf : list neighbor -> list neighbor) (qd : vec -> vec -> f32)
    (k : nat) (levels : nat) (name : string) (d : fs) : res (N * searcher) :=
  do rs <- load_hnsw w g name 0 (repeat (new_gann 0 0 0) levels) d;
  match rev (map fst rs) with
  | [] => UB
  | x :: inner => Ok (a_adim (g_ann x), hnsw_searcher sortf qd k (x :: inner))
  end.

(** tests/search_ivf.cpp:73-74 *)
Definition load_for_ivf (w : nat) (g : nat -> list N) (popf : list (nat * f32) -> list (nat * f32)) (mbs : nat) (qd : vec -> vec -> f32)
    (cd : vec -> list (option N) -> f32) (filters : list label) (k : nat) (name : string) (d : fs) : res (N * searcher) :=
  do r <- load_ivf w g name (mkIA (new_ann 0 0) 0 [] []) d;
  let '(a, nc, rows, lists) := r in
  Ok (a_adim a, ivf_searcher popf mbs qd cd filters k a (centres_of_rows (N.to_nat (a_adim a)) rows) nc lists).
