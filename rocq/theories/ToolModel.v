(** * The build tools of RelativeNG, HNSW, IVF and LSH, and the files of an LSH index.

    tests/build_relng.cpp:16-38, tests/build_hnsw.cpp:16-48, tests/build_ivf.cpp:16-38,
    tests/build_lsh.cpp:5-21, tests/search_lsh.cpp:17-180. *)
From Coq Require Import NArith String List Arith Bool.
From Verif Require Import Base Float32 Bytes StreamModel BinModel TextModel PoolModel GreedyModel SearchModel HnswModel PruneModel BuildModel EntryModel
  RngModel ClosestModel FlatModel IvfModel LshModel IndexFileModel SystemModel.
Import ListNotations.
Local Open Scope string_scope.

(** tests/build_relng.cpp:16-38: construct (without labels), build, save.  The tool
    passes no tags; any list is allowed here. *)
Definition rng_tool (w : nat) (g : nat -> list N) (sortf : list neighbor -> list neighbor) (pd : vec -> vec -> f32)
    (data_name : string) (list_of_tags : list N) (cent : list f32) (order : list nat) (save_path : string) (d : fs) : res (gann * fs) :=
  do a <- construct w g data_name list_of_tags "" d;
  do r <- rng_build sortf (space_view pd a) (ids_view (a_tags a)) cent order;
  let x := built a (fst r) (snd r) in
  do d' <- save_rng w save_path x d;
  Ok (x, d').

(** src/hnsw.cpp:136 *)
Definition temp_name : string := "/tmp/temp_data".

(** src/hnsw.cpp:122-265 with the objects and files: an inner level is an object made
    from the file of the sampled vectors, which is removed when the object is made.
    Levels outermost first.  [HnswModel.hnsw_build] leaves the files out. *)
Fixpoint hnsw_objects (w : nat) (g : nat -> list N) (sortf : list neighbor -> list neighbor) (pd : vec -> vec -> f32) (prm : bparams)
    (a : ann) (cs : list hchoice) (d : fs) : res (list gann * fs) :=
  match cs with
  | [] => UB
  | c :: rest =>
      do inner <- match rest with
                  | [] => Ok ([], d)
                  | _ :: _ =>
                      do f <- save_subset w (a_data a) (a_dim a) (a_adim a) (hc_sample c);
                      let d1 := match f with Some b => fs_set d temp_name (Some b) | None => d end in
                      do ai <- construct w g temp_name (map N.of_nat (hc_sample c)) "" d1;
                      hnsw_objects w g sortf pd prm ai rest (fs_set d1 temp_name None)
                  end;
      do s <- calculate_medoid (N.to_nat (a_n a)) (hc_centroid c);
      let env := mkH (mkEnv sortf (space_view pd a) prm s []) (map graph_view (fst inner)) in
      do st <- h_run env (build_init (he_b env)) (hc_sched c);
      if all_done st then
        do gr <- h_cleanup env (bs_graph st) (hc_order c);
        Ok (built a (mkI (N.to_nat (a_n a)) (ids_view (a_tags a)) (labels_view a) [] s gr) hnsw_max_degree :: fst inner, snd inner)
      else Fuel
  end.

(** tests/build_hnsw.cpp:16-48; files number the levels from the innermost. *)
Definition hnsw_tool (w : nat) (g : nat -> list N) (sortf : list neighbor -> list neighbor) (pd : vec -> vec -> f32)
    (data_name : string) (list_of_tags : list N) (prm : bparams) (cs : list hchoice) (save_path : string) (d : fs) : res (list gann * fs) :=
  do a <- construct w g data_name list_of_tags "" d;
  do r <- hnsw_objects w g sortf pd prm a cs d;
  do d' <- save_hnsw w save_path 0 (rev (fst r)) (snd r);
  Ok (fst r, d').

(** tests/build_ivf.cpp:16-38.  [centers] are the trained centres (see IvfModel), [cd] the
    computed distance of a vector to a centre. *)
Definition ivf_tool (w : nat) (g : nat -> list N) (popf : list (nat * f32) -> list (nat * f32)) (mbs : nat) (cd : vec -> list (option N) -> f32)
    (data_name : string) (list_of_tags : list N) (labels_name : string) (num_clusters : N) (centers : list N)
    (orders : nat -> list (nat * nat)) (save_path : string) (d : fs) : res (ivfann * fs) :=
  do a <- construct w g data_name list_of_tags labels_name d;
  let cs := centres_of_array (N.to_nat (a_adim a)) (N.to_nat num_clusters) centers in
  do inv <- ivf_build popf mbs (fun i c => cd (nth i (a_data a) []) (nth c cs [])) (N.to_nat (a_n a)) (N.to_nat num_clusters) orders [];
  let x := mkIA a num_clusters centers (map (map N.of_nat) inv) in
  do d' <- save_ivf w save_path x d;
  Ok (x, d').

(** ** LSH objects: the members of include/lsh.h:49-56 beside those of the base. *)
Record lshann : Type := mkLA { sh_ann : ann; sh_num_tables : N; sh_table_size : N; sh_tables : list table }.

Definition lsh_view (x : lshann) : lsh_index :=
  mkLsh (N.to_nat (a_n (sh_ann x))) (ids_view (a_tags (sh_ann x))) (labels_view (sh_ann x)) (sh_num_tables x) (sh_table_size x) (sh_tables x).

(** src/lsh.cpp:192-215 *)
Definition save_lsh (w : nat) (name : string) (x : lshann) (d : fs) : res fs :=
  do d1 <- save_ann w name (sh_ann x) d;
  Ok (fs_set d1 (name ++ "_index.bin") (Some (lsh_bytes (lsh_view x)))).

(** src/lsh.cpp:218-304; nothing can be read from a file that is not there. *)
Definition load_lsh (w : nat) (g : nat -> list N) (name : string) (x : lshann) (d : fs) : res lshann :=
  do a <- load_ann w g name (sh_ann x) d;
  do ix <- lsh_load (N.to_nat (a_adim a)) (match d (name ++ "_index.bin") with Some b => b | None => [] end)
             (lsh_view (mkLA a (sh_num_tables x) (sh_table_size x) (sh_tables x)));
  Ok (mkLA a (l_num_tables ix) (l_table_size ix) (l_tables ix)).

(** src/lsh.cpp:119-124 *)
Definition new_lsh : lshann := mkLA (new_ann 0 0) 0 0 [].

(** tests/build_lsh.cpp:5-21.  [fv] gives the elements of a vector as numbers; [planes]
    are the random hyperplanes. *)
Definition lsh_tool (w : nat) (g : nat -> list N) (dotf : list N -> list f32 -> f32) (fv : vec -> list f32)
    (data_name : string) (list_of_tags : list N) (labels_name : string) (table_size : N) (planes : list (list (list N)))
    (save_path : string) (d : fs) : res (lshann * fs) :=
  do a <- construct w g data_name list_of_tags labels_name d;
  do ix <- lsh_build dotf (fun i => fv (nth i (a_data a) [])) table_size planes (lsh_view (mkLA a 0 0 []));
  let x := mkLA a (l_num_tables ix) (l_table_size ix) (l_tables ix) in
  do d' <- save_lsh w save_path x d;
  Ok (x, d').

(** The answer of one search on the index as loaded; what the search does to the index
    is in [lsh_search] and does not change later answers (C33). *)
Definition lsh_searcher (dotf : list N -> list f32 -> f32) (fv : vec -> list f32) (qd : vec -> vec -> f32) (filters : list label) (k : nat) (x : lshann) : searcher :=
  fun q _ ids ds =>
    do r <- lsh_search dotf (lsh_view x) (fv q) (query_dist qd (sh_ann x) q) k filters ids (Some ds);
    let '(ids', ds', cnt, _) := fst r in
    match ds' with Some v => Ok (ids', v, cnt) | None => UB end.

(** tests/search_lsh.cpp:76-77 *)
Definition load_for_lsh (w : nat) (g : nat -> list N) (dotf : list N -> list f32 -> f32) (fv : vec -> list f32) (qd : vec -> vec -> f32)
    (filters : list label) (k : nat) (name : string) (d : fs) : res (N * searcher) :=
  do x <- load_lsh w g name new_lsh d;
  Ok (a_adim (sh_ann x), lsh_searcher dotf fv qd filters k x).
