(** * Theorems: the build tools of RelativeNG, HNSW, IVF and LSH end to end (C88).

    [d] is the file system before the build, [d'] after it, [d''] after the search tool
    has run on the files of [d'] in a new process; [g], [g'] are the bytes of
    uninitialised variables, [qd], [pd], [cd], [dotf] any distance functions and dot
    product.  Each tool of tests/ passes no tags. *)
From Coq Require Import NArith String List Arith Lia Bool Permutation.
From Verif Require Import Base Float32 Float32Facts Bytes StreamModel BinModel BinSpec TextModel PoolModel FilterSpec SortSpec SortInst EntrySpec GraphSpec RngSpec TopKSpec ClosestSpec PopInst
  GreedyModel SearchModel SearchSpec HnswSpec PruneModel BuildModel HnswModel ClosestModel LshModel LshSpec IndexFileModel IndexFileSpec SystemModel SystemSpec SystemWitness
  ToolModel ToolSpec ToolProofs ToolProofs2 ToolProofs3 ToolWitness.
Import ListNotations.
Local Open Scope string_scope.

(** ** C88.  RelativeNG: the tool saves a graph in which every point lists every
    other point or one nearer to it; it writes only the files of the index, and a
    new process that loads them answers every search alike; *)
Theorem C88_rng_build : forall w g sortf pd data_name tags cent order path d a, sorts sortf ->
  rng_session_ok w g pd data_name tags cent order d a ->
  exists x d', rng_tool w g sortf pd data_name tags cent order path d = Ok (x, d') /\
    g_ann x = a /\ gann_ok w x /\ index_ok (graph_view x) /\
    rng_covers (N.to_nat (a_n a)) (fun i j => pd (nth i (a_data a) []) (nth j (a_data a) [])) (ix_graph (graph_view x)) /\
    (forall m, ~ family rng_suffixes path m -> d' m = d m) /\
    forall g', garbage_ok g' -> exists x', load_rng w g' path (new_gann 0 0 0) d' = Ok (x', true) /\
      a_adim (g_ann x') = a_adim a /\ max_length (ix_graph (graph_view x')) (N.to_nat (g_max x')) /\
      forall qd k, same_answers (rng_searcher sortf qd k x) (rng_searcher sortf qd k x').
Proof. exact rng_tool_ok. Qed.
Print Assumptions C88_rng_build.

Example C88_rng_build_applies : sorts isort /\ rng_session_ok 1 s_g t_pd "data.bin" [] s_cent (seq 0 10) t_fs (made "data.bin" "") /\
  a_n (made "data.bin" "") = 10%N.
Proof. split; [exact isort_sorts|]. split; [exact t_rng|reflexivity]. Qed.

(** the search tool, given the indexed vectors as queries, reports first for each of them
    the tag of a point at distance zero. *)
Theorem C88_rng_finds_itself : forall w g sortf pd data_name tags cent order path d a x d', sorts sortf ->
  rng_session_ok w g pd data_name tags cent order d a ->
  rng_tool w g sortf pd data_name tags cent order path d = Ok (x, d') ->
  forall g' g1 g2 query_name prefix k args orders, garbage_ok g' ->
  queries_in w g1 g2 (d' query_name) (a_n a) (a_adim a) (a_data a) -> (1 <= k)%N ->
  (exists L, In L args /\ (k <= L)%N) -> (forall L, In L args -> (k <= L)%N -> each_once (N.to_nat (a_n a)) (orders L)) ->
  exists d'', search_tool w g1 g2 query_name prefix k k args orders (load_for_rng w g' sortf (fun q p => pd p q) (N.to_nat k) path) d' = Ok (Some d'') /\
    forall L, In L args -> (k <= L)%N -> exists rows,
      d'' (result_name prefix L) = Some (bin_file 4 (a_n a) k (map N.of_nat (concat rows))) /\ length rows = N.to_nat (a_n a) /\
      forall i row, nth_error rows i = Some row -> length row = N.to_nat k /\
        exists id t, nth_error row 0 = Some (N.to_nat t) /\ nth_error (a_tags a) id = Some t /\
          feq (pd (nth id (a_data a) []) (nth i (a_data a) [])) f32_zero = true.
Proof. exact rng_tool_search. Qed.
Print Assumptions C88_rng_finds_itself.

Example C88_rng_finds_itself_case :
  match rng_tool 1 s_g isort t_pd "data.bin" [] s_cent (seq 0 10) "ix" t_fs with
  | Ok (_, d') => match search_tool 1 (s_g 0) (s_g 1) "data.bin" "res" 1 1 [0; 1]%N (fun _ => rev (seq 0 10)) (load_for_rng 1 s_g isort (fun q p => t_pd p q) 1 "ix") d' with
      | Ok (Some d'') => (d'' "res_1_idx_uint32.bin", d'' "res_0_idx_uint32.bin")
      | _ => (None, None) end
  | _ => (None, None)
  end = (Some (bin_file 4 10 1 [0; 1; 2; 3; 4; 5; 6; 7; 8; 9]%N), None).
Proof. vm_compute. reflexivity. Qed.

(** ** HNSW, for every choice of the samples, interleaving and cleanup order.  The objects
    of the inner levels are made from a temporary file of the sampled vectors: every level
    holds exactly the vectors of its tags in the level above.  The temporary file is gone
    at the end, and so is any file of that name the user had.  [Fuel] is a schedule that
    stops before all locations are done. *)
Theorem C88_hnsw_build : forall w g sortf pd data_name tags prm cs path d a, sorts sortf ->
  files_ok w g data_name tags "" d a -> 1 <= bp_L prm -> (N.of_nat (bp_R prm) < 2 ^ 32)%N ->
  (forall p q, is_nan (pd p q) = false) -> choices_ok (N.to_nat (a_n a)) cs ->
  hnsw_tool w g sortf pd data_name tags prm cs path d = Fuel \/
  exists levels d', hnsw_tool w g sortf pd data_name tags prm cs path d = Ok (levels, d') /\
    length levels = length cs /\ level_data a levels /\
    levels_ok (map graph_view levels) /\ levels_degree (bp_R prm) (map graph_view levels) /\
    built_from (N.to_nat (a_n a)) (ids_view (a_tags a)) cs (map graph_view levels) /\
    (forall m, (forall i, i < length cs -> ~ family rng_suffixes (level_name path (N.of_nat i)) m) ->
       d' m = if (m =? temp_name) && (1 <? length cs)%nat then None else d m) /\
    forall g', garbage_ok g' -> exists rs, load_hnsw w g' path 0 (repeat (new_gann 0 0 0) (length cs)) d' = Ok rs /\
      (forall r, In r rs -> snd r = true) /\
      (exists y ys, rev (map fst rs) = y :: ys /\ a_adim (g_ann y) = a_adim a) /\
      forall qd k, same_answers (hnsw_searcher sortf qd k levels) (hnsw_searcher sortf qd k (rev (map fst rs))).
Proof. exact hnsw_tool_ok. Qed.
Print Assumptions C88_hnsw_build.

Example C88_hnsw_build_applies : files_ok 1 s_g "big.bin" [] "" t_fs (made "big.bin" "") /\ choices_ok (N.to_nat (a_n (made "big.bin" ""))) t_choices /\
  match hnsw_tool 1 s_g isort t_pd "big.bin" [] t_prm t_choices "ix" (fs_set t_fs temp_name (Some [1%N])) with
  | Ok (levels, d') => map (fun x => a_tags (g_ann x)) levels = [[0; 1; 2; 3; 4; 5; 6; 7; 8; 9; 10; 11]%N; [0; 1; 2; 3; 4; 5; 6; 7; 8; 10]%N] /\ d' temp_name = None
  | _ => False
  end.
Proof. split; [exact t_files_big|]. split; [exact t_choices_ok|]. vm_compute. split; reflexivity. Qed.

(** The search tool writes what the built index reports: at least one point, distinct
    points, nearest first, by tag. *)
Theorem C88_hnsw_search : forall w g sortf pd data_name tags prm cs path d a levels d', sorts sortf ->
  files_ok w g data_name tags "" d a -> 1 <= bp_L prm -> (N.of_nat (bp_R prm) < 2 ^ 32)%N ->
  (forall p q, is_nan (pd p q) = false) -> choices_ok (N.to_nat (a_n a)) cs ->
  hnsw_tool w g sortf pd data_name tags prm cs path d = Ok (levels, d') ->
  forall g' g1 g2 query_name prefix k args orders qd nq qadim mem, garbage_ok g' ->
  queries_in w g1 g2 (d' query_name) nq qadim mem -> (1 <= nq)%N -> (a_adim a <= qadim)%N ->
  (forall q p, is_nan (qd q p) = false) -> (1 <= k)%N ->
  (exists L, In L args /\ (k <= L)%N) -> (forall L, In L args -> (k <= L)%N -> each_once (N.to_nat nq) (orders L)) ->
  exists d'', search_tool w g1 g2 query_name prefix k k args orders (load_for_hnsw w g' sortf qd (N.to_nat k) (length cs) path) d' = Ok (Some d'') /\
    forall L, In L args -> (k <= L)%N -> exists rows,
      d'' (result_name prefix L) = Some (bin_file 4 nq k (map N.of_nat (concat rows))) /\ length rows = N.to_nat nq /\
      forall i row, nth_error rows i = Some row -> length row = N.to_nat k /\ exists ds c,
        let q := firstn (N.to_nat (a_adim a) * w) (nth i mem []) in
        hnsw_searcher sortf qd (N.to_nat k) levels q (N.to_nat L) (repeat 0 (N.to_nat k)) (repeat f32_zero (N.to_nat k)) = Ok (row, ds, c) /\
        exists found, c = length found /\ found <> [] /\ reports (N.to_nat (a_n a)) (ids_view (a_tags a)) (fun id => qd q (nth id (a_data a) [])) row ds found.
Proof. exact hnsw_tool_search. Qed.
Print Assumptions C88_hnsw_search.

Example C88_hnsw_search_case :
  match hnsw_tool 1 s_g isort t_pd "big.bin" [] t_prm t_choices "ix" t_fs with
  | Ok (_, d') => match search_tool 1 (s_g 0) (s_g 1) "query.bin" "res" 3 3 [2; 5]%N (fun _ => [1; 0]) (load_for_hnsw 1 s_g isort t_pd 3 2 "ix") d' with
      | Ok (Some d'') => d'' "res_5_idx_uint32.bin"
      | _ => None end
  | _ => None
  end = Some (bin_file 4 2 3 [7; 6; 8; 0; 1; 2]%N).
Proof. vm_compute. reflexivity. Qed.

(** ** IVF, for any trained centres: the inverted lists hold every point once, and a new
    process answers every search alike; *)
Theorem C88_ivf_build : forall w g popf mbs cd data_name tags labels_name nc centers orders path d a, pops popf ->
  ivf_session_ok w g mbs cd data_name tags labels_name nc centers orders d a ->
  exists x d', ivf_tool w g popf mbs cd data_name tags labels_name nc centers orders path d = Ok (x, d') /\
    i_ann x = a /\ i_k x = nc /\ i_centers x = centers /\ ivf_ok w x /\
    Permutation (concat (i_lists x)) (map N.of_nat (seq 0 (N.to_nat (a_n a)))) /\
    (forall m, ~ family ivf_suffixes path m -> d' m = d m) /\
    forall g', garbage_ok g' -> exists a' rows, load_ivf w g' path (mkIA (new_ann 0 0) 0 [] []) d' = Ok (a', nc, rows, i_lists x) /\
      a_adim a' = a_adim a /\
      forall qd cd' filters k,
        same_answers (ivf_searcher popf mbs qd cd' filters k a (centres_of_array (N.to_nat (a_adim a)) (N.to_nat nc) centers) nc (i_lists x))
          (ivf_searcher popf mbs qd cd' filters k a' (centres_of_rows (N.to_nat (a_adim a')) rows) nc (i_lists x)).
Proof. exact ivf_tool_ok. Qed.
Print Assumptions C88_ivf_build.

Example C88_ivf_build_applies : pops pop_all /\
  ivf_session_ok 1 s_g 1000 t_pd "data.bin" [] "labels.txt" 2 t_centers t_orders t_fs (made "data.bin" "labels.txt") /\
  match ivf_tool 1 s_g pop_all 1000 t_pd "data.bin" [] "labels.txt" 2 t_centers t_orders "ix" t_fs with
  | Ok (x, _) => i_lists x = [[4; 3; 2; 1; 0]%N; [9; 8; 7; 6; 5]%N]
  | _ => False
  end.
Proof. split; [exact pop_all_pops|]. split; [exact t_ivf|]. vm_compute. reflexivity. Qed.

(** the search tool reports distinct points whose line in the label file matches, padded
    with zeros, and with as many probes as clusters exactly the K nearest of all that
    match. *)
Theorem C88_ivf_search : forall w g popf mbs cd data_name tags labels_name nc centers orders path d a x d', pops popf ->
  ivf_session_ok w g mbs cd data_name tags labels_name nc centers orders d a ->
  ivf_tool w g popf mbs cd data_name tags labels_name nc centers orders path d = Ok (x, d') ->
  forall g' g1 g2 query_name prefix k args order qd filters nq qadim mem, garbage_ok g' ->
  queries_in w g1 g2 (d' query_name) nq qadim mem -> (1 <= nq)%N -> (a_adim a <= qadim)%N ->
  (forall q p, finite (qd q p)) -> filter_ok labels_name filters -> (1 <= k)%N ->
  (exists L, In L args /\ (1 <= L)%N) -> (forall L, In L args -> (L <= nc)%N) ->
  (forall L, In L args -> (1 <= L)%N -> each_once (N.to_nat nq) (order L)) ->
  exists d'', search_tool w g1 g2 query_name prefix k 1 args order (load_for_ivf w g' popf mbs qd cd filters (N.to_nat k) path) d' = Ok (Some d'') /\
    forall L, In L args -> (1 <= L)%N -> exists rows,
      d'' (result_name prefix L) = Some (bin_file 4 nq k (map N.of_nat (concat rows))) /\ length rows = N.to_nat nq /\
      forall i row, nth_error rows i = Some row -> length row = N.to_nat k /\
        let dist := fun id => qd (firstn (N.to_nat (a_adim a) * w) (nth i mem [])) (nth id (a_data a) []) in
        exists found, row = (found ++ repeat 0 (N.to_nat k - length found))%list /\ NoDup found /\
          (forall id, In id found -> id < N.to_nat (a_n a) /\ line_matches d labels_name filters id) /\
          (L = nc -> forall accepted, NoDup accepted ->
             (forall id, In id accepted <-> id < N.to_nat (a_n a) /\ line_matches d labels_name filters id) ->
             is_top_k (N.to_nat k) (score dist accepted) (score dist found)).
Proof. exact ivf_tool_search. Qed.
Print Assumptions C88_ivf_search.

Example C88_ivf_search_case : filter_ok "labels.txt" ["a"] /\
  match ivf_tool 1 s_g pop_all 1000 t_pd "data.bin" [] "labels.txt" 2 t_centers t_orders "ix" t_fs with
  | Ok (_, d') => match search_tool 1 (s_g 0) (s_g 1) "query.bin" "res" 3 1 [2]%N (fun _ => [1; 0]) (load_for_ivf 1 s_g pop_all 1000 t_pd t_pd ["a"] 3 "ix") d' with
      | Ok (Some d'') => d'' "res_2_idx_uint32.bin"
      | _ => None end
  | _ => None
  end = Some (bin_file 4 2 3 [5; 3; 1; 0; 1; 3]%N).
Proof. split; [right; split; [discriminate|apply t_sorted]|]. vm_compute. reflexivity. Qed.

(** ** LSH, for any hyperplanes: the saved tables are those built, and a new process
    answers every search alike; *)
Theorem C88_lsh_build : forall w g dotf fv data_name tags labels_name ts planes path d a,
  lsh_session_ok w g data_name tags labels_name ts planes d a ->
  exists x d', lsh_tool w g dotf fv data_name tags labels_name ts planes path d = Ok (x, d') /\
    sh_ann x = a /\ map t_hps (sh_tables x) = planes /\
    lsh_build dotf (fun i => fv (nth i (a_data a) [])) ts planes (lsh_view (mkLA a 0 0 [])) = Ok (lsh_view x) /\
    (forall m, ~ family lsh_suffixes path m -> d' m = d m) /\
    forall g', garbage_ok g' -> exists y, load_lsh w g' path new_lsh d' = Ok y /\ a_adim (sh_ann y) = a_adim a /\
      sh_tables y = sh_tables x /\
      forall qd filters k, same_answers (lsh_searcher dotf fv qd filters k x) (lsh_searcher dotf fv qd filters k y).
Proof. exact lsh_tool_ok. Qed.
Print Assumptions C88_lsh_build.

Example C88_lsh_build_applies : lsh_session_ok 1 s_g "data.bin" [] "labels.txt" 2 t_planes t_fs (made "data.bin" "labels.txt") /\
  match lsh_tool 1 s_g t_dot t_fv "data.bin" [] "labels.txt" 2 t_planes "ix" t_fs with
  | Ok (x, _) => map t_map (sh_tables x) = [[(0%N, [0; 1; 2; 3]); (1%N, [4; 5; 6]); (3%N, [7; 8; 9])]]
  | _ => False
  end.
Proof. split; [exact t_lsh|]. vm_compute. reflexivity. Qed.

(** the search tool reports the K nearest of the points that match the filter and share a
    sign pattern with the query, padded with zeros. *)
Theorem C88_lsh_search : forall w g dotf fv data_name labels_name ts planes path d a x d',
  lsh_session_ok w g data_name [] labels_name ts planes d a ->
  lsh_tool w g dotf fv data_name [] labels_name ts planes path d = Ok (x, d') ->
  forall g' g1 g2 query_name prefix k args order qd filters nq qadim mem, garbage_ok g' ->
  queries_in w g1 g2 (d' query_name) nq qadim mem -> (1 <= nq)%N -> (a_adim a <= qadim)%N ->
  (forall q p, finite (qd q p)) -> filter_ok labels_name filters -> (1 <= k)%N ->
  (exists L, In L args /\ (1 <= L)%N) ->
  (forall L, In L args -> (1 <= L)%N -> each_once (N.to_nat nq) (order L)) ->
  exists d'', search_tool w g1 g2 query_name prefix k 1 args order (load_for_lsh w g' dotf fv qd filters (N.to_nat k) path) d' = Ok (Some d'') /\
    forall L, In L args -> (1 <= L)%N -> exists rows,
      d'' (result_name prefix L) = Some (bin_file 4 nq k (map N.of_nat (concat rows))) /\ length rows = N.to_nat nq /\
      forall i row, nth_error rows i = Some row -> length row = N.to_nat k /\
        let q := firstn (N.to_nat (a_adim a) * w) (nth i mem []) in
        let dist := fun id => qd q (nth id (a_data a) []) in
        exists near found, NoDup near /\
          (forall id, In id near <-> id < N.to_nat (a_n a) /\ line_matches d labels_name filters id /\ collide dotf planes (fv q) (fv (nth id (a_data a) []))) /\
          row = (found ++ repeat 0 (N.to_nat k - length found))%list /\ is_top_k (N.to_nat k) (score dist near) (score dist found).
Proof. exact lsh_tool_search. Qed.
Print Assumptions C88_lsh_search.

(** Query 7 collides with 7, 8 and 9, none of which has label "a": its row is the zeros of
    the fresh array, which read as point 0. *)
Example C88_lsh_search_case :
  match lsh_tool 1 s_g t_dot t_fv "data.bin" [] "labels.txt" 2 t_planes "ix" t_fs with
  | Ok (_, d') => match search_tool 1 (s_g 0) (s_g 1) "query.bin" "res" 3 1 [1]%N (fun _ => [1; 0]) (load_for_lsh 1 s_g t_dot t_fv t_pd ["a"] 3 "ix") d' with
      | Ok (Some d'') => d'' "res_1_idx_uint32.bin"
      | _ => None end
  | _ => None
  end = Some (bin_file 4 2 3 [0; 0; 0; 0; 1; 3]%N).
Proof. vm_compute. reflexivity. Qed.
