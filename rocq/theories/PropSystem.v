(** * Theorems: whole programs (C82 to C85).

    A search function takes a query vector, a list size and the memory behind the two
    result pointers; [qd] and [pd] are any distance functions on vectors, [g] the bytes
    of uninitialised variables, [d] the file system. *)
From Coq Require Import NArith String List Arith Lia Permutation.
From Verif Require Import Base Float32 Float32Facts Bytes StreamModel BinModel BinSpec TextModel PoolModel FilterSpec SortSpec SortInst EntrySpec GreedyModel SearchModel SearchSpec
  IndexFileModel IndexFileSpec PropIndexFile SystemModel SystemSpec SystemProofs SystemProofs2 SystemProofs3 SystemProofs4 SystemWitness.
Import ListNotations.
Local Open Scope string_scope.

(** ** C82.  A saved index loaded by a new process answers every search as the index
    that was saved: Vamana, *)
Theorem C82_vamana_reload : forall w g name x d, garbage_ok g -> gann_ok w x ->
  (if a_filtered (g_ann x) then medoids_ok (g_medoids x) /\ (g_medoids x = [] -> d (name ++ "_labels_to_medoids.txt") = None)
   else g_medoids x = [] /\ d (name ++ "_labels_to_medoids.txt") = None) ->
  exists d' x', save_vamana w name x d = Ok d' /\ load_vamana w g name (new_gann 0 0 0) d' = Ok (x', true) /\
    a_adim (g_ann x') = a_adim (g_ann x) /\ g_max x' = g_max x /\ graph_view x' = graph_view x /\
    forall sortf qd filters k, same_answers (vamana_searcher sortf qd filters k x) (vamana_searcher sortf qd filters k x').
Proof. exact vamana_reload. Qed.
Print Assumptions C82_vamana_reload.

Example C82_vamana_reload_applies : garbage_ok ex_g /\ gann_ok 1 (ex_gann true) /\ medoids_ok (g_medoids (ex_gann true)) /\
  vamana_searcher isort s_pd ["a"] 2 (ex_gann true) [Some 200%N] 2 [0; 0] [f32_zero; f32_zero] <> UB.
Proof. split; [exact ex_g_ok|]. split; [apply ex_gann_ok|]. split; [exact ex_medoids_ok|]. vm_compute. discriminate. Qed.

(** RelativeNG, *)
Theorem C82_rng_reload : forall w g name x d, garbage_ok g -> gann_ok w x ->
  exists d' x', save_rng w name x d = Ok d' /\ load_rng w g name (new_gann 0 0 0) d' = Ok (x', true) /\
    a_adim (g_ann x') = a_adim (g_ann x) /\ g_max x' = g_max x /\ ix_graph (graph_view x') = ix_graph (graph_view x) /\
    forall sortf qd k, same_answers (rng_searcher sortf qd k x) (rng_searcher sortf qd k x').
Proof. exact rng_reload. Qed.
Print Assumptions C82_rng_reload.

Example C82_rng_reload_applies : garbage_ok ex_g /\ gann_ok 1 (ex_gann false) /\
  rng_searcher isort s_pd 2 (ex_gann false) [Some 200%N] 2 [0; 0] [f32_zero; f32_zero] <> UB.
Proof. split; [exact ex_g_ok|]. split; [apply ex_gann_ok|]. vm_compute. discriminate. Qed.

(** HNSW with any number of levels ([levels] innermost first, as in the file names), *)
Theorem C82_hnsw_reload : forall w g name levels d, garbage_ok g -> (forall x, In x levels -> gann_ok w x) ->
  exists d' rs, save_hnsw w name 0 levels d = Ok d' /\ load_hnsw w g name 0 (repeat (new_gann 0 0 0) (length levels)) d' = Ok rs /\
    (forall r, In r rs -> snd r = true) /\
    forall sortf qd k, same_answers (hnsw_searcher sortf qd k (rev levels)) (hnsw_searcher sortf qd k (rev (map fst rs))).
Proof. exact hnsw_reload. Qed.
Print Assumptions C82_hnsw_reload.

Example C82_hnsw_reload_applies : garbage_ok ex_g /\ (forall x, In x [ex_gann false; ex_gann false] -> gann_ok 1 x).
Proof. split; [exact ex_g_ok|]. intros x [<-|[<-|[]]]; apply ex_gann_ok. Qed.

(** and IVF; [cd] is the distance of a query to a centre. *)
Theorem C82_ivf_reload : forall w g name x d, garbage_ok g -> ivf_ok w x ->
  exists d' a' rows, save_ivf w name x d = Ok d' /\
    load_ivf w g name (mkIA (new_ann 0 0) 0 [] []) d' = Ok (a', i_k x, rows, i_lists x) /\
    a_adim a' = a_adim (i_ann x) /\
    forall popf mbs qd cd filters k,
      same_answers (ivf_searcher popf mbs qd cd filters k (i_ann x) (centres_of_array (N.to_nat (a_adim (i_ann x))) (N.to_nat (i_k x)) (i_centers x)) (i_k x) (i_lists x))
        (ivf_searcher popf mbs qd cd filters k a' (centres_of_rows (N.to_nat (a_adim a')) rows) (i_k x) (i_lists x)).
Proof. exact ivf_reload. Qed.
Print Assumptions C82_ivf_reload.

Example C82_ivf_reload_applies : garbage_ok ex_g /\ ivf_ok 1 ex_ivf.
Proof. split; [exact ex_g_ok|exact C44_ivf_round_trip_applies]. Qed.

(** ** C83.  From the user's files to a loaded index: constructing the index from the
    data, tags and label file, building it under any schedule, saving it and loading it
    in another process neither fails nor reads out of bounds ([Fuel]: the schedule given
    leaves points unprocessed), gives an index all of whose edges, entry points and tags
    are valid, and which answers as the one that was built. *)
Theorem C83_build_save_load : forall w g sortf pd data_name tags labels_name prm cent work sched order path d a, sorts sortf ->
  session_ok w g pd data_name tags labels_name prm cent work sched order path d a ->
  vamana_tool w g sortf pd data_name tags labels_name prm cent work sched order path d = Fuel \/
  exists x d', vamana_tool w g sortf pd data_name tags labels_name prm cent work sched order path d = Ok (x, d') /\
    g_ann x = a /\ gann_ok w x /\ index_ok (graph_view x) /\ ix_labels (graph_view x) = labels_view a /\
    (forall y id labels, medoid_of (ix_medoids (graph_view x)) y = Some id ->
       nth_error (pts_to_labels (ix_labels (graph_view x))) id = Some labels -> matches (Some "0") [y] labels) /\
    forall g', garbage_ok g' -> exists x', load_vamana w g' path (new_gann 0 0 0) d' = Ok (x', true) /\
      a_adim (g_ann x') = a_adim a /\ graph_view x' = graph_view x /\ max_length (ix_graph (graph_view x')) (N.to_nat (g_max x')) /\
      forall qd filters k, same_answers (vamana_searcher sortf qd filters k x) (vamana_searcher sortf qd filters k x').
Proof. exact session_run. Qed.
Print Assumptions C83_build_save_load.

(** Ten points with labels; the build tool finishes and writes the files. *)
Example C83_build_save_load_applies : session_ok 1 s_g s_pd "data.bin" [] "labels.txt" s_prm s_cent s_work s_sched (seq 0 10) "ix" s_fs s_ann /\
  match vamana_tool 1 s_g isort s_pd "data.bin" [] "labels.txt" s_prm s_cent s_work s_sched (seq 0 10) "ix" s_fs with
  | Ok (x, d') => (g_start x, g_medoids x, length (g_lists x), d' "ix_labels_to_medoids.txt" <> None)
  | _ => (0%N, [], 0, False)
  end = (4%N, [("a", 5); ("b", 4); ("0", 3); ("c", 3)]%N, 10, Some (bytes_of (medoid_text [("a", 5); ("b", 4); ("0", 3); ("c", 3)]%N)) <> None).
Proof. split; [exact s_session|]. vm_compute. reflexivity. Qed.

(** Searching the loaded index with filter labels reports only points whose line of the
    user's label file names one of them (or the universal label "0" is involved),
    nearest first, with their tags and distances. *)
Theorem C83_filtered_answers : forall w g sortf pd data_name tags labels_name prm cent work sched order path d a x d', sorts sortf ->
  session_ok w g pd data_name tags labels_name prm cent work sched order path d a ->
  vamana_tool w g sortf pd data_name tags labels_name prm cent work sched order path d = Ok (x, d') ->
  labels_name <> "" ->
  forall g', garbage_ok g' -> exists x', load_vamana w g' path (new_gann 0 0 0) d' = Ok (x', true) /\
  forall qd filters k q L ids ds, (forall p, is_nan (qd q p) = false) -> filters <> [] -> 1 <= L -> k <= L + 1 -> k <= length ids -> k <= length ds ->
  exists ids' ds' found, vamana_searcher sortf qd filters k x' q L ids ds = Ok (ids', ds', length found) /\
    reports (N.to_nat (a_n a)) (ids_view (a_tags a)) (fun id => qd q (nth id (a_data a) [])) ids' ds' found /\
    forall id, In id found -> exists b line, d labels_name = Some b /\ nth_error (file_lines b) id = Some line /\
      matches (Some "0") filters (line_tokens line).
Proof. exact session_filtered. Qed.
Print Assumptions C83_filtered_answers.

(** Points 0, 1, 5 carry "a", point 3 the universal label; the entry point of "a" is 5. *)
Example C83_filtered_answers_applies : session_ok 1 s_g s_pd "data.bin" [] "labels.txt" s_prm s_cent s_work s_sched (seq 0 10) "ix" s_fs s_ann /\
  match vamana_tool 1 s_g isort s_pd "data.bin" [] "labels.txt" s_prm s_cent s_work s_sched (seq 0 10) "ix" s_fs with
  | Ok (_, d') => match load_vamana 1 s_g "ix" (new_gann 0 0 0) d' with
      | Ok (x', _) => match vamana_searcher isort s_pd ["a"] 3 x' [Some 7%N] 5 [0; 0; 0] [f32_zero; f32_zero; f32_zero] with
          | Ok (ids, _, c) => Some (ids, c) | _ => None end
      | _ => None end
  | _ => None
  end = Some ([5; 1; 0], 3).
Proof. split; [exact s_session|]. vm_compute. reflexivity. Qed.

(** ** C84.  The searches write only the slots of the query they answer, *)
Theorem C84_vamana_slots : forall sortf qd filters k x, writes_own_slots k (vamana_searcher sortf qd filters k x).
Proof. exact local_vamana. Qed.
Print Assumptions C84_vamana_slots.
Theorem C84_rng_slots : forall sortf qd k x, writes_own_slots k (rng_searcher sortf qd k x).
Proof. exact local_rng. Qed.
Print Assumptions C84_rng_slots.
Theorem C84_hnsw_slots : forall sortf qd k levels, writes_own_slots k (hnsw_searcher sortf qd k levels).
Proof. exact local_hnsw. Qed.
Print Assumptions C84_hnsw_slots.
Theorem C84_ivf_slots : forall popf mbs qd cd filters k a centres nc lists, writes_own_slots k (ivf_searcher popf mbs qd cd filters k a centres nc lists).
Proof. exact local_ivf. Qed.
Print Assumptions C84_ivf_slots.

Example C84_slots_case : exists ids ds, vamana_searcher isort s_pd ["a"] 2 (ex_gann true) [Some 200%N] 2 ([0; 0] ++ [8; 9])%list ([f32_zero; f32_zero] ++ [f32_zero])%list = Ok (ids, ds, 2) /\
  skipn 2 ids = [8; 9].
Proof. eexists. eexists. split; [vm_compute; reflexivity|reflexivity]. Qed.

(** so a search tool writes, for each accepted list size L, a file in which row i is the
    answer to query i alone, in whatever order the threads take the queries, and touches
    no other file. *)
Theorem C84_results_file : forall w g1 g2 query_name prefix k least args order load d nq qadim mem adim srch (answer : N -> nat -> list nat),
  queries_in w g1 g2 (d query_name) nq qadim mem -> (1 <= nq)%N ->
  load d = Ok (adim, srch) -> (adim <= qadim)%N -> writes_own_slots (N.to_nat k) srch ->
  (exists L, In L args /\ (least <= L)%N) ->
  (forall L, In L args -> (least <= L)%N -> each_once (N.to_nat nq) (order L)) ->
  (forall L i, In L args -> (least <= L)%N -> i < N.to_nat nq -> exists ds c,
     srch (firstn (N.to_nat adim * w) (nth i mem [])) (N.to_nat L) (repeat 0 (N.to_nat k)) (repeat f32_zero (N.to_nat k)) = Ok (answer L i, ds, c)) ->
  exists d', search_tool w g1 g2 query_name prefix k least args order load d = Ok (Some d') /\
    (forall L, In L args -> (least <= L)%N ->
       d' (result_name prefix L) = Some (bin_file 4 nq k (map N.of_nat (concat (map (answer L) (seq 0 (N.to_nat nq))))))) /\
    (forall name, (forall L, In L args -> (least <= L)%N -> name <> result_name prefix L) -> d' name = d name).
Proof. exact tool_ok. Qed.
Print Assumptions C84_results_file.

(** Two queries answered in the order 1, 0; list size 2 is below K = 3 and skipped. *)
Example C84_results_file_case :
  match vamana_tool 1 s_g isort s_pd "data.bin" [] "labels.txt" s_prm s_cent s_work s_sched (seq 0 10) "ix" s_fs with
  | Ok (_, d') => match search_tool 1 (s_g 0) (s_g 1) "query.bin" "res" 3 3 [2; 5]%N (fun _ => [1; 0]) (load_for_vamana 1 s_g isort s_pd ["a"] 3 "ix") d' with
      | Ok (Some d'') => (d'' "res_5_idx_uint32.bin", d'' "res_2_idx_uint32.bin")
      | _ => (None, None) end
  | _ => (None, None)
  end = (Some (bin_file 4 2 3 [5; 1; 0; 0; 1; 5]%N), None).
Proof. vm_compute. reflexivity. Qed.
Example C84_queries_case : exists mem, queries_in 1 (s_g 0) (s_g 1) (s_fs "query.bin") 2 8 mem.
Proof.
  eexists. split; [left; auto|]. destruct (s_g_ok 0), (s_g_ok 1). split; [auto|]. split; [auto|]. exists s_query, 1%N.
  split; [reflexivity|]. split; [vm_compute; repeat constructor|]. split; [vm_compute; reflexivity|reflexivity].
Qed.

(** Without a list size of at least [least] nothing is read or written (the tool returns
    -1). *)
Theorem C84_no_list_size : forall w g1 g2 query_name prefix k least args order load d, (forall L, In L args -> (L < least)%N) ->
  search_tool w g1 g2 query_name prefix k least args order load d = Ok None.
Proof. exact tool_no_list. Qed.
Print Assumptions C84_no_list_size.

Example C84_no_list_size_applies : forall L, In L [2; 0]%N -> (L < 3)%N.
Proof. intros L [<-|[<-|[]]]; reflexivity. Qed.

(** An empty query file is undefined behaviour, *)
Theorem C84_no_queries : forall w g1 g2 query_name prefix k least args order load d qadim mem adim srch,
  queries_in w g1 g2 (d query_name) 0 qadim mem -> load d = Ok (adim, srch) ->
  (exists L, In L args /\ (least <= L)%N) -> (forall L, In L args -> (least <= L)%N -> each_once 0 (order L)) ->
  search_tool w g1 g2 query_name prefix k least args order load d = UB.
Proof. exact tool_no_queries. Qed.
Print Assumptions C84_no_queries.

Example C84_no_queries_applies : exists mem, queries_in 1 (s_g 0) (s_g 1) (Some (u32 0 ++ u32 1)%list) 0 8 mem.
Proof.
  eexists. split; [left; auto|]. destruct (s_g_ok 0), (s_g_ok 1). split; [auto|]. split; [auto|]. exists (u32 0 ++ u32 1)%list, 1%N.
  split; [reflexivity|]. split; [vm_compute; repeat constructor|]. split; [vm_compute; reflexivity|reflexivity].
Qed.

(** and so are queries of smaller (aligned) dimension than the index: the tools do not
    compare the two. *)
Theorem C84_short_queries : forall w g1 g2 query_name prefix k least args order load d nq qadim mem adim srch,
  queries_in w g1 g2 (d query_name) nq qadim mem -> (1 <= nq)%N ->
  load d = Ok (adim, srch) -> (qadim < adim)%N ->
  (forall q L ids ds, exists r, srch q L ids ds = Ok r \/ srch q L ids ds = UB) ->
  (exists L, In L args /\ (least <= L)%N) -> (forall L, In L args -> (least <= L)%N -> each_once (N.to_nat nq) (order L)) ->
  search_tool w g1 g2 query_name prefix k least args order load d = UB.
Proof. exact tool_short_queries. Qed.
Print Assumptions C84_short_queries.

Example C84_short_queries_case :
  search_tool 1 (s_g 0) (s_g 1) "query.bin" "res" 1 1 [5]%N (fun _ => [1; 0]) (fun _ => Ok (16%N, fun _ _ ids ds => Ok (ids, ds, 0))) s_fs = UB.
Proof. vm_compute. reflexivity. Qed.

(** ** C85.  The two programs together.  After a successful run of the Vamana build tool,
    the search tool on any query file of the right dimension and any K >= 1 writes for
    each list size L >= K a file whose row i holds what searching the built index with
    query i reports: distinct points, nearest first, by tag; with filters only points
    whose line in the label file matches. *)
Theorem C85_build_then_search : forall w g sortf pd data_name tags labels_name prm cent work sched order path d a x d', sorts sortf ->
  session_ok w g pd data_name tags labels_name prm cent work sched order path d a ->
  vamana_tool w g sortf pd data_name tags labels_name prm cent work sched order path d = Ok (x, d') ->
  forall g' g1 g2 query_name prefix k args orders qd filters nq qadim mem, garbage_ok g' ->
  queries_in w g1 g2 (d' query_name) nq qadim mem -> (1 <= nq)%N -> (a_adim a <= qadim)%N ->
  (forall q p, is_nan (qd q p) = false) -> (filters = [] \/ labels_name <> "") -> (1 <= k)%N ->
  (exists L, In L args /\ (k <= L)%N) -> (forall L, In L args -> (k <= L)%N -> each_once (N.to_nat nq) (orders L)) ->
  exists d'', search_tool w g1 g2 query_name prefix k k args orders (load_for_vamana w g' sortf qd filters (N.to_nat k) path) d' = Ok (Some d'') /\
    forall L, In L args -> (k <= L)%N -> exists rows,
      d'' (result_name prefix L) = Some (bin_file 4 nq k (map N.of_nat (concat rows))) /\ length rows = N.to_nat nq /\
      forall i row, nth_error rows i = Some row -> length row = N.to_nat k /\
        let q := firstn (N.to_nat (a_adim a) * w) (nth i mem []) in
        exists ds found,
          vamana_searcher sortf qd filters (N.to_nat k) x q (N.to_nat L) (repeat 0 (N.to_nat k)) (repeat f32_zero (N.to_nat k)) = Ok (row, ds, length found) /\
          reports (N.to_nat (a_n a)) (ids_view (a_tags a)) (fun id => qd q (nth id (a_data a) [])) row ds found /\
          (filters = [] \/ forall id, In id found -> exists b line, d labels_name = Some b /\ nth_error (file_lines b) id = Some line /\
             matches (Some "0") filters (line_tokens line)).
Proof. exact session_search. Qed.
Print Assumptions C85_build_then_search.

(** The run of C84_results_file_case is one: its query file survives the build. *)
Example C85_build_then_search_applies : session_ok 1 s_g s_pd "data.bin" [] "labels.txt" s_prm s_cent s_work s_sched (seq 0 10) "ix" s_fs s_ann /\
  match vamana_tool 1 s_g isort s_pd "data.bin" [] "labels.txt" s_prm s_cent s_work s_sched (seq 0 10) "ix" s_fs with
  | Ok (_, d') => d' "query.bin" = Some s_query
  | _ => False
  end /\ a_adim s_ann = 8%N.
Proof. split; [exact s_session|]. split; vm_compute; reflexivity. Qed.
