(** * Theorems: the search tools from vector files to result files, in real distances (C101).

    The distance functions, any in C82 to C88, are here those the tools use with the L2
    metric, on any order of additions and any contractions ([loops_ok]).  [rows] are the
    vectors of the data file, [qrows] those of the query file, of [dim] elements of type [kt];
    [elem_l2] is their squared distance in the real numbers.  For bytes up to dimension 258
    [dist_err] is 0: the results are the nearest vectors. *)
From Coq Require Import NArith ZArith Reals Lra Lia String List Arith Bool Permutation Floats.SpecFloat.
From Verif Require Import Base Bytes Float32 DistSpec DistModel FusedModel RealSpec StreamModel BinModel BinSpec NormModel NormSpec
  PoolModel FilterSpec SortSpec SortInst TopKSpec ClosestSpec SearchSpec PopInst LshModel LshSpec HnswSpec PruneModel HnswModel IndexFileModel IndexFileSpec SystemModel SystemSpec SystemWitness ToolModel ToolSpec ToolWitness
  GtToolSpec RealSearchModel RealSearchSpec RealSearchProofs RealSearchProofs2 RealSearchProofs3 RealSearchProofs4 RealSearchProofs5 RealSearchCases.
Import ListNotations.
Local Open Scope R_scope.

(** ** C101.  IVF with as many probes as clusters: the result file lists, for each query, the K
    nearest of all vectors whose line in the label file matches the filter, padded with zeros. *)
Theorem C101_ivf_nearest : forall kt T F dim rows qrows g popf mbs cd data_name tags labels_name nc centers orders path d a x d', pops popf -> loops_ok T F ->
  ivf_session_ok (kwidth kt) g mbs cd data_name tags labels_name nc centers orders d a ->
  d data_name = vector_file kt dim rows -> vectors_ok kt dim rows ->
  ivf_tool (kwidth kt) g popf mbs cd data_name tags labels_name nc centers orders path d = Ok (x, d') ->
  forall g' g1 g2 query_name prefix k args order filters, garbage_ok g' -> length g1 = 4%nat /\ is_bytes g1 -> length g2 = 4%nat /\ is_bytes g2 ->
  d' query_name = vector_file kt dim qrows -> vectors_ok kt dim qrows -> filter_ok labels_name filters -> (1 <= k)%N ->
  In nc args -> (forall L, In L args -> (L <= nc)%N) -> (forall L, In L args -> (1 <= L)%N -> each_once (length qrows) (order L)) ->
  exists d'' results, search_tool (kwidth kt) g1 g2 query_name prefix k 1 args order (load_for_ivf (kwidth kt) g' popf mbs (mem_l2 kt T F) cd filters (N.to_nat k) path) d' = Ok (Some d'') /\
    d'' (result_name prefix nc) = Some (bin_file 4 (N.of_nat (length qrows)) k (map N.of_nat (concat results))) /\ length results = length qrows /\
    forall i row, nth_error results i = Some row -> let dist := fun id => elem_l2 kt (nth i qrows []) (nth id rows []) in
      exists found, row = (found ++ repeat 0%nat (N.to_nat k - length found))%list /\
        nearest_among (fun id => (id < length rows)%nat /\ line_matches d labels_name filters id) (N.to_nat k) dist (fun id => dist_err kt dim (dist id)) found.
Proof. exact ivf_real. Qed.
Print Assumptions C101_ivf_nearest.

Example C101_ivf_nearest_applies : pops pop_all /\ loops_ok r_T r_F /\
  ivf_session_ok 1 s_g 1000 t_pd "data.bin" [] "labels.txt" 2 t_centers t_orders t_fs (made "data.bin" "labels.txt") /\
  t_fs "data.bin"%string = vector_file KUint8 1 (r_rows 10) /\ vectors_ok KUint8 1 (r_rows 10) /\ vectors_ok KUint8 1 [[7]; [0]]%N /\ filter_ok "labels.txt" ["a"%string] /\
  match ivf_tool 1 s_g pop_all 1000 t_pd "data.bin" [] "labels.txt" 2 t_centers t_orders "ix" t_fs with
  | Ok (_, d') => d' "query.bin"%string = vector_file KUint8 1 [[7]; [0]]%N /\
      match search_tool 1 (s_g 0%nat) (s_g 1%nat) "query.bin" "res" 3 1 [2]%N (fun _ => [1; 0]%nat) (load_for_ivf 1 s_g pop_all 1000 (mem_l2 KUint8 r_T r_F) t_pd ["a"%string] 3 "ix") d' with
      | Ok (Some d'') => d'' "res_2_idx_uint32.bin"%string = Some (bin_file 4 2 3 [5; 3; 1; 0; 1; 3]%N)
      | _ => False end
  | _ => False
  end.
Proof.
  split; [exact pop_all_pops|]. split; [exact r_loops|]. split; [exact t_ivf|]. split; [exact r_data|]. split; [apply r_rows_ok; lia|]. split; [exact r_query_ok|]. split; [right; split; [discriminate|apply t_sorted]|].
  vm_compute. split; reflexivity.
Qed.

(** ** LSH: the K nearest of the candidates: all matching vectors on the same sides of the
    hyperplanes of a table as the query by more than the errors, none on different sides in
    every table. *)
Theorem C101_lsh_nearest : forall kt T F dim rows qrows g data_name labels_name ts planes path d a x d', loops_ok T F ->
  lsh_session_ok (kwidth kt) g data_name [] labels_name ts planes d a -> planes_ok planes ->
  d data_name = vector_file kt dim rows -> vectors_ok kt dim rows ->
  lsh_tool (kwidth kt) g (hash_dot F) (mem_floats kt) data_name [] labels_name ts planes path d = Ok (x, d') ->
  forall g' g1 g2 query_name prefix k args order filters, garbage_ok g' -> length g1 = 4%nat /\ is_bytes g1 -> length g2 = 4%nat /\ is_bytes g2 ->
  d' query_name = vector_file kt dim qrows -> vectors_ok kt dim qrows -> filter_ok labels_name filters -> (1 <= k)%N ->
  (exists L, In L args /\ (1 <= L)%N) -> (forall L, In L args -> (1 <= L)%N -> each_once (length qrows) (order L)) ->
  exists d'', search_tool (kwidth kt) g1 g2 query_name prefix k 1 args order (load_for_lsh (kwidth kt) g' (hash_dot F) (mem_floats kt) (mem_l2 kt T F) filters (N.to_nat k) path) d' = Ok (Some d'') /\
    forall L, In L args -> (1 <= L)%N -> exists results,
      d'' (result_name prefix L) = Some (bin_file 4 (N.of_nat (length qrows)) k (map N.of_nat (concat results))) /\ length results = length qrows /\
      forall i row, nth_error results i = Some row -> let dist := fun id => elem_l2 kt (nth i qrows []) (nth id rows []) in
        exists found cand, row = (found ++ repeat 0%nat (N.to_nat k - length found))%list /\
          lsh_candidates kt planes rows (nth i qrows []) (fun id => (id < length rows)%nat /\ line_matches d labels_name filters id) cand /\
          nearest_among cand (N.to_nat k) dist (fun id => dist_err kt dim (dist id)) found.
Proof. exact lsh_real. Qed.
Print Assumptions C101_lsh_nearest.

(** One hyperplane, the sign of the coordinate: query 7 is together with 1 to 9. *)
Example C101_lsh_nearest_applies : lsh_session_ok 1 s_g "data.bin" [] "labels.txt" 1 r_planes t_fs (made "data.bin" "labels.txt") /\ planes_ok r_planes /\
  clearly_together KUint8 [[1065353216; 0; 0; 0; 0; 0; 0; 0]]%N [7]%N [1]%N /\
  match lsh_tool 1 s_g (hash_dot r_F) (mem_floats KUint8) "data.bin" [] "labels.txt" 1 r_planes "ix" t_fs with
  | Ok (_, d') => d' "query.bin"%string = vector_file KUint8 1 [[7]; [0]]%N /\
      match search_tool 1 (s_g 0%nat) (s_g 1%nat) "query.bin" "res" 3 1 [1]%N (fun _ => [1; 0]%nat) (load_for_lsh 1 s_g (hash_dot r_F) (mem_floats KUint8) (mem_l2 KUint8 r_T r_F) ["a"%string] 3 "ix") d' with
      | Ok (Some d'') => d'' "res_1_idx_uint32.bin"%string = Some (bin_file 4 2 3 [5; 3; 1; 0; 0; 0]%N)
      | _ => False end
  | _ => False
  end.
Proof.
  split; [exact r_lsh|]. split; [exact r_planes_ok|]. split.
  - intros hp [<-|[]]. left. split; [apply (r_above 7); lia|apply (r_above 1); lia].
  - vm_compute. split; reflexivity.
Qed.

(** ** RelativeNG, given the indexed vectors as queries: the first result of each is the tag of
    an equal vector for bytes, of one at the distance of a rounding error for floats. *)
Theorem C101_rng_itself : forall kt T F dim rows g sortf data_name tags cent order path d a x d', sorts sortf -> loops_ok T F ->
  files_ok (kwidth kt) g data_name tags ""%string d a -> d data_name = vector_file kt dim rows -> vectors_ok kt dim rows -> (10 <= length rows)%nat ->
  length cent = length rows -> (forall c, In c cent -> is_nan c = false) -> each_once (length rows) order ->
  rng_tool (kwidth kt) g sortf (mem_l2 kt T F) data_name tags cent order path d = Ok (x, d') ->
  forall g' g1 g2 query_name prefix k args orders, garbage_ok g' -> length g1 = 4%nat /\ is_bytes g1 -> length g2 = 4%nat /\ is_bytes g2 ->
  d' query_name = vector_file kt dim rows -> (1 <= k)%N ->
  (exists L, In L args /\ (k <= L)%N) -> (forall L, In L args -> (k <= L)%N -> each_once (length rows) (orders L)) ->
  exists d'', search_tool (kwidth kt) g1 g2 query_name prefix k k args orders (load_for_rng (kwidth kt) g' sortf (fun q p => mem_l2 kt T F p q) (N.to_nat k) path) d' = Ok (Some d'') /\
    forall L, In L args -> (k <= L)%N -> exists results,
      d'' (result_name prefix L) = Some (bin_file 4 (N.of_nat (length rows)) k (map N.of_nat (concat results))) /\ length results = length rows /\
      forall i row, nth_error results i = Some row -> length row = N.to_nat k /\ exists id t, nth_error row 0 = Some (N.to_nat t) /\ nth_error (a_tags a) id = Some t /\ (id < length rows)%nat /\
        match kt with KFloat => elem_l2 kt (nth id rows []) (nth i rows []) <= (INR dim + 7) * powerRZ 2 (-148) | _ => nth id rows [] = nth i rows [] end.
Proof. exact rng_real. Qed.
Print Assumptions C101_rng_itself.

Example C101_rng_itself_applies : files_ok 1 s_g "data.bin" [] "" t_fs (made "data.bin" "") /\ length s_cent = length (r_rows 10) /\ (forall c, In c s_cent -> is_nan c = false) /\ each_once (length (r_rows 10)) (seq 0 10) /\
  match rng_tool 1 s_g isort (mem_l2 KUint8 r_T r_F) "data.bin" [] s_cent (seq 0 10) "ix" t_fs with
  | Ok (_, d') => d' "data.bin"%string = vector_file KUint8 1 (r_rows 10) /\
      match search_tool 1 (s_g 0%nat) (s_g 1%nat) "data.bin" "res" 1 1 [1]%N (fun _ => rev (seq 0 10)) (load_for_rng 1 s_g isort (fun q p => mem_l2 KUint8 r_T r_F p q) 1 "ix") d' with
      | Ok (Some d'') => d'' "res_1_idx_uint32.bin"%string = Some (bin_file 4 10 1 [0; 1; 2; 3; 4; 5; 6; 7; 8; 9]%N)
      | _ => False end
  | _ => False
  end.
Proof. split; [exact t_files_data|]. split; [reflexivity|]. split; [exact r_cent_nan|]. split; [apply Permutation_refl|]. vm_compute. split; reflexivity. Qed.

(** ** HNSW: at least one result, nearest first. *)
Theorem C101_hnsw_first : forall kt T F dim rows qrows g sortf data_name tags prm cs path d a levels d', sorts sortf -> loops_ok T F ->
  files_ok (kwidth kt) g data_name tags ""%string d a -> (1 <= bp_L prm)%nat -> (N.of_nat (bp_R prm) < 2 ^ 32)%N -> choices_ok (length rows) cs ->
  d data_name = vector_file kt dim rows -> vectors_ok kt dim rows ->
  hnsw_tool (kwidth kt) g sortf (mem_l2 kt T F) data_name tags prm cs path d = Ok (levels, d') ->
  forall g' g1 g2 query_name prefix k args orders, garbage_ok g' -> length g1 = 4%nat /\ is_bytes g1 -> length g2 = 4%nat /\ is_bytes g2 ->
  d' query_name = vector_file kt dim qrows -> vectors_ok kt dim qrows -> (1 <= k)%N ->
  (exists L, In L args /\ (k <= L)%N) -> (forall L, In L args -> (k <= L)%N -> each_once (length qrows) (orders L)) ->
  exists d'', search_tool (kwidth kt) g1 g2 query_name prefix k k args orders (load_for_hnsw (kwidth kt) g' sortf (mem_l2 kt T F) (N.to_nat k) (length cs) path) d' = Ok (Some d'') /\
    forall L, In L args -> (k <= L)%N -> exists results,
      d'' (result_name prefix L) = Some (bin_file 4 (N.of_nat (length qrows)) k (map N.of_nat (concat results))) /\ length results = length qrows /\
      forall i row, nth_error results i = Some row -> length row = N.to_nat k /\ let dist := fun id => elem_l2 kt (nth i qrows []) (nth id rows []) in
        exists found, found <> [] /\ nearest_first (length rows) (ids_view (a_tags a)) dist (fun id => dist_err kt dim (dist id)) row found.
Proof. exact hnsw_real. Qed.
Print Assumptions C101_hnsw_first.

Example C101_hnsw_first_applies : files_ok 1 s_g "big.bin" [] "" t_fs (made "big.bin" "") /\ choices_ok (length (r_rows 12)) t_choices /\ t_fs "big.bin"%string = vector_file KUint8 1 (r_rows 12) /\ vectors_ok KUint8 1 (r_rows 12) /\
  match hnsw_tool 1 s_g isort (mem_l2 KUint8 r_T r_F) "big.bin" [] t_prm t_choices "ix" t_fs with
  | Ok (_, d') => d' "query.bin"%string = vector_file KUint8 1 [[7]; [0]]%N /\
      match search_tool 1 (s_g 0%nat) (s_g 1%nat) "query.bin" "res" 3 3 [2; 5]%N (fun _ => [1; 0]%nat) (load_for_hnsw 1 s_g isort (mem_l2 KUint8 r_T r_F) 3 2 "ix") d' with
      | Ok (Some d'') => d'' "res_5_idx_uint32.bin"%string = Some (bin_file 4 2 3 [7; 6; 8; 0; 1; 2]%N)
      | _ => False end
  | _ => False
  end.
Proof. split; [exact t_files_big|]. split; [exact t_choices_ok|]. split; [exact r_big|]. split; [apply r_rows_ok; lia|]. vm_compute. split; reflexivity. Qed.

(** ** Vamana with filter labels: only vectors whose line matches, nearest first. *)
Theorem C101_vamana_filtered : forall kt T F dim rows qrows g sortf data_name tags labels_name prm cent work sched order path d a x d', sorts sortf -> loops_ok T F ->
  session_ok (kwidth kt) g (mem_l2 kt T F) data_name tags labels_name prm cent work sched order path d a -> labels_name <> ""%string ->
  d data_name = vector_file kt dim rows -> vectors_ok kt dim rows ->
  vamana_tool (kwidth kt) g sortf (mem_l2 kt T F) data_name tags labels_name prm cent work sched order path d = Ok (x, d') ->
  forall g' g1 g2 query_name prefix k args orders filters, garbage_ok g' -> length g1 = 4%nat /\ is_bytes g1 -> length g2 = 4%nat /\ is_bytes g2 ->
  d' query_name = vector_file kt dim qrows -> vectors_ok kt dim qrows -> filters <> [] -> (1 <= k)%N ->
  (exists L, In L args /\ (k <= L)%N) -> (forall L, In L args -> (k <= L)%N -> each_once (length qrows) (orders L)) ->
  exists d'', search_tool (kwidth kt) g1 g2 query_name prefix k k args orders (load_for_vamana (kwidth kt) g' sortf (mem_l2 kt T F) filters (N.to_nat k) path) d' = Ok (Some d'') /\
    forall L, In L args -> (k <= L)%N -> exists results,
      d'' (result_name prefix L) = Some (bin_file 4 (N.of_nat (length qrows)) k (map N.of_nat (concat results))) /\ length results = length qrows /\
      forall i row, nth_error results i = Some row -> length row = N.to_nat k /\ let dist := fun id => elem_l2 kt (nth i qrows []) (nth id rows []) in
        exists found, (forall id, In id found -> line_matches d labels_name filters id) /\
          nearest_first (length rows) (ids_view (a_tags a)) dist (fun id => dist_err kt dim (dist id)) row found.
Proof. exact vamana_real. Qed.
Print Assumptions C101_vamana_filtered.

Example C101_vamana_filtered_applies : session_ok 1 s_g (mem_l2 KUint8 r_T r_F) "data.bin" [] "labels.txt" s_prm s_cent s_work s_sched (seq 0 10) "ix" s_fs s_ann /\
  match vamana_tool 1 s_g isort (mem_l2 KUint8 r_T r_F) "data.bin" [] "labels.txt" s_prm s_cent s_work s_sched (seq 0 10) "ix" s_fs with
  | Ok (_, d') => d' "query.bin"%string = vector_file KUint8 1 [[7]; [0]]%N /\
      match search_tool 1 (s_g 0%nat) (s_g 1%nat) "query.bin" "res" 3 3 [2; 5]%N (fun _ => [1; 0]%nat) (load_for_vamana 1 s_g isort (mem_l2 KUint8 r_T r_F) ["a"%string] 3 "ix") d' with
      | Ok (Some d'') => d'' "res_5_idx_uint32.bin"%string = Some (bin_file 4 2 3 [5; 1; 0; 0; 1; 5]%N)
      | _ => False end
  | _ => False
  end.
Proof. split; [exact r_vamana|]. vm_compute. split; reflexivity. Qed.
