(** * Theorems: command lines from vector files to nearest neighbours and recall (C103, C105),
    and parameters written as decimals (C104). *)
From Coq Require Import NArith ZArith QArith Qabs Qreals Reals Lra Lia String List Arith Bool Permutation Floats.SpecFloat.
From Verif Require Import Base Bytes Float32 FloatBits DistSpec DistModel FusedModel RealSpec StreamModel BinModel BinSpec TextModel RecallSpec TruthModel TsvModel TsvSpec LloydModel NormModel NormSpec StatsModel
  PoolModel FilterSpec SortSpec SortInst TopKSpec HnswModel HnswSpec LshModel ClosestModel ClosestSpec SearchSpec PopInst HeapSpec HeapInst GtModel GtSpec PruneModel BuildModel IvfModel IndexFileModel IndexFileSpec SystemModel SystemSpec SystemWitness ToolModel ToolSpec ToolWitness
  BlasModel BlasSpec BlasCases GtToolModel GtToolSpec GtToolCases RealSearchModel RealSearchSpec RealSearchCases PipelineSpec PipelineProofs3 CmdModel CmdSpec CmdRealSpec CmdProofs7 CmdProofs8 CmdProofs9 CmdCases.
Import ListNotations.
Local Open Scope R_scope.

(** ** C103.  Two command lines: build_ivf, then search_ivf with as many probes as clusters among
    the probe widths.  The result file holds for each query the nearest vectors of the data
    file (C101), and zeros behind them. *)
Theorem C103_ivf_nearest : forall atof kt T F dim rows qrows g popf mbs cd data labels words save ncs nc ra centers orders prog d a d', pops popf -> loops_ok T F ->
  optional labels words -> number_arg ncs nc -> TsvSpec.finite (f32_of_f64 (atof ra)) ->
  ivf_session_ok (kwidth kt) g mbs (cd kt) data [] (name_or_empty labels) nc centers orders d a -> d data = vector_file kt dim rows -> vectors_ok kt dim rows ->
  build_ivf_main atof g popf mbs cd centers orders ([prog; type_word kt; data] ++ words ++ [save; ncs; ra]) d = Ok (0%Z, d') ->
  forall g' g1 g2 h prog' t Th query truth ks k prefix filters fwords ss Ls order, garbage_ok g' -> length g1 = 4%nat /\ is_bytes g1 -> length g2 = 4%nat /\ is_bytes g2 ->
  number_arg t Th -> number_arg ks k -> optional filters fwords -> Forall2 number_arg ss Ls ->
  d' query = vector_file kt dim qrows -> vectors_ok kt dim qrows -> filter_ok (name_or_empty labels) (names filters) -> (1 <= k)%N -> (k * N.of_nat (length qrows) < 2 ^ 61)%N -> d' truth = None ->
  In nc Ls -> (forall L, In L Ls -> (L <= nc)%N) -> (forall L, In L Ls -> (1 <= L)%N -> each_once (length qrows) (order L)) ->
  exists d'' table results, search_ivf_main g1 g2 h g' popf mbs (fun kt => mem_l2 kt T F) cd order ([prog'; type_word kt; save; t; query; truth; ks; prefix] ++ fwords ++ ss) d' = Ok (0%Z, d'', table) /\
    d'' (result_name prefix nc) = Some (bin_file 4 (N.of_nat (length qrows)) k (map N.of_nat (concat results))) /\ length results = length qrows /\
    forall i row, nth_error results i = Some row -> let dist := fun id => elem_l2 kt (nth i qrows []) (nth id rows []) in
      exists found, row = (found ++ repeat 0%nat (N.to_nat k - length found))%list /\
        nearest_among (fun id => (id < length rows)%nat /\ line_matches d (name_or_empty labels) (names filters) id) (N.to_nat k) dist (fun id => dist_err kt dim (dist id)) found.
Proof. exact cmd_ivf_nearest. Qed.
Print Assumptions C103_ivf_nearest.

Definition c_mem (kt : ktype) : vec -> vec -> f32 := mem_l2 kt r_T r_F.
Definition c_two (truth : string) : res (Z * Z * option (list N) * list (N * f32)) :=
  c_then (build_ivf_main c_atof s_g pop_all 1000 c_cd t_centers t_orders (["build_ivf"%string; type_word KUint8; "data.bin"%string] ++ ["1"; "labels.txt"]%string ++ ["ix"; "2"; "0.5"]%string) t_fs)
    (fun d' => search_ivf_main (s_g 0%nat) (s_g 1%nat) h0 s_g pop_all 1000 c_mem c_cd c_order (["search_ivf"%string; type_word KUint8; "ix"; "2"; "query.bin"; truth; "3"; "res"]%string ++ ["1"; "a"]%string ++ ["1"; "2"]%string) d') "res_2_idx_uint32.bin".
Example C103_ivf_nearest_applies : pops pop_all /\ loops_ok r_T r_F /\ optional (Some "labels.txt"%string) ["1"; "labels.txt"]%string /\ TsvSpec.finite (f32_of_f64 (c_atof "0.5")) /\
  ivf_session_ok (kwidth KUint8) s_g 1000 (c_cd KUint8) "data.bin" [] "labels.txt" 2 t_centers t_orders t_fs (made "data.bin" "labels.txt") /\
  t_fs "data.bin"%string = vector_file KUint8 1 (r_rows 10) /\ vectors_ok KUint8 1 (r_rows 10) /\ vectors_ok KUint8 1 [[7]; [0]]%N /\ filter_ok "labels.txt" ["a"%string] /\ Forall2 number_arg ["1"; "2"]%string [1; 2]%N /\
  c_two "none" = Ok (0%Z, 0%Z, Some (bin_file 4 2 3 [5; 3; 1; 0; 1; 3]%N), [(1%N, S754_zero false); (2%N, S754_zero false)]).
Proof.
  split; [exact pop_all_pops|]. split; [exact r_loops|]. split; [exact c_labels|]. split; [exact (proj2 (proj2 c_rate))|]. split; [exact t_ivf|]. split; [exact r_data|]. split; [apply r_rows_ok; lia|]. split; [exact r_query_ok|].
  split; [right; split; [discriminate|apply t_sorted]|]. split; [exact c_probes|]. vm_compute. reflexivity.
Qed.

(** build_lsh, then search_lsh: the nearest among the vectors that share a bucket with the query
    (C101: those clearly on the same sides of one table's hyperplanes are among them). *)
Theorem C103_lsh_nearest : forall kt T F dim rows qrows g draw data labels words save nts nt tss ts prog d a d', loops_ok T F ->
  optional labels words -> number_arg nts nt -> number_arg tss ts ->
  let planes := planes_of draw (N.to_nat nt) (N.to_nat ts) (N.to_nat (a_adim a)) in
  lsh_session_ok (kwidth kt) g data [] (name_or_empty labels) ts planes d a -> planes_ok planes -> d data = vector_file kt dim rows -> vectors_ok kt dim rows ->
  build_lsh_main g (hash_dot F) (fun kt => mem_floats kt) draw ([prog; type_word kt; data] ++ words ++ [save; nts; tss]) d = Ok (0%Z, d') ->
  forall g' g1 g2 h prog' t Th query truth ks k prefix filters fwords more order, garbage_ok g' -> length g1 = 4%nat /\ is_bytes g1 -> length g2 = 4%nat /\ is_bytes g2 ->
  number_arg t Th -> number_arg ks k -> optional filters fwords ->
  d' query = vector_file kt dim qrows -> vectors_ok kt dim qrows -> filter_ok (name_or_empty labels) (names filters) -> (1 <= k)%N -> (k * N.of_nat (length qrows) < 2 ^ 61)%N -> d' truth = None -> each_once (length qrows) (order 1%N) ->
  exists d'' table results, search_lsh_main g1 g2 h g' (hash_dot F) (fun kt => mem_floats kt) (fun kt => mem_l2 kt T F) order ([prog'; type_word kt; save; t; query; truth; ks; prefix] ++ fwords ++ more) d' = Ok (0%Z, d'', table) /\
    d'' (result_name prefix 1) = Some (bin_file 4 (N.of_nat (length qrows)) k (map N.of_nat (concat results))) /\ length results = length qrows /\
    forall i row, nth_error results i = Some row -> let dist := fun id => elem_l2 kt (nth i qrows []) (nth id rows []) in
      exists found cand, row = (found ++ repeat 0%nat (N.to_nat k - length found))%list /\
        lsh_candidates kt planes rows (nth i qrows []) (fun id => (id < length rows)%nat /\ line_matches d (name_or_empty labels) (names filters) id) cand /\
        nearest_among cand (N.to_nat k) dist (fun id => dist_err kt dim (dist id)) found.
Proof. exact cmd_lsh_nearest. Qed.
Print Assumptions C103_lsh_nearest.

Definition c_draw1 (t i j : nat) : N := match j with O => 1065353216%N | _ => 0%N end.
Example C103_lsh_nearest_applies : planes_of c_draw1 1 1 (N.to_nat (a_adim (made "data.bin" "labels.txt"))) = r_planes /\
  lsh_session_ok (kwidth KUint8) s_g "data.bin" [] "labels.txt" 1 r_planes t_fs (made "data.bin" "labels.txt") /\ planes_ok r_planes /\
  c_then (build_lsh_main s_g (hash_dot r_F) (fun kt => mem_floats kt) c_draw1 (["build_lsh"%string; type_word KUint8; "data.bin"%string] ++ ["1"; "labels.txt"]%string ++ ["ix"; "1"; "1"]%string) t_fs)
    (search_lsh_main (s_g 0%nat) (s_g 1%nat) h0 s_g (hash_dot r_F) (fun kt => mem_floats kt) c_mem c_order (["search_lsh"%string; type_word KUint8; "ix"; "2"; "query.bin"; "none"; "3"; "res"]%string ++ ["1"; "a"]%string ++ [])) "res_1_idx_uint32.bin"
  = Ok (0%Z, 0%Z, Some (bin_file 4 2 3 [5; 3; 1; 0; 0; 0]%N), [(1%N, S754_zero false)]).
Proof. split; [vm_compute; reflexivity|]. split; [exact r_lsh|]. split; [exact r_planes_ok|]. vm_compute. reflexivity. Qed.

(** build_relng on a data file, then search_relng with the data file as queries: every vector
    comes first for itself. *)
Theorem C103_relng_itself : forall kt T F dim rows g sortf data save t Th cent order prog d a d', sorts sortf -> loops_ok T F -> number_arg t Th ->
  files_ok (kwidth kt) g data [] ""%string d a -> d data = vector_file kt dim rows -> vectors_ok kt dim rows -> (10 <= length rows)%nat ->
  length cent = length rows -> (forall c, In c cent -> is_nan c = false) -> each_once (length rows) order ->
  build_relng_main g sortf (fun kt _ => mem_l2 kt T F) cent order [prog; type_word kt; "l2"%string; data; save; t] d = Ok (0%Z, d') ->
  forall g' gc g1 g2 h prog' t' Th' truth ks k prefix ss Ls orders a', garbage_ok g' -> length g1 = 4%nat /\ is_bytes g1 -> length g2 = 4%nat /\ is_bytes g2 ->
  number_arg t' Th' -> number_arg ks k -> Forall2 number_arg ss Ls -> d' data = vector_file kt dim rows -> construct (kwidth kt) gc data [] ""%string d' = Ok a' -> d' truth = None ->
  (1 <= k)%N -> (k * N.of_nat (length rows) < 2 ^ 61)%N -> (exists L, In L Ls /\ (k <= L)%N) -> (forall L, In L Ls -> (k <= L)%N -> each_once (length rows) (orders L)) ->
  exists d'' table, search_relng_main g1 g2 h gc g' sortf (fun kt _ q p => mem_l2 kt T F p q) orders ([prog'; type_word kt; "l2"%string; data; save; t'; data; truth; ks; prefix] ++ ss) d' = Ok (0%Z, d'', table) /\
    forall L, In L Ls -> (k <= L)%N -> exists results,
      d'' (result_name prefix L) = Some (bin_file 4 (N.of_nat (length rows)) k (map N.of_nat (concat results))) /\ length results = length rows /\
      forall i row, nth_error results i = Some row -> length row = N.to_nat k /\ exists id tg, nth_error row 0 = Some (N.to_nat tg) /\ nth_error (a_tags a) id = Some tg /\ (id < length rows)%nat /\
        match kt with KFloat => elem_l2 kt (nth id rows []) (nth i rows []) <= (INR dim + 7) * powerRZ 2 (-148) | _ => nth id rows [] = nth i rows [] end.
Proof. exact cmd_rng_itself. Qed.
Print Assumptions C103_relng_itself.

Definition c_mem2 (kt : ktype) (m : metric) : vec -> vec -> f32 := mem_l2 kt r_T r_F.
Definition c_mem2' (kt : ktype) (m : metric) (q p : vec) : f32 := mem_l2 kt r_T r_F p q.
Example C103_relng_itself_applies : files_ok (kwidth KUint8) s_g "data.bin" [] "" t_fs (made "data.bin" "") /\ length s_cent = length (r_rows 10) /\ (forall c, In c s_cent -> is_nan c = false) /\ each_once (length (r_rows 10)) (seq 0 10) /\
  c_then (build_relng_main s_g isort c_mem2 s_cent (seq 0 10) ["build_relng"%string; type_word KUint8; "l2"; "data.bin"; "ix"; "2"]%string t_fs)
    (search_relng_main (s_g 0%nat) (s_g 1%nat) h0 s_g s_g isort c_mem2' (fun _ => rev (seq 0 10)) (["search_relng"%string; type_word KUint8; "l2"; "data.bin"; "ix"; "2"; "data.bin"; "none"; "1"; "res"]%string ++ ["1"]%string)) "res_1_idx_uint32.bin"
  = Ok (0%Z, 0%Z, Some (bin_file 4 10 1 [0; 1; 2; 3; 4; 5; 6; 7; 8; 9]%N), [(1%N, S754_zero false)]).
Proof. split; [exact t_files_data|]. split; [reflexivity|]. split; [exact r_cent_nan|]. split; [apply Permutation_refl|]. vm_compute. reflexivity. Qed.

(** build_hnsw, then search_hnsw with the same number of levels: at least one result per query,
    nearest first. *)
Theorem C103_hnsw_first : forall atof kt T F dim rows qrows g sortf choices data save r R l L ru rule ra lv levels t Th prog d a d', sorts sortf -> loops_ok T F ->
  number_arg r R -> number_arg l L -> number_arg ru rule -> number_arg lv levels -> (1 <= levels)%N -> number_arg t Th -> TsvSpec.finite (f32_of_f64 (atof ra)) ->
  files_ok (kwidth kt) g data [] ""%string d a -> (1 <= L)%N -> choices_ok (length rows) (map choices (seq 0 (N.to_nat levels))) -> d data = vector_file kt dim rows -> vectors_ok kt dim rows ->
  build_hnsw_main atof g sortf (fun kt _ => mem_l2 kt T F) choices [prog; type_word kt; "l2"%string; data; save; r; l; ru; ra; lv; t] d = Ok (0%Z, d') ->
  forall g' g1 g2 h prog' t' Th' query truth ks k prefix ss Ls orders, garbage_ok g' -> length g1 = 4%nat /\ is_bytes g1 -> length g2 = 4%nat /\ is_bytes g2 ->
  number_arg t' Th' -> number_arg ks k -> Forall2 number_arg ss Ls -> d' query = vector_file kt dim qrows -> vectors_ok kt dim qrows -> d' truth = None ->
  (1 <= k)%N -> (k * N.of_nat (length qrows) < 2 ^ 61)%N -> (exists L, In L Ls /\ (k <= L)%N) -> (forall L, In L Ls -> (k <= L)%N -> each_once (length qrows) (orders L)) ->
  exists d'' table, search_hnsw_main g1 g2 h g' sortf (fun kt _ => mem_l2 kt T F) orders ([prog'; type_word kt; "l2"%string; save; lv; t'; query; truth; ks; prefix] ++ ss) d' = Ok (0%Z, d'', table) /\
    forall L, In L Ls -> (k <= L)%N -> exists results,
      d'' (result_name prefix L) = Some (bin_file 4 (N.of_nat (length qrows)) k (map N.of_nat (concat results))) /\ length results = length qrows /\
      forall i row, nth_error results i = Some row -> length row = N.to_nat k /\ let dist := fun id => elem_l2 kt (nth i qrows []) (nth id rows []) in
        exists found, found <> [] /\ nearest_first (length rows) (ids_view (a_tags a)) dist (fun id => dist_err kt dim (dist id)) row found.
Proof. exact cmd_hnsw_first. Qed.
Print Assumptions C103_hnsw_first.

Example C103_hnsw_first_applies : files_ok (kwidth KUint8) s_g "big.bin" [] "" t_fs (made "big.bin" "") /\ choices_ok (length (r_rows 12)) (map c_choices (seq 0 (N.to_nat 2))) /\ t_fs "big.bin"%string = vector_file KUint8 1 (r_rows 12) /\ vectors_ok KUint8 1 (r_rows 12) /\
  TsvSpec.finite (f32_of_f64 (c_atof "0.8")) /\
  c_then (build_hnsw_main c_atof s_g isort c_mem2 c_choices ["build_hnsw"%string; type_word KUint8; "l2"; "big.bin"; "ix"; "5"; "64"; "0"; "0.8"; "2"; "2"]%string t_fs)
    (search_hnsw_main (s_g 0%nat) (s_g 1%nat) h0 s_g isort c_mem2 c_order (["search_hnsw"%string; type_word KUint8; "l2"; "ix"; "2"; "2"; "query.bin"; "none"; "3"; "res"]%string ++ ["2"; "5"]%string)) "res_5_idx_uint32.bin"
  = Ok (0%Z, 0%Z, Some (bin_file 4 2 3 [7; 6; 8; 0; 1; 2]%N), [(5%N, S754_zero false)]).
Proof. split; [exact t_files_big|]. split; [exact t_choices_ok|]. split; [exact r_big|]. split; [apply r_rows_ok; lia|]. split; [exact (proj1 (proj2 c_rate))|]. vm_compute. reflexivity. Qed.

(** build_vamana with a label file, then search_vamana with a filter: only vectors whose line
    matches the filter, nearest first.  No hypothesis depends on the value of alpha. *)
Theorem C103_vamana_filtered : forall atof alpha kt T F dim rows qrows g sortf data labels f n save r R l L al t Th cent work sched order prog d a d', sorts sortf -> loops_ok T F ->
  number_arg f n -> n <> 0%N -> number_arg r R -> number_arg l L -> number_arg t Th -> TsvSpec.finite (f32_of_f64 (atof al)) ->
  session_ok (kwidth kt) g (mem_l2 kt T F) data [] labels (mkB (N.to_nat L) (N.to_nat R) 750 alpha 0) cent work sched order save d a -> labels <> ""%string -> d data = vector_file kt dim rows -> vectors_ok kt dim rows ->
  build_vamana_main atof g sortf (fun kt _ => mem_l2 kt T F) cent work sched order [prog; type_word kt; "l2"%string; data; f; labels; save; r; l; al; t] d = Ok (0%Z, d') ->
  forall g' g1 g2 h prog' t' Th' query truth ks k prefix f' n' filter_name ss Ls orders, garbage_ok g' -> length g1 = 4%nat /\ is_bytes g1 -> length g2 = 4%nat /\ is_bytes g2 ->
  number_arg t' Th' -> number_arg ks k -> number_arg f' n' -> n' <> 0%N -> Forall2 number_arg ss Ls -> d' query = vector_file kt dim qrows -> vectors_ok kt dim qrows -> d' truth = None ->
  (1 <= k)%N -> (k * N.of_nat (length qrows) < 2 ^ 61)%N -> (exists L, In L Ls /\ (k <= L)%N) -> (forall L, In L Ls -> (k <= L)%N -> each_once (length qrows) (orders L)) ->
  exists d'' table, search_vamana_main g1 g2 h g' sortf (fun kt _ => mem_l2 kt T F) orders ([prog'; type_word kt; "l2"%string; save; t'; query; truth; ks; prefix; f'; filter_name] ++ ss) d' = Ok (0%Z, d'', table) /\
    forall L, In L Ls -> (k <= L)%N -> exists results,
      d'' (result_name prefix L) = Some (bin_file 4 (N.of_nat (length qrows)) k (map N.of_nat (concat results))) /\ length results = length qrows /\
      forall i row, nth_error results i = Some row -> length row = N.to_nat k /\ let dist := fun id => elem_l2 kt (nth i qrows []) (nth id rows []) in
        exists found, (forall id, In id found -> line_matches d labels [filter_name] id) /\
          nearest_first (length rows) (ids_view (a_tags a)) dist (fun id => dist_err kt dim (dist id)) row found.
Proof. exact cmd_vamana_filtered. Qed.
Print Assumptions C103_vamana_filtered.

Example C103_vamana_filtered_applies : session_ok (kwidth KUint8) s_g (mem_l2 KUint8 r_T r_F) "data.bin" [] "labels.txt" (mkB (N.to_nat 64) (N.to_nat 5) 750 f32_one 0) s_cent s_work s_sched (seq 0 10) "ix" s_fs s_ann /\
  s_fs "data.bin"%string = vector_file KUint8 1 (r_rows 10) /\
  c_then (build_vamana_main c_atof s_g isort c_mem2 s_cent s_work s_sched (seq 0 10) ["build_vamana"%string; type_word KUint8; "l2"; "data.bin"; "1"; "labels.txt"; "ix"; "5"; "64"; "1.2"; "2"]%string s_fs)
    (search_vamana_main (s_g 0%nat) (s_g 1%nat) h0 s_g isort c_mem2 c_order (["search_vamana"%string; type_word KUint8; "l2"; "ix"; "2"; "query.bin"; "none"; "3"; "res"; "1"; "a"]%string ++ ["2"; "5"]%string)) "res_5_idx_uint32.bin"
  = Ok (0%Z, 0%Z, Some (bin_file 4 2 3 [5; 1; 0; 0; 1; 5]%N), [(5%N, S754_zero false)]).
Proof. split; [|split; [vm_compute; reflexivity|vm_compute; reflexivity]]. destruct r_vamana. constructor; auto; cbn [bp_L bp_R]; first [lia|reflexivity]. Qed.

(** ** C104.  alpha written as a decimal with up to six digits reaches the build as the float
    closest to it, although it goes through a double, a float, a text of six digits and a
    float again. *)
Theorem C104_alpha_as_written : forall atof g sortf pd cent work sched order prog kt m data labels words save r R l L al q t T d,
  supported kt m -> optional labels words -> number_arg r R -> number_arg l L -> number_arg t T -> written atof al q ->
  exists alpha, closest_float q alpha /\
    build_vamana_main atof g sortf pd cent work sched order ([prog; type_word kt; metric_word m; data] ++ words ++ [save; r; l; al; t]) d =
      finished (vamana_tool (kwidth kt) g sortf (pd kt m) data [] (name_or_empty labels) (mkB (N.to_nat L) (N.to_nat R) 750 alpha 0) cent work sched order save d).
Proof. exact vamana_alpha. Qed.
Print Assumptions C104_alpha_as_written.

Example C104_alpha_applies : written c_atof "1.2" (12 # 10) /\ written c_atof "0.0999999" (999999 # 10000000).
Proof.
  assert (E : forall p q : positive, Q2R (Zpos p # q) = IZR (Zpos p) * / IZR (Zpos q)) by reflexivity.
  split; (split; [|split; [|split; [|split]]]).
  - exists false, [1%Z], [2%Z], [], 0%Z. split; [discriminate|]. split; [repeat constructor; lia|]. split; [repeat constructor; lia|]. split; [constructor|]. split; reflexivity.
  - exists 12%Z, (-1)%Z. split; reflexivity.
  - right. split; vm_compute; discriminate.
  - vm_compute. exact I.
  - rewrite c_12. change (real (S754_finite false 5404319552844595 (-52))) with (1 * 5404319552844595 * / 2 ^ 52). rewrite E. change (powerRZ 2 (-53)) with (/ 2 ^ 53).
    apply Rabs_le. rewrite Rabs_pos_eq; [|lra]. split; lra.
  - exists false, [0%Z], [0; 9; 9; 9; 9; 9; 9]%Z, [], 0%Z. split; [discriminate|]. split; [repeat constructor; lia|]. split; [repeat constructor; lia|]. split; [constructor|]. split; reflexivity.
  - exists 999999%Z, (-7)%Z. split; reflexivity.
  - right. split; vm_compute; discriminate.
  - vm_compute. exact I.
  - replace (c_atof "0.0999999") with (S754_finite false 7205752198033390 (-56)) by (vm_compute; reflexivity). change (real (S754_finite false 7205752198033390 (-56))) with (1 * 7205752198033390 * / 2 ^ 56). rewrite E. change (powerRZ 2 (-53)) with (/ 2 ^ 53).
    apply Rabs_le. rewrite Rabs_pos_eq; [|lra]. split; lra.
Qed.

(** A seventh digit is lost: 1.234567 and 1.23457 build the same index. *)
Theorem C104_seven_digits_refuted : forall g sortf pd cent work sched order prog ty m data save r l t d,
  build_vamana_main c_atof g sortf pd cent work sched order [prog; ty; m; data; "0"%string; save; r; l; "1.234567"%string; t] d =
  build_vamana_main c_atof g sortf pd cent work sched order [prog; ty; m; data; "0"%string; save; r; l; "1.23457"%string; t] d.
Proof. exact c_digits_lost. Qed.
Print Assumptions C104_seven_digits_refuted.

(** ** C105.  The same two command lines on byte vectors, with the truth file the ground truth
    tool writes for the same files: the line of the table with as many probes as clusters says
    100. *)
Theorem C105_ivf_prints_100 : forall atof kt T F dim rows qrows g popf mbs cd data labels words save ncs nc ra centers orders prog d a d', pops popf -> loops_ok T F ->
  optional labels words -> number_arg ncs nc -> TsvSpec.finite (f32_of_f64 (atof ra)) ->
  ivf_session_ok (kwidth kt) g mbs (cd kt) data [] (name_or_empty labels) nc centers orders d a -> d data = vector_file kt dim rows -> vectors_ok kt dim rows ->
  build_ivf_main atof g popf mbs cd centers orders ([prog; type_word kt; data] ++ words ++ [save; ncs; ra]) d = Ok (0%Z, d') ->
  forall g' g1 g2 h prog' t Th query truth ks k prefix fwords ss Ls order, garbage_ok g' -> length g1 = 4%nat /\ is_bytes g1 -> length g2 = 4%nat /\ is_bytes g2 ->
  number_arg t Th -> number_arg ks k -> optional None fwords -> Forall2 number_arg ss Ls ->
  d' query = vector_file kt dim qrows -> vectors_ok kt dim qrows -> (1 <= k)%N -> (N.of_nat (length qrows) * k <= 2 ^ 53)%N ->
  In nc Ls -> (forall L, In L Ls -> (L <= nc)%N) -> (forall L, In L Ls -> (1 <= L)%N -> each_once (length qrows) (order L)) ->
  forall W pushf takef sortf bs ps gb1 gb2 gq1 gq2 depth torders b, heap_ok pushf takef -> sorts_pairs sortf -> length gb1 = 4%nat -> length gb2 = 4%nat -> length gq1 = 4%nat -> length gq2 = 4%nat -> (1 <= bs)%nat -> (1 <= ps)%nat ->
  (depth <= last_part (length rows) ps)%nat -> (forall p, batch_orders (length qrows) bs (torders p)) -> tool_input kt dim ps rows qrows -> ways_ok dim W -> kt <> KFloat -> (dim <= 258)%nat ->
  gt_tool W false pushf takef sortf bs ps kt gb1 gb2 gq1 gq2 (d data) (d' query) depth torders = Ok b -> d' truth = Some b -> (k <= N.of_nat depth)%N ->
  (forall i, (i < length qrows)%nat -> ties_fit (length rows) (N.to_nat k) depth (fun id => elem_l2 kt (nth i qrows []) (nth id rows []))) ->
  exists d'' table v, search_ivf_main g1 g2 h g' popf mbs (fun kt => mem_l2 kt T F) cd order ([prog'; type_word kt; save; t; query; truth; ks; prefix] ++ fwords ++ ss) d' = Ok (0%Z, d'', table) /\
    In (nc, v) table /\ (forall w, In (nc, w) table -> w = v) /\ DistSpec.finite v /\ real v = 100.
Proof. exact cmd_ivf_recall. Qed.
Print Assumptions C105_ivf_prints_100.

Definition c_truth_of (depth : nat) : list N :=
  match gt_tool one_W false heap_push heap_take sort_pairs 2 5 KUint8 no no no no (t_fs "data.bin"%string) (t_fs "query.bin"%string) depth (tool_orders 2) with Ok b => b | _ => [] end.
Definition c_three (depth : nat) : res (Z * Z * option (list N) * list (N * f32)) :=
  c_then (build_ivf_main c_atof s_g pop_all 1000 c_cd t_centers t_orders (["build_ivf"%string; type_word KUint8; "data.bin"%string] ++ ["1"; "labels.txt"]%string ++ ["ix"; "2"; "0.5"]%string) (fs_set t_fs "gt.bin" (Some (c_truth_of depth))))
    (fun d' => search_ivf_main (s_g 0%nat) (s_g 1%nat) h0 s_g pop_all 1000 c_mem c_cd c_order (["search_ivf"%string; type_word KUint8; "ix"; "2"; "query.bin"; "gt.bin"; "2"; "res"]%string ++ ["0"%string] ++ ["1"; "2"]%string) d') "res_2_idx_uint32.bin".
Example C105_ivf_prints_100_applies : optional None ["0"%string] /\ tool_input KUint8 1 5 (r_rows 10) [[7]; [0]]%N /\ ways_ok 1 one_W /\
  (forall i, (i < 2)%nat -> ties_fit 10 2 3 (fun id => elem_l2 KUint8 (nth i [[7]; [0]]%N []) (nth id (r_rows 10) []))) /\
  c_three 3 = Ok (0%Z, 0%Z, Some (bin_file 4 2 2 [7; 8; 0; 1]%N), [(1%N, S754_finite false 13107200 (-17)); (2%N, S754_finite false 13107200 (-17))]).
Proof.
  split; [exact c_plain|]. split; [|split; [exact (proj1 far_runs)|split; [exact r_ties|vm_compute; reflexivity]]].
  assert (V : vectors_ok KUint8 1 (r_rows 10)) by (apply r_rows_ok; lia). destruct V as [V1 [_ [V2 _]]]. destruct r_query_ok as [W1 [_ [W2 _]]].
  split; [exact V1|]. split; [reflexivity|]. split; [exact W1|]. split; [cbn; lia|]. split; [cbn; lia|]. split; [cbn; lia|]. intros r [Hr|Hr]; [apply V2, Hr|apply W2, Hr].
Qed.
