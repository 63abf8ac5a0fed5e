(** * Theorems: command lines one after the other (C108).

    Converting vectors, computing the truth, comparing it, and what the build and search tools
    leave alone. *)
From Coq Require Import NArith ZArith Reals Ascii String List Arith Bool Lia Permutation Floats.SpecFloat.
From Verif Require Import Base Bytes Float32 FloatBits DistSpec DistModel FusedModel RealSpec StreamModel BinModel BinSpec TextModel RecallSpec TruthModel ConvertModel TsvModel LloydModel NormModel NormSpec StatsModel
  SortInst PopInst PoolModel FilterSpec SortSpec TopKSpec GreedyModel SearchModel HnswModel PruneModel BuildModel EntryModel RngModel ClosestModel ClosestSpec SearchSpec HeapSpec HeapInst GtModel GtSpec IvfModel LshModel
  IndexFileModel IndexFileSpec SystemModel SystemSpec SystemWitness ToolModel ToolSpec ToolWitness BlasModel BlasSpec BlasCases GtToolModel GtToolSpec GtToolCases RealSearchModel RealSearchSpec PipelineSpec
  CmdModel CmdSpec CmdCases UtilCmdModel UtilCmdSpec UtilCmdProofs2 UtilCmdProofs3 UtilCmdProofs4 UtilCmdCases UtilCmdCases2 TsvSpec.
Import ListNotations.
Local Open Scope R_scope.
Local Open Scope string_scope.

(** C108.  The truth about vectors of bytes that were first converted to floats is the truth about
    the bytes, to the last bit of the file: for every number of neighbours, metric word and sizes of
    parts, whatever the matrix library does. *)
Theorem C108_int8_as_floats : forall W pushf takef sortf bs ps g orders g' order g'' order' dim rows qrows base query fbase fquery prog prog' ks out m d,
  file_vectors 1 dim rows -> file_vectors 1 dim qrows -> d base = vector_file KInt8 dim rows -> d query = vector_file KInt8 dim qrows ->
  ~ In fbase [base; query] -> ~ In fquery [base; query; fbase] -> (1 <= ps)%nat -> (forall i, length (g i) = 4%nat) -> (forall i, length (g' i) = 4%nat) -> (forall i, length (g'' i) = 4%nat) -> Permutation order (seq 0 (length rows)) -> Permutation order' (seq 0 (length qrows)) ->
  exists d1 d2, int8_to_float_main g' order [prog; base; fbase] d = Ok (0%Z, d1) /\ int8_to_float_main g'' order' [prog; query; fquery] d1 = Ok (0%Z, d2) /\
    compute_groundtruth_main W pushf takef sortf bs ps g orders [prog'; "float"; fbase; fquery; ks; out; m] d2 = compute_groundtruth_main W pushf takef sortf bs ps g orders [prog'; "int8"; base; query; ks; out; m] d2.
Proof. exact int8_then_truth. Qed.
Print Assumptions C108_int8_as_floats.

(** C108.  The same for unsigned bytes. *)
Theorem C108_uint8_as_floats : forall W pushf takef sortf bs ps g orders g' order g'' order' dim rows qrows base query fbase fquery prog prog' ks out m d,
  file_vectors 1 dim rows -> file_vectors 1 dim qrows -> d base = vector_file KUint8 dim rows -> d query = vector_file KUint8 dim qrows ->
  ~ In fbase [base; query] -> ~ In fquery [base; query; fbase] -> (1 <= ps)%nat -> (forall i, length (g i) = 4%nat) -> (forall i, length (g' i) = 4%nat) -> (forall i, length (g'' i) = 4%nat) -> Permutation order (seq 0 (length rows)) -> Permutation order' (seq 0 (length qrows)) ->
  exists d1 d2, uint8_to_float_main g' order [prog; base; fbase] d = Ok (0%Z, d1) /\ uint8_to_float_main g'' order' [prog; query; fquery] d1 = Ok (0%Z, d2) /\
    compute_groundtruth_main W pushf takef sortf bs ps g orders [prog'; "float"; fbase; fquery; ks; out; m] d2 = compute_groundtruth_main W pushf takef sortf bs ps g orders [prog'; "uint8"; base; query; ks; out; m] d2.
Proof. exact uint8_then_truth. Qed.
Print Assumptions C108_uint8_as_floats.

Example C108_as_floats_case : file_vectors 1 2 tool_rows /\ file_vectors 1 2 tool_queries /\ u_fs "base.bin" = vector_file KUint8 2 tool_rows /\
  u_at "gt.bin" (do x <- uint8_to_float_main u_g (seq 0 5) ["uint8_to_float"; "base.bin"; "fb"] u_fs; do y <- uint8_to_float_main u_g [2; 0; 1]%nat ["uint8_to_float"; "query.bin"; "fq"] (snd x);
    u_truth ["compute_groundtruth"; "float"; "fb"; "fq"; "2"; "gt.bin"; "l2"] (snd y)) = u_at "gt.bin" (u_truth (u_line false) u_fs) /\
  match u_at "gt.bin" (u_truth (u_line false) u_fs) with Ok (z, Some b) => z = 0%Z /\ length b = 56%nat | _ => False end.
Proof. exact as_floats. Qed.

(** C108.  bin_to_tsv and then tsv_to_bin with the right numbers give back a file of bytes, if there
    are no more vectors than fit a block and no byte is a space. *)
Theorem C108_text_bytes : forall bs g kt dim tb src txt dst prog prog' ds ns d, kt <> KFloat -> (1 <= bs)%nat -> (1 <= dim)%nat -> (length tb <= bs)%nat -> length (g 0%nat) = 4%nat -> length (g 1%nat) = 4%nat -> number_arg ds (N.of_nat dim) -> number_arg ns (N.of_nat (length tb)) ->
  table dim tb -> elements (fun x => (x < 256)%N /\ ~ white x) tb -> d src = Some (table_file 1 dim tb) -> src <> txt -> txt <> dst ->
  exists d1 d2, bin_to_tsv_main bs g [prog; type_word kt; src; txt] d = Ok (0%Z, d1) /\ tsv_to_bin_main bs [prog'; type_word kt; txt; dst; ds; ns] d1 = Ok (0%Z, d2) /\ d2 dst = d src.
Proof. exact tsv_bytes. Qed.
Print Assumptions C108_text_bytes.

(** C108.  Files of floats come back with six digits. *)
Theorem C108_text_floats : forall bs g dim tb src txt dst prog prog' ds ns d, (1 <= bs)%nat -> (1 <= dim)%nat -> length (g 0%nat) = 4%nat -> length (g 1%nat) = 4%nat -> number_arg ds (N.of_nat dim) -> number_arg ns (N.of_nat (length tb)) ->
  table dim tb -> elements (fun x => (x < 2 ^ 32)%N /\ TsvSpec.finite (f32_of_bits x)) tb -> d src = Some (table_file 4 dim tb) -> src <> txt -> txt <> dst ->
  exists d1 d2 tc, bin_to_tsv_main bs g [prog; "float"; src; txt] d = Ok (0%Z, d1) /\ tsv_to_bin_main bs [prog'; "float"; txt; dst; ds; ns] d1 = Ok (0%Z, d2) /\ d2 dst = Some (table_file 4 dim tc) /\ table dim tc /\
    entrywise (fun x y => by_six_digits (f32_of_bits x) (f32_of_bits y)) tb tc.
Proof. exact tsv_floats. Qed.
Print Assumptions C108_text_floats.

Example C108_text_case : table 2 [[65; 66]; [67; 68]]%N /\ elements (fun x => (x < 256)%N /\ ~ white x) [[65; 66]; [67; 68]]%N /\ u_fs "text.bin" = Some (table_file 1 2 [[65; 66]; [67; 68]]%N) /\
  u_at "back" (do x <- bin_to_tsv_main 2 u_g ["bin_to_tsv"; "uint8"; "text.bin"; "out"] u_fs; tsv_to_bin_main 2 ["tsv_to_bin"; "uint8"; "out"; "back"; "2"; "2"] (snd x)) = Ok (0%Z, u_fs "text.bin") /\
  u_at "back" (do x <- bin_to_tsv_main 2 u_g ["bin_to_tsv"; "float"; "half.bin"; "out"] u_fs; tsv_to_bin_main 2 ["tsv_to_bin"; "float"; "out"; "back"; "1"; "2"] (snd x)) = Ok (0%Z, u_fs "half.bin").
Proof. exact text_case. Qed.

(** C108.  The truth that compute_groundtruth writes, compared with itself by calculate_recall, gives
    exactly 100 at every depth up to its own, for all types and both metrics.  No other file
    changes. *)
Theorem C108_truth_itself : forall W pushf takef sortf bs ps g orders kt mips dim rows qrows base query ks k out prog d,
  heap_ok pushf takef -> sorts_pairs sortf -> (forall i, length (g i) = 4%nat) -> (1 <= bs)%nat -> (1 <= ps)%nat -> number_arg ks k -> (1 <= k)%N -> (N.to_nat k <= last_part (length rows) ps)%nat -> (forall p, batch_orders (length qrows) bs (orders p)) ->
  tool_input kt dim ps rows qrows -> ways_ok dim W -> (Z.of_nat dim <= 2 ^ 20)%Z -> (forall r, In r rows \/ In r qrows -> elem_sq kt r <= powerRZ 2 100) -> d base = vector_file kt dim rows -> d query = vector_file kt dim qrows ->
  exists d', compute_groundtruth_main W pushf takef sortf bs ps g orders [prog; type_word kt; base; query; ks; out; mips_word mips]%string d = Ok (0%Z, d') /\ (forall name, name <> out -> kept d d' name) /\
    forall h h' prog' rs r, number_arg rs r -> (1 <= r <= k)%N -> (N.of_nat (length qrows) * r <= 2 ^ 53)%N ->
      exists v, calculate_recall_main h h' [prog'; out; out; rs] d' = Ok (0%Z, Some v) /\ DistSpec.finite v /\ real v = 100.
Proof. exact truth_itself. Qed.
Print Assumptions C108_truth_itself.

Example C108_truth_itself_case : tool_input KUint8 2 3 tool_rows tool_queries /\ ways_ok 2 case_W /\ (forall r, In r tool_rows \/ In r tool_queries -> (elem_sq KUint8 r <= powerRZ 2 100)%R) /\ (2 <= last_part (length tool_rows) 3)%nat /\
  (do x <- u_truth (u_line true) u_fs; calculate_recall_main h0 h0 ["calculate_recall"; "gt.bin"; "gt.bin"; "1"] (snd x)) = Ok (0%Z, Some (S754_finite false 13107200 (-17))).
Proof. exact itself_case. Qed.

(** C108.  compute_groundtruth, build_ivf and search_ivf one after the other on files of bytes: the
    line of the table with as many probes as clusters says 100, if the truth is deep enough for
    the ties and the name of the index is not the beginning of the names of the other files. *)
Theorem C108_script_100 : forall atof kt T F dim rows qrows, loops_ok T F -> vectors_ok kt dim rows -> vectors_ok kt dim qrows -> kt <> KFloat -> (dim <= 258)%nat ->
  forall W pushf takef sortf bs ps gt torders prog0 base query ds depth truth d,
  heap_ok pushf takef -> sorts_pairs sortf -> (forall i, length (gt i) = 4%nat) -> (1 <= bs)%nat -> (1 <= ps)%nat -> number_arg ds depth -> (1 <= depth)%N -> (N.to_nat depth <= last_part (length rows) ps)%nat -> (forall p, batch_orders (length qrows) bs (torders p)) ->
  tool_input kt dim ps rows qrows -> ways_ok dim W -> d base = vector_file kt dim rows -> d query = vector_file kt dim qrows -> truth <> base -> truth <> query ->
  exists d1, compute_groundtruth_main W pushf takef sortf bs ps gt torders [prog0; type_word kt; base; query; ds; truth; "l2"]%string d = Ok (0%Z, d1) /\
  forall g popf mbs cd labels words save ncs nc ra centers orders prog a d2, pops popf -> optional labels words -> number_arg ncs nc -> TsvSpec.finite (f32_of_f64 (atof ra)) ->
  ivf_session_ok (kwidth kt) g mbs (cd kt) base [] (name_or_empty labels) nc centers orders d1 a -> ~ begins save query -> ~ begins save truth ->
  build_ivf_main atof g popf mbs cd centers orders ([prog; type_word kt; base] ++ words ++ [save; ncs; ra]) d1 = Ok (0%Z, d2) ->
  forall g' g1 g2 h prog' t Th ks k prefix fwords ss Ls order, garbage_ok g' -> length g1 = 4%nat /\ is_bytes g1 -> length g2 = 4%nat /\ is_bytes g2 ->
  number_arg t Th -> number_arg ks k -> optional None fwords -> Forall2 number_arg ss Ls -> (1 <= k <= depth)%N -> (N.of_nat (length qrows) * k <= 2 ^ 53)%N ->
  In nc Ls -> (forall L, In L Ls -> (L <= nc)%N) -> (forall L, In L Ls -> (1 <= L)%N -> each_once (length qrows) (order L)) ->
  (forall i, (i < length qrows)%nat -> ties_fit (length rows) (N.to_nat k) (N.to_nat depth) (fun id => elem_l2 kt (nth i qrows []) (nth id rows []))) ->
  exists d3 table v, search_ivf_main g1 g2 h g' popf mbs (fun kt => mem_l2 kt T F) cd order ([prog'; type_word kt; save; t; query; truth; ks; prefix] ++ fwords ++ ss) d2 = Ok (0%Z, d3, table) /\
    In (nc, v) table /\ (forall w, In (nc, w) table -> w = v) /\ DistSpec.finite v /\ real v = 100.
Proof. exact script_100. Qed.
Print Assumptions C108_script_100.

Example C108_script_case : script 3 = Ok (0%Z, 0%Z, 0%Z, [(1%N, S754_finite false 13107200 (-17)); (2%N, S754_finite false 13107200 (-17))]) /\ ~ begins "ix" "query.bin" /\ ~ begins "ix" "gt.bin" /\ "gt.bin" <> "data.bin".
Proof. exact script_case. Qed.

(** C108.  The build tools touch only files whose names begin with the name of the index; build_hnsw
    also one in /tmp. *)
Theorem C108_vamana_keeps : forall atof g sortf pd cent work sched order prog kt m data labels words save r R l L al t T d z d', supported kt m -> optional labels words -> number_arg r R -> number_arg l L -> number_arg t T -> finite (f32_of_f64 (atof al)) ->
  build_vamana_main atof g sortf pd cent work sched order ([prog; type_word kt; metric_word m; data] ++ words ++ [save; r; l; al; t]) d = Ok (z, d') -> forall name, ~ begins save name -> kept d d' name.
Proof. exact vamana_keeps. Qed.
Print Assumptions C108_vamana_keeps.

(** C108.  HNSW. *)
Theorem C108_hnsw_keeps : forall atof g sortf pd choices prog kt m data save r R l L ru rule ra ls levels t T d z d', supported kt m -> number_arg r R -> number_arg l L -> number_arg ru rule -> number_arg ls levels -> (1 <= levels)%N -> number_arg t T -> finite (f32_of_f64 (atof ra)) ->
  build_hnsw_main atof g sortf pd choices [prog; type_word kt; metric_word m; data; save; r; l; ru; ra; ls; t] d = Ok (z, d') -> forall name, ~ begins save name -> name <> "/tmp/temp_data" -> kept d d' name.
Proof. exact hnsw_keeps. Qed.
Print Assumptions C108_hnsw_keeps.

(** C108.  RelativeNG. *)
Theorem C108_relng_keeps : forall g sortf pd cent order prog kt m data save t T d z d', supported kt m -> number_arg t T ->
  build_relng_main g sortf pd cent order [prog; type_word kt; metric_word m; data; save; t] d = Ok (z, d') -> forall name, ~ begins save name -> kept d d' name.
Proof. exact relng_keeps. Qed.
Print Assumptions C108_relng_keeps.

(** C108.  IVF. *)
Theorem C108_ivf_keeps : forall atof g popf mbs cd centers orders prog kt data labels words save nc n ra d z d', optional labels words -> number_arg nc n -> finite (f32_of_f64 (atof ra)) ->
  build_ivf_main atof g popf mbs cd centers orders ([prog; type_word kt; data] ++ words ++ [save; nc; ra]) d = Ok (z, d') -> forall name, ~ begins save name -> kept d d' name.
Proof. exact ivf_keeps. Qed.
Print Assumptions C108_ivf_keeps.

(** C108.  LSH. *)
Theorem C108_lsh_keeps : forall g dotf fv draw prog kt data labels words save nt tables ts size d z d', optional labels words -> number_arg nt tables -> number_arg ts size ->
  build_lsh_main g dotf fv draw ([prog; type_word kt; data] ++ words ++ [save; nt; ts]) d = Ok (z, d') -> forall name, ~ begins save name -> kept d d' name.
Proof. exact lsh_keeps. Qed.
Print Assumptions C108_lsh_keeps.

(** C108.  The search tools, whatever their words are: only files whose names begin with the prefix of
    the results. *)
Theorem C108_searches_keep : forall argv d z d' table, 
  (forall g1 g2 h g sortf qd order prefix, nth_error argv 8 = Some prefix -> search_vamana_main g1 g2 h g sortf qd order argv d = Ok (z, d', table) -> forall name, ~ begins prefix name -> kept d d' name) /\
  (forall g1 g2 h g sortf qd order prefix, nth_error argv 9 = Some prefix -> search_hnsw_main g1 g2 h g sortf qd order argv d = Ok (z, d', table) -> forall name, ~ begins prefix name -> kept d d' name) /\
  (forall g1 g2 h gc g sortf qd order prefix, nth_error argv 9 = Some prefix -> search_relng_main g1 g2 h gc g sortf qd order argv d = Ok (z, d', table) -> forall name, ~ begins prefix name -> kept d d' name) /\
  (forall g1 g2 h g popf mbs qd cd order prefix, nth_error argv 7 = Some prefix -> search_ivf_main g1 g2 h g popf mbs qd cd order argv d = Ok (z, d', table) -> forall name, ~ begins prefix name -> kept d d' name) /\
  (forall g1 g2 h g dotf fv qd order prefix, nth_error argv 7 = Some prefix -> search_lsh_main g1 g2 h g dotf fv qd order argv d = Ok (z, d', table) -> forall name, ~ begins prefix name -> kept d d' name).
Proof. exact searches_keep. Qed.
Print Assumptions C108_searches_keep.

Example C108_keeps_case : match c_build_vamana c_vamana_args c_fs with
  | Ok (z, d') => z = 0%Z /\ d' "query.bin" = c_fs "query.bin" /\ d' "query.bin" <> None /\ d' "ix" <> c_fs "ix" | _ => False end /\ ~ begins "ix" "query.bin" /\ nth_error (c_find_vamana "truth.bin") 8 = Some "res".
Proof. exact keeps_case. Qed.

(** A file /tmp/temp_data does not survive the building of an index of several levels. *)
Theorem C108_hnsw_temp_refuted : forall atof g sortf pd choices prog kt m data save r R l L ru rule ra ls levels t T d z d', supported kt m -> number_arg r R -> number_arg l L -> number_arg ru rule -> number_arg ls levels -> (2 <= levels)%N -> number_arg t T -> finite (f32_of_f64 (atof ra)) ->
  build_hnsw_main atof g sortf pd choices [prog; type_word kt; metric_word m; data; save; r; l; ru; ra; ls; t] d = Ok (z, d') -> ~ begins save "/tmp/temp_data" -> d' "/tmp/temp_data" = None.
Proof. exact hnsw_temp. Qed.
Print Assumptions C108_hnsw_temp_refuted.
