(** * Theorems: the utility tools from their command lines on (C107).

    The words are those of the usage messages: [type_word], numerals below 2^31, [mips_word] for
    the metric of compute_groundtruth.  What the tools do behind their command lines is in C63,
    C66, C86, C87, C90, C94, C97 and C100; [g] and the like are uninitialised bytes. *)
From Coq Require Import NArith ZArith Ascii String List Arith Bool Lia Permutation Floats.SpecFloat.
From Verif Require Import Base Bytes Float32 FloatBits BinSpec StreamModel BinModel TextModel ConvertModel TsvModel LloydModel NormModel FusedModel StatsModel TruthModel ClosestModel HeapInst PopInst GtModel BlasModel BlasCases
  GtToolModel GtToolSpec GtToolCases IndexFileModel PqFileModel PartitionModel CmdModel CmdSpec CmdCases RandModel UtilCmdModel UtilCmdSpec UtilCmdProofs UtilCmdCases.
Import ListNotations.
Local Open Scope string_scope.

(** C107.  calculate_recall compares the file named first, the truth, with the one named second at
    the depth of the third word; where the recall is not defined it ends with a status other than 0. *)
Theorem C107_calculate_recall : forall g g' prog truth results r R d, number_arg r R ->
  calculate_recall_main g g' [prog; truth; results; r] d = do v <- recall_tool g g' (d truth) (d results) R; Ok (match v with Some x => (0%Z, Some x) | None => ((-1)%Z, None) end).
Proof. exact recall_ok. Qed.
Print Assumptions C107_calculate_recall.

Example C107_calculate_recall_case : number_arg "3" 3 /\ calculate_recall_main h0 h0 ["calculate_recall"; "truth.bin"; "res.bin"; "3"] (fs_set c_fs "res.bin" (Some (bin_file 4 2 3 [5; 1; 0; 0; 1; 5]%N))) = Ok (0%Z, Some (S754_finite false 8738133 (-18))) /\
  calculate_recall_main h0 h0 ["calculate_recall"; "truth.bin"; "narrow.bin"; "3"] c_fs = Ok ((-1)%Z, None).
Proof. split; [exact num3|]. split; vm_compute; reflexivity. Qed.

(** C107.  compute_groundtruth. *)
Theorem C107_compute_groundtruth : forall W pushf takef sortf bs ps g orders prog kt base query ks k out mips d, number_arg ks k ->
  compute_groundtruth_main W pushf takef sortf bs ps g orders [prog; type_word kt; base; query; ks; out; mips_word mips] d =
    writes d out (gt_tool W mips pushf takef sortf bs ps kt (g 0%nat) (g 1%nat) (g 2%nat) (g 3%nat) (d base) (d query) (N.to_nat k) orders).
Proof. exact groundtruth_ok. Qed.
Print Assumptions C107_compute_groundtruth.

Example C107_compute_groundtruth_case : number_arg "2" 2 /\
  (do x <- u_truth (u_line false) u_fs; load_truthset (fun _ => 171%N) (snd x "gt.bin")) = Ok (3, 2, [3; 4; 3; 1; 0; 3], Some (fbits [4; 45; 60169; 61513; 25; 56744]%Z))%N /\
  (do x <- u_truth (u_line true) u_fs; load_truthset (fun _ => 171%N) (snd x "gt.bin")) = Ok (3, 2, [2; 0; 2; 3; 2; 0], Some (fbits [5100; 2550; 65025; 2550; 63750; 63750]%Z))%N.
Proof. split; [exact num2|]. split; vm_compute; reflexivity. Qed.

(** C107.  fvecs_to_bin and ivecs_to_bin. *)
Theorem C107_vecs : forall bs prog src dst d, src <> dst -> vecs_main bs [prog; src; dst] d = writes d dst (vecs_to_bin bs (d src)).
Proof. exact vecs_ok. Qed.
Print Assumptions C107_vecs.

Example C107_vecs_case : u_at "out" (vecs_main 1 ["fvecs_to_bin"; "fvecs"; "out"] u_fs) = Ok (0%Z, Some (u32 2 ++ u32 2 ++ enc_all 4 [10; 11; 20; 21]%N)%list).
Proof. vm_compute. reflexivity. Qed.

(** C107.  int8_to_float, uint8_to_float and uint32_to_uint8. *)
Theorem C107_convert : forall w1 w2 conv g order prog src dst d, convert_main w1 w2 conv g order [prog; src; dst] d = writes d dst (convert_file w1 w2 conv (g 0%nat) (g 1%nat) order (d src)).
Proof. exact convert_ok. Qed.
Print Assumptions C107_convert.

Example C107_convert_case : u_at "out" (int8_to_float_main u_g [1; 0] ["int8_to_float"; "text.bin"; "out"] u_fs) = Ok (0%Z, Some (bin_file 4 2 2 (fbits [65; 66; 67; 68]%Z))).
Proof. vm_compute. reflexivity. Qed.

(** C107.  float_bin_to_int8: the bias comes before the scale. *)
Theorem C107_float_bin_to_int8 : forall atof bs g prog src dst bias scale d, src <> dst ->
  float_bin_to_int8_main atof bs g [prog; src; dst; bias; scale] d = writes d dst (float_bin_to_int8 (f32_of_f64 (atof bias)) (f32_of_f64 (atof scale)) bs (g 0%nat) (g 1%nat) (d src)).
Proof. exact quantise_ok. Qed.
Print Assumptions C107_float_bin_to_int8.

Example C107_float_bin_to_int8_case : u_at "out" (float_bin_to_int8_main c_atof 1 u_g ["float_bin_to_int8"; "half.bin"; "out"; "0"; "1"] u_fs) = Ok (0%Z, Some (u32 2 ++ u32 1 ++ [64; 32]%N)%list).
Proof. vm_compute. reflexivity. Qed.

(** C107.  bin_to_tsv. *)
Theorem C107_bin_to_tsv : forall bs g prog kt src dst d, src <> dst -> bin_to_tsv_main bs g [prog; type_word kt; src; dst] d = writes d dst (bin_to_tsv (text_type kt) bs (g 0%nat) (g 1%nat) (d src)).
Proof. exact to_tsv_ok. Qed.
Print Assumptions C107_bin_to_tsv.

Example C107_bin_to_tsv_case : u_at "out" (bin_to_tsv_main 2 u_g ["bin_to_tsv"; "uint8"; "text.bin"; "out"] u_fs) = Ok (0%Z, Some [65; 9; 66; 10; 67; 9; 68; 10]%N).
Proof. vm_compute. reflexivity. Qed.

(** C107.  tsv_to_bin: the dimension comes before the number of vectors. *)
Theorem C107_tsv_to_bin : forall bs prog kt src dst ds dim ns n d, src <> dst -> number_arg ds dim -> number_arg ns n ->
  tsv_to_bin_main bs [prog; type_word kt; src; dst; ds; ns] d = writes d dst (tsv_to_bin (text_type kt) bs (d src) (N.to_nat dim) (N.to_nat n)).
Proof. exact to_bin_ok. Qed.
Print Assumptions C107_tsv_to_bin.

Example C107_tsv_to_bin_case : number_arg "1" 1 /\ number_arg "2" 2 /\
  u_at "out" (tsv_to_bin_main 2 ["tsv_to_bin"; "uint8"; "text"; "out"; "1"; "2"] (u_files [("text", [65; 10; 67; 10]%N)])) = Ok (0%Z, Some (bin_file 1 2 1 [65; 67]%N)).
Proof. split; [exact num1|]. split; [exact num2|]. vm_compute. reflexivity. Qed.

(** C107.  generate_pq: 256 centres, and a sample of the vectors at the rate given; the rate is a
    float that is passed on as a double (C106). *)
Theorem C107_generate_pq : forall atof words g g' gl gl' env popf mbs maxb cdist orders prog kt data prefix cs chunks ra d, number_arg cs chunks ->
  generate_pq_main atof words g g' gl gl' env popf mbs maxb cdist orders [prog; type_word kt; data; prefix; cs; ra] d =
    leaves (generate_pq g g' gl gl' env popf mbs maxb cdist (kwidth kt) (kval kt) (fun i => picked_train (f64_of_f32 (f32_of_f64 (atof ra))) (words i)) orders data prefix 256 (N.to_nat chunks) d).
Proof. exact pq_ok. Qed.
Print Assumptions C107_generate_pq.

(** Three chunks of two dimensions: no pivots, and so an exception (C86). *)
Example C107_generate_pq_case : number_arg "3" 3 /\ u_pq ["generate_pq"; "float"; "floats.bin"; "p"; "3"; "0.5"] u_fs = Throw.
Proof. split; [exact num3|]. vm_compute. reflexivity. Qed.

(** C107.  partition_data: fifteen rounds of k-means; the number of parts comes before the number of
    parts per vector. *)
Theorem C107_partition_data : forall atof words g g' e a prog kt data prefix ra ps p ks k d, number_arg ps p -> number_arg ks k ->
  partition_data_main atof words g g' e a [prog; type_word kt; data; prefix; ra; ps; ks] d =
    leaves (partition g g' e a (kwidth kt) (kval kt) (fun i => picked_train (f64_of_f32 (f32_of_f64 (atof ra))) (words i)) data prefix (N.to_nat p) 15 (N.to_nat k) d).
Proof. exact partition_ok. Qed.
Print Assumptions C107_partition_data.

Example C107_partition_data_case : number_arg "2" 2 /\ number_arg "1" 1 /\
  u_at "p_subshard-1_ids_uint32.bin" (u_partition ["partition_data"; "float"; "floats.bin"; "p"; "0.5"; "2"; "1"] u_fs) = Ok (0%Z, Some (bin_file 4 5 1 [1; 3; 4; 5; 6]%N)).
Proof. split; [exact num2|]. split; [exact num1|]. vm_compute. reflexivity. Qed.

(** C107.  partition_with_ram_budget: sampling rate, budget, degree, parts per vector. *)
Theorem C107_partition_budget : forall fuel atof words words2 g g2 g' env est garbage a prog kt data prefix ra bud ds degree ks k d, number_arg ds degree -> number_arg ks k ->
  partition_budget_main fuel atof words words2 g g2 g' env est garbage a [prog; type_word kt; data; prefix; ra; bud; ds; ks] d =
    (let rate := f64_of_f32 (f32_of_f64 (atof ra)) in
     do r <- partition_budget fuel g g2 g' env est garbage a (kwidth kt) (kval kt) (fun i => picked_train rate (words i)) (fun i => picked_train rate (words2 i)) rate (atof bud) degree data prefix (N.to_nat k) d;
     match r with Some (_, d') => Ok (0%Z, d') | None => Fuel end).
Proof. exact budget_ok. Qed.
Print Assumptions C107_partition_budget.

Example C107_partition_budget_case : number_arg "4" 4 /\ number_arg "1" 1 /\
  u_at "p_subshard-2_ids_uint32.bin" (u_budget ["partition_with_ram_budget"; "float"; "floats.bin"; "p"; "1"; "0.00000012"; "4"; "1"] u_fs) = Ok (0%Z, Some (bin_file 4 3 1 [1; 3; 5]%N)).
Proof. split; [exact num4|]. split; [exact num1|]. vm_compute. reflexivity. Qed.

(** C107.  vector_analysis: 1 shows the norms, 2 and 3 make the vectors of a base and of queries for
    inner products by distances, 4 scales the vectors to norm 1. *)
Theorem C107_vector_analysis : forall c f sched sortf g prog kt src os a more dst d, number_arg os (analysis_number a) ->
  vector_analysis_main c f sched sortf g ([prog; type_word kt; src; os; dst] ++ more) d =
    match a with
    | Norms => do t <- analyze_norm c kt f sortf (g 0%nat) (g 1%nat) (d src); Ok (0%Z, d, t)
    | MipBase => do x <- writes d dst (augment_base kt f sched true (g 0%nat) (g 1%nat) (d src)); Ok (x, [])
    | MipQuery => do x <- writes d dst (augment_base kt f sched false (g 0%nat) (g 1%nat) (d src)); Ok (x, [])
    | Unit => do x <- writes d dst (normalize_base kt f (g 0%nat) (g 1%nat) (d src)); Ok (x, [])
    end.
Proof. exact analysis_ok. Qed.
Print Assumptions C107_vector_analysis.

(** C107.  The norms need no name of an output. *)
Theorem C107_vector_analysis_norms : forall c f sched sortf g prog kt src os d, number_arg os 1 ->
  vector_analysis_main c f sched sortf g [prog; type_word kt; src; os] d = do t <- analyze_norm c kt f sortf (g 0%nat) (g 1%nat) (d src); Ok (0%Z, d, t).
Proof. exact analysis_norms. Qed.
Print Assumptions C107_vector_analysis_norms.

Example C107_vector_analysis_case : number_arg "1" (analysis_number Norms) /\ number_arg "3" (analysis_number MipQuery) /\
  (do x <- vector_analysis_main Reciprocal (FItem 0) [] (fun l => l) u_g ["vector_analysis"; "uint8"; "one.bin"; "1"] (u_files [("one.bin", bin_file 1 2 1 [9; 4]%N)]); Ok (fst (fst x), firstn 1 (snd x), skipn 20 (snd x))) = Ok (0%Z, [f32_of_Z 9], [f32_of_Z 4]) /\
  (do x <- vector_analysis_main Reciprocal (FItem 0) [] (fun l => l) u_g ["vector_analysis"; "float"; "half.bin"; "3"; "out"] u_fs; Ok (fst (fst x), snd (fst x) "out", snd x)) = Ok (0%Z, Some (bin_file 4 2 2 (fbits [1; 0; 1; 0]%Z)), []).
Proof. split; [exact num1|]. split; [exact num3|]. split; vm_compute; reflexivity. Qed.

(** C107.  With a wrong number of words the tools change nothing, and the exit status is not 0. *)
Theorem C107_wrong_counts : forall argv d,
  (forall g g', length argv <> 4%nat -> calculate_recall_main g g' argv d = Ok ((-1)%Z, None)) /\
  (forall W pushf takef sortf bs ps g orders, length argv <> 7%nat -> compute_groundtruth_main W pushf takef sortf bs ps g orders argv d = Ok ((-1)%Z, d)) /\
  (forall bs, length argv <> 3%nat -> vecs_main bs argv d = Exit) /\
  (forall w1 w2 conv g order, length argv <> 3%nat -> convert_main w1 w2 conv g order argv d = Exit) /\
  (forall atof bs g, length argv <> 5%nat -> float_bin_to_int8_main atof bs g argv d = Exit) /\
  (forall bs g, length argv <> 4%nat -> bin_to_tsv_main bs g argv d = Exit) /\
  (forall bs, length argv <> 6%nat -> tsv_to_bin_main bs argv d = Exit) /\
  (forall atof words g g' e a, length argv <> 7%nat -> partition_data_main atof words g g' e a argv d = Exit) /\
  (forall fuel atof words words2 g g2 g' env est garbage a, length argv <> 8%nat -> partition_budget_main fuel atof words words2 g g2 g' env est garbage a argv d = Exit) /\
  (forall c f sched sortf g, (length argv < 4)%nat -> vector_analysis_main c f sched sortf g argv d = Exit).
Proof. exact counts. Qed.
Print Assumptions C107_wrong_counts.

(** Except for generate_pq: it ends with status 0 as if the work was done. *)
Theorem C107_generate_pq_count_refuted : forall atof words g g' gl gl' env popf mbs maxb cdist orders argv d, length argv <> 6%nat -> generate_pq_main atof words g g' gl gl' env popf mbs maxb cdist orders argv d = Ok (0%Z, d).
Proof. exact pq_count. Qed.
Print Assumptions C107_generate_pq_count_refuted.

(** A type word that is none of the three: seven tools end with status 0.  bin_to_tsv leaves an
    empty file, tsv_to_bin one that no loader accepts. *)
Theorem C107_unknown_type_refuted : forall ty d, no_type ty ->
  (forall W pushf takef sortf bs ps g orders prog base query ks out m, compute_groundtruth_main W pushf takef sortf bs ps g orders [prog; ty; base; query; ks; out; m] d = Ok (0%Z, d)) /\
  (forall bs g prog src dst, src <> dst -> bin_to_tsv_main bs g [prog; ty; src; dst] d = Ok (0%Z, fs_set d dst (Some []))) /\
  (forall bs prog src dst ds dim ns n, src <> dst -> number_arg ds dim -> number_arg ns n ->
     tsv_to_bin_main bs [prog; ty; src; dst; ds; ns] d = Ok (0%Z, fs_set d dst (Some (u32 n ++ u32 dim)%list)) /\
     forall g1 g2, length g1 = 4%nat -> length g2 = 4%nat -> (1 <= n * dim)%N -> exists d', tsv_to_bin_main bs [prog; ty; src; dst; ds; ns] d = Ok (0%Z, d') /\ load_bin 4 g1 g2 (d' dst) = Throw /\ load_bin 1 g1 g2 (d' dst) = Throw) /\
  (forall atof words g g' gl gl' env popf mbs maxb cdist orders prog data prefix cs chunks ra, number_arg cs chunks ->
     generate_pq_main atof words g g' gl gl' env popf mbs maxb cdist orders [prog; ty; data; prefix; cs; ra] d = Ok (0%Z, d)) /\
  (forall atof words g g' e a prog data prefix ra ps p ks k, number_arg ps p -> number_arg ks k -> partition_data_main atof words g g' e a [prog; ty; data; prefix; ra; ps; ks] d = Ok (0%Z, d)) /\
  (forall fuel atof words words2 g g2 g' env est garbage a prog data prefix ra bud ds degree ks k, number_arg ds degree -> number_arg ks k ->
     partition_budget_main fuel atof words words2 g g2 g' env est garbage a [prog; ty; data; prefix; ra; bud; ds; ks] d = Ok (0%Z, d)) /\
  (forall c f sched sortf g prog src os, vector_analysis_main c f sched sortf g [prog; ty; src; os] d = Ok (0%Z, d, [])).
Proof. exact unknown_types. Qed.
Print Assumptions C107_unknown_type_refuted.

(** A metric word that is neither l2 nor mips is not noticed: the distances are L2. *)
Theorem C107_metric_word_refuted : forall W pushf takef sortf bs ps g orders prog ty base query ks out word d, word <> "mips" ->
  compute_groundtruth_main W pushf takef sortf bs ps g orders [prog; ty; base; query; ks; out; word] d = compute_groundtruth_main W pushf takef sortf bs ps g orders [prog; ty; base; query; ks; out; "l2"] d.
Proof. exact groundtruth_any_metric. Qed.
Print Assumptions C107_metric_word_refuted.

(** Options 2 to 4 of vector_analysis need a name that the check of the number of words does not ask
    for: without it a null pointer is read. *)
Theorem C107_missing_name_refuted : forall c f sched sortf g prog kt src os n d, number_arg os n -> (2 <= n <= 4)%N -> vector_analysis_main c f sched sortf g [prog; type_word kt; src; os] d = UB.
Proof. exact analysis_missing. Qed.
Print Assumptions C107_missing_name_refuted.

Example C107_refuted_cases : no_type "Float" /\ "cosine" <> "mips" /\ number_arg "2" 2 /\ length ["generate_pq"; "float"; "floats.bin"; "p"; "3"] <> 6%nat.
Proof. split; [repeat split; discriminate|]. split; [discriminate|]. split; [exact num2|discriminate]. Qed.
