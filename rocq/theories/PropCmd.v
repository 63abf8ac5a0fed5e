(** * Theorems: the tools from their command lines on (C103), and the recall a search prints
    (C105).

    The words are those of the usage messages: [type_word], [metric_word] (l2 or mips; mips
    for floats only), numerals below 2^31, and where a flag is not 0 the name it announces.
    What the tools do behind their command lines is in C82 to C85, C88 and C101. *)
From Coq Require Import NArith ZArith Ascii String List Arith Bool Lia Floats.SpecFloat.
From Verif Require Import Base Float32 FloatBits Bytes BinSpec StreamModel BinModel TextModel ParamModel ConvertModel TsvModel TsvSpec LloydModel NormModel DistModel RecallModel TruthModel StatsModel
  SortInst PopInst PoolModel GreedyModel SearchModel HnswModel PruneModel BuildModel EntryModel RngModel ClosestModel FlatModel IvfModel LshModel IndexFileModel SystemModel SystemWitness ToolModel ToolWitness
  CmdModel CmdSpec CmdProofs2 CmdProofs3 CmdProofs5 CmdProofs4 CmdProofs6 CmdCases.
Import ListNotations.
Local Open Scope string_scope.

(** ** C103.  The build tools hand every argument to its place. *)
Theorem C103_build_vamana : forall atof g sortf pd cent work sched order prog kt m data labels words save r R l L al t T d,
  supported kt m -> optional labels words -> number_arg r R -> number_arg l L -> number_arg t T -> finite (f32_of_f64 (atof al)) ->
  exists alpha, by_six_digits (f32_of_f64 (atof al)) alpha /\
    build_vamana_main atof g sortf pd cent work sched order ([prog; type_word kt; metric_word m; data] ++ words ++ [save; r; l; al; t]) d =
      finished (vamana_tool (kwidth kt) g sortf (pd kt m) data [] (name_or_empty labels) (mkB (N.to_nat L) (N.to_nat R) 750 alpha 0) cent work sched order save d).
Proof. exact build_vamana_ok. Qed.
Print Assumptions C103_build_vamana.

Example C103_build_vamana_applies : supported KUint8 L2 /\ optional (Some "labels.txt") ["1"; "labels.txt"] /\ number_arg "5" 5 /\ number_arg "64" 64 /\ number_arg "2" 2 /\ finite (f32_of_f64 (c_atof "1.2")) /\
  match c_build_vamana c_vamana_args c_fs with Ok (z, d') => z = 0%Z /\ match d' "ix" with Some b => (length b > 100)%nat | None => False end | _ => False end.
Proof. split; [now left|]. split; [exact c_labels|]. split; [exact num5|]. split; [exact num64|]. split; [exact num2|]. split; [exact (proj1 c_rate)|]. vm_compute. split; [reflexivity|lia]. Qed.

Theorem C103_build_hnsw : forall atof g sortf pd choices prog kt m data save r R l L ru rule ra ls levels t T d,
  supported kt m -> number_arg r R -> number_arg l L -> number_arg ru rule -> number_arg ls levels -> (1 <= levels)%N -> number_arg t T -> finite (f32_of_f64 (atof ra)) ->
  build_hnsw_main atof g sortf pd choices [prog; type_word kt; metric_word m; data; save; r; l; ru; ra; ls; t] d =
    finished (hnsw_tool (kwidth kt) g sortf (pd kt m) data [] (mkB (N.to_nat L) (N.to_nat R) 750 f32_one (N.to_nat rule)) (map choices (seq 0 (N.to_nat levels))) save d).
Proof. exact build_hnsw_ok. Qed.
Print Assumptions C103_build_hnsw.

Example C103_build_hnsw_applies : supported KUint8 L2 /\ number_arg "0" 0 /\ number_arg "2" 2 /\ finite (f32_of_f64 (c_atof "0.8")) /\
  match c_build_hnsw c_hnsw_args c_fs with Ok (z, d') => z = 0%Z /\ d' "ix_0_data.bin" <> None /\ d' "ix_1_data.bin" <> None | _ => False end.
Proof. split; [now left|]. split; [exact num0|]. split; [exact num2|]. split; [exact (proj1 (proj2 c_rate))|]. vm_compute. split; [reflexivity|split; discriminate]. Qed.

Theorem C103_build_relng : forall g sortf pd cent order prog kt m data save t T d,
  supported kt m -> number_arg t T ->
  build_relng_main g sortf pd cent order [prog; type_word kt; metric_word m; data; save; t] d = finished (rng_tool (kwidth kt) g sortf (pd kt m) data [] cent order save d).
Proof. exact build_relng_ok. Qed.
Print Assumptions C103_build_relng.

Example C103_build_relng_applies : supported KUint8 L2 /\ number_arg "2" 2 /\
  match c_build_relng c_relng_args c_fs with Ok (z, d') => z = 0%Z /\ d' "ix_data.bin" <> None | _ => False end.
Proof. split; [now left|]. split; [exact num2|]. vm_compute. split; [reflexivity|discriminate]. Qed.

Theorem C103_build_ivf : forall atof g popf mbs cd centers orders prog kt data labels words save nc n ra d,
  optional labels words -> number_arg nc n -> finite (f32_of_f64 (atof ra)) ->
  build_ivf_main atof g popf mbs cd centers orders ([prog; type_word kt; data] ++ words ++ [save; nc; ra]) d =
    finished (ivf_tool (kwidth kt) g popf mbs (cd kt) data [] (name_or_empty labels) n centers orders save d).
Proof. exact build_ivf_ok. Qed.
Print Assumptions C103_build_ivf.

Example C103_build_ivf_applies : optional (Some "labels.txt") ["1"; "labels.txt"] /\ number_arg "2" 2 /\ finite (f32_of_f64 (c_atof "0.5")) /\
  match c_build_ivf c_ivf_args c_fs with Ok (z, d') => z = 0%Z /\ d' "ix_centers.bin" <> None | _ => False end.
Proof. split; [exact c_labels|]. split; [exact num2|]. split; [exact (proj2 (proj2 c_rate))|]. vm_compute. split; [reflexivity|discriminate]. Qed.

Theorem C103_build_lsh : forall g dotf fv draw prog kt data labels words save nt tables ts size d,
  optional labels words -> number_arg nt tables -> number_arg ts size ->
  build_lsh_main g dotf fv draw ([prog; type_word kt; data] ++ words ++ [save; nt; ts]) d =
    do a <- construct (kwidth kt) g data [] (name_or_empty labels) d;
    finished (lsh_tool (kwidth kt) g dotf (fv kt) data [] (name_or_empty labels) size (planes_of draw (N.to_nat tables) (N.to_nat size) (N.to_nat (a_adim a))) save d).
Proof. exact build_lsh_ok. Qed.
Print Assumptions C103_build_lsh.

Example C103_build_lsh_applies : optional (Some "labels.txt") ["1"; "labels.txt"] /\ number_arg "1" 1 /\ number_arg "2" 2 /\
  match c_build_lsh c_lsh_args c_fs with Ok (z, d') => z = 0%Z /\ d' "ix_data.bin" <> None | _ => False end.
Proof. split; [exact c_labels|]. split; [exact num1|]. split; [exact num2|]. vm_compute. split; [reflexivity|discriminate]. Qed.

(** ** C103.  The search tools do so too; without a truth file they print the recall 0. *)
Theorem C103_search_vamana : forall g1 g2 h g sortf qd order prog kt m file t T query truth ks k prefix filters words ss Ls d,
  supported kt m -> number_arg t T -> number_arg ks k -> optional filters words -> Forall2 number_arg ss Ls -> ss <> [] ->
  d truth = None -> room_for k (load_aligned_bin (kwidth kt) g1 g2 (d query)) ->
  search_vamana_main g1 g2 h g sortf qd order ([prog; type_word kt; metric_word m; file; t; query; truth; ks; prefix] ++ words ++ ss) d =
    searched k Ls d (search_tool (kwidth kt) g1 g2 query prefix k k Ls order (load_for_vamana (kwidth kt) g sortf (qd kt m) (names filters) (N.to_nat k) file) d).
Proof. exact search_vamana_ok. Qed.
Print Assumptions C103_search_vamana.

Example C103_search_vamana_applies : supported KUint8 L2 /\ number_arg "2" 2 /\ number_arg "3" 3 /\ optional (Some "a") ["1"; "a"] /\ Forall2 number_arg ["2"; "5"] [2; 5]%N /\ c_fs "none" = None /\ room_for 3 (load_aligned_bin 1 (s_g 0%nat) (s_g 1%nat) (c_fs "query.bin")) /\
  c_then (c_build_vamana c_vamana_args c_fs) (c_search_vamana (c_find_vamana "none")) "res_5_idx_uint32.bin" = Ok (0%Z, 0%Z, Some (bin_file 4 2 3 [5; 1; 0; 0; 1; 5]%N), [(5%N, S754_zero false)]).
Proof. split; [now left|]. split; [exact num2|]. split; [exact num3|]. split; [exact c_filter|]. split; [exact c_sizes|]. split; [reflexivity|]. split; [exact c_room|]. vm_compute. reflexivity. Qed.

Theorem C103_search_hnsw : forall g1 g2 h g sortf qd order prog kt m file lv levels t T query truth ks k prefix ss Ls d,
  supported kt m -> number_arg lv levels -> (1 <= levels)%N -> number_arg t T -> number_arg ks k -> Forall2 number_arg ss Ls -> ss <> [] ->
  d truth = None -> room_for k (load_aligned_bin (kwidth kt) g1 g2 (d query)) ->
  search_hnsw_main g1 g2 h g sortf qd order ([prog; type_word kt; metric_word m; file; lv; t; query; truth; ks; prefix] ++ ss) d =
    searched k Ls d (search_tool (kwidth kt) g1 g2 query prefix k k Ls order (load_for_hnsw (kwidth kt) g sortf (qd kt m) (N.to_nat k) (N.to_nat levels) file) d).
Proof. exact search_hnsw_ok. Qed.
Print Assumptions C103_search_hnsw.

Example C103_search_hnsw_applies : supported KUint8 L2 /\ number_arg "2" 2 /\ number_arg "3" 3 /\ Forall2 number_arg ["2"; "5"] [2; 5]%N /\ c_fs "none" = None /\ room_for 3 (load_aligned_bin 1 (s_g 0%nat) (s_g 1%nat) (c_fs "query.bin")) /\
  c_then (c_build_hnsw c_hnsw_args c_fs) (c_search_hnsw (c_find_hnsw "none")) "res_5_idx_uint32.bin" = Ok (0%Z, 0%Z, Some (bin_file 4 2 3 [7; 6; 8; 0; 1; 2]%N), [(5%N, S754_zero false)]).
Proof. split; [now left|]. split; [exact num2|]. split; [exact num3|]. split; [exact c_sizes|]. split; [reflexivity|]. split; [exact c_room|]. vm_compute. reflexivity. Qed.

Theorem C103_search_relng : forall g1 g2 h gc g sortf qd order prog kt m data file t T query truth ks k prefix ss Ls d a,
  supported kt m -> number_arg t T -> number_arg ks k -> Forall2 number_arg ss Ls -> ss <> [] -> construct (kwidth kt) gc data [] "" d = Ok a ->
  d truth = None -> room_for k (load_aligned_bin (kwidth kt) g1 g2 (d query)) ->
  search_relng_main g1 g2 h gc g sortf qd order ([prog; type_word kt; metric_word m; data; file; t; query; truth; ks; prefix] ++ ss) d =
    searched k Ls d (search_tool (kwidth kt) g1 g2 query prefix k k Ls order (load_for_rng (kwidth kt) g sortf (qd kt m) (N.to_nat k) file) d).
Proof. exact search_relng_ok. Qed.
Print Assumptions C103_search_relng.

Example C103_search_relng_applies : supported KUint8 L2 /\ number_arg "2" 2 /\ number_arg "3" 3 /\ Forall2 number_arg ["2"; "5"] [2; 5]%N /\ c_fs "none" = None /\ room_for 3 (load_aligned_bin 1 (s_g 0%nat) (s_g 1%nat) (c_fs "query.bin")) /\
  c_then (c_build_relng c_relng_args c_fs) (c_search_relng (c_find_relng "none")) "res_5_idx_uint32.bin" = Ok (0%Z, 0%Z, Some (bin_file 4 2 3 [7; 6; 8; 0; 1; 2]%N), [(5%N, S754_zero false)]).
Proof. split; [now left|]. split; [exact num2|]. split; [exact num3|]. split; [exact c_sizes|]. split; [reflexivity|]. split; [exact c_room|]. vm_compute. reflexivity. Qed.

Theorem C103_search_ivf : forall g1 g2 h g popf mbs qd cd order prog kt file t T query truth ks k prefix filters words ss Ls d,
  number_arg t T -> number_arg ks k -> optional filters words -> Forall2 number_arg ss Ls -> ss <> [] ->
  d truth = None -> room_for k (load_aligned_bin (kwidth kt) g1 g2 (d query)) ->
  search_ivf_main g1 g2 h g popf mbs qd cd order ([prog; type_word kt; file; t; query; truth; ks; prefix] ++ words ++ ss) d =
    searched 1 Ls d (search_tool (kwidth kt) g1 g2 query prefix k 1 Ls order (load_for_ivf (kwidth kt) g popf mbs (qd kt) (cd kt) (names filters) (N.to_nat k) file) d).
Proof. exact search_ivf_ok. Qed.
Print Assumptions C103_search_ivf.

Example C103_search_ivf_applies : number_arg "2" 2 /\ number_arg "3" 3 /\ optional None ["0"] /\ Forall2 number_arg ["1"; "2"] [1; 2]%N /\ c_fs "none" = None /\ room_for 3 (load_aligned_bin 1 (s_g 0%nat) (s_g 1%nat) (c_fs "query.bin")) /\
  c_then (c_build_ivf c_ivf_args c_fs) (c_search_ivf (c_find_ivf "none")) "res_2_idx_uint32.bin" = Ok (0%Z, 0%Z, Some (bin_file 4 2 3 [7; 8; 6; 0; 1; 2]%N), [(1%N, S754_zero false); (2%N, S754_zero false)]).
Proof. split; [exact num2|]. split; [exact num3|]. split; [exact c_plain|]. split; [exact c_probes|]. split; [reflexivity|]. split; [exact c_room|]. vm_compute. reflexivity. Qed.

Theorem C103_search_lsh : forall g1 g2 h g dotf fv qd order prog kt file t T query truth ks k prefix filters words more d,
  number_arg t T -> number_arg ks k -> optional filters words ->
  d truth = None -> room_for k (load_aligned_bin (kwidth kt) g1 g2 (d query)) ->
  search_lsh_main g1 g2 h g dotf fv qd order ([prog; type_word kt; file; t; query; truth; ks; prefix] ++ words ++ more) d =
    searched 1 [1%N] d (search_tool (kwidth kt) g1 g2 query prefix k 1 [1%N] order (load_for_lsh (kwidth kt) g dotf (fv kt) (qd kt) (names filters) (N.to_nat k) file) d).
Proof. exact search_lsh_ok. Qed.
Print Assumptions C103_search_lsh.

Example C103_search_lsh_applies : number_arg "2" 2 /\ number_arg "3" 3 /\ optional None ["0"] /\ c_fs "none" = None /\ room_for 3 (load_aligned_bin 1 (s_g 0%nat) (s_g 1%nat) (c_fs "query.bin")) /\
  c_then (c_build_lsh c_lsh_args c_fs) (c_search_lsh (c_find_lsh "none")) "res_1_idx_uint32.bin" = Ok (0%Z, 0%Z, Some (bin_file 4 2 3 [7; 8; 9; 0; 1; 2]%N), [(1%N, S754_zero false)]).
Proof. split; [exact num2|]. split; [exact num3|]. split; [exact c_plain|]. split; [reflexivity|]. split; [exact c_room|]. vm_compute. reflexivity. Qed.

(** ** C103.  A number of words outside the accepted range ends a tool with an error. *)
Theorem C103_wrong_counts : forall argv d,
  (~ (10 <= length argv <= 11)%nat -> forall atof g sortf pd cent work sched order, build_vamana_main atof g sortf pd cent work sched order argv d = Exit) /\
  (length argv <> 11%nat -> forall atof g sortf pd choices, build_hnsw_main atof g sortf pd choices argv d = Exit) /\
  (length argv <> 6%nat -> forall g sortf pd cent order, build_relng_main g sortf pd cent order argv d = Exit) /\
  (~ (7 <= length argv <= 8)%nat -> forall atof g popf mbs cd centers orders, build_ivf_main atof g popf mbs cd centers orders argv d = Exit) /\
  (~ (7 <= length argv <= 8)%nat -> forall g dotf fv draw, build_lsh_main g dotf fv draw argv d = Exit) /\
  ((length argv < 11)%nat -> forall g1 g2 h g sortf qd order, search_vamana_main g1 g2 h g sortf qd order argv d = Exit /\ search_hnsw_main g1 g2 h g sortf qd order argv d = Exit /\ forall gc, search_relng_main g1 g2 h gc g sortf qd order argv d = Exit) /\
  ((length argv < 10)%nat -> forall g1 g2 h g popf mbs qd cd order, search_ivf_main g1 g2 h g popf mbs qd cd order argv d = Exit) /\
  ((length argv < 9)%nat -> forall g1 g2 h g dotf fv qd order, search_lsh_main g1 g2 h g dotf fv qd order argv d = Exit).
Proof. exact wrong_counts. Qed.
Print Assumptions C103_wrong_counts.

Example C103_wrong_counts_applies : c_build_ivf ["build_ivf"; "uint8"; "data.bin"; "0"; "ix"; "2"] c_fs = Exit.
Proof. vm_compute. reflexivity. Qed.

(** An unknown metric: the build tools return -1. *)
Theorem C103_unknown_metric : forall argv d s, nth_error argv 2 = Some s -> s <> "l2" -> s <> "mips" ->
  ((10 <= length argv <= 11)%nat -> forall atof g sortf pd cent work sched order, build_vamana_main atof g sortf pd cent work sched order argv d = Ok ((-1)%Z, d)) /\
  (length argv = 11%nat -> forall atof g sortf pd choices, build_hnsw_main atof g sortf pd choices argv d = Ok ((-1)%Z, d)) /\
  (length argv = 6%nat -> forall g sortf pd cent order, build_relng_main g sortf pd cent order argv d = Ok ((-1)%Z, d)).
Proof. exact unknown_metric. Qed.
Print Assumptions C103_unknown_metric.

Example C103_unknown_metric_applies : c_build_relng ["build_relng"; "uint8"; "cosine"; "data.bin"; "ix"; "2"] c_fs = Ok ((-1)%Z, c_fs).
Proof. vm_compute. reflexivity. Qed.

(** Inner products of bytes, and an alpha too large for a float: the tool throws. *)
Theorem C103_bytes_mips : forall atof g sortf pd cent work sched order prog kt data labels words save r R l L al t T d x, kt <> KFloat -> optional labels words -> number_arg r R -> number_arg l L -> number_arg t T -> finite (f32_of_f64 (atof al)) ->
  load_aligned_bin (kwidth kt) (g 0%nat) (g 1%nat) (d data) = Ok x ->
  build_vamana_main atof g sortf pd cent work sched order ([prog; type_word kt; "mips"; data] ++ words ++ [save; r; l; al; t]) d = Throw.
Proof. exact vamana_bytes_mips. Qed.
Print Assumptions C103_bytes_mips.

Theorem C103_infinite_alpha : forall atof g sortf pd cent work sched order prog kt m data labels words save r R l L al t T d, supported kt m -> optional labels words -> number_arg r R -> number_arg l L -> number_arg t T -> (exists s, f32_of_f64 (atof al) = S754_infinity s) ->
  build_vamana_main atof g sortf pd cent work sched order ([prog; type_word kt; metric_word m; data] ++ words ++ [save; r; l; al; t]) d = Throw.
Proof. exact vamana_infinite. Qed.
Print Assumptions C103_infinite_alpha.

Example C103_throws_apply : c_build_vamana ["build_vamana"; "uint8"; "mips"; "data.bin"; "0"; "ix"; "5"; "64"; "1.2"; "2"] c_fs = Throw /\
  f32_of_f64 (c_atof "1e39") = S754_infinity false /\ c_build_vamana ["build_vamana"; "uint8"; "l2"; "data.bin"; "0"; "ix"; "5"; "64"; "1e39"; "2"] c_fs = Throw.
Proof. split; [|split]; vm_compute; reflexivity. Qed.

(** ** C103 does not hold for every command line: words that are missing, too many or not
    numbers are not reported. *)
(** The flag announces a name and the last word is missing: argv[argc], a null pointer, is read. *)
Theorem C103_missing_word_vamana_refuted : forall atof g sortf pd cent work sched order prog ty m data f n labels save r R l L al d, m = "l2" \/ m = "mips" -> number_arg f n -> n <> 0%N -> number_arg r R -> number_arg l L ->
  build_vamana_main atof g sortf pd cent work sched order [prog; ty; m; data; f; labels; save; r; l; al] d = UB.
Proof. exact vamana_missing. Qed.
Print Assumptions C103_missing_word_vamana_refuted.

Theorem C103_missing_word_ivf_refuted : forall atof g popf mbs cd centers orders prog ty data f n labels save nc k d, number_arg f n -> n <> 0%N -> number_arg nc k ->
  build_ivf_main atof g popf mbs cd centers orders [prog; ty; data; f; labels; save; nc] d = UB.
Proof. exact ivf_missing. Qed.
Print Assumptions C103_missing_word_ivf_refuted.

Theorem C103_missing_word_lsh_refuted : forall g dotf fv draw prog ty data f n labels save nt k d, number_arg f n -> n <> 0%N -> number_arg nt k ->
  build_lsh_main g dotf fv draw [prog; ty; data; f; labels; save; nt] d = UB.
Proof. exact lsh_missing. Qed.
Print Assumptions C103_missing_word_lsh_refuted.

Theorem C103_missing_word_search_lsh_refuted : forall g1 g2 h g dotf fv qd order prog kt file t T query truth ks k prefix f n d, number_arg t T -> number_arg ks k -> number_arg f n -> n <> 0%N ->
  search_lsh_main g1 g2 h g dotf fv qd order [prog; type_word kt; file; t; query; truth; ks; prefix; f] d = UB.
Proof. exact search_lsh_missing. Qed.
Print Assumptions C103_missing_word_search_lsh_refuted.

(** The flag is 0 and a name follows at the end: it is ignored. *)
Theorem C103_surplus_word_refuted : forall atof g sortf pd cent work sched order prog kt m data f save r R l L al t T more d,
  supported kt m -> number_arg f 0 -> number_arg r R -> number_arg l L -> number_arg t T ->
  build_vamana_main atof g sortf pd cent work sched order [prog; type_word kt; metric_word m; data; f; save; r; l; al; t; more] d =
  build_vamana_main atof g sortf pd cent work sched order [prog; type_word kt; metric_word m; data; f; save; r; l; al; t] d.
Proof. exact vamana_surplus. Qed.
Print Assumptions C103_surplus_word_refuted.

(** The vamana lines of tests/benchmarks.py are of an older form: the build line has no label
    flag, and no index is built; the search line has no filter flag, its first list size is taken
    for one and its second for the name of a filter. *)
Theorem C103_benchmark_build_refuted : forall atof g sortf pd cent work sched order prog ty m data save r l al t d,
  build_vamana_main atof g sortf pd cent work sched order [prog; ty; m; data; save; r; l; al; t] d = Exit.
Proof. exact benchmark_build. Qed.
Print Assumptions C103_benchmark_build_refuted.

Theorem C103_benchmark_search_refuted : forall g1 g2 h g sortf qd order prog kt m file t T query truth ks k prefix s1 L1 s2 ss Ls d,
  supported kt m -> number_arg t T -> number_arg ks k -> number_arg s1 L1 -> (1 <= L1)%N -> Forall2 number_arg ss Ls -> ss <> [] ->
  d truth = None -> room_for k (load_aligned_bin (kwidth kt) g1 g2 (d query)) ->
  search_vamana_main g1 g2 h g sortf qd order ([prog; type_word kt; metric_word m; file; t; query; truth; ks; prefix] ++ s1 :: s2 :: ss) d =
    searched k Ls d (search_tool (kwidth kt) g1 g2 query prefix k k Ls order (load_for_vamana (kwidth kt) g sortf (qd kt m) [s2] (N.to_nat k) file) d).
Proof. exact benchmark_search. Qed.
Print Assumptions C103_benchmark_search_refuted.

(** Two list sizes instead of three, and a filter "5" that no vector carries: no results. *)
Example C103_benchmark_search_applies :
  c_then (c_build_vamana c_vamana_args c_fs) (c_search_vamana ["search_vamana"; type_word KUint8; metric_word L2; "ix"; "2"; "query.bin"; "none"; "3"; "res"; "3"; "5"; "64"]) "res_64_idx_uint32.bin" = Ok (0%Z, 0%Z, Some (bin_file 4 2 3 [0; 0; 0; 0; 0; 0]%N), [(64%N, S754_zero false)]) /\
  c_then (c_build_vamana c_vamana_args c_fs) (c_search_vamana ["search_vamana"; type_word KUint8; metric_word L2; "ix"; "2"; "query.bin"; "none"; "3"; "res"; "3"; "5"; "64"]) "res_5_idx_uint32.bin" = Ok (0%Z, 0%Z, None, [(64%N, S754_zero false)]).
Proof. split; vm_compute; reflexivity. Qed.

(** A degree of ten is a degree of 0. *)
Theorem C103_not_a_number_refuted : forall atof g sortf pd cent work sched order prog ty m data save l al t d,
  build_vamana_main atof g sortf pd cent work sched order [prog; ty; m; data; "0"; save; "ten"; l; al; t] d = build_vamana_main atof g sortf pd cent work sched order [prog; ty; m; data; "0"; save; "0"; l; al; t] d.
Proof. exact not_a_number. Qed.
Print Assumptions C103_not_a_number_refuted.

(** An unknown type: nothing is built and the status is 0. *)
Theorem C103_unknown_type_build_refuted : forall atof g sortf pd cent work sched order prog ty m data labels words save r R l L al t T d, (forall kt, ty <> type_word kt) -> m = "l2" \/ m = "mips" -> optional labels words -> number_arg r R -> number_arg l L -> number_arg t T ->
  build_vamana_main atof g sortf pd cent work sched order ([prog; ty; m; data] ++ words ++ [save; r; l; al; t]) d = Ok (0%Z, d).
Proof. exact unknown_type_build. Qed.
Print Assumptions C103_unknown_type_build_refuted.

Theorem C103_unknown_type_search_refuted : forall argv d t, nth_error argv 1 = Some t -> (forall kt, t <> type_word kt) -> forall g1 g2 h g,
  ((11 <= length argv)%nat -> forall sortf qd order, search_vamana_main g1 g2 h g sortf qd order argv d = Ok (0%Z, d, []) /\ search_hnsw_main g1 g2 h g sortf qd order argv d = Ok (0%Z, d, []) /\ forall gc, search_relng_main g1 g2 h gc g sortf qd order argv d = Ok (0%Z, d, [])) /\
  ((10 <= length argv)%nat -> forall popf mbs qd cd order, search_ivf_main g1 g2 h g popf mbs qd cd order argv d = Ok (0%Z, d, [])) /\
  ((9 <= length argv)%nat -> forall dotf fv qd order, search_lsh_main g1 g2 h g dotf fv qd order argv d = Ok (0%Z, d, [])).
Proof. exact unknown_type_search. Qed.
Print Assumptions C103_unknown_type_search_refuted.

(** An unknown metric in a search: nothing is searched and the status is 0. *)
Theorem C103_unknown_metric_search_refuted : forall argv d s t, nth_error argv 1 = Some t -> nth_error argv 2 = Some s -> s <> "l2" -> s <> "mips" -> (11 <= length argv)%nat -> forall g1 g2 h g sortf qd order,
  search_vamana_main g1 g2 h g sortf qd order argv d = Ok (0%Z, d, []) /\ search_hnsw_main g1 g2 h g sortf qd order argv d = Ok (0%Z, d, []) /\ forall gc, search_relng_main g1 g2 h gc g sortf qd order argv d = Ok (0%Z, d, []).
Proof. exact unknown_metric_search. Qed.
Print Assumptions C103_unknown_metric_search_refuted.

(** The usage messages of the searches name fast_l2, which is refused; so is, for the build
    tools, a metric in capitals. *)
Theorem C103_fast_l2_refuted : c_search_hnsw ["search_hnsw"; "float"; "fast_l2"; "ix"; "2"; "2"; "query.bin"; "truth.bin"; "3"; "res"; "5"] c_fs = Ok (0%Z, c_fs, []) /\
  c_build_hnsw ["build_hnsw"; "uint8"; "L2"; "big.bin"; "ix"; "5"; "64"; "0"; "0.8"; "2"; "2"] c_fs = Ok ((-1)%Z, c_fs).
Proof. split; vm_compute; reflexivity. Qed.
Print Assumptions C103_fast_l2_refuted.

(** List sizes below K are skipped, but not negative ones: 2 is skipped and so nothing is done,
    not even the query file that is not there is missed; -1 is taken for 2^64 - 1. *)
Theorem C103_negative_size_refuted : c_search_hnsw ["search_hnsw"; "uint8"; "l2"; "ix"; "2"; "2"; "none"; "truth.bin"; "3"; "res"; "2"] c_fs = Ok (0%Z, c_fs, []) /\
  c_search_hnsw ["search_hnsw"; "uint8"; "l2"; "ix"; "2"; "2"; "none"; "truth.bin"; "3"; "res"; "-1"] c_fs = Throw /\
  c_search_hnsw ["search_hnsw"; "uint8"; "l2"; "ix"; "2"; "2"; "none"; "truth.bin"; "3"; "res"; "5"] c_fs = Throw.
Proof. split; [|split]; vm_compute; reflexivity. Qed.
Print Assumptions C103_negative_size_refuted.

(** ** C105.  The recall a search prints for a list size is the one the recall tool computes
    from the truth file and the result file of that list size. *)
Theorem C105_recall_vamana : forall g1 g2 h g sortf qd order prog kt m file t T query truth ks k prefix filters words ss Ls d,
  supported kt m -> number_arg t T -> number_arg ks k -> optional filters words -> Forall2 number_arg ss Ls -> ss <> [] ->
  forall b nq qdim qadim mem d', d truth = Some b -> load_aligned_bin (kwidth kt) g1 g2 (d query) = Ok (nq, qdim, qadim, mem) -> truth_for h b nq k -> (1 <= k)%N -> (nq < 2 ^ 32)%N -> (nq * k < 2 ^ 60)%N ->
  (forall L i, In L Ls -> (k <= L)%N -> In i (order L) -> (i < N.to_nat nq)%nat) ->
  search_tool (kwidth kt) g1 g2 query prefix k k Ls order (load_for_vamana (kwidth kt) g sortf (qd kt m) (names filters) (N.to_nat k) file) d = Ok (Some d') ->
  recall_shown h b prefix k (filter (fun L => (k <=? L)%N) Ls) d' (search_vamana_main g1 g2 h g sortf qd order ([prog; type_word kt; metric_word m; file; t; query; truth; ks; prefix] ++ words ++ ss) d).
Proof. exact recall_vamana. Qed.
Print Assumptions C105_recall_vamana.

Example C105_recall_vamana_applies : c_fs "truth.bin" = Some c_truth /\ truth_for h0 c_truth 2 3 /\
  c_then (c_build_vamana c_vamana_args c_fs) (c_search_vamana (c_find_vamana "truth.bin")) "res_5_idx_uint32.bin" = Ok (0%Z, 0%Z, Some (bin_file 4 2 3 [5; 1; 0; 0; 1; 5]%N), [(5%N, S754_finite false 8738133 (-18))]) /\
  match [(5%N, S754_finite false 8738133 (-18))] with (L, v) :: _ => recall_tool h0 h0 (Some c_truth) (Some (bin_file 4 2 3 [5; 1; 0; 0; 1; 5]%N)) 3 = Ok (Some v) | _ => False end.
Proof. split; [reflexivity|]. split; [exact c_truth_for|]. split; vm_compute; reflexivity. Qed.

Theorem C105_recall_hnsw : forall g1 g2 h g sortf qd order prog kt m file lv levels t T query truth ks k prefix ss Ls d,
  supported kt m -> number_arg lv levels -> (1 <= levels)%N -> number_arg t T -> number_arg ks k -> Forall2 number_arg ss Ls -> ss <> [] ->
  forall b nq qdim qadim mem d', d truth = Some b -> load_aligned_bin (kwidth kt) g1 g2 (d query) = Ok (nq, qdim, qadim, mem) -> truth_for h b nq k -> (1 <= k)%N -> (nq < 2 ^ 32)%N -> (nq * k < 2 ^ 60)%N ->
  (forall L i, In L Ls -> (k <= L)%N -> In i (order L) -> (i < N.to_nat nq)%nat) ->
  search_tool (kwidth kt) g1 g2 query prefix k k Ls order (load_for_hnsw (kwidth kt) g sortf (qd kt m) (N.to_nat k) (N.to_nat levels) file) d = Ok (Some d') ->
  recall_shown h b prefix k (filter (fun L => (k <=? L)%N) Ls) d' (search_hnsw_main g1 g2 h g sortf qd order ([prog; type_word kt; metric_word m; file; lv; t; query; truth; ks; prefix] ++ ss) d).
Proof. exact recall_hnsw. Qed.
Print Assumptions C105_recall_hnsw.

Example C105_recall_hnsw_applies : c_fs "truth.bin" = Some c_truth /\ truth_for h0 c_truth 2 3 /\
  c_then (c_build_hnsw c_hnsw_args c_fs) (c_search_hnsw (c_find_hnsw "truth.bin")) "res_5_idx_uint32.bin" = Ok (0%Z, 0%Z, Some (bin_file 4 2 3 [7; 6; 8; 0; 1; 2]%N), [(5%N, S754_finite false 13107200 (-17))]) /\
  match [(5%N, S754_finite false 13107200 (-17))] with (L, v) :: _ => recall_tool h0 h0 (Some c_truth) (Some (bin_file 4 2 3 [7; 6; 8; 0; 1; 2]%N)) 3 = Ok (Some v) | _ => False end.
Proof. split; [reflexivity|]. split; [exact c_truth_for|]. split; vm_compute; reflexivity. Qed.

Theorem C105_recall_relng : forall g1 g2 h gc g sortf qd order prog kt m data file t T query truth ks k prefix ss Ls d a,
  supported kt m -> number_arg t T -> number_arg ks k -> Forall2 number_arg ss Ls -> ss <> [] -> construct (kwidth kt) gc data [] "" d = Ok a ->
  forall b nq qdim qadim mem d', d truth = Some b -> load_aligned_bin (kwidth kt) g1 g2 (d query) = Ok (nq, qdim, qadim, mem) -> truth_for h b nq k -> (1 <= k)%N -> (nq < 2 ^ 32)%N -> (nq * k < 2 ^ 60)%N ->
  (forall L i, In L Ls -> (k <= L)%N -> In i (order L) -> (i < N.to_nat nq)%nat) ->
  search_tool (kwidth kt) g1 g2 query prefix k k Ls order (load_for_rng (kwidth kt) g sortf (qd kt m) (N.to_nat k) file) d = Ok (Some d') ->
  recall_shown h b prefix k (filter (fun L => (k <=? L)%N) Ls) d' (search_relng_main g1 g2 h gc g sortf qd order ([prog; type_word kt; metric_word m; data; file; t; query; truth; ks; prefix] ++ ss) d).
Proof. exact recall_relng. Qed.
Print Assumptions C105_recall_relng.

Example C105_recall_relng_applies : c_fs "truth.bin" = Some c_truth /\ truth_for h0 c_truth 2 3 /\
  c_then (c_build_relng c_relng_args c_fs) (c_search_relng (c_find_relng "truth.bin")) "res_5_idx_uint32.bin" = Ok (0%Z, 0%Z, Some (bin_file 4 2 3 [7; 6; 8; 0; 1; 2]%N), [(5%N, S754_finite false 13107200 (-17))]) /\
  match [(5%N, S754_finite false 13107200 (-17))] with (L, v) :: _ => recall_tool h0 h0 (Some c_truth) (Some (bin_file 4 2 3 [7; 6; 8; 0; 1; 2]%N)) 3 = Ok (Some v) | _ => False end.
Proof. split; [reflexivity|]. split; [exact c_truth_for|]. split; vm_compute; reflexivity. Qed.

Theorem C105_recall_ivf : forall g1 g2 h g popf mbs qd cd order prog kt file t T query truth ks k prefix filters words ss Ls d,
  number_arg t T -> number_arg ks k -> optional filters words -> Forall2 number_arg ss Ls -> ss <> [] ->
  forall b nq qdim qadim mem d', d truth = Some b -> load_aligned_bin (kwidth kt) g1 g2 (d query) = Ok (nq, qdim, qadim, mem) -> truth_for h b nq k -> (1 <= k)%N -> (nq < 2 ^ 32)%N -> (nq * k < 2 ^ 60)%N ->
  (forall L i, In L Ls -> (1 <= L)%N -> In i (order L) -> (i < N.to_nat nq)%nat) ->
  search_tool (kwidth kt) g1 g2 query prefix k 1 Ls order (load_for_ivf (kwidth kt) g popf mbs (qd kt) (cd kt) (names filters) (N.to_nat k) file) d = Ok (Some d') ->
  recall_shown h b prefix k (filter (fun L => (1 <=? L)%N) Ls) d' (search_ivf_main g1 g2 h g popf mbs qd cd order ([prog; type_word kt; file; t; query; truth; ks; prefix] ++ words ++ ss) d).
Proof. exact recall_ivf. Qed.
Print Assumptions C105_recall_ivf.

Example C105_recall_ivf_applies : c_fs "truth.bin" = Some c_truth /\ truth_for h0 c_truth 2 3 /\
  c_then (c_build_ivf c_ivf_args c_fs) (c_search_ivf (c_find_ivf "truth.bin")) "res_2_idx_uint32.bin" = Ok (0%Z, 0%Z, Some (bin_file 4 2 3 [7; 8; 6; 0; 1; 2]%N), [(1%N, S754_finite false 13107200 (-17)); (2%N, S754_finite false 13107200 (-17))]) /\
  match [(1%N, S754_finite false 13107200 (-17)); (2%N, S754_finite false 13107200 (-17))] with (L, v) :: _ => recall_tool h0 h0 (Some c_truth) (Some (bin_file 4 2 3 [7; 8; 6; 0; 1; 2]%N)) 3 = Ok (Some v) | _ => False end.
Proof. split; [reflexivity|]. split; [exact c_truth_for|]. split; vm_compute; reflexivity. Qed.

Theorem C105_recall_lsh : forall g1 g2 h g dotf fv qd order prog kt file t T query truth ks k prefix filters words more d,
  number_arg t T -> number_arg ks k -> optional filters words ->
  forall b nq qdim qadim mem d', d truth = Some b -> load_aligned_bin (kwidth kt) g1 g2 (d query) = Ok (nq, qdim, qadim, mem) -> truth_for h b nq k -> (1 <= k)%N -> (nq < 2 ^ 32)%N -> (nq * k < 2 ^ 60)%N ->
  (forall L i, In L [1%N] -> (1 <= L)%N -> In i (order L) -> (i < N.to_nat nq)%nat) ->
  search_tool (kwidth kt) g1 g2 query prefix k 1 [1%N] order (load_for_lsh (kwidth kt) g dotf (fv kt) (qd kt) (names filters) (N.to_nat k) file) d = Ok (Some d') ->
  recall_shown h b prefix k (filter (fun L => (1 <=? L)%N) [1%N]) d' (search_lsh_main g1 g2 h g dotf fv qd order ([prog; type_word kt; file; t; query; truth; ks; prefix] ++ words ++ more) d).
Proof. exact recall_lsh. Qed.
Print Assumptions C105_recall_lsh.

Example C105_recall_lsh_applies : c_fs "truth.bin" = Some c_truth /\ truth_for h0 c_truth 2 3 /\
  c_then (c_build_lsh c_lsh_args c_fs) (c_search_lsh (c_find_lsh "truth.bin")) "res_1_idx_uint32.bin" = Ok (0%Z, 0%Z, Some (bin_file 4 2 3 [7; 8; 9; 0; 1; 2]%N), [(1%N, S754_finite false 10922667 (-17))]) /\
  match [(1%N, S754_finite false 10922667 (-17))] with (L, v) :: _ => recall_tool h0 h0 (Some c_truth) (Some (bin_file 4 2 3 [7; 8; 9; 0; 1; 2]%N)) 3 = Ok (Some v) | _ => False end.
Proof. split; [reflexivity|]. split; [exact c_truth_for|]. split; vm_compute; reflexivity. Qed.

(** ** C105 needs a truth file that fits: the recall tool refuses one about fewer queries, or
    with fewer than K neighbours; the search reads beyond its end. *)
Theorem C105_truth_mismatch_refuted :
  c_then (c_build_ivf c_ivf_args c_fs) (c_search_ivf (c_find_ivf "short.bin")) "res_2_idx_uint32.bin" = UB /\ recall_tool h0 h0 (Some c_short) (Some (bin_file 4 2 3 [7; 8; 6; 0; 1; 2]%N)) 3 = Ok None /\
  c_then (c_build_ivf c_ivf_args c_fs) (c_search_ivf (c_find_ivf "narrow.bin")) "res_2_idx_uint32.bin" = UB /\ recall_tool h0 h0 (Some c_narrow) (Some (bin_file 4 2 3 [7; 8; 6; 0; 1; 2]%N)) 3 = Ok None.
Proof. split; [|split; [|split]]; vm_compute; reflexivity. Qed.
Print Assumptions C105_truth_mismatch_refuted.
