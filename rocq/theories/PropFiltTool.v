(** * Theorems: the filtered ground truth tool, from the command line to the files (C109).

    [W] is any choice of the matrix library of orders of additions and fused operations, [pushf],
    [takef] any heap, [sortf] any sort, [orders] any schedule of the parallel loops, [g] what
    uninitialised integers hold; [ps] vectors make a part and [bs] queries a batch. *)
From Coq Require Import NArith ZArith Reals Ascii String List Arith Bool Lia Permutation Floats.SpecFloat.
From Verif Require Import Base Bytes Float32 FloatBits DistSpec RealSpec StreamModel BinSpec TextModel TruthModel NormModel NormSpec ClosestModel HeapSpec HeapInst PopInst GtModel GtSpec BlasModel BlasSpec BlasCases GtToolModel GtToolSpec GtToolCases
  FiltGtModel FiltGtSpec IndexFileModel CmdModel CmdSpec UtilCmdSpec FiltToolModel FiltToolSpec FiltToolProofs2 FiltToolCases.
Import ListNotations.
Local Open Scope nat_scope.

(** C109.  Vectors of floats with a line of labels each: every query gets the nearest of the vectors
    that have a label of the filter or the universal label, under the numbers they have in the
    original file; as many as asked for, or as many as the last part has.  The two files used in
    between are gone and no other file changed. *)
Theorem C109_filtered_floats : forall W pushf takef sortf bs ps g orders prog dim k ks rows qrows text coord labels fstr query out univ ids d,
  heap_ok pushf takef -> sorts_pairs sortf -> (forall i, length (g i) = 4) -> 1 <= bs -> 1 <= ps -> number_arg ks k -> (1 <= k)%N -> (forall p, batch_orders (length qrows) bs (orders p)) ->
  coord <> base_name out -> labels <> base_name out -> query <> base_name out -> d coord = vector_file KFloat dim rows -> d labels = Some text -> d query = vector_file KFloat dim qrows ->
  tool_input KFloat dim ps rows qrows -> ways_ok dim W -> (Z.of_nat dim <= 2 ^ 20)%Z -> (forall r, In r rows \/ In r qrows -> elem_sq KFloat r <= powerRZ 2 100)%R ->
  line_count text = length rows -> matches (length rows) text fstr univ ids -> ids <> [] ->
  let k' := min (N.to_nat k) (last_part (length ids) ps) in
  exists d' b tids tdists, compute_filtered_groundtruth_main W pushf takef sortf bs ps g orders ([prog; type_word KFloat; coord; labels; fstr; query; ks; out] ++ label_word univ) d = Ok (0%Z, d') /\
    d' out = Some b /\ d' (base_name out) = None /\ d' (dummy_name out) = None /\ (forall name, name <> out -> name <> base_name out -> name <> dummy_name out -> d' name = d name) /\
    (forall h, load_truthset h (Some b) = Ok (N.of_nat (length qrows), N.of_nat k', tids, Some tdists)) /\
    forall i, i < length qrows -> nearest_among ids k' (fun p => elem_l2 KFloat (nth p rows []) (nth i qrows []))
      (fun p => ((INR dim + 8) * powerRZ 2 (-22) * (elem_sq KFloat (nth p rows []) + elem_sq KFloat (nth i qrows [])) + (INR dim + 4) * powerRZ 2 (-147))%R) (truth_row k' i tids tdists).
Proof. exact filtered_command. Qed.
Print Assumptions C109_filtered_floats.

Example C109_hypotheses_case : tool_input KFloat 2 3 f_rows tool_fq /\ (forall r, In r f_rows \/ In r tool_fq -> (elem_sq KFloat r <= powerRZ 2 100)%R).
Proof. exact f_hyps. Qed.
Example C109_matches_case : line_count f_text = length f_rows /\ matches (length f_rows) f_text "red"%string (Some "all"%string) [0; 3; 4] /\ matches (length f_rows) f_text "red"%string None [0; 3] /\ matches (length f_rows) f_text "white"%string None [].
Proof. exact f_matches. Qed.
Local Open Scope string_scope.
Example C109_runs_case : f_truth (f_run 1 (f_line "float" "v.bin" "q.bin" "2" ++ ["all"])%list) = Ok (0%Z, (1, 2, [3; 0], Some (fbits [25; 29]%Z))%N, (None, None, Some [7%N])) /\
  f_truth (f_run 1 (f_line "float" "v.bin" "q.bin" "002")) = Ok (0%Z, (1, 2, [3; 0], Some (fbits [25; 29]%Z))%N, (None, None, Some [7%N])) /\
  f_truth (f_run 1 ["tool"; "float"; "v.bin"; "labels.txt"; "green"; "q.bin"; "9"; "gt"; "all"]) = Ok (0%Z, (1, 2, [2; 4], Some (fbits [32; 128]%Z))%N, (None, None, Some [7%N])).
Proof. exact f_runs. Qed.
Local Close Scope string_scope.

(** C109.  A wrong number of words ends the program before any file is touched. *)
Theorem C109_count : forall W pushf takef sortf bs ps g orders argv d, length argv <> 8 -> length argv <> 9 -> compute_filtered_groundtruth_main W pushf takef sortf bs ps g orders argv d = Exit.
Proof. exact filtered_count. Qed.
Print Assumptions C109_count.

(** C109.  So does an unknown type, with status 0. *)
Theorem C109_unknown_type : forall W pushf takef sortf bs ps g orders prog ty coord labels fstr query ks k out univ d, no_type ty -> number_arg ks k ->
  compute_filtered_groundtruth_main W pushf takef sortf bs ps g orders ([prog; ty; coord; labels; fstr; query; ks; out] ++ label_word univ) d = Ok (0%Z, d).
Proof. exact filtered_type. Qed.
Print Assumptions C109_unknown_type.

(** The same command for vectors of bytes, as its usage offers, writes past an allocation sized by
    the type of the vectors: undefined for every file. *)
Theorem C109_bytes_refuted : forall W pushf takef sortf bs ps g orders prog kt dim k ks rows qrows text coord labels fstr query out univ ids d, kt <> KFloat ->
  heap_ok pushf takef -> sorts_pairs sortf -> (forall i, length (g i) = 4) -> 1 <= bs -> 1 <= ps -> number_arg ks k -> (1 <= k)%N -> (forall p, batch_orders (length qrows) bs (orders p)) ->
  coord <> base_name out -> labels <> base_name out -> query <> base_name out -> d coord = vector_file kt dim rows -> d labels = Some text -> d query = vector_file kt dim qrows ->
  tool_input kt dim ps rows qrows -> ways_ok dim W -> (Z.of_nat dim <= 2 ^ 20)%Z -> line_count text = length rows -> matches (length rows) text fstr univ ids -> ids <> [] ->
  compute_filtered_groundtruth_main W pushf takef sortf bs ps g orders ([prog; type_word kt; coord; labels; fstr; query; ks; out] ++ label_word univ) d = UB.
Proof. exact filtered_bytes. Qed.
Print Assumptions C109_bytes_refuted.

(** A filter that no vector meets is not an empty truth: undefined. *)
Theorem C109_no_match_refuted : forall W pushf takef sortf bs ps g orders prog kt dim k ks rows qrows text coord labels fstr query out univ d,
  sorts_pairs sortf -> (forall i, length (g i) = 4) -> 1 <= ps -> number_arg ks k -> (1 <= k)%N -> (forall p, batch_orders (length qrows) bs (orders p)) ->
  coord <> base_name out -> labels <> base_name out -> query <> base_name out -> d coord = vector_file kt dim rows -> d labels = Some text -> d query = vector_file kt dim qrows ->
  tool_input kt dim ps rows qrows -> (Z.of_nat dim <= 2 ^ 20)%Z -> line_count text = length rows -> matches (length rows) text fstr univ [] ->
  compute_filtered_groundtruth_main W pushf takef sortf bs ps g orders ([prog; type_word kt; coord; labels; fstr; query; ks; out] ++ label_word univ) d = UB.
Proof. exact filtered_none. Qed.
Print Assumptions C109_no_match_refuted.

(** A negative number of neighbours becomes a numeral of twenty digits that is read as an int again:
    undefined. *)
Theorem C109_negative_refuted : forall W pushf takef sortf bs ps g orders prog kt dim ks z rows qrows text coord labels fstr query out univ ids d,
  (forall i, length (g i) = 4) -> atoi ks = Ok z -> (z < 0)%Z ->
  coord <> base_name out -> labels <> base_name out -> query <> base_name out -> d coord = vector_file kt dim rows -> d labels = Some text ->
  tool_input kt dim ps rows qrows -> (Z.of_nat dim <= 2 ^ 20)%Z -> line_count text = length rows -> matches (length rows) text fstr univ ids ->
  compute_filtered_groundtruth_main W pushf takef sortf bs ps g orders ([prog; type_word kt; coord; labels; fstr; query; ks; out] ++ label_word univ) d = UB.
Proof. exact filtered_negative. Qed.
Print Assumptions C109_negative_refuted.

Local Open Scope string_scope.
Example C109_refuted_cases : f_run 3 (f_line "uint8" "b.bin" "bq.bin" "2") = UB /\ f_run 1 ["tool"; "float"; "v.bin"; "labels.txt"; "white"; "q.bin"; "2"; "gt"] = UB /\ f_run 1 (f_line "float" "v.bin" "q.bin" "-1") = UB /\
  f_run 1 ["tool"; "float"] = Exit /\ f_run 1 (f_line "double" "v.bin" "q.bin" "2") = Ok (0%Z, f_fs).
Proof. exact f_fails. Qed.
