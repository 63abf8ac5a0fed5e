(** * The main functions of the utility tools, from the command line on.

    tests/utils: calculate_recall.cpp, compute_groundtruth.cpp, fvecs_to_bin.cpp,
    ivecs_to_bin.cpp, int8_to_float.cpp, uint8_to_float.cpp, uint32_to_uint8.cpp,
    float_bin_to_int8.cpp, bin_to_tsv.cpp, tsv_to_bin.cpp, generate_pq.cpp, partition_data.cpp,
    partition_with_ram_budget.cpp and vector_analysis.cpp.  A main gives its exit status and the
    files; of what is printed only the recall and the table of norms are kept.  What is behind
    the arguments is in StatsModel.v, GtToolModel.v, ConvertModel.v, TsvModel.v, PqFileModel.v,
    PartitionModel.v and NormModel.v. *)
From Coq Require Import NArith ZArith String List Arith Bool Floats.SpecFloat.
From Verif Require Import Base Bytes Float32 FloatBits StreamModel BinModel ConvertModel TsvModel LloydModel NormModel FusedModel StatsModel TruthModel GtModel BlasModel GtToolModel
  IndexFileModel PqFileModel PartitionModel CmdModel RandModel.
Import ListNotations.
Local Open Scope string_scope.

(** tests/utils/calculate_recall.cpp:15-79: the exit status, and the percentage printed if it is
    0.  A process that is told to return -1 ends with a status other than 0. *)
Definition calculate_recall_main (g g' : nat -> N) (argv : list string) (d : fs) : res (Z * option f32) :=
  if negb (length argv =? 4)%nat then Ok ((-1)%Z, None)
  else
    do truth <- arg argv 1;
    do results <- arg argv 2;
    do r <- int_arg argv 3;
    do v <- recall_tool g g' (d truth) (d results) (int_u32 r);
    match v with None => Ok ((-1)%Z, None) | Some x => Ok (0%Z, Some x) end.

(** tests/utils/compute_groundtruth.cpp:303-312, 368-380: the metric is mips or anything else,
    and then L2.  An unknown type does nothing. *)
Definition compute_groundtruth_main (W : gt_ways) (pushf : push_op) (takef : take_op) (sortf : list pair_if -> list pair_if) (bs ps : nat) (g : nat -> list N)
    (orders : nat -> nat -> list nat) (argv : list string) (d : fs) : res (Z * fs) :=
  if negb (length argv =? 7)%nat then Ok ((-1)%Z, d)
  else
    do ty <- arg argv 1;
    match kind_of ty with
    | None => Ok (0%Z, d)
    | Some kt =>
        do base <- arg argv 2;
        do query <- arg argv 3;
        do k <- int_arg argv 4;
        do out <- arg argv 5;
        do m <- arg argv 6;
        do b <- gt_tool W (String.eqb m "mips") pushf takef sortf bs ps kt (g 0%nat) (g 1%nat) (g 2%nat) (g 3%nat) (d base) (d query) (N.to_nat (int_u64 k)) orders;
        Ok (0%Z, fs_set d out (Some b))
    end.

(** tests/utils/fvecs_to_bin.cpp:18-56, ivecs_to_bin.cpp:18-56.  The output is opened, and so
    emptied, before the vectors are read: if it is the input, what is then converted are
    uninitialised bytes. *)
Definition vecs_main (bs : nat) (argv : list string) (d : fs) : res (Z * fs) :=
  if negb (length argv =? 3)%nat then Exit
  else
    do src <- arg argv 1;
    do dst <- arg argv 2;
    if String.eqb src dst then UB
    else do b <- vecs_to_bin bs (d src); Ok (0%Z, fs_set d dst (Some b)).

(** tests/utils/int8_to_float.cpp:7-20, uint8_to_float.cpp:7-20, uint32_to_uint8.cpp:7-20: the
    input is closed before the output is opened. *)
Definition convert_main (w1 w2 : nat) (conv : N -> N) (g : nat -> list N) (order : list nat) (argv : list string) (d : fs) : res (Z * fs) :=
  if negb (length argv =? 3)%nat then Exit
  else
    do src <- arg argv 1;
    do dst <- arg argv 2;
    do b <- convert_file w1 w2 conv (g 0%nat) (g 1%nat) order (d src);
    Ok (0%Z, fs_set d dst (Some b)).
Definition int8_to_float_main := convert_main 1 4 int8_to_float.
Definition uint8_to_float_main := convert_main 1 4 uint8_to_float.
Definition uint32_to_uint8_main := convert_main 4 1 uint32_to_uint8.

(** tests/utils/float_bin_to_int8.cpp:21-63.  Equal names as in [vecs_main] (in the code what
    was buffered with the header can survive; counted as undefined). *)
Definition float_bin_to_int8_main (atof : string -> spec_float) (bs : nat) (g : nat -> list N) (argv : list string) (d : fs) : res (Z * fs) :=
  if negb (length argv =? 5)%nat then Exit
  else
    do src <- arg argv 1;
    do dst <- arg argv 2;
    do bias <- arg argv 3;
    do scale <- arg argv 4;
    if String.eqb src dst then UB
    else
      do b <- float_bin_to_int8 (f32_of_f64 (atof bias)) (f32_of_f64 (atof scale)) bs (g 0%nat) (g 1%nat) (d src);
      Ok (0%Z, fs_set d dst (Some b)).

(** The block_convert that a type selects. *)
Definition elem_of (kt : ktype) : elem_type := match kt with KFloat => Float | _ => Byte end.

(** tests/utils/bin_to_tsv.cpp:23-69: with an unknown type the output is opened but nothing is
    written.  Equal names as in [float_bin_to_int8_main]. *)
Definition bin_to_tsv_main (bs : nat) (g : nat -> list N) (argv : list string) (d : fs) : res (Z * fs) :=
  if negb (length argv =? 4)%nat then Exit
  else
    do ty <- arg argv 1;
    do src <- arg argv 2;
    do dst <- arg argv 3;
    if String.eqb src dst then UB
    else
      match kind_of ty with
      | None => Ok (0%Z, fs_set d dst (Some []))
      | Some kt => do b <- bin_to_tsv (elem_of kt) bs (g 0%nat) (g 1%nat) (d src); Ok (0%Z, fs_set d dst (Some b))
      end.

(** tests/utils/tsv_to_bin.cpp:26-71: the dimension comes before the number of points.  With an
    unknown type only the header is written. *)
Definition tsv_to_bin_main (bs : nat) (argv : list string) (d : fs) : res (Z * fs) :=
  if negb (length argv =? 6)%nat then Exit
  else
    do ty <- arg argv 1;
    do src <- arg argv 2;
    do dst <- arg argv 3;
    do nd <- int_arg argv 4;
    do np <- int_arg argv 5;
    if String.eqb src dst then UB
    else
      match kind_of ty with
      | None => Ok (0%Z, fs_set d dst (Some (u32 (int_u32 np) ++ u32 (int_u32 nd))%list))
      | Some kt => do b <- tsv_to_bin (elem_of kt) bs (d src) (N.to_nat (int_u64 nd)) (N.to_nat (int_u64 np)); Ok (0%Z, fs_set d dst (Some b))
      end.

(** tests/utils/generate_pq.cpp:38-67.  With a wrong number of arguments the main prints its
    usage and then ends like a run that did its work.  The rate is a float that is passed on as
    a double; [words] are the words of the generator. *)
Definition generate_pq_main (atof : string -> spec_float) (words : nat -> N) (g g' : nat -> N) (gl gl' : nat -> list N) (env : nat -> kmenv)
    (popf : list (nat * f32) -> list (nat * f32)) (mbs maxb : nat) (cdist : nat -> list f32 -> list f32 -> f32) (orders : nat -> nat -> nat -> list (nat * nat))
    (argv : list string) (d : fs) : res (Z * fs) :=
  if negb (length argv =? 6)%nat then Ok (0%Z, d)
  else
    do data <- arg argv 2;
    do prefix <- arg argv 3;
    do chunks <- int_arg argv 4;
    do ra <- arg argv 5;
    do ty <- arg argv 1;
    match kind_of ty with
    | None => Ok (0%Z, d)
    | Some kt =>
        do d' <- generate_pq g g' gl gl' env popf mbs maxb cdist (kwidth kt) (kval kt) (fun i => picked_train (f64_of_f32 (f32_of_f64 (atof ra))) (words i)) orders
                   data prefix 256 (N.to_nat (int_u64 chunks)) d;
        Ok (0%Z, d')
    end.

(** tests/utils/partition_data.cpp:11-40 *)
Definition partition_data_main (atof : string -> spec_float) (words : nat -> N) (g g' : nat -> N) (e : kmenv) (a : clenv) (argv : list string) (d : fs) : res (Z * fs) :=
  if negb (length argv =? 7)%nat then Exit
  else
    do data <- arg argv 2;
    do prefix <- arg argv 3;
    do ra <- arg argv 4;
    do np <- int_arg argv 5;
    do k <- int_arg argv 6;
    do ty <- arg argv 1;
    match kind_of ty with
    | None => Ok (0%Z, d)
    | Some kt =>
        do d' <- partition g g' e a (kwidth kt) (kval kt) (fun i => picked_train (f64_of_f32 (f32_of_f64 (atof ra))) (words i)) data prefix
                   (N.to_nat (int_u64 np)) 15 (N.to_nat (int_u64 k)) d;
        Ok (0%Z, d')
    end.

(** tests/utils/partition_with_ram_budget.cpp:11-40: the number of parts that is returned is
    not looked at.  [fuel] bounds the rounds. *)
Definition partition_budget_main (fuel : nat) (atof : string -> spec_float) (words words2 : nat -> N) (g g2 g' : nat -> N) (env : nat -> kmenv) (est : nat -> clenv)
    (garbage : nat -> list nat) (a : clenv) (argv : list string) (d : fs) : res (Z * fs) :=
  if negb (length argv =? 8)%nat then Exit
  else
    do data <- arg argv 2;
    do prefix <- arg argv 3;
    do ra <- arg argv 4;
    do budget <- arg argv 5;
    do degree <- int_arg argv 6;
    do k <- int_arg argv 7;
    do ty <- arg argv 1;
    match kind_of ty with
    | None => Ok (0%Z, d)
    | Some kt =>
        let rate := f64_of_f32 (f32_of_f64 (atof ra)) in
        do r <- partition_budget fuel g g2 g' env est garbage a (kwidth kt) (kval kt) (fun i => picked_train rate (words i)) (fun i => picked_train rate (words2 i))
                  rate (atof budget) (int_u64 degree) data prefix (N.to_nat (int_u64 k)) d;
        match r with Some (_, d') => Ok (0%Z, d') | None => Fuel end
    end.

(** tests/utils/vector_analysis.cpp:113-147: the exit status, the files and the table of norms.
    argv[4] is only there if argc is 5 or more. *)
Definition vector_analysis_main (c : pct_form) (f : fred) (sched : list mstep) (sortf : list f32 -> list f32) (g : nat -> list N) (argv : list string) (d : fs)
    : res (Z * fs * list f32) :=
  if (length argv <? 4)%nat then Exit
  else
    do ty <- arg argv 1;
    match kind_of ty with
    | None => Ok (0%Z, d, [])
    | Some kt =>
        do src <- arg argv 2;
        do o <- int_arg argv 3;
        let o := int_u32 o in
        if (o =? 1)%N then do t <- analyze_norm c kt f sortf (g 0%nat) (g 1%nat) (d src); Ok (0%Z, d, t)
        else if ((o =? 2) || (o =? 3))%N then
          do dst <- arg argv 4;
          do b <- augment_base kt f sched (o =? 2)%N (g 0%nat) (g 1%nat) (d src);
          Ok (0%Z, fs_set d dst (Some b), [])
        else if (o =? 4)%N then
          do dst <- arg argv 4;
          do b <- normalize_base kt f (g 0%nat) (g 1%nat) (d src);
          Ok (0%Z, fs_set d dst (Some b), [])
        else Ok (0%Z, d, [])
    end.
