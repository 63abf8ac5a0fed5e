(** * Command lines as the usage messages of the tools describe them. *)
From Coq Require Import NArith ZArith QArith String Ascii List Arith Bool Floats.SpecFloat.
From Verif Require Import Base Bytes Float32 FloatBits LloydModel NormModel DistModel StreamModel TsvModel TsvSpec TruthModel StatsModel IndexFileModel SystemModel.
Import ListNotations.
Local Open Scope string_scope.

(** [s] is the number [n] in decimal digits; as an argument it has to fit an int. *)
Definition numeral (s : string) (n : N) : Prop :=
  exists ds : list N, ds <> [] /\ Forall (fun d => (d <= 9)%N) ds /\
    s = string_of_list_ascii (map (fun d => ascii_of_N (48 + d)) ds) /\ n = fold_left (fun a d => (a * 10 + d)%N) ds 0%N.
Definition number_arg (s : string) (n : N) : Prop := numeral s n /\ (n < 2 ^ 31)%N.

Definition type_word (kt : ktype) : string := match kt with KInt8 => "int8" | KUint8 => "uint8" | KFloat => "float" end.
Definition metric_word (m : metric) : string := match m with L2 => "l2" | INNER_PRODUCT => "mips" | FAST_L2 => "fast_l2" | PQ => "pq" end.
(** Inner products are for floats. *)
Definition supported (kt : ktype) (m : metric) : Prop := m = L2 \/ (m = INNER_PRODUCT /\ kt = KFloat).

(** The words [filtered (0/1)] {name (if 1)}. *)
Definition optional (o : option string) (words : list string) : Prop :=
  match o with
  | None => exists f, words = [f] /\ number_arg f 0
  | Some s => exists f n, words = [f; s] /\ number_arg f n /\ n <> 0%N
  end.
Definition name_or_empty (o : option string) : string := match o with Some s => s | None => "" end.
Definition names (o : option string) : list string := match o with Some s => [s] | None => [] end.

(** The float [y] is [x] written with six digits and read again. *)
Definition by_six_digits (x y : f32) : Prop := exists q, closest_decimal (fvalue x) q /\ closest_float q y.

(** A tool that ran to its end: exit status 0 and the files it left. *)
Definition finished {A : Type} (r : res (A * fs)) : res (Z * fs) := do x <- r; Ok (0%Z, snd x).

(** A search without ground truth: exit status 0, the result files and a table that shows the
    recall 0 for the list sizes used; if no list size is [least] or more, nothing. *)
Definition searched (least : N) (Ls : list N) (d : fs) (r : res (option fs)) : res (Z * fs * list (N * f32)) :=
  do x <- r;
  match x with
  | Some d' => Ok (0%Z, d', map (fun L => (L, S754_zero false)) (filter (fun L => (least <=? L)%N) Ls))
  | None => Ok (0%Z, d, [])
  end.

(** The results of all queries fit a vector (2^61 elements): always so for query files of
    vectors that have elements, and less than 2^60 bytes. *)
Definition room_for {A : Type} (k : N) (queries : res (N * N * N * A)) : Prop :=
  forall nq dim adim rows, queries = Ok (nq, dim, adim, rows) -> (k * nq < 2 ^ 61)%N.

(** [b] is a truth file about [nq] queries with at least [k] neighbours each, whose distances
    (if it has any) are numbers. *)
Definition truth_for (h : nat -> N) (b : list N) (nq k : N) : Prop :=
  exists dim gold ds, load_truthset h (Some b) = Ok (nq, dim, gold, ds) /\ (k <= dim)%N /\
    match ds with Some l => forall x, In x l -> is_nan (f32_of_bits x) = false | None => True end.

(** A search with ground truth [b] ended with exit status 0 and the files [d'], and printed a
    table with, for each list size in [sizes], the recall that the tool calculate_recall
    computes from [b] and the result file. *)
Definition recall_shown (h : nat -> N) (b : list N) (prefix : string) (k : N) (sizes : list N) (d' : fs) (r : res (Z * fs * list (N * f32))) : Prop :=
  exists table, r = Ok (0%Z, d', table) /\ map fst table = sizes /\
    forall L v h', In (L, v) table -> recall_tool h h' (Some b) (d' (result_name prefix L)) k = Ok (Some v).
