(** * Command lines of the utility tools as their usage messages describe them. *)
From Coq Require Import NArith ZArith String List Floats.SpecFloat.
From Verif Require Import Base Float32 TsvModel NormModel IndexFileModel.
Import ListNotations.
Local Open Scope string_scope.

(** The tool ended with exit status 0 and left, apart from what was there, the file [dst]. *)
Definition writes (d : fs) (dst : string) (r : res (list N)) : res (Z * fs) := do b <- r; Ok (0%Z, fs_set d dst (Some b)).

(** The tool ended with exit status 0 and these files. *)
Definition leaves (r : res fs) : res (Z * fs) := do d <- r; Ok (0%Z, d).

(** The words for the two metrics of compute_groundtruth. *)
Definition mips_word (mips : bool) : string := if mips then "mips" else "l2".

(** How the text converters treat the elements of a type. *)
Definition text_type (kt : ktype) : elem_type := match kt with KFloat => Float | KInt8 | KUint8 => Byte end.

(** The options of vector_analysis. *)
Inductive analysis : Type := Norms | MipBase | MipQuery | Unit.
Definition analysis_number (a : analysis) : N := match a with Norms => 1 | MipBase => 2 | MipQuery => 3 | Unit => 4 end.

(** None of the three types. *)
Definition no_type (s : string) : Prop := s <> "float" /\ s <> "int8" /\ s <> "uint8".

(** The vectors of a file: of one length, of elements that fit their width. *)
Definition file_vectors (w dim : nat) (rows : list (list N)) : Prop :=
  (N.of_nat (length rows) < 2 ^ 31)%N /\ (N.of_nat dim < 2 ^ 32)%N /\ forall r, In r rows -> length r = dim /\ forall x, In x r -> (x < 256 ^ N.of_nat w)%N.

(** The name begins with these characters. *)
Definition begins (start name : string) : Prop := exists rest, name = start ++ rest.

(** What was in a file is still there; a file that was not there is not there. *)
Definition kept (d d' : fs) (name : string) : Prop := d' name = d name.
