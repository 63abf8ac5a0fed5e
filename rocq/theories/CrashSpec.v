(** * Vocabulary for interrupted saves. *)
From Coq Require Import NArith String List.
From Verif Require Import Base Bytes IndexFileModel GraphFileSpec CrashModel.
Import ListNotations.

(** What a file being written can hold: its first bytes; and for a sized file its first
    bytes with zeros in place of the size, or all of it with the size half written. *)
Definition partial (s : step) (c : list N) : Prop :=
  match s with
  | Write _ b => exists k, c = firstn k b
  | WriteSized _ b =>
      (exists k, c = firstn k (repeat 0%N 8 ++ skipn 8 b)) \/
      (exists j, j <= 8 /\ c = firstn j b ++ skipn j (repeat 0%N 8) ++ skipn 8 b)
  | Remove _ => False
  end.

(** [interrupted ws d d']: starting from the files [d], the process that was to do the
    operations [ws] has stopped, and the files are now [d']. *)
Inductive interrupted : list step -> fs -> fs -> Prop :=
| stopped_before : forall ws d, interrupted ws d d
| stopped_within : forall s ws d c, partial s c -> interrupted (s :: ws) d (fs_set d (target s) (Some c))
| stopped_later : forall s ws d d', interrupted ws (run_step s d) d' -> interrupted (s :: ws) d d'.

(** The lists agree, except that of the last one only the first [p] bytes of its ids are
    there, the others being zero. *)
Definition cut_tail (lists lists' : list (list N)) : Prop :=
  exists pre l p, lists = pre ++ [l] /\ lists' = pre ++ [zero_fill p l].
