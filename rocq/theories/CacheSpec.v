(** * Plain sequential reading and writing. *)
From Coq Require Import NArith List Bool.
From Verif Require Import CacheModel.
Import ListNotations.
Local Open Scope N_scope.

(** Reading [ns] bytes in turn from what is left of a file: a read of more than is left
    throws and leaves the position where it was. *)
Fixpoint plain_reads (left : list N) (ns : list N) : list rd_out :=
  match ns with
  | [] => []
  | n :: t =>
      if N.of_nat (length left) <? n then Threw :: plain_reads left t
      else Got (map Some (firstn (N.to_nat n) left)) :: plain_reads (skipn (N.to_nat n) left) t
  end.

(** Writing to an unbuffered file at a position. *)
Fixpoint plain_writes (os : list oop) (d : list N) (pos : nat) : list N :=
  match os with
  | [] => d
  | OWrite b :: t => plain_writes t (firstn pos d ++ b ++ skipn (pos + length b) d) (pos + length b)
  | OFlush :: t => plain_writes t d pos
  | OReset :: t => plain_writes t d 0
  end.

(** The bytes given to write, in order, and how many. *)
Fixpoint written (os : list oop) : list N :=
  match os with [] => [] | OWrite b :: t => b ++ written t | _ :: t => written t end.
Definition no_reset (os : list oop) : Prop := ~ In OReset os.

(** No write is as large as a 64-bit number can count. *)
Definition sizes_ok (cache : N) (os : list oop) : Prop :=
  cache < 18446744073709551616 /\ forall b, In (OWrite b) os -> N.of_nat (length b) < 18446744073709551616.
