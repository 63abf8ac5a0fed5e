(** * Files and std::ifstream.

    What the model keeps of an input stream: the bytes not yet read, and whether the
    stream is good and at end of file.  Reading is std::istream::read, writing is
    always to the end of a fresh std::ofstream (a byte list). *)
From Coq Require Import NArith List.
From Verif Require Import Bytes.
Import ListNotations.
Local Open Scope N_scope.

Definition file := option (list N).

Record istream : Type := mkS { s_left : list N; s_good : bool; s_eof : bool }.

(** Opening a file that does not exist sets failbit, not eofbit. *)
Definition open_file (f : file) : istream :=
  match f with
  | Some b => mkS b true false
  | None => mkS [] false false
  end.

(** in.read(buf, k): the bytes stored at the start of buf, and the new stream.  Past
    the end the bytes available are stored and eofbit and failbit are set; a stream
    that is not good stores nothing. *)
Definition sread (k : N) (s : istream) : list N * istream :=
  if s_good s then
    if k <=? N.of_nat (length (s_left s)) then
      (firstn (N.to_nat k) (s_left s), mkS (skipn (N.to_nat k) (s_left s)) true false)
    else (s_left s, mkS [] false true)
  else ([], s).

(** A variable of which the first bytes have been overwritten. *)
Definition overlay (got old : list N) : list N := got ++ skipn (length got) old.

(** ios::ate and tellg(); -1 as uint64_t when the file does not exist. *)
Definition tell_end (f : file) : N :=
  match f with Some b => N.of_nat (length b) | None => 18446744073709551615 end.
