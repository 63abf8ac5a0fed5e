(** * Model of the buffered file reader and writer (include/cached_io.h). *)
From Coq Require Import NArith List Bool.
From Verif Require Import Bytes StreamModel.
Import ListNotations.
Local Open Scope N_scope.

(** uint64_t subtraction. *)
Definition sub64 (a b : N) : N := (a + 18446744073709551616 - b) mod 18446744073709551616.

(** What a read leaves in the caller's buffer ([None]: an uninitialised byte), an
    exception, or a copy from outside the cache. *)
Inductive rd_out : Type := Got (b : list (option N)) | Threw | Undef.

(** include/cached_io.h:84-94.  [c_total] is the number of bytes of the file on disk; it
    only serves to give the reader's position. *)
Record cin : Type := mkC { c_rd : istream; c_total : N; c_size : N; c_buf : list (option N); c_off : N; c_fsize : N }.

(** reader.tellg() as an unsigned number; -1 when the stream has failed. *)
Definition c_tell (s : istream) (total : N) : N :=
  if s_good s then total - N.of_nat (length (s_left s)) else 18446744073709551615.

Definition file_bytes (f : file) : N := match f with Some b => N.of_nat (length b) | None => 0 end.

(** include/cached_io.h:17-40, constructor and open on a fresh object.  A failing
    operator new is not modelled. *)
Definition copen (f : file) (cache : N) : cin :=
  let fsize := tell_end f in
  let size := N.min cache fsize in
  let (b, s) := sread size (open_file f) in
  mkC s (file_bytes f) size (map Some b ++ repeat None (N.to_nat size - length b)) 0 fsize.

(** memcpy from the cache. *)
Definition slice (buf : list (option N)) (off n : N) : option (list (option N)) :=
  if off + n <=? N.of_nat (length buf) then Some (firstn (N.to_nat n) (skipn (N.to_nat off) buf)) else None.

(** reader.read into memory of which the previous contents are [old]. *)
Definition fill (got : list N) (old : list (option N)) : list (option N) := map Some got ++ skipn (length got) old.

(** include/cached_io.h:45-82.  The caller's buffer is large enough and uninitialised. *)
Definition cread (n : N) (c : cin) : rd_out * cin :=
  let cached := sub64 (c_size c) (c_off c) in
  if n <=? cached then
    match slice (c_buf c) (c_off c) n with
    | Some b => (Got b, mkC (c_rd c) (c_total c) (c_size c) (c_buf c) (c_off c + n) (c_fsize c))
    | None => (Undef, c)
    end
  else if sub64 (c_fsize c) (c_tell (c_rd c) (c_total c)) <? sub64 n cached then (Threw, c)
  else
    match slice (c_buf c) (c_off c) cached with
    | Some b =>
        let (b2, s) := sread (sub64 n cached) (c_rd c) in
        let out := b ++ fill b2 (repeat None (N.to_nat (sub64 n cached))) in
        let left := sub64 (c_fsize c) (c_tell s (c_total c)) in
        if c_size c <=? left then
          let (b3, s') := sread (c_size c) s in
          (Got out, mkC s' (c_total c) (c_size c) (fill b3 (c_buf c)) 0 (c_fsize c))
        else (Got out, mkC s (c_total c) (c_size c) (c_buf c) (c_size c) (c_fsize c))
    | None => (Undef, c)
    end.

(** A sequence of reads, an exception being caught by the caller each time. *)
Fixpoint creads (ns : list N) (c : cin) : list rd_out * cin :=
  match ns with
  | [] => ([], c)
  | n :: t => let (o, c1) := cread n c in let (os, c2) := creads t c1 in (o :: os, c2)
  end.

(** include/cached_io.h:158-170.  [o_disk] is the file, [o_pos] the put position. *)
Record cout : Type := mkO { o_disk : list N; o_pos : nat; o_size : N; o_buf : list N; o_off : N; o_fsize : N }.

(** writer.write of some bytes at the put position. *)
Definition disk_write (d : list N) (pos : nat) (b : list N) : list N := firstn pos d ++ b ++ skipn (pos + length b) d.

(** memcpy into the cache; [None] if it does not fit. *)
Definition buf_write (buf : list N) (off : N) (b : list N) : option (list N) :=
  if off + N.of_nat (length b) <=? N.of_nat (length buf) then Some (disk_write buf (N.to_nat off) b) else None.

(** include/cached_io.h:100-108.  The cache starts with arbitrary bytes [g], shown as
    a list of that length. *)
Definition oopen (cache : N) (g : list N) : cout := mkO [] 0 cache g 0 0.

(** include/cached_io.h:145-151 *)
Definition oflush (c : cout) : cout :=
  let b := firstn (N.to_nat (o_off c)) (o_buf c) in
  mkO (disk_write (o_disk c) (o_pos c) b) (o_pos c + length b) (o_size c) (repeat 0 (N.to_nat (o_size c))) 0 (o_fsize c + o_off c).

(** include/cached_io.h:125-143; [None] if memcpy writes past the cache. *)
Definition owrite (b : list N) (c : cout) : option cout :=
  if N.of_nat (length b) <=? sub64 (o_size c) (o_off c) then
    match buf_write (o_buf c) (o_off c) b with
    | Some buf => Some (mkO (o_disk c) (o_pos c) (o_size c) buf (o_off c + N.of_nat (length b)) (o_fsize c))
    | None => None
    end
  else
    let c1 := oflush c in
    Some (mkO (disk_write (o_disk c1) (o_pos c1) b) (o_pos c1 + length b) (o_size c) (o_buf c1) 0 (o_fsize c1 + N.of_nat (length b))).

(** include/cached_io.h:153-156 *)
Definition oreset (c : cout) : cout :=
  let c1 := oflush c in mkO (o_disk c1) 0 (o_size c1) (o_buf c1) (o_off c1) (o_fsize c1).

Inductive oop : Type := OWrite (b : list N) | OFlush | OReset.
Definition ostep (o : oop) (c : cout) : option cout :=
  match o with OWrite b => owrite b c | OFlush => Some (oflush c) | OReset => Some (oreset c) end.
Fixpoint osteps (os : list oop) (c : cout) : option cout :=
  match os with [] => Some c | o :: t => match ostep o c with Some c1 => osteps t c1 | None => None end end.

(** include/cached_io.h:110-119: what is on disk after the destructor. *)
Definition oclose (c : cout) : list N := o_disk (if 0 <? o_off c then oflush c else c).
