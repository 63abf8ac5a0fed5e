(** * Vector files: include/utils.h:42-260.

    Element type T: [w] bytes per element, an element is the number its bytes encode
    (bit pattern).  Sizes are _u64: products and sums are taken modulo 2^64. *)
From Coq Require Import NArith List Bool.
From Verif Require Import Base Bytes StreamModel.
Import ListNotations.
Local Open Scope N_scope.

Definition wrap64 (x : N) : N := x mod 18446744073709551616.

(** include/utils.h:123-139 save_bin; [data] is the array behind the pointer.  The int
    casts keep the low 32 bits. *)
Definition save_bin (w : nat) (data : list N) (npts ndims : N) : res (list N) :=
  if N.of_nat (length data) <? npts * ndims then UB
  else Ok (u32 npts ++ u32 ndims ++ enc_all w (firstn (N.to_nat (npts * ndims)) data)).

(** Two ints read from the stream into variables holding the bytes [g1], [g2]. *)
Definition read_header (g1 g2 : list N) (s : istream) : N * N * istream :=
  let (a, s1) := sread 4 s in
  let (b, s2) := sread 4 s1 in
  (dec (overlay a g1), dec (overlay b g2), s2).

(** include/utils.h:72-112 load_bin: [g1], [g2] are the bytes the uninitialised
    npts_i32 and dim_i32 happen to hold.  new T[c] throws when c elements are 2^63
    bytes or more. *)
Definition load_bin (w : nat) (g1 g2 : list N) (f : file) : res (N * N * list N) :=
  let '(npts, dim, s) := read_header g1 g2 (open_file f) in
  let size := npts * dim * N.of_nat w in
  if tell_end f =? wrap64 (size + 8) then
    if 9223372036854775808 <=? size then Throw
    else
      let (got, _) := sread size s in
      if N.of_nat (length got) =? size then Ok (npts, dim, dec_all w (N.to_nat (npts * dim)) got)
      else UB
  else Throw.

(** include/essentials.h:42-43 ROUND_UP(X, Y) *)
Definition round_up (x y : N) : N := (x / y + (if x mod y =? 0 then 0 else 1)) * y.

(** include/utils.h:242-245: [cnt] rows starting at row [i]; a memory byte is [None]
    while uninitialised.  A row that is written past the allocation is undefined. *)
Fixpoint fill_rows (w : nat) (dim rdim alloc : N) (cnt : nat) (i : N) (s : istream) : res (list (list (option N))) :=
  match cnt with
  | O => Ok []
  | S cnt' =>
      let (got, s') := sread (dim * N.of_nat w) s in
      let wn := N.of_nat w in
      if ((0 <? N.of_nat (length got)) && (alloc <? i * rdim * wn + N.of_nat (length got)))
         || ((dim <? rdim) && (alloc <? (i + 1) * rdim * wn)) then UB
      else
        do rest <- fill_rows w dim rdim alloc cnt' (i + 1) s';
        Ok ((map Some got ++ repeat None (N.to_nat (dim * wn - N.of_nat (length got))) ++
             repeat (Some 0) (N.to_nat ((rdim - dim) * wn))) :: rest)
  end.

(** include/utils.h:218-260 load_aligned_bin: points, dimension, padded dimension and
    the memory, row by row. *)
Definition load_aligned_bin (w : nat) (g1 g2 : list N) (f : file) : res (N * N * N * list (list (option N))) :=
  let '(npts, dim, s) := read_header g1 g2 (open_file f) in
  if tell_end f =? wrap64 (npts * dim * N.of_nat w + 8) then
    let rdim := round_up dim 8 in
    do rows <- fill_rows w dim rdim (wrap64 (npts * rdim * N.of_nat w)) (N.to_nat npts) 0 s;
    Ok (npts, dim, rdim, rows)
  else Throw.

(** Writing memory that was never initialised is undefined. *)
Fixpoint initialised (l : list (option N)) : res (list N) :=
  match l with
  | [] => Ok []
  | Some x :: t => do r <- initialised t; Ok (x :: r)
  | None :: _ => UB
  end.

Fixpoint write_rows (w : nat) (dim : N) (rows : list (list (option N))) : res (list N) :=
  match rows with
  | [] => Ok []
  | r :: t =>
      do a <- initialised (firstn (N.to_nat (dim * N.of_nat w)) r);
      do b <- write_rows w dim t;
      Ok (a ++ b)
  end.

(** include/utils.h:141-169 save_data_in_original_dimensions of an array of [rows] of
    aligned_dim elements; [None]: nothing is written. *)
Definition save_orig (w : nat) (rows : list (list (option N))) (aligned_dim original_dim : N) : res (option (list N)) :=
  if aligned_dim <? original_dim then Ok None
  else
    do b <- write_rows w original_dim rows;
    Ok (Some (u32 (N.of_nat (length rows)) ++ u32 original_dim ++ b)).

Fixpoint rd_all {A : Type} (a : list A) (ids : list nat) : res (list A) :=
  match ids with
  | [] => Ok []
  | i :: t => do x <- rd a i; do r <- rd_all a t; Ok (x :: r)
  end.

(** include/utils.h:171-214 save_aligned_data_subset_in_orig_dimensions: an invalid id
    list is reported and then written all the same. *)
Definition save_subset (w : nat) (rows : list (list (option N))) (ndims aligned_dim : N) (ids : list nat) : res (option (list N)) :=
  if aligned_dim <? ndims then Ok None
  else
    do sel <- rd_all rows ids;
    do b <- write_rows w ndims sel;
    Ok (Some (u32 (N.of_nat (length ids)) ++ u32 ndims ++ b)).

(** include/utils.h:43-56 get_bin_metadata: the ints are sign-extended to _u64. *)
Definition sign_extend (x : N) : N := if x <? 2147483648 then x else x + 18446744069414584320.
Definition get_bin_metadata (g1 g2 : list N) (f : file) : N * N :=
  let '(a, b, _) := read_header g1 g2 (open_file f) in (sign_extend a, sign_extend b).
