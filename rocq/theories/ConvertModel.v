(** * File converters (tests/utils, include/utils.h:265-274). *)
From Coq Require Import NArith ZArith SpecFloat List Arith Bool.
From Verif Require Import Base Bytes Float32 StreamModel BinModel ClosestModel LloydModel.
Import ListNotations.

(** ** fvecs and ivecs: tests/utils/fvecs_to_bin.cpp, ivecs_to_bin.cpp (the same code for
    float and uint32, which are copied as 4-byte patterns). *)

(** Lines 11-12: the memcpy of row [i]; [buf] is what the read filled, the rest of the
    buffer is uninitialised or stale. *)
Definition copy_row (nd : nat) (buf : list N) (i : nat) : res (list N) :=
  let o := 4 * (i * (nd + 1) + 1) in
  if o + 4 * nd <=? length buf then Ok (firstn (4 * nd) (skipn o buf)) else UB.

Fixpoint copy_rows (nd : nat) (buf : list N) (i cnt : nat) : res (list N) :=
  match cnt with
  | O => Ok []
  | S cnt' => do r <- copy_row nd buf i; do t <- copy_rows nd buf (S i) cnt'; Ok (r ++ t)
  end.

(** Lines 7-16, block_convert: the bytes written and the stream. *)
Definition vecs_block (npts nd : nat) (s : istream) : res (list N * istream) :=
  let (got, s') := sread (N.of_nat (npts * (nd * 4 + 4))) s in
  do out <- copy_rows nd got 0 npts;
  Ok (out, s').

(** Lines 46-50. *)
Fixpoint vecs_blocks (bs npts nd i cnt : nat) (s : istream) : res (list N) :=
  match cnt with
  | O => Ok []
  | S cnt' =>
      do r <- vecs_block (min (npts - i * bs) bs) nd s;
      do t <- vecs_blocks bs npts nd (S i) cnt' (snd r);
      Ok (fst r ++ t)
  end.

(** Lines 18-56, main.  [bs] is blk_size (131072).  A dimension that could not be read
    is an uninitialised variable.  Allocation failure is not modelled. *)
Definition vecs_to_bin (bs : nat) (f : file) : res (list N) :=
  let (h, _) := sread 4 (open_file f) in
  if length h <? 4 then UB
  else
    let nd := N.to_nat (dec h) in
    let npts := N.to_nat (tell_end f) / ((nd + 1) * 4) in
    do out <- vecs_blocks bs npts nd 0 (n_blocks npts bs) (open_file f);
    Ok (u32 (N.of_nat npts) ++ u32 (N.of_nat nd) ++ out).

(** ** Element types: include/utils.h:265-274 convert_types.  [order] is the order in
    which the parallel loop runs over the rows; the destination starts uninitialised. *)
Fixpoint conv_elems (conv : N -> N) (o cnt : nat) (src : list N) (dst : list (option N)) : res (list (option N)) :=
  match cnt with
  | O => Ok dst
  | S cnt' => do x <- rd src o; do dst' <- wr dst o (Some (conv x)); conv_elems conv (S o) cnt' src dst'
  end.

Fixpoint conv_rows (conv : N -> N) (dim : nat) (order : list nat) (src : list N) (dst : list (option N)) : res (list (option N)) :=
  match order with
  | [] => Ok dst
  | i :: t => do dst' <- conv_elems conv (i * dim) dim src dst; conv_rows conv dim t src dst'
  end.

(** tests/utils/int8_to_float.cpp:7-20, uint8_to_float.cpp:7-20, uint32_to_uint8.cpp:7-20:
    load_bin, convert_types, save_bin.  [w1], [w2] are the element sizes. *)
Definition convert_file (w1 w2 : nat) (conv : N -> N) (g1 g2 : list N) (order : list nat) (f : file) : res (list N) :=
  do r <- load_bin w1 g1 g2 f;
  let '(npts, nd, data) := r in
  do out <- conv_rows conv (N.to_nat nd) order data (repeat None (N.to_nat (npts * nd)));
  do mem <- initialised out;
  save_bin w2 mem npts nd.

(** The 32 bits of an integer of at most 24 binary digits as a float. *)
Definition f32_bits_of_Z (z : Z) : N :=
  match f32_of_Z z with
  | S754_finite s m e => (if s then 2147483648 else 0) + Z.to_N (e + 150) * 8388608 + (Npos m - 8388608)
  | _ => 0
  end%N.

(** (float) of an int8_t and of a uint8_t given by its byte; (uint8_t) of a uint32_t. *)
Definition int8_val (b : N) : Z := if (b <? 128)%N then Z.of_N b else (Z.of_N b - 256)%Z.
Definition int8_to_float (b : N) : N := f32_bits_of_Z (int8_val b).
Definition uint8_to_float (b : N) : N := f32_bits_of_Z (Z.of_N b).
Definition uint32_to_uint8 (x : N) : N := (x mod 256)%N.

(** ** tests/utils/float_bin_to_int8.cpp *)

(** The conversion of a double to int8_t: the integer part, undefined if it does not fit. *)
Definition trunc (x : spec_float) : option Z :=
  match x with
  | S754_zero _ => Some 0%Z
  | S754_finite s m e => Some (cond_Zopp s (if (0 <=? e)%Z then (Zpos m * 2 ^ e)%Z else (Zpos m / 2 ^ (- e))%Z))
  | _ => None
  end.
Definition int8_of_double (x : spec_float) : res N :=
  match trunc x with
  | Some z => if ((-128 <=? z) && (z <=? 127))%Z then Ok (Z.to_N (z mod 256)) else UB
  | None => UB
  end.

(** Line 15: (int8_t) ((x - bias) * (256.0 / scale)), the difference in float, the rest
    in double. *)
Definition quantise (bias scale x : f32) : res N :=
  int8_of_double (f64_mul (f64_of_f32 (fsub x bias)) (f64_div (f64_of_nat 256) (f64_of_f32 scale))).

(** Lines 7-19, block_convert; a short read leaves old values in the buffer. *)
Fixpoint map_res {A B : Type} (f : A -> res B) (l : list A) : res (list B) :=
  match l with [] => Ok [] | x :: t => do y <- f x; do r <- map_res f t; Ok (y :: r) end.
Definition quant_block (bias scale : f32) (npts nd : nat) (s : istream) : res (list N * istream) :=
  let (got, s') := sread (N.of_nat (npts * nd * 4)) s in
  if length got <? npts * nd * 4 then UB
  else do out <- map_res (fun b => quantise bias scale (f32_of_bits b)) (dec_all 4 (npts * nd) got); Ok (out, s').

Fixpoint quant_blocks (bias scale : f32) (bs npts nd i cnt : nat) (s : istream) : res (list N) :=
  match cnt with
  | O => Ok []
  | S cnt' =>
      do r <- quant_block bias scale (min (npts - i * bs) bs) nd s;
      do t <- quant_blocks bias scale bs npts nd (S i) cnt' (snd r);
      Ok (fst r ++ t)
  end.

(** Lines 21-63, main; header variables as in [load_bin].  atof is not modelled. *)
Definition float_bin_to_int8 (bias scale : f32) (bs : nat) (g1 g2 : list N) (f : file) : res (list N) :=
  let '(npts, nd, s) := read_header g1 g2 (open_file f) in
  do out <- quant_blocks bias scale bs (N.to_nat npts) (N.to_nat nd) 0 (n_blocks (N.to_nat npts) bs) s;
  Ok (u32 npts ++ u32 nd ++ out).
