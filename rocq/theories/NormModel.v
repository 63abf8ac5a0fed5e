(** * Preparing vectors for inner product search: include/utils.h:276-357 and
    tests/utils/vector_analysis.cpp.

    Floats are rounded after every operation except that a product and a sum may be
    contracted; the reciprocal and square root approximations -Ofast allows are not
    modelled. *)
From Coq Require Import NArith ZArith List Arith Bool Floats.SpecFloat.
From Verif Require Import Base Bytes Float32 FloatBits StreamModel BinModel ClosestModel ConvertModel FusedModel.
Import ListNotations.

(** The element type T. *)
Inductive ktype : Set := KFloat | KInt8 | KUint8.
Definition kwidth (k : ktype) : nat := match k with KFloat => 4 | _ => 1 end.

(** The value of an element as a float.  Squares of bytes are taken in int and converted;
    they are below 2^24, so that is the float product. *)
Definition kval (k : ktype) (x : N) : f32 :=
  match k with KFloat => f32_of_bits x | KInt8 => f32_of_Z (int8_val x) | KUint8 => f32_of_Z (Z.of_N x) end.

(** Assigning a float to an element of type T: the integer part, undefined if it does not
    fit. *)
Definition kstore (k : ktype) (x : f32) : res N :=
  match k with
  | KFloat => Ok (bits_of_f32 x)
  | KInt8 => int8_of_double x
  | KUint8 => match trunc x with Some z => if ((0 <=? z) && (z <=? 255))%Z then Ok (Z.to_N z) else UB | None => UB end
  end.

(** std::sqrt on float. *)
Definition fsqrt (x : f32) : f32 := SFsqrt prec emax x.

(** include/utils.h:326-329, vector_analysis.cpp:31-32, 55-56, 78-79: the sum of the
    squares, in the order [f] of the compiler. *)
Definition sum_sq (f : fred) (x : list f32) : res f32 := ip_fused f x x.

(** include/utils.h:330-331: max_norm > norm ? max_norm : norm. *)
Definition max_norm2 (norms : list f32) : f32 := fold_left (fun m x => if fgt m x then m else x) norms f32_zero.

(** include/utils.h:344-350, vector_analysis.cpp:90-95: the scaled vector and the extra
    coordinate. *)
Definition last_coord (M norm : f32) : f32 :=
  let res := fsub f32_one (fdiv norm (fmul M M)) in if fle res f32_zero then f32_zero else fsqrt res.
Definition prep_row (M norm : f32) (x : list f32) : list f32 := map (fun c => fdiv c M) x ++ [last_coord M norm].

(** The points of a block: rows of [d] elements of [w] bytes. *)
Definition rows_of (w d pts : nat) (buf : list N) : list (list N) := map (fun p => dec_all w d (skipn (p * d * w) buf)) (seq 0 pts).

(** include/utils.h:318-333: the norms, block by block; [buf] is in_block_data. *)
Fixpoint norm_blocks (k : ktype) (f : fred) (bs n d i cnt : nat) (buf : list N) (s : istream) : res (list f32 * list N * istream) :=
  match cnt with
  | O => Ok ([], buf, s)
  | S cnt' =>
      let pts := min (n - i * bs) bs in
      let '(got, s') := sread (N.of_nat (pts * d * kwidth k)) s in
      let buf' := overlay got buf in
      do ns <- map_res (fun r => sum_sq f (map (kval k) r)) (rows_of (kwidth k) d pts buf');
      do q <- norm_blocks k f bs n d (S i) cnt' buf' s';
      let '(ns', b', s'') := q in Ok (ns ++ ns', b', s'')
  end.

(** include/utils.h:338-354. *)
Fixpoint out_blocks (k : ktype) (M : f32) (norms : list f32) (bs n d i cnt : nat) (buf : list N) (s : istream) : res (list N) :=
  match cnt with
  | O => Ok []
  | S cnt' =>
      let pts := min (n - i * bs) bs in
      let '(got, s') := sread (N.of_nat (pts * d * kwidth k)) s in
      let buf' := overlay got buf in
      do rows <- map_res (fun pr => do nm <- rd norms (i * bs + fst pr); Ok (prep_row M nm (map (kval k) (snd pr))))
                   (combine (seq 0 pts) (rows_of (kwidth k) d pts buf'));
      do q <- out_blocks k M norms bs n d (S i) cnt' buf' s';
      Ok (enc_all 4 (map bits_of_f32 (concat rows)) ++ q)
  end.

(** include/utils.h:337, in_reader.seekg(8): the failbit of a short read stays set. *)
Definition seek8 (f : file) (s : istream) : istream :=
  match f with Some b => if s_good s then mkS (skipn 8 b) true false else s | None => s end.

(** include/utils.h:284-357: the file written and the return value.  [bs] is BLOCK_SIZE
    (100000).  The buffers are zeroed by make_unique.  Division by a block size of zero is
    undefined.  Header variables as in [load_bin]. *)
Definition prepare_base (k : ktype) (f : fred) (bs : nat) (g1 g2 : list N) (fl : file) : res (list N * f32) :=
  let '(npts, nd, s) := read_header g1 g2 (open_file fl) in
  let n := N.to_nat npts in let d := N.to_nat nd in
  let b := if n <=? bs then n else bs in
  if b =? 0 then UB
  else
    let cnt := n_blocks n b in
    do r <- norm_blocks k f b n d 0 cnt (repeat 0%N (b * d * kwidth k)) s;
    let '(norms, buf, s') := r in
    let M := fsqrt (max_norm2 norms) in
    do out <- out_blocks k M norms b n d 0 cnt buf (seek8 fl s');
    Ok (u32 npts ++ u32 ((nd + 1) mod 4294967296) ++ out, M).

(** ** tests/utils/vector_analysis.cpp *)

(** Line 80, max_norm = norms[i] > max_norm ? norms[i] : max_norm, in a parallel loop with
    no protection: each iteration loads max_norm and later stores it. *)
Inductive mstep : Set := MLoad (i : nat) | MStore (i : nat).
Fixpoint race_max (norms : list f32) (sched : list mstep) (m : f32) (regs : list (option f32)) : res f32 :=
  match sched with
  | [] => Ok m
  | MLoad i :: t => do regs' <- wr regs i (Some m); race_max norms t m regs'
  | MStore i :: t =>
      do o <- rd regs i; do x <- rd norms i;
      match o with Some r => race_max norms t (if fgt x r then x else r) regs | None => UB end
  end.

(** Lines 85-108: a row of the result, before the conversion to T. *)
Definition query_row (norm : f32) (x : list f32) : list f32 := map (fun c => fdiv c (fsqrt norm)) x ++ [f32_zero].

(** Lines 66-112, augment_base: the file written.  [sched] is the interleaving of the
    accesses to max_norm. *)
Definition augment_base (k : ktype) (f : fred) (sched : list mstep) (prep : bool) (g1 g2 : list N) (fl : file) : res (list N) :=
  do r <- load_bin (kwidth k) g1 g2 fl;
  let '(npts, nd, data) := r in
  let n := N.to_nat npts in let d := N.to_nat nd in
  let rows := map (fun i => map (kval k) (firstn d (skipn (i * d) data))) (seq 0 n) in
  do norms <- map_res (sum_sq f) rows;
  do m <- race_max norms sched f32_zero (repeat None n);
  let M := fsqrt m in
  do out <- map_res (fun p => map_res (kstore k) (if prep then prep_row M (fst p) (snd p) else query_row (fst p) (snd p))) (combine norms rows);
  save_bin (kwidth k) (concat out) npts (nd + 1).

(** Lines 46-64, normalize_base. *)
Definition normal_row (f : fred) (x : list f32) : res (list f32) :=
  do norm <- sum_sq f x; Ok (map (fun c => fdiv c (fsqrt norm)) x).
Definition normalize_base (k : ktype) (f : fred) (g1 g2 : list N) (fl : file) : res (list N) :=
  do r <- load_bin (kwidth k) g1 g2 fl;
  let '(npts, nd, data) := r in
  let n := N.to_nat npts in let d := N.to_nat nd in
  let rows := map (fun i => map (kval k) (firstn d (skipn (i * d) data))) (seq 0 n) in
  do out <- map_res (fun x => do y <- normal_row f x; map_res (kstore k) y) rows;
  save_bin (kwidth k) (concat out) npts nd.
