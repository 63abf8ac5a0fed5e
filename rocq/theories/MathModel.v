(** * Residuals, rotations and the memory budget: process_residuals and rotate_data of
    src/math_utils.cpp, get_memory_budget of src/recall_utils.cpp. *)
From Coq Require Import ZArith String List Arith Bool Floats.SpecFloat.
From Verif Require Import Base Float32 FusedModel BlasModel.
Import ListNotations.

(** src/math_utils.cpp:210-218: one cell, read and written in place. *)
Definition residual_cell (dim : nat) (centers : list f32) (ids : list nat) (sub : bool) (i d : nat) (data : list f32) : res (list f32) :=
  do x <- rd data (i * dim + d);
  do id <- rd ids i;
  do c <- rd centers (id * dim + d);
  wr data (i * dim + d) (if sub then fsub x c else fadd x c).
Fixpoint residual_row (dim : nat) (centers : list f32) (ids : list nat) (sub : bool) (i d cnt : nat) (data : list f32) : res (list f32) :=
  match cnt with
  | O => Ok data
  | S cnt' => do data' <- residual_cell dim centers ids sub i d data; residual_row dim centers ids sub i (S d) cnt' data'
  end.

(** src/math_utils.cpp:201-220 process_residuals: a parallel loop over the points; [order] is the
    order in which they come (rows share no cell).  Products of indices are taken not to overflow 64 bits. *)
Fixpoint process_residuals (dim : nat) (centers : list f32) (ids : list nat) (sub : bool) (order : list nat) (data : list f32) : res (list f32) :=
  match order with
  | [] => Ok data
  | i :: rest => do data' <- residual_row dim centers ids sub i 0 dim data; process_residuals dim centers ids sub rest data'
  end.

(** src/math_utils.cpp:33-48 rotate_data, for sizes that MKL_INT holds. *)
Definition rotate_data (ws : nat -> way) (data : list f32) (n dim : nat) (rot : list f32) (transpose : bool) : res (list f32) :=
  sgemm ws RowMajor false transpose n dim dim f32_one data dim rot dim false [].

(** include/recall_utils.h:38-39: 0.25 and 1. *)
Definition cached_gb : spec_float := S754_finite false 4503599627370496 (-54).
Definition threshold_gb : spec_float := S754_finite false 4503599627370496 (-52).
Definition kilo : spec_float := S754_finite false 4503599627370496 (-42).

(** src/recall_utils.cpp:12-21 get_memory_budget, in doubles. *)
Definition get_memory_budget (atof : string -> spec_float) (s : string) : spec_float :=
  let m := atof s in
  let limit := if SFltb threshold_gb (SFsub 53 1024 m cached_gb) then SFsub 53 1024 m cached_gb else m in
  SFmul 53 1024 (SFmul 53 1024 (SFmul 53 1024 limit kilo) kilo) kilo.
