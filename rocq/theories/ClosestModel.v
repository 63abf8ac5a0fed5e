(** * Closest centres: src/math_utils.cpp:59-196.

    Shared by the IVF index, Lloyd's iterations, product quantisation and
    sharding.  The distance matrix computed by BLAS (cblas_sgemm and cblas_snrm2)
    is an arbitrary function [dmat point centre]. *)
From Coq Require Import List Arith Bool.
From Verif Require Import Base Float32.
Import ListNotations.

(** src/math_utils.cpp:96-104: the loop over the centres for k = 1, from centre
    [j] on, [cnt] to go.  [slot] is the content of center_ids[i]: [None] if it was
    never written. *)
Fixpoint closest_one (row : nat -> f32) (j cnt : nat) (mn : f32) (slot : option nat) : option nat :=
  match cnt with
  | O => slot
  | S cnt' =>
      if flt (row j) mn then closest_one row (S j) cnt' (row j) (Some j)
      else closest_one row (S j) cnt' mn slot
  end.

(** src/math_utils.cpp:109-119 for k <> 1: all centres are pushed with their
    negated distance, k are popped.  [popf l] lists the elements pushed, in the
    order a std::priority_queue gives them back. *)
Definition closest_many (popf : list (nat * f32) -> list (nat * f32)) (row : nat -> f32) (nc k : nat) : list nat :=
  map fst (firstn k (popf (map (fun j => (j, fneg (row j))) (seq 0 nc)))).

(** Writing [ids] to consecutive slots. *)
Fixpoint write_ids (closest : list (option nat)) (off : nat) (ids : list nat) : res (list (option nat)) :=
  match ids with
  | [] => Ok closest
  | c :: rest => do closest' <- wr closest off (Some c); write_ids closest' (S off) rest
  end.

(** src/math_utils.cpp:93-121: rows i ... i + cnt - 1 of the block that starts at
    point [start].  Rows are independent (each writes its own slots). *)
Fixpoint closest_rows (popf : list (nat * f32) -> list (nat * f32)) (dmat : nat -> nat -> f32) (nc k : nat)
    (start i cnt : nat) (closest : list (option nat)) : res (list (option nat)) :=
  match cnt with
  | O => Ok closest
  | S cnt' =>
      do closest' <-
        (if k =? 1 then
           do s <- rd closest i;
           wr closest i (closest_one (dmat (start + i)) 0 nc FLT_MAX s)
         else write_ids closest (i * k) (closest_many popf (dmat (start + i)) nc k));
      closest_rows popf dmat nc k start (S i) cnt' closest'
  end.

(** src/math_utils.cpp:59-125 *)
Definition closest_in_block (popf : list (nat * f32) -> list (nat * f32)) (dmat : nat -> nat -> f32) (nc k : nat)
    (start npts : nat) (closest : list (option nat)) : res (list (option nat)) :=
  if nc <? k then Ok closest else closest_rows popf dmat nc k start 0 npts closest.

(** push_back on inverted_index[c]. *)
Definition push_list (inv : list (list nat)) (c j : nat) : res (list (list nat)) :=
  do l <- rd inv c; wr inv c (l ++ [j]).

(** src/math_utils.cpp:174-187: the copy loop of one block, its iterations (j, l)
    in the order [pairs].  Reading a slot that was never written is undefined.
    [inv] is [None] for a null inverted_index. *)
Fixpoint distribute (k start : nat) (pairs : list (nat * nat)) (closest : list (option nat))
    (ivf : list nat) (inv : option (list (list nat))) : res (list nat * option (list (list nat))) :=
  match pairs with
  | [] => Ok (ivf, inv)
  | (j, l) :: rest =>
      do s <- rd closest ((j - start) * k + l);
      do c <- match s with Some c => Ok c | None => UB end;
      do ivf' <- wr ivf (j * k + l) c;
      do inv' <- match inv with
                 | None => Ok None
                 | Some v => do v' <- push_list v c j; Ok (Some v')
                 end;
      distribute k start rest closest ivf' inv'
  end.

(** src/math_utils.cpp:165-188: the block loop; [orders b] is the order in which the
    parallel copy loop of block b runs. *)
Fixpoint closest_blocks (popf : list (nat * f32) -> list (nat * f32)) (dmat : nat -> nat -> f32) (nc k n bs : nat)
    (orders : nat -> list (nat * nat)) (b cnt : nat) (closest : list (option nat))
    (ivf : list nat) (inv : option (list (list nat))) : res (list nat * option (list (list nat))) :=
  match cnt with
  | O => Ok (ivf, inv)
  | S cnt' =>
      do closest' <- closest_in_block popf dmat nc k (b * bs) (min bs (n - b * bs)) closest;
      do r <- distribute k (b * bs) (orders b) closest' ivf inv;
      closest_blocks popf dmat nc k n bs orders (S b) cnt' closest' (fst r) (snd r)
  end.

(** src/math_utils.cpp:155-158; undefined (division by zero) without points. *)
Definition n_blocks (n bs : nat) : nat := if n mod bs =? 0 then n / bs else n / bs + 1.

(** src/math_utils.cpp:137-196 compute_closest_centers; [mbs] is MAX_BLOCK_SIZE
    (include/essentials.h:57).  [ivf] is the caller's result array. *)
Definition compute_closest (popf : list (nat * f32) -> list (nat * f32)) (mbs : nat) (dmat : nat -> nat -> f32)
    (n nc k : nat) (orders : nat -> list (nat * nat)) (ivf : list nat) (inv : option (list (list nat)))
  : res (list nat * option (list (list nat))) :=
  if nc <? k then Ok (ivf, inv)
  else
    let bs := min n mbs in
    if bs =? 0 then UB
    else closest_blocks popf dmat nc k n bs orders 0 (n_blocks n bs) (repeat None (bs * k)) ivf inv.
