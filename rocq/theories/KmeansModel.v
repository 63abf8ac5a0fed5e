(** * Lloyd's iterations on the distances that the matrix products give (src/math_utils.cpp:230-345). *)
From Coq Require Import List Arith Bool.
From Verif Require Import Base Float32 ClosestModel PqModel LloydModel BlasModel.
Import ListNotations.

(** src/math_utils.cpp:230-294 lloyds_iter on a table of distances; [LloydModel.lloyd_iter] is this with
    [centre_dist cdist centers]. *)
Definition lloyd_step (popf : list (nat * f32) -> list (nat * f32)) (mbs csz : nat) (dm : nat -> nat -> f32) (rdist : list f32 -> list f32 -> f32)
    (n dim nc : nat) (data : list (list f32)) (orders : nat -> list (nat * nat)) (assign : list nat) : res lloyd :=
  do r <- compute_closest popf mbs dm n nc 1 orders assign (Some (repeat [] nc));
  match snd r with
  | None => UB
  | Some docs =>
      do centers' <- collect (new_center dim data) docs;
      do res <- residual_from rdist csz n data centers' (fst r) 0 (div_round_up n csz) f32_zero;
      Ok (mkLl (fst r) docs centers' res)
  end.

(** The same with the table of src/math_utils.cpp:69-222; [ws] are the ways of its products. *)
Definition lloyd_iter_on (nrm2 : list f32 -> f32) (ws : nat -> nat -> nat -> way) (popf : list (nat * f32) -> list (nat * f32)) (mbs csz : nat) (rdist : list f32 -> list f32 -> f32)
    (n dim nc : nat) (data : list (list f32)) (orders : nat -> list (nat * nat)) (centers : list (list f32)) (assign : list nat) : res lloyd :=
  do dm <- closest_matrix nrm2 ws mbs dim n nc (concat data) (concat centers);
  lloyd_step popf mbs csz dm rdist n dim nc data orders assign.

(** src/math_utils.cpp:324-338; the products of every iteration may add in their own ways. *)
Fixpoint lloyd_loop_on (nrm2 : list f32 -> f32) (ws : nat -> nat -> nat -> nat -> way) (popf : list (nat * f32) -> list (nat * f32)) (mbs csz : nat) (rdist : list f32 -> list f32 -> f32)
    (n dim nc : nat) (data : list (list f32)) (orders : nat -> nat -> list (nat * nat)) (i cnt : nat) (st : lloyd) : res lloyd :=
  match cnt with
  | O => Ok st
  | S cnt' =>
      do st' <- lloyd_iter_on nrm2 (ws i) popf mbs csz rdist n dim nc data (orders i) (ll_centers st) (ll_assign st);
      if lloyd_stop i (ll_res st) (ll_res st') then Ok st'
      else lloyd_loop_on nrm2 ws popf mbs csz rdist n dim nc data orders (S i) cnt' st'
  end.

(** src/math_utils.cpp:303-345 run_lloyds. *)
Definition run_lloyds_on (nrm2 : list f32 -> f32) (ws : nat -> nat -> nat -> nat -> way) (popf : list (nat * f32) -> list (nat * f32)) (mbs csz : nat) (rdist : list f32 -> list f32 -> f32)
    (n dim nc max_reps : nat) (data : list (list f32)) (orders : nat -> nat -> list (nat * nat)) (centers : list (list f32)) (assign : list nat) (docs : list (list nat)) : res lloyd :=
  lloyd_loop_on nrm2 ws popf mbs csz rdist n dim nc data orders 0 max_reps (mkLl assign docs centers FLT_MAX).
