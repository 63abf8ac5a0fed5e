(** * Model of the recall computation (src/recall_utils.cpp:23-83).

    unsigned and _u64 numbers are [N]; the pointer arguments are whole arrays, so that
    reading outside them is [UB].  A std::set is a list without duplicates. *)
From Coq Require Import NArith ZArith List Bool Floats.SpecFloat.
From Verif Require Import Base Float32.
Import ListNotations.
Local Open Scope N_scope.

Definition sub32 (a b : N) : N := (a + 4294967296 - b) mod 4294967296.

(** a[i], and the elements a[off] ... a[off + cnt - 1]. *)
Definition at_ {A : Type} (a : list A) (i : N) : res A := if i <? N.of_nat (length a) then rd a (N.to_nat i) else UB.
Definition range {A : Type} (a : list A) (off cnt : N) : res (list A) :=
  if off + cnt <=? N.of_nat (length a) then Ok (firstn (N.to_nat cnt) (skipn (N.to_nat off) a)) else UB.

Definition mem (x : N) (l : list N) : bool := existsb (N.eqb x) l.

(** set.insert of a range into an empty set. *)
Fixpoint dedup (l : list N) : list N :=
  match l with [] => [] | x :: t => if mem x t then dedup t else x :: dedup t end.

(** src/recall_utils.cpp:47-52 and 71-76 *)
Definition hits (gt res : list N) : nat := length (filter (fun v => mem v (dedup res)) (dedup gt)).

(** src/recall_utils.cpp:39-41; [fuel] is at least dim_gs - tb. *)
Fixpoint ties (fuel : nat) (dists : list f32) (row dim_gs last tb : N) : res N :=
  match fuel with
  | O => Ok tb
  | S f =>
      if tb <? dim_gs then
        do a <- at_ dists (row + tb);
        do b <- at_ dists (row + last);
        if feq a b then ties f dists row dim_gs last (tb + 1) else Ok tb
      else Ok tb
  end.

(** src/recall_utils.cpp:30-54: one query. *)
Definition recall_query (gold : list N) (dists : option (list f32)) (dim_gs : N) (results : list N) (dim_or recall_at i : N) : res nat :=
  do tb <- match dists with
           | None => Ok recall_at
           | Some d => let last := sub32 recall_at 1 in ties (N.to_nat dim_gs) d (dim_gs * i) dim_gs last last
           end;
  do gt <- range gold (dim_gs * i) tb;
  do rs <- range results (dim_or * i) recall_at;
  Ok (hits gt rs).

(** src/recall_utils.cpp:30-55: the hits of the queries i, i + 1, ... *)
Fixpoint recall_hits (gold : list N) (dists : option (list f32)) (dim_gs : N) (results : list N) (dim_or recall_at : N) (cnt : nat) (i : N)
  : res (list nat) :=
  match cnt with
  | O => Ok []
  | S c =>
      do h <- recall_query gold dists dim_gs results dim_or recall_at i;
      do t <- recall_hits gold dists dim_gs results dim_or recall_at c (i + 1);
      Ok (h :: t)
  end.

(** src/recall_utils.cpp:55-56 in double arithmetic, in the order written (the release
    flags allow the compiler other orders).  The sum of the hits is exact below 2^53. *)
Definition f64_of_N (x : N) : spec_float := binary_normalize 53 1024 (Z.of_N x) 0 false.
Definition f64_div (x y : spec_float) : spec_float := SFdiv 53 1024 x y.
Definition f64_mul (x y : spec_float) : spec_float := SFmul 53 1024 x y.
Definition recall_percent (total num_queries recall_at : N) : spec_float :=
  f64_mul (f64_div (f64_of_N total) (f64_of_N num_queries)) (f64_div (f64_of_N 100) (f64_of_N recall_at)).

(** src/recall_utils.cpp:59-81: per query the hits and the size of the ground truth
    set, whose quotient times 100 (100 for an empty set) is averaged. *)
Fixpoint range_hits (groundtruth results : list (list N)) (cnt i : nat) : res (list (nat * nat)) :=
  match cnt with
  | O => Ok []
  | S c =>
      do gt <- rd groundtruth i;
      do rs <- rd results i;
      do t <- range_hits groundtruth results c (S i);
      Ok ((hits gt rs, length (dedup gt)) :: t)
  end.
