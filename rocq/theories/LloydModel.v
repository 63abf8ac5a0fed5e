(** * Lloyd's iterations and the choice of first centres (src/math_utils.cpp:225-455).

    The points are the rows of a matrix; the entries of the distance matrix of
    math_utils::compute_closest_centers are an arbitrary function of the point and the
    centre. *)
From Coq Require Import ZArith NArith List Arith Bool Floats.SpecFloat.
From Verif Require Import Base Float32 ClosestModel PqModel.
Import ListNotations.

(** The type double: conversions from and to float, +, /. *)
Definition f64_of_f32 (x : f32) : spec_float :=
  match x with S754_finite s m e => binary_normalize 53 1024 (cond_Zopp s (Zpos m)) e s | _ => x end.
Definition f32_of_f64 (x : spec_float) : f32 :=
  match x with S754_finite s m e => binary_normalize prec emax (cond_Zopp s (Zpos m)) e s | _ => x end.
Definition f64_add (x y : spec_float) : spec_float := SFadd 53 1024 x y.
Definition f64_mul (x y : spec_float) : spec_float := SFmul 53 1024 x y.
Definition f64_div (x y : spec_float) : spec_float := SFdiv 53 1024 x y.
Definition f64_of_nat (n : nat) : spec_float := binary_normalize 53 1024 (Z.of_nat n) 0 false.
Definition f64_zero : spec_float := S754_zero false.

(** The distance of point [p] to centre [c]; there are no other entries. *)
Definition centre_dist (cdist : nat -> list f32 -> f32) (centers : list (list f32)) (p c : nat) : f32 :=
  match nth_error centers c with Some y => cdist p y | None => f32_zero end.

(** src/math_utils.cpp:260-265: adding the coordinates of the points of a cluster. *)
Fixpoint add_docs (dim : nat) (data : list (list f32)) (docs : list nat) (sum : list spec_float) : res (list spec_float) :=
  match docs with
  | [] => Ok sum
  | p :: t =>
      do x <- rd data p;
      do sum' <- collect (fun j => do s <- rd sum j; do v <- rd x j; Ok (f64_add s (f64_of_f32 v))) (seq 0 dim);
      add_docs dim data t sum'
  end.

(** src/math_utils.cpp:253-272: the new centre of one cluster; the centres were set to
    zero before (line 251). *)
Definition new_center (dim : nat) (data : list (list f32)) (docs : list nat) : res (list f32) :=
  do sum <- add_docs dim data docs (repeat f64_zero dim);
  if 0 <? length docs then collect (fun i => do s <- rd sum i; Ok (f32_of_f64 (f64_div s (f64_of_nat (length docs))))) (seq 0 dim)
  else Ok (repeat f32_zero dim).

(** src/math_utils.cpp:282-287: the partial sum of one chunk of points, from point [d] on. *)
Fixpoint chunk_residual (rdist : list f32 -> list f32 -> f32) (data centers : list (list f32)) (assign : list nat) (d cnt : nat) (r : f32) : res f32 :=
  match cnt with
  | O => Ok r
  | S cnt' =>
      do x <- rd data d;
      do c <- rd assign d;
      do y <- rd centers c;
      chunk_residual rdist data centers assign (S d) cnt' (fadd r (rdist x y))
  end.

(** src/math_utils.cpp:274-291: chunks of [csz] points; [rdist] is calc_distance. *)
Fixpoint residual_from (rdist : list f32 -> list f32 -> f32) (csz n : nat) (data centers : list (list f32)) (assign : list nat) (chunk cnt : nat) (r : f32) : res f32 :=
  match cnt with
  | O => Ok r
  | S cnt' =>
      do s <- chunk_residual rdist data centers assign (chunk * csz) (min csz (n - chunk * csz)) f32_zero;
      residual_from rdist csz n data centers assign (S chunk) cnt' (fadd r s)
  end.

(** What lloyds_iter leaves behind: closest_center, closest_docs, centers, and the
    residual it returns. *)
Record lloyd : Type := mkLl { ll_assign : list nat; ll_docs : list (list nat); ll_centers : list (list f32); ll_res : f32 }.

(** src/math_utils.cpp:230-294 lloyds_iter, with both output arrays given.  closest_docs
    is cleared first; [assign] is what closest_center holds before.  The parallel loop
    over the centres writes different centres, so its order does not matter. *)
Definition lloyd_iter (popf : list (nat * f32) -> list (nat * f32)) (mbs csz : nat) (cdist : nat -> list f32 -> f32) (rdist : list f32 -> list f32 -> f32)
    (n dim nc : nat) (data : list (list f32)) (orders : nat -> list (nat * nat)) (centers : list (list f32)) (assign : list nat) : res lloyd :=
  do r <- compute_closest popf mbs (centre_dist cdist centers) n nc 1 orders assign (Some (repeat [] nc));
  match snd r with
  | None => UB
  | Some docs =>
      do centers' <- collect (new_center dim data) docs;
      do res <- residual_from rdist csz n data centers' (fst r) 0 (div_round_up n csz) f32_zero;
      Ok (mkLl (fst r) docs centers' res)
  end.

(** std::numeric_limits<float>::epsilon() and the constant 0.00001 (a double). *)
Definition FLT_EPS : f32 := S754_finite false 8388608 (-46).
Definition c_1em5 : spec_float := S754_finite false 5902958103587057 (-69).

(** src/math_utils.cpp:332-337: the test for early termination after iteration [i]. *)
Definition lloyd_stop (i : nat) (old new : f32) : bool :=
  (negb (i =? 0) && SFltb (f64_of_f32 (fdiv (fsub old new) new)) c_1em5) || flt new FLT_EPS.

(** src/math_utils.cpp:324-338: iterations [i] on, [cnt] to go.  [st] holds the arrays
    and the last residual. *)
Fixpoint lloyd_loop (popf : list (nat * f32) -> list (nat * f32)) (mbs csz : nat) (cdist : nat -> list f32 -> f32) (rdist : list f32 -> list f32 -> f32)
    (n dim nc : nat) (data : list (list f32)) (orders : nat -> nat -> list (nat * nat)) (i cnt : nat) (st : lloyd) : res lloyd :=
  match cnt with
  | O => Ok st
  | S cnt' =>
      do st' <- lloyd_iter popf mbs csz cdist rdist n dim nc data (orders i) (ll_centers st) (ll_assign st);
      if lloyd_stop i (ll_res st) (ll_res st') then Ok st'
      else lloyd_loop popf mbs csz cdist rdist n dim nc data orders (S i) cnt' st'
  end.

(** src/math_utils.cpp:303-345 run_lloyds. *)
Definition run_lloyds (popf : list (nat * f32) -> list (nat * f32)) (mbs csz : nat) (cdist : nat -> list f32 -> f32) (rdist : list f32 -> list f32 -> f32)
    (n dim nc max_reps : nat) (data : list (list f32)) (orders : nat -> nat -> list (nat * nat)) (centers : list (list f32)) (assign : list nat) (docs : list (list nat)) : res lloyd :=
  lloyd_loop popf mbs csz cdist rdist n dim nc data orders 0 max_reps (mkLl assign docs centers FLT_MAX).

(** src/math_utils.cpp:350-372 random_centers: [draw j] is the j-th random index.  A
    centre is [None] while the caller's memory has not been written. *)
Fixpoint random_centers (data : list (list f32)) (draw : nat -> nat) (j cnt : nat) (picked : list nat) (centers : list (option (list f32))) : res (list (option (list f32))) :=
  match cnt with
  | O => Ok centers
  | S cnt' =>
      if existsb (Nat.eqb (draw j)) picked then random_centers data draw (S j) cnt' picked centers
      else
        do x <- rd data (draw j);
        do centers' <- wr centers j (Some x);
        random_centers data draw (S j) cnt' (picked ++ [draw j]) centers'
  end.

(** src/math_utils.cpp:413-416: the sum of the distances. *)
Definition sum64 (dist : list f32) : spec_float := fold_left (fun s d => f64_add s (f64_of_f32 d)) dist f64_zero.

(** src/math_utils.cpp:422-430: the index a dart hits, from index [i] on; the last index
    if it hits none.  Without points tmp_center is not set: [None]. *)
Fixpoint dart_hit (dart prefix : spec_float) (i : nat) (dist : list f32) (last : option nat) : option nat :=
  match dist with
  | [] => last
  | d :: t =>
      if SFleb prefix dart && SFltb dart (f64_add prefix (f64_of_f32 d)) then Some i
      else dart_hit dart (f64_add prefix (f64_of_f32 d)) (S i) t (Some i)
  end.

(** src/math_utils.cpp:441-446: std::min(dist[i], calc_distance(i, tmp_center)). *)
Definition min_dists (pdist : nat -> nat -> f32) (c : nat) (dist : list f32) : list f32 :=
  map (fun x => if flt (pdist (fst x) c) (snd x) then pdist (fst x) c else snd x) (combine (seq 0 (length dist)) dist).

(** src/math_utils.cpp:408-450: round [r] of the while loop; [fuel] bounds the rounds and
    [None] is returned when it runs out.  [picked] and [sum_flag] as in the code; [darts
    r] is the r-th random number. *)
Fixpoint kpp_loop (fuel : nat) (data : list (list f32)) (pdist : nat -> nat -> f32) (darts : nat -> spec_float) (nc r : nat) (flag : bool) (picked : list nat)
    (dist : list f32) (centers : list (option (list f32))) : res (option (list nat * bool * list (option (list f32)))) :=
  if nc <=? length picked then Ok (Some (picked, flag, centers))
  else
    match fuel with
    | O => Ok None
    | S fuel' =>
        let sum := sum64 dist in
        let flag' := flag || SFeqb sum f64_zero in
        match dart_hit (f64_mul (darts r) sum) f64_zero 0 dist None with
        | None => UB
        | Some t =>
            if existsb (Nat.eqb t) picked && negb flag' then kpp_loop fuel' data pdist darts nc (S r) flag' picked dist centers
            else
              do x <- rd data t;
              do centers' <- wr centers (length picked) (Some x);
              kpp_loop fuel' data pdist darts nc (S r) flag' (picked ++ [t]) (min_dists pdist t dist) centers'
        end
    end.

(** src/math_utils.cpp:374-455 kmeans_plus_plus_centers, up to 2^23 points; [init] is the
    first index drawn. *)
Definition kmeans_pp (fuel : nat) (data : list (list f32)) (pdist : nat -> nat -> f32) (init : nat) (darts : nat -> spec_float) (nc : nat)
    : res (option (list nat * bool * list (option (list f32)))) :=
  do x <- rd data init;
  do centers <- wr (repeat None nc) 0 (Some x);
  kpp_loop fuel data pdist darts nc 0 false [init] (map (fun i => pdist i init) (seq 0 (length data))) centers.
