(** Vocabulary for the training of an IVF index. *)
From Coq Require Import NArith ZArith Reals List Arith Bool Floats.SpecFloat.
From Verif Require Import Base Float32 DistSpec RealSpec ClosestSpec BlasModel BlasSpec LloydModel KmeansSpec RandModel TrainModel.
Import ListNotations.
Local Open Scope R_scope.

(** What is asked of BLAS, of the priority queue and of the parallel loops, for vectors of [dim]
    coordinates and squared norms up to [B], [n] points and blocks of [mbs]. *)
Record machine_ok (dim n mbs : nat) (B : R) (m : machine) : Prop := {
  mo_pop : pops (m_pop m);
  mo_train_ways : forall i, block_ways_ok dim (m_train_ways m i);
  mo_ways : block_ways_ok dim (m_ways m);
  mo_train_orders : forall t i, block_orders t 1 (min t mbs) (m_train_orders m t i);
  mo_orders : block_orders n 1 (min n mbs) (m_orders m);
  mo_junk : forall t, length (m_junk m t) = t;
  mo_norms : forall r, vectors dim B [r] -> norm_near r (m_nrm2 m r)
}.

(** Words of 32 bits, and a first centre among the points. *)
Definition draws_ok (dr : draws) : Prop :=
  (forall i, (dr_sample dr i < 2 ^ 32)%N) /\ (forall i, (dr_darts dr i < 2 ^ 32)%N) /\ forall t, (1 <= t)%nat -> (dr_first dr t < t)%nat.

(** The points whose number, drawn uniformly from 0 to 1, is below the training rate, in their
    order. *)
Definition sample_of (rate : f32) (dr : draws) (frows : list (list f32)) : list (list f32) :=
  map (fun p => nth p frows []) (filter (fun i => picked_train (f64_of_f32 rate) (dr_sample dr i)) (seq 0 (length frows))).

(** The sum of the squared distances of the points to the centres of their lists. *)
Definition lists_cost (frows centers : list (list f32)) (inv : list (list nat)) : R :=
  real_sum (concat (map (fun cl => map (fun j => exact_l2 (nth j frows []) (nth (fst cl) centers [])) (snd cl)) (combine (seq 0 (length inv)) inv))).

(** [t] sampled points are few enough for k-means++; or the [nc] points drawn among them are
    different. *)
Definition few_or_distinct (dr : draws) (t nc : nat) : Prop :=
  (Z.of_nat t <= 2 ^ 23)%Z \/
  ((Z.of_nat t <= 2 ^ 28)%Z /\ (forall i, (i < nc)%nat -> (dr_points dr t i < t)%nat) /\ forall i j, (i < j < nc)%nat -> dr_points dr t i <> dr_points dr t j).
