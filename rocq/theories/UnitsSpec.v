(** * Specification: the same data in another unit (every coordinate multiplied by the same power of two). *)
From Coq Require Import ZArith List Arith Floats.SpecFloat.
From Verif Require Import Base Float32 PoolModel FusedModel PruneModel VamanaModel HnswModel OrderSpec.
Import ListNotations.

(** The distance that the compiled loop [t] computes for two vectors, and the distances among vectors. *)
Definition l2_of (t : fred) (u v : list f32) : f32 := match l2_fused t u v with Ok d => d | _ => f32_zero end.
Definition among (t : fred) (data : list (list f32)) (a b : nat) : f32 := l2_of t (nth a data []) (nth b data []).
Definition from (t : fred) (data : list (list f32)) (q : list f32) (id : nat) : f32 := l2_of t (nth id data []) q.

(** Every coordinate times 2^k. *)
Definition in_unit (k : Z) (v : list f32) : list f32 := map (fscale k) v.

(** All the distances in [l'] are those in [l] times 2^j, and none overflows. *)
Definition all_scaled (j : Z) (l l' : list f32) : Prop := Forall (fits j) l /\ l' = map (fscale j) l.

(** Two data sets that differ only in that every distance is multiplied by 2^j. *)
Definition rescaled (j : Z) (sp sp' : space) : Prop :=
  sp_n sp = sp_n sp' /\ sp_filtered sp = sp_filtered sp' /\ sp_labels sp = sp_labels sp' /\
  forall a b, fits j (sp_pd sp a b) /\ sp_pd sp' a b = fscale j (sp_pd sp a b).

(** The same for all that a Vamana build is given. *)
Definition rescaled_input (j : Z) (v v' : vinput) : Prop :=
  rescaled j (vi_sp v) (vi_sp v') /\ all_scaled j (vi_centroid v) (vi_centroid v') /\
  vi_sort v = vi_sort v' /\ vi_prm v = vi_prm v' /\ vi_tags v = vi_tags v' /\ vi_work v = vi_work v' /\ vi_sched v = vi_sched v' /\ vi_order v = vi_order v'.

(** The same for the choices of one level of an HNSW build. *)
Definition rescaled_choice (j : Z) (c c' : hchoice) : Prop :=
  hc_sample c = hc_sample c' /\ all_scaled j (hc_centroid c) (hc_centroid c') /\ hc_sched c = hc_sched c' /\ hc_order c = hc_order c'.

(** Far enough below FLT_MAX for the factor alpha. *)
Definition roomy (alpha x : f32) : Prop := flt alpha (fdiv FLT_MAX x) = true.

(** The distances of a data set are those of the vectors [data]. *)
Definition of_vectors (t : fred) (data : list (list f32)) (sp : space) : Prop := forall a b, sp_pd sp a b = among t data a b.

(** [v] is what a Vamana build gets for the vectors [data], [v'] what it gets for the same vectors in another unit. *)
Definition vectors_input (k : Z) (t : fred) (data : list (list f32)) (v v' : vinput) : Prop :=
  of_vectors t data (vi_sp v) /\ of_vectors t (map (in_unit k) data) (vi_sp v') /\ all_scaled (2 * k) (vi_centroid v) (vi_centroid v') /\
  sp_n (vi_sp v) = sp_n (vi_sp v') /\ sp_filtered (vi_sp v) = sp_filtered (vi_sp v') /\ sp_labels (vi_sp v) = sp_labels (vi_sp v') /\
  vi_sort v = vi_sort v' /\ vi_prm v = vi_prm v' /\ vi_tags v = vi_tags v' /\ vi_work v = vi_work v' /\ vi_sched v = vi_sched v' /\ vi_order v = vi_order v'.
