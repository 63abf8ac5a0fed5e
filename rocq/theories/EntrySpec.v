(** * Specifications: first minimum, maximum degree, in-degree. *)
From Coq Require Import String List Arith.
From Verif Require Import Float32.
Import ListNotations.

(** [i] is the first index at which [ds] attains its minimum. *)
Definition first_min (ds : list f32) (i : nat) : Prop :=
  exists d, nth_error ds i = Some d /\
    (forall j e, nth_error ds j = Some e -> fle d e = true) /\
    (forall j e, j < i -> nth_error ds j = Some e -> flt d e = true).

(** [m] is the largest length of a list of [g]. *)
Definition max_length (g : list (list nat)) (m : nat) : Prop :=
  (forall l, In l g -> length l <= m) /\ (g = [] /\ m = 0 \/ exists l, In l g /\ length l = m).

(** How often [x] is listed in the whole graph. *)
Definition in_degree (g : list (list nat)) (x : nat) : nat := count_occ Nat.eq_dec (concat g) x.

(** Point [id] carries label [x]. *)
Definition carries (pts : list (list string)) (id : nat) (x : string) : Prop :=
  exists ls, nth_error pts id = Some ls /\ In x ls.

(** How many labels of [m] have point [p] as entry point. *)
Definition serves (m : list (string * nat)) (p : nat) : nat := length (filter (fun e => snd e =? p) m).
