(** * Data races. *)
From Coq Require Import List Arith Bool.
From Verif Require Import Base BuildModel RaceModel.
Import ListNotations.

(** Two accesses conflict: same memory, and one of them writes. *)
Definition conflict (a b : access) : Prop :=
  a_list a = a_list b /\ a_part a = a_part b /\ (a_write a = true \/ a_write b = true).

(** The thread of location [i] is about to do [a]: its next step is work (after which it
    holds no lock), and [a] is among the accesses of that step. *)
Definition about_to (env : benv) (rs : lstate * list nat) (i : nat) (a : access) : Prop :=
  exists rs' t, race_step env rs i = Ok (Some rs') /\ nth_error (ls_held (fst rs')) i = Some None /\
    nth_error (bs_tasks (ls_b (fst rs))) i = Some t /\
    In a (accesses env i (bs_graph (ls_b (fst rs))) (snd rs) t).

(** Two threads about to do conflicting accesses: a data race. *)
Definition race (env : benv) (rs : lstate * list nat) : Prop :=
  exists i j a b, i <> j /\ about_to env rs i a /\ about_to env rs j b /\ conflict a b.

(** The thread of [i] holds the lock of list [x]; [w]: exclusively. *)
Definition holds (rs : lstate * list nat) (i x : nat) (w : bool) : Prop :=
  nth_error (ls_held (fst rs)) i = Some (Some (x, w)).

Definition adjacency (rs : lstate * list nat) (x : nat) : option (list nat) := nth_error (bs_graph (ls_b (fst rs))) x.
Definition capacity (rs : lstate * list nat) (x : nat) : option nat := nth_error (snd rs) x.
Definition tasks_and_locks (rs : lstate * list nat) : list task * list (option (nat * bool)) :=
  (bs_tasks (ls_b (fst rs)), ls_held (fst rs)).
