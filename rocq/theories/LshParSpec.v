(** * Data races between searches of one LSH index. *)
From Coq Require Import NArith List Arith Bool.
From Verif Require Import Base Float32 LshModel LshParModel.
Import ListNotations.

(** Search [i] is about to look up a bucket of table [j]; [w]: the lookup changes the table. *)
Definition about_to (dotf : list N -> list f32 -> f32) (qs : list (list f32)) (st : par) (i j : nat) (w : bool) : Prop :=
  exists q cands t, nth_error qs i = Some q /\ nth_error (p_threads st) i = Some (j, cands) /\
    nth_error (p_tables st) j = Some t /\ w = lookup_writes t (get_hash dotf t q).

(** Two searches are about to look into the same table, and one of them changes it. *)
Definition race (dotf : list N -> list f32 -> f32) (qs : list (list f32)) (st : par) : Prop :=
  exists i i' j w w', i <> i' /\ about_to dotf qs st i j w /\ about_to dotf qs st i' j w' /\ (w = true \/ w' = true).

(** The hash of [q] is a key of the table: some point, or some earlier query, has it. *)
Definition has_key (dotf : list N -> list f32 -> f32) (t : table) (q : list f32) : Prop :=
  In (get_hash dotf t q) (map fst (t_map t)).

(** The state [st] can be reached from the beginning of [qs] on the tables [ts]. *)
Definition reachable (dotf : list N -> list f32 -> f32) (ts : list table) (qs : list (list f32)) (st : par) : Prop :=
  exists sched, par_run dotf qs sched (par_init ts (length qs)) = Some st.

(** Every search has been through all tables. *)
Definition finished (st : par) : Prop := forall th, In th (p_threads st) -> fst th = length (p_tables st).

(** The tables after searching for the queries one after the other. *)
Fixpoint one_by_one (dotf : list N -> list f32 -> f32) (qs : list (list f32)) (ts : list table) : list table :=
  match qs with [] => ts | q :: rest => one_by_one dotf rest (snd (lookup_all dotf q ts)) end.
