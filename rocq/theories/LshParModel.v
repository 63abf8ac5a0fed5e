(** * Several threads searching one LSH index: src/lsh.cpp:151-189, tests/search_lsh.cpp:99-108.

    A search touches shared memory only where it looks up a bucket (src/lsh.cpp:42-44),
    once per table and table by table; the rest works on its own memory.  A step is one
    lookup. *)
From Coq Require Import NArith List Arith Bool.
From Verif Require Import Base Float32 PoolModel FlatModel LshModel.
Import ListNotations.

(** The shared tables, and for each search the next table and the candidates so far
    (src/lsh.cpp:157-163). *)
Record par : Type := mkP { p_tables : list table; p_threads : list (nat * list nat) }.

Definition par_init (ts : list table) (n : nat) : par := mkP ts (repeat (0, []) n).

Fixpoint set_at {A : Type} (l : list A) (i : nat) (x : A) : list A :=
  match l, i with
  | [], _ => []
  | _ :: t, O => x :: t
  | a :: t, S i => a :: set_at t i x
  end.

(** Search [i] looks up its bucket of its next table (src/lsh.cpp:159-162); nothing if it
    has no table left. *)
Definition par_step (dotf : list N -> list f32 -> f32) (qs : list (list f32)) (st : par) (i : nat) : option par :=
  match nth_error qs i, nth_error (p_threads st) i with
  | Some q, Some (j, cands) =>
      match nth_error (p_tables st) j with
      | Some t =>
          let (l, t') := get_bucket t (get_hash dotf t q) in
          Some (mkP (set_at (p_tables st) j t') (set_at (p_threads st) i (S j, cands ++ l)))
      | None => None
      end
  | _, _ => None
  end.

(** The searches take turns in the order [sched]. *)
Fixpoint par_run (dotf : list N -> list f32 -> f32) (qs : list (list f32)) (sched : list nat) (st : par) : option par :=
  match sched with
  | [] => Some st
  | i :: rest => match par_step dotf qs st i with Some st' => par_run dotf qs rest st' | None => None end
  end.

(** std::map::operator[] (src/lsh.cpp:43) only reads the tree if the key is there and
    inserts a node if it is not. *)
Definition lookup_writes (t : table) (k : N) : bool :=
  match map_get (t_map t) k with Some _ => false | None => true end.

(** src/lsh.cpp:165-188: the rest of search [i], on its own memory. *)
Definition par_answer (ix : lsh_index) (cands : list nat) (dist : nat -> f32) (res_count : nat) (filters : list label)
    (indices : list nat) (distances : option (list f32)) : res (list nat * option (list f32) * nat * nat) :=
  flat_search (l_n ix) dist (passes_filter (l_labels ix) filters) res_count cands indices distances.
