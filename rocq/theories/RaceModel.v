(** * What the threads of a Vamana build do to the memory of the adjacency lists.

    The build with locks (BuildModel.v) together with the capacity of every adjacency
    list, a std::vector<unsigned>.  src/vamana.cpp:237-300, src/graph_index.cpp:88-91 and
    235-303; the inner builds of src/hnsw.cpp:158-225 are the same text. *)
From Coq Require Import List Arith Bool.
From Verif Require Import Base PoolModel GreedyModel SearchModel PruneModel BuildModel.
Import ListNotations.

(** The memory of a vector in libstdc++: [Bounds] are the pointers to its storage and to
    the end of the storage, [Items] the pointer behind the last element and the elements. *)
Inductive part : Type := Bounds | Items.
Record access : Type := mkA { a_list : nat; a_part : part; a_write : bool }.

(** src/vamana.cpp:239-240: reserve(1.05 * 1.3 * R) before the threads start; a double
    converted to size_t.  (The doubles give this number for R up to 200000.)
    src/vamana.cpp:291-292: reserve((_u64)(1.3 * R)) in the loop, without a lock. *)
Definition first_reserve (R : nat) : nat := 1365 * R / 1000.
Definition second_reserve (R : nat) : nat := 13 * R / 10.

(** emplace_back at [size] elements: a full vector doubles its storage (libstdc++). *)
Definition push_cap (cap size : nat) : nat := if size <? cap then cap else Nat.max 1 (2 * size).
Fixpoint pushes_cap (cap size k : nat) : nat :=
  match k with
  | O => cap
  | S k' => pushes_cap (push_cap cap size) (S size) k'
  end.

(** [k] calls of emplace_back: the storage is replaced if it is too small. *)
Definition push_accesses (x cap size k : nat) : list access :=
  match k with
  | O => []
  | _ => [mkA x Bounds (cap <? size + k); mkA x Items true]
  end.

Definition read_accesses (x : nat) : list access := [mkA x Bounds false; mkA x Items false].

(** reserve(n): compares with the capacity; replaces the storage if it is smaller. *)
Definition reserve_accesses (x cap n : nat) : list access :=
  mkA x Bounds (cap <? n) :: (if cap <? n then [mkA x Items true] else []).

(** The accesses of the next step of the task of [loc] to adjacency lists:
    - the search copies the list of the node it expands (src/graph_index.cpp:88-91);
    - when it is over: pruning, then reserve (src/vamana.cpp:288-292);
    - src/vamana.cpp:294-296: emplace_back of the links;
    - src/graph_index.cpp:249-263: find, then emplace_back or a copy;
    - src/graph_index.cpp:294-298: clear and emplace_back. *)
Definition accesses (env : benv) (loc : nat) (g : graph) (caps : list nat) (t : task) : list access :=
  let size x := length (nth x g []) in
  let cap x := nth x caps 0 in
  match t with
  | TStart => []
  | TSearch st =>
      if greedy_running st then
        match nth_error (p_arr (g_pool st)) (g_k st) with
        | Some x => if nflag x then read_accesses (nid x) else []
        | None => []
        end
      else reserve_accesses loc (cap loc) (second_reserve (bp_R (be_prm env)))
  | TLink pruned => push_accesses loc (cap loc) (size loc) (length pruned)
  | TRecip [] => []
  | TRecip (des :: _) =>
      read_accesses des ++
      (if set_mem loc (nth des g []) then []
       else if 10 * size des <? 13 * bp_R (be_prm env) then push_accesses des (cap des) (size des) 1 else [])
  | TOver des new _ => mkA des Items true :: push_accesses des (cap des) 0 (length new)
  end.

(** The capacities after that step. *)
Definition set_cap (caps : list nat) (x c : nat) : list nat :=
  firstn x caps ++ match skipn x caps with [] => [] | _ :: r => c :: r end.

Definition caps_step (env : benv) (loc : nat) (g : graph) (caps : list nat) (t : task) : list nat :=
  let size x := length (nth x g []) in
  let cap x := nth x caps 0 in
  match t with
  | TSearch st =>
      if greedy_running st then caps
      else set_cap caps loc (Nat.max (cap loc) (second_reserve (bp_R (be_prm env))))
  | TLink pruned => set_cap caps loc (pushes_cap (cap loc) (size loc) (length pruned))
  | TRecip (des :: _) =>
      if set_mem loc (nth des g []) then caps
      else if 10 * size des <? 13 * bp_R (be_prm env) then set_cap caps des (pushes_cap (cap des) (size des) 1) else caps
  | TOver des new _ => set_cap caps des (pushes_cap (cap des) 0 (length new))
  | _ => caps
  end.

(** One step of the thread of [loc]: acquire the lock it needs, or work and release. *)
Definition race_step (env : benv) (rs : lstate * list nat) (loc : nat) : res (option (lstate * list nat)) :=
  let (st, caps) := rs in
  do o <- lock_step env st loc;
  match o with
  | None => Ok None
  | Some st' =>
      do t <- rd (bs_tasks (ls_b st)) loc;
      do h <- rd (ls_held st) loc;
      match h, lock_need loc t with
      | None, Some _ => Ok (Some (st', caps))
      | _, _ => Ok (Some (st', caps_step env loc (bs_graph (ls_b st)) caps t))
      end
  end.

Fixpoint race_run (env : benv) (rs : lstate * list nat) (sched : list nat) : res (lstate * list nat) :=
  match sched with
  | [] => Ok rs
  | loc :: rest => do o <- race_step env rs loc; race_run env (match o with Some rs' => rs' | None => rs end) rest
  end.

(** src/vamana.cpp:236-240 *)
Definition race_init (env : benv) : lstate * list nat :=
  (lock_init env, repeat (first_reserve (bp_R (be_prm env))) (sp_n (be_sp env))).
