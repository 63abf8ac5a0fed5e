(** * Greedy graph search: src/graph_index.cpp:40-127. *)
From Coq Require Import List Arith Bool.
From Verif Require Import Base Float32 PoolModel.
Import ListNotations.

(** Adjacency lists: include/graph_index.h [_out_nbrs]. *)
Definition graph := list (list nat).

(** Local variables of greedy_search_to_fixed_point: best_L_nodes, l,
    inserted_into_pool and cmps are in [g_pool]; k; expanded_nodes_info (newest
    first); hops.  expanded_nodes_ids is the set of ids of [g_exp]. *)
Record gstate : Type := mkG {
  g_pool : pool_state;
  g_k : nat;
  g_exp : list neighbor;
  g_hops : nat
}.

(** src/graph_index.cpp:57-69: the loop over init_ids; the filter is not applied
    here.  [l] and the set of inserted ids are accumulated. *)
Fixpoint init_loop (n : nat) (dist : nat -> f32) (Lsize : nat)
    (arr : list neighbor) (l : nat) (ins : list nat) (init_ids : list nat)
  : res (list neighbor * nat * list nat) :=
  match init_ids with
  | [] => Ok (arr, l, ins)
  | id :: rest =>
      do d <- (if id <? n then Ok (dist id) else UB);
      do st <- (if set_mem id ins then Ok (arr, l, ins)
                else do arr' <- wr arr l (mkN id d true); Ok (arr', S l, id :: ins));
      let '(arr', l', ins') := st in
      if l' =? Lsize then Ok (arr', l', ins')
      else init_loop n dist Lsize arr' l' ins' rest
  end.

(** src/graph_index.cpp:47-75: resize, initial ids, sort of the first l slots.
    best_L_nodes is empty before the call (all callers pass a fresh vector). *)
Definition greedy_init (sortf : list neighbor -> list neighbor) (n : nat) (dist : nat -> f32)
    (Lsize : nat) (init_ids : list nat) : res gstate :=
  do r <- init_loop n dist Lsize (repeat default_neighbor (Lsize + 1)) 0 [] init_ids;
  let '(arr, l, ins) := r in
  Ok (mkG (mkP (sortf (firstn l arr) ++ skipn l arr) l ins 0 0) 0 [] 0).

(** src/graph_index.cpp:77: loop condition k < l. *)
Definition greedy_running (st : gstate) : bool := g_k st <? p_cur (g_pool st).

(** src/graph_index.cpp:77-110: one iteration of the while loop, with the
    adjacency lists [g] found at that moment (with locks, line 88-91 copies the
    list under the lock of the node; the copy is all that is used). *)
Definition greedy_step (n : nat) (dist : nat -> f32) (accept : nat -> res bool)
    (Lsize : nat) (g : graph) (st : gstate) : res gstate :=
  let p := g_pool st in
  let k := g_k st in
  do x <- rd (p_arr p) k;
  if nflag x then
    let x' := mkN (nid x) (ndist x) false in
    do arr1 <- wr (p_arr p) k x';
    do des <- rd g (nid x);
    do p' <- process_candidates n dist accept Lsize
               (mkP arr1 (p_cur p) (p_ins p) (p_cmps p) (p_best p)) des;
    let k' := if p_best p' <=? k then p_best p' else S k in
    Ok (mkG p' k' (x' :: g_exp st) (S (g_hops st)))
  else Ok (mkG p (S k) (g_exp st) (g_hops st)).

(** The while loop; iteration number i sees the adjacency lists [gs i], which
    other threads may have changed (build).  A search on a finished index is the
    case of a constant [gs]. *)
Fixpoint greedy_loop (fuel : nat) (n : nat) (dist : nat -> f32) (accept : nat -> res bool)
    (Lsize : nat) (gs : nat -> graph) (i : nat) (st : gstate) : res gstate :=
  if greedy_running st then
    match fuel with
    | O => Fuel
    | S fuel' =>
        do st' <- greedy_step n dist accept Lsize (gs i) st;
        greedy_loop fuel' n dist accept Lsize gs (S i) st'
    end
  else Ok st.

(** src/graph_index.cpp:40-116.  The iteration budget is enough by C04. *)
Definition greedy_search_dyn (sortf : list neighbor -> list neighbor) (n : nat) (dist : nat -> f32)
    (accept : nat -> res bool) (Lsize : nat) (gs : nat -> graph) (init_ids : list nat)
  : res gstate :=
  do st <- greedy_init sortf n dist Lsize init_ids;
  greedy_loop ((n + 1) * (Lsize + 1)) n dist accept Lsize gs 0 st.

Definition greedy_search (sortf : list neighbor -> list neighbor) (n : nat) (dist : nat -> f32)
    (accept : nat -> res bool) (Lsize : nat) (g : graph) (init_ids : list nat) : res gstate :=
  greedy_search_dyn sortf n dist accept Lsize (fun _ => g) init_ids.

(** What the caller sees: best_L_nodes[0 .. l). *)
Definition found (st : gstate) : list neighbor := pool_entries (g_pool st).
