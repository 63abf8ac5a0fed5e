(** * Candidate pools: include/index.h and src/index.cpp. *)
From Coq Require Import String List Arith Bool.
From Verif Require Import Base Float32.
Import ListNotations.

(** include/index.h:49-65 [struct Neighbor].  Ids are unbounded naturals here
    (C++: uint32_t). *)
Record neighbor : Type := mkN { nid : nat; ndist : f32; nflag : bool }.

(** include/index.h:50-52: the default constructor. *)
Definition default_neighbor : neighbor := mkN 0 FLT_MAX true.

(** memmove(&addr[src + 1], &addr[src], cnt * sizeof(Neighbor)), as used at
    include/index.h:75 and 101. *)
Definition memmove_up (a : list neighbor) (src cnt : nat) : res (list neighbor) :=
  if src + 1 + cnt <=? length a
  then Ok (firstn (src + 1) a ++ firstn cnt (skipn src a) ++ skipn (src + 1 + cnt) a)
  else UB.

(** include/index.h:83-89: the binary search loop; [fuel] bounds iterations. *)
Fixpoint bsearch (fuel : nat) (a : list neighbor) (nn : neighbor) (left right : nat)
  : res (nat * nat) :=
  match fuel with
  | O => Fuel
  | S fuel' =>
      if (1 <? right) && (left <? right - 1) then
        let mid := (left + right) / 2 in
        do m <- rd a mid;
        if fgt (ndist m) (ndist nn)
        then bsearch fuel' a nn left mid
        else bsearch fuel' a nn mid right
      else Ok (left, right)
  end.

(** include/index.h:92-98: walk left over equal distances looking for the same
    id; [None] stands for [return K + 1]. *)
Fixpoint dup_walk (a : list neighbor) (nn : neighbor) (left : nat) : res (option nat) :=
  match left with
  | O => Ok (Some O)
  | S left' =>
      do x <- rd a left;
      if flt (ndist x) (ndist nn) then Ok (Some left)
      else if nid x =? nid nn then Ok None
      else dup_walk a nn left'
  end.

(** include/index.h:70-105 [InsertIntoPool(addr, K, nn)]: returns the new buffer
    contents and the returned index.  With K = 0, [right] is UINT_MAX and
    reading [addr[right]] is out of bounds. *)
Definition insert_into_pool (a : list neighbor) (K : nat) (nn : neighbor)
  : res (list neighbor * nat) :=
  do x0 <- rd a 0;
  if fgt (ndist x0) (ndist nn) then
    do a1 <- memmove_up a 0 K;
    do a2 <- wr a1 0 nn;
    Ok (a2, 0)
  else
    match K with
    | O => UB
    | S right0 =>
        do xr0 <- rd a right0;
        if flt (ndist xr0) (ndist nn) then
          do a1 <- wr a K nn;
          Ok (a1, K)
        else
          do lr <- bsearch K a nn 0 right0;
          let (left, right) := lr in
          do w <- dup_walk a nn left;
          match w with
          | None => Ok (a, K + 1)
          | Some left1 =>
              do xl <- rd a left1;
              do xr <- rd a right;
              if (nid xl =? nid nn) || (nid xr =? nid nn) then Ok (a, K + 1)
              else
                do a1 <- memmove_up a right (K - right);
                do a2 <- wr a1 right nn;
                Ok (a2, right)
          end
    end.

(** std::string comparison by operator<. *)
Definition label := string.

(** std::set_intersection as called at src/index.cpp:249-251 (the merge loop of
    the standard library; the C++ standard requires sorted inputs, the loop
    itself runs on any input). *)
Fixpoint set_intersection (xs : list label) : list label -> list label :=
  fix aux (ys : list label) : list label :=
    match xs, ys with
    | [], _ => []
    | _, [] => []
    | x :: xs', y :: ys' =>
        match String.compare x y with
        | Lt => set_intersection xs' ys
        | Gt => aux ys'
        | Eq => x :: set_intersection xs' ys'
        end
    end.

(** std::find(...) != end() on a vector of labels. *)
Definition label_mem (x : label) (l : list label) : bool :=
  existsb (String.eqb x) l.

(** The label part of ANNIndex: include/index.h:169-175. *)
Record label_ctx : Type := mkL {
  pts_to_labels : list (list label);
  use_universal_label : bool;
  universal_label : label
}.

(** src/index.cpp:245-262: does the candidate pass the filter?  [true] means the
    loop goes on with this candidate. *)
Definition passes_filter (lc : label_ctx) (filters : list label) (id : nat) : res bool :=
  match filters with
  | [] => Ok true
  | _ :: _ =>
      do curr <- rd (pts_to_labels lc) id;
      let inter := set_intersection filters curr in
      let inter' :=
        if use_universal_label lc &&
           (label_mem (universal_label lc) filters || label_mem (universal_label lc) curr)
        then inter ++ [universal_label lc] else inter in
      Ok (match inter' with [] => false | _ => true end)
  end.

(** The universal label in force, if any: include/index.h:174-175. *)
Definition universal_of (lc : label_ctx) : option string :=
  if use_universal_label lc then Some (universal_label lc) else None.

(** tsl::robin_set<_u32> used as a set (C65 justifies this view). *)
Definition set_mem (x : nat) (s : list nat) : bool := existsb (Nat.eqb x) s.

(** The mutable arguments of process_candidates_into_best_candidates_pool. *)
Record pool_state : Type := mkP {
  p_arr : list neighbor;   (* top_L_candidates *)
  p_cur : nat;             (* curListSize *)
  p_ins : list nat;        (* already_inserted *)
  p_cmps : nat;            (* total_comparisons *)
  p_best : nat             (* best_inserted_position *)
}.

(** src/index.cpp:243-290: one iteration of the loop over [cand_list].  [n] is
    the number of points; reading the coordinates of an id >= n is out of
    bounds.  [dist id] is compare(query, data[id]). *)
Definition process_one (n : nat) (dist : nat -> f32) (accept : nat -> res bool)
    (maxListSize : nat) (st : pool_state) (id : nat) : res pool_state :=
  do ok <- accept id;
  if negb ok then Ok st
  else if set_mem id (p_ins st) then Ok st
  else
    let ins' := id :: p_ins st in
    let cmps' := S (p_cmps st) in
    do d <- (if id <? n then Ok (dist id) else UB);
    do skip <- (if 0 <? p_cur st then
                  do w <- rd (p_arr st) (p_cur st - 1);
                  Ok (fge d (ndist w) && (p_cur st =? maxListSize))
                else Ok false);
    if (skip : bool) then Ok (mkP (p_arr st) (p_cur st) ins' cmps' (p_best st))
    else
      do ar <- insert_into_pool (p_arr st) (p_cur st) (mkN id d true);
      let (arr', r) := ar in
      let cur' := if p_cur st <? maxListSize then S (p_cur st) else p_cur st in
      let best' := if r <? p_best st then r else p_best st in
      Ok (mkP arr' cur' ins' cmps' best').

(** The loop of src/index.cpp:243-290. *)
Fixpoint process_loop (n : nat) (dist : nat -> f32) (accept : nat -> res bool)
    (maxListSize : nat) (st : pool_state) (cand_list : list nat) : res pool_state :=
  match cand_list with
  | [] => Ok st
  | id :: rest =>
      do st' <- process_one n dist accept maxListSize st id;
      process_loop n dist accept maxListSize st' rest
  end.

(** src/index.cpp:236-292: [best_inserted_position] starts at maxListSize and is
    the returned value (field [p_best] of the result). *)
Definition process_candidates (n : nat) (dist : nat -> f32) (accept : nat -> res bool)
    (maxListSize : nat) (st : pool_state) (cand_list : list nat) : res pool_state :=
  process_loop n dist accept maxListSize
    (mkP (p_arr st) (p_cur st) (p_ins st) (p_cmps st) maxListSize) cand_list.

(** Successive calls of process_candidates_into_best_candidates_pool on the same
    pool, as made by greedy search (src/graph_index.cpp:77-110) and, with one
    call, by IVF and LSH search. *)
Fixpoint feed (n : nat) (dist : nat -> f32) (accept : nat -> res bool)
    (maxListSize : nat) (st : pool_state) (batches : list (list nat)) : res pool_state :=
  match batches with
  | [] => Ok st
  | b :: rest =>
      do st' <- process_candidates n dist accept maxListSize st b;
      feed n dist accept maxListSize st' rest
  end.

(** A pool of m + 1 default entries, nothing inserted: src/ivf.cpp:146-150 and
    src/lsh.cpp:165-169 (vector of res_count + 1 default Neighbors). *)
Definition empty_pool (m : nat) : pool_state := mkP (repeat default_neighbor (m + 1)) 0 [] 0 m.

(** The entries of the pool: the first curListSize slots. *)
Definition pool_entries (st : pool_state) : list neighbor := firstn (p_cur st) (p_arr st).
