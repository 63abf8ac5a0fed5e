(** * The second half of IVF and LSH search: ranking a candidate list.

    src/ivf.cpp:146-168 and src/lsh.cpp:165-188 are the same code. *)
From Coq Require Import String List Arith Bool.
From Verif Require Import Base Float32 PoolModel.
Import ListNotations.

(** if (distances != nullptr) distances[i] = d; [None] is the null pointer. *)
Definition wr_opt (distances : option (list f32)) (i : nat) (d : f32) : res (option (list f32)) :=
  match distances with
  | None => Ok None
  | Some ds => do ds' <- wr ds i d; Ok (Some ds')
  end.

(** src/ivf.cpp:158-163 = src/lsh.cpp:176-182: the reporting loop, from slot [i] on,
    [cnt] to go.  The internal id is reported, not the tag. *)
Fixpoint report_ids (arr : list neighbor) (i cnt : nat) (indices : list nat) (distances : option (list f32))
  : res (list nat * option (list f32)) :=
  match cnt with
  | O => Ok (indices, distances)
  | S cnt' =>
      do x <- rd arr i;
      do indices' <- wr indices i (nid x);
      do distances' <- wr_opt distances i (ndist x);
      report_ids arr (S i) cnt' indices' distances'
  end.

(** src/ivf.cpp:146-168 = src/lsh.cpp:165-188.  Returns the buffers, the returned
    count and the number of comparisons added to the statistics. *)
Definition flat_search (n : nat) (dist : nat -> f32) (accept : nat -> res bool) (res_count : nat)
    (candidates : list nat) (indices : list nat) (distances : option (list f32))
  : res (list nat * option (list f32) * nat * nat) :=
  do st <- process_candidates n dist accept res_count (empty_pool res_count) candidates;
  let res_cnt := min (p_cur st) res_count in
  do bufs <- report_ids (p_arr st) 0 res_cnt indices distances;
  Ok (bufs, res_cnt, p_cmps st).
