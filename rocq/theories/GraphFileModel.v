(** * Graph files: Vamana, RelativeNG and HNSW save and load the same format.

    A node's list is a list of 32-bit ids.  [GK * sizeof(unsigned)] is size_t
    arithmetic and does not wrap for GK below 2^32. *)
From Coq Require Import NArith List Bool.
From Verif Require Import Base Bytes StreamModel.
Import ListNotations.
Local Open Scope N_scope.

(** src/vamana.cpp:51-54 (src/relative_ng.cpp:33-36, src/hnsw.cpp:53-56): the
    degree is cast to unsigned. *)
Definition write_list (l : list N) : list N :=
  let gk := N.of_nat (length l) mod 4294967296 in
  u32 gk ++ enc_all 4 (firstn (N.to_nat gk) l).

(** Lists 0 .. cnt-1 of _out_nbrs. *)
Fixpoint write_lists (cnt : nat) (i : nat) (lists : list (list N)) : res (list N) :=
  match cnt with
  | O => Ok []
  | S cnt' =>
      do l <- rd lists i;
      do rest <- write_lists cnt' (S i) lists;
      Ok (write_list l ++ rest)
  end.

(** src/vamana.cpp:45-62 (src/relative_ng.cpp:27-43, src/hnsw.cpp:48-64): what the
    file holds after save; the first 8 bytes are written again at the end. *)
Definition save_graph (npts : nat) (max_degree start : N) (lists : list (list N)) : res (list N) :=
  do body <- write_lists npts 0 lists;
  let rest := u32 max_degree ++ u32 start ++ body in
  Ok (u64 (8 + N.of_nat (length rest)) ++ rest).

(** src/vamana.cpp:104-121 (src/relative_ng.cpp:59-74, src/hnsw.cpp:86-101): the loop
    while (!in.eof()).  std::vector<unsigned> tmp(k) is zero-filled before the read.
    Without eof a failed stream would leave k uninitialised.  Memory exhaustion for a
    huge k is not modelled. *)
Fixpoint load_lists (fuel : nat) (s : istream) (acc : list (list N)) : res (list (list N)) :=
  match fuel with
  | O => Fuel
  | S fuel' =>
      if s_eof s then Ok acc
      else
        let (kb, s1) := sread 4 s in
        if s_eof s1 then Ok acc
        else if negb (Nat.eqb (length kb) 4) then UB
        else
          let k := dec kb in
          let (b, s2) := sread (k * 4) s1 in
          let tmp := dec_all 4 (N.to_nat k) (overlay b (repeat 0 (N.to_nat (k * 4)))) in
          load_lists fuel' s2 (acc ++ [tmp])
  end.

(** src/vamana.cpp:97-129 (src/relative_ng.cpp:51-79, src/hnsw.cpp:80-106): the
    maximum degree, start node and lists of the object before and after.  The flag is
    false when the number of lists differs from the number of points: the code prints
    an error and returns normally.  expected_file_size is read and not used. *)
Definition load_graph (npts : nat) (max_degree start : N) (lists : list (list N)) (f : file)
  : res (N * N * list (list N) * bool) :=
  let (_, s1) := sread 8 (open_file f) in
  let (md, s2) := sread 4 s1 in
  let (st, s3) := sread 4 s2 in
  let fuel := match f with Some b => S (length b) | None => 1%nat end in
  do ls <- load_lists fuel s3 lists;
  Ok (dec (overlay md (u32 max_degree)), dec (overlay st (u32 start)), ls, Nat.eqb (length ls) npts).
