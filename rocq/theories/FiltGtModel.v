(** * Ground truth of filtered queries (tests/compute_filtered_groundtruth.cpp). *)
From Coq Require Import NArith Ascii String List Arith Bool.
From Verif Require Import Base Bytes Float32 StreamModel BinModel TextModel IndexFileModel ClosestModel GtModel TruthModel.
Import ListNotations.

(** tests/compute_filtered_groundtruth.cpp:165-177: some token of the line is one of the
    filters, or the universal label if one was given. *)
Definition line_match (filters : list string) (univ : option string) (toks : list string) : bool :=
  existsb (fun t => existsb (String.eqb t) filters || match univ with Some u => String.eqb t u | None => false end) toks.

(** Lines 161-179: the remaining lines, the number of the next, the vector stream and the
    vector [pt] last read; the numbers of the matching lines and the vectors written for
    them.  A read past the end leaves (part of) the previous vector. *)
Fixpoint extract (size : nat) (filters : list string) (univ : option string) (lines : list string) (cnt : nat) (s : istream) (pt : list N)
  : list nat * list (list N) :=
  match lines with
  | [] => ([], [])
  | line :: rest =>
      let (got, s') := sread (N.of_nat size) s in
      let pt' := overlay got pt in
      let r := extract size filters univ rest (S cnt) s' pt' in
      if line_match filters univ (line_tokens line) then (cnt :: fst r, pt' :: snd r) else r
  end.

(** Lines 234-240: the ids of one query after the other, through the table of original
    numbers; [old] is what quer_nns held. *)
Fixpoint remap_ids (idx : list nat) (k cnt : nat) (s : istream) (old : list N) : res (list N * istream) :=
  match cnt with
  | O => Ok ([], s)
  | S cnt' =>
      let (got, s') := sread (N.of_nat (4 * k)) s in
      let ids := dec_all 4 k (overlay got (enc_all 4 old)) in
      do new <- fold_right (fun x r => do t <- r; do y <- rd idx (N.to_nat x); Ok (N.of_nat y :: t)) (Ok []) ids;
      do t <- remap_ids idx k cnt' s' new;
      Ok (enc_all 4 new ++ fst t, snd t)
  end.

(** Lines 242-246: the distances go through a vector of k elements of type T (of [w]
    bytes), into which 4 * k bytes are read. *)
Fixpoint copy_dists (w k cnt : nat) (s : istream) (old : list N) : res (list N) :=
  match cnt with
  | O => Ok []
  | S cnt' =>
      if w * k <? 4 * k then UB
      else
        let (got, s') := sread (N.of_nat (4 * k)) s in
        let buf := overlay got old in
        do t <- copy_dists w k cnt' s' buf;
        Ok (firstn (4 * k) buf ++ t)
  end.

(** Lines 212-251, compute_new_groundtruth after aux_main: [f] is the file aux_main wrote. *)
Definition remap_truth (w : nat) (idx : list nat) (g1 g2 : list N) (f : file) : res (list N) :=
  let '(nq, k, s) := read_header g1 g2 (open_file f) in
  do r <- remap_ids idx (N.to_nat k) (N.to_nat nq) s (repeat 0%N (N.to_nat k));
  do d <- copy_dists w (N.to_nat k) (N.to_nat nq) (snd r) (repeat 0%N (w * N.to_nat k));
  Ok (u32 nq ++ u32 k ++ fst r ++ d).

(** Lines 106-209, compute_filtered_gt, with aux_main
    (src/aux_compute_groundtruth.cpp:276-341) on the extracted vectors: [dist q v] is the
    distance of query q to the vector with bytes [v], [bits] the bytes of a float as a
    number.  Line 199 loads the vector file only to throw if its size is wrong. *)
Definition filtered_gt (pushf : push_op) (takef : take_op) (sortf : list pair_if -> list pair_if) (bs ps w : nat)
    (g1 g2 : list N) (coord map_file : file) (filter_string : string) (univ : option string)
    (nq k : nat) (dist : nat -> list N -> f32) (bits : f32 -> N) (orders : nat -> nat -> list nat) : res (list N) :=
  let '(_, nd, s) := read_header g1 g2 (open_file coord) in
  let lines := match map_file with Some b => getlines LF (text_of b) | None => [] end in
  let size := w * N.to_nat nd in
  let (idx, rows) := extract size (line_tokens filter_string) univ lines 0 s (repeat 0%N size) in
  do _ <- load_bin w g1 g2 coord;
  do r <- ground_truth pushf takef sortf bs ps (length rows) nq k (fun q j => dist q (nth j rows [])) orders;
  do t <- save_truthset (map (fun x => N.of_nat (fst x)) (snd r)) (map (fun x => bits (snd x)) (snd r)) (N.of_nat nq) (N.of_nat (fst r));
  remap_truth w idx g1 g2 (Some t).
