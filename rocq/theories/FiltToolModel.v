(** * The filtered ground truth tool, from the command line to the files it leaves
    (tests/compute_filtered_groundtruth.cpp and src/aux_compute_groundtruth.cpp).

    get_num_parts and load_bin_as_float (src/aux_compute_groundtruth.cpp:183-237) are, but for the
    narrower product of a part number with PARTSIZE, those of compute_groundtruth.cpp in
    GtToolModel.v; the distance matrix is that of BlasModel.v, the selection that of GtModel.v,
    and reading the labels and renumbering that of FiltGtModel.v. *)
From Coq Require Import NArith ZArith String List Arith Bool Floats.SpecFloat.
From Verif Require Import Base Bytes Float32 FloatBits StreamModel BinModel TextModel ClosestModel NormModel TruthModel GtModel BlasModel GtToolModel IndexFileModel FiltGtModel CmdModel.
Import ListNotations.
Local Open Scope string_scope.

(** src/aux_compute_groundtruth.cpp:297-319: the parts from [p] on; k shrinks to the size of a
    part and stays so. *)
Fixpoint aux_parts (W : gt_ways) (pushf : push_op) (takef : take_op) (kt : ktype) (g1 g2 : list N) (base : file) (bs ps nq : nat) (queries : list f32)
    (orders : nat -> nat -> list nat) (p cnt k : nat) (results : list (list pair_if)) : res (nat * list (list pair_if)) :=
  match cnt with
  | O => Ok (k, results)
  | S cnt' =>
      do pt <- load_part kt g1 g2 base ps p;
      let '(npoints, dim, points) := pt in
      let k := if npoints <=? k then npoints else k in
      do dm <- part_matrix W false p bs dim npoints points nq queries;
      do part <- exact_knn pushf takef bs k npoints nq dm (orders p) (repeat (0, S754_nan) (nq * k));
      aux_parts W pushf takef kt g1 g2 base bs ps nq queries orders (S p) cnt' k (gather k (p * ps) part 0 results)
  end%nat.

(** src/aux_compute_groundtruth.cpp:276-341 aux_main on files, with the arguments read: the bytes
    of the file it writes. *)
Definition aux_tool (W : gt_ways) (pushf : push_op) (takef : take_op) (sortf : list pair_if -> list pair_if) (bs ps : nat) (kt : ktype) (gb1 gb2 gq1 gq2 : list N)
    (base query : file) (k : nat) (orders : nat -> nat -> list nat) : res (list N) :=
  let '(np, _, _) := read_header gb1 gb2 (open_file base) in
  do qs <- load_part kt gq1 gq2 query ps 0;
  let '(nq, _, queries) := qs in
  do kr <- aux_parts W pushf takef kt gb1 gb2 base bs ps nq queries orders 0 (num_parts ps np) k (repeat [] nq);
  do out <- gt_merge sortf (fst kr) 0 (snd kr) (repeat (0, S754_nan) (nq * k))%nat;
  save_truthset (map (fun x => N.of_nat (fst x)) out) (map (fun x => bits_of_f32 (snd x)) out) (N.of_nat nq) (N.of_nat (fst kr)).

(** tests/compute_filtered_groundtruth.cpp:106-209 compute_filtered_gt.  The number of neighbours
    goes to aux_main as text (line 137, std::to_string) and is read again (line 281 there, atoi).
    The file of the matching vectors is opened, and so emptied, before the vectors and labels are
    read: if it is one of them, what is read is what was just written; counted as undefined.
    Line 199 loads the vectors only to throw if the size of their file is wrong. *)
Definition compute_filtered_gt (W : gt_ways) (pushf : push_op) (takef : take_op) (sortf : list pair_if -> list pair_if) (bs ps : nat) (g : nat -> list N) (orders : nat -> nat -> list nat)
    (kt : ktype) (coord labels filter_string query : string) (nn : N) (out : string) (univ : option string) (d : fs) : res fs :=
  let base := out ++ "_filtered_base.bin" in
  let dummy := out ++ "_dummy" in
  if String.eqb coord base || String.eqb labels base then UB
  else
    let '(_, nd, s) := read_header (g 0%nat) (g 1%nat) (open_file (d coord)) in
    let lines := match d labels with Some b => getlines LF (text_of b) | None => [] end in
    let size := (kwidth kt * N.to_nat nd)%nat in
    let (idx, rows) := extract size (line_tokens filter_string) univ lines 0 s (repeat 0%N size) in
    let d1 := fs_set d base (Some (u32 (N.of_nat (length rows)) ++ u32 nd ++ concat rows)%list) in
    do _ <- load_bin (kwidth kt) (g 2%nat) (g 3%nat) (d1 coord);
    do k <- atoi (show nn);
    do t <- aux_tool W pushf takef sortf bs ps kt (g 4%nat) (g 5%nat) (g 6%nat) (g 7%nat) (d1 base) (d1 query) (N.to_nat (int_u64 k)) orders;
    let d2 := fs_set d1 dummy (Some t) in
    do b <- remap_truth (kwidth kt) idx (g 8%nat) (g 9%nat) (d2 dummy);
    Ok (fs_set (fs_set (fs_set d2 out (Some b)) base None) dummy None).

(** tests/compute_filtered_groundtruth.cpp:63-104. *)
Definition compute_filtered_groundtruth_main (W : gt_ways) (pushf : push_op) (takef : take_op) (sortf : list pair_if -> list pair_if) (bs ps : nat) (g : nat -> list N) (orders : nat -> nat -> list nat)
    (argv : list string) (d : fs) : res (Z * fs) :=
  if negb (length argv =? 8)%nat && negb (length argv =? 9)%nat then Exit
  else
    do ty <- arg argv 1;
    do coord <- arg argv 2;
    do labels <- arg argv 3;
    do filter_string <- arg argv 4;
    do query <- arg argv 5;
    do k <- int_arg argv 6;
    do out <- arg argv 7;
    do univ <- (if (length argv =? 9)%nat then do u <- arg argv 8; Ok (Some u) else Ok None);
    match kind_of ty with
    | None => Ok (0%Z, d)
    | Some kt => do d' <- compute_filtered_gt W pushf takef sortf bs ps g orders kt coord labels filter_string query (int_u64 k) out univ d; Ok (0%Z, d')
    end.
