(** * Theorems: ground truth of filtered queries (C64). *)
From Coq Require Import NArith ZArith Ascii String List Arith Lia Sorting.Permutation Sorting.Sorted.
From Verif Require Import Base Bytes Float32 StreamModel BinModel BinSpec TextModel IndexFileModel TopKSpec HeapSpec HeapInst GtModel GtSpec FiltGtModel FiltGtSpec FiltGtProofs.
Import ListNotations.
Local Open Scope nat_scope.

(** C64.  Float vectors and one line of comma-separated labels for each.  Let [ids] be
    the points with one of the filter's labels or the universal label.  The file written
    holds for each query the k nearest of these points, nearest first, under their
    original ids, for every priority queue, sort, block size and order of the parallel
    loops. *)
Theorem C64_original_ids : forall pushf takef sortf bs ps g1 g2 d rows text filter_string univ nq k dist bits orders ids,
  heap_ok pushf takef -> sorts_pairs sortf -> (forall q v, is_nan (dist q v) = false) -> (forall x, bits x < 2 ^ 32)%N -> 1 <= bs -> 1 <= ps -> 1 <= k ->
  length g1 = 4 -> length g2 = 4 -> u32_range (N.of_nat (length rows)) -> u32_range d -> u32_range (N.of_nat nq) -> u32_range (N.of_nat k) -> (N.of_nat (length rows) * d * 4 < 2 ^ 63)%N ->
  (forall r, In r rows -> length r = 4 * N.to_nat d) -> (forall p, batch_orders nq bs (orders p)) ->
  length (getlines LF (text_of text)) = length rows ->
  lists_all (length rows) (fun i => has_label (line_tokens filter_string) univ (line_tokens (nth i (getlines LF (text_of text)) EmptyString))) ids -> ids <> [] ->
  exists found, filtered_gt pushf takef sortf bs ps 4 g1 g2 (Some (rows_file (N.of_nat (length rows)) d rows)) (Some text) filter_string univ nq k dist bits orders =
      Ok (u32 (N.of_nat nq) ++ u32 (N.of_nat (min k (last_part (length ids) ps))) ++ enc_all 4 (map (fun x => N.of_nat (fst x)) found) ++ enc_all 4 (map (fun x => bits (snd x)) found)) /\
    length found = nq * min k (last_part (length ids) ps) /\
    forall i, i < nq -> is_top_k (min k (last_part (length ids) ps)) (score (fun id => dist i (nth id rows [])) ids) (row_of (min k (last_part (length ids) ps)) i found).
Proof. exact filtered_gt_ok. Qed.
Print Assumptions C64_original_ids.

(** Four points of one coordinate; points 1 and 3 have label b, point 2 the universal
    label u.  The distance of query q is the first byte of the vector plus q. *)
Definition ex_rows : list (list N) := [u32 5; u32 9; u32 4; u32 2].
Definition ex_text : list N := map N_of_ascii (list_ascii_of_string ("a" ++ String LF "a,b" ++ String LF "u" ++ String LF "b" ++ String LF "")).
Definition ex_dist (q : nat) (v : list N) : f32 := f32_of_Z (Z.of_N (hd 0%N v) + Z.of_nat q).
Definition ex_bits (x : f32) : N := if feq x (f32_of_Z 2) then 1073741824%N else 0%N.
Definition ex_orders (p b : nat) : list nat := rev (seq (b * 2) (min 2 (1 - b * 2))).
Example C64_original_ids_applies :
  length (getlines LF (text_of ex_text)) = length ex_rows /\
  lists_all (length ex_rows) (fun i => has_label (line_tokens "b,c") (Some "u"%string) (line_tokens (nth i (getlines LF (text_of ex_text)) EmptyString))) [1; 2; 3] /\
  (forall p, batch_orders 1 2 (ex_orders p)) /\
  filtered_gt heap_push heap_take sort_pairs 2 10 4 [0;0;0;0]%N [0;0;0;0]%N (Some (rows_file 4 1 ex_rows)) (Some ex_text) "b,c" (Some "u"%string) 1 2 ex_dist ex_bits ex_orders =
    Ok (u32 1 ++ u32 2 ++ enc_all 4 [3; 2]%N ++ enc_all 4 [1073741824; 0]%N).
Proof.
  split; [vm_compute; reflexivity|]. split; [|split; [intros p b; unfold ex_orders; apply Permutation_sym, Permutation_rev|vm_compute; reflexivity]].
  split; [repeat constructor|]. intros i. replace (getlines LF (text_of ex_text)) with ["a"; "a,b"; "u"; "b"]%string by (vm_compute; reflexivity). cbn [length ex_rows]. split.
  - intros [<-|[<-|[<-|[]]]]; (split; [lia|]); cbn; [exists "b"%string|exists "u"%string|exists "b"%string]; split; cbn; auto.
  - intros [H [t [H1 H2]]]. destruct i as [|[|[|[|i]]]]; cbn in *; try lia. destruct H1 as [<-|[]]. destruct H2 as [[H2|[H2|[]]]|H2]; discriminate.
Qed.

(** C64.  For one-byte vectors the copy of the distances overflows its buffer. *)
Theorem C64_narrow_refuted : forall pushf takef sortf bs ps w g1 g2 d rows text filter_string univ nq k dist bits orders ids,
  heap_ok pushf takef -> sorts_pairs sortf -> (forall q v, is_nan (dist q v) = false) -> (forall x, bits x < 2 ^ 32)%N -> 1 <= bs -> 1 <= ps -> 1 <= k -> 1 <= nq -> 1 <= w < 4 ->
  length g1 = 4 -> length g2 = 4 -> u32_range (N.of_nat (length rows)) -> u32_range d -> u32_range (N.of_nat nq) -> u32_range (N.of_nat k) -> (N.of_nat (length rows) * d * N.of_nat w < 2 ^ 63)%N ->
  (forall r, In r rows -> length r = w * N.to_nat d) -> (forall p, batch_orders nq bs (orders p)) ->
  length (getlines LF (text_of text)) = length rows ->
  lists_all (length rows) (fun i => has_label (line_tokens filter_string) univ (line_tokens (nth i (getlines LF (text_of text)) EmptyString))) ids -> ids <> [] ->
  filtered_gt pushf takef sortf bs ps w g1 g2 (Some (rows_file (N.of_nat (length rows)) d rows)) (Some text) filter_string univ nq k dist bits orders = UB.
Proof. exact filtered_gt_narrow. Qed.
Print Assumptions C64_narrow_refuted.

Example C64_narrow_refuted_applies :
  filtered_gt heap_push heap_take sort_pairs 2 10 1 [0;0;0;0]%N [0;0;0;0]%N (Some (rows_file 4 1 [[5]; [9]; [4]; [2]]%N)) (Some ex_text) "b,c" (Some "u"%string) 1 2 ex_dist ex_bits ex_orders = UB.
Proof. vm_compute. reflexivity. Qed.
