(** * Theorems: product quantisation and blocked processing (C54, C55, C59).

    [cdist p x y] is the computed distance of a piece x of point p to a piece y of a
    pivot.  [popf] is any priority queue ([pops]), [mbs] and [maxb] any block sizes,
    [orders] any order of the parallel loops. *)
From Coq Require Import ZArith NArith SpecFloat List Arith Lia Bool Sorting.Permutation.
From Verif Require Import Base Bytes Float32 ClosestModel ClosestSpec PopInst PqModel PqSpec PqProofs PqProofs2 PqProofs3.
Import ListNotations.

(** C54.  For 1 <= chunks <= dim the offsets cut 0 ... dim - 1 into consecutive chunks of
    floor(dim / chunks) or one more dimensions, and the rearrangement is the identity. *)
Theorem C54_chunks_even : forall dim chunks, 1 <= chunks -> chunks <= dim ->
  exists offs, pq_chunks dim chunks = Ok (Some (seq 0 dim, offs)) /\ boundaries dim chunks offs.
Proof. exact pq_chunks_ok. Qed.
Print Assumptions C54_chunks_even.

Example C54_case : pq_chunks 11 4 = Ok (Some (seq 0 11, [0; 3; 6; 9; 11])) /\ pq_chunks 8 4 = Ok (Some (seq 0 8, [0; 2; 4; 6; 8])).
Proof. split; reflexivity. Qed.

(** C54.  More chunks than dimensions are refused; no chunks are undefined behaviour. *)
Theorem C54_too_many_chunks : forall dim chunks, dim < chunks -> pq_chunks dim chunks = Ok None.
Proof. exact pq_chunks_too_many. Qed.
Print Assumptions C54_too_many_chunks.

Theorem C54_no_chunks_refuted : forall dim, pq_chunks dim 0 = UB.
Proof. intros dim. reflexivity. Qed.
Print Assumptions C54_no_chunks_refuted.

(** C55.  The file holds, for every point p and chunk i, the index of the first nearest
    pivot, in 4 bytes for more than 256 pivots and in 1 byte otherwise; reading the
    bytes back gives the indices. *)
Theorem C55_codes : forall popf mbs maxb cdist n dim nc chunks centroid offs pivots rows orders,
  pops popf -> 1 <= mbs -> 1 <= maxb -> 1 <= n -> 1 <= chunks -> chunks <= dim -> boundaries dim chunks offs ->
  length centroid = dim -> rows_of nc dim pivots -> rows_of n dim rows -> pq_orders n (min n maxb) mbs orders -> (N.of_nat nc <= 2 ^ 32)%N ->
  (forall p i a, p < n -> i < chunks -> nth_error offs i = Some a -> usable (pivot_dist cdist centroid pivots rows a (chunk_size dim chunks i) p) nc) ->
  exists codes body, pq_encode popf mbs maxb cdist n dim nc chunks centroid (seq 0 dim) offs pivots rows orders =
      Ok (u32 (N.of_nat n) ++ u32 (N.of_nat chunks) ++ body) /\
    length codes = n * chunks /\ length body = code_width nc * (n * chunks) /\ dec_all (code_width nc) (n * chunks) body = map N.of_nat codes /\
    forall p i a, p < n -> i < chunks -> nth_error offs i = Some a ->
      exists c, nth_error codes (p * chunks + i) = Some c /\ first_nearest (pivot_dist cdist centroid pivots rows a (chunk_size dim chunks i) p) nc c.
Proof. exact pq_encode_codes. Qed.
Print Assumptions C55_codes.

(** C55.  One byte is used for at most 256 pivots. *)
Theorem C55_code_width : forall nc, (code_width nc = 1 <-> nc <= 256) /\ (code_width nc = 4 <-> 256 < nc).
Proof. intros nc. unfold code_width. destruct (Nat.ltb_spec 256 nc); split; split; intros; lia. Qed.
Print Assumptions C55_code_width.

(** Five points of three dimensions, two chunks, three pivots, blocks of two points. *)
Definition ex_z (l : list Z) : list f32 := map f32_of_Z l.
Definition ex_rows : list (list f32) := [ex_z [5; 1; 9]; ex_z [0; 0; 0]; ex_z [9; 9; 1]; ex_z [5; 6; 5]; ex_z [1; 9; 9]]%Z.
Definition ex_pivots : list (list f32) := [ex_z [-1; -1; -1]; ex_z [4; 4; 4]; ex_z [8; 8; 8]]%Z.
Definition ex_centroid : list f32 := ex_z [1; 1; 1]%Z.
Definition ex_sq (x y : f32) : f32 := fmul (fsub x y) (fsub x y).
Definition ex_cdist (p : nat) (x y : list f32) : f32 := fold_left fadd (map (fun q => ex_sq (fst q) (snd q)) (combine x y)) f32_zero.
Definition ex_pq_orders (b i k : nat) : list (nat * nat) := rev (list_prod (seq (k * min (min (S b * 2) 5 - b * 2) 3) (min (min (min (S b * 2) 5 - b * 2) 3) (min (S b * 2) 5 - b * 2 - k * min (min (S b * 2) 5 - b * 2) 3))) (seq 0 1)).

Example C55_case : boundaries 3 2 [0; 2; 3] /\ rows_of 3 3 ex_pivots /\ rows_of 5 3 ex_rows /\ pq_orders 5 (min 5 2) 3 ex_pq_orders /\
  (forall p i a, p < 5 -> i < 2 -> nth_error [0; 2; 3] i = Some a -> usable (pivot_dist ex_cdist ex_centroid ex_pivots ex_rows a (chunk_size 3 2 i) p) 3) /\
  pq_encode pop_all 3 2 ex_cdist 5 3 3 2 ex_centroid (seq 0 3) [0; 2; 3] ex_pivots ex_rows ex_pq_orders =
    Ok (u32 5 ++ u32 2 ++ [1; 2; 0; 0; 2; 0; 1; 1; 1; 2]%N).
Proof.
  split; [|split; [|split; [|split; [|split]]]].
  - split; [reflexivity|]. split; [reflexivity|]. split; [reflexivity|]. intros [|[|i]] Hi; [exists 0|exists 2|lia]; split; reflexivity.
  - split; [reflexivity|]. intros x [<-|[<-|[<-|[]]]]; reflexivity.
  - split; [reflexivity|]. intros x [<-|[<-|[<-|[<-|[<-|[]]]]]]; reflexivity.
  - intros b i size k. apply Permutation_sym, Permutation_rev.
  - intros p i a Hp Hi Ha. assert (Ea : a = 2 * i) by (destruct i as [|[|i]]; [injection Ha as <-; auto|injection Ha as <-; auto|lia]). subst a.
    split; [|exists 0; split; [lia|]].
    + intros c Hc. destruct p as [|[|[|[|[|p]]]]]; try lia; destruct i as [|[|i]]; try lia; destruct c as [|[|[|c]]]; try lia; vm_compute; reflexivity.
    + destruct p as [|[|[|[|[|p]]]]]; try lia; destruct i as [|[|i]]; try lia; vm_compute; reflexivity.
  - vm_compute. reflexivity.
Qed.

(** C55.  Without points the code divides by zero. *)
Theorem C55_no_points_refuted : forall popf mbs maxb cdist dim nc chunks centroid rearr offs pivots rows orders,
  pq_encode popf mbs maxb cdist 0 dim nc chunks centroid rearr offs pivots rows orders = UB.
Proof. intros. reflexivity. Qed.
Print Assumptions C55_no_points_refuted.

(** C59.  The blocks of a blocked loop, as cut by DIV_ROUND_UP and min, are not empty and
    hold every item once, in order. *)
Theorem C59_blocks_cover : forall n bs, 1 <= bs ->
  concat (map (fun b => seq (b * bs) (min (S b * bs) n - b * bs)) (seq 0 (div_round_up n bs))) = seq 0 n.
Proof. exact blocks_cover. Qed.
Print Assumptions C59_blocks_cover.

Theorem C59_blocks_nonempty : forall n bs b, 1 <= bs -> b < div_round_up n bs -> 1 <= min (S b * bs) n - b * bs <= bs.
Proof. exact blocks_nonempty. Qed.
Print Assumptions C59_blocks_nonempty.

Example C59_case : map (fun b => seq (b * 3) (min (S b * 3) 7 - b * 3)) (seq 0 (div_round_up 7 3)) = [[0; 1; 2]; [3; 4; 5]; [6]].
Proof. reflexivity. Qed.

(** C59.  The code file of product quantisation does not depend on the block sizes nor on
    the order of the parallel loops. *)
Theorem C59_pq_block_free : forall popf mbs maxb orders mbs' maxb' orders' cdist n dim nc chunks centroid offs pivots rows,
  pops popf -> 1 <= mbs -> 1 <= maxb -> 1 <= mbs' -> 1 <= maxb' -> 1 <= n -> 1 <= chunks -> chunks <= dim -> boundaries dim chunks offs ->
  length centroid = dim -> rows_of nc dim pivots -> rows_of n dim rows -> pq_orders n (min n maxb) mbs orders -> pq_orders n (min n maxb') mbs' orders' ->
  (forall p i a, p < n -> i < chunks -> nth_error offs i = Some a -> usable (pivot_dist cdist centroid pivots rows a (chunk_size dim chunks i) p) nc) ->
  pq_encode popf mbs maxb cdist n dim nc chunks centroid (seq 0 dim) offs pivots rows orders =
  pq_encode popf mbs' maxb' cdist n dim nc chunks centroid (seq 0 dim) offs pivots rows orders'.
Proof. exact pq_block_free. Qed.
Print Assumptions C59_pq_block_free.
