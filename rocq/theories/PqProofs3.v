(** * The codes in the file of product quantisation. *)
From Coq Require Import List Arith NArith Bool Lia.
From Verif Require Import Base Bytes Float32 ListLemmas ClosestModel ClosestSpec ClosestProofs PqModel PqSpec PqProofs PqProofs2.
Import ListNotations.

Lemma code_width_fits : forall nc c, c < nc -> (N.of_nat nc <= 2 ^ 32)%N -> (N.of_nat c < 256 ^ N.of_nat (code_width nc))%N.
Proof.
  intros nc c Hc Hn. unfold code_width. destruct (Nat.ltb_spec 256 nc) as [H|H].
  - change (256 ^ N.of_nat 4)%N with (2 ^ 32)%N. lia.
  - change (256 ^ N.of_nat 1)%N with 256%N. lia.
Qed.

Lemma matrix_in : forall f start n chunks x, In x (matrix f start n chunks) -> exists p i, start <= p < start + n /\ i < chunks /\ x = f p i.
Proof.
  intros f start n chunks x H. unfold matrix in H. apply in_flat_map in H. destruct H as [p [Hp H]]. apply in_map_iff in H. destruct H as [i [E Hi]].
  apply in_seq in Hp. apply in_seq in Hi. exists p, i. split; [lia|]. split; [lia|]. auto.
Qed.

Lemma pq_encode_codes : forall popf mbs maxb cdist n dim nc chunks centroid offs pivots rows orders,
  pops popf -> 1 <= mbs -> 1 <= maxb -> 1 <= n -> 1 <= chunks -> chunks <= dim -> boundaries dim chunks offs ->
  length centroid = dim -> rows_of nc dim pivots -> rows_of n dim rows -> pq_orders n (min n maxb) mbs orders -> (N.of_nat nc <= 2 ^ 32)%N ->
  (forall p i a, p < n -> i < chunks -> nth_error offs i = Some a -> usable (pivot_dist cdist centroid pivots rows a (chunk_size dim chunks i) p) nc) ->
  exists codes body, pq_encode popf mbs maxb cdist n dim nc chunks centroid (seq 0 dim) offs pivots rows orders =
      Ok (u32 (N.of_nat n) ++ u32 (N.of_nat chunks) ++ body) /\
    length codes = n * chunks /\ length body = code_width nc * (n * chunks) /\ dec_all (code_width nc) (n * chunks) body = map N.of_nat codes /\
    forall p i a, p < n -> i < chunks -> nth_error offs i = Some a ->
      exists c, nth_error codes (p * chunks + i) = Some c /\ first_nearest (pivot_dist cdist centroid pivots rows a (chunk_size dim chunks i) p) nc c.
Proof.
  intros popf mbs maxb cdist n dim nc chunks centroid offs pivots rows orders Hp Hm Hx Hn Hc Hcd HB HCl HP HR Ho Hnc HU.
  assert (HU' : forall p i, p < n -> i < chunks -> usable (pivot_dist cdist centroid pivots rows (off dim chunks i) (chunk_size dim chunks i) p) nc).
  { intros p i H1 H2. apply HU; auto. apply boundaries_off; auto. lia. }
  set (codes := matrix (pq_code cdist dim chunks nc centroid pivots rows) 0 n chunks).
  assert (HL : length codes = n * chunks) by apply matrix_length.
  exists codes, (enc_all (code_width nc) (map N.of_nat codes)). split; [apply pq_encode_eq; auto|]. split; [exact HL|].
  split; [now rewrite enc_all_length, map_length, HL|]. split.
  - rewrite <- HL, <- (map_length N.of_nat codes), <- (app_nil_r (enc_all _ _)). apply dec_all_enc. intros x Hx'. apply in_map_iff in Hx'. destruct Hx' as [c [<- Hc']].
    apply matrix_in in Hc'. destruct Hc' as [p [i [Hp' [Hi ->]]]]. apply code_width_fits; [|auto]. unfold pq_code.
    apply (code_of_nearest _ nc (HU' p i ltac:(lia) Hi)).
  - intros p i a H1 H2 Ha. rewrite (boundaries_off dim chunks offs HB i) in Ha by lia. injection Ha as <-.
    exists (pq_code cdist dim chunks nc centroid pivots rows p i). split; [apply (matrix_nth (pq_code cdist dim chunks nc centroid pivots rows) chunks n 0 p i); auto|].
    apply code_of_nearest. auto.
Qed.

Lemma pq_block_free : forall popf mbs maxb orders mbs' maxb' orders' cdist n dim nc chunks centroid offs pivots rows,
  pops popf -> 1 <= mbs -> 1 <= maxb -> 1 <= mbs' -> 1 <= maxb' -> 1 <= n -> 1 <= chunks -> chunks <= dim -> boundaries dim chunks offs ->
  length centroid = dim -> rows_of nc dim pivots -> rows_of n dim rows -> pq_orders n (min n maxb) mbs orders -> pq_orders n (min n maxb') mbs' orders' ->
  (forall p i a, p < n -> i < chunks -> nth_error offs i = Some a -> usable (pivot_dist cdist centroid pivots rows a (chunk_size dim chunks i) p) nc) ->
  pq_encode popf mbs maxb cdist n dim nc chunks centroid (seq 0 dim) offs pivots rows orders =
  pq_encode popf mbs' maxb' cdist n dim nc chunks centroid (seq 0 dim) offs pivots rows orders'.
Proof.
  intros popf mbs maxb orders mbs' maxb' orders' cdist n dim nc chunks centroid offs pivots rows Hp Hm Hx Hm' Hx' Hn Hc Hcd HB HCl HP HR Ho Ho' HU.
  assert (HU' : forall p i, p < n -> i < chunks -> usable (pivot_dist cdist centroid pivots rows (off dim chunks i) (chunk_size dim chunks i) p) nc).
  { intros p i H1 H2. apply HU; auto. apply boundaries_off; auto. lia. }
  now rewrite !pq_encode_eq by auto.
Qed.

(** The blocks of the loops: block [b] of size [bs] holds the items from b * bs to
    min ((b + 1) * bs, n). *)
Lemma blocks_cover : forall n bs, 1 <= bs ->
  concat (map (fun b => seq (b * bs) (min (S b * bs) n - b * bs)) (seq 0 (div_round_up n bs))) = seq 0 n.
Proof.
  intros n bs H. rewrite div_round_up_eq. destruct (n_blocks_bounds n bs H) as [B1 B2].
  rewrite (map_ext _ (fun b => seq (b * bs) (min bs (n - b * bs)))) by (intros b; f_equal; lia).
  rewrite blocks_seq by lia. f_equal. lia.
Qed.

Lemma blocks_nonempty : forall n bs b, 1 <= bs -> b < div_round_up n bs -> 1 <= min (S b * bs) n - b * bs <= bs.
Proof.
  intros n bs b H Hb. rewrite div_round_up_eq in Hb. destruct (n_blocks_bounds n bs H) as [B1 B2].
  assert (S b * bs <= n_blocks n bs * bs) by (apply Nat.mul_le_mono_r; lia). lia.
Qed.
