(** * Lemmas about random slices. *)
From Coq Require Import List Arith NArith Bool Lia.
From Verif Require Import Base Bytes Float32 ListLemmas StreamModel BinModel BinSpec BinProofs CacheModel CacheProofs TruthModel TruthProofs PqModel PqProofs PqProofs2
  ShardModel ShardSpec ShardProofs ShardProofs2 SliceModel.
Import ListNotations.

Lemma slice_points_ok : forall g n dim rows rl pick, rows_ok n rl dim rows -> forall cnt i c, i + cnt <= n -> rinv (vector_file dim rows) (8 + i * rl) c ->
  slice_points g rl pick c i cnt = Ok (map (fun p => (p, nth p rows [])) (filter pick (seq i cnt))).
Proof.
  intros g n dim rows rl pick HR. induction cnt as [|cnt IH]; intros i c Hn R; cbn [slice_points]; [reflexivity|].
  destruct (take_block g n dim rows rl i 1 c HR ltac:(lia) R) as [c' [E R']]. rewrite Nat.mul_1_l in E. rewrite E. cbn [bind fst snd].
  rewrite Nat.add_1_r in R'. rewrite IH; [|lia|exact R']. cbn [bind seq filter]. destruct HR as [HL [HR1 _]].
  pose proof (row_of_block dim rows rl i 1 0 HR1 ltac:(lia) ltac:(lia)) as X. unfold row_bytes in X. cbn [Nat.mul skipn] in X. rewrite Nat.add_0_r in X.
  rewrite Nat.add_0_r in X. rewrite firstn_firstn, Nat.min_id in X. rewrite X. destruct (pick i); reflexivity.
Qed.

Lemma slice_file_ok : forall g w n dim rows pick, rows_ok n (dim * w) dim rows ->
  let ids := filter pick (seq 0 n) in slice_file g w pick (Some (vector_file dim rows)) = Ok (shard_file dim rows ids, id_file ids).
Proof.
  intros g w n dim rows pick HR ids. unfold slice_file.
  destruct (vector_header g n _ dim rows HR) as [c1 [c2 [E1 [E2 R]]]]. rewrite E1. cbn [bind fst snd]. rewrite E2. cbn [bind fst snd].
  pose proof HR as [HL [HR1 [Hn32 [Hd32 Hf]]]]. rewrite !dec_u32 by auto. rewrite !Nat2N.id.
  rewrite (slice_points_ok g n dim rows (dim * w) pick HR n 0 c2) by auto. cbn [bind]. fold ids. rewrite map_length, !map_map. cbn [fst snd].
  unfold shard_file, id_file, vector_file. rewrite !map_length. reflexivity.
Qed.

Lemma slice_floats_ok : forall g w conv n dim rows pick, rows_ok n (dim * w) dim rows ->
  let ids := filter pick (seq 0 n) in slice_floats g w conv pick (Some (vector_file dim rows)) =
    Ok (concat (map (fun p => map conv (dec_all w dim (nth p rows []))) ids), length ids, dim).
Proof.
  intros g w conv n dim rows pick HR ids. unfold slice_floats.
  destruct (vector_header g n _ dim rows HR) as [c1 [c2 [E1 [E2 R]]]]. rewrite E1. cbn [bind fst snd]. rewrite E2. cbn [bind fst snd].
  pose proof HR as [HL [HR1 [Hn32 [Hd32 Hf]]]]. rewrite !dec_u32 by auto. rewrite !Nat2N.id.
  rewrite (slice_points_ok g n dim rows (dim * w) pick HR n 0 c2) by auto. cbn [bind]. fold ids. rewrite map_length, !map_map. reflexivity.
Qed.

Lemma concat_elem : forall (rows : list (list N)) dim i d, (forall r, In r rows -> length r = dim) -> i < length rows -> d < dim ->
  nth_error (concat rows) (dim * i + d) = nth_error (nth i rows []) d.
Proof.
  induction rows as [|r rows IH]; intros dim i d H Hi Hd; [cbn in Hi; lia|]. assert (E : length r = dim) by (apply H; now left). destruct i as [|i]; cbn [concat nth].
  - rewrite Nat.mul_0_r, nth_error_app1 by (cbn; lia). reflexivity.
  - rewrite nth_error_app2 by lia. rewrite <- (IH dim i d); [f_equal; lia|intros; apply H; now right|cbn in Hi; lia|auto].
Qed.

Lemma slice_memory_ok : forall conv dim pick rows, (forall r, In r rows -> length r = dim) -> forall cnt i, i + cnt <= length rows ->
  slice_memory conv dim pick (concat rows) i cnt = Ok (map (fun p => map conv (nth p rows [])) (filter pick (seq i cnt))).
Proof.
  intros conv dim pick rows H. induction cnt as [|cnt IH]; intros i Hi; cbn [slice_memory seq filter]; [reflexivity|]. destruct (pick i); [|apply IH; lia].
  assert (E : collect (fun d => rd (concat rows) (dim * i + d)) (seq 0 dim) = Ok (nth i rows [])).
  { rewrite (collect_map _ _ (fun d => rd (concat rows) (dim * i + d)) (fun d => nth d (nth i rows []) 0%N)).
    - f_equal. assert (L : length (nth i rows []) = dim) by (apply H, nth_In; lia). rewrite <- L. apply map_nth_seq.
    - intros d Hd. apply in_seq in Hd. apply rd_ok. rewrite (concat_elem rows dim i d) by (auto; lia). apply nth_error_nth'. rewrite (H (nth i rows [])); [lia|]. apply nth_In. lia. }
  rewrite E. cbn [bind]. rewrite IH by lia. reflexivity.
Qed.
