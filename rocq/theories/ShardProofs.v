(** * Lemmas about sharding. *)
From Coq Require Import List Arith NArith Bool Lia.
From Verif Require Import Base Bytes Float32 ListLemmas TopKSpec StreamModel BinModel BinSpec BinProofs CacheModel CacheProofs ClosestModel ClosestSpec ClosestProofs
  TruthModel TruthProofs PqModel PqProofs PqProofs2 ShardModel ShardSpec.
Import ListNotations.

(** ** One point *)
Definition shard_of (wd : bool) (rows : list (list N)) (l : list nat) : shard :=
  mkSh (if wd then concat (map (fun p => nth p rows []) l) else []) (enc_all 4 (map N.of_nat l)) (length l).
Definition shards_of (wd : bool) (rows : list (list N)) (nc : nat) (L : nat -> list nat) : list shard := map (fun i => shard_of wd rows (L i)) (seq 0 nc).

Lemma shards_nth : forall wd rows nc L i, i < nc -> nth_error (shards_of wd rows nc L) i = Some (shard_of wd rows (L i)).
Proof. intros. unfold shards_of. rewrite nth_error_map, nth_error_seq_lt by auto. reflexivity. Qed.

Lemma shards_ext : forall wd rows nc L L', (forall i, i < nc -> L i = L' i) -> shards_of wd rows nc L = shards_of wd rows nc L'.
Proof. intros wd rows nc L L' H. apply map_ext_in. intros i Hi. apply in_seq in Hi. rewrite H by lia. reflexivity. Qed.

Lemma shard_snoc : forall (wd : bool) (rows : list (list N)) l p, mkSh (if wd then sh_data (shard_of wd rows l) ++ nth p rows [] else sh_data (shard_of wd rows l))
    (sh_ids (shard_of wd rows l) ++ u32 (N.of_nat p)) (S (sh_count (shard_of wd rows l))) = shard_of wd rows (l ++ [p]).
Proof.
  intros wd rows l p. unfold shard_of. cbn [sh_data sh_ids sh_count]. f_equal.
  - destruct wd; [|reflexivity]. rewrite map_app, concat_app. cbn. now rewrite app_nil_r.
  - unfold enc_all. rewrite map_app, flat_map_app. cbn [map flat_map]. now rewrite app_nil_r.
  - rewrite app_length. cbn. lia.
Qed.

Lemma shard_copies_ok : forall wd rows nc k p pt closest ss p1 L,
  (forall t s, nth_error ss t = Some s -> nth_error closest (p * k + p1 + t) = Some s) -> (forall s, In s ss -> s < nc) ->
  shard_copies wd k p (N.of_nat pt) (nth pt rows []) closest p1 (length ss) (shards_of wd rows nc L) =
    Ok (shards_of wd rows nc (fun i => L i ++ repeat pt (count_occ Nat.eq_dec ss i))).
Proof.
  intros wd rows nc k p pt closest. induction ss as [|s ss IH]; intros p1 L Hc Hs; cbn [length shard_copies].
  - f_equal. apply shards_ext. intros i Hi. cbn. now rewrite app_nil_r.
  - assert (E1 : rd closest (p * k + p1) = Ok s) by (apply rd_ok; rewrite <- (Hc 0 s eq_refl); f_equal; lia). rewrite E1. cbn [bind].
    assert (Hlt : s < nc) by (apply Hs; now left).
    assert (E2 : rd (shards_of wd rows nc L) s = Ok (shard_of wd rows (L s))) by (apply rd_ok, shards_nth; auto). rewrite E2. cbn [bind]. rewrite shard_snoc.
    destruct (wr_nth _ (shards_of wd rows nc L) s (shard_of wd rows (L s ++ [pt]))) as [b [Ew [Lw Nw]]]; [unfold shards_of; rewrite map_length, seq_length; auto|].
    rewrite Ew. cbn [bind]. assert (Eb : b = shards_of wd rows nc (fun i => L i ++ repeat pt (if Nat.eq_dec s i then 1 else 0))).
    { apply nth_error_ext_lt; [rewrite Lw; unfold shards_of; now rewrite !map_length|]. intros i Hi. rewrite Lw in Hi. unfold shards_of in Hi. rewrite map_length, seq_length in Hi. rewrite Nw.
      destruct (Nat.eq_dec i s) as [->|Hne]; rewrite shards_nth by auto; [destruct (Nat.eq_dec s s); [reflexivity|congruence]|]. rewrite shards_nth by auto.
      destruct (Nat.eq_dec s i); [congruence|]. cbn. now rewrite app_nil_r. }
    rewrite Eb. rewrite IH; [|intros t s' Ht; rewrite <- (Hc (S t) s' Ht); f_equal; lia|intros; apply Hs; now right].
    f_equal. apply shards_ext. intros i Hi. rewrite <- app_assoc, <- repeat_app. f_equal. f_equal. cbn [count_occ]. destruct (Nat.eq_dec s i); lia.
Qed.

(** ** The points of a block *)
Lemma members_snoc : forall assign m i, members assign m i ++ repeat m (count_occ Nat.eq_dec (assign m) i) = members assign (S m) i.
Proof. intros. unfold members. rewrite seq_S, flat_map_app. cbn [plus flat_map]. now rewrite app_nil_r. Qed.

Lemma shard_points_ok : forall wd rows nc k rowlen start blk closest assign, 
  forall cnt p, (forall j, p <= j -> j < p + cnt -> row_bytes rowlen j blk = nth (start + j) rows [] /\ length (assign (start + j)) = k /\
     (forall s, In s (assign (start + j)) -> s < nc) /\ forall l s, nth_error (assign (start + j)) l = Some s -> nth_error closest (j * k + l) = Some s) ->
  shard_points wd rowlen k start blk closest p cnt (shards_of wd rows nc (members assign (start + p))) = Ok (shards_of wd rows nc (members assign (start + p + cnt))).
Proof.
  intros wd rows nc k rowlen start blk closest assign. induction cnt as [|cnt IH]; intros p H; cbn [shard_points]; [now rewrite Nat.add_0_r|].
  destruct (H p ltac:(lia) ltac:(lia)) as [Er [El [Hs Hc]]]. rewrite Er. replace (shard_copies wd k p (N.of_nat (start + p)) (nth (start + p) rows []) closest 0 k) with (shard_copies wd k p (N.of_nat (start + p)) (nth (start + p) rows []) closest 0 (length (assign (start + p)))) by now rewrite El.
  rewrite shard_copies_ok; [|intros t s Ht; rewrite Nat.add_0_r; auto|auto]. cbn [bind].
  rewrite (shards_ext _ _ _ _ (members assign (start + S p))) by (intros; rewrite members_snoc; now replace (S (start + p)) with (start + S p) by lia).
  rewrite IH by (intros; apply H; lia). now replace (start + S p + cnt) with (start + p + S cnt) by lia.
Qed.

(** ** The closest centres of a block *)
Lemma shard_closest : forall popf mbs dmat n nc k start size orders closest, pops popf -> 1 <= mbs -> 1 <= size -> start + size <= n ->
  block_orders size k (min size mbs) orders -> usable_dists dmat n nc k -> size * k <= length closest -> k <= nc ->
  exists ivf, compute_closest popf mbs (fun j => dmat (start + j)) size nc k orders (firstn (size * k) closest) None = Ok (ivf, None) /\ length ivf = size * k /\
    forall j l s, j < size -> nth_error (nearest_ids popf (dmat (start + j)) nc k) l = Some s -> nth_error ivf (j * k + l) = Some s.
Proof.
  intros popf mbs dmat n nc k start size orders closest Hp Hm Hs Hn Ho HU HL Hk.
  assert (Hrow : forall j, j < size -> row_ok (dmat (start + j)) nc k).
  { intros j Hj. destruct (HU (start + j) ltac:(lia)) as [U1 U2]. split; [auto|]. split; auto. }
  destruct (compute_closest_ok popf mbs (fun j => dmat (start + j)) size nc k orders (firstn (size * k) closest) None) as [ivf [inv [E [L [I [HN _]]]]]]; auto.
  { rewrite firstn_length. lia. } { intros v Hv. discriminate. }
  rewrite (HN eq_refl) in E. exists ivf. split; [auto|]. split; [auto|]. intros j l s Hj Hl.
  destruct (nearest_ids_ok popf (dmat (start + j)) nc k Hp (Hrow j Hj)) as [NL _].
  rewrite I; auto. rewrite <- NL. apply nth_error_Some. rewrite Hl. discriminate.
Qed.

(** ** The blocks *)
Definition assigned (popf : list (nat * f32) -> list (nat * f32)) (dmat : nat -> nat -> f32) (nc k p : nat) : list nat :=
  if nc <? k then repeat 0 k else nearest_ids popf (dmat p) nc k.

Lemma assigned_ok : forall popf dmat n nc k p, pops popf -> usable_dists dmat n nc k -> p < n -> 1 <= nc ->
  length (assigned popf dmat nc k p) = k /\ (forall s, In s (assigned popf dmat nc k p) -> s < nc).
Proof.
  intros popf dmat n nc k p Hp HU Hn Hc. unfold assigned. destruct (Nat.ltb_spec nc k) as [H|H].
  - split; [apply repeat_length|]. intros s Hs. apply repeat_spec in Hs. lia.
  - destruct (HU p Hn) as [U1 U2]. destruct (nearest_ids_ok popf (dmat p) nc k Hp) as [A [_ [B _]]]; [split; [auto|split; auto]|]. auto.
Qed.

Lemma block_closest : forall popf mbs dmat n nc k start size bs orders closest, pops popf -> 1 <= mbs -> 1 <= size -> start + size <= n -> size <= bs ->
  block_orders size k (min size mbs) orders -> usable_dists dmat n nc k -> length closest = bs * k -> (nc < k -> closest = repeat 0 (bs * k)) ->
  exists ivf, compute_closest popf mbs (fun j => dmat (start + j)) size nc k orders (firstn (size * k) closest) None = Ok (ivf, None) /\
    length (ivf ++ skipn (size * k) closest) = bs * k /\ (nc < k -> ivf ++ skipn (size * k) closest = repeat 0 (bs * k)) /\ length ivf = size * k /\
    forall j l s, j < size -> nth_error (assigned popf dmat nc k (start + j)) l = Some s -> nth_error (ivf ++ skipn (size * k) closest) (j * k + l) = Some s.
Proof.
  intros popf mbs dmat n nc k start size bs orders closest Hp Hm Hs Hn Hb Ho HU HL HZ.
  assert (Hk : size * k <= bs * k) by (apply Nat.mul_le_mono_r; auto).
  destruct (Nat.ltb_spec nc k) as [Hlt|Hge].
  - exists (firstn (size * k) closest). unfold compute_closest. rewrite (proj2 (Nat.ltb_lt nc k)) by auto. rewrite firstn_skipn.
    split; [auto|]. split; [auto|]. split; [auto|]. split; [rewrite firstn_length; lia|]. intros j l s Hj Hl. unfold assigned in Hl. rewrite (proj2 (Nat.ltb_lt nc k)) in Hl by auto.
    assert (l < k) by (rewrite <- (repeat_length 0 k); apply nth_error_Some; rewrite Hl; discriminate).
    assert (s = 0) by (apply nth_error_In in Hl; now apply repeat_spec in Hl). subst s. rewrite HZ by auto. apply nth_error_repeat.
    apply Nat.lt_le_trans with (size * k); [|auto]. apply Nat.lt_le_trans with (j * k + k); [lia|]. replace (j * k + k) with (S j * k) by lia. apply Nat.mul_le_mono_r. lia.
  - destruct (shard_closest popf mbs dmat n nc k start size orders closest) as [ivf [E [L I]]]; auto; [lia|]. exists ivf. split; [auto|].
    split; [rewrite app_length, skipn_length; lia|]. split; [lia|]. split; [auto|]. intros j l s Hj Hl. unfold assigned in Hl. rewrite (proj2 (Nat.ltb_ge nc k)) in Hl by auto.
    assert (X : nth_error ivf (j * k + l) = Some s) by (apply I; auto). rewrite nth_error_app1; [auto|]. apply nth_error_Some. rewrite X. discriminate.
Qed.

Lemma concat_row : forall (rows : list (list N)) rl p, (forall r, In r rows -> length r = rl) -> p < length rows -> firstn rl (skipn (p * rl) (concat rows)) = nth p rows [].
Proof.
  induction rows as [|r rows IH]; intros rl p H Hp; [cbn in Hp; lia|]. destruct p as [|p].
  - cbn [concat nth Nat.mul skipn]. rewrite <- (H r) by now left. apply firstn_len_app. auto.
  - cbn [concat nth]. assert (E : length r = rl) by (apply H; now left). replace (S p * rl) with (length r + p * rl) by (rewrite E; lia).
    rewrite skipn_app. rewrite skipn_all2 by lia. replace (length r + p * rl - length r) with (p * rl) by lia. cbn [app]. apply IH; [intros; apply H; now right|cbn in Hp; lia].
Qed.

Lemma concat_len : forall (rows : list (list N)) rl, (forall r, In r rows -> length r = rl) -> length (concat rows) = length rows * rl.
Proof. induction rows as [|r rows IH]; intros rl H; [reflexivity|]. cbn [concat length]. rewrite app_length, (IH rl) by (intros; apply H; now right). rewrite (H r) by now left. lia. Qed.

Lemma skipn_add : forall (A : Type) (l : list A) a b, skipn a (skipn b l) = skipn (b + a) l.
Proof. intros A l a b. revert l. induction b as [|b IH]; intros l; [reflexivity|]. destruct l; [now rewrite !skipn_nil|]. cbn [skipn plus]. apply IH. Qed.

Lemma row_of_block : forall dim rows rl start size p, (forall r, In r rows -> length r = rl) -> p < size -> start + size <= length rows ->
  row_bytes rl p (firstn (size * rl) (skipn (8 + start * rl) (vector_file dim rows))) = nth (start + p) rows [].
Proof.
  intros dim rows rl start size p H Hp Hs. unfold row_bytes, vector_file.
  assert (E : skipn (8 + start * rl) (u32 (N.of_nat (length rows)) ++ u32 (N.of_nat dim) ++ concat rows) = skipn (start * rl) (concat rows)).
  { rewrite <- skipn_add. f_equal. }
  rewrite E. rewrite <- (concat_row rows rl (start + p) H) by lia.
  rewrite skipn_firstn_comm, firstn_firstn, skipn_add. replace ((start + p) * rl) with (start * rl + p * rl) by lia.
  f_equal. apply Nat.min_l. replace (size * rl - p * rl) with ((size - p) * rl) by (rewrite Nat.mul_sub_distr_r; auto). rewrite <- (Nat.mul_1_l rl) at 1. apply Nat.mul_le_mono_r. lia.
Qed.

Lemma vector_file_length : forall dim rows rl, (forall r, In r rows -> length r = rl) -> length (vector_file dim rows) = 8 + length rows * rl.
Proof. intros. unfold vector_file. rewrite !app_length, (concat_len rows rl) by auto. reflexivity. Qed.

(** Reading the next block. *)
Lemma take_block : forall g n dim rows rl start size c, rows_ok n rl dim rows -> start + size <= n -> rinv (vector_file dim rows) (8 + start * rl) c ->
  exists c', take g (N.of_nat (size * rl)) c = Ok (firstn (size * rl) (skipn (8 + start * rl) (vector_file dim rows)), c') /\ rinv (vector_file dim rows) (8 + (start + size) * rl) c'.
Proof.
  intros g n dim rows rl start size c [HL [HR [Hn [Hd Hf]]]] Hs R.
  assert (Hle : start * rl + size * rl <= n * rl) by (rewrite <- Nat.mul_add_distr_r; apply Nat.mul_le_mono_r; auto).
  destruct (take_ok g (N.of_nat (size * rl)) _ _ _ R) as [c' [E R']].
  - lia.
  - rewrite skipn_length, (vector_file_length dim rows rl HR), HL. lia.
  - exists c'. rewrite Nat2N.id in E, R'. split; [auto|]. replace (8 + (start + size) * rl) with (8 + start * rl + size * rl) by lia. exact R'.
Qed.

Lemma shard_blocks_ok : forall g popf mbs wd dmat n dim rows rl nc k bs orders, pops popf -> 1 <= mbs -> 1 <= bs -> 1 <= nc ->
  rows_ok n rl dim rows -> usable_dists dmat n nc k -> shard_orders n k bs mbs orders ->
  forall cnt b c closest, n <= (b + cnt) * bs -> ((b + cnt) * bs < n + bs \/ cnt = 0) ->
    (cnt <> 0 -> rinv (vector_file dim rows) (8 + b * bs * rl) c) -> length closest = bs * k -> (nc < k -> closest = repeat 0 (bs * k)) ->
    shard_blocks g popf mbs wd dmat n rl nc k bs orders c b cnt closest (shards_of wd rows nc (members (assigned popf dmat nc k) (min (b * bs) n))) =
      Ok (shards_of wd rows nc (members (assigned popf dmat nc k) n)).
Proof.
  intros g popf mbs wd dmat n dim rows rl nc k bs orders Hp Hm Hbs Hnc HR HU Ho. induction cnt as [|cnt IH]; intros b c closest H1 H2 HRv HL HZ; cbn [shard_blocks].
  - rewrite Nat.add_0_r in H1. now rewrite Nat.min_r by lia.
  - assert (Hlt : b * bs < n). { destruct H2 as [H2|H2]; [|lia]. assert (S b * bs <= (b + S cnt) * bs) by (apply Nat.mul_le_mono_r; lia). lia. }
    rewrite (Nat.min_l (b * bs) n) by lia. set (start := b * bs) in *. set (size := min (S b * bs) n - start).
    assert (ES : S b * bs = start + bs) by (unfold start; lia). assert (Hsz : 1 <= size <= bs /\ start + size <= n /\ start + size = min (S b * bs) n) by (unfold size; lia).
    destruct Hsz as [Hsz [Hsn Hse]]. clearbody size.
    destruct (take_block g n dim rows rl start size c HR Hsn (HRv ltac:(lia))) as [c' [Et R']]. rewrite Et. cbn [bind fst snd].
    pose proof (Ho b) as Hob. cbn zeta in Hob. fold start in Hob. replace (min (S b * bs) n - start) with size in Hob by lia.
    destruct (block_closest popf mbs dmat n nc k start size bs (orders b) closest) as [ivf [Ec [L' [Z' [L2 I]]]]]; auto; try lia.
    rewrite Ec. cbn [bind fst]. destruct HR as [HR1 [HR2 HR3]].
    pose proof (shard_points_ok wd rows nc k rl start (firstn (size * rl) (skipn (8 + start * rl) (vector_file dim rows))) (ivf ++ skipn (size * k) closest) (assigned popf dmat nc k) size 0) as SP.
    rewrite !Nat.add_0_r in SP. rewrite SP.
    + cbn [bind]. rewrite Hse. replace (b + S cnt) with (S b + cnt) in H1, H2 by lia. apply IH; auto; [left; lia|].
      intros Hc. assert (S b * bs < n). { assert (S (S b) * bs <= (S b + cnt) * bs) by (apply Nat.mul_le_mono_r; lia). lia. }
        replace (S b * bs * rl) with ((start + size) * rl); [exact R'|]. f_equal. lia.
    + intros j _ Hj. split; [apply row_of_block; auto; lia|]. destruct (assigned_ok popf dmat n nc k (start + j)) as [A1 A2]; auto; try lia.
Qed.
