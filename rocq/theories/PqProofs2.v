(** * Lemmas about the codes of product quantisation. *)
From Coq Require Import List Arith NArith Bool Lia.
From Verif Require Import Base Bytes Float32 ListLemmas ClosestModel ClosestSpec ClosestProofs PqModel PqSpec PqProofs.
Import ListNotations.

Lemma collect_map : forall (A B : Type) (f : A -> res B) (g : A -> B) l, (forall x, In x l -> f x = Ok (g x)) -> collect f l = Ok (map g l).
Proof.
  intros A B f g. induction l as [|x l IH]; intros H; cbn; [auto|]. rewrite (H x (or_introl eq_refl)). cbn [bind]. rewrite IH by (intros; apply H; now right). reflexivity.
Qed.

Lemma map_nth_seq : forall (A : Type) (d : A) l, map (fun i => nth i l d) (seq 0 (length l)) = l.
Proof.
  intros A d l. apply nth_error_ext_lt; [now rewrite map_length, seq_length|]. intros i Hi. rewrite map_length, seq_length in Hi.
  rewrite nth_error_map, nth_error_seq_lt by auto. cbn [option_map plus]. symmetry. now apply nth_error_nth'.
Qed.

Lemma nth_skipn : forall (A : Type) (d : A) l a i, nth i (skipn a l) d = nth (a + i) l d.
Proof. intros A d. induction l as [|x l IH]; intros [|a] i; cbn; try reflexivity; [destruct i; reflexivity|apply IH]. Qed.

Lemma nth_firstn : forall (A : Type) (d : A) l k i, i < k -> nth i (firstn k l) d = nth i l d.
Proof. intros A d. induction l as [|x l IH]; intros [|k] [|i] H; cbn; auto; try lia. apply IH. lia. Qed.

Lemma rd_nth : forall (A : Type) (d : A) l i, i < length l -> rd l i = Ok (nth i l d).
Proof. intros A d l i H. apply rd_ok. now apply nth_error_nth'. Qed.

Lemma slice_row_ok : forall a size x, a + size <= length x -> slice_row a size x = Ok (coords a size x).
Proof.
  intros a size x H. unfold slice_row. rewrite (collect_map _ _ _ (fun k => nth (a + k) x f32_zero)).
  - f_equal. unfold coords. rewrite <- (map_nth_seq _ f32_zero (firstn size (skipn a x))). rewrite firstn_length, skipn_length, Nat.min_l by lia.
    apply map_ext_in. intros i Hi. apply in_seq in Hi. rewrite nth_firstn by lia. now rewrite nth_skipn.
  - intros k Hk. apply in_seq in Hk. apply rd_nth. lia.
Qed.

Lemma centred_length : forall centroid x, length x = length centroid -> length (centred centroid x) = length x.
Proof. intros centroid x H. unfold centred. rewrite map_length, combine_length. lia. Qed.

Lemma center_row_ok : forall dim centroid x, length x = dim -> length centroid = dim -> center_row dim centroid x = Ok (centred centroid x).
Proof.
  intros dim centroid x Hx Hc. unfold center_row. rewrite (collect_map _ _ _ (fun d => fsub (nth d x f32_zero) (nth d centroid f32_zero))).
  - f_equal. rewrite <- (map_nth_seq _ f32_zero (centred centroid x)). rewrite centred_length by lia. rewrite Hx. apply map_ext_in. intros i Hi. apply in_seq in Hi.
    unfold centred. rewrite (nth_indep (map (fun p => fsub (fst p) (snd p)) (combine x centroid)) f32_zero (fsub (fst (f32_zero, f32_zero)) (snd (f32_zero, f32_zero)))) by (rewrite map_length, combine_length; lia).
    rewrite (map_nth (fun p => fsub (fst p) (snd p))). rewrite combine_nth by lia. reflexivity.
  - intros d Hd. apply in_seq in Hd. rewrite (rd_nth _ f32_zero x) by lia. rewrite (rd_nth _ f32_zero centroid) by lia. reflexivity.
Qed.

Lemma rearrange_row_id : forall dim x, length x = dim -> rearrange_row dim (seq 0 dim) x = Ok x.
Proof.
  intros dim x H. unfold rearrange_row. rewrite (collect_map _ _ _ (fun d => nth d x f32_zero)); [rewrite <- H; now rewrite map_nth_seq|].
  intros d Hd. apply in_seq in Hd. assert (E : rd (seq 0 dim) d = Ok d) by (apply rd_ok; rewrite nth_error_seq_lt by lia; reflexivity). rewrite E. cbn [bind]. apply rd_nth. lia.
Qed.

Lemma store_codes_ok : forall chunks i, i < chunks -> forall codes j base, (j + length codes) * chunks <= length base ->
  exists base', store_codes chunks i j codes base = Ok base' /\ length base' = length base /\
    (forall t c, nth_error codes t = Some c -> nth_error base' ((j + t) * chunks + i) = Some c) /\
    (forall x, (forall t, t < length codes -> x <> (j + t) * chunks + i) -> nth_error base' x = nth_error base x).
Proof.
  intros chunks i Hi. induction codes as [|c codes IH]; intros j base H; cbn [store_codes length] in *.
  - exists base. split; [auto|]. split; [auto|]. split; [intros [|t]; discriminate|auto].
  - destruct (wr_nth _ base (j * chunks + i) c) as [b1 [E1 [L1 N1]]]; [nia|]. rewrite E1. cbn [bind].
    destruct (IH (S j) b1) as [b2 [E2 [L2 [N2 O2]]]]; [rewrite L1; nia|]. exists b2. split; [auto|]. split; [lia|]. split.
    + intros [|t] c' Hc.
      * cbn in Hc. injection Hc as <-. rewrite O2; [rewrite Nat.add_0_r; rewrite N1; now destruct (Nat.eq_dec _ _)|]. intros t Ht. nia.
      * cbn in Hc. rewrite <- (N2 t c' Hc). f_equal. lia.
    + intros x Hx. rewrite O2; [rewrite N1; destruct (Nat.eq_dec x (j * chunks + i)); [exfalso; apply (Hx 0); [lia|rewrite Nat.add_0_r; auto]|auto]|].
      intros t Ht. replace (S j + t) with (j + S t) by lia. apply Hx. lia.
Qed.

(** ** The code of one point and chunk *)
Lemma closest_one_ext : forall r1 r2 cnt j mn slot, (forall i, j <= i -> i < j + cnt -> r1 i = r2 i) -> closest_one r1 j cnt mn slot = closest_one r2 j cnt mn slot.
Proof.
  intros r1 r2. induction cnt as [|cnt IH]; intros j mn slot H; cbn; auto. rewrite (H j) by lia. destruct (flt (r2 j) mn); apply IH; intros; apply H; lia.
Qed.

Definition code_of (row : nat -> f32) (nc : nat) : nat := match closest_one row 0 nc FLT_MAX None with Some c => c | None => 0 end.

Lemma first_nearest_ext : forall r1 r2 nc c, (forall i, i < nc -> r1 i = r2 i) -> first_nearest r1 nc c -> first_nearest r2 nc c.
Proof.
  intros r1 r2 nc c H [H1 [H2 H3]]. split; [auto|]. split; intros j Hj; rewrite <- (H c) by auto; rewrite <- (H j) by lia; auto.
Qed.

Lemma usable_ok : forall row nc, usable row nc -> exists row', (forall i, i < nc -> row' i = row i) /\ row_ok row' nc 1.
Proof.
  intros row nc [Hn [c [Hc Hf]]]. exists (fun i => if i <? nc then row i else f32_zero). split.
  - intros i Hi. now rewrite (proj2 (Nat.ltb_lt _ _)).
  - split; [|split; [lia|]].
    + intros j. destruct (Nat.ltb_spec j nc); auto.
    + intros _. exists c. split; [auto|]. now rewrite (proj2 (Nat.ltb_lt _ _)).
Qed.

Lemma code_of_nearest : forall row nc, usable row nc -> first_nearest row nc (code_of row nc).
Proof.
  intros row nc H. destruct (usable_ok row nc H) as [row' [E [Hn [_ Hf]]]]. destruct (closest_one_ok row' nc None Hn (Hf eq_refl)) as [c [Ec Hc]].
  unfold code_of. rewrite (closest_one_ext row row') by (intros; symmetry; apply E; lia). rewrite Ec. eapply first_nearest_ext; [|exact Hc]. auto.
Qed.

(** ** One chunk of one block *)
Lemma pq_chunk_ok : forall popf mbs cdist nc chunks offs pivots orders start rows i base a size,
  pops popf -> 1 <= mbs -> 1 <= length rows -> i < chunks ->
  nth_error offs i = Some a -> nth_error offs (S i) = Some (a + size) -> 1 <= size ->
  (forall x, In x rows -> a + size <= length x) -> length pivots = nc -> (forall x, In x pivots -> a + size <= length x) ->
  block_orders (length rows) 1 (min (length rows) mbs) orders -> length rows * chunks <= length base ->
  (forall j, j < length rows -> usable (fun c => cdist (start + j) (coords a size (nth j rows [])) (coords a size (nth c pivots []))) nc) ->
  exists base', pq_chunk popf mbs cdist nc chunks offs pivots orders start rows i base = Ok base' /\ length base' = length base /\
    (forall j, j < length rows -> nth_error base' (j * chunks + i) = Some (code_of (fun c => cdist (start + j) (coords a size (nth j rows [])) (coords a size (nth c pivots []))) nc)) /\
    (forall x, (forall j, j < length rows -> x <> j * chunks + i) -> nth_error base' x = nth_error base x).
Proof.
  intros popf mbs cdist nc chunks offs pivots orders start rows i base a size Hp Hm Hr Hi Ea Eb Hs HR HPl HP Ho HB HU.
  unfold pq_chunk. apply rd_ok in Ea. apply rd_ok in Eb. rewrite Ea, Eb. cbn [bind]. rewrite (proj2 (Nat.ltb_ge _ _)) by lia. rewrite (proj2 (Nat.eqb_neq (a + size) a)) by lia.
  replace (a + size - a) with size by lia.
  rewrite (collect_map _ _ _ (coords a size) rows) by (intros; apply slice_row_ok; auto). cbn [bind].
  rewrite (collect_map _ _ _ (coords a size) pivots) by (intros; apply slice_row_ok; auto). cbn [bind].
  set (dm := chunk_dist cdist start (map (coords a size) rows) (map (coords a size) pivots)).
  assert (Hdm : forall j c, j < length rows -> c < nc -> dm j c = cdist (start + j) (coords a size (nth j rows [])) (coords a size (nth c pivots []))).
  { intros j c Hj Hc. unfold dm, chunk_dist. rewrite !nth_error_map. rewrite (nth_error_nth' rows []) by auto. rewrite (nth_error_nth' pivots []) by lia. reflexivity. }
  assert (Hnan : forall j c, j < length rows -> is_nan (dm j c) = false).
  { intros j c Hj. destruct (Nat.lt_ge_cases c nc) as [L|L]; [rewrite Hdm by auto; apply (HU j Hj); auto|].
    unfold dm, chunk_dist. rewrite !nth_error_map. rewrite (proj2 (nth_error_None pivots c)) by lia. destruct (nth_error rows j); reflexivity. }
  assert (Hnc : 1 <= nc) by (destruct (HU 0 ltac:(lia)) as [_ [c [Hc _]]]; lia).
  assert (Hrow : forall j, j < length rows -> row_ok (dm j) nc 1).
  { intros j Hj. split; [auto|]. split; [auto|]. intros _. destruct (HU j Hj) as [_ [c [Hc Hf]]]. exists c. split; [auto|]. rewrite Hdm by auto. exact Hf. }
  destruct (compute_closest_ok popf mbs dm (length rows) nc 1 orders (repeat 0 (length rows)) None) as [ivf [inv [E [L [I _]]]]]; auto.
  { rewrite repeat_length. lia. } { intros v Hv. discriminate. }
  rewrite E. cbn [bind fst]. destruct (store_codes_ok chunks i Hi ivf 0 base) as [base' [Es [Ls [Ns Os]]]]; [rewrite L; cbn [plus]; lia|].
  exists base'. split; [auto|]. split; [auto|]. split.
  - intros j Hj. apply (Ns j). specialize (I j 0 Hj ltac:(lia)). rewrite Nat.mul_1_r, Nat.add_0_r in I. rewrite I.
    destruct (nearest_one_slot popf (dm j) nc None) as [c [E1 E2]]; [intros; auto|apply (Hrow j Hj); auto|]. rewrite E2. cbn [nth_error]. f_equal.
    unfold code_of. rewrite (closest_one_ext _ (dm j)) by (intros; symmetry; apply Hdm; lia). now rewrite E1.
  - intros x Hx. apply Os. intros t Ht. rewrite L in Ht. cbn [plus]. apply Hx. lia.
Qed.

(** ** All chunks of one block *)
Definition pq_code (cdist : nat -> list f32 -> list f32 -> f32) (dim chunks nc : nat) (centroid : list f32) (pivots rows : list (list f32)) (p i : nat) : nat :=
  code_of (pivot_dist cdist centroid pivots rows (off dim chunks i) (chunk_size dim chunks i) p) nc.

Lemma boundaries_off : forall dim chunks offs, boundaries dim chunks offs -> forall i, i <= chunks -> nth_error offs i = Some (off dim chunks i).
Proof.
  intros dim chunks offs [_ [H0 [_ HS]]]. induction i as [|i IH]; intros Hi; [exact H0|].
  destruct (HS i ltac:(lia)) as [a [E1 E2]]. rewrite IH in E1 by lia. injection E1 as <-. rewrite E2, off_S. reflexivity.
Qed.

Lemma chunk_size_pos : forall dim chunks i, 1 <= chunks -> chunks <= dim -> 1 <= chunk_size dim chunks i.
Proof. intros dim chunks i H1 H2. unfold chunk_size. pose proof (Nat.div_le_lower_bound dim chunks 1 ltac:(lia) ltac:(lia)). lia. Qed.

Lemma pq_block_chunks_ok : forall popf mbs cdist nc dim chunks offs pivots orders start rows (codef : nat -> nat -> nat),
  pops popf -> 1 <= mbs -> 1 <= length rows -> 1 <= chunks -> chunks <= dim -> boundaries dim chunks offs ->
  (forall x, In x rows -> length x = dim) -> rows_of nc dim pivots -> (forall i, block_orders (length rows) 1 (min (length rows) mbs) (orders i)) ->
  (forall j i, j < length rows -> i < chunks ->
     usable (fun c => cdist (start + j) (coords (off dim chunks i) (chunk_size dim chunks i) (nth j rows [])) (coords (off dim chunks i) (chunk_size dim chunks i) (nth c pivots []))) nc /\
     codef j i = code_of (fun c => cdist (start + j) (coords (off dim chunks i) (chunk_size dim chunks i) (nth j rows [])) (coords (off dim chunks i) (chunk_size dim chunks i) (nth c pivots []))) nc) ->
  forall cnt i base, i + cnt = chunks -> length rows * chunks <= length base ->
  (forall j i', j < length rows -> i' < i -> nth_error base (j * chunks + i') = Some (codef j i')) ->
  exists base', pq_block_chunks popf mbs cdist nc chunks offs pivots orders start rows i cnt base = Ok base' /\ length base' = length base /\
    (forall j i', j < length rows -> i' < chunks -> nth_error base' (j * chunks + i') = Some (codef j i')).
Proof.
  intros popf mbs cdist nc dim chunks offs pivots orders start rows codef Hp Hm Hr Hc Hcd HB HR [HPl HP] Ho HU.
  induction cnt as [|cnt IH]; intros i base Hi HL Hdone; cbn [pq_block_chunks].
  - exists base. split; [auto|]. split; [auto|]. intros j i' Hj Hi'. apply Hdone; lia.
  - assert (Hend : off dim chunks i + chunk_size dim chunks i <= dim).
    { rewrite <- off_S. rewrite <- (off_end dim chunks Hc) at 2. apply off_mono. lia. }
    destruct (pq_chunk_ok popf mbs cdist nc chunks offs pivots (orders i) start rows i base (off dim chunks i) (chunk_size dim chunks i)) as [b1 [E1 [L1 [N1 O1]]]]; auto.
    + lia.
    + apply (boundaries_off dim chunks offs HB). lia.
    + rewrite <- off_S. apply (boundaries_off dim chunks offs HB). lia.
    + now apply chunk_size_pos.
    + intros x Hx. rewrite (HR x Hx). auto.
    + intros x Hx. rewrite (HP x Hx). auto.
    + intros j Hj. apply HU; [auto|lia].
    + rewrite E1. cbn [bind]. destruct (IH (S i) b1) as [b2 [E2 [L2 N2]]]; [lia|lia| |exists b2; split; [auto|]; split; [lia|auto]].
      intros j i' Hj Hi'. destruct (Nat.eq_dec i' i) as [->|Hne].
      * rewrite (N1 j Hj). f_equal. symmetry. apply HU; [auto|lia].
      * rewrite O1; [apply Hdone; lia|]. intros j' Hj' X. destruct (Nat.div_mod_unique chunks j j' i' i) as [_ Q]; [lia|lia|lia|congruence].
Qed.

(** ** Flat matrices *)
Definition matrix (f : nat -> nat -> nat) (start n k : nat) : list nat := flat_map (fun p => map (f p) (seq 0 k)) (seq start n).

Lemma matrix_length : forall f start n k, length (matrix f start n k) = n * k.
Proof. intros f start n k. unfold matrix. revert start. induction n as [|n IH]; intros start; cbn; [auto|]. rewrite app_length, map_length, seq_length, IH. lia. Qed.

Lemma matrix_nth : forall f k n start j i, j < n -> i < k -> nth_error (matrix f start n k) (j * k + i) = Some (f (start + j) i).
Proof.
  intros f k. induction n as [|n IH]; intros start j i Hj Hi; [lia|]. unfold matrix. cbn [seq flat_map]. destruct j as [|j].
  - cbn [Nat.mul plus]. rewrite nth_error_app1 by (rewrite map_length, seq_length; auto). rewrite nth_error_map, nth_error_seq_lt by auto. cbn. now rewrite Nat.add_0_r.
  - rewrite nth_error_app2 by (rewrite map_length, seq_length; nia). rewrite map_length, seq_length. replace (S j * k + i - k) with (j * k + i) by lia.
    change (nth_error (matrix f (S start) n k) (j * k + i) = Some (f (start + S j) i)). rewrite IH by lia. f_equal. f_equal. lia.
Qed.

Lemma matrix_app : forall f start n m k, matrix f start n k ++ matrix f (start + n) m k = matrix f start (n + m) k.
Proof. intros. unfold matrix. now rewrite seq_app, flat_map_app. Qed.

Lemma firstn_matrix : forall f start n k base, 1 <= k -> n * k <= length base ->
  (forall j i, j < n -> i < k -> nth_error base (j * k + i) = Some (f (start + j) i)) -> firstn (n * k) base = matrix f start n k.
Proof.
  intros f start n k base Hk HL H. apply nth_error_ext_lt; [rewrite firstn_length, matrix_length; lia|]. intros x Hx. rewrite firstn_length in Hx.
  rewrite nth_error_firstn_lt by lia. pose proof (Nat.div_mod x k ltac:(lia)) as D. pose proof (Nat.mod_upper_bound x k ltac:(lia)) as M.
  assert (Hq : x / k < n) by (apply Nat.div_lt_upper_bound; lia).
  replace x with (x / k * k + x mod k) by lia. rewrite H by auto. rewrite matrix_nth by auto. reflexivity.
Qed.

(** ** The blocks *)
Lemma pq_blocks_ok : forall popf mbs cdist n dim nc chunks bs centroid offs pivots rows orders,
  pops popf -> 1 <= mbs -> 1 <= bs -> 1 <= chunks -> chunks <= dim -> boundaries dim chunks offs ->
  length centroid = dim -> rows_of nc dim pivots -> rows_of n dim rows -> pq_orders n bs mbs orders ->
  (forall p i, p < n -> i < chunks -> usable (pivot_dist cdist centroid pivots rows (off dim chunks i) (chunk_size dim chunks i) p) nc) ->
  forall cnt b base, (b + cnt) * bs < n + bs \/ cnt = 0 -> n <= (b + cnt) * bs -> length base = bs * chunks ->
  pq_blocks popf mbs cdist n dim nc chunks bs centroid (seq 0 dim) offs pivots rows orders b cnt base =
    Ok (enc_all (code_width nc) (map N.of_nat (matrix (pq_code cdist dim chunks nc centroid pivots rows) (b * bs) (n - b * bs) chunks))).
Proof.
  intros popf mbs cdist n dim nc chunks bs centroid offs pivots rows orders Hp Hm Hbs Hc Hcd HB HCl HP [HRl HR] Ho HU.
  induction cnt as [|cnt IH]; intros b base Hlast Hn HL.
  - cbn [pq_blocks]. replace (n - b * bs) with 0 by lia. reflexivity.
  - assert (Hbn : b * bs < n) by (destruct Hlast as [Hlast|]; [nia|lia]).
    cbn [pq_blocks]. cbn zeta. set (start := b * bs) in *. set (size := min (S b * bs) n - start).
    assert (Hsize : 1 <= size /\ size <= bs /\ start + size <= n) by (unfold size; nia).
    destruct Hsize as [Hs1 [Hs2 Hs3]]. set (blkrows := firstn size (skipn start rows)).
    assert (Lblk : length blkrows = size) by (unfold blkrows; rewrite firstn_length, skipn_length; lia).
    assert (Iblk : forall x, In x blkrows -> length x = dim).
    { intros x Hx. apply HR. unfold blkrows in Hx. rewrite <- (firstn_skipn start rows). apply in_or_app. right. rewrite <- (firstn_skipn size (skipn start rows)). apply in_or_app. now left. }
    rewrite (collect_map _ _ _ (centred centroid) blkrows) by (intros; apply center_row_ok; auto). cbn [bind].
    rewrite (collect_map _ _ _ (fun x => x) (map (centred centroid) blkrows)).
    2:{ intros x Hx. apply in_map_iff in Hx. destruct Hx as [y [<- Hy]]. apply rearrange_row_id. rewrite centred_length; rewrite (Iblk y Hy); auto. }
    rewrite map_id. cbn [bind]. set (crows := map (centred centroid) blkrows).
    assert (Lc : length crows = size) by (unfold crows; rewrite map_length; auto).
    assert (Nc : forall j, j < size -> nth j crows [] = centred centroid (nth (start + j) rows [])).
    { intros j Hj. unfold crows. rewrite (nth_indep _ [] (centred centroid [])) by (rewrite map_length; lia). rewrite map_nth. f_equal. unfold blkrows. rewrite nth_firstn by auto. apply nth_skipn. }
    destruct (pq_block_chunks_ok popf mbs cdist nc dim chunks offs pivots (orders b) start crows
                (fun j i => pq_code cdist dim chunks nc centroid pivots rows (start + j) i)) with (cnt := chunks) (i := 0) (base := base) as [b1 [E1 [L1 N1]]]; auto.
    + lia.
    + intros x Hx. unfold crows in Hx. apply in_map_iff in Hx. destruct Hx as [y [<- Hy]]. rewrite centred_length; rewrite (Iblk y Hy); auto.
    + intros i. rewrite Lc. exact (Ho b i).
    + intros j i Hj Hi. rewrite Lc in Hj. rewrite (Nc j Hj). split; [apply (HU (start + j) i); [lia|auto]|reflexivity].
    + rewrite Lc, HL. nia.
    + intros j i' _ Hi'. lia.
    + rewrite E1. cbn [bind]. rewrite IH; [|nia|nia|lia]. cbn [bind]. f_equal.
      unfold code_bytes. assert (F : firstn (size * chunks) b1 = matrix (pq_code cdist dim chunks nc centroid pivots rows) start size chunks).
      { apply firstn_matrix; [auto|rewrite L1, HL; nia|]. intros j i Hj Hi. apply N1; [lia|auto]. }
      rewrite F. unfold enc_all. rewrite <- flat_map_app, <- map_app. f_equal. f_equal.
      destruct (Nat.le_gt_cases (S b * bs) n) as [Hle|Hgt].
      * assert (Esz : size = bs) by (unfold size; nia). replace (S b * bs) with (start + size) by (rewrite Esz; unfold start; lia). rewrite matrix_app. f_equal. lia.
      * assert (Esz : size = n - start) by (unfold size; lia). replace (n - S b * bs) with 0 by lia. unfold matrix at 2. cbn [seq flat_map]. rewrite app_nil_r, Esz. reflexivity.
Qed.

Lemma div_round_up_eq : forall n bs, div_round_up n bs = n_blocks n bs.
Proof. intros. unfold div_round_up, n_blocks. destruct (n mod bs =? 0); lia. Qed.

(** ** The file *)
Lemma pq_encode_eq : forall popf mbs maxb cdist n dim nc chunks centroid offs pivots rows orders,
  pops popf -> 1 <= mbs -> 1 <= maxb -> 1 <= n -> 1 <= chunks -> chunks <= dim -> boundaries dim chunks offs ->
  length centroid = dim -> rows_of nc dim pivots -> rows_of n dim rows -> pq_orders n (min n maxb) mbs orders ->
  (forall p i, p < n -> i < chunks -> usable (pivot_dist cdist centroid pivots rows (off dim chunks i) (chunk_size dim chunks i) p) nc) ->
  pq_encode popf mbs maxb cdist n dim nc chunks centroid (seq 0 dim) offs pivots rows orders =
    Ok (u32 (N.of_nat n) ++ u32 (N.of_nat chunks) ++
        enc_all (code_width nc) (map N.of_nat (matrix (pq_code cdist dim chunks nc centroid pivots rows) 0 n chunks))).
Proof.
  intros popf mbs maxb cdist n dim nc chunks centroid offs pivots rows orders Hp Hm Hx Hn Hc Hcd HB HCl HP HR Ho HU.
  unfold pq_encode. cbn zeta. assert (Ebs : (if n <=? maxb then n else maxb) = min n maxb) by (destruct (Nat.leb_spec n maxb); lia). rewrite Ebs.
  set (bs := min n maxb) in *. assert (Hbs : 1 <= bs) by (unfold bs; lia). rewrite (proj2 (Nat.eqb_neq bs 0)) by lia. rewrite div_round_up_eq.
  destruct (n_blocks_bounds n bs Hbs) as [B1 B2].
  rewrite pq_blocks_ok with (chunks := chunks); auto; [|now rewrite repeat_length]. cbn [bind]. rewrite Nat.mul_0_l, Nat.sub_0_r. reflexivity.
Qed.
