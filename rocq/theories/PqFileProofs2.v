(** * The pivot files, written and read back. *)
From Coq Require Import ZArith NArith String List Arith Bool Lia Floats.SpecFloat.
From Verif Require Import Base Bytes Float32 FloatBits DivFacts ListLemmas StreamModel BinModel BinSpec BinProofs IndexFileModel IndexFileProofs2 CacheModel CacheProofs
  ClosestModel ClosestSpec TruthModel PqModel PqSpec PqProofs PqProofs2 PqProofs3 LloydModel SystemProofs3 ShardModel ShardSpec ShardProofs ShardProofs2 SliceModel SliceProofs
  PqFileModel PqFileSpec PqFileProofs.
Import ListNotations.

(** ** The centroid *)
Lemma fold_fadd_valid : forall xs z, f32_valid z = true -> (forall x, In x xs -> f32_valid x = true) -> f32_valid (fold_left fadd xs z) = true.
Proof. induction xs as [|x xs IH]; intros z Hz H; cbn [fold_left]; [auto|]. apply IH; [apply fadd_valid; auto; apply H; now left|]. intros; apply H; now right. Qed.

Lemma nth_valid : forall x k, (forall v, In v x -> f32_valid v = true) -> f32_valid (nth k x f32_zero) = true.
Proof. intros x k H. destruct (nth_in_or_default k x f32_zero) as [I|E]; [auto|now rewrite E]. Qed.

Lemma mean_vector_valid : forall dim train, floats_ok train -> forall v, In v (mean_vector dim train) -> f32_valid v = true.
Proof.
  intros dim train H v Hv. apply in_map_iff in Hv. destruct Hv as [k [<- _]]. apply fdiv_valid; [|apply f32_of_Z_valid].
  apply fold_fadd_valid; [reflexivity|]. intros x Hx. apply in_map_iff in Hx. destruct Hx as [y [<- Hy]]. apply nth_valid. intros u Hu. eapply H; eauto.
Qed.

Lemma mean_vector_length : forall dim train, length (mean_vector dim train) = dim.
Proof. intros. unfold mean_vector. now rewrite map_length, seq_length. Qed.

Lemma train_centroid_ok : forall zm n dim train, rows_of n dim train ->
  train_centroid zm dim train = Ok (centroid_used zm dim train, training_set zm dim train).
Proof.
  intros zm n dim train [HL HR]. unfold train_centroid, centroid_used, training_set. destruct zm; [|reflexivity].
  rewrite (collect_map _ _ _ (fun k => fdiv (fold_left fadd (map (fun x => nth k x f32_zero) train) f32_zero) (f32_of_Z (Z.of_nat (length train))))).
  - cbn [bind]. fold (mean_vector dim train). rewrite (collect_map _ _ _ (centred (mean_vector dim train))); [reflexivity|].
    intros x Hx. apply center_row_ok; [auto|apply mean_vector_length].
  - intros k Hk. apply in_seq in Hk. unfold mean_coord. rewrite (collect_map _ _ _ (fun x => nth k x f32_zero)); [reflexivity|].
    intros x Hx. apply rd_nth. rewrite (HR x Hx). lia.
Qed.

Lemma centroid_used_length : forall zm dim train, length (centroid_used zm dim train) = dim.
Proof. intros [] dim train; [apply mean_vector_length|apply repeat_length]. Qed.

Lemma centroid_used_valid : forall zm dim train, floats_ok train -> forall v, In v (centroid_used zm dim train) -> f32_valid v = true.
Proof. intros [] dim train H v Hv; [eapply mean_vector_valid; eauto|]. apply repeat_spec in Hv. now subst v. Qed.

Lemma training_set_shape : forall zm n dim train, rows_of n dim train -> rows_of n dim (training_set zm dim train).
Proof.
  intros zm n dim train [HL HR]. unfold training_set. destruct zm; [|split; auto]. split; [now rewrite map_length|]. intros x Hx. apply in_map_iff in Hx.
  destruct Hx as [y [<- Hy]]. rewrite centred_length; rewrite ?mean_vector_length; auto.
Qed.

(** ** Words *)
Lemma float_words_ok : forall l, float_words (map Some l) = Ok (map bits_of_f32 l).
Proof.
  intros l. unfold float_words. induction l as [|x l IH]; [reflexivity|]. cbn [map collect bind]. rewrite IH. reflexivity.
Qed.

Lemma concat_map_some : forall (rows : list (list f32)), concat (map (map Some) rows) = map Some (concat rows).
Proof. induction rows as [|r rows IH]; [reflexivity|]. cbn. now rewrite IH, map_app. Qed.

Lemma words_back : forall l, (forall v, In v l -> f32_valid v = true) -> map f32_of_bits (map bits_of_f32 l) = l.
Proof. induction l as [|x l IH]; intros H; [reflexivity|]. cbn [map]. rewrite (proj1 (f32_of_bits_of_f32 x (H x (or_introl eq_refl)))). f_equal. apply IH. intros; apply H; now right. Qed.

Lemma words_small : forall l, (forall v, In v l -> f32_valid v = true) -> forall x, In x (map bits_of_f32 l) -> (x < 256 ^ N.of_nat 4)%N.
Proof. intros l H x Hx. apply in_map_iff in Hx. destruct Hx as [v [<- Hv]]. change (256 ^ N.of_nat 4)%N with (2 ^ 32)%N. apply f32_of_bits_of_f32. auto. Qed.

Lemma numbers_small : forall l m, (forall v, In v l -> v <= m) -> (N.of_nat m < 2 ^ 32)%N -> forall x, In x (map N.of_nat l) -> (x < 256 ^ N.of_nat 4)%N.
Proof. intros l m H Hm x Hx. apply in_map_iff in Hx. destruct Hx as [v [<- Hv]]. change (256 ^ N.of_nat 4)%N with (2 ^ 32)%N. specialize (H v Hv). lia. Qed.

Lemma numbers_back : forall l, map N.to_nat (map N.of_nat l) = l.
Proof. induction l as [|x l IH]; [reflexivity|]. cbn [map]. rewrite Nat2N.id, IH. reflexivity. Qed.

Lemma floats_concat : forall rows, floats_ok rows -> forall v, In v (concat rows) -> f32_valid v = true.
Proof. intros rows H v Hv. apply in_concat in Hv. destruct Hv as [r [Hr Hv]]. eapply H; eauto. Qed.

Lemma split_rows_concat : forall dim rows, (forall r, In r rows -> length r = dim) -> split_rows dim (length rows) (concat rows) = rows.
Proof.
  intros dim. induction rows as [|r rows IH]; intros H; [reflexivity|]. cbn [length split_rows concat].
  rewrite firstn_len_app, skipn_len_app by (apply H; now left). f_equal. apply IH. intros; apply H; now right.
Qed.

(** ** Names *)
Lemma pivot_names_differ : forall path, NoDup (pivot_names path).
Proof.
  intros path. unfold pivot_names.
  assert (N1 : forall a, a <> ""%string -> path <> (path ++ a)%string).
  { intros a Ha E. apply (f_equal (String.eqb path)) in E. rewrite String.eqb_refl, eqb_app_l in E. symmetry in E. apply String.eqb_eq in E. auto. }
  assert (N2 : forall a b, a <> b -> (path ++ a)%string <> (path ++ b)%string).
  { intros a b Hab E. apply (f_equal (String.eqb (path ++ a)%string)) in E. rewrite String.eqb_refl, eqb_app in E. symmetry in E. apply String.eqb_eq in E. auto. }
  repeat (constructor; [intros H; cbn [In] in H; repeat (destruct H as [H|H]; [revert H; first [apply N1; discriminate | apply N2; discriminate | apply not_eq_sym; apply N1; discriminate | apply not_eq_sym; apply N2; discriminate]|]); destruct H|]).
  constructor.
Qed.

Lemma fs_neq : forall d n v m, m <> n -> fs_set d n v m = d m.
Proof. intros d n v m H. apply fs_set_other. now apply String.eqb_neq. Qed.

Lemma four_files : forall path d f1 f2 f3 f4,
  let d' := fs_set (fs_set (fs_set (fs_set d path f1) (path ++ "_centroid.bin")%string f2) (path ++ "_rearrangement_perm.bin")%string f3) (path ++ "_chunk_offsets.bin")%string f4 in
  d' path = f1 /\ d' (path ++ "_centroid.bin")%string = f2 /\ d' (path ++ "_rearrangement_perm.bin")%string = f3 /\ d' (path ++ "_chunk_offsets.bin")%string = f4 /\
  same_but (pivot_names path) d d'.
Proof.
  intros path d f1 f2 f3 f4 d'. pose proof (pivot_names_differ path) as ND. unfold pivot_names in *.
  inversion ND as [|? ? A1 ND1 E]. inversion ND1 as [|? ? A2 ND2 E']. inversion ND2 as [|? ? A3 ND3 E'']. clear E E' E'' ND ND1 ND2 ND3. cbn [In] in *. subst.
  assert (A1' : path <> (path ++ "_centroid.bin")%string /\ path <> (path ++ "_rearrangement_perm.bin")%string /\ path <> (path ++ "_chunk_offsets.bin")%string) by (repeat split; intros E; apply A1; symmetry in E; tauto).
  assert (A2' : (path ++ "_centroid.bin")%string <> (path ++ "_rearrangement_perm.bin")%string /\ (path ++ "_centroid.bin")%string <> (path ++ "_chunk_offsets.bin")%string) by (split; intros E; apply A2; symmetry in E; tauto).
  assert (A3' : (path ++ "_rearrangement_perm.bin")%string <> (path ++ "_chunk_offsets.bin")%string) by (intros E; apply A3; symmetry in E; tauto).
  clear A1 A2 A3. destruct A1' as [B1 [B2 B3]]. destruct A2' as [B4 B5].
  unfold d'. split; [|split; [|split; [|split]]].
  - rewrite !fs_neq by auto. apply fs_set_same.
  - rewrite !fs_neq by auto. apply fs_set_same.
  - rewrite !fs_neq by auto. apply fs_set_same.
  - apply fs_set_same.
  - intros name Hn. rewrite !fs_neq by (intros E; apply Hn; rewrite E; cbn [In]; auto). reflexivity.
Qed.

(** ** generate_pq_pivots *)
Lemma boundaries_small : forall dim chunks offs, boundaries dim chunks offs -> forall v, In v offs -> v <= dim.
Proof.
  intros dim chunks offs B v Hv. apply In_nth_error in Hv. destruct Hv as [i Hi]. apply (boundary_mono dim chunks offs i v B); [|exact Hi].
  assert (i < length offs) by (apply nth_error_Some; congruence). destruct B as [HL _]. lia.
Qed.

Lemma gen_pivots_files : forall gl env train n dim nc chunks reps path zm d d', rows_of n dim train -> floats_ok train -> 1 <= chunks -> 1 <= reps ->
  gen_pivots gl env train dim nc chunks reps path zm d = Ok (true, d') ->
  exists offs pivots, chunks <= dim /\ (N.of_nat nc * N.of_nat dim < 2 ^ 32)%N /\ boundaries dim chunks offs /\ rows_of nc dim pivots /\ floats_ok pivots /\
    pivot_files path nc dim (centroid_used zm dim train) offs pivots d' /\ same_but (pivot_names path) d d' /\
    trained env dim nc chunks reps offs (training_set zm dim train) pivots.
Proof.
  intros gl env train n dim nc chunks reps path zm d d' HR HV Hc Hreps H. unfold gen_pivots in H.
  destruct (Nat.ltb_spec dim chunks) as [|Hcd]; [discriminate|]. apply bind_ok in H. destruct H as [skip [_ H]]. destruct skip; [discriminate|].
  rewrite (train_centroid_ok zm n dim train HR) in H. cbn [bind fst snd] in H.
  destruct (pq_chunks_ok dim chunks Hc Hcd) as [offs [Ech B]]. rewrite Ech in H. cbn [bind] in H.
  destruct (N.leb_spec 4294967296 (N.of_nat nc * N.of_nat dim)) as [|Hsz]; [discriminate|].
  apply bind_ok in H. destruct H as [full [Et H]].
  destruct (train_chunks_ok _ _ _ _ _ _ _ _ _ B (conj Hc Hcd) (training_set_shape zm n dim train HR) Hreps Et) as [pivots [[PL Pr] [Pv [-> Tr]]]].
  rewrite concat_map_some, float_words_ok in H. cbn [bind] in H.
  assert (CL : length (concat pivots) = nc * dim) by (rewrite (concat_uniform _ dim pivots Pr), PL; auto).
  rewrite (save_bin_ok 4 (map bits_of_f32 (concat pivots))) in H by (rewrite map_length, CL; lia). cbn [bind] in H.
  rewrite (save_bin_ok 4 (map bits_of_f32 (centroid_used zm dim train))) in H by (rewrite map_length, centroid_used_length; lia). cbn [bind] in H.
  rewrite (save_bin_ok 4 (map N.of_nat (seq 0 dim))) in H by (rewrite map_length; lia). cbn [bind] in H.
  rewrite (save_bin_ok 4 (map N.of_nat offs)) in H by (rewrite map_length; lia). cbn [bind] in H. injection H as <-.
  match goal with |- context [fs_set (fs_set (fs_set (fs_set d path ?a) _ ?b) _ ?c) _ ?e] => destruct (four_files path d a b c e) as [F1 [F2 [F3 [F4 F5]]]] end.
  exists offs, pivots. split; [auto|]. split; [auto|]. split; [auto|]. split; [split; auto|]. split; [auto|]. split; [|split; [exact F5|exact Tr]].
  split; [exact F1|]. split; [|split; [exact F3|exact F4]]. rewrite F2. unfold float_file. cbn [concat]. rewrite app_nil_r. reflexivity.
Qed.

(** ** Reading the pivot files *)
Lemma load_pivots_ok : forall gl dim nc chunks path d centroid offs pivots, four_bytes gl -> (N.of_nat dim + 1 < 2 ^ 32)%N -> chunks <= dim -> 1 <= dim ->
  (N.of_nat nc * N.of_nat dim < 2 ^ 32)%N -> boundaries dim chunks offs -> length centroid = dim -> (forall v, In v centroid -> f32_valid v = true) ->
  rows_of nc dim pivots -> floats_ok pivots -> pivot_files path nc dim centroid offs pivots d ->
  load_pivots gl dim nc chunks path d = Ok (centroid, seq 0 dim, offs, pivots).
Proof.
  intros gl dim nc chunks path d centroid offs pivots G Hd Hcd Hd1 Hnc B CL CV [PL Pr] Pv [F1 [F2 [F3 F4]]]. unfold load_pivots. rewrite F1.
  change (2 ^ 32)%N with 4294967296%N in *. assert (CC : length (concat pivots) = nc * dim) by (rewrite (concat_uniform _ dim pivots Pr), PL; auto).
  pose proof B as [OL _].
  assert (Rt : forall g1 g2 data n k, length g1 = 4 -> length g2 = 4 -> (n < 4294967296)%N -> (k < 4294967296)%N -> (n * k < 4294967296)%N -> N.of_nat (length data) = (n * k)%N ->
    (forall x, In x data -> (x < 256 ^ N.of_nat 4)%N) -> load_bin 4 g1 g2 (Some (bin_file 4 n k data)) = Ok (n, k, data)).
  { intros g1 g2 data n k L1 L2 Hn Hk Hnk HL Hx. apply (bin_round_trip 4 g1 g2 data n k); auto. change (2 ^ 63)%N with 9223372036854775808%N. lia. }
  rewrite F2. unfold float_file at 1. cbn [concat]. rewrite app_nil_r. rewrite Rt; try apply G; try lia; [|rewrite map_length, CL; lia|apply words_small; auto].
  cbn [bind fst snd]. rewrite !N.eqb_refl. cbn [negb orb].
  rewrite F3. unfold number_file. rewrite seq_length. rewrite Rt; try apply G; try lia; [|rewrite map_length, seq_length; lia|].
  2: { apply (numbers_small _ dim); [|lia]. intros v Hv. apply in_seq in Hv. lia. }
  cbn [bind fst snd]. rewrite !N.eqb_refl. cbn [negb orb].
  rewrite F4. unfold number_file. rewrite Rt; try apply G; try lia; [|rewrite map_length; lia|].
  2: { apply (numbers_small _ dim); [|lia]. apply (boundaries_small dim chunks offs B). }
  cbn [bind fst snd]. rewrite (proj2 (N.eqb_eq (N.of_nat (length offs)) (N.of_nat chunks + 1))) by lia. rewrite !N.eqb_refl. cbn [negb orb].
  assert (Hnc' : (N.of_nat nc < 4294967296)%N).
  { apply N.le_lt_trans with (N.of_nat nc * N.of_nat dim)%N; [|exact Hnc]. rewrite <- (N.mul_1_r (N.of_nat nc)) at 1. apply N.mul_le_mono_l. lia. }
  unfold float_file. rewrite Rt; try apply G; try lia; [|rewrite map_length, CC; lia|apply words_small; apply floats_concat; auto].
  cbn [bind fst snd]. rewrite !N.eqb_refl. cbn [negb]. rewrite !words_back by (try apply floats_concat; auto). rewrite !numbers_back. do 2 f_equal.
  rewrite <- PL at 1. apply split_rows_concat. auto.
Qed.

(** ** Reading the base vectors *)
Lemma dec_all_split : forall w a b l, dec_all w (a + b) l = dec_all w a l ++ dec_all w b (skipn (w * a) l).
Proof.
  intros w. induction a as [|a IH]; intros b l; cbn [plus dec_all]; [rewrite Nat.mul_0_r; reflexivity|]. cbn [app]. f_equal. rewrite IH. do 2 f_equal.
  rewrite CacheProofs.skipn_skipn. f_equal. lia.
Qed.

Lemma dec_all_first : forall w a l t, length l = w * a -> dec_all w a (l ++ t) = dec_all w a l.
Proof.
  intros w. induction a as [|a IH]; intros l t H; [reflexivity|]. cbn [dec_all]. assert (w <= length l) by lia.
  rewrite firstn_app, skipn_app. replace (w - length l) with 0 by lia. cbn [firstn skipn]. rewrite app_nil_r. f_equal. apply IH. rewrite skipn_length. lia.
Qed.

Lemma split_dec : forall w conv dim rows, (forall r, In r rows -> length r = dim * w) ->
  split_rows dim (length rows) (map conv (dec_all w (length rows * dim) (concat rows))) = float_rows w conv dim rows.
Proof.
  intros w conv dim. induction rows as [|r rows IH]; intros H; [reflexivity|]. cbn [length split_rows float_rows map concat Nat.mul].
  assert (Hr : length r = w * dim) by (rewrite (H r ltac:(now left)); lia).
  rewrite dec_all_split, map_app. rewrite dec_all_first by auto. rewrite skipn_len_app by auto.
  rewrite firstn_len_app, skipn_len_app by (rewrite map_length; apply dec_all_length). f_equal. apply IH. intros; apply H; now right.
Qed.

Lemma firstn_concat : forall (A : Type) rl size (rows : list (list A)), (forall r, In r rows -> length r = rl) -> firstn (size * rl) (concat rows) = concat (firstn size rows).
Proof.
  intros A rl. induction size as [|size IH]; intros [|r rows] H; cbn [firstn concat Nat.mul]; try reflexivity; [now rewrite firstn_nil|].
  rewrite firstn_app. rewrite (H r ltac:(now left)). replace (rl + size * rl - rl) with (size * rl) by lia. rewrite firstn_all2 by (rewrite (H r ltac:(now left)); lia).
  f_equal. apply IH. intros; apply H; now right.
Qed.

Lemma skipn_concat : forall (A : Type) rl start (rows : list (list A)), (forall r, In r rows -> length r = rl) -> skipn (start * rl) (concat rows) = concat (skipn start rows).
Proof.
  intros A rl. induction start as [|start IH]; intros [|r rows] H; cbn [skipn concat Nat.mul]; try reflexivity; [now rewrite skipn_nil|].
  rewrite skipn_app. rewrite (H r ltac:(now left)). replace (rl + start * rl - rl) with (start * rl) by lia. rewrite skipn_all2 by (rewrite (H r ltac:(now left)); lia).
  apply IH. intros; apply H; now right.
Qed.

Lemma in_firstn_skipn : forall (A : Type) a b (l : list A) x, In x (firstn a (skipn b l)) -> In x l.
Proof.
  intros A a b l x H. rewrite <- (firstn_skipn b l). apply in_or_app. right. rewrite <- (firstn_skipn a (skipn b l)). apply in_or_app. now left.
Qed.

Lemma block_rows : forall dim rows rl start size, (forall r, In r rows -> length r = rl) ->
  firstn (size * rl) (skipn (8 + start * rl) (vector_file dim rows)) = concat (firstn size (skipn start rows)).
Proof.
  intros dim rows rl start size H. assert (E : skipn (8 + start * rl) (vector_file dim rows) = skipn (start * rl) (concat rows)).
  { unfold vector_file. rewrite <- CacheProofs.skipn_skipn. reflexivity. }
  rewrite E, skipn_concat by auto. apply firstn_concat. intros r Hr. apply H. rewrite <- (firstn_skipn start rows). apply in_or_app. now right.
Qed.

Lemma read_base_ok : forall g w conv n dim bs base, rows_ok n (dim * w) dim base -> 1 <= bs ->
  forall cnt b c, (cnt = 0 /\ n <= b * bs) \/ (b * bs < n /\ n <= (b + cnt) * bs /\ (b + cnt) * bs < n + bs) -> rinv (vector_file dim base) (8 + min (b * bs) n * (dim * w)) c ->
  read_base g w conv n dim bs c b cnt = Ok (float_rows w conv dim (skipn (b * bs) base)).
Proof.
  intros g w conv n dim bs base HR Hbs. pose proof HR as [HL [HR1 _]]. induction cnt as [|cnt IH]; intros b c Hb R; cbn [read_base].
  - rewrite skipn_all2 by lia. reflexivity.
  - destruct Hb as [[? _]|[Hb [H1 H2]]]; [lia|]. rewrite Nat.min_l in R by lia. set (size := min (S b * bs) n - b * bs).
    assert (Hs : b * bs + size = min (S b * bs) n) by (unfold size; lia).
    destruct (take_block g n dim base (dim * w) (b * bs) size c HR ltac:(lia) R) as [c' [E R']].
    replace (w * (size * dim)) with (size * (dim * w)) by lia. rewrite E. cbn [bind fst snd]. rewrite Hs in R'. rewrite (IH (S b) c'); [| |exact R'].
    2: { destruct (Nat.lt_ge_cases (S b * bs) n) as [L|L]; [right; lia|left]. split; [|exact L]. destruct cnt; [reflexivity|nia]. }
    cbn [bind].
    rewrite block_rows by auto. assert (Lb : length (firstn size (skipn (b * bs) base)) = size) by (rewrite firstn_length, skipn_length; lia).
    rewrite <- Lb at 1 2. rewrite split_dec by (intros r Hr; apply HR1; eapply in_firstn_skipn; eauto). f_equal. unfold float_rows. rewrite <- map_app. f_equal.
    replace (skipn (S b * bs) base) with (skipn size (skipn (b * bs) base)); [apply firstn_skipn|].
    rewrite CacheProofs.skipn_skipn. destruct (Nat.le_ge_cases (S b * bs) n) as [L|L]; [f_equal; lia|]. rewrite !skipn_all2 by lia. reflexivity.
Qed.

Lemma float_rows_shape : forall w conv n dim base, length base = n -> rows_of n dim (float_rows w conv dim base).
Proof.
  intros w conv n dim base H. split; [unfold float_rows; now rewrite map_length|]. intros x Hx. apply in_map_iff in Hx. destruct Hx as [r [<- _]].
  rewrite map_length. apply dec_all_length.
Qed.

(** ** The codes *)
Lemma pq_data_ok : forall g gl popf mbs maxb cdist w conv orders data n dim nc chunks base path out d centroid offs pivots,
  pops popf -> 1 <= mbs -> 1 <= maxb -> four_bytes gl -> (N.of_nat dim + 1 < 2 ^ 32)%N -> 1 <= chunks -> chunks <= dim -> (N.of_nat nc * N.of_nat dim < 2 ^ 32)%N ->
  boundaries dim chunks offs -> length centroid = dim -> (forall v, In v centroid -> f32_valid v = true) -> rows_of nc dim pivots -> floats_ok pivots ->
  pivot_files path nc dim centroid offs pivots d -> d data = Some (vector_file dim base) -> rows_ok n (dim * w) dim base -> 1 <= n ->
  pq_orders n (min n maxb) mbs orders ->
  (forall p i a, p < n -> i < chunks -> nth_error offs i = Some a -> usable (pivot_dist cdist centroid pivots (float_rows w conv dim base) a (chunk_size dim chunks i) p) nc) ->
  exists codes body, pq_data g gl popf mbs maxb cdist w conv orders data nc chunks path out d = Ok (fs_set d out (Some (u32 (N.of_nat n) ++ u32 (N.of_nat chunks) ++ body))) /\
    length codes = n * chunks /\ length body = code_width nc * (n * chunks) /\ dec_all (code_width nc) (n * chunks) body = map N.of_nat codes /\
    forall p i a, p < n -> i < chunks -> nth_error offs i = Some a ->
      exists c, nth_error codes (p * chunks + i) = Some c /\ first_nearest (pivot_dist cdist centroid pivots (float_rows w conv dim base) a (chunk_size dim chunks i) p) nc c.
Proof.
  intros g gl popf mbs maxb cdist w conv orders data n dim nc chunks base path out d centroid offs pivots Hp Hm Hx G Hd Hc Hcd Hnc B CL CV HP PV HF Hdata HR Hn Ho HU.
  unfold pq_data. rewrite Hdata. destruct (vector_header g n _ dim base HR) as [c1 [c2 [E1 [E2 R]]]]. rewrite E1. cbn [bind fst snd]. rewrite E2. cbn [bind fst snd].
  pose proof HR as [HL [HR1 [Hn32 [Hd32 Hf]]]]. rewrite !dec_u32 by auto. rewrite !Nat2N.id.
  rewrite (load_pivots_ok gl dim nc chunks path d centroid offs pivots) by (auto; lia). cbn [bind].
  assert (Ebs : (if n <=? maxb then n else maxb) = min n maxb) by (destruct (Nat.leb_spec n maxb); lia). rewrite Ebs. set (bs := min n maxb) in *.
  assert (Hbs : 1 <= bs) by (unfold bs; lia). rewrite (proj2 (Nat.eqb_neq bs 0)) by lia.
  rewrite (read_base_ok g w conv n dim bs base HR Hbs (div_round_up n bs) 0 c2).
  - cbn [bind Nat.mul skipn].
    destruct (pq_encode_codes popf mbs maxb cdist n dim nc chunks centroid offs pivots (float_rows w conv dim base) orders) as [codes [body [E H]]]; auto.
    + apply float_rows_shape; auto.
    + change (2 ^ 32)%N with 4294967296%N in *. nia.
    + exists codes, body. rewrite E. cbn [bind]. auto.
  - right. cbn [plus Nat.mul]. split; [lia|]. unfold div_round_up. pose proof (Nat.div_mod n bs ltac:(lia)) as D. pose proof (Nat.mod_upper_bound n bs ltac:(lia)).
    destruct (Nat.eqb_spec (n mod bs) 0); nia.
  - cbn [Nat.mul]. rewrite Nat.min_0_l. cbn [Nat.mul Nat.add]. exact R.
Qed.
