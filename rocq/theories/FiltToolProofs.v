(** The filtered ground truth tool: the computation on the matching vectors. *)
From Coq Require Import NArith ZArith Reals Lra Lia Ascii String List Arith Bool Sorting.Sorted Permutation Floats.SpecFloat.
From Flocq Require Import Core.
From Verif Require Import Base Bytes Float32 DivFacts FloatBits DistSpec DistModel FusedModel RealSpec FloatReal L2ErrorProofs RealDistProofs ConvertModel NormModel NormSpec NormProofs NormProofs2 PqModel ClosestModel TopKSpec GtModel GtSpec HeapSpec GtProofs GtProofs2 GtProofs3 MeanProofs3
  StreamModel BinModel BinSpec BinProofs BinProofs2 TextModel TextProofs TruthModel TruthSpec TruthProofs BlasModel BlasSpec BlasProofs BlasProofs2 BlasProofs3 BlasProofs4 BlasProofs5 BlasProofs6 BlasProofs7 GtToolModel GtToolSpec GtToolProofs GtToolProofs2 GtToolProofs3
  IndexFileModel FiltGtModel FiltGtSpec FiltGtProofs CmdModel FiltToolModel FiltToolSpec.
Import ListNotations.
Local Open Scope nat_scope.

(** ** The selection looks only at the distances of the part *)
Lemma fill_ext : forall pushf n r1 r2, (forall p, p < n -> r1 p = r2 p) -> forall cnt p h, knn_fill pushf n r1 p cnt h = knn_fill pushf n r2 p cnt h.
Proof. intros pushf n r1 r2 H. induction cnt as [|cnt IH]; intros p h; [reflexivity|]. cbn [knn_fill]. unfold col. destruct (Nat.ltb_spec p n); [|reflexivity]. cbn [bind]. rewrite H by lia. apply IH. Qed.
Lemma scan_ext : forall pushf takef k n r1 r2, (forall p, p < n -> r1 p = r2 p) -> forall cnt p h, knn_scan pushf takef k n r1 p cnt h = knn_scan pushf takef k n r2 p cnt h.
Proof.
  intros pushf takef k n r1 r2 H. induction cnt as [|cnt IH]; intros p h; [reflexivity|]. cbn [knn_scan]. destruct (takef h) as [[x r]|]; [|reflexivity]. cbn [bind]. unfold col. destruct (Nat.ltb_spec p n); [|reflexivity]. cbn [bind]. rewrite H by lia.
  match goal with |- bind ?a _ = bind ?a _ => destruct a end; try reflexivity. apply IH.
Qed.
Lemma queries_ext : forall pushf takef k n d1 d2 qs, (forall q, In q qs -> forall p, p < n -> d1 q p = d2 q p) -> forall out, knn_queries pushf takef k n d1 qs out = knn_queries pushf takef k n d2 qs out.
Proof.
  intros pushf takef k n d1 d2 qs. induction qs as [|q qs IH]; intros H out; [reflexivity|]. cbn [knn_queries]. unfold knn_query.
  rewrite (fill_ext _ _ _ (d2 q)) by (apply H; left; auto). destruct (knn_fill _ _ _ _ _ _) as [h| | | |]; try reflexivity. cbn [bind].
  rewrite (scan_ext _ _ _ _ _ (d2 q)) by (apply H; left; auto). destruct (knn_scan _ _ _ _ _ _ _ _) as [h'| | | |]; try reflexivity. cbn [bind].
  destruct (knn_emit _ _ _ _ _ _) as [o| | | |]; try reflexivity. cbn [bind]. apply IH. intros; apply H; auto. right; auto.
Qed.
Lemma knn_ext : forall pushf takef bs k n nq d1 d2 orders out, batch_orders nq bs orders -> (forall q, q < nq -> forall p, p < n -> d1 q p = d2 q p) ->
  exact_knn pushf takef bs k n nq d1 orders out = exact_knn pushf takef bs k n nq d2 orders out.
Proof.
  intros pushf takef bs k n nq d1 d2 orders out Ho H. unfold exact_knn. generalize 0 (n_blocks nq bs). intros b cnt. revert b out. induction cnt as [|cnt IH]; intros b out; [reflexivity|]. cbn [knn_batches].
  rewrite (queries_ext _ _ _ _ d1 d2).
  - destruct (knn_queries _ _ _ _ _ _ _) as [o| | | |]; try reflexivity. cbn [bind]. apply IH.
  - intros q Hq. apply H. apply (Permutation_in _ (Permutation_sym (Ho b))) in Hq || apply (Permutation_in _ (Ho b)) in Hq. apply in_seq in Hq. lia.
Qed.

(** ** The parts of a file of vectors *)
Lemma aux_parts_gt : forall W pushf takef kt g1 g2 bs ps dim nq queries orders rows dmat, length g1 = 4 -> length g2 = 4 -> (N.of_nat (length rows) < 2147483648)%N -> (N.of_nat dim < 4294967296)%N ->
  (forall r, In r rows -> length r = dim /\ forall x, In x r -> (x < 256 ^ N.of_nat (kwidth kt))%N) -> (forall p, batch_orders nq bs (orders p)) -> 1 <= ps ->
  (forall p, p * ps < length rows -> exists dm, part_matrix W false p bs dim (min ps (length rows - p * ps)) (concat (map (map (kval kt)) (part_rows ps p rows))) nq queries = Ok dm /\
     forall q j, q < nq -> j < min ps (length rows - p * ps) -> dm q j = dmat q (p * ps + j)) ->
  forall cnt p k results, (cnt = 0 \/ (p + cnt - 1) * ps < length rows) ->
  aux_parts W pushf takef kt g1 g2 (file_of kt dim rows) bs ps nq queries orders p cnt k results = gt_parts pushf takef bs ps (length rows) nq dmat orders p cnt k results.
Proof.
  intros W pushf takef kt g1 g2 bs ps dim nq queries orders rows dmat G1 G2 Hn Hd HR Ho Hps Hm. induction cnt as [|cnt IH]; intros p k results Hp; [reflexivity|]. cbn [aux_parts gt_parts].
  destruct Hp as [Hp|Hp]; [discriminate|]. assert (Hst : p * ps < length rows) by nia.
  rewrite load_part_ok; auto; [|lia]. cbn [bind]. destruct (Hm p Hst) as [dm [Hdm Ed]]. rewrite Hdm. cbn [bind].
  rewrite (knn_ext pushf takef bs _ _ nq dm (fun q j => dmat q (p * ps + j))); auto.
  destruct (exact_knn _ _ _ _ _ _ _ _ _) as [part| | | |]; try reflexivity. cbn [bind]. apply IH. destruct cnt; [now left|right]. replace (S p + S cnt - 1) with (p + S (S cnt) - 1) by lia. exact Hp.
Qed.

Lemma blocks_in : forall n ps, 1 <= ps -> n_blocks n ps = 0 \/ (0 + n_blocks n ps - 1) * ps < n.
Proof.
  intros n ps H. destruct n as [|n].
  - left. unfold n_blocks. rewrite Nat.mod_0_l, Nat.div_0_l by lia. reflexivity.
  - right. destruct (last_part_eq (S n) ps ltac:(lia) H) as [B1 [B2 [B3 B4]]]. nia.
Qed.

Lemma aux_tool_gt : forall W pushf takef sortf bs ps kt gb1 gb2 gq1 gq2 dim k rows qrows orders dmat, length gb1 = 4 -> length gb2 = 4 -> length gq1 = 4 -> length gq2 = 4 ->
  (N.of_nat (length rows) < 2147483648)%N -> (N.of_nat (length qrows) < 2147483648)%N -> (N.of_nat dim < 4294967296)%N ->
  (forall r, In r rows \/ In r qrows -> length r = dim /\ forall x, In x r -> (x < 256 ^ N.of_nat (kwidth kt))%N) -> 1 <= ps -> length qrows <= ps -> (forall p, batch_orders (length qrows) bs (orders p)) ->
  (forall p, p * ps < length rows -> exists dm, part_matrix W false p bs dim (min ps (length rows - p * ps)) (concat (map (map (kval kt)) (part_rows ps p rows))) (length qrows) (concat (map (map (kval kt)) qrows)) = Ok dm /\
     forall q j, q < length qrows -> j < min ps (length rows - p * ps) -> dm q j = dmat q (p * ps + j)) ->
  aux_tool W pushf takef sortf bs ps kt gb1 gb2 gq1 gq2 (vector_file kt dim rows) (vector_file kt dim qrows) k orders =
  do r <- ground_truth pushf takef sortf bs ps (length rows) (length qrows) k dmat orders;
  save_truthset (map (fun x => N.of_nat (fst x)) (snd r)) (map (fun x => bits_of_f32 (snd x)) (snd r)) (N.of_nat (length qrows)) (N.of_nat (fst r)).
Proof.
  intros W pushf takef sortf bs ps kt gb1 gb2 gq1 gq2 dim k rows qrows orders dmat B1 B2 Q1 Q2 Hn Hq Hd HR Hps Hqp Ho Hm. unfold aux_tool, ground_truth.
  unfold vector_file at 1. cbn [open_file]. unfold bin_file at 1. rewrite read_header_app; auto; [|unfold u32_range; lia].
  assert (HRq : forall r, In r qrows -> length r = dim /\ forall x, In x r -> (x < 256 ^ N.of_nat (kwidth kt))%N) by (intros; apply HR; auto).
  change (vector_file kt dim qrows) with (file_of kt dim qrows). rewrite (load_part_ok kt gq1 gq2 ps 0 dim qrows); auto; [|lia]. cbn [bind]. unfold part_rows. cbn [Nat.mul skipn]. rewrite Nat.sub_0_r, Nat.min_r by exact Hqp. rewrite firstn_all, num_parts_ok by auto.
  change (vector_file kt dim rows) with (file_of kt dim rows). rewrite (aux_parts_gt W pushf takef kt gb1 gb2 bs ps dim (length qrows) _ orders rows dmat); auto; [|apply blocks_in, Hps].
  destruct (gt_parts _ _ _ _ _ _ _ _ _ _ _ _) as [kr| | | |]; try reflexivity. cbn [bind]. destruct (gt_merge _ _ _ _ _) as [out| | | |]; reflexivity.
Qed.

(** ** From ground truth of the matching vectors to original numbers *)
Lemma remap_ok : forall idx g1 g2 nq k k' (out : list (nat * f32)), length g1 = 4 -> length g2 = 4 -> (N.of_nat nq < 2 ^ 32)%N -> 1 <= k' -> k' <= k -> (N.of_nat k' < 2 ^ 32)%N -> length out = nq * k -> (N.of_nat (length idx) < 2 ^ 32)%N ->
  (forall i x, i < nq -> In x (row_of k' i out) -> fst x < length idx) ->
  exists t, save_truthset (map (fun x => N.of_nat (fst x)) out) (map (fun x => bits_of_f32 (snd x)) out) (N.of_nat nq) (N.of_nat k') = Ok t /\
  remap_truth 4 idx g1 g2 (Some t) = Ok (u32 (N.of_nat nq) ++ u32 (N.of_nat k') ++
    enc_all 4 (map (fun x => N.of_nat (fst x)) (map (fun x => (nth (fst x) idx 0, snd x)) (firstn (nq * k') out))) ++ enc_all 4 (map (fun x => bits_of_f32 (snd x)) (map (fun x => (nth (fst x) idx 0, snd x)) (firstn (nq * k') out)))).
Proof.
  intros idx g1 g2 nq k k' out G1 G2 Hnq Hk' Hk'k Hk32 Lo Hi Hin. unfold save_truthset.
  assert (Hle : nq * k' <= length out) by (rewrite Lo; apply Nat.mul_le_mono_l; auto).
  rewrite !map_length. rewrite (proj2 (N.ltb_ge _ _)) by lia. eexists. split; [reflexivity|].
  replace (N.to_nat (N.of_nat nq * N.of_nat k')) with (nq * k') by lia. rewrite !firstn_map. set (top := firstn (nq * k') out).
  assert (Lt : length top = nq * k') by (unfold top; rewrite firstn_length; lia).
  assert (Hin' : forall x, In x top -> fst x < length idx).
  { intros x Hx. destruct (in_row k' nq top x Hk' Lt Hx) as [i [Hq Hr]]. unfold top in Hr. rewrite row_of_firstn in Hr by auto. eapply Hin; eauto. }
  unfold remap_truth. cbn [open_file]. rewrite read_header_app by (auto; unfold u32_range; lia). rewrite !Nat2N.id. rewrite remap_ids_ok.
  2:{ now rewrite map_length. }
  2:{ intros x Hx. apply in_map_iff in Hx. destruct Hx as [p [<- Hp]]. specialize (Hin' p Hp). lia. }
  2:{ apply repeat_length. }
  cbn [bind fst snd]. rewrite copy_dists_ok; [|lia|rewrite enc_all_length, map_length, Lt; lia|apply repeat_length]. cbn [bind].
  rewrite !map_map. cbn [fst snd]. unfold back. f_equal. f_equal. f_equal. f_equal. f_equal. apply map_ext. intros x. now rewrite Nat2N.id.
Qed.

Lemma remap_narrow : forall idx g1 g2 nq k k' (out : list (nat * f32)), length g1 = 4 -> length g2 = 4 -> (N.of_nat nq < 2 ^ 32)%N -> 1 <= nq -> 1 <= k' -> k' <= k -> (N.of_nat k' < 2 ^ 32)%N -> length out = nq * k -> (N.of_nat (length idx) < 2 ^ 32)%N ->
  (forall i x, i < nq -> In x (row_of k' i out) -> fst x < length idx) ->
  exists t, save_truthset (map (fun x => N.of_nat (fst x)) out) (map (fun x => bits_of_f32 (snd x)) out) (N.of_nat nq) (N.of_nat k') = Ok t /\ remap_truth 1 idx g1 g2 (Some t) = UB.
Proof.
  intros idx g1 g2 nq k k' out G1 G2 Hnq Hq1 Hk' Hk'k Hk32 Lo Hi Hin. unfold save_truthset.
  assert (Hle : nq * k' <= length out) by (rewrite Lo; apply Nat.mul_le_mono_l; auto).
  rewrite !map_length. rewrite (proj2 (N.ltb_ge _ _)) by lia. eexists. split; [reflexivity|].
  replace (N.to_nat (N.of_nat nq * N.of_nat k')) with (nq * k') by lia. rewrite !firstn_map. set (top := firstn (nq * k') out).
  assert (Lt : length top = nq * k') by (unfold top; rewrite firstn_length; lia).
  assert (Hin' : forall x, In x top -> fst x < length idx).
  { intros x Hx. destruct (in_row k' nq top x Hk' Lt Hx) as [i [Hq Hr]]. unfold top in Hr. rewrite row_of_firstn in Hr by auto. eapply Hin; eauto. }
  unfold remap_truth. cbn [open_file]. rewrite read_header_app by (auto; unfold u32_range; lia). rewrite !Nat2N.id. rewrite remap_ids_ok.
  2:{ now rewrite map_length. }
  2:{ intros x Hx. apply in_map_iff in Hx. destruct Hx as [p [<- Hp]]. specialize (Hin' p Hp). lia. }
  2:{ apply repeat_length. }
  cbn [bind fst snd]. rewrite copy_dists_narrow by lia. reflexivity.
Qed.

(** ** The number of neighbours, written and read again *)
Lemma atoi_show : forall n, (n < 2 ^ 31)%N -> atoi (show n) = Ok (Z.of_N n).
Proof.
  intros n H. unfold atoi. destruct (digits_show n) as [k [_ Hd]]. pose proof (show_digits n) as A. destruct (show n) as [|a t] eqn:E; [destruct (show_nonempty n E)|].
  assert (D : is_digit a = true) by (cbn [all_digits] in A; apply andb_prop in A; tauto).
  assert (Sp : is_space a = false) by (unfold is_digit, is_space in *; destruct (N_of_ascii a) eqn:Q; lia || (apply andb_prop in D; rewrite !N.leb_le in D; apply orb_false_intro; [apply N.eqb_neq; lia|apply andb_false_intro2, N.leb_gt; lia])).
  cbn [skip_space]. rewrite Sp. unfold sign.
  assert (Sg : forall c, (c < 48)%N -> Ascii.eqb a (chr c) = false).
  { intros c Hc. apply Ascii.eqb_neq. intros ->. unfold is_digit, chr in D. rewrite N_ascii_embedding in D by lia. apply andb_prop in D. rewrite !N.leb_le in D. lia. }
  rewrite !Sg by lia. rewrite Hd. change (2 ^ 31)%N with 2147483648%N in H. rewrite (proj2 (Z.leb_le _ _)), (proj2 (Z.leb_le _ _)) by lia. reflexivity.
Qed.
Lemma atoi_show_big : forall n, (2 ^ 31 <= n)%N -> atoi (show n) = UB.
Proof.
  intros n H. unfold atoi. destruct (digits_show n) as [k [_ Hd]]. pose proof (show_digits n) as A. destruct (show n) as [|a t] eqn:E; [destruct (show_nonempty n E)|].
  assert (D : is_digit a = true) by (cbn [all_digits] in A; apply andb_prop in A; tauto).
  assert (Sp : is_space a = false) by (unfold is_digit, is_space in *; destruct (N_of_ascii a) eqn:Q; lia || (apply andb_prop in D; rewrite !N.leb_le in D; apply orb_false_intro; [apply N.eqb_neq; lia|apply andb_false_intro2, N.leb_gt; lia])).
  cbn [skip_space]. rewrite Sp. unfold sign.
  assert (Sg : forall c, (c < 48)%N -> Ascii.eqb a (chr c) = false).
  { intros c Hc. apply Ascii.eqb_neq. intros ->. unfold is_digit, chr in D. rewrite N_ascii_embedding in D by lia. apply andb_prop in D. rewrite !N.leb_le in D. lia. }
  rewrite !Sg by lia. rewrite Hd. change (2 ^ 31)%N with 2147483648%N in H. rewrite andb_comm, (proj2 (Z.leb_gt _ 2147483647)) by lia. reflexivity.
Qed.
