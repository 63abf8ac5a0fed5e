(** * The quantisation tool. *)
From Coq Require Import ZArith NArith String List Arith Bool Lia Floats.SpecFloat.
From Verif Require Import Base Bytes Float32 FloatBits DivFacts ListLemmas StreamModel BinModel BinSpec BinProofs IndexFileModel IndexFileProofs2 CacheModel CacheProofs
  ClosestModel ClosestSpec TruthModel PqModel PqSpec PqProofs PqProofs2 PqProofs3 LloydModel SystemProofs3 ShardModel ShardSpec ShardProofs ShardProofs2 SliceModel SliceProofs
  PqFileModel PqFileSpec PqFileProofs PqFileProofs2.
Import ListNotations.

Lemma string_app_assoc : forall a b c : string, ((a ++ b) ++ c)%string = (a ++ (b ++ c))%string.
Proof. induction a as [|x a IH]; intros b c; cbn; [reflexivity|now rewrite IH]. Qed.

Lemma out_fresh : forall prefix, ~ In (prefix ++ "_compressed.bin")%string (pivot_names (prefix ++ "_pq_pivots.bin")%string).
Proof.
  intros prefix H. cbn [pivot_names In] in H. rewrite !string_app_assoc in H.
  assert (Q : forall b, (b =? "_compressed.bin")%string = false -> (prefix ++ b)%string <> (prefix ++ "_compressed.bin")%string).
  { intros b Hb E. apply (f_equal (fun x => String.eqb x (prefix ++ "_compressed.bin")%string)) in E. rewrite String.eqb_refl, eqb_app in E. congruence. }
  repeat destruct H as [H|H]; try (revert H; apply Q; reflexivity). exact H.
Qed.

Lemma pivot_files_keep : forall path nc dim centroid offs pivots d name v, ~ In name (pivot_names path) ->
  pivot_files path nc dim centroid offs pivots d -> pivot_files path nc dim centroid offs pivots (fs_set d name v).
Proof.
  intros path nc dim centroid offs pivots d name v Hn [F1 [F2 [F3 F4]]]. cbn [pivot_names In] in Hn. repeat split; rewrite fs_neq; auto; intros E; apply Hn; rewrite E; auto.
Qed.

Lemma sample_shape : forall w conv n dim rows (ids : list nat), length rows = n -> rows_of (length ids) dim (map (fun p => nth p (float_rows w conv dim rows) []) ids) \/ exists p, In p ids /\ n <= p.
Proof.
  intros w conv n dim rows ids HL. destruct (Forall_dec (fun p => p < n) (fun p => lt_dec p n) ids) as [F|F].
  - left. split; [now rewrite map_length|]. intros x Hx. apply in_map_iff in Hx. destruct Hx as [p [<- Hp]]. rewrite Forall_forall in F. apply F in Hp.
    apply (float_rows_shape w conv n dim rows HL). apply nth_In. unfold float_rows. rewrite map_length. lia.
  - right. apply Exists_Forall_neg in F; [|intros p; destruct (lt_dec p n); auto]. apply Exists_exists in F. destruct F as [p [Hp H]]. exists p. split; auto. lia.
Qed.

(** The vectors of the data file that were picked. *)
Lemma sample_split : forall g w conv n dim rows pick, rows_ok n (dim * w) dim rows ->
  exists floats, slice_floats g w conv pick (Some (vector_file dim rows)) = Ok (floats, length (filter pick (seq 0 n)), dim) /\
    split_rows dim (length (filter pick (seq 0 n))) floats = map (fun p => nth p (float_rows w conv dim rows) []) (filter pick (seq 0 n)) /\
    rows_of (length (filter pick (seq 0 n))) dim (map (fun p => nth p (float_rows w conv dim rows) []) (filter pick (seq 0 n))).
Proof.
  intros g w conv n dim rows pick HR. pose proof HR as [HL _]. set (ids := filter pick (seq 0 n)).
  assert (Hids : forall p, In p ids -> p < n) by (intros p Hp; unfold ids in Hp; apply filter_In in Hp; destruct Hp as [Hp _]; apply in_seq in Hp; lia).
  assert (Sh : rows_of (length ids) dim (map (fun p => nth p (float_rows w conv dim rows) []) ids)).
  { destruct (sample_shape w conv n dim rows ids HL) as [H|[p [Hp Hn]]]; [exact H|]. specialize (Hids p Hp). lia. }
  assert (E : map (fun p => map conv (dec_all w dim (nth p rows []))) ids = map (fun p => nth p (float_rows w conv dim rows) []) ids).
  { apply map_ext_in. intros p Hp. unfold float_rows. rewrite (nth_indep (map _ rows) [] (map conv (dec_all w dim []))) by (rewrite map_length; specialize (Hids p Hp); lia).
    rewrite (map_nth (fun r => map conv (dec_all w dim r))). reflexivity. }
  exists (concat (map (fun p => map conv (dec_all w dim (nth p rows []))) ids)). split; [apply slice_floats_ok; auto|]. split; [|exact Sh].
  rewrite E. destruct Sh as [SL SR]. rewrite <- SL at 1. apply split_rows_concat. exact SR.
Qed.

Lemma picked_valid : forall w conv dim base pick, (forall x, f32_valid (conv x) = true) -> floats_ok (picked w conv dim base pick).
Proof.
  intros w conv dim base pick H x v Hx Hv. apply in_map_iff in Hx. destruct Hx as [p [<- Hp]]. unfold float_rows in Hv.
  destruct (nth_in_or_default p (map (fun r => map conv (dec_all w dim r)) base) []) as [I|E]; [|rewrite E in Hv; destruct Hv].
  apply in_map_iff in I. destruct I as [r [E _]]. rewrite <- E in Hv. apply in_map_iff in Hv. destruct Hv as [u [<- _]]. apply H.
Qed.

Lemma generate_pq_new : forall g g' gl gl' env popf mbs maxb cdist w conv pick orders data prefix n dim nc chunks base d d',
  let path := (prefix ++ "_pq_pivots.bin")%string in let out := (prefix ++ "_compressed.bin")%string in
  (forall x, f32_valid (conv x) = true) -> 1 <= chunks -> (N.of_nat dim + 1 < 2 ^ 32)%N -> four_bytes gl' -> rows_ok n (dim * w) dim base -> d data = Some (vector_file dim base) ->
  ~ In data (pivot_names path) -> d path = None ->
  generate_pq g g' gl gl' env popf mbs maxb cdist w conv pick orders data prefix nc chunks d = Ok d' ->
  exists offs pivots, boundaries dim chunks offs /\ rows_of nc dim pivots /\ pivot_files path nc dim (repeat f32_zero dim) offs pivots d' /\
    trained env dim nc chunks 15 offs (picked w conv dim base pick) pivots /\ same_but (out :: pivot_names path) d d' /\
    (pops popf -> 1 <= mbs -> 1 <= maxb -> pq_orders n (min n maxb) mbs orders ->
     (forall p i a, p < n -> i < chunks -> nth_error offs i = Some a -> usable (pivot_dist cdist (repeat f32_zero dim) pivots (float_rows w conv dim base) a (chunk_size dim chunks i) p) nc) ->
     exists codes body, d' out = Some (u32 (N.of_nat n) ++ u32 (N.of_nat chunks) ++ body) /\
       length codes = n * chunks /\ length body = code_width nc * (n * chunks) /\ dec_all (code_width nc) (n * chunks) body = map N.of_nat codes /\
       forall p i a, p < n -> i < chunks -> nth_error offs i = Some a ->
         exists c, nth_error codes (p * chunks + i) = Some c /\ first_nearest (pivot_dist cdist (repeat f32_zero dim) pivots (float_rows w conv dim base) a (chunk_size dim chunks i) p) nc c).
Proof.
  intros g g' gl gl' env popf mbs maxb cdist w conv pick orders data prefix n dim nc chunks base d d' path out HV Hc Hd G HR Hdata Hnd Hnew H.
  pose proof HR as [HL _]. unfold generate_pq in H. fold path in H. fold out in H. rewrite Hdata in H.
  destruct (sample_split g w conv n dim base pick HR) as [floats [E1 [E2 Sh]]]. rewrite E1 in H. cbn [bind] in H. rewrite E2 in H.
  assert (EP : map (fun p => nth p (float_rows w conv dim base) []) (filter pick (seq 0 n)) = picked w conv dim base pick) by (unfold picked; now rewrite HL). rewrite EP in H, Sh.
  apply bind_ok in H. destruct H as [[ok d1] [Eg H]]. cbn [snd] in H.
  assert (ok = true).
  { destruct ok; auto. exfalso. assert (d1 = d).
    { unfold gen_pivots in Eg. rewrite Hnew in Eg. cbn [bind] in Eg. destruct (dim <? chunks); [congruence|]. apply bind_ok in Eg. destruct Eg as [cr [_ Eg]].
      apply bind_ok in Eg. destruct Eg as [ch [_ Eg]]. destruct ch as [[rearr offs]|]; [|congruence]. destruct (_ <=? _)%N; [discriminate|].
      repeat (apply bind_ok in Eg; destruct Eg as [? [_ Eg]]). congruence. }
    subst d1. unfold pq_data in H. rewrite Hdata in H. destruct (vector_header g' n _ dim base HR) as [c1 [c2 [F1 [F2 R]]]]. rewrite F1 in H. cbn [bind fst snd] in H.
    rewrite F2 in H. cbn [bind fst snd] in H. unfold load_pivots in H. rewrite Hnew in H. discriminate. }
  subst ok. destruct (gen_pivots_files _ _ _ _ _ _ _ _ _ _ _ _ Sh (picked_valid w conv dim base pick HV) Hc (le_n_S _ _ (Nat.le_0_l 14)) Eg) as [offs [pivots [Hcd [Hsz [B [HP [PV [PF [SB Tr]]]]]]]]].
  cbn [centroid_used training_set] in PF, Tr.
  assert (Hdata1 : d1 data = Some (vector_file dim base)) by (rewrite (SB data Hnd); auto).
  assert (Ed : exists f, d' = fs_set d1 out (Some f)).
  { unfold pq_data in H. apply bind_ok in H. destruct H as [r1 [_ H]]. apply bind_ok in H. destruct H as [r2 [_ H]]. apply bind_ok in H. destruct H as [[[[a b] c] e] [_ H]].
    match type of H with (if ?b then _ else _) = _ => destruct b; [discriminate|] end.
    apply bind_ok in H. destruct H as [rs [_ H]]. apply bind_ok in H. destruct H as [f [_ H]]. exists f. congruence. }
  destruct Ed as [f Ed]. exists offs, pivots. split; [auto|]. split; [auto|]. split.
  { rewrite Ed. apply pivot_files_keep; auto. apply out_fresh. }
  split; [exact Tr|]. split.
  { intros name Hn. rewrite Ed. rewrite fs_neq by (intros E; apply Hn; left; auto). apply SB. intros I. apply Hn. now right. }
  intros Hp Hm Hx Ho HU. destruct (Nat.eq_dec n 0) as [E0|E0].
  { exfalso. unfold pq_data in H. rewrite Hdata1 in H. destruct (vector_header g' n _ dim base HR) as [c1 [c2 [F1 [F2 R]]]]. rewrite F1 in H. cbn [bind fst snd] in H.
    rewrite F2 in H. cbn [bind fst snd] in H. apply bind_ok in H. destruct H as [[[[a b] c] e] [_ H]]. pose proof HR as [_ [_ [Hn32 _]]]. rewrite (dec_u32 (N.of_nat n) Hn32) in H. rewrite Nat2N.id, E0 in H. discriminate. }
  destruct (pq_data_ok g' gl' popf mbs maxb cdist w conv orders data n dim nc chunks base path out d1 (repeat f32_zero dim) offs pivots) as [codes [body [E H']]]; auto.
  - apply repeat_length.
  - intros v Hv. apply repeat_spec in Hv. now subst v.
  - lia.
  - exists codes, body. split; [|exact H']. rewrite E in H. injection H as <-. apply fs_set_same.
Qed.

(** ** Pivots that are already there *)
Lemma gen_pivots_kept : forall gl env train dim nc chunks reps path zm pivots d, four_bytes gl -> chunks <= dim ->
  (N.of_nat nc * N.of_nat dim < 2 ^ 32)%N -> (N.of_nat dim < 2 ^ 32)%N -> (N.of_nat nc < 2 ^ 32)%N -> rows_of nc dim pivots -> floats_ok pivots -> d path = Some (float_file nc dim pivots) ->
  gen_pivots gl env train dim nc chunks reps path zm d = Ok (false, d).
Proof.
  intros gl env train dim nc chunks reps path zm pivots d G Hcd Hs Hd Hnc [PL Pr] Pv F. unfold gen_pivots. rewrite (proj2 (Nat.ltb_ge dim chunks)) by lia. rewrite F.
  assert (CC : length (concat pivots) = nc * dim) by (rewrite (concat_uniform _ dim pivots Pr), PL; auto).
  assert (Rt : load_bin 4 (gl 0) (gl 1) (Some (bin_file 4 (N.of_nat nc) (N.of_nat dim) (map bits_of_f32 (concat pivots)))) = Ok (N.of_nat nc, N.of_nat dim, map bits_of_f32 (concat pivots))).
  { apply bin_round_trip; try apply G; auto.
    - rewrite map_length, CC. lia.
    - change (2 ^ 63)%N with 9223372036854775808%N. change (2 ^ 32)%N with 4294967296%N in *. lia.
    - apply words_small. apply floats_concat. auto. }
  unfold float_file. rewrite Rt. cbn [bind fst snd]. rewrite !N.eqb_refl. reflexivity.
Qed.

Lemma generate_pq_kept : forall g g' gl gl' env popf mbs maxb cdist w conv pick orders data prefix n dim nc chunks base pivots d d',
  let path := (prefix ++ "_pq_pivots.bin")%string in let out := (prefix ++ "_compressed.bin")%string in
  four_bytes gl -> rows_ok n (dim * w) dim base -> d data = Some (vector_file dim base) ->
  (N.of_nat nc * N.of_nat dim < 2 ^ 32)%N -> (N.of_nat nc < 2 ^ 32)%N -> rows_of nc dim pivots -> floats_ok pivots -> d path = Some (float_file nc dim pivots) ->
  generate_pq g g' gl gl' env popf mbs maxb cdist w conv pick orders data prefix nc chunks d = Ok d' -> same_but [out] d d'.
Proof.
  intros g g' gl gl' env popf mbs maxb cdist w conv pick orders data prefix n dim nc chunks base pivots d d' path out G HR Hdata Hs Hnc HP PV F H.
  unfold generate_pq in H. fold path in H. fold out in H. rewrite Hdata in H.
  destruct (sample_split g w conv n dim base pick HR) as [floats [E1 [E2 Sh]]]. rewrite E1 in H. cbn [bind] in H. rewrite E2 in H.
  assert (Eg : exists t, gen_pivots gl env (map (fun p : nat => nth p (float_rows w conv dim base) []) (filter pick (seq 0 n))) dim nc chunks 15 path false d = Ok (t, d)).
  { destruct (Nat.le_gt_cases chunks dim) as [L|L]; exists false.
    - apply (gen_pivots_kept gl env _ dim nc chunks 15 path false pivots d); auto. apply HR.
    - unfold gen_pivots. now rewrite (proj2 (Nat.ltb_lt dim chunks)) by lia. }
  destruct Eg as [t Eg]. rewrite Eg in H. cbn [bind snd] in H.
  assert (Ed : exists f, d' = fs_set d out (Some f)).
  { unfold pq_data in H. apply bind_ok in H. destruct H as [r1 [_ H]]. apply bind_ok in H. destruct H as [r2 [_ H]]. apply bind_ok in H. destruct H as [[[[a b] c] e] [_ H]].
    match type of H with (if ?b then _ else _) = _ => destruct b; [discriminate|] end.
    apply bind_ok in H. destruct H as [rs [_ H]]. apply bind_ok in H. destruct H as [f [_ H]]. exists f. congruence. }
  destruct Ed as [f Ed]. intros name Hn. rewrite Ed. apply fs_neq. intros E. apply Hn. left. auto.
Qed.

(** ** Pivots of another size are replaced *)
Lemma gen_pivots_replaced : forall gl env train n dim nc chunks reps path zm nc' dim' old d ok d', four_bytes gl -> rows_of n dim train -> floats_ok train ->
  1 <= chunks -> chunks <= dim -> 1 <= reps ->
  (N.of_nat nc' * N.of_nat dim' < 2 ^ 32)%N -> (N.of_nat dim' < 2 ^ 32)%N -> (N.of_nat nc' < 2 ^ 32)%N -> rows_of nc' dim' old -> floats_ok old ->
  d path = Some (float_file nc' dim' old) -> nc' <> nc \/ dim' <> dim ->
  gen_pivots gl env train dim nc chunks reps path zm d = Ok (ok, d') ->
  ok = true /\ exists offs pivots, boundaries dim chunks offs /\ rows_of nc dim pivots /\
    pivot_files path nc dim (centroid_used zm dim train) offs pivots d' /\ same_but (pivot_names path) d d' /\
    trained env dim nc chunks reps offs (training_set zm dim train) pivots.
Proof.
  intros gl env train n dim nc chunks reps path zm nc' dim' old d ok d' G HR HV Hc Hcd Hreps Hs Hd Hnc [PL Pr] Pv F Hne H.
  assert (ok = true).
  { unfold gen_pivots in H. rewrite (proj2 (Nat.ltb_ge dim chunks)) in H by lia. rewrite F in H.
    assert (CC : length (concat old) = nc' * dim') by (rewrite (concat_uniform _ dim' old Pr), PL; auto).
    assert (Rt : load_bin 4 (gl 0) (gl 1) (Some (bin_file 4 (N.of_nat nc') (N.of_nat dim') (map bits_of_f32 (concat old)))) = Ok (N.of_nat nc', N.of_nat dim', map bits_of_f32 (concat old))).
    { apply bin_round_trip; try apply G; auto.
      - rewrite map_length, CC. lia.
      - change (2 ^ 63)%N with 9223372036854775808%N. change (2 ^ 32)%N with 4294967296%N in *. lia.
      - apply words_small. apply floats_concat. auto. }
    unfold float_file in H. rewrite Rt in H. cbn [bind fst snd] in H.
    assert (Es : ((N.of_nat dim' =? N.of_nat dim)%N && (N.of_nat nc' =? N.of_nat nc)%N)%bool = false).
    { apply Bool.andb_false_iff. destruct Hne as [Hne|Hne]; [right|left]; apply N.eqb_neq; lia. }
    rewrite Es in H. apply bind_ok in H. destruct H as [cr [_ H]]. destruct (pq_chunks_ok dim chunks Hc Hcd) as [offs [Ech _]]. rewrite Ech in H. cbn [bind] in H.
    destruct (_ <=? _)%N; [discriminate|]. repeat (apply bind_ok in H; destruct H as [? [_ H]]). congruence. }
  subst ok. split; [auto|].
  destruct (gen_pivots_files _ _ _ _ _ _ _ _ _ _ _ _ HR HV Hc Hreps H) as [offs [pivots [_ [_ [B [HP [_ [PF [SB Tr]]]]]]]]].
  exists offs, pivots. split; [auto|]. split; [auto|]. split; [auto|]. split; auto.
Qed.

(** ** Refusals *)
Lemma pq_data_no_pivots : forall g gl popf mbs maxb cdist w conv orders data n dim nc chunks base path out d,
  d data = Some (vector_file dim base) -> rows_ok n (dim * w) dim base -> d path = None ->
  pq_data g gl popf mbs maxb cdist w conv orders data nc chunks path out d = Throw.
Proof.
  intros g gl popf mbs maxb cdist w conv orders data n dim nc chunks base path out d Hdata HR Hp. unfold pq_data. rewrite Hdata.
  destruct (vector_header g n _ dim base HR) as [c1 [c2 [F1 [F2 R]]]]. rewrite F1. cbn [bind fst snd]. rewrite F2. cbn [bind fst snd]. unfold load_pivots. now rewrite Hp.
Qed.

Lemma pq_data_other_chunks : forall g gl popf mbs maxb cdist w conv orders data n dim nc chunks chunks' base path out d centroid offs pivots,
  four_bytes gl -> (N.of_nat dim + 1 < 2 ^ 32)%N -> chunks <= dim -> boundaries dim chunks offs -> length centroid = dim -> (forall v, In v centroid -> f32_valid v = true) ->
  pivot_files path nc dim centroid offs pivots d -> d data = Some (vector_file dim base) -> rows_ok n (dim * w) dim base -> chunks' <> chunks ->
  pq_data g gl popf mbs maxb cdist w conv orders data nc chunks' path out d = Throw.
Proof.
  intros g gl popf mbs maxb cdist w conv orders data n dim nc chunks chunks' base path out d centroid offs pivots G Hd Hcd B CL CV [F1 [F2 [F3 F4]]] Hdata HR Hne.
  unfold pq_data. rewrite Hdata. destruct (vector_header g n _ dim base HR) as [c1 [c2 [E1 [E2 R]]]]. rewrite E1. cbn [bind fst snd]. rewrite E2. cbn [bind fst snd].
  pose proof HR as [HL [HR1 [Hn32 [Hd32 Hf]]]]. rewrite !dec_u32 by auto. rewrite !Nat2N.id. unfold load_pivots. rewrite F1.
  change (2 ^ 32)%N with 4294967296%N in *. pose proof B as [OL _].
  assert (Rt : forall g1 g2 data n k, length g1 = 4 -> length g2 = 4 -> (n < 4294967296)%N -> (k < 4294967296)%N -> (n * k < 4294967296)%N -> N.of_nat (length data) = (n * k)%N ->
    (forall x, In x data -> (x < 256 ^ N.of_nat 4)%N) -> load_bin 4 g1 g2 (Some (bin_file 4 n k data)) = Ok (n, k, data)).
  { intros g1 g2 data0 n0 k L1 L2 Hn Hk Hnk HL' Hx. apply (bin_round_trip 4 g1 g2 data0 n0 k); auto. change (2 ^ 63)%N with 9223372036854775808%N. lia. }
  rewrite F2. unfold float_file at 1. cbn [concat]. rewrite app_nil_r. rewrite Rt; try apply G; try lia; [|rewrite map_length, CL; lia|apply words_small; auto].
  cbn [bind fst snd]. rewrite !N.eqb_refl. cbn [negb orb].
  rewrite F3. unfold number_file. rewrite seq_length. rewrite Rt; try apply G; try lia; [|rewrite map_length, seq_length; lia|].
  2: { apply (numbers_small _ dim); [|lia]. intros v Hv. apply in_seq in Hv. lia. }
  cbn [bind fst snd]. rewrite !N.eqb_refl. cbn [negb orb].
  rewrite F4. unfold number_file. rewrite Rt; try apply G; try lia; [|rewrite map_length; lia|].
  2: { apply (numbers_small _ dim); [|lia]. apply (boundaries_small dim chunks offs B). }
  cbn [bind fst snd]. rewrite (proj2 (N.eqb_neq (N.of_nat (length offs)) (N.of_nat chunks' + 1))) by lia. reflexivity.
Qed.

Lemma gen_pivots_too_many : forall gl env train dim nc chunks reps path zm d, dim < chunks -> gen_pivots gl env train dim nc chunks reps path zm d = Ok (false, d).
Proof. intros gl env train dim nc chunks reps path zm d H. unfold gen_pivots. now rewrite (proj2 (Nat.ltb_lt dim chunks)). Qed.
