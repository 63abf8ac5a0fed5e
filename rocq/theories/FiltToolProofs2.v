(** The filtered ground truth tool: from the command line to the files. *)
From Coq Require Import NArith ZArith Reals Lra Lia Ascii String List Arith Bool Sorting.Sorted Permutation Floats.SpecFloat.
From Flocq Require Import Core.
From Verif Require Import Base Bytes Float32 DivFacts FloatBits DistSpec DistModel FusedModel RealSpec FloatReal L2ErrorProofs RealDistProofs ConvertModel NormModel NormSpec NormProofs NormProofs2 PqModel ClosestModel TopKSpec GtModel GtSpec HeapSpec GtProofs GtProofs2 GtProofs3 MeanProofs3
  StreamModel BinModel BinSpec BinProofs BinProofs2 TextModel TextProofs TruthModel TruthSpec TruthProofs BlasModel BlasSpec BlasProofs BlasProofs2 BlasProofs3 BlasProofs4 BlasProofs5 BlasProofs6 BlasProofs7 GtToolModel GtToolSpec GtToolProofs GtToolProofs2 GtToolProofs3
  IndexFileModel FiltGtModel FiltGtSpec FiltGtProofs CmdModel CmdSpec CmdProofs CmdProofs2 CmdProofs6 UtilCmdSpec UtilCmdProofs2 FiltToolModel FiltToolSpec FiltToolProofs.
Import ListNotations.
Local Open Scope nat_scope.

Definition selected (rows : list (list N)) (ids : list nat) : list (list N) := map (fun i => nth i rows []) ids.

Lemma append_same : forall s a b : string, (s ++ a = s ++ b)%string -> a = b.
Proof. induction s as [|c s IH]; intros a b H; [exact H|]. cbn in H. injection H as H. auto. Qed.
Lemma append_self : forall s b : string, (s ++ b = s)%string -> b = EmptyString.
Proof. induction s as [|c s IH]; intros b H; [exact H|]. cbn in H. injection H as H. auto. Qed.

Lemma ids_below : forall n text fs univ ids, matches n text fs univ ids -> forall i, In i ids -> i < n.
Proof. intros n text fs univ ids [_ H] i Hi. now apply H in Hi. Qed.
Lemma ids_count : forall n text fs univ ids, matches n text fs univ ids -> length ids <= n.
Proof.
  intros n text fs univ ids H. rewrite <- (seq_length n 0). apply NoDup_incl_length.
  - destruct H as [S _]. induction S as [|x l S IH F]; constructor; auto. intro Q. rewrite Forall_forall in F. specialize (F x Q). lia.
  - intros i Hi. apply in_seq. pose proof (ids_below _ _ _ _ _ H i Hi). lia.
Qed.
Lemma selected_in : forall rows n text fs univ ids, matches n text fs univ ids -> n = length rows -> forall r, In r (selected rows ids) -> In r rows.
Proof. intros rows n text fs univ ids H -> r Hr. apply in_map_iff in Hr. destruct Hr as [i [<- Hi]]. apply nth_In. eapply ids_below; eauto. Qed.
Lemma selected_nth : forall rows ids j, j < length ids -> nth j (selected rows ids) [] = nth (nth j ids 0) rows [].
Proof. intros rows ids j Hj. unfold selected. rewrite (nth_indep _ [] (nth 0 rows [])) by (rewrite map_length; lia). exact (map_nth (fun i => nth i rows []) ids 0 j). Qed.

Lemma enc_len : forall w r, length (enc_all w r) = w * length r.
Proof. intros. rewrite enc_all_length. lia. Qed.

(** The run up to the selection of the vectors. *)
Lemma filtered_steps : forall W pushf takef sortf bs ps g orders kt dim rows text coord labels fstr query k out univ ids d, (forall i, length (g i) = 4) ->
  (N.of_nat (length rows) < 2147483648)%N -> (Z.of_nat dim <= 2 ^ 20)%Z -> (forall r, In r rows -> length r = dim) ->
  coord <> base_name out -> labels <> base_name out -> query <> base_name out -> d coord = vector_file kt dim rows -> d labels = Some text ->
  line_count text = length rows -> matches (length rows) text fstr univ ids ->
  compute_filtered_gt W pushf takef sortf bs ps g orders kt coord labels fstr query k out univ d =
  do z <- atoi (show k);
  do t <- aux_tool W pushf takef sortf bs ps kt (g 4) (g 5) (g 6) (g 7) (vector_file kt dim (selected rows ids)) (d query) (N.to_nat (int_u64 z)) orders;
  do b <- remap_truth (kwidth kt) ids (g 8) (g 9) (Some t);
  Ok (fs_set (fs_set (fs_set (fs_set (fs_set d (base_name out) (vector_file kt dim (selected rows ids))) (dummy_name out) (Some t)) out (Some b)) (base_name out) None) (dummy_name out) None).
Proof.
  intros W pushf takef sortf bs ps g orders kt dim rows text coord labels fstr query k out univ ids d G Hn Hd HR N1 N2 N3 D1 D2 HL HM. unfold compute_filtered_gt. fold (base_name out) (dummy_name out).
  rewrite (proj2 (String.eqb_neq _ _) N1), (proj2 (String.eqb_neq _ _) N2). cbn [orb]. rewrite D1, D2. unfold vector_file at 1. cbn [open_file]. unfold bin_file at 1. rewrite read_header_app by (auto; unfold u32_range; lia).
  rewrite Nat2N.id. unfold line_count in HL. set (lines := getlines LF (text_of text)) in *.
  assert (Em : ids = matching (line_tokens fstr) univ lines). { eapply lists_all_unique; [exact HM|]. rewrite <- HL. apply matching_spec. }
  pose proof (extract_ok (kwidth kt * dim) (line_tokens fstr) univ lines (map (enc_all (kwidth kt)) rows) 0 (repeat 0%N (kwidth kt * dim)) []) as X.
  rewrite map_length, <- enc_all_concat, app_nil_r, <- Em in X. rewrite X; [|auto| |apply repeat_length].
  2:{ intros r Hr. apply in_map_iff in Hr. destruct Hr as [e [<- He]]. rewrite enc_len, HR by auto. reflexivity. }
  replace (map (fun i => i + 0) ids) with ids by (rewrite <- (map_id ids) at 1; apply map_ext; intros; lia).
  assert (Es : map (fun i => nth i (map (enc_all (kwidth kt)) rows) []) ids = map (enc_all (kwidth kt)) (selected rows ids)).
  { unfold selected. rewrite map_map. apply map_ext. intros i. change (@nil N) with (enc_all (kwidth kt) []) at 1. apply map_nth. }
  rewrite Es. rewrite map_length, <- enc_all_concat. change (Some (u32 (N.of_nat (length (selected rows ids))) ++ u32 (N.of_nat dim) ++ enc_all (kwidth kt) (concat (selected rows ids)))) with (vector_file kt dim (selected rows ids)).
  set (d1 := fs_set d (base_name out) (vector_file kt dim (selected rows ids))). assert (E1 : d1 coord = vector_file kt dim rows) by (unfold d1; rewrite set_other by auto; exact D1). rewrite E1.
  assert (E2 : d1 query = d query) by (unfold d1; apply set_other; auto). assert (E3 : d1 (base_name out) = vector_file kt dim (selected rows ids)) by apply set_same. rewrite E2, E3.
  unfold vector_file at 1. unfold bin_file at 1. rewrite load_bin_right.
  2,3: apply G. 2,3: unfold u32_range; lia.
  2:{ assert (kwidth kt <= 4) by (destruct kt; cbn; lia). change (2 ^ 63)%N with 9223372036854775808%N. assert (N.of_nat (length rows) * N.of_nat dim <= 2147483648 * 1048576)%N by (apply N.mul_le_mono; lia). assert (N.of_nat (kwidth kt) <= 4)%N by lia. nia. }
  2:{ rewrite enc_len, (concat_len _ dim) by auto. lia. }
  cbn [bind]. destruct (atoi (show k)) as [z| | | |]; try reflexivity. cbn [bind].
  destruct (aux_tool _ _ _ _ _ _ _ _ _ _ _ _ _ _ _) as [t| | | |]; try reflexivity. cbn [bind]. rewrite set_same. reflexivity.
Qed.

Lemma filtered_run : forall W pushf takef sortf bs ps g orders kt dim rows text coord labels fstr query k out univ ids d, (forall i, length (g i) = 4) ->
  (N.of_nat (length rows) < 2147483648)%N -> (Z.of_nat dim <= 2 ^ 20)%Z -> (forall r, In r rows -> length r = dim) -> (k < 2 ^ 31)%N ->
  coord <> base_name out -> labels <> base_name out -> query <> base_name out -> d coord = vector_file kt dim rows -> d labels = Some text ->
  line_count text = length rows -> matches (length rows) text fstr univ ids ->
  compute_filtered_gt W pushf takef sortf bs ps g orders kt coord labels fstr query k out univ d =
  do t <- aux_tool W pushf takef sortf bs ps kt (g 4) (g 5) (g 6) (g 7) (vector_file kt dim (selected rows ids)) (d query) (N.to_nat k) orders;
  do b <- remap_truth (kwidth kt) ids (g 8) (g 9) (Some t);
  Ok (fs_set (fs_set (fs_set (fs_set (fs_set d (base_name out) (vector_file kt dim (selected rows ids))) (dummy_name out) (Some t)) out (Some b)) (base_name out) None) (dummy_name out) None).
Proof.
  intros W pushf takef sortf bs ps g orders kt dim rows text coord labels fstr query k out univ ids d G Hn Hd HR Hk N1 N2 N3 D1 D2 HL HM.
  rewrite (filtered_steps W pushf takef sortf bs ps g orders kt dim rows text coord labels fstr query k out univ ids d) by auto. rewrite atoi_show by exact Hk. cbn [bind]. rewrite u64_small by exact Hk. reflexivity.
Qed.

(** What the tool leaves of other files. *)
Lemma left_files : forall (d : fs) out v t b, let d' := fs_set (fs_set (fs_set (fs_set (fs_set d (base_name out) v) (dummy_name out) (Some t)) out (Some b)) (base_name out) None) (dummy_name out) None in
  d' out = Some b /\ d' (base_name out) = None /\ d' (dummy_name out) = None /\ forall name, name <> out -> name <> base_name out -> name <> dummy_name out -> d' name = d name.
Proof.
  intros d out v t b d'. assert (A1 : out <> base_name out) by (intro Q; symmetry in Q; apply append_self in Q; discriminate). assert (A2 : out <> dummy_name out) by (intro Q; symmetry in Q; apply append_self in Q; discriminate).
  assert (A3 : base_name out <> dummy_name out) by (intro Q; apply append_same in Q; discriminate). unfold d'. split.
  - rewrite (set_other _ (dummy_name out) out) by auto. rewrite (set_other _ (base_name out) out) by auto. apply set_same.
  - split; [rewrite (set_other _ (dummy_name out)) by auto; apply set_same|]. split; [apply set_same|]. intros name H1 H2 H3. rewrite !set_other by auto. reflexivity.
Qed.

(** ** The distances of the matching vectors *)
Lemma aux_truth : forall W pushf takef sortf bs ps kt gb1 gb2 gq1 gq2 dim k rows qrows orders, heap_ok pushf takef -> sorts_pairs sortf -> length gb1 = 4 -> length gb2 = 4 -> length gq1 = 4 -> length gq2 = 4 -> 1 <= bs -> 1 <= ps -> 1 <= k -> (forall p, batch_orders (length qrows) bs (orders p)) ->
  tool_input kt dim ps rows qrows -> ways_ok dim W -> (Z.of_nat dim <= 2 ^ 20)%Z -> (forall r, In r rows \/ In r qrows -> elem_sq kt r <= powerRZ 2 100)%R ->
  exists res_out, aux_tool W pushf takef sortf bs ps kt gb1 gb2 gq1 gq2 (vector_file kt dim rows) (vector_file kt dim qrows) k orders =
      save_truthset (map (fun x => N.of_nat (fst x)) res_out) (map (fun x => bits_of_f32 (snd x)) res_out) (N.of_nat (length qrows)) (N.of_nat (min k (last_part (length rows) ps))) /\ length res_out = length qrows * k /\
    (forall i, i < length qrows -> nearest_within (length rows) (min k (last_part (length rows) ps)) (fun p => elem_l2 kt (nth p rows []) (nth i qrows []))
      (fun p => ((INR dim + 8) * powerRZ 2 (-22) * (elem_sq kt (nth p rows []) + elem_sq kt (nth i qrows [])) + (INR dim + 4) * powerRZ 2 (-147))%R) (row_of (min k (last_part (length rows) ps)) i res_out)) /\
    (forall i x, i < length qrows -> In x (row_of (min k (last_part (length rows) ps)) i res_out) -> f32_valid (snd x) = true).
Proof.
  intros W pushf takef sortf bs ps kt gb1 gb2 gq1 gq2 dim k rows qrows orders HO Hs Gb1 Gb2 Gq1 Gq2 Hbs Hps Hk Ho [Nr [Lr [Nq [Lq [Qp [Ld HR]]]]]] HW D20 B100.
  set (n := length rows) in *. set (nq := length qrows) in *. assert (Hn1 : 1 <= n) by (unfold n; destruct rows; [congruence|cbn; lia]).
  set (dist := fun i p => elem_l2 kt (nth p rows []) (nth i qrows [])). set (err := fun i p => ((INR dim + 8) * powerRZ 2 (-22) * (elem_sq kt (nth p rows []) + elem_sq kt (nth i qrows [])) + (INR dim + 4) * powerRZ 2 (-147))%R).
  set (ent := fun p q j => part_entry W false p bs dim (min ps (n - p * ps)) (concat (fvecs kt (part_rows ps p rows))) nq (concat (fvecs kt qrows)) q j).
  assert (He : forall p q j, p * ps < n -> q < nq -> j < min ps (n - p * ps) -> exists v, ent p q j = Ok v /\ num v /\ (Rabs (real v - dist q (p * ps + j)%nat) <= err q (p * ps + j)%nat)%R).
  { intros p q j Hp Hq Hj. unfold ent. set (prows := part_rows ps p rows). assert (Lp : length prows = min ps (length rows - p * ps)) by apply part_length. fold n in Lp. rewrite <- Lp.
    assert (Ip : forall r, In r prows -> In r rows) by (intros r; apply part_in). assert (Np : nth j prows [] = nth (p * ps + j) rows []) by (apply part_nth, Hj).
    assert (Lj : (j < length prows)%nat) by lia. assert (In1 : In (nth (p * ps + j) rows []) rows) by (apply nth_In; fold n; lia). assert (In2 : In (nth q qrows []) qrows) by (apply nth_In, Hq).
    destruct (HR _ (or_introl In1)) as [L1 F1]. destruct (HR _ (or_intror In2)) as [L2 F2].
    assert (Fr : forall r, In r (fvecs kt prows) \/ In r (fvecs kt qrows) -> exists e, (In e rows \/ In e qrows) /\ r = map (kval kt) e).
    { intros r [Hr|Hr]; apply fvec_in in Hr; destruct Hr as [e [He ->]]; exists e; auto. }
    assert (Gr : forall r, In r (fvecs kt prows) \/ In r (fvecs kt qrows) -> length r = dim /\ good r).
    { intros r Hr. destruct (Fr r Hr) as [e [He ->]]. destruct (HR e He) as [A B]. split; [rewrite map_length; exact A|]. apply vec_good, B. }
    rewrite part_l2 by exact Lj. unfold nq. rewrite <- (fvec_length kt prows), <- (fvec_length kt qrows) in *.
    destruct (gt_float (at_part W p) bs (length (fvecs kt prows)) dim (fvecs kt prows) (fvecs kt qrows)) with (q := q) (p := j) as [v [Hv [Nv Dv]]]; auto; [lia|now apply at_part_ok| |rewrite fvec_length; exact Hq|].
    { intros r Hr. destruct (Gr r Hr) as [A B]. split; [exact A|]. split; [exact B|]. destruct (Fr r Hr) as [e [He ->]]. destruct (HR e He) as [_ C]. rewrite vec_sq by exact C. apply B100, He. }
    exists v. split; [exact Hv|]. split; [exact Nv|]. rewrite !fvec_nth, Np, !vec_sq, vec_l2 in Dv by auto. exact Dv. }
  set (dmat := fun q p => if (q <? nq)%nat && (p <? n)%nat then match ent (p / ps)%nat q (p mod ps)%nat with Ok d => d | _ => S754_nan end else f32_zero).
  assert (Dm : forall q p, (q < nq)%nat -> (p < n)%nat -> num (dmat q p) /\ (Rabs (real (dmat q p) - dist q p) <= err q p)%R).
  { intros q p Hq' Hp'. unfold dmat. apply Nat.ltb_lt in Hq' as Q1, Hp' as Q2. rewrite Q1, Q2. cbn [andb]. pose proof (Nat.div_mod p ps ltac:(lia)) as Q3. pose proof (Nat.mod_upper_bound p ps ltac:(lia)) as Q4.
    destruct (He (p / ps)%nat q (p mod ps)%nat) as [v [Hv R]]; [lia|exact Hq'|lia|]. rewrite Hv. replace (p / ps * ps + p mod ps)%nat with p in R by lia. exact R. }
  assert (NN : forall q p, is_nan (dmat q p) = false).
  { intros q p. destruct (Nat.ltb_spec q nq) as [Hq'|Hq'], (Nat.ltb_spec p n) as [Hp'|Hp'].
    + apply finite_nan. apply Dm; auto.
    + unfold dmat. apply Nat.ltb_ge in Hp'. rewrite Hp', andb_false_r. reflexivity.
    + unfold dmat. apply Nat.ltb_ge in Hq'. rewrite Hq'. reflexivity.
    + unfold dmat. apply Nat.ltb_ge in Hq'. rewrite Hq'. reflexivity. }
  rewrite (aux_tool_gt W pushf takef sortf bs ps kt gb1 gb2 gq1 gq2 dim k rows qrows orders dmat); auto.
  - fold n nq. destruct (ground_truth_ok pushf takef sortf bs ps n nq k dmat orders HO Hs NN Hbs Hps Hn1 Hk Ho) as [out [-> [Lo T]]]. cbn [bind fst snd]. exists out. split; [reflexivity|]. split; [exact Lo|]. split.
    + intros i Hi. apply (top_within n _ (dmat i)); [pose proof (last_le n ps Hn1 Hps); lia|intros p Hp; apply Dm; auto|apply T, Hi].
    + intros i x Hi Hx. destruct (T i Hi) as [rest [P _]]. assert (Ix : In x (score (dmat i) (seq 0 n))) by (apply (Permutation_in _ (Permutation_sym P)), in_or_app; auto). apply in_map_iff in Ix. destruct Ix as [p [<- Hp]]. apply in_seq in Hp. cbn [snd]. apply Dm; [exact Hi|lia].
  - fold nq. lia.
  - intros r Hr. destruct (HR r Hr) as [A B]. split; [exact A|]. intros x Hx. rewrite Forall_forall in B. apply elem_width, B, Hx.
  - fold n nq. intros p Hp. unfold part_matrix. fold (fvecs kt (part_rows ps p rows)). fold (fvecs kt qrows).
    change (fun qj : nat * nat => part_entry W false p bs dim (min ps (n - p * ps)) (concat (fvecs kt (part_rows ps p rows))) nq (concat (fvecs kt qrows)) (fst qj) (snd qj)) with (fun qj : nat * nat => ent p (fst qj) (snd qj)).
    destruct (collect_ex _ _ (fun qj => ent p (fst qj) (snd qj)) (fun _ _ => True) (list_prod (seq 0 nq) (seq 0 (min ps (n - p * ps))))) as [ys [-> _]].
    { intros [q j] Hx. apply in_prod_iff in Hx. rewrite !in_seq in Hx. destruct (He p q j) as [v [Hv _]]; [exact Hp|lia|lia|]. exists v. auto. }
    cbn [bind]. eexists. split; [reflexivity|]. cbn beta. intros q j Hq' Hj. pose proof Hq' as Q1. pose proof Hj as Q2. apply Nat.ltb_lt in Q1, Q2. rewrite Q1, Q2. cbn [andb].
    unfold dmat. rewrite Q1. assert (Hpj : (p * ps + j <? n)%nat = true) by (apply Nat.ltb_lt; lia). rewrite Hpj. cbn [andb].
    rewrite (Nat.add_comm (p * ps)), Nat.div_add, Nat.div_small, Nat.mod_add, Nat.mod_small by lia. reflexivity.
Qed.

Lemma bytes_small : forall kt v, kt <> KFloat -> Forall (elem_ok kt) v -> (Z.of_nat (length v) <= 2 ^ 20)%Z -> (real_sum (map (fun e => (elem_real kt e ^ 2)%R) v) <= powerRZ 2 100)%R.
Proof.
  intros kt v Kt F L. assert (B : (real_sum (map (fun e => (elem_real kt e ^ 2)%R) v) <= INR (length v) * 65536)%R).
  { clear L. induction F as [|e v He F IH]; [cbn; lra|]. cbn [map length]. unfold real_sum in *. cbn [fold_right]. rewrite S_INR. destruct (zelem_ok kt e Kt He) as [_ [-> R]]. assert (Q : (IZR (zelem kt e) ^ 2 <= 65536)%R).
    { rewrite pow_IZR. apply IZR_le. destruct kt; [congruence| |]; nia. } lra. }
  eapply Rle_trans; [exact B|]. change (powerRZ 2 100) with (2 ^ 100)%R. rewrite INR_IZR_INZ. rewrite <- mult_IZR. rewrite (pow_IZR 2 100). apply IZR_le. eapply Z.le_trans; [apply Z.mul_le_mono_nonneg_r; [lia|exact L]|]. vm_compute. discriminate.
Qed.

Lemma sorted_map : forall (f : nat * f32 -> nat * f32) row, (forall x, snd (f x) = snd x) -> StronglySorted (fun x y => (real (snd x) <= real (snd y))%R) row -> StronglySorted (fun x y => (real (snd x) <= real (snd y))%R) (map f row).
Proof.
  intros f row H S. induction S as [|x l S IH F]; constructor; auto. rewrite Forall_forall in *. intros y Hy. apply in_map_iff in Hy. destruct Hy as [z [<- Hz]]. rewrite !H. auto.
Qed.

(** The nearest of the matching vectors are the nearest among the matching points. *)
Lemma among_of_within : forall ids k (dist err : nat -> R) row, NoDup ids -> nearest_within (length ids) k (fun p => dist (nth p ids 0)) (fun p => err (nth p ids 0)) row ->
  nearest_among ids k dist err (map (fun x => (nth (fst x) ids 0, snd x)) row).
Proof.
  intros ids k dist err row Nd [L [ND [S [A B]]]]. set (f := fun x : nat * f32 => (nth (fst x) ids 0, snd x)).
  assert (Ef : map fst (map f row) = map (fun p => nth p ids 0) (map fst row)) by (rewrite !map_map; reflexivity).
  assert (Inj : forall a b, a < length ids -> b < length ids -> nth a ids 0 = nth b ids 0 -> a = b) by (intros a b Ha Hb; exact (proj1 (NoDup_nth ids 0) Nd a b Ha Hb)).
  split; [rewrite map_length; exact L|]. split; [|split; [apply sorted_map; auto|split]].
  - rewrite Ef. assert (Bd : forall p, In p (map fst row) -> p < length ids) by (intros p Hp; apply in_map_iff in Hp; destruct Hp as [x [<- Hx]]; apply A, Hx).
    clear - ND Inj Bd. induction (map fst row) as [|p l IH]; cbn [map]; constructor.
    + inversion ND; subst. intro Q. apply in_map_iff in Q. destruct Q as [q [E Hq]]. apply Inj in E; [subst; contradiction| |]; apply Bd; [right; auto|left; auto].
    + inversion ND; subst. apply IH; auto. intros; apply Bd; right; auto.
  - intros y Hy. apply in_map_iff in Hy. destruct Hy as [x [<- Hx]]. destruct (A x Hx) as [A1 [A2 A3]]. split; [apply nth_In, A1|]. split; [exact A2|exact A3].
  - intros y j Hy Hj Nj. apply in_map_iff in Hy. destruct Hy as [x [<- Hx]]. destruct (In_nth ids j 0 Hj) as [p [Lp <-]]. apply (B x p Hx Lp). intro Q. apply Nj. rewrite Ef. apply in_map_iff. exists p. auto.
Qed.

Lemma command_words : forall W pushf takef sortf bs ps g orders prog kt coord labels fstr query ks k out univ d, number_arg ks k ->
  compute_filtered_groundtruth_main W pushf takef sortf bs ps g orders ([prog; type_word kt; coord; labels; fstr; query; ks; out] ++ label_word univ) d =
  do d' <- compute_filtered_gt W pushf takef sortf bs ps g orders kt coord labels fstr query k out univ d; Ok (0%Z, d').
Proof.
  intros W pushf takef sortf bs ps g orders prog kt coord labels fstr query ks k out univ d Hks. pose proof (small31 _ _ Hks) as K31.
  unfold compute_filtered_groundtruth_main, int_arg, arg. destruct univ as [u|]; cbn [label_word app length Nat.eqb negb andb nth_error bind]; rewrite (atoi_numeral _ _ Hks); cbn [bind]; rewrite kind_word, u64_small by exact K31; reflexivity.
Qed.

Lemma filtered_command : forall W pushf takef sortf bs ps g orders prog dim k ks rows qrows text coord labels fstr query out univ ids d,
  heap_ok pushf takef -> sorts_pairs sortf -> (forall i, length (g i) = 4) -> 1 <= bs -> 1 <= ps -> number_arg ks k -> (1 <= k)%N -> (forall p, batch_orders (length qrows) bs (orders p)) ->
  coord <> base_name out -> labels <> base_name out -> query <> base_name out -> d coord = vector_file KFloat dim rows -> d labels = Some text -> d query = vector_file KFloat dim qrows ->
  tool_input KFloat dim ps rows qrows -> ways_ok dim W -> (Z.of_nat dim <= 2 ^ 20)%Z -> (forall r, In r rows \/ In r qrows -> elem_sq KFloat r <= powerRZ 2 100)%R ->
  line_count text = length rows -> matches (length rows) text fstr univ ids -> ids <> [] ->
  let k' := min (N.to_nat k) (last_part (length ids) ps) in
  exists d' b tids tdists, compute_filtered_groundtruth_main W pushf takef sortf bs ps g orders ([prog; type_word KFloat; coord; labels; fstr; query; ks; out] ++ label_word univ) d = Ok (0%Z, d') /\
    d' out = Some b /\ d' (base_name out) = None /\ d' (dummy_name out) = None /\ (forall name, name <> out -> name <> base_name out -> name <> dummy_name out -> d' name = d name) /\
    (forall h, load_truthset h (Some b) = Ok (N.of_nat (length qrows), N.of_nat k', tids, Some tdists)) /\
    forall i, i < length qrows -> nearest_among ids k' (fun p => elem_l2 KFloat (nth p rows []) (nth i qrows []))
      (fun p => ((INR dim + 8) * powerRZ 2 (-22) * (elem_sq KFloat (nth p rows []) + elem_sq KFloat (nth i qrows [])) + (INR dim + 4) * powerRZ 2 (-147))%R) (truth_row k' i tids tdists).
Proof.
  intros W pushf takef sortf bs ps g orders prog dim k ks rows qrows text coord labels fstr query out univ ids d HO Hs G Hbs Hps Hks Hk Ho N1 N2 N3 D1 D2 D3 HI HW D20 B100 HL HM Hne k'.
  pose proof HI as [Nr [Lr [Nq [Lq [Qp [Ld HR]]]]]]. pose proof (small31 _ _ Hks) as K31. pose proof (ids_count _ _ _ _ _ HM) as Cm. assert (Hm1 : 1 <= length ids) by (destruct ids; [congruence|cbn; lia]).
  rewrite (command_words _ _ _ _ _ _ _ _ _ _ _ _ _ _ _ k) by exact Hks. rewrite (filtered_run W pushf takef sortf bs ps g orders KFloat dim rows text coord labels fstr query k out univ ids d); auto; [|intros r Hr; apply HR; auto].
  rewrite D3. set (sel := selected rows ids).
  assert (Sin : forall r, In r sel -> In r rows) by (eapply selected_in; eauto). assert (Ls : length sel = length ids) by apply map_length.
  destruct (aux_truth W pushf takef sortf bs ps KFloat (g 4) (g 5) (g 6) (g 7) dim (N.to_nat k) sel qrows orders) as [ro [Ea [Lo [T V]]]]; auto.
  { lia. }
  { split; [intro Q; apply Hne; destruct ids; [reflexivity|discriminate Q]|]. split; [lia|]. repeat (split; [assumption|]). intros r [Hr|Hr]; apply HR; auto. }
  { intros r [Hr|Hr]; apply B100; auto. }
  rewrite Ea. rewrite Ls in T, V |- *. fold k' in T, V |- *.
  assert (Hk'1 : 1 <= k'). { unfold k', last_part. destruct (Nat.eqb_spec (length ids mod ps) 0); lia. }
  assert (Hk'2 : k' <= N.to_nat k) by (unfold k'; lia). assert (Hk'3 : k' <= length ids) by (unfold k'; pose proof (last_le (length ids) ps Hm1 Hps); lia).
  change (2 ^ 31)%N with 2147483648%N in K31.
  assert (Hin : forall i x, i < length qrows -> In x (row_of k' i ro) -> fst x < length ids) by (intros i x Hi Hx; destruct (T i Hi) as [_ [_ [_ [A _]]]]; apply A, Hx).
  destruct (remap_ok ids (g 8) (g 9) (length qrows) (N.to_nat k) k' ro) as [t [-> Er]]; auto; try (change (2 ^ 32)%N with 4294967296%N; lia). cbn [bind kwidth]. rewrite Er. cbn [bind].
  set (top := firstn (length qrows * k') ro) in *. set (found := map (fun x : nat * f32 => (nth (fst x) ids 0, snd x)) top) in *.
  set (tids := map (fun x : nat * f32 => N.of_nat (fst x)) found) in *. set (tdists := map (fun x : nat * f32 => bits_of_f32 (snd x)) found) in *.
  set (b := u32 (N.of_nat (length qrows)) ++ u32 (N.of_nat k') ++ enc_all 4 tids ++ enc_all 4 tdists) in *.
  destruct (left_files d out (vector_file KFloat dim sel) t b) as [F1 [F2 [F3 F4]]]. cbn zeta in F1, F2, F3, F4.
  eexists. exists b, tids, tdists. split; [reflexivity|]. split; [exact F1|]. split; [exact F2|]. split; [exact F3|]. split; [exact F4|].
  assert (Lt : length top = length qrows * k') by (unfold top; rewrite firstn_length, Lo; apply Nat.min_l, Nat.mul_le_mono_l; exact Hk'2).
  assert (Ht : forall x, In x top -> fst x < length ids /\ f32_valid (snd x) = true).
  { intros x Hx. destruct (in_row k' (length qrows) top x Hk'1 Lt Hx) as [i [Hi Hr]]. unfold top in Hr. rewrite row_of_firstn in Hr by auto. split; [eapply Hin|eapply V]; eauto. }
  split.
  - intros h. change b with (truth_file (N.of_nat (length qrows)) (N.of_nat k') tids (Some tdists)). apply load_truthset_ok. unfold TruthSpec.truth_ok, u32_range. split; [lia|]. split; [lia|]. split; [nia|]. unfold tids, tdists, found. rewrite !map_length, Lt. split; [lia|]. split; [|split; [lia|split]].
    + intros x Hx. apply in_map_iff in Hx. destruct Hx as [y [<- Hy]]. apply in_map_iff in Hy. destruct Hy as [z [<- Hz]]. cbn [fst]. pose proof (ids_below _ _ _ _ _ HM (nth (fst z) ids 0)) as Q. specialize (Q (nth_In _ _ (proj1 (Ht z Hz)))). unfold u32_range. lia.
    + intros x Hx. apply in_map_iff in Hx. destruct Hx as [y [<- Hy]]. apply in_map_iff in Hy. destruct Hy as [z [<- Hz]]. cbn [snd]. apply f32_of_bits_of_f32. apply Ht, Hz.
    + destruct qrows; [congruence|]. cbn [length]. nia.
  - intros i Hi.
    assert (Et : truth_row k' i tids tdists = map (fun x : nat * f32 => (nth (fst x) ids 0, snd x)) (row_of k' i ro)).
    { unfold truth_row, tids, tdists. transitivity (map (fun x : nat * f32 => (nth (fst x) ids 0, snd x)) (firstn k' (skipn (i * k') top))); [|f_equal; exact (row_of_firstn k' i (length qrows) ro Hi)]. unfold found. rewrite !skipn_map, !firstn_map, !map_map. cbn [fst snd].
      assert (Ev : forall x, In x (firstn k' (skipn (i * k') top)) -> f32_valid (snd x) = true) by (intros x Hx; apply Ht; apply (in_part _ _ _ _ _ Hx)).
      induction (firstn k' (skipn (i * k') top)) as [|x l IH]; [reflexivity|]. cbn [map combine fst snd]. rewrite Nat2N.id. destruct (f32_of_bits_of_f32 (snd x)) as [-> _]; [apply Ev; left; auto|]. rewrite IH by (intros; apply Ev; right; auto). reflexivity. }
    rewrite Et. apply among_of_within.
    { destruct HM as [S _]. clear - S. induction S as [|x l S IH F]; constructor; auto. intro Q. rewrite Forall_forall in F. specialize (F x Q). lia. }
    pose proof (T i Hi) as [A1 [A2 [A3 [A4 A5]]]]. repeat (split; [assumption|]). split.
    + intros x Hx. destruct (A4 x Hx) as [B1 [B2 B3]]. split; [exact B1|]. split; [exact B2|]. unfold sel in B3. rewrite selected_nth in B3 by exact B1. exact B3.
    + intros x j Hx Hj Nj. pose proof (A5 x j Hx Hj Nj) as Q. destruct (A4 x Hx) as [B1 _]. unfold sel in Q. rewrite !selected_nth in Q by assumption. exact Q.
Qed.

(** ** Where it fails *)
Lemma filtered_bytes : forall W pushf takef sortf bs ps g orders prog kt dim k ks rows qrows text coord labels fstr query out univ ids d, kt <> KFloat ->
  heap_ok pushf takef -> sorts_pairs sortf -> (forall i, length (g i) = 4) -> 1 <= bs -> 1 <= ps -> number_arg ks k -> (1 <= k)%N -> (forall p, batch_orders (length qrows) bs (orders p)) ->
  coord <> base_name out -> labels <> base_name out -> query <> base_name out -> d coord = vector_file kt dim rows -> d labels = Some text -> d query = vector_file kt dim qrows ->
  tool_input kt dim ps rows qrows -> ways_ok dim W -> (Z.of_nat dim <= 2 ^ 20)%Z -> line_count text = length rows -> matches (length rows) text fstr univ ids -> ids <> [] ->
  compute_filtered_groundtruth_main W pushf takef sortf bs ps g orders ([prog; type_word kt; coord; labels; fstr; query; ks; out] ++ label_word univ) d = UB.
Proof.
  intros W pushf takef sortf bs ps g orders prog kt dim k ks rows qrows text coord labels fstr query out univ ids d Kt HO Hs G Hbs Hps Hks Hk Ho N1 N2 N3 D1 D2 D3 HI HW D20 HL HM Hne.
  pose proof HI as [Nr [Lr [Nq [Lq [Qp [Ld HR]]]]]]. pose proof (small31 _ _ Hks) as K31. pose proof (ids_count _ _ _ _ _ HM) as Cm. assert (Hm1 : 1 <= length ids) by (destruct ids; [congruence|cbn; lia]).
  rewrite (command_words _ _ _ _ _ _ _ _ _ _ _ _ _ _ _ k) by exact Hks. rewrite (filtered_run W pushf takef sortf bs ps g orders kt dim rows text coord labels fstr query k out univ ids d); auto; [|intros r Hr; apply HR; auto].
  rewrite D3. set (sel := selected rows ids).
  assert (Sin : forall r, In r sel -> In r rows) by (eapply selected_in; eauto). assert (Ls : length sel = length ids) by apply map_length.
  destruct (aux_truth W pushf takef sortf bs ps kt (g 4) (g 5) (g 6) (g 7) dim (N.to_nat k) sel qrows orders) as [ro [Ea [Lo [T V]]]]; auto.
  { lia. }
  { split; [intro Q; apply Hne; destruct ids; [reflexivity|discriminate Q]|]. split; [lia|]. repeat (split; [assumption|]). intros r [Hr|Hr]; apply HR; auto. }
  { intros r Hr. assert (Hr' : In r rows \/ In r qrows) by (destruct Hr as [Hr|Hr]; auto). destruct (HR r Hr') as [L F]. unfold elem_sq. apply bytes_small; auto. rewrite L. exact D20. }
  rewrite Ea. rewrite Ls in T, V |- *. set (k' := min (N.to_nat k) (last_part (length ids) ps)) in *.
  assert (Hk'1 : 1 <= k'). { unfold k', last_part. destruct (Nat.eqb_spec (length ids mod ps) 0); lia. }
  assert (Hk'2 : k' <= N.to_nat k) by (unfold k'; lia). change (2 ^ 31)%N with 2147483648%N in K31.
  assert (Hin : forall i x, i < length qrows -> In x (row_of k' i ro) -> fst x < length ids) by (intros i x Hi Hx; destruct (T i Hi) as [_ [_ [_ [A _]]]]; apply A, Hx).
  destruct (remap_narrow ids (g 8) (g 9) (length qrows) (N.to_nat k) k' ro) as [t [-> Er]]; auto; try (change (2 ^ 32)%N with 4294967296%N; lia); [destruct qrows; [congruence|cbn; lia]|].
  cbn [bind]. replace (kwidth kt) with 1 by (destruct kt; [congruence|reflexivity|reflexivity]). rewrite Er. reflexivity.
Qed.

Lemma filtered_none : forall W pushf takef sortf bs ps g orders prog kt dim k ks rows qrows text coord labels fstr query out univ d,
  sorts_pairs sortf -> (forall i, length (g i) = 4) -> 1 <= ps -> number_arg ks k -> (1 <= k)%N -> (forall p, batch_orders (length qrows) bs (orders p)) ->
  coord <> base_name out -> labels <> base_name out -> query <> base_name out -> d coord = vector_file kt dim rows -> d labels = Some text -> d query = vector_file kt dim qrows ->
  tool_input kt dim ps rows qrows -> (Z.of_nat dim <= 2 ^ 20)%Z -> line_count text = length rows -> matches (length rows) text fstr univ [] ->
  compute_filtered_groundtruth_main W pushf takef sortf bs ps g orders ([prog; type_word kt; coord; labels; fstr; query; ks; out] ++ label_word univ) d = UB.
Proof.
  intros W pushf takef sortf bs ps g orders prog kt dim k ks rows qrows text coord labels fstr query out univ d Hs G Hps Hks Hk Ho N1 N2 N3 D1 D2 D3 HI D20 HL HM.
  pose proof HI as [Nr [Lr [Nq [Lq [Qp [Ld HR]]]]]]. pose proof (small31 _ _ Hks) as K31.
  rewrite (command_words _ _ _ _ _ _ _ _ _ _ _ _ _ _ _ k) by exact Hks. rewrite (filtered_run W pushf takef sortf bs ps g orders kt dim rows text coord labels fstr query k out univ [] d); auto; [|intros r Hr; apply HR; auto].
  rewrite D3. cbn [selected map]. rewrite (aux_tool_gt W pushf takef sortf bs ps kt (g 4) (g 5) (g 6) (g 7) dim (N.to_nat k) [] qrows orders (fun _ _ => f32_zero)); auto; try (cbn; lia).
  - cbn [length]. rewrite ground_truth_no_points; auto; [destruct qrows; [congruence|cbn; lia]|lia].
  - intros r [[]|Hr]. destruct (HR r (or_intror Hr)) as [A B]. split; [exact A|]. intros x Hx. rewrite Forall_forall in B. apply elem_width, B, Hx.
Qed.

Lemma filtered_negative : forall W pushf takef sortf bs ps g orders prog kt dim ks z rows qrows text coord labels fstr query out univ ids d,
  (forall i, length (g i) = 4) -> atoi ks = Ok z -> (z < 0)%Z ->
  coord <> base_name out -> labels <> base_name out -> query <> base_name out -> d coord = vector_file kt dim rows -> d labels = Some text ->
  tool_input kt dim ps rows qrows -> (Z.of_nat dim <= 2 ^ 20)%Z -> line_count text = length rows -> matches (length rows) text fstr univ ids ->
  compute_filtered_groundtruth_main W pushf takef sortf bs ps g orders ([prog; type_word kt; coord; labels; fstr; query; ks; out] ++ label_word univ) d = UB.
Proof.
  intros W pushf takef sortf bs ps g orders prog kt dim ks z rows qrows text coord labels fstr query out univ ids d G Hks Hz N1 N2 N3 D1 D2 HI D20 HL HM.
  pose proof HI as [Nr [Lr [Nq [Lq [Qp [Ld HR]]]]]].
  assert (Rz : (-2147483648 <= z)%Z). { revert Hks. unfold atoi. destruct (sign (skip_space ks)) as [neg t]. destruct (digits t 0 0) as [[v c] r]. destruct ((-2147483648 <=? _) && _)%Z eqn:Q; [|discriminate]. intros [= <-]. apply andb_prop in Q. rewrite !Z.leb_le in Q. lia. }
  assert (E : compute_filtered_groundtruth_main W pushf takef sortf bs ps g orders ([prog; type_word kt; coord; labels; fstr; query; ks; out] ++ label_word univ) d =
    do d' <- compute_filtered_gt W pushf takef sortf bs ps g orders kt coord labels fstr query (int_u64 z) out univ d; Ok (0%Z, d')).
  { unfold compute_filtered_groundtruth_main, int_arg, arg. destruct univ as [u|]; cbn [label_word app length Nat.eqb negb andb nth_error bind]; rewrite Hks; cbn [bind]; rewrite kind_word; reflexivity. }
  rewrite E. rewrite (filtered_steps W pushf takef sortf bs ps g orders kt dim rows text coord labels fstr query (int_u64 z) out univ ids d); auto; [|intros r Hr; apply HR; auto].
  rewrite atoi_show_big; [reflexivity|]. unfold int_u64. change (2 ^ 31)%N with 2147483648%N. rewrite <- (Z.mod_unique z 18446744073709551616 (-1) (z + 18446744073709551616)) by lia. lia.
Qed.

Lemma filtered_count : forall W pushf takef sortf bs ps g orders argv d, length argv <> 8 -> length argv <> 9 -> compute_filtered_groundtruth_main W pushf takef sortf bs ps g orders argv d = Exit.
Proof. intros. unfold compute_filtered_groundtruth_main. apply Nat.eqb_neq in H, H0. now rewrite H, H0. Qed.

Lemma filtered_type : forall W pushf takef sortf bs ps g orders prog ty coord labels fstr query ks k out univ d, no_type ty -> number_arg ks k ->
  compute_filtered_groundtruth_main W pushf takef sortf bs ps g orders ([prog; ty; coord; labels; fstr; query; ks; out] ++ label_word univ) d = Ok (0%Z, d).
Proof.
  intros W pushf takef sortf bs ps g orders prog ty coord labels fstr query ks k out univ d [T1 [T2 T3]] Hks. assert (Kn : kind_of ty = None) by (apply kind_none; intros [| |]; assumption).
  unfold compute_filtered_groundtruth_main, int_arg, arg. destruct univ as [u|]; cbn [label_word app length Nat.eqb negb andb nth_error bind]; rewrite (atoi_numeral _ _ Hks); cbn [bind]; rewrite Kn; reflexivity.
Qed.
