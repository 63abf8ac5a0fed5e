(** The search tools on vector files. *)
From Coq Require Import NArith ZArith Reals Lra Lia String List Arith Bool Sorting.Sorted Permutation Floats.SpecFloat Classical_Prop.
From Flocq Require Import Core.
From Verif Require Import Base Bytes Float32 Float32Facts DivFacts FloatBits DistSpec DistModel DistProofs FusedModel FusedProofs RealSpec FloatReal L2ErrorProofs RealDistProofs ClosestModel ConvertModel StreamModel BinModel BinSpec NormModel NormSpec NormProofs2 StatsProofs4
  PoolModel SortSpec TopKSpec ClosestSpec SearchSpec LshModel LshSpec MeanProofs3 BlasProofs3 BlasProofs7 IndexFileModel IndexFileSpec SystemModel SystemSpec ToolModel ToolSpec ToolProofs ToolProofs2 ToolProofs3 GtToolSpec GtToolProofs3 RealSearchModel RealSearchSpec RealSearchProofs RealSearchProofs2.
Import ListNotations.
Local Open Scope R_scope.

(** ** Nearest by computed distance, by real distance *)
Lemma sorted_map : forall (A B : Type) (f : A -> B) (P : B -> B -> Prop) l, StronglySorted P (map f l) -> StronglySorted (fun x y => P (f x) (f y)) l.
Proof. intros A B f P l. induction l as [|x l IH]; intros H; [constructor|]. cbn [map] in H. inversion H; subst. constructor; [auto|]. rewrite Forall_forall in *. intros y Hy. apply H3, in_map, Hy. Qed.
Lemma sorted_impl : forall (A : Type) (P Q : A -> A -> Prop) l, (forall x y, In x l -> In y l -> P x y -> Q x y) -> StronglySorted P l -> StronglySorted Q l.
Proof. intros A P Q l H S. induction S as [|x l S IH F]; constructor; [apply IH; intros; apply H; auto; right; auto|]. rewrite Forall_forall in *. intros y Hy. apply H; [left; auto|right; auto|auto]. Qed.
Lemma nodup_app_l : forall (A : Type) (a b : list A), NoDup (a ++ b) -> NoDup a.
Proof. intros A a b. induction a as [|x a IH]; intros H; [constructor|]. inversion H; subst. constructor; [intros Q; apply H2, in_or_app; auto|auto]. Qed.

Lemma nearest_of_top : forall cand k (dist err : nat -> R) (d : nat -> f32) acc found, NoDup acc -> (forall id, In id acc <-> cand id) ->
  (forall id, cand id -> DistSpec.finite (d id) /\ f32_valid (d id) = true /\ Rabs (real (d id) - dist id) <= err id) ->
  is_top_k k (score d acc) (score d found) -> nearest_among cand k dist err found.
Proof.
  intros cand k dist err d acc found ND Ha Hd [rest [P [L [S B]]]].
  assert (Pi : Permutation acc (found ++ map fst rest)). { pose proof (Permutation_map fst P) as Q. unfold score in Q. rewrite map_app, !map_map in Q. cbn [fst] in Q. rewrite !map_id in Q. exact Q. }
  assert (Lf : length found = Nat.min k (length acc)) by (unfold score in L; rewrite !map_length in L; exact L).
  assert (Hc : forall x, In x found -> cand x) by (intros x Hx; apply Ha, (Permutation_in _ (Permutation_sym Pi)), in_or_app; auto).
  assert (Le : forall x y, cand x -> cand y -> fle (d x) (d y) = true -> dist x <= dist y + err x + err y).
  { intros x y Cx Cy Q. destruct (Hd x Cx) as [Fx [Vx Ex]]. destruct (Hd y Cy) as [Fy [Vy Ey]]. apply fle_real in Q; auto. apply Rabs_le_inv in Ex, Ey. lra. }
  pose proof (Permutation_NoDup Pi ND) as ND'. split; [eapply nodup_app_l; eauto|]. split; [exact Hc|]. split; [lia|]. split; [|split].
  - intros Lt x Hx. apply Ha in Hx. assert (Lr : length (map fst rest) = 0%nat) by (pose proof (Permutation_length Pi) as Q; rewrite app_length in Q; lia). apply (Permutation_in _ Pi) in Hx. apply in_app_or in Hx. destruct Hx as [Hx|Hx]; [exact Hx|]. destruct (map fst rest); [destruct Hx|discriminate].
  - unfold by_distance, score in S. apply (sorted_map _ _ (fun id => (id, d id)) no_farther) in S. eapply sorted_impl; [|exact S]. intros x y Hx Hy Q. apply Le; auto.
  - intros x y Hx Cy Ny. apply Le; auto. assert (Hy : In y (map fst rest)). { apply Ha in Cy. apply (Permutation_in _ Pi) in Cy. apply in_app_or in Cy. destruct Cy; [contradiction|auto]. }
    apply in_map_iff in Hy. destruct Hy as [s [Es Hs]]. assert (Ds : s = (y, d y)). { assert (In s (score d acc)) as Q by (apply (Permutation_in _ (Permutation_sym P)), in_or_app; auto). unfold score in Q. apply in_map_iff in Q. destruct Q as [z [<- _]]. cbn [fst] in Es. now subst. }
    subst s. apply (B (x, d x) (y, d y)); [|exact Hs]. unfold score. apply (in_map (fun id => (id, d id))), Hx.
Qed.

(** ** The object made from a vector file *)
Lemma construct_fields : forall w g data_name tags labels_name d a n dim adim mem, load_aligned_bin w (g 0%nat) (g 1%nat) (d data_name) = Ok (n, dim, adim, mem) -> construct w g data_name tags labels_name d = Ok a ->
  a_n a = n /\ a_adim a = adim /\ a_data a = mem.
Proof.
  intros w g data_name tags labels_name d a n dim adim mem El H. unfold construct in H. rewrite El in H. cbn [bind] in H. apply bind_ok in H. destruct H as [tg [Et H]]. destruct (String.eqb labels_name "").
  - injection H as <-. auto.
  - unfold parse_label_file in H. apply bind_ok in H. destruct H as [[pts labs] [_ H]]. cbn [a_n a_dim a_adim a_data a_tags a_use_univ a_univ] in H. destruct (N.eqb _ _); [|discriminate]. injection H as <-. auto.
Qed.

Lemma object_of_file : forall kt dim rows g data_name tags labels_name d a, files_ok (kwidth kt) g data_name tags labels_name d a -> d data_name = vector_file kt dim rows -> vectors_ok kt dim rows ->
  a_n a = N.of_nat (length rows) /\ a_adim a = round_up (N.of_nat dim) 8 /\ length (a_data a) = length rows /\
  forall i, (i < length rows)%nat -> in_mem kt dim (N.to_nat (round_up (N.of_nat dim) 8)) (nth i rows []) (nth i (a_data a) []) /\ fits kt dim (nth i rows []).
Proof.
  intros kt dim rows g data_name tags labels_name d a Hf E H. destruct (fo_garbage _ _ _ _ _ _ _ Hf 0%nat) as [G0 _]. destruct (fo_garbage _ _ _ _ _ _ _ Hf 1%nat) as [G1 _].
  destruct (load_rows kt dim rows (g 0%nat) (g 1%nat) H G0 G1) as [adim [mem [Q [L [-> R]]]]]. rewrite <- E in Q. destruct (construct_fields _ _ _ _ _ _ _ _ _ _ _ Q (fo_made _ _ _ _ _ _ _ Hf)) as [-> [-> ->]].
  split; [reflexivity|]. split; [reflexivity|]. split; [exact L|]. intros i Hi. split; [|apply (vectors_fits kt dim rows); auto; apply nth_In, Hi]. apply (R i); apply nth_error_nth'; lia.
Qed.

Lemma some_list : forall (P : nat -> Prop) n, exists acc, NoDup acc /\ forall id, In id acc <-> (id < n)%nat /\ P id.
Proof.
  intros P n. induction n as [|n [acc [ND H]]].
  - exists []. split; [constructor|]. intros id. split; [intros []|lia].
  - destruct (classic (P n)) as [Y|Y].
    + exists (n :: acc). split; [constructor; [rewrite H; lia|exact ND]|]. intros id. cbn [In]. rewrite H. split; [intros [<-|[A B]]; split; auto; lia|]. intros [A B]. destruct (Nat.eq_dec id n); [left; auto|right; split; [lia|auto]].
    + exists acc. split; [exact ND|]. intros id. rewrite H. split; intros [A B]; (split; [|exact B]); [lia|]. destruct (Nat.eq_dec id n); [subst; contradiction|lia].
Qed.

Lemma dist_ok : forall kt T F dim adim r r' v v', loops_ok T F -> fits kt dim r -> fits kt dim r' -> in_mem kt dim adim r v -> in_mem kt dim adim r' v' ->
  DistSpec.finite (mem_l2 kt T F v v') /\ f32_valid (mem_l2 kt T F v v') = true /\ Rabs (real (mem_l2 kt T F v v') - elem_l2 kt r r') <= dist_err kt dim (elem_l2 kt r r').
Proof. intros. destruct (mem_num kt T F v v') as [_ [A [B _]]]; auto. split; [exact A|]. split; [exact B|]. eapply mem_value; eauto. Qed.

Lemma load_same : forall kt dim rows g1 g2 h1 h2, vectors_ok kt dim rows -> length g1 = 4%nat -> length g2 = 4%nat -> length h1 = 4%nat -> length h2 = 4%nat ->
  load_aligned_bin (kwidth kt) g1 g2 (vector_file kt dim rows) = load_aligned_bin (kwidth kt) h1 h2 (vector_file kt dim rows).
Proof.
  intros kt dim rows g1 g2 h1 h2 H G1 G2 H1 H2. pose proof (dim_small _ _ _ H) as D. pose proof (size_fits _ _ _ H) as Sz. pose proof H as [_ [Ln [Hr _]]].
  assert (Hl : forall r, In r rows -> length r = dim) by (intros r Q; apply Hr, Q). pose proof (concat_rows_length rows dim Hl) as Lc. destruct (BinProofs2.round_up_8 (N.of_nat dim)) as [Ru _].
  assert (Du : u32_range (N.of_nat dim)) by (unfold u32_range; lia). unfold vector_file, bin_file.
  assert (Le : N.of_nat (length (enc_all (kwidth kt) (concat rows))) = (N.of_nat (length rows) * N.of_nat dim * N.of_nat (kwidth kt))%N) by (rewrite enc_all_length, Lc; lia).
  assert (Sz' : (N.of_nat (length rows) * round_up (N.of_nat dim) 8 * N.of_nat (kwidth kt) + 8 < 2 ^ 64)%N).
  { eapply N.le_lt_trans; [|exact Sz]. apply N.add_le_mono_r. apply N.mul_le_mono_r. apply N.mul_le_mono_l. lia. }
  rewrite !BinProofs2.load_aligned_ok by auto. reflexivity.
Qed.

(** ** IVF *)
Lemma ivf_real : forall kt T F dim rows qrows g popf mbs cd data_name tags labels_name nc centers orders path d a x d', pops popf -> loops_ok T F ->
  ivf_session_ok (kwidth kt) g mbs cd data_name tags labels_name nc centers orders d a ->
  d data_name = vector_file kt dim rows -> vectors_ok kt dim rows ->
  ivf_tool (kwidth kt) g popf mbs cd data_name tags labels_name nc centers orders path d = Ok (x, d') ->
  forall g' g1 g2 query_name prefix k args order filters, garbage_ok g' -> length g1 = 4%nat /\ is_bytes g1 -> length g2 = 4%nat /\ is_bytes g2 ->
  d' query_name = vector_file kt dim qrows -> vectors_ok kt dim qrows -> filter_ok labels_name filters -> (1 <= k)%N ->
  In nc args -> (forall L, In L args -> (L <= nc)%N) -> (forall L, In L args -> (1 <= L)%N -> each_once (length qrows) (order L)) ->
  exists d'' results, search_tool (kwidth kt) g1 g2 query_name prefix k 1 args order (load_for_ivf (kwidth kt) g' popf mbs (mem_l2 kt T F) cd filters (N.to_nat k) path) d' = Ok (Some d'') /\
    d'' (result_name prefix nc) = Some (bin_file 4 (N.of_nat (length qrows)) k (map N.of_nat (concat results))) /\ length results = length qrows /\
    forall i row, nth_error results i = Some row -> let dist := fun id => elem_l2 kt (nth i qrows []) (nth id rows []) in
      exists found, row = (found ++ repeat 0%nat (N.to_nat k - length found))%list /\
        nearest_among (fun id => (id < length rows)%nat /\ line_matches d labels_name filters id) (N.to_nat k) dist (fun id => dist_err kt dim (dist id)) found.
Proof.
  intros kt T F dim rows qrows g popf mbs cd data_name tags labels_name nc centers orders path d a x d' Hp HT Hs Ed Hr Hb g' g1 g2 query_name prefix k args order filters Hg' G1 G2 Eq Hq Hfo Hk Hnc Hmax Ho.
  destruct (object_of_file kt dim rows g data_name tags labels_name d a (is_files _ _ _ _ _ _ _ _ _ _ _ _ Hs) Ed Hr) as [An [Ad [Al Am]]].
  destruct (queries_of_file kt dim qrows g1 g2 Hq G1 G2) as [mem [Qm [Lm Rm]]]. rewrite <- Eq in Qm.
  pose proof (is_nc _ _ _ _ _ _ _ _ _ _ _ _ Hs) as Nc.
  destruct (ivf_tool_search _ _ _ _ _ _ _ _ _ _ _ _ _ _ _ _ Hp Hs Hb g' g1 g2 query_name prefix k args order (mem_l2 kt T F) filters _ _ mem Hg' Qm) as [d'' [Q W]]; auto.
  - destruct Hq as [Hq _]. destruct qrows; [congruence|]. cbn [length]. lia.
  - rewrite Ad. lia.
  - intros q p. apply mem_finite, HT.
  - exists nc. split; [auto|lia].
  - rewrite Nat2N.id. auto.
  - destruct (W nc Hnc ltac:(lia)) as [res [W1 [W2 W3]]]. rewrite Nat2N.id in W2. exists d'', res. split; [exact Q|]. split; [exact W1|]. split; [exact W2|].
    intros i row Hi. destruct (W3 i row Hi) as [_ [found [E1 [_ [_ E2]]]]]. exists found. split; [exact E1|].
    assert (Hiq : (i < length qrows)%nat) by (rewrite <- W2; apply nth_error_Some; congruence).
    destruct (some_list (line_matches d labels_name filters) (length rows)) as [acc [ND Ha]].
    assert (Mi : in_mem kt dim (N.to_nat (round_up (N.of_nat dim) 8)) (nth i qrows []) (nth i mem [])) by (apply (Rm i); apply nth_error_nth'; lia).
    refine (nearest_of_top _ _ _ _ _ acc found ND Ha _ (E2 eq_refl acc ND _)).
    + intros id [Hid _]. destruct (Am id Hid) as [Mid Fid]. rewrite Ad. rewrite firstn_all2 by (destruct Mi as [_ [_ [_ [-> _]]]]; lia). eapply dist_ok; eauto. apply (vectors_fits kt dim qrows); auto. apply nth_In, Hiq.
    + intros id. rewrite An, Nat2N.id. apply Ha.
Qed.

(** ** RelativeNG *)
Lemma zero_dist : forall kt T F dim adim r r' v v', loops_ok T F -> fits kt dim r -> fits kt dim r' -> in_mem kt dim adim r v -> in_mem kt dim adim r' v' -> feq (mem_l2 kt T F v v') f32_zero = true ->
  match kt with KFloat => elem_l2 kt r r' <= (INR dim + 7) * powerRZ 2 (-148) | _ => r = r' end.
Proof.
  intros kt T F dim adim r r' v v' HT Hr Hr' M M' Hz0. destruct (mem_num kt T F v v' HT) as [_ [Fx [Vx _]]]. apply feq_real in Hz0; auto; [|exact I]. change (real f32_zero) with 0 in Hz0.
  destruct (mem_value kt T F dim adim r r' v v' HT Hr Hr' M M') as [E B].
  assert (Bytes : kt <> KFloat -> sq_dist (map (zelem kt) r) (map (zelem kt) r') = 0%Z).
  { intros K. set (z := sq_dist (map (zelem kt) r) (map (zelem kt) r')) in *. pose proof (sq_dist_nonneg (map (zelem kt) r) (map (zelem kt) r')) as P. fold z in P. destruct (Z.eq_dec z 0) as [|N]; [auto|]. exfalso.
    rewrite Hz0 in E. rewrite (vec_zl2 kt r r' K (proj1 (proj2 Hr)) (proj1 (proj2 Hr'))) in E. fold z in E.
    assert (Pz : 1 <= IZR z) by (apply (IZR_le 1); lia). rewrite Rminus_0_l, Rabs_Ropp, Rabs_pos_eq in E by lra. assert (U : powerRZ 2 (-24) <= / 2) by (rewrite <- pw; change (/ 2) with (bpow radix2 (-1)); apply bpow_le; lia).
    destruct kt; [congruence| |]; cbn [dist_err] in E; destruct (dim <=? 258)%nat; nra. }
  assert (Inj : forall f : N -> Z, (forall x y, elem_ok kt x -> elem_ok kt y -> f x = f y -> x = y) -> forall s t, Forall (elem_ok kt) s -> Forall (elem_ok kt) t -> map f s = map f t -> s = t).
  { intros f Hf s. induction s as [|x s IH]; intros [|y t] Hs Ht Em; try discriminate; [reflexivity|]. cbn [map] in Em. injection Em as E1 E2. inversion Hs; inversion Ht; subst. f_equal; auto. }
  assert (L : length r = length r') by (destruct Hr as [-> _]; destruct Hr' as [-> _]; reflexivity).
  destruct kt.
  - cbn [dist_err] in E. rewrite Hz0 in E. set (X := elem_l2 KFloat r r') in *. assert (PX : 0 <= X) by apply l2_pos. rewrite Rminus_0_l, Rabs_Ropp, Rabs_pos_eq in E by lra.
    assert (D : (INR dim + 9) * powerRZ 2 (-23) <= / 2). { destruct Hr as [_ [_ [D _]]]. rewrite <- pw. apply Rle_trans with (bpow radix2 21 * bpow radix2 (-23)).
      - apply Rmult_le_compat_r; [apply bpow_ge_0|]. rewrite INR_IZR_INZ. replace (IZR (Z.of_nat dim) + 9) with (IZR (Z.of_nat dim + 9)) by (rewrite plus_IZR; reflexivity). rewrite <- (IZR_Zpower radix2 21) by lia. apply IZR_le. change (radix2 ^ 21)%Z with (2 ^ 21)%Z. lia.
      - rewrite <- bpow_plus. change (/ 2) with (bpow radix2 (-1)). apply bpow_le. lia. }
    replace (powerRZ 2 (-148)) with (2 * powerRZ 2 (-149)); [|rewrite <- !pw; change (-148)%Z with (1 + -149)%Z; rewrite bpow_plus; reflexivity]. nra.
  - apply (Inj int8_val); [|apply Hr|apply Hr'|].
    + intros y z Hy Hz Q. cbn [elem_ok] in Hy, Hz. unfold int8_val in Q. destruct (N.ltb_spec y 128), (N.ltb_spec z 128); lia.
    + apply sq_dist_zero; [rewrite !map_length; exact L|]. apply Bytes. discriminate.
  - apply (Inj Z.of_N); [|apply Hr|apply Hr'|].
    + intros y z Hy Hz Q. lia.
    + apply sq_dist_zero; [rewrite !map_length; exact L|]. apply Bytes. discriminate.
Qed.

Lemma rng_real : forall kt T F dim rows g sortf data_name tags cent order path d a x d', sorts sortf -> loops_ok T F ->
  files_ok (kwidth kt) g data_name tags ""%string d a -> d data_name = vector_file kt dim rows -> vectors_ok kt dim rows -> (10 <= length rows)%nat ->
  length cent = length rows -> (forall c, In c cent -> is_nan c = false) -> each_once (length rows) order ->
  rng_tool (kwidth kt) g sortf (mem_l2 kt T F) data_name tags cent order path d = Ok (x, d') ->
  forall g' g1 g2 query_name prefix k args orders, garbage_ok g' -> length g1 = 4%nat /\ is_bytes g1 -> length g2 = 4%nat /\ is_bytes g2 ->
  d' query_name = vector_file kt dim rows -> (1 <= k)%N ->
  (exists L, In L args /\ (k <= L)%N) -> (forall L, In L args -> (k <= L)%N -> each_once (length rows) (orders L)) ->
  exists d'', search_tool (kwidth kt) g1 g2 query_name prefix k k args orders (load_for_rng (kwidth kt) g' sortf (fun q p => mem_l2 kt T F p q) (N.to_nat k) path) d' = Ok (Some d'') /\
    forall L, In L args -> (k <= L)%N -> exists results,
      d'' (result_name prefix L) = Some (bin_file 4 (N.of_nat (length rows)) k (map N.of_nat (concat results))) /\ length results = length rows /\
      forall i row, nth_error results i = Some row -> length row = N.to_nat k /\ exists id t, nth_error row 0 = Some (N.to_nat t) /\ nth_error (a_tags a) id = Some t /\ (id < length rows)%nat /\
        match kt with KFloat => elem_l2 kt (nth id rows []) (nth i rows []) <= (INR dim + 7) * powerRZ 2 (-148) | _ => nth id rows [] = nth i rows [] end.
Proof.
  intros kt T F dim rows g sortf data_name tags cent order path d a x d' Hso HT Hf Ed Hr H10 Lc Hc Ho Hb g' g1 g2 query_name prefix k args orders Hg' G1 G2 Eq Hk Hargs Hor.
  destruct (object_of_file kt dim rows g data_name tags _ d a Hf Ed Hr) as [An [Ad [Al Am]]].
  assert (Hs : rng_session_ok (kwidth kt) g (mem_l2 kt T F) data_name tags cent order d a).
  { constructor; auto; [rewrite An; lia|apply mem_dissim, HT|rewrite An, Nat2N.id; auto|rewrite An, Nat2N.id; exact Ho]. }
  destruct (queries_of_file kt dim rows g1 g2 Hr G1 G2) as [mem [Qm [Lm Rm]]].
  assert (Em : mem = a_data a).
  { destruct (fo_garbage _ _ _ _ _ _ _ Hf 0%nat) as [G0' _]. destruct (fo_garbage _ _ _ _ _ _ _ Hf 1%nat) as [G1' _]. destruct (load_rows kt dim rows (g 0%nat) (g 1%nat) Hr G0' G1') as [adim [mem2 [Q2 _]]]. rewrite <- Ed in Q2.
    destruct (construct_fields _ _ _ _ _ _ _ _ _ _ _ Q2 (fo_made _ _ _ _ _ _ _ Hf)) as [_ [_ ->]]. destruct Qm as [_ [_ [_ [b [qd [Eb [_ [Q3 _]]]]]]]]. rewrite Ed in Q2.
    rewrite (load_same kt dim rows g1 g2 (g 0%nat) (g 1%nat)) in Q3 by (auto; apply G1 || apply G2). congruence. }
  subst mem. rewrite <- Eq, <- An, <- Ad in Qm.
  destruct (rng_tool_search _ _ _ _ _ _ _ _ _ _ _ _ _ Hso Hs Hb g' g1 g2 query_name prefix k args orders Hg' Qm Hk Hargs) as [d'' [Q W]].
  { rewrite An, Nat2N.id. exact Hor. }
  exists d''. split; [exact Q|]. intros L HL1 HL2. destruct (W L HL1 HL2) as [res [W1 [W2 W3]]]. rewrite An in W1. rewrite An, Nat2N.id in W2. exists res. split; [exact W1|]. split; [exact W2|].
  intros i row Hi. destruct (W3 i row Hi) as [Lr [id [t [T1 [T2 T3]]]]]. split; [exact Lr|]. exists id, t. split; [exact T1|]. split; [exact T2|].
  assert (Hid : (id < length rows)%nat). { assert (id < length (a_tags a))%nat by (apply nth_error_Some; congruence). pose proof (SystemProofs2.construct_spec _ _ _ _ _ _ _ (fo_width _ _ _ _ _ _ _ Hf) (fo_garbage _ _ _ _ _ _ _ Hf) (fo_data _ _ _ _ _ _ _ Hf) (fo_tags _ _ _ _ _ _ _ Hf) (fo_made _ _ _ _ _ _ _ Hf) (fo_fits _ _ _ _ _ _ _ Hf)) as [_ [_ [Lt _]]]. lia. }
  split; [exact Hid|]. assert (Hi' : (i < length rows)%nat) by (rewrite <- W2; apply nth_error_Some; congruence).
  destruct (Am id Hid) as [M1 F1]. destruct (Am i Hi') as [M2 F2]. eapply zero_dist; eauto.
Qed.
