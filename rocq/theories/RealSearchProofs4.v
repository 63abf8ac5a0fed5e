(** Hyperplanes and levels on vector files. *)
From Coq Require Import NArith ZArith Reals Lra Lia String List Arith Bool Sorting.Sorted Permutation Floats.SpecFloat.
From Flocq Require Import Core.
From Verif Require Import Base Bytes Float32 Float32Facts DivFacts FloatBits DistSpec DistModel DistProofs FusedModel FusedProofs RealSpec FloatReal L2ErrorProofs RealDistProofs ClosestModel ConvertModel StreamModel BinModel BinSpec NormModel NormSpec NormProofs2 StatsProofs4
  PoolModel SortSpec TopKSpec ClosestSpec SearchSpec LshModel LshSpec HnswSpec PruneModel HnswModel MeanProofs3 BlasProofs3 BlasProofs7 IndexFileModel IndexFileSpec SystemModel SystemSpec ToolModel ToolSpec ToolProofs ToolProofs2 ToolProofs3 GtToolSpec GtToolProofs3 RealSearchModel RealSearchSpec RealSearchProofs RealSearchProofs2 RealSearchProofs3.
Import ListNotations.
Local Open Scope R_scope.

(** ** Inner products with a hyperplane *)
Lemma dot_pad : forall kt hp r k, (length r + k = length hp)%nat -> Forall (elem_ok KFloat) hp -> Forall (elem_ok kt) r ->
  exact_ip (map f32_of_bits hp) (map (kval kt) (r ++ repeat 0%N k)) = plane_dot kt hp r /\
  exact_abs_ip (map f32_of_bits hp) (map (kval kt) (r ++ repeat 0%N k)) = real_sum (map (fun p => Rabs (real (f32_of_bits (fst p)) * elem_real kt (snd p))) (combine hp r)).
Proof.
  intros kt hp r. unfold exact_ip, exact_abs_ip, plane_dot, real_sum. revert r. induction hp as [|h hp IH]; intros r k L Hh Hr.
  - cbn [map combine fold_right]. auto.
  - inversion Hh; subst. destruct r as [|e r].
    + cbn [combine map fold_right length app] in *. destruct k as [|k]; [discriminate|]. cbn [repeat map combine fold_right fst snd]. destruct (IH [] k ltac:(cbn; lia) H2 (Forall_nil _)) as [I1 I2]. cbn [app] in I1, I2. rewrite I1, I2.
      destruct (kval_ok kt 0%N (zero_ok kt)) as [_ [_ ->]]. rewrite zero_real, Rmult_0_r, Rabs_R0. destruct hp; cbn [combine map fold_right]; split; ring.
    + inversion Hr; subst. cbn [app map combine fold_right fst snd]. cbn [length] in L. destruct (IH r k ltac:(lia) H2 H4) as [I1 I2]. rewrite I1, I2. destruct (kval_ok kt e H3) as [_ [_ ->]]. auto.
Qed.

Lemma abs_sq : forall kt (hp r : list N), real_sum (map (fun p => Rabs (real (f32_of_bits (fst p)) * elem_real kt (snd p))) (combine hp r)) <= elem_sq KFloat hp + elem_sq kt r /\
  0 <= real_sum (map (fun p => Rabs (real (f32_of_bits (fst p)) * elem_real kt (snd p))) (combine hp r)).
Proof.
  intros kt hp. induction hp as [|h hp IH]; intros r.
  { change (combine [] r) with (@nil (N * N)). cbn [map real_sum fold_right]. pose proof (sq_pos KFloat []). pose proof (sq_pos kt r). lra. }
  destruct r as [|e r]. { change (combine (h :: hp) []) with (@nil (N * N)). cbn [map real_sum fold_right]. pose proof (sq_pos kt []). pose proof (sq_pos KFloat (h :: hp)). lra. }
  destruct (IH r) as [I1 I2]. unfold elem_sq, real_sum in *. cbn [combine map fold_right fst snd]. change (elem_real KFloat h) with (real (f32_of_bits h)). set (X := real (f32_of_bits h)) in *. set (Y := elem_real kt e) in *.
  assert (Rabs (X * Y) <= X ^ 2 + Y ^ 2). { apply Rabs_le. pose proof (sq_nonneg (X + Y)). pose proof (sq_nonneg (X - Y)). nra. } pose proof (Rabs_pos (X * Y)). split; lra.
Qed.

Lemma byte_sq : forall kt r, kt <> KFloat -> Forall (elem_ok kt) r -> elem_sq kt r <= INR (length r) * 65536.
Proof.
  intros kt r K H. unfold elem_sq, real_sum. induction H as [|e r He H IH]; [cbn; lra|]. cbn [map fold_right length]. rewrite S_INR. destruct (zelem_ok kt e K He) as [_ [Ez Bz]]. rewrite Ez.
  assert (-256 <= IZR (zelem kt e) <= 256) by (split; apply IZR_le; destruct kt; [congruence|lia|lia|congruence|lia|lia]). nra.
Qed.
Lemma fits_sq : forall kt dim r, fits kt dim r -> elem_sq kt r <= bpow radix2 100.
Proof.
  intros kt dim r [L [O B]]. assert (By : kt <> KFloat -> (Z.of_nat dim <= 33024)%Z -> elem_sq kt r <= bpow radix2 100).
  { intros K D. eapply Rle_trans; [apply byte_sq; auto|]. rewrite L, INR_IZR_INZ, <- mult_IZR. apply Rle_trans with (bpow radix2 32); [|apply bpow_le; lia]. rewrite <- (IZR_Zpower radix2 32) by lia. apply IZR_le. change (radix2 ^ 32)%Z with 4294967296%Z. lia. }
  destruct kt; [rewrite pw; apply B|apply By; auto; discriminate|apply By; auto; discriminate].
Qed.

Lemma hash_value : forall kt T F dim adim hp r v, loops_ok T F -> fits kt dim r -> in_mem kt dim adim r v -> length hp = adim -> Forall (elem_ok KFloat) hp -> elem_sq KFloat hp <= powerRZ 2 100 ->
  DistSpec.finite (hash_dot F hp (mem_floats kt v)) /\ f32_valid (hash_dot F hp (mem_floats kt v)) = true /\ Rabs (real (hash_dot F hp (mem_floats kt v)) - plane_dot kt hp r) <= plane_err kt hp r.
Proof.
  intros kt T F dim adim hp r v HT Hr M Lh Oh Sh. pose proof M as [L [A [M8 _]]]. unfold mem_floats, hash_dot. rewrite (in_mem_elems _ _ _ _ _ M), Lh.
  assert (Da : (Z.of_nat adim <= 2 ^ 20)%Z). { apply (round8 dim adim (2 ^ 17) A M8). destruct Hr as [_ [_ B]]. destruct kt; [destruct B; lia|lia|lia]. }
  destruct (HT adim ltac:(lia)) as [P C]. set (a := map f32_of_bits hp). set (b := map (kval kt) (r ++ repeat 0%N (adim - dim))).
  assert (La : length a = adim) by (unfold a; rewrite map_length; exact Lh). assert (Lb : length b = adim) by (unfold b; rewrite map_length, app_length, repeat_length; lia).
  pose proof (floats_good _ Oh) as Ga. fold a in Ga. assert (Gb : good b) by (apply vec_good, pad_ok, Hr).
  destruct (dot_pad kt hp r (adim - dim) ltac:(lia) Oh (proj1 (proj2 Hr))) as [Ex Ea]. fold a b in Ex, Ea.
  destruct (abs_sq kt hp r) as [B1 B2]. rewrite <- Ea in B1, B2. pose proof (fits_sq _ _ _ Hr) as Sr. rewrite <- pw in Sh.
  assert (Bx : 0 <= exact_abs_ip a b <= bpow radix2 110). { split; [exact B2|]. apply Rle_trans with (bpow radix2 101); [change 101%Z with (1 + 100)%Z; rewrite bpow_plus; change (bpow radix2 1) with 2; lra|apply bpow_le; lia]. }
  assert (Hf : Permutation (fred_items (F adim)) (seq 0 (length a))) by (rewrite La; etransitivity; [apply contracts_items, C|exact P]).
  assert (FV : exists x, ip_fused (F adim) a b = Ok x /\ DistSpec.finite x).
  { destruct (l2_sum_items (F adim) (fun i => Rabs (pi a b i)) _ Hf) as [Hs Hl].
    destruct (fred_finite (ip_fac a b) (pi a b) (fun i => Rabs (pi a b i)) 0 (F adim)) as [x [Hx Fx]].
    - intros i _. lra.
    - intros i _. apply ip_factors; auto.
    - intros i Hi. apply (Permutation_in _ Hf) in Hi. apply in_seq in Hi. unfold ip_fac, rd. destruct (nth_error a i) as [y|] eqn:Ey; [|apply nth_error_None in Ey; lia]. destruct (nth_error b i) as [z|] eqn:Ez; [|apply nth_error_None in Ez; lia]. cbn [bind]. exists y, z. split; [reflexivity|]. split; [apply Ga; eapply nth_error_In; eauto|apply Gb; eapply nth_error_In; eauto].
    - rewrite Hs, Hl. rewrite <- (api_sum a b) by congruence. rewrite La. pose proof (room adim (exact_abs_ip a b) Da Bx) as Rm. eapply Rle_trans; [|exact Rm].
      pose proof tiny_pos. pose proof (pos_INR adim). pose proof (E_ge adim). assert (Mono : forall i j, (i <= j)%nat -> E i <= E j) by (intros i j Hij; unfold E; apply Rle_pow; [pose proof ulp_pos; lra|lia]).
      apply Rplus_le_compat; [apply Rmult_le_compat_r; [lra|apply Mono; lia]|]. apply Rmult_le_compat; [apply Rmult_le_pos; lra|lra| |apply Mono; lia]. apply Rmult_le_compat_r; [lra|]. apply le_INR. lia.
    - exists x. split; [exact Hx|exact Fx]. }
  destruct FV as [x [Hx Fx]]. rewrite Hx. split; [exact Fx|].
  assert (Vx : f32_valid x = true). { destruct (fred_error (ip_fac a b) (pi a b) (fun i => Rabs (pi a b i)) 0 (F adim) x) as [V _]; auto; [intros i _; lra|intros i _; apply ip_factors; auto]. }
  split; [exact Vx|]. pose proof (ip_error (T adim) (F adim) a b x ltac:(rewrite La; exact P) C ltac:(congruence) Ga Gb Hx Fx) as Er. rewrite Ex in Er. eapply Rle_trans; [exact Er|]. unfold plane_err. rewrite <- Ea, La, Lh.
  change ((1 + ulp) ^ adim) with (E adim). assert (Nu : INR adim * ulp <= 1). { pose proof (INR_ulp adim 20 ltac:(lia) Da) as Q. assert (bpow radix2 (20 - 24) <= 1) by (change 1 with (bpow radix2 0); apply bpow_le; lia). lra. }
  pose proof (E_lin adim Nu) as El. destruct (E_two adim ltac:(lia)) as [_ E2]. pose proof tiny_pos. pose proof (pos_INR adim). pose proof (E_ge adim).
  replace (powerRZ 2 (-23)) with (2 * ulp); [|unfold ulp; rewrite <- !pw; change (-23)%Z with (1 + -24)%Z; rewrite bpow_plus; reflexivity].
  replace (powerRZ 2 (-149)) with (2 * tiny); [|unfold tiny; rewrite <- !pw; change (-149)%Z with (1 + -150)%Z; rewrite bpow_plus; reflexivity].
  apply Rplus_le_compat; [apply Rmult_le_compat_r; lra|]. assert (0 <= INR adim * tiny) by (apply Rmult_le_pos; lra). nra.
Qed.

Lemma hash_above : forall kt T F dim adim hp r v, loops_ok T F -> fits kt dim r -> in_mem kt dim adim r v -> length hp = adim -> Forall (elem_ok KFloat) hp -> elem_sq KFloat hp <= powerRZ 2 100 ->
  (clearly_above kt hp r -> fgt (hash_dot F hp (mem_floats kt v)) f32_zero = true) /\ (clearly_below kt hp r -> fgt (hash_dot F hp (mem_floats kt v)) f32_zero = false).
Proof.
  intros kt T F dim adim hp r v HT Hr M Lh Oh Sh. destruct (hash_value kt T F dim adim hp r v HT Hr M Lh Oh Sh) as [Fx [Vx Ex]]. apply Rabs_le_inv in Ex. unfold clearly_above, clearly_below. unfold fgt. split; intros H.
  - apply flt_real; auto; [exact I|]. change (real f32_zero) with 0. lra.
  - change (flt f32_zero (hash_dot F hp (mem_floats kt v)) = false). destruct (flt f32_zero (hash_dot F hp (mem_floats kt v))) eqn:Q; [|reflexivity]. apply flt_real in Q; auto; [|exact I]. change (real f32_zero) with 0 in Q. lra.
Qed.

(** ** LSH *)
Lemma lsh_real : forall kt T F dim rows qrows g data_name labels_name ts planes path d a x d', loops_ok T F ->
  lsh_session_ok (kwidth kt) g data_name [] labels_name ts planes d a -> planes_ok planes ->
  d data_name = vector_file kt dim rows -> vectors_ok kt dim rows ->
  lsh_tool (kwidth kt) g (hash_dot F) (mem_floats kt) data_name [] labels_name ts planes path d = Ok (x, d') ->
  forall g' g1 g2 query_name prefix k args order filters, garbage_ok g' -> length g1 = 4%nat /\ is_bytes g1 -> length g2 = 4%nat /\ is_bytes g2 ->
  d' query_name = vector_file kt dim qrows -> vectors_ok kt dim qrows -> filter_ok labels_name filters -> (1 <= k)%N ->
  (exists L, In L args /\ (1 <= L)%N) -> (forall L, In L args -> (1 <= L)%N -> each_once (length qrows) (order L)) ->
  exists d'', search_tool (kwidth kt) g1 g2 query_name prefix k 1 args order (load_for_lsh (kwidth kt) g' (hash_dot F) (mem_floats kt) (mem_l2 kt T F) filters (N.to_nat k) path) d' = Ok (Some d'') /\
    forall L, In L args -> (1 <= L)%N -> exists results,
      d'' (result_name prefix L) = Some (bin_file 4 (N.of_nat (length qrows)) k (map N.of_nat (concat results))) /\ length results = length qrows /\
      forall i row, nth_error results i = Some row -> let dist := fun id => elem_l2 kt (nth i qrows []) (nth id rows []) in
        exists found cand, row = (found ++ repeat 0%nat (N.to_nat k - length found))%list /\
          lsh_candidates kt planes rows (nth i qrows []) (fun id => (id < length rows)%nat /\ line_matches d labels_name filters id) cand /\
          nearest_among cand (N.to_nat k) dist (fun id => dist_err kt dim (dist id)) found.
Proof.
  intros kt T F dim rows qrows g data_name labels_name ts planes path d a x d' HT Hs Hpl Ed Hr Hb g' g1 g2 query_name prefix k args order filters Hg' G1 G2 Eq Hq Hfo Hk Hargs Ho.
  destruct (object_of_file kt dim rows g data_name [] labels_name d a (hs_files _ _ _ _ _ _ _ _ _ Hs) Ed Hr) as [An [Ad [Al Am]]].
  destruct (queries_of_file kt dim qrows g1 g2 Hq G1 G2) as [mem [Qm [Lm Rm]]]. rewrite <- Eq in Qm.
  destruct (lsh_tool_search _ _ _ _ _ _ _ _ _ _ _ _ _ Hs Hb g' g1 g2 query_name prefix k args order (mem_l2 kt T F) filters _ _ mem Hg' Qm) as [d'' [Q W]]; auto.
  - destruct Hq as [Hq _]. destruct qrows; [congruence|]. cbn [length]. lia.
  - rewrite Ad. lia.
  - intros q p. apply mem_finite, HT.
  - rewrite Nat2N.id. auto.
  - exists d''. split; [exact Q|]. intros L HL1 HL2. destruct (W L HL1 HL2) as [res [W1 [W2 W3]]]. rewrite Nat2N.id in W2. exists res. split; [exact W1|]. split; [exact W2|].
    intros i row Hi. destruct (W3 i row Hi) as [_ [near [found [ND [Hn [E1 E2]]]]]]. exists found, (fun id => In id near). split; [exact E1|].
    assert (Hiq : (i < length qrows)%nat) by (rewrite <- W2; apply nth_error_Some; congruence).
    assert (Mi : in_mem kt dim (N.to_nat (round_up (N.of_nat dim) 8)) (nth i qrows []) (nth i mem [])) by (apply (Rm i); apply nth_error_nth'; lia).
    assert (Fi : fits kt dim (nth i qrows [])) by (apply (vectors_fits kt dim qrows); auto; apply nth_In, Hiq).
    assert (Eqv : firstn (N.to_nat (a_adim a) * kwidth kt) (nth i mem []) = nth i mem []) by (apply firstn_all2; destruct Mi as [_ [_ [_ [-> _]]]]; rewrite Ad; lia). rewrite Eqv in Hn, E2. rewrite An, Nat2N.id in Hn.
    assert (Hh : forall hps hp, In hps planes -> In hp hps -> length hp = N.to_nat (round_up (N.of_nat dim) 8) /\ Forall (elem_ok KFloat) hp /\ elem_sq KFloat hp <= powerRZ 2 100).
    { intros hps hp H1 H2. destruct (hs_planes _ _ _ _ _ _ _ _ _ Hs hps H1) as [_ H3]. destruct (H3 hp H2) as [H4 _]. split; [rewrite H4, Ad; reflexivity|]. apply (Hpl hps hp); auto. }
    split.
    + split; [|split].
      * intros id Hid. apply Hn in Hid. destruct Hid as [A [B _]]. auto.
      * intros id hps [A B] Hp Hc. apply Hn. split; [exact A|]. split; [exact B|]. exists hps. split; [exact Hp|]. unfold sign_pattern. apply map_ext_in. intros hp Hhp. destruct (Hh hps hp Hp Hhp) as [L1 [O1 S1]]. destruct (Am id A) as [Mid Fid].
        destruct (hash_above kt T F dim _ hp _ _ HT Fi Mi L1 O1 S1) as [U1 U2]. destruct (hash_above kt T F dim _ hp _ _ HT Fid Mid L1 O1 S1) as [V1 V2].
        destruct (Hc hp Hhp) as [[C1 C2]|[C1 C2]]; [rewrite U1, V1 by auto|rewrite U2, V2 by auto]; reflexivity.
      * intros id Hc Hid. apply Hn in Hid. destruct Hid as [A [_ [hps [Hp Es]]]]. destruct (Hc hps Hp) as [hp [Hhp C]]. destruct (Hh hps hp Hp Hhp) as [L1 [O1 S1]]. destruct (Am id A) as [Mid Fid].
        destruct (hash_above kt T F dim _ hp _ _ HT Fi Mi L1 O1 S1) as [U1 U2]. destruct (hash_above kt T F dim _ hp _ _ HT Fid Mid L1 O1 S1) as [V1 V2].
        assert (Eh : fgt (hash_dot F hp (mem_floats kt (nth i mem []))) f32_zero = fgt (hash_dot F hp (mem_floats kt (nth id (a_data a) []))) f32_zero).
        { unfold sign_pattern in Es. clear - Es Hhp. induction hps as [|h hps IH]; [destruct Hhp|]. cbn [map] in Es. injection Es as E1 E2. destruct Hhp as [->|Hhp]; auto. }
        destruct C as [[C1 C2]|[C1 C2]]; [rewrite U1, V2 in Eh by auto|rewrite U2, V1 in Eh by auto]; discriminate.
    + refine (nearest_of_top _ _ _ _ _ near found ND (fun id => iff_refl _) _ E2). intros id Hid. apply Hn in Hid. destruct Hid as [A _]. destruct (Am id A) as [Mid Fid]. eapply dist_ok; eauto.
Qed.
