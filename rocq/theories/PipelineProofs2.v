(** From vector files to a recall of 100. *)
From Coq Require Import NArith ZArith Reals Lra Lia String List Arith Bool Sorting.Sorted Permutation Floats.SpecFloat.
From Flocq Require Import Core.
From Verif Require Import Base Bytes Float32 DivFacts FloatBits DistSpec DistModel FusedModel RealSpec FloatReal L2ErrorProofs RealDistProofs StreamModel BinModel BinSpec RecallModel RecallSpec TruthModel TruthSpec TruthProofs NormModel NormSpec StatsModel StatsProofs4
  PoolModel FilterSpec SortSpec TopKSpec ClosestModel ClosestSpec SearchSpec HeapSpec GtModel GtSpec IndexFileModel IndexFileSpec SystemModel SystemSpec ToolModel ToolSpec
  BlasModel BlasSpec GtToolModel GtToolSpec GtToolProofs4 RealSearchModel RealSearchSpec RealSearchProofs3 PipelineSpec PipelineProofs.
Import ListNotations.
Local Open Scope R_scope.

Lemma l2_swap : forall kt a b, elem_l2 kt a b = elem_l2 kt b a.
Proof.
  intros kt a. unfold elem_l2. induction a as [|x a IH]; intros [|y b]; cbn [combine map real_sum fold_right]; try reflexivity. rewrite IH. cbn [fst snd]. f_equal. ring.
Qed.

Lemma row_at : forall k i j nq ids dists, length ids = (nq * k)%nat -> length dists = (nq * k)%nat -> (i < nq)%nat -> (j < k)%nat ->
  nth j (truth_row k i ids dists) (0%nat, f32_zero) = (N.to_nat (nth (i * k + j) ids 0%N), f32_of_bits (nth (i * k + j) dists 0%N)).
Proof.
  intros k i j nq ids dists Li Ld Hi Hj. assert (Q : (i * k + j < nq * k)%nat) by nia. assert (Q2 : (i * k + k <= nq * k)%nat) by nia.
  assert (Sk : forall l : list N, length l = (nq * k)%nat -> length (firstn k (skipn (i * k) l)) = k) by (intros l E; rewrite firstn_length, skipn_length; lia).
  unfold truth_row. rewrite combine_nth by (rewrite !map_length, !Sk; auto).
  assert (N : forall l : list N, length l = (nq * k)%nat -> nth j (firstn k (skipn (i * k) l)) 0%N = nth (i * k + j) l 0%N).
  { intros l E. rewrite <- (firstn_skipn (i * k) l) at 2. rewrite app_nth2, firstn_length, Nat.min_l by (rewrite ?firstn_length; lia). replace (i * k + j - i * k)%nat with j by lia.
    rewrite <- (firstn_skipn k (skipn (i * k) l)) at 2. rewrite app_nth1; [reflexivity|rewrite Sk; auto]. }
  f_equal.
  - change 0%nat with (N.to_nat 0) at 1. rewrite map_nth. f_equal. now apply N.
  - change f32_zero with (f32_of_bits 0). rewrite map_nth. f_equal. now apply N.
Qed.

Lemma row_fst : forall k i nq tb ids dists, length ids = (nq * k)%nat -> length dists = (nq * k)%nat -> (i < nq)%nat -> (tb <= k)%nat ->
  map fst (firstn tb (truth_row k i ids dists)) = map N.to_nat (firstn tb (skipn (i * k) ids)).
Proof.
  intros k i nq tb ids dists Li Ld Hi Ht. assert (Q2 : (i * k + k <= nq * k)%nat) by nia. unfold truth_row.
  assert (Sk : forall l : list N, length l = (nq * k)%nat -> length (firstn k (skipn (i * k) l)) = k) by (intros l E; rewrite firstn_length, skipn_length; lia).
  rewrite <- firstn_map. set (a := map N.to_nat _). set (b := map f32_of_bits _). assert (E : map fst (combine a b) = a).
  { assert (L : length a = length b) by (unfold a, b; rewrite !map_length, !Sk; auto). clearbody a b. revert b L. induction a as [|x a IH]; intros [|y b] L; try discriminate; [reflexivity|]. cbn. f_equal. apply IH. cbn in L. lia. }
  rewrite E. unfold a. rewrite firstn_map, firstn_firstn, Nat.min_l by exact Ht. reflexivity.
Qed.

Lemma concat_len : forall (A : Type) (k : nat) (l : list (list A)), (forall r, In r l -> length r = k) -> length (concat l) = (length l * k)%nat.
Proof. intros A k l H. induction l as [|r l IH]; [reflexivity|]. cbn [concat length]. rewrite app_length, IH, (H r) by (cbn; auto; intros; apply H; right; auto). lia. Qed.

Lemma concat_at : forall (A : Type) (k i : nat) (l : list (list A)) row, (forall r, In r l -> length r = k) -> nth_error l i = Some row -> forall r, (r <= k)%nat -> firstn r (skipn (i * k) (concat l)) = firstn r row.
Proof.
  intros A k i l. revert i. induction l as [|x l IH]; intros [|i] row H E r Hr; try discriminate.
  - injection E as ->. cbn [concat Nat.mul skipn]. rewrite firstn_app, (H row (or_introl eq_refl)). replace (r - k)%nat with 0%nat by lia. cbn [firstn]. apply app_nil_r.
  - cbn [concat]. rewrite skipn_app, (H x (or_introl eq_refl)). replace (S i * k - k)%nat with (i * k)%nat by lia. rewrite skipn_all2 by (rewrite (H x (or_introl eq_refl)); lia). cbn [app]. apply IH; [intros; apply H; right; auto|exact E|exact Hr].
Qed.

(** ** A printed recall of 100 *)
Lemma taken_can : forall n r depth (dist : nat -> R) row tb x, nearest_within n depth dist (fun _ => 0) row -> (1 <= r)%nat -> (r <= tb <= depth)%nat ->
  (forall j, (r <= j < tb)%nat -> real (snd (nth j row (0%nat, f32_zero))) = real (snd (nth (r - 1) row (0%nat, f32_zero)))) -> In x (map fst (firstn tb row)) -> can_be_nearest n r dist x.
Proof.
  intros n r depth dist row tb x [L [ND [S [A B]]]] R1 Rt Ties Hx. set (d0 := (0%nat, f32_zero)) in *. apply in_map_iff in Hx. destruct Hx as [w [<- Hw]]. apply (in_firstn _ _ _ _ d0) in Hw. destruct Hw as [p [Hp [Hl Ep]]].
  assert (Iw : In w row) by (rewrite <- Ep; apply nth_In, Hl).
  assert (Ex : forall y, In y row -> real (snd y) = dist (fst y)) by (intros y Hy; destruct (A y Hy) as [_ [_ Q]]; apply Raux.Rabs_le_inv in Q; lra).
  assert (Sd : forall i j, (i <= j < depth)%nat -> real (snd (nth i row d0)) <= real (snd (nth j row d0))).
  { intros i j H. destruct (Nat.eq_dec i j) as [->|Ne]; [lra|]. apply (sorted_nth _ _ row d0 i j S). lia. }
  assert (Up : real (snd w) <= real (snd (nth (r - 1) row d0))).
  { rewrite <- Ep. destruct (Nat.lt_ge_cases p r) as [Q|Q]; [apply Sd; lia|]. rewrite (Ties p); [lra|lia]. }
  split; [apply (A w Iw)|]. intros l Nl Hy. enough (Q : (length l <= length (firstn (r - 1) (map fst row)))%nat) by (rewrite firstn_length in Q; lia). apply NoDup_incl_length; [exact Nl|]. intros y Iy. destruct (Hy y Iy) as [Ly Dy].
  destruct (in_dec Nat.eq_dec y (map fst row)) as [If|If]; [|pose proof (B w y Iw Ly If); lra].
  apply in_map_iff in If. destruct If as [z [<- Hz]]. apply (In_nth _ _ d0) in Hz. destruct Hz as [q [Hq Eq]]. assert (Iz : In z row) by (rewrite <- Eq; apply nth_In, Hq).
  rewrite firstn_map. apply in_map. apply (in_firstn _ _ _ _ d0). exists q. split; [|split; [exact Hq|exact Eq]]. destruct (Nat.lt_ge_cases q (r - 1)) as [Q|Q]; [exact Q|exfalso].
  pose proof (Sd (r - 1)%nat q ltac:(lia)) as Q2. rewrite Eq in Q2. rewrite <- (Ex w Iw), <- (Ex z Iz) in Dy. lra.
Qed.

(** What a loaded truth file of the tool says about the entries. *)
Lemma truth_entries : forall nq depth n (dist : nat -> nat -> R) ids dists, length ids = (nq * depth)%nat -> length dists = (nq * depth)%nat -> (1 <= depth)%nat ->
  (forall i, (i < nq)%nat -> nearest_within n depth (dist i) (fun _ => 0) (truth_row depth i ids dists)) ->
  (forall y, In y dists -> is_nan (f32_of_bits y) = false) /\
  forall i j j', (i < nq)%nat -> (j < depth)%nat -> (j' < depth)%nat ->
    (feq (entry (map f32_of_bits dists) (N.of_nat depth) (N.of_nat i) (N.of_nat j)) (entry (map f32_of_bits dists) (N.of_nat depth) (N.of_nat i) (N.of_nat j')) = true <->
     real (snd (nth j (truth_row depth i ids dists) (0%nat, f32_zero))) = real (snd (nth j' (truth_row depth i ids dists) (0%nat, f32_zero)))).
Proof.
  intros nq depth n dist ids dists Lids Ldists D1 Hrow.
  assert (Fin : forall i j, (i < nq)%nat -> (j < depth)%nat -> DistSpec.finite (f32_of_bits (nth (i * depth + j) dists 0%N))).
  { intros i j Hi Hj. destruct (Hrow i Hi) as [Lr [_ [_ [A _]]]]. pose proof (row_at depth i j nq ids dists Lids Ldists Hi Hj) as E. destruct (A (nth j (truth_row depth i ids dists) (0%nat, f32_zero))) as [_ [Fj _]]; [apply nth_In; rewrite Lr; exact Hj|]. rewrite E in Fj. exact Fj. }
  split.
  - intros y Hy. apply (In_nth _ _ 0%N) in Hy. destruct Hy as [p [Hp <-]]. rewrite Ldists in Hp. assert (Dp : (depth <> 0)%nat) by lia.
    assert (Pq : (p / depth < nq)%nat) by (apply Nat.div_lt_upper_bound; lia). pose proof (Nat.mod_upper_bound p depth Dp) as Pm. pose proof (Nat.div_mod p depth Dp) as Pd.
    pose proof (Fin (p / depth)%nat (p mod depth)%nat Pq Pm) as Q. replace (p / depth * depth + p mod depth)%nat with p in Q by lia. destruct (f32_of_bits (nth p dists 0%N)); try reflexivity. destruct Q.
  - intros i j j' Hi Hj Hj'. unfold entry. replace (N.to_nat (N.of_nat depth * N.of_nat i + N.of_nat j)) with (i * depth + j)%nat by lia. replace (N.to_nat (N.of_nat depth * N.of_nat i + N.of_nat j')) with (i * depth + j')%nat by lia.
    change f32_zero with (f32_of_bits 0) at 1 2. rewrite !map_nth, !(row_at depth i _ nq) by auto. cbn [snd]. apply feq_real; try apply f32_of_bits_valid; apply Fin; auto.
Qed.

Lemma bin_truth : forall h nq k ids, u32_range nq -> u32_range k -> N.of_nat (length ids) = (nq * k)%N -> (nq * k < 1152921504606846976)%N -> (forall x, In x ids -> u32_range x) ->
  load_truthset h (Some (bin_file 4 nq k ids)) = Ok (nq, k, ids, None).
Proof.
  intros h nq k ids Hn Hk L NK U. replace (bin_file 4 nq k ids) with (truth_file nq k ids None) by (unfold truth_file, bin_file; rewrite app_nil_r; reflexivity). apply load_truthset_ok. unfold truth_ok, all_u32. auto 10.
Qed.

(** The truth of the tool, as used below. *)
Definition truth_of (nq depth n : nat) (dist : nat -> nat -> R) (b : list N) : Prop :=
  exists ids dists, (forall g, load_truthset g (Some b) = Ok (N.of_nat nq, N.of_nat depth, ids, Some dists)) /\ length ids = (nq * depth)%nat /\ length dists = (nq * depth)%nat /\
    forall i, (i < nq)%nat -> nearest_within n depth (dist i) (fun _ => 0) (truth_row depth i ids dists).

Lemma nearest_right : forall nq depth n dist b r dr ids h h', truth_of nq depth n dist b -> (1 <= nq)%nat -> (N.of_nat nq <= 10000000)%N -> (1 <= r)%nat -> (r <= depth)%nat -> (N.of_nat depth < 2 ^ 31)%N -> (N.of_nat r <= dr < 2 ^ 32)%N -> (N.of_nat nq * N.of_nat r <= 2 ^ 53)%N ->
  N.of_nat (length ids) = (N.of_nat nq * dr)%N -> (forall x, In x ids -> (x < 2 ^ 32)%N) ->
  (forall i, (i < nq)%nat -> ties_fit n r depth (dist i)) ->
  (forall i, (i < nq)%nat -> NoDup (prefix ids dr (N.of_nat i) (N.of_nat r)) /\ forall x, In x (prefix ids dr (N.of_nat i) (N.of_nat r)) -> can_be_nearest n r (dist i) (N.to_nat x)) ->
  exists v, recall_tool h h' (Some b) (Some (bin_file 4 (N.of_nat nq) dr ids)) (N.of_nat r) = Ok (Some v) /\ DistSpec.finite v /\ real v = 100.
Proof.
  intros nq depth n dist b r dr ids h h' [gold [dists [Lb [Lids' [Ldists' Hrow]]]]] Nq1 Lq R1 Rd Dn Rk NK Li Low Ties Good.
  destruct (truth_entries nq depth n dist gold dists Lids' Ldists' ltac:(lia) Hrow) as [Nan Ent].
  apply (recall_full h h' (Some b) _ (N.of_nat nq) (N.of_nat depth) gold dists dr ids None (N.of_nat r)); [apply Lb|apply bin_truth; unfold u32_range; auto; nia|lia|lia|lia|exact Nan|lia|lia|lia|lia|exact NK| |].
  - intros i tb Hi [Tb1 [_ Tb2]]. rewrite Nat2N.id in Hi. intros y Hy. destruct (Good i Hi) as [_ G]. specialize (G y Hy).
    assert (Hin : In (N.to_nat y) (map fst (firstn (N.to_nat tb) (truth_row depth i gold dists)))).
    { apply (truth_has n r depth (dist i)); [apply Hrow, Hi|apply Ties, Hi|exact R1|lia| |exact G].
      intros Lt. specialize (Tb2 ltac:(lia)). intros Q. apply (Ent i (N.to_nat tb) (r - 1)%nat Hi Lt ltac:(lia)) in Q. rewrite N2Nat.id in Q. replace (N.of_nat (r - 1)) with (N.of_nat r - 1)%N in Q by lia. rewrite Q in Tb2. discriminate. }
    rewrite (row_fst depth i nq) in Hin by (auto; lia). apply in_map_iff in Hin. destruct Hin as [w [Ew Hw]]. unfold RecallSpec.prefix. replace (N.to_nat (N.of_nat depth * N.of_nat i)) with (i * depth)%nat by lia. apply N2Nat.inj in Ew. rewrite <- Ew. exact Hw.
  - intros i Hi. rewrite Nat2N.id in Hi. split; [apply Good, Hi|]. unfold RecallSpec.prefix. rewrite firstn_length, skipn_length. nia.
Qed.

Lemma right_nearest : forall nq depth n dist b r dr ids h h' v, truth_of nq depth n dist b -> (1 <= nq)%nat -> (N.of_nat nq <= 10000000)%N -> (1 <= r)%nat -> (r <= depth)%nat -> (N.of_nat depth < 2 ^ 31)%N -> (N.of_nat r <= dr < 2 ^ 32)%N -> (N.of_nat nq * N.of_nat r <= 2 ^ 22)%N ->
  N.of_nat (length ids) = (N.of_nat nq * dr)%N -> (forall x, In x ids -> (x < 2 ^ 32)%N) ->
  recall_tool h h' (Some b) (Some (bin_file 4 (N.of_nat nq) dr ids)) (N.of_nat r) = Ok (Some v) -> real v = 100 ->
  forall i, (i < nq)%nat -> NoDup (prefix ids dr (N.of_nat i) (N.of_nat r)) /\ forall x, In x (prefix ids dr (N.of_nat i) (N.of_nat r)) -> can_be_nearest n r (dist i) (N.to_nat x).
Proof.
  intros nq depth n dist b r dr ids h h' v [gold [dists [Lb [Lids' [Ldists' Hrow]]]]] Nq1 Lq R1 Rd Dn Rk NK Li Low Ev Rv i Hi.
  destruct (truth_entries nq depth n dist gold dists Lids' Ldists' ltac:(lia) Hrow) as [Nan Ent].
  destruct (recall_loaded_ok h h' (Some b) (Some (bin_file 4 (N.of_nat nq) dr ids)) (N.of_nat nq) (N.of_nat depth) gold (Some dists) dr ids None (N.of_nat r)) as [hs [v' [Ev' [Lh [Hh [_ Close]]]]]]; [apply Lb|apply bin_truth; unfold u32_range; auto; nia|lia|lia|lia|lia|lia|lia|lia|lia|lia|lia|split; [lia|exact Nan]|].
  rewrite Ev in Ev'. injection Ev' as <-. rewrite !nat_N_Z, <- !INR_IZR_INZ in Close.
  assert (All : forall j x, nth_error hs j = Some x -> x = r).
  { assert (Bd : forall j x, nth_error hs j = Some x -> (x <= r)%nat) by (intros j x E; destruct (Hh j x E) as [Q _]; lia).
    assert (Tot : (nq * r <= list_sum hs)%nat).
    { destruct (Nat.le_gt_cases (nq * r) (list_sum hs)) as [Q|Q]; [exact Q|exfalso]. rewrite Rv in Close.
      assert (P : 1 <= INR nq * INR r) by (rewrite <- mult_INR; apply (le_INR 1); nia). assert (P2 : INR nq * INR r <= 4194304) by (rewrite <- mult_INR, INR_IZR_INZ; apply IZR_le; lia).
      assert (Q' : INR (list_sum hs) <= INR nq * INR r - 1). { rewrite <- mult_INR. apply (le_INR (S (list_sum hs))) in Q. rewrite S_INR in Q. lra. }
      pose proof (pos_INR (list_sum hs)) as P0. set (w := INR nq * INR r) in *. set (t := INR (list_sum hs)) in *. rewrite ulp_pow23 in Close. pose proof ulp_bpow as U. change (/ 2 * bpow radix2 (-24 + 1)) with (/ 2 * / 8388608) in U.
      set (e := 100 * t / w) in *. assert (X : e * w = 100 * t) by (unfold e; field; lra). apply Raux.Rabs_le_inv in Close. clear -Close X P P2 Q' P0 U.
      assert (E0 : 0 <= e) by (destruct (Rle_lt_dec 0 e); [auto|nra]). assert (100 <= e * (1 + / 8388608)) by (rewrite U in Close; lra). assert (100 * w <= e * w * (1 + / 8388608)) by nra. rewrite X in H0. nra. }
    assert (Upper : forall l, (forall j x, nth_error l j = Some x -> (x <= r)%nat) -> (length l * r <= list_sum l)%nat -> forall j x, nth_error l j = Some x -> x = r).
    { clear. induction l as [|y l IH]; intros B Ssum j x E; [destruct j; discriminate|]. cbn [length list_sum fold_right] in Ssum. change (fold_right Nat.add 0%nat l) with (list_sum l) in Ssum.
      assert (By := B 0%nat y eq_refl). assert (Sl : (list_sum l <= length l * r)%nat). { clear -B. assert (B' : forall j x, nth_error l j = Some x -> (x <= r)%nat) by (intros j; apply (B (S j))). clear B. induction l as [|z l IH]; [cbn; lia|]. cbn [length list_sum fold_right]. change (fold_right Nat.add 0%nat l) with (list_sum l). pose proof (IH (fun j => B' (S j))). pose proof (B' 0%nat z eq_refl). lia. }
      destruct j as [|j]; [injection E as <-; lia|]. apply (IH (fun j => B (S j)) ltac:(lia) j x E). }
    apply Upper; [exact Bd|]. rewrite Lh, Nat2N.id. exact Tot. }
  assert (Ej : exists c, nth_error hs i = Some c) by (destruct (nth_error hs i) eqn:E; [eauto|apply nth_error_None in E; rewrite Lh, Nat2N.id in E; lia]). destruct Ej as [c Ej].
  destruct (Hh i c Ej) as [_ [tb [Tt [l [Nl [Il Ec]]]]]]. rewrite (All i c Ej) in Ec. cbn [option_map truth_taken] in Tt. destruct Tt as [Tb1 [Tb2 _]].
  set (P := prefix ids dr (N.of_nat i) (N.of_nat r)) in *. assert (LP : length P = r) by (unfold P, prefix; rewrite firstn_length, skipn_length; nia).
  assert (Inc : incl l P) by (intros x Hx; apply Il, Hx).
  assert (NP : NoDup P) by (apply NoDup_incl_NoDup with l; [exact Nl|lia|exact Inc]).
  split; [exact NP|]. intros x Hx. assert (Il' : incl P l) by (apply NoDup_length_incl; [exact Nl|lia|exact Inc]). apply Il' in Hx. apply Il in Hx. destruct Hx as [Hx _].
  apply (taken_can n r depth (dist i) (truth_row depth i gold dists) (N.to_nat tb)); [apply Hrow, Hi|exact R1|lia| |].
  - intros j Hj. apply (Ent i j (r - 1)%nat Hi ltac:(lia) ltac:(lia)). replace (N.of_nat (r - 1)) with (N.of_nat r - 1)%N by lia. apply Tb2. lia.
  - rewrite (row_fst depth i nq) by (auto; lia). apply in_map. unfold prefix in Hx. replace (N.to_nat (N.of_nat depth * N.of_nat i)) with (i * depth)%nat in Hx by lia. exact Hx.
Qed.

Lemma ivf_recall : forall kt T F dim rows qrows g popf mbs cd data_name tags labels_name nc centers orders path d a x d', pops popf -> loops_ok T F ->
  ivf_session_ok (kwidth kt) g mbs cd data_name tags labels_name nc centers orders d a ->
  d data_name = vector_file kt dim rows -> vectors_ok kt dim rows ->
  ivf_tool (kwidth kt) g popf mbs cd data_name tags labels_name nc centers orders path d = Ok (x, d') ->
  forall g' g1 g2 query_name prefix k args order, garbage_ok g' -> length g1 = 4%nat /\ is_bytes g1 -> length g2 = 4%nat /\ is_bytes g2 ->
  d' query_name = vector_file kt dim qrows -> vectors_ok kt dim qrows -> (1 <= k < 2 ^ 32)%N ->
  In nc args -> (forall L, In L args -> (L <= nc)%N) -> (forall L, In L args -> (1 <= L)%N -> each_once (length qrows) (order L)) ->
  forall W pushf takef sortf bs ps gb1 gb2 gq1 gq2 depth torders, heap_ok pushf takef -> sorts_pairs sortf -> length gb1 = 4%nat -> length gb2 = 4%nat -> length gq1 = 4%nat -> length gq2 = 4%nat -> (1 <= bs)%nat -> (1 <= ps)%nat ->
  (depth <= last_part (length rows) ps)%nat -> (forall p, batch_orders (length qrows) bs (torders p)) -> tool_input kt dim ps rows qrows -> ways_ok dim W -> kt <> KFloat -> (dim <= 258)%nat ->
  forall h h' r, (1 <= r)%nat -> (r <= depth)%nat -> (N.of_nat r <= k)%N -> (N.of_nat (length qrows) * N.of_nat r <= 2 ^ 53)%N ->
  (forall i, (i < length qrows)%nat -> ties_fit (length rows) r depth (fun id => elem_l2 kt (nth i qrows []) (nth id rows []))) ->
  exists d'' b v, search_tool (kwidth kt) g1 g2 query_name prefix k 1 args order (load_for_ivf (kwidth kt) g' popf mbs (mem_l2 kt T F) cd [] (N.to_nat k) path) d' = Ok (Some d'') /\
    gt_tool W false pushf takef sortf bs ps kt gb1 gb2 gq1 gq2 (d data_name) (d' query_name) depth torders = Ok b /\
    recall_tool h h' (Some b) (d'' (result_name prefix nc)) (N.of_nat r) = Ok (Some v) /\ DistSpec.finite v /\ real v = 100.
Proof.
  intros kt T F dim rows qrows g popf mbs cd data_name tags labels_name nc centers orders path d a x d' Hpop HL HS Hd Hv Hb g' g1 g2 query_name prefix k args order Gg G1 G2 Hq Hvq Hk Inn Les Ord
    W pushf takef sortf bs ps gb1 gb2 gq1 gq2 depth torders Hh Hs B1 B2 B3 B4 Hbs Hps Hdl Ho TI HW Kt D258 h h' r R1 Rd Rk NK Ties.
  destruct (ivf_real kt T F dim rows qrows g popf mbs cd data_name tags labels_name nc centers orders path d a x d' Hpop HL HS Hd Hv Hb g' g1 g2 query_name prefix k args order [] Gg G1 G2 Hq Hvq (or_introl eq_refl) ltac:(lia) Inn Les Ord) as [d'' [results [Es [Ed [Lres Hres]]]]].
  destruct (tool_l2_bytes W pushf takef sortf bs ps kt gb1 gb2 gq1 gq2 dim depth rows qrows torders) as [b [ids [dists [Eb [Lb Hrow]]]]]; auto; [lia|].
  set (nq := length qrows) in *. set (n := length rows) in *. destruct TI as [Nr [Ln [Nq [Lq [Lqp [Ldim _]]]]]]. fold n nq in Ln, Lq.
  assert (Nq1 : (1 <= nq)%nat) by (unfold nq; destruct qrows; [congruence|cbn; lia]).
  assert (Dn : (depth <= n)%nat). { assert (1 <= n)%nat by (unfold n; destruct rows; [congruence|cbn; lia]). pose proof (BlasProofs7.last_le n ps ltac:(lia) ltac:(lia)). fold n in Hdl. lia. }
  set (dist := fun i id => elem_l2 kt (nth i qrows []) (nth id rows [])) in *.
  assert (Near : forall i row, nth_error results i = Some row -> exists found, row = (found ++ repeat 0%nat (N.to_nat k - length found))%list /\ nearest_among (fun id => (id < n)%nat) (N.to_nat k) (dist i) (fun _ => 0) found).
  { intros i row E. destruct (Hres i row E) as [found [Er [ND [C [Lf [Full [Srt Rest]]]]]]]. exists found. split; [exact Er|].
    assert (Z : forall id, dist_err kt dim (elem_l2 kt (nth i qrows []) (nth id rows [])) = 0) by (intros id; unfold dist_err; apply Nat.leb_le in D258; rewrite D258; destruct kt; [congruence|reflexivity|reflexivity]).
    split; [exact ND|]. split; [intros y Hy; apply (C y Hy)|]. split; [exact Lf|]. split; [intros Lk y Hy; apply (Full Lk); split; [exact Hy|left; reflexivity]|]. split.
    - clear -Srt Z. induction Srt as [|y l Srt IH Fy]; constructor; auto. eapply Forall_impl; [|exact Fy]. intros z Q. cbn beta in *. rewrite !Z in Q. exact Q.
    - intros y z Hy Hz Nz. pose proof (Rest y z Hy (conj Hz (or_introl eq_refl)) Nz) as Q. rewrite !Z in Q. exact Q. }
  assert (Lrow : forall row, In row results -> length row = N.to_nat k).
  { intros row Hrw. apply In_nth_error in Hrw. destruct Hrw as [i E]. destruct (Near i row E) as [found [-> [_ [_ [Lf _]]]]]. rewrite app_length, repeat_length. lia. }
  assert (Lc : length (concat results) = (nq * N.to_nat k)%nat) by (rewrite <- Lres; apply concat_len, Lrow).
  assert (Low : forall y, In y (concat results) -> (y < n \/ y = 0)%nat).
  { intros y Hy. apply in_concat in Hy. destruct Hy as [row [Hrw Hy]]. apply In_nth_error in Hrw. destruct Hrw as [i E]. destruct (Near i row E) as [found [-> [_ [C _]]]]. apply in_app_or in Hy. destruct Hy as [Hy|Hy]; [left; apply C, Hy|right; apply repeat_spec in Hy; exact Hy]. }
  pose proof (Lb (fun _ => 0%N)) as Lb0. apply loaded_lengths in Lb0. destruct Lb0 as [Lids Ldists].
  assert (Lids' : length ids = (nq * depth)%nat) by lia. assert (Ldists' : length dists = (nq * depth)%nat) by lia.
  destruct (recall_full h h' (Some b) (d'' (result_name prefix nc)) (N.of_nat nq) (N.of_nat depth) ids dists k (map N.of_nat (concat results)) None (N.of_nat r)) as [v [Ev Rv]]; [apply Lb| |lia|lia|rewrite map_length, Lc; lia| |lia|lia|lia|lia|exact NK| | |].
  - rewrite Ed. replace (bin_file 4 (N.of_nat nq) k (map N.of_nat (concat results))) with (truth_file (N.of_nat nq) k (map N.of_nat (concat results)) None) by (unfold truth_file, bin_file; rewrite app_nil_r; reflexivity).
    apply load_truthset_ok. unfold truth_ok, u32_range. split; [lia|]. split; [lia|]. split; [nia|]. split; [rewrite map_length, Lc; lia|]. split; [|exact Logic.I]. intros y Hy. apply in_map_iff in Hy. destruct Hy as [z [<- Hz]]. unfold u32_range. destruct (Low z Hz); lia.
  - intros y Hy. apply (In_nth _ _ 0%N) in Hy. destruct Hy as [p [Hp <-]]. rewrite Ldists' in Hp. assert (Dp : (depth <> 0)%nat) by lia.
    assert (Pq : (p / depth < nq)%nat) by (apply Nat.div_lt_upper_bound; lia). pose proof (Nat.mod_upper_bound p depth Dp) as Pm. pose proof (Nat.div_mod p depth Dp) as Pd.
    destruct (Hrow (p / depth)%nat Pq) as [Lr [_ [_ [A _]]]]. pose proof (row_at depth (p / depth) (p mod depth) nq ids dists Lids' Ldists' Pq Pm) as E. replace (p / depth * depth + p mod depth)%nat with p in E by lia.
    destruct (A (nth (p mod depth) (truth_row depth (p / depth) ids dists) (0%nat, f32_zero))) as [_ [Fin _]]; [apply nth_In; rewrite Lr; exact Pm|]. rewrite E in Fin. cbn [snd] in Fin. destruct (f32_of_bits (nth p dists 0%N)); try reflexivity. destruct Fin.
  - intros i tb Hi [Tb1 [_ Tb2]]. rewrite Nat2N.id in Hi. intros y Hy. unfold RecallSpec.prefix in *.
    assert (Ei : exists row, nth_error results i = Some row) by (destruct (nth_error results i) eqn:E; [eauto|apply nth_error_None in E; lia]). destruct Ei as [row Ei]. destruct (Near i row Ei) as [found [Er Nf]].
    pose proof Nf as [NDf [Cf [Lf [Full _]]]].
    assert (Lfound : (r <= length found)%nat).
    { destruct (Nat.lt_ge_cases (length found) (N.to_nat k)) as [Q|Q]; [|lia]. enough (length (seq 0 n) <= length found)%nat by (rewrite seq_length in *; lia). apply NoDup_incl_length; [apply seq_NoDup|]. intros z Hz. apply in_seq in Hz. apply (Full Q). lia. }
    replace (N.to_nat (k * N.of_nat i)) with (i * N.to_nat k)%nat in Hy by lia. rewrite Nat2N.id, skipn_map, firstn_map, (concat_at _ (N.to_nat k) i results row Lrow Ei) in Hy by lia. apply in_map_iff in Hy. destruct Hy as [z [<- Hz]].
    rewrite Er, firstn_app in Hz. replace (r - length found)%nat with 0%nat in Hz by lia. rewrite app_nil_r in Hz.
    assert (Can := first_can n (N.to_nat k) r (dist i) found Nf ltac:(lia) z Hz).
    assert (Hin : In z (map fst (firstn (N.to_nat tb) (truth_row depth i ids dists)))).
    { apply (truth_has n r depth (dist i)); [|apply Ties, Hi|exact R1|lia| |exact Can].
      - destruct (Hrow i Hi) as [A1 [A2 [A3 [A4 A5]]]]. split; [exact A1|]. split; [exact A2|]. split; [exact A3|]. split.
        + intros w Hw. destruct (A4 w Hw) as [Q1 [Q2 Q3]]. split; [exact Q1|]. split; [exact Q2|]. unfold dist. rewrite l2_swap. exact Q3.
        + intros w j Hw Hj Nj. pose proof (A5 w j Hw Hj Nj) as Q. unfold dist. rewrite l2_swap, (l2_swap kt (nth i qrows [])). exact Q.
      - intros Lt. specialize (Tb2 ltac:(lia)). intros Q. unfold entry in Tb2. revert Tb2.
        replace (N.to_nat (N.of_nat depth * N.of_nat i + tb)) with (i * depth + N.to_nat tb)%nat by lia. replace (N.to_nat (N.of_nat depth * N.of_nat i + (N.of_nat r - 1))) with (i * depth + (r - 1))%nat by lia.
        change f32_zero with (f32_of_bits 0). rewrite !map_nth. rewrite !(row_at depth i _ nq) in Q by (auto; lia). cbn [snd] in Q.
        assert (Fin : forall j, (j < depth)%nat -> DistSpec.finite (f32_of_bits (nth (i * depth + j) dists 0%N))).
        { intros j Hj. destruct (Hrow i Hi) as [Lr [_ [_ [A _]]]]. pose proof (row_at depth i j nq ids dists Lids' Ldists' Hi Hj) as E. destruct (A (nth j (truth_row depth i ids dists) (0%nat, f32_zero))) as [_ [Fj _]]; [apply nth_In; rewrite Lr; exact Hj|]. rewrite E in Fj. exact Fj. }
        apply feq_real in Q; try apply f32_of_bits_valid; try (apply Fin; lia). rewrite Q. discriminate. }
    rewrite (row_fst depth i nq) in Hin by (auto; lia). apply in_map_iff in Hin. destruct Hin as [w [Ew Hw]]. replace (N.to_nat (N.of_nat depth * N.of_nat i)) with (i * depth)%nat by lia. rewrite <- Ew, N2Nat.id. exact Hw.
  - intros i Hi. rewrite Nat2N.id in Hi. unfold RecallSpec.prefix.
    assert (Ei : exists row, nth_error results i = Some row) by (destruct (nth_error results i) eqn:E; [eauto|apply nth_error_None in E; lia]). destruct Ei as [row Ei]. destruct (Near i row Ei) as [found [Er Nf]].
    pose proof Nf as [NDf [Cf [Lf [Full _]]]].
    assert (Lfound : (r <= length found)%nat).
    { destruct (Nat.lt_ge_cases (length found) (N.to_nat k)) as [Q|Q]; [|lia]. enough (length (seq 0 n) <= length found)%nat by (rewrite seq_length in *; lia). apply NoDup_incl_length; [apply seq_NoDup|]. intros z Hz. apply in_seq in Hz. apply (Full Q). lia. }
    replace (N.to_nat (k * N.of_nat i)) with (i * N.to_nat k)%nat by lia. rewrite !Nat2N.id, skipn_map, firstn_map, (concat_at _ (N.to_nat k) i results row Lrow Ei) by lia. rewrite map_length, Er, firstn_app.
    replace (r - length found)%nat with 0%nat by lia. rewrite app_nil_r. split; [|rewrite firstn_length; lia]. apply FinFun.Injective_map_NoDup; [intros p q; apply Nat2N.inj|apply nodup_first, NDf].
  - exists d'', b, v. split; [exact Es|]. split; [rewrite Hd, Hq; exact Eb|]. split; [exact Ev|exact Rv].
Qed.
