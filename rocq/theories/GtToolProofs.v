(** The ground truth tool: loading, parts and merging. *)
From Coq Require Import NArith ZArith List Arith Bool Lia Permutation Floats.SpecFloat.
From Verif Require Import Base Bytes Float32 DivFacts FloatBits ListLemmas StreamModel BinModel BinSpec BinProofs ClosestModel ClosestProofs PqModel NormModel FusedModel TruthModel TruthSpec TruthProofs TopKSpec HeapSpec GtModel GtSpec GtProofs GtProofs2 GtProofs3 BlasModel GtToolModel.
Import ListNotations.

Definition part_rows {A : Type} (ps p : nat) (rows : list A) : list A := firstn (min ps (length rows - p * ps)) (skipn (p * ps) rows).

Lemma concat_len : forall (A : Type) dim (rows : list (list A)), (forall r, In r rows -> length r = dim) -> length (concat rows) = length rows * dim.
Proof. intros A dim rows H. induction rows as [|r t IH]; [reflexivity|]. cbn [concat length]. rewrite app_length, IH by (intros; apply H; right; auto). rewrite (H r) by (left; auto). lia. Qed.
Lemma firstn_rows : forall (A : Type) dim k (rows : list (list A)), (forall r, In r rows -> length r = dim) -> firstn (k * dim) (concat rows) = concat (firstn k rows).
Proof.
  intros A dim k. induction k as [|k IH]; intros rows H; [reflexivity|]. destruct rows as [|r t]; [now rewrite firstn_nil|]. cbn [firstn concat Nat.mul].
  rewrite firstn_app, (H r) by (left; auto). replace (dim + k * dim - dim) with (k * dim) by lia. rewrite IH by (intros; apply H; right; auto). rewrite firstn_all2; [reflexivity|]. rewrite (H r) by (left; auto). lia.
Qed.
Lemma skipn_rows : forall (A : Type) dim k (rows : list (list A)), (forall r, In r rows -> length r = dim) -> skipn (k * dim) (concat rows) = concat (skipn k rows).
Proof.
  intros A dim k. induction k as [|k IH]; intros rows H; [reflexivity|]. destruct rows as [|r t]; [now rewrite skipn_nil|]. cbn [skipn concat Nat.mul].
  rewrite skipn_app, (H r) by (left; auto). replace (dim + k * dim - dim) with (k * dim) by lia. rewrite IH by (intros; apply H; right; auto). rewrite skipn_all2; [reflexivity|]. rewrite (H r) by (left; auto). lia.
Qed.
Lemma enc_all_concat : forall w rows, enc_all w (concat rows) = concat (map (enc_all w) rows).
Proof. intros w rows. unfold enc_all. induction rows as [|r t IH]; [reflexivity|]. cbn [concat map]. rewrite flat_map_app. now rewrite IH. Qed.
Lemma in_part : forall (A : Type) a b (l : list A) x, In x (firstn a (skipn b l)) -> In x l.
Proof. intros A a b l x H. rewrite <- (firstn_skipn b l). apply in_or_app. right. rewrite <- (firstn_skipn a (skipn b l)). apply in_or_app. left. exact H. Qed.
Lemma part_length : forall (A : Type) ps p (rows : list A), length (part_rows ps p rows) = min ps (length rows - p * ps).
Proof. intros. unfold part_rows. rewrite firstn_length, skipn_length. lia. Qed.
Lemma part_nth : forall (A : Type) ps p (rows : list A) j d, j < min ps (length rows - p * ps) -> nth j (part_rows ps p rows) d = nth (p * ps + j) rows d.
Proof.
  intros A ps p rows j d H. unfold part_rows. set (m := min _ _) in *. rewrite <- (firstn_skipn (p * ps) rows) at 2. rewrite app_nth2; rewrite firstn_length; [|lia]. rewrite Nat.min_l by lia.
  replace (p * ps + j - p * ps) with j by lia. rewrite <- (firstn_skipn m (skipn (p * ps) rows)) at 2. rewrite app_nth1; [reflexivity|]. rewrite firstn_length, skipn_length. lia.
Qed.

Definition file_of (kt : ktype) (dim : nat) (rows : list (list N)) : file := Some (bin_file (kwidth kt) (N.of_nat (length rows)) (N.of_nat dim) (concat rows)).

Lemma load_part_ok : forall kt g1 g2 ps part dim rows, length g1 = 4 -> length g2 = 4 -> (N.of_nat (length rows) < 2147483648)%N -> (N.of_nat dim < 4294967296)%N ->
  (forall r, In r rows -> length r = dim /\ forall x, In x r -> (x < 256 ^ N.of_nat (kwidth kt))%N) -> part * ps <= length rows ->
  load_part kt g1 g2 (file_of kt dim rows) ps part = Ok (min ps (length rows - part * ps), dim, concat (map (map (kval kt)) (part_rows ps part rows))).
Proof.
  intros kt g1 g2 ps part dim rows G1 G2 Hn Hd HR Hp. unfold load_part, file_of. set (w := kwidth kt) in *. cbn [open_file]. unfold bin_file at 1.
  rewrite read_header_app; auto; [|unfold u32_range; lia]. cbn [s_good].
  assert (Es : sign_extend (N.of_nat (length rows)) = N.of_nat (length rows)) by (unfold sign_extend; destruct (N.ltb_spec (N.of_nat (length rows)) 2147483648); [reflexivity|lia]). rewrite Es.
  assert (En : (N.min (N.of_nat (part * ps) + N.of_nat ps) (N.of_nat (length rows)) - N.of_nat (part * ps) = N.of_nat (min ps (length rows - part * ps)))%N) by lia. rewrite En.
  set (m := min ps (length rows - part * ps)) in *. clearbody w.
  replace (N.to_nat (N.of_nat m * N.of_nat dim * N.of_nat w)) with (m * (dim * w)) by lia. replace (N.to_nat (N.of_nat (part * ps) * N.of_nat dim * N.of_nat w + 8)) with (8 + part * ps * (dim * w)) by lia.
  assert (Hr : forall r, In r (map (enc_all w) rows) -> length r = dim * w).
  { intros r H. apply in_map_iff in H. destruct H as [x [<- H]]. rewrite enc_all_length. destruct (HR x H) as [-> _]. lia. }
  assert (Eb : firstn (m * (dim * w)) (skipn (8 + part * ps * (dim * w)) (bin_file w (N.of_nat (length rows)) (N.of_nat dim) (concat rows))) = enc_all w (concat (part_rows ps part rows))).
  { unfold bin_file. rewrite app_assoc, skipn_app, (skipn_all2 (u32 _ ++ u32 _)) by (rewrite app_length, !u32_length; lia). rewrite app_length, !u32_length. cbn [app].
    replace (8 + part * ps * (dim * w) - (4 + 4)) with (part * ps * (dim * w)) by lia. rewrite enc_all_concat, skipn_rows by exact Hr.
    rewrite firstn_rows by (intros r H; apply Hr; rewrite <- (firstn_skipn (part * ps) (map (enc_all w) rows)); apply in_or_app; auto).
    rewrite skipn_map, firstn_map, <- enc_all_concat. reflexivity. }
  rewrite Eb.
  assert (Lp : length (concat (part_rows ps part rows)) = m * dim).
  { rewrite (concat_len _ dim); [rewrite part_length; reflexivity|]. intros r H. apply HR. apply (in_part _ _ _ _ _ H). }
  rewrite enc_all_length, Lp. destruct (N.ltb_spec (N.of_nat (w * (m * dim))) (N.of_nat m * N.of_nat dim * N.of_nat w)); [lia|].
  rewrite !Nat2N.id. replace (N.to_nat (N.of_nat m * N.of_nat dim)) with (m * dim) by lia. rewrite <- Lp. rewrite <- (app_nil_r (enc_all w _)), dec_all_enc.
  - rewrite concat_map. reflexivity.
  - intros x H1. apply in_concat in H1. destruct H1 as [r [H1 H2]]. apply in_part in H1. destruct (HR r H1) as [_ Q]. apply Q, H2.
Qed.

Lemma num_parts_ok : forall ps n, 1 <= ps -> (N.of_nat n < 2147483648)%N -> num_parts ps (N.of_nat n) = n_blocks n ps.
Proof.
  intros ps n Hp Hn. unfold num_parts, int32_val, n_blocks. destruct (N.ltb_spec (N.of_nat n) 2147483648); [|lia]. rewrite nat_N_Z.
  rewrite Z.rem_mod_nonneg, Z.quot_div_nonneg by lia. rewrite <- Nat2Z.inj_mod, <- Nat2Z.inj_div by lia.
  destruct (Nat.eqb_spec (n mod ps) 0) as [Q|Q]; destruct (Z.eqb_spec (Z.of_nat (n mod ps)) 0) as [Q'|Q'].
  - now rewrite Nat2Z.id.
  - rewrite Q in Q'. now destruct Q'.
  - apply (Nat2Z.inj _ 0) in Q'. contradiction.
  - change 1%Z with (Z.of_nat 1). now rewrite <- Nat2Z.inj_add, Nat2Z.id.
Qed.

Lemma copy_gt : forall mips k i r cnt j out, tool_copy mips k i j cnt r out = gt_copy k i j cnt (map (written mips) r) out.
Proof.
  intros mips k i r. induction cnt as [|cnt IH]; intros j out; [reflexivity|]. cbn [tool_copy gt_copy]. unfold rd. rewrite nth_error_map. destruct (nth_error r j); [|reflexivity]. cbn [option_map bind].
  destruct (wr out (i * k + j) (written mips p)); cbn [bind]; auto.
Qed.
Lemma merge_gt : forall mips sortf k results i out, tool_merge mips sortf k i results out = gt_merge (fun r => map (written mips) (sortf r)) k i results out.
Proof.
  intros mips sortf k. induction results as [|r t IH]; intros i out; [reflexivity|]. cbn [tool_merge gt_merge]. rewrite copy_gt. destruct (gt_copy k i 0 k (map (written mips) (sortf r)) out); cbn [bind]; auto.
Qed.

Lemma tool_parts_ok : forall W mips pushf takef kt g1 g2 bs ps dim k nq queries orders rows dmat, heap_ok pushf takef -> length g1 = 4 -> length g2 = 4 -> (N.of_nat (length rows) < 2147483648)%N -> (N.of_nat dim < 4294967296)%N ->
  (forall r, In r rows -> length r = dim /\ forall x, In x r -> (x < 256 ^ N.of_nat (kwidth kt))%N) -> 1 <= bs -> 1 <= ps -> 1 <= k -> (forall p, batch_orders nq bs (orders p)) ->
  (forall p, p * ps < length rows -> k <= min ps (length rows - p * ps)) ->
  (forall p, p * ps < length rows -> exists dm, part_matrix W mips p bs dim (min ps (length rows - p * ps)) (concat (map (map (kval kt)) (part_rows ps p rows))) nq queries = Ok dm /\ (forall q j, is_nan (dm q j) = false) /\
     forall q j, q < nq -> j < min ps (length rows - p * ps) -> dm q j = dmat q (p * ps + j)) ->
  forall cnt p results, length results = nq -> (cnt = 0 \/ (p + cnt - 1) * ps < length rows) ->
  (forall i r, nth_error results i = Some r -> covers k r (score (dmat i) (seq 0 (min (length rows) (p * ps)))) /\ (p = 0 \/ k <= length r)) ->
  exists results', tool_parts W mips pushf takef kt g1 g2 (file_of kt dim rows) bs ps k nq queries orders p cnt results = Ok results' /\ length results' = nq /\
    (forall i r, nth_error results' i = Some r -> covers k r (score (dmat i) (seq 0 (min (length rows) ((p + cnt) * ps)))) /\ (p + cnt = 0 \/ k <= length r)).
Proof.
  intros W mips pushf takef kt g1 g2 bs ps dim k nq queries orders rows dmat HO G1 G2 Hn Hd HR Hbs Hps Hk Hord Hkp Hm. set (n := length rows) in *. induction cnt as [|cnt IH]; intros p results HL Hp HRes; cbn [tool_parts].
  - exists results. rewrite !Nat.add_0_r. auto.
  - destruct Hp as [Hp|Hp]; [discriminate|]. set (start := p * ps). set (np := min ps (n - start)).
    assert (Hst : start < n) by (unfold start; nia). rewrite load_part_ok; auto; [|fold n; unfold start in Hst; lia]. cbn [bind]. fold n start np.
    destruct (Hm p Hst) as [dm [Hdm [Nd Ed]]]. fold start in Hdm, Ed. fold np in Hdm, Ed. rewrite Hdm. cbn [bind].
    assert (Hk' : k <= np) by (apply Hkp; exact Hst).
    destruct (exact_knn_ok pushf takef bs k np nq dm (orders p) (repeat (0, S754_nan) (nq * k)) HO) as [part [-> [LP TP]]]; auto.
    { apply repeat_length. }
    cbn [bind]. destruct (IH (S p) (gather k start part 0 results)) as (results' & E & L' & HR').
    + now rewrite gather_length.
    + destruct cnt; [now left|right]. replace (S p + S cnt - 1) with (p + S (S cnt) - 1) by lia. exact Hp.
    + intros i r Hi. rewrite gather_nth in Hi. cbn [plus] in Hi. destruct (nth_error results i) as [r0|] eqn:E0; [|discriminate].
      assert (Er : r = gather_one k start part i r0) by (cbn [option_map] in Hi; congruence). subst r.
      assert (Hi' : i < nq) by (rewrite <- HL; apply nth_error_Some; congruence).
      destruct (HRes i r0 E0) as [C0 _]. destruct (TP i Hi') as [T1 T2]. unfold gather_one.
      change (map (fun x : nat * f32 => (fst x + start, snd x)) (firstn k (skipn (i * k) part))) with (map (shift start) (row_of k i part)).
      assert (Sc : score (dm i) (seq 0 np) = score (fun j => dmat i (start + j)) (seq 0 np)).
      { unfold score. apply map_ext_in. intros j Hj. apply in_seq in Hj. rewrite Ed by lia. reflexivity. }
      rewrite Sc in T1. split.
      * assert (Es : min n (S p * ps) = start + np) by (unfold start, np; nia). assert (Es0 : min n (p * ps) = start) by (unfold start in *; lia).
        rewrite Es, seq_app, score_app. rewrite Es0 in C0. apply covers_app; [exact C0|]. now apply (top_covers k (dmat i)).
      * right. rewrite app_length, map_length. change (length (row_of k i part) = k) in T2. lia.
    + exists results'. split; [exact E|]. split; [auto|]. intros i r Hi. destruct (HR' i r Hi) as [A B]. replace (p + S cnt) with (S p + cnt) by lia. split; [exact A|]. right. destruct B as [B|B]; [discriminate|exact B].
Qed.

(** The whole run, on the distances [dmat]. *)
Lemma gt_tool_ok : forall W mips pushf takef sortf bs ps kt gb1 gb2 gq1 gq2 dim k rows qrows orders dmat, heap_ok pushf takef -> sorts_pairs sortf -> length gb1 = 4 -> length gb2 = 4 -> length gq1 = 4 -> length gq2 = 4 ->
  (N.of_nat (length rows) < 2147483648)%N -> (N.of_nat (length qrows) <= 10000000)%N -> (N.of_nat dim < 4294967296)%N ->
  (forall r, In r rows \/ In r qrows -> length r = dim /\ forall x, In x r -> (x < 256 ^ N.of_nat (kwidth kt))%N) -> 1 <= bs -> 1 <= ps -> 1 <= k -> k <= last_part (length rows) ps -> rows <> [] -> qrows <> [] -> length qrows <= ps ->
  (forall p, batch_orders (length qrows) bs (orders p)) ->
  (forall i p, is_nan (dmat i p) = false /\ f32_valid (dmat i p) = true) ->
  (forall p, p * ps < length rows -> exists dm, part_matrix W mips p bs dim (min ps (length rows - p * ps)) (concat (map (map (kval kt)) (part_rows ps p rows))) (length qrows) (concat (map (map (kval kt)) qrows)) = Ok dm /\ (forall q j, is_nan (dm q j) = false) /\
     forall q j, q < length qrows -> j < min ps (length rows - p * ps) -> dm q j = dmat q (p * ps + j)) ->
  exists b ids dists, gt_tool W mips pushf takef sortf bs ps kt gb1 gb2 gq1 gq2 (file_of kt dim rows) (file_of kt dim qrows) k orders = Ok b /\
    (forall g, load_truthset g (Some b) = Ok (N.of_nat (length qrows), N.of_nat k, ids, Some dists)) /\
    forall i, i < length qrows -> exists row, is_top_k k (score (dmat i) (seq 0 (length rows))) row /\
      combine (map N.to_nat (matrix_row k i ids)) (map f32_of_bits (matrix_row k i dists)) = map (written mips) row.
Proof.
  intros W mips pushf takef sortf bs ps kt gb1 gb2 gq1 gq2 dim k rows qrows orders dmat HO Hs Gb1 Gb2 Gq1 Gq2 Hn Hq Hd HR Hbs Hps Hk Hkl Hne Hqe Hqp Hord HD Hm.
  set (n := length rows) in *. set (nq := length qrows) in *. assert (Hn1 : 1 <= n) by (unfold n; destruct rows; [congruence|cbn; lia]). assert (Hq1 : 1 <= nq) by (unfold nq; destruct qrows; [congruence|cbn; lia]).
  destruct (last_part_eq n ps Hn1 Hps) as [B1 [B2 [B3 B4]]].
  assert (Hkp : forall p, p * ps < n -> k <= min ps (n - p * ps)).
  { intros p Hp. eapply Nat.le_trans; [exact Hkl|]. rewrite <- B2. assert (p <= n_blocks n ps - 1) by nia. assert (p * ps <= (n_blocks n ps - 1) * ps) by nia. lia. }
  unfold gt_tool. unfold file_of at 1. cbn [open_file]. unfold bin_file at 1. rewrite read_header_app; auto; [|fold n; unfold u32_range; lia].
  assert (HRq : forall r, In r qrows -> length r = dim /\ forall x, In x r -> (x < 256 ^ N.of_nat (kwidth kt))%N) by (intros; apply HR; auto).
  rewrite (load_part_ok kt gq1 gq2 ps 0 dim qrows); auto; [|fold nq; lia|lia]. cbn [bind]. unfold part_rows. cbn [Nat.mul skipn]. fold nq. rewrite Nat.sub_0_r, Nat.min_r by exact Hqp. unfold nq at 2. rewrite firstn_all. fold nq. rewrite num_parts_ok by auto. fold n.
  destruct (tool_parts_ok W mips pushf takef kt gb1 gb2 bs ps dim k nq (concat (map (map (kval kt)) qrows)) orders rows dmat) with (cnt := n_blocks n ps) (p := 0) (results := repeat (@nil (nat * f32)) nq) as (results & -> & L & HRes); auto.
  { apply repeat_length. }
  { intros i r Hi. apply nth_error_In in Hi. apply repeat_spec in Hi. subst r. split; [|now left].
    cbn [Nat.mul]. rewrite Nat.min_0_r. cbn. exists []. split; [constructor|intros y []]. }
  cbn [bind plus] in *. rewrite merge_gt. fold n in HRes. rewrite Nat.min_l in HRes by lia.
  assert (HL : forall i r, nth_error results i = Some r -> k <= length r) by (intros i r Hi; destruct (HRes i r Hi) as [_ [X|X]]; [lia|exact X]).
  assert (Hnr : forall i r, nth_error results i = Some r -> forall z, In z r -> is_nan (snd z) = false).
  { intros i r Hi z Hz. destruct (HRes i r Hi) as [[rest [P _]] _]. apply (score_nan (dmat i) (seq 0 n)); [intros; apply HD|].
    apply (Permutation_in _ (Permutation_sym P)). apply in_app_iff. now left. }
  assert (HLs : forall r, In r results -> k <= length (map (written mips) (sortf r))).
  { intros r Hr. apply In_nth_error in Hr. destruct Hr as [i Hi]. destruct (Hs r (Hnr i r Hi)) as [Pr _]. rewrite map_length, <- (Permutation_length Pr). eauto. }
  destruct (gt_merge_ok (fun r => map (written mips) (sortf r)) k results 0 (repeat (0, S754_nan) (nq * k)) HLs) as [out [-> [Lo [A _]]]].
  { rewrite repeat_length, L. cbn. nia. }
  cbn [bind]. rewrite repeat_length in Lo.
  assert (Rows : forall i, i < nq -> exists row, is_top_k k (score (dmat i) (seq 0 n)) row /\ row_of k i out = map (written mips) row).
  { intros i Hi. destruct (nth_error results i) as [r|] eqn:Er; [|apply nth_error_None in Er; lia].
    pose proof (A i r Er) as X. cbn [plus] in X. destruct (HRes i r Er) as [C _]. exists (firstn k (sortf r)). split.
    - apply covers_top; auto; [|eauto]. intros z Hz. apply (score_nan (dmat i) (seq 0 n)); [intros; apply HD|exact Hz].
    - rewrite X. apply firstn_map. }
  assert (Each : forall x, In x out -> fst x < n /\ f32_valid (snd x) = true).
  { intros x Hx. apply In_nth_error in Hx. destruct Hx as [e He]. assert (Le : e < nq * k) by (rewrite <- Lo; apply nth_error_Some; congruence).
    assert (Hi : e / k < nq) by (apply Nat.div_lt_upper_bound; lia). destruct (Rows _ Hi) as [row [[rest [P _]] Er]].
    assert (Hj : e mod k < k) by (apply Nat.mod_upper_bound; lia).
    assert (Hx : nth_error (row_of k (e / k) out) (e mod k) = Some x).
    { rewrite nth_error_row. apply Nat.ltb_lt in Hj. rewrite Hj. rewrite <- He. f_equal. pose proof (Nat.div_mod e k ltac:(lia)). lia. }
    rewrite Er in Hx. apply nth_error_In, in_map_iff in Hx. destruct Hx as [y [<- Hy]].
    assert (Iy : In y (score (dmat (e / k)) (seq 0 n))) by (apply (Permutation_in _ (Permutation_sym P)), in_or_app; auto). apply in_map_iff in Iy. destruct Iy as [p [<- Hp]]. apply in_seq in Hp.
    cbn. split; [lia|]. destruct (HD (e / k) p) as [_ V]. destruct mips; [|exact V]. destruct (dmat (e / k) p); [reflexivity|reflexivity|reflexivity|apply neg_valid, V]. }
  set (ids := map (fun x : nat * f32 => N.of_nat (fst x)) out). set (dists := map (fun x : nat * f32 => bits_of_f32 (snd x)) out).
  assert (Hkn : k <= n) by (specialize (Hkp 0 ltac:(lia)); lia).
  assert (T : truth_ok (N.of_nat nq) (N.of_nat k) ids (Some dists)).
  { unfold truth_ok, u32_range. split; [lia|]. split; [lia|]. split; [nia|]. unfold ids, dists. rewrite !map_length. split; [lia|]. split.
    - intros x Hx. apply in_map_iff in Hx. destruct Hx as [y [<- Hy]]. apply Each in Hy. unfold u32_range. lia.
    - split; [lia|]. split; [|lia]. intros x Hx. apply in_map_iff in Hx. destruct Hx as [y [<- Hy]]. apply f32_of_bits_of_f32. apply Each, Hy. }
  destruct (save_load_truthset (fun _ => 0%N) _ _ _ _ T) as [b [Hb _]]. exists b, ids, dists. split; [exact Hb|]. split.
  { intros g. destruct (save_load_truthset g _ _ _ _ T) as [b' [Hb' Hl]]. rewrite Hb in Hb'. injection Hb' as <-. exact Hl. }
  intros i Hi. destruct (Rows i Hi) as [row [Tk Er]]. exists row. split; [exact Tk|]. rewrite <- Er. unfold matrix_row, ids, dists, row_of. rewrite !skipn_map, !firstn_map, !map_map.
  assert (Ev : forall x, In x (firstn k (skipn (i * k) out)) -> f32_valid (snd x) = true) by (intros x Hx; apply Each; apply (in_part _ _ _ _ _ Hx)).
  induction (firstn k (skipn (i * k) out)) as [|x l IH]; [reflexivity|]. cbn [map combine]. rewrite Nat2N.id. destruct (f32_of_bits_of_f32 (snd x)) as [-> _]; [apply Ev; left; auto|]. rewrite IH by (intros; apply Ev; right; auto). now destruct x.
Qed.
