(** The ground truth tool and the recall tool together; cases. *)
From Coq Require Import NArith ZArith Reals Lra Lia String List Arith Bool Sorting.Sorted Permutation Floats.SpecFloat.
From Verif Require Import Base Bytes Float32 DistSpec RealSpec StreamModel BinModel BinSpec RecallSpec TruthModel NormModel NormSpec StatsModel
  HeapSpec GtModel GtSpec BlasModel BlasSpec GtToolModel GtToolSpec GtToolProofs4 RealSearchSpec RealSearchCases PipelineSpec PipelineProofs PipelineProofs2.
Import ListNotations.
Local Open Scope R_scope.

Lemma tool_truth_of : forall W pushf takef sortf bs ps kt gb1 gb2 gq1 gq2 dim depth rows qrows orders b, heap_ok pushf takef -> sorts_pairs sortf -> length gb1 = 4%nat -> length gb2 = 4%nat -> length gq1 = 4%nat -> length gq2 = 4%nat -> (1 <= bs)%nat -> (1 <= ps)%nat -> (1 <= depth)%nat -> (depth <= last_part (length rows) ps)%nat -> (forall p, batch_orders (length qrows) bs (orders p)) ->
  tool_input kt dim ps rows qrows -> ways_ok dim W -> kt <> KFloat -> (dim <= 258)%nat ->
  gt_tool W false pushf takef sortf bs ps kt gb1 gb2 gq1 gq2 (vector_file kt dim rows) (vector_file kt dim qrows) depth orders = Ok b ->
  truth_of (length qrows) depth (length rows) (fun i id => elem_l2 kt (nth i qrows []) (nth id rows [])) b /\ (1 <= length qrows)%nat /\ (N.of_nat (length qrows) <= 10000000)%N /\ (N.of_nat depth < 2 ^ 31)%N.
Proof.
  intros W pushf takef sortf bs ps kt gb1 gb2 gq1 gq2 dim depth rows qrows orders b Hh Hs B1 B2 B3 B4 Hbs Hps Hd1 Hdl Ho TI HW Kt D258 Eb.
  destruct (tool_l2_bytes W pushf takef sortf bs ps kt gb1 gb2 gq1 gq2 dim depth rows qrows orders) as [b' [ids [dists [Eb' [Lb Hrow]]]]]; auto. rewrite Eb in Eb'. injection Eb' as <-.
  destruct TI as [Nr [Ln [Nq [Lq _]]]]. assert (Dn : (depth <= length rows)%nat). { assert (1 <= length rows)%nat by (destruct rows; [congruence|cbn; lia]). pose proof (BlasProofs7.last_le (length rows) ps ltac:(lia) ltac:(lia)). lia. }
  split; [|split; [destruct qrows; [congruence|cbn; lia]|split; [exact Lq|lia]]].
  pose proof (Lb (fun _ => 0%N)) as Lb0. apply loaded_lengths in Lb0. destruct Lb0 as [Lids Ldists]. exists ids, dists. split; [exact Lb|]. split; [lia|]. split; [lia|].
  intros i Hi. destruct (Hrow i Hi) as [A1 [A2 [A3 [A4 A5]]]]. split; [exact A1|]. split; [exact A2|]. split; [exact A3|]. split.
  - intros w Hw. destruct (A4 w Hw) as [Q1 [Q2 Q3]]. split; [exact Q1|]. split; [exact Q2|]. rewrite l2_swap. exact Q3.
  - intros w j Hw Hj Nj. pose proof (A5 w j Hw Hj Nj) as Q. rewrite l2_swap, (l2_swap kt (nth i qrows [])). exact Q.
Qed.

Lemma full_means_nearest : forall W pushf takef sortf bs ps kt gb1 gb2 gq1 gq2 dim depth rows qrows orders b, heap_ok pushf takef -> sorts_pairs sortf -> length gb1 = 4%nat -> length gb2 = 4%nat -> length gq1 = 4%nat -> length gq2 = 4%nat -> (1 <= bs)%nat -> (1 <= ps)%nat -> (depth <= last_part (length rows) ps)%nat -> (forall p, batch_orders (length qrows) bs (orders p)) ->
  tool_input kt dim ps rows qrows -> ways_ok dim W -> kt <> KFloat -> (dim <= 258)%nat ->
  gt_tool W false pushf takef sortf bs ps kt gb1 gb2 gq1 gq2 (vector_file kt dim rows) (vector_file kt dim qrows) depth orders = Ok b ->
  forall r cols ids h h' v, (1 <= r)%nat -> (r <= depth)%nat -> (N.of_nat r <= cols < 2 ^ 32)%N -> (N.of_nat (length qrows) * N.of_nat r <= 2 ^ 22)%N -> N.of_nat (length ids) = (N.of_nat (length qrows) * cols)%N -> (forall x, In x ids -> (x < 2 ^ 32)%N) ->
  recall_tool h h' (Some b) (Some (bin_file 4 (N.of_nat (length qrows)) cols ids)) (N.of_nat r) = Ok (Some v) -> real v = 100 ->
  forall i, (i < length qrows)%nat -> let reported := prefix ids cols (N.of_nat i) (N.of_nat r) in
    NoDup reported /\ forall x, In x reported -> can_be_nearest (length rows) r (fun id => elem_l2 kt (nth i qrows []) (nth id rows [])) (N.to_nat x).
Proof.
  intros W pushf takef sortf bs ps kt gb1 gb2 gq1 gq2 dim depth rows qrows orders b Hh Hs B1 B2 B3 B4 Hbs Hps Hdl Ho TI HW Kt D258 Eb r cols ids h h' v R1 Rd Rc NK Li Low Ev Rv i Hi reported.
  destruct (tool_truth_of W pushf takef sortf bs ps kt gb1 gb2 gq1 gq2 dim depth rows qrows orders b) as [T [Q1 [Q2 Q3]]]; auto; [lia|].
  apply (right_nearest (length qrows) depth (length rows) (fun i id => elem_l2 kt (nth i qrows []) (nth id rows [])) b r cols ids h h' v T); auto.
Qed.

Lemma nearest_means_full : forall W pushf takef sortf bs ps kt gb1 gb2 gq1 gq2 dim depth rows qrows orders b, heap_ok pushf takef -> sorts_pairs sortf -> length gb1 = 4%nat -> length gb2 = 4%nat -> length gq1 = 4%nat -> length gq2 = 4%nat -> (1 <= bs)%nat -> (1 <= ps)%nat -> (depth <= last_part (length rows) ps)%nat -> (forall p, batch_orders (length qrows) bs (orders p)) ->
  tool_input kt dim ps rows qrows -> ways_ok dim W -> kt <> KFloat -> (dim <= 258)%nat ->
  gt_tool W false pushf takef sortf bs ps kt gb1 gb2 gq1 gq2 (vector_file kt dim rows) (vector_file kt dim qrows) depth orders = Ok b ->
  forall r cols ids h h', (1 <= r)%nat -> (r <= depth)%nat -> (N.of_nat r <= cols < 2 ^ 32)%N -> (N.of_nat (length qrows) * N.of_nat r <= 2 ^ 53)%N -> N.of_nat (length ids) = (N.of_nat (length qrows) * cols)%N -> (forall x, In x ids -> (x < 2 ^ 32)%N) ->
  (forall i, (i < length qrows)%nat -> let dist := fun id => elem_l2 kt (nth i qrows []) (nth id rows []) in let reported := prefix ids cols (N.of_nat i) (N.of_nat r) in
     ties_fit (length rows) r depth dist /\ NoDup reported /\ forall x, In x reported -> can_be_nearest (length rows) r dist (N.to_nat x)) ->
  exists v, recall_tool h h' (Some b) (Some (bin_file 4 (N.of_nat (length qrows)) cols ids)) (N.of_nat r) = Ok (Some v) /\ DistSpec.finite v /\ real v = 100.
Proof.
  intros W pushf takef sortf bs ps kt gb1 gb2 gq1 gq2 dim depth rows qrows orders b Hh Hs B1 B2 B3 B4 Hbs Hps Hdl Ho TI HW Kt D258 Eb r cols ids h h' R1 Rd Rc NK Li Low H.
  destruct (tool_truth_of W pushf takef sortf bs ps kt gb1 gb2 gq1 gq2 dim depth rows qrows orders b) as [T [Q1 [Q2 Q3]]]; auto; [lia|].
  apply (nearest_right (length qrows) depth (length rows) (fun i id => elem_l2 kt (nth i qrows []) (nth id rows [])) b r cols ids h h' T); auto; intros i Hi; destruct (H i Hi) as [A [B C]]; auto.
Qed.

(** ** Cases *)
Lemma ties_count : forall n r depth (dist : nat -> R) (f : nat -> Z), (forall x, (x < n)%nat -> dist x = IZR (f x)) ->
  (length (filter (fun x => (length (filter (fun y => (f y <? f x)%Z) (seq 0 n)) <? r)%nat) (seq 0 n)) <= depth)%nat -> ties_fit n r depth dist.
Proof.
  intros n r depth dist f Hf C l Nl Hl. eapply Nat.le_trans; [|exact C]. apply NoDup_incl_length; [exact Nl|]. intros x Hx. destruct (Hl x Hx) as [Lx Near]. apply filter_In. split; [apply in_seq; lia|]. apply Nat.ltb_lt. apply Near.
  - apply NoDup_filter, seq_NoDup.
  - intros y Hy. apply filter_In in Hy. destruct Hy as [Hy Q]. apply in_seq in Hy. apply Z.ltb_lt in Q. split; [lia|]. rewrite !Hf by lia. apply IZR_lt, Q.
Qed.

Lemma r_dist : forall q n x, (q < 256)%N -> (n <= 256)%nat -> (x < n)%nat -> elem_l2 KUint8 [q] (nth x (r_rows n) []) = IZR ((Z.of_N q - Z.of_nat x) ^ 2).
Proof.
  intros q n x Hq Hn Hx. unfold r_rows. rewrite (nth_indep _ [] ([N.of_nat 0])) by (rewrite map_length, seq_length; exact Hx). rewrite (map_nth (fun i => [N.of_nat i])), seq_nth by exact Hx.
  unfold elem_l2. cbn [combine map real_sum fold_right fst snd elem_real]. rewrite Nat.add_0_l, Rplus_0_r, nat_N_Z, <- minus_IZR. apply (pow_IZR _ 2).
Qed.

Lemma r_ties : forall i, (i < 2)%nat -> ties_fit 10 2 3 (fun id => elem_l2 KUint8 (nth i [[7]; [0]]%N []) (nth id (r_rows 10) [])).
Proof.
  intros i Hi. destruct i as [|[|i]]; [| |lia].
  - apply (ties_count _ _ _ _ (fun x => ((7 - Z.of_nat x) ^ 2)%Z)); [intros x Hx; apply (r_dist 7 10 x); lia|vm_compute; lia].
  - apply (ties_count _ _ _ _ (fun x => ((0 - Z.of_nat x) ^ 2)%Z)); [intros x Hx; apply (r_dist 0 10 x); lia|vm_compute; lia].
Qed.
