(** The ground truth tool: the results. *)
From Coq Require Import NArith ZArith Reals Lra Lia List Arith Bool Sorting.Sorted Permutation Floats.SpecFloat.
From Flocq Require Import Core.
From Verif Require Import Base Float32 DivFacts FloatBits DistSpec DistModel FusedModel RealSpec FloatReal L2ErrorProofs RealDistProofs ConvertModel NormModel NormSpec NormProofs NormProofs2 PqModel ClosestModel TopKSpec GtModel GtSpec HeapSpec GtProofs GtProofs2 GtProofs3 MeanProofs3
  BinSpec TruthModel TruthSpec BlasModel BlasSpec BlasProofs BlasProofs2 BlasProofs3 BlasProofs4 BlasProofs5 BlasProofs6 BlasProofs7 GtToolModel GtToolSpec GtToolProofs GtToolProofs2.
Import ListNotations.
Local Open Scope R_scope.

Definition fvecs (kt : ktype) (rows : list (list N)) : list (list f32) := map (map (kval kt)) rows.

Lemma tool_truth : forall W mips pushf takef sortf bs ps kt gb1 gb2 gq1 gq2 dim k rows qrows orders (dist err : nat -> nat -> R), heap_ok pushf takef -> sorts_pairs sortf -> length gb1 = 4%nat -> length gb2 = 4%nat -> length gq1 = 4%nat -> length gq2 = 4%nat ->
  (N.of_nat (length rows) < 2147483648)%N -> (N.of_nat (length qrows) <= 10000000)%N -> (N.of_nat dim < 4294967296)%N ->
  (forall r, In r rows \/ In r qrows -> length r = dim /\ forall x, In x r -> (x < 256 ^ N.of_nat (kwidth kt))%N) -> (1 <= bs)%nat -> (1 <= ps)%nat -> (1 <= k)%nat -> (k <= last_part (length rows) ps)%nat -> rows <> [] -> qrows <> [] -> (length qrows <= ps)%nat ->
  (forall p, batch_orders (length qrows) bs (orders p)) ->
  (forall p q j, (p * ps < length rows)%nat -> (q < length qrows)%nat -> (j < min ps (length rows - p * ps))%nat ->
     exists v, part_entry W mips p bs dim (min ps (length rows - p * ps)) (concat (fvecs kt (part_rows ps p rows))) (length qrows) (concat (fvecs kt qrows)) q j = Ok v /\ num v /\ Rabs (real v - dist q (p * ps + j)%nat) <= err q (p * ps + j)%nat) ->
  exists b ids dists, gt_tool W mips pushf takef sortf bs ps kt gb1 gb2 gq1 gq2 (vector_file kt dim rows) (vector_file kt dim qrows) k orders = Ok b /\
    (forall g, load_truthset g (Some b) = Ok (N.of_nat (length qrows), N.of_nat k, ids, Some dists)) /\
    forall i, (i < length qrows)%nat -> exists row, nearest_within (length rows) k (dist i) (err i) row /\ (forall x, In x row -> num (snd x)) /\ truth_row k i ids dists = map (written mips) row.
Proof.
  intros W mips pushf takef sortf bs ps kt gb1 gb2 gq1 gq2 dim k rows qrows orders dist err HO Hs Gb1 Gb2 Gq1 Gq2 Hn Hq Hd HR Hbs Hps Hk Hkl Hne Hqe Hqp Hord He.
  set (n := length rows) in *. set (nq := length qrows) in *. assert (Hn1 : (1 <= n)%nat) by (unfold n; destruct rows; [congruence|cbn; lia]).
  set (ent := fun p q j => part_entry W mips p bs dim (min ps (n - p * ps)) (concat (fvecs kt (part_rows ps p rows))) nq (concat (fvecs kt qrows)) q j).
  set (dmat := fun q p => if (q <? nq)%nat && (p <? n)%nat then match ent (p / ps)%nat q (p mod ps)%nat with Ok d => d | _ => S754_nan end else f32_zero).
  assert (Dm : forall q p, (q < nq)%nat -> (p < n)%nat -> num (dmat q p) /\ Rabs (real (dmat q p) - dist q p) <= err q p).
  { intros q p Hq' Hp'. unfold dmat. apply Nat.ltb_lt in Hq' as Q1, Hp' as Q2. rewrite Q1, Q2. cbn [andb]. pose proof (Nat.div_mod p ps ltac:(lia)) as Q3. pose proof (Nat.mod_upper_bound p ps ltac:(lia)) as Q4.
    destruct (He (p / ps)%nat q (p mod ps)%nat) as [v [Hv R]]; [lia|exact Hq'|lia|]. unfold ent. fold n nq in Hv. rewrite Hv. replace (p / ps * ps + p mod ps)%nat with p in R by lia. exact R. }
  destruct (gt_tool_ok W mips pushf takef sortf bs ps kt gb1 gb2 gq1 gq2 dim k rows qrows orders dmat) as [b [ids [dists [Hb [Hl Hrow]]]]]; auto.
  - intros q p. destruct (Nat.ltb_spec q nq) as [Hq'|Hq'], (Nat.ltb_spec p n) as [Hp'|Hp'].
    + destruct (Dm q p Hq' Hp') as [[F V] _]. split; [apply finite_nan, F|exact V].
    + unfold dmat. apply Nat.ltb_ge in Hp'. rewrite Hp', andb_false_r. split; reflexivity.
    + unfold dmat. apply Nat.ltb_ge in Hq'. rewrite Hq'. split; reflexivity.
    + unfold dmat. apply Nat.ltb_ge in Hq'. rewrite Hq'. split; reflexivity.
  - fold n nq. intros p Hp. unfold part_matrix. fold (fvecs kt (part_rows ps p rows)). fold (fvecs kt qrows).
    change (fun qj : nat * nat => part_entry W mips p bs dim (min ps (n - p * ps)) (concat (fvecs kt (part_rows ps p rows))) nq (concat (fvecs kt qrows)) (fst qj) (snd qj)) with (fun qj : nat * nat => ent p (fst qj) (snd qj)).
    destruct (collect_ex _ _ (fun qj => ent p (fst qj) (snd qj)) (fun _ _ => True) (list_prod (seq 0 nq) (seq 0 (min ps (n - p * ps))))) as [ys [-> _]].
    { intros [q j] Hx. apply in_prod_iff in Hx. rewrite !in_seq in Hx. destruct (He p q j) as [v [Hv _]]; [exact Hp|lia|fold n; lia|]. exists v. auto. }
    cbn [bind]. eexists. split; [reflexivity|]. cbn beta.
    assert (Q : forall q j, (q < nq)%nat -> (j < min ps (n - p * ps))%nat -> match ent p q j with Ok d => d | _ => S754_nan end = dmat q (p * ps + j)%nat).
    { intros q j Hq' Hj. unfold dmat. apply Nat.ltb_lt in Hq'. rewrite Hq'. assert (Hpj : (p * ps + j <? n)%nat = true) by (apply Nat.ltb_lt; lia). rewrite Hpj. cbn [andb].
      rewrite (Nat.add_comm (p * ps)), Nat.div_add, Nat.div_small, Nat.mod_add, Nat.mod_small by lia. reflexivity. }
    split.
    + intros q j. destruct (Nat.ltb_spec q nq) as [Hq'|Hq'], (Nat.ltb_spec j (min ps (n - p * ps))) as [Hj|Hj]; cbn [andb]; try reflexivity.
      change (is_nan (match ent p q j with Ok d => d | _ => S754_nan end) = false). rewrite Q by auto. apply finite_nan. apply Dm; [exact Hq'|lia].
    + intros q j Hq' Hj. pose proof (Q q j Hq' Hj) as Q'. apply Nat.ltb_lt in Hq', Hj. rewrite Hq', Hj. cbn [andb]. exact Q'.
  - exists b, ids, dists. split; [exact Hb|]. split; [exact Hl|]. intros i Hi. destruct (Hrow i Hi) as [row [T E]]. exists row. split; [|split; [|exact E]].
    + apply (top_within n k (dmat i)); auto. { pose proof (last_le n ps Hn1 Hps). lia. }
    + destruct T as [rest [P _]]. intros x Hx. assert (Ix : In x (score (dmat i) (seq 0 n))) by (apply (Permutation_in _ (Permutation_sym P)), in_or_app; auto). apply in_map_iff in Ix. destruct Ix as [p [<- Hp]]. apply in_seq in Hp. apply Dm; [exact Hi|lia].
Qed.

Lemma written_id : forall row, map (written false) row = row.
Proof. intros row. rewrite <- (map_id row) at 2. apply map_ext. intros [i x]. reflexivity. Qed.

Lemma real_fneg : forall x : f32, real (fneg x) = - real x.
Proof. intros [s|s| |s m e]; cbn; try lra. destruct s; cbn [negb]; lra. Qed.

Lemma largest_of : forall n k (score err : nat -> R) row, nearest_within n k (fun p => - score p) err row -> largest_within n k score err (map (written true) row).
Proof.
  intros n k score err row [L [ND [S [A B]]]]. assert (Ef : map fst (map (written true) row) = map fst row) by (rewrite map_map; reflexivity).
  split; [rewrite map_length; exact L|]. split; [rewrite Ef; exact ND|]. split; [|split].
  - clear -S. induction S as [|x l S IH F]; cbn [map]; constructor; auto. rewrite Forall_forall in *. intros y Hy. apply in_map_iff in Hy. destruct Hy as [z [<- Hz]]. cbn [written snd]. rewrite !real_fneg. pose proof (F z Hz) as Q. cbn beta in Q. apply Ropp_le_contravar, Q.
  - intros x Hx. apply in_map_iff in Hx. destruct Hx as [y [<- Hy]]. destruct (A y Hy) as [Q1 [Q0 Q2]]. cbn [written fst snd]. split; [exact Q1|]. split; [destruct (snd y) as [[]|[]| |[]]; exact Q0|]. rewrite real_fneg. replace (- real (snd y) - score (fst y)) with (- (real (snd y) - - score (fst y))) by ring. rewrite Rabs_Ropp. exact Q2.
  - intros x j Hx Hj Nj. rewrite Ef in Nj. apply in_map_iff in Hx. destruct Hx as [y [<- Hy]]. specialize (B y j Hy Hj Nj). cbn [written fst]. lra.
Qed.

(** ** Rows *)
Lemma fvec_length : forall kt rows, length (fvecs kt rows) = length rows.
Proof. intros. apply map_length. Qed.
Lemma fvec_nth : forall kt rows i, nth i (fvecs kt rows) [] = map (kval kt) (nth i rows []).
Proof. intros kt rows i. unfold fvecs. change (@nil f32) with (map (kval kt) []) at 1. apply map_nth. Qed.
Lemma fvec_in : forall kt rows r, In r (fvecs kt rows) -> exists e, In e rows /\ r = map (kval kt) e.
Proof. intros kt rows r H. apply in_map_iff in H. destruct H as [e [<- H]]. eauto. Qed.
Lemma part_in : forall (A : Type) ps p (rows : list A) x, In x (part_rows ps p rows) -> In x rows.
Proof. intros A ps p rows x H. apply (in_part _ _ _ _ _ H). Qed.

Lemma elem_width : forall kt e, elem_ok kt e -> (e < 256 ^ N.of_nat (kwidth kt))%N.
Proof. intros [] e H; cbn [elem_ok] in H; [destruct H as [H _]; exact H|exact H|exact H]. Qed.
Lemma vec_good : forall kt v, Forall (elem_ok kt) v -> good (map (kval kt) v).
Proof. intros kt v H c Hc. apply in_map_iff in Hc. destruct Hc as [e [<- He]]. rewrite Forall_forall in H. destruct (kval_ok kt e (H e He)) as [A [B _]]. auto. Qed.
Lemma vec_sq : forall kt v, Forall (elem_ok kt) v -> sum_sq (map (kval kt) v) = elem_sq kt v.
Proof.
  intros kt v H. unfold sum_sq, elem_sq. rewrite map_map. induction H as [|e v He H IH]; [reflexivity|]. cbn [map real_sum fold_right]. unfold real_sum in IH. rewrite IH. destruct (kval_ok kt e He) as [_ [_ ->]]. reflexivity.
Qed.
Lemma vec_l2 : forall kt v w, Forall (elem_ok kt) v -> Forall (elem_ok kt) w -> exact_l2 (map (kval kt) v) (map (kval kt) w) = elem_l2 kt v w.
Proof.
  intros kt v w H. revert w. unfold exact_l2, elem_l2. induction H as [|e v He H IH]; intros w Hw; [reflexivity|]. destruct Hw as [|f w Hf Hw]; [reflexivity|]. cbn [map combine real_sum fold_right fst snd]. specialize (IH w Hw). unfold real_sum in IH. rewrite IH.
  destruct (kval_ok kt e He) as [_ [_ ->]]. destruct (kval_ok kt f Hf) as [_ [_ ->]]. reflexivity.
Qed.
Lemma vec_dot : forall kt v w, Forall (elem_ok kt) v -> Forall (elem_ok kt) w -> exact_ip (map (kval kt) v) (map (kval kt) w) = elem_dot kt v w.
Proof.
  intros kt v w H. revert w. unfold exact_ip, elem_dot. induction H as [|e v He H IH]; intros w Hw; [reflexivity|]. destruct Hw as [|f w Hf Hw]; [reflexivity|]. cbn [map combine real_sum fold_right fst snd]. specialize (IH w Hw). unfold real_sum in IH. rewrite IH.
  destruct (kval_ok kt e He) as [_ [_ ->]]. destruct (kval_ok kt f Hf) as [_ [_ ->]]. reflexivity.
Qed.
Lemma ip_exact : forall p q : list f32, length p = length q -> ip p q = exact_ip p q.
Proof.
  intros p. unfold ip, exact_ip, isum, at_. induction p as [|x p IH]; intros q L; [reflexivity|]. destruct q as [|y q]; [discriminate|]. cbn [length seq map combine nth real_sum fold_right fst snd]. injection L as L. specialize (IH q L). rewrite <- seq_shift, map_map. unfold real_sum in IH. cbn [nth]. now rewrite IH.
Qed.

(** ** The integers of byte vectors *)
Definition zelem (kt : ktype) (e : N) : Z := match kt with KInt8 => int8_val e | _ => Z.of_N e end.
Lemma zelem_ok : forall kt e, kt <> KFloat -> elem_ok kt e -> kval kt e = f32_of_Z (zelem kt e) /\ elem_real kt e = IZR (zelem kt e) /\ (match kt with KInt8 => -128 <= zelem kt e <= 127 | _ => 0 <= zelem kt e <= 255 end)%Z.
Proof.
  intros [] e H E; [congruence| |]; cbn [elem_ok] in E; cbn [kval zelem elem_real]; (split; [reflexivity|]); unfold int8_val; [destruct (N.ltb_spec e 128)|]; (split; [try reflexivity|lia]).
Qed.
Lemma vec_ints : forall kt v, kt <> KFloat -> Forall (elem_ok kt) v -> holds_ints (map (kval kt) v) (map (zelem kt) v).
Proof.
  intros kt v H F. assert (Q : map (kval kt) v = map f32_of_Z (map (zelem kt) v)).
  { rewrite map_map. apply map_ext_in. intros e He. rewrite Forall_forall in F. apply zelem_ok; auto. }
  rewrite Q. apply of_Z_holds. intros x Hx. apply in_map_iff in Hx. destruct Hx as [e [<- He]]. rewrite Forall_forall in F. destruct (zelem_ok kt e H (F e He)) as [_ [_ B]]. destruct kt; lia.
Qed.
Lemma vec_zl2 : forall kt v w, kt <> KFloat -> Forall (elem_ok kt) v -> Forall (elem_ok kt) w -> elem_l2 kt v w = IZR (sq_dist (map (zelem kt) v) (map (zelem kt) w)).
Proof.
  intros kt v w K H. revert w. unfold elem_l2, sq_dist, zsum. induction H as [|e v He H IH]; intros w Hw; [reflexivity|]. destruct Hw as [|f w Hf Hw]; [reflexivity|]. cbn [map combine real_sum fold_right fst snd]. specialize (IH w Hw). unfold real_sum in IH. rewrite IH.
  destruct (zelem_ok kt e K He) as [_ [-> _]]. destruct (zelem_ok kt f K Hf) as [_ [-> _]]. rewrite plus_IZR, mult_IZR, minus_IZR. ring.
Qed.
Lemma vec_zdot : forall kt v w, kt <> KFloat -> Forall (elem_ok kt) v -> Forall (elem_ok kt) w -> length v = length w -> elem_dot kt v w = IZR (zip (map (zelem kt) v) (map (zelem kt) w)).
Proof.
  intros kt v w K H. revert w. unfold elem_dot, zip, zat. induction H as [|e v He H IH]; intros w Hw L; [reflexivity|]. destruct Hw as [|f w Hf Hw]; [discriminate|]. injection L as L. cbn [map combine real_sum fold_right fst snd length seq]. specialize (IH w Hw L). unfold real_sum in IH. rewrite IH.
  destruct (zelem_ok kt e K He) as [_ [-> _]]. destruct (zelem_ok kt f K Hf) as [_ [-> _]]. rewrite zsum_cons, plus_IZR, mult_IZR. cbn [nth]. f_equal. unfold isumZ. rewrite <- seq_shift, map_map. reflexivity.
Qed.
