(** Nearest results are hits. *)
From Coq Require Import NArith ZArith Reals Lra Lia String List Arith Bool Sorting.Sorted Permutation Floats.SpecFloat.
From Flocq Require Import Core.
From Verif Require Import Base Bytes Float32 DivFacts FloatBits DistSpec StreamModel LloydModel ConvertModel RealSpec FloatReal L2ErrorProofs RealDistProofs Float64Real RecallModel RecallSpec RecallProofs CacheModel TruthModel TruthSpec TruthProofs NormModel NormSpec NormProofs NormProofs2 NormProofs5 NormProofs6 StatsModel StatsSpec StatsProofs StatsProofs2 StatsProofs3 StatsProofs4
  BlasSpec BlasProofs5 GtToolSpec RealSearchSpec PipelineSpec.
Import ListNotations.
Local Open Scope R_scope.

Lemma sorted_nth : forall (A : Type) (P : A -> A -> Prop) l d i j, StronglySorted P l -> (i < j < length l)%nat -> P (nth i l d) (nth j l d).
Proof.
  intros A P l d i j S. revert i j. induction S as [|x l S IH F]; intros i j H; [cbn in H; lia|]. cbn [length] in H. destruct j as [|j]; [lia|]. destruct i as [|i].
  - cbn [nth]. rewrite Forall_forall in F. apply F, nth_In. lia.
  - cbn [nth]. apply IH. lia.
Qed.

Lemma in_firstn : forall (A : Type) r (l : list A) x d, In x (firstn r l) <-> exists j, (j < r)%nat /\ (j < length l)%nat /\ nth j l d = x.
Proof.
  intros A r l x d. split.
  - intros H. apply (In_nth _ _ d) in H. destruct H as [j [Hj E]]. rewrite firstn_length in Hj. exists j. split; [lia|]. split; [lia|]. rewrite <- E. rewrite <- (firstn_skipn r l) at 1. rewrite app_nth1; [reflexivity|rewrite firstn_length; lia].
  - intros [j [Hj [Hl E]]]. rewrite <- E. assert (Q : nth j l d = nth j (firstn r l) d) by (rewrite <- (firstn_skipn r l) at 1; rewrite app_nth1; [reflexivity|rewrite firstn_length; lia]). rewrite Q. apply nth_In. rewrite firstn_length. lia.
Qed.

Lemma nodup_first : forall r (l : list nat), NoDup l -> NoDup (firstn r l).
Proof. intros r l H. rewrite <- (firstn_skipn r l) in H. apply nodup_l in H. exact H. Qed.

Lemma first_can : forall n k r (dist : nat -> R) found, nearest_among (fun id => (id < n)%nat) k dist (fun _ => 0) found -> (r <= k)%nat -> forall x, In x (firstn r found) -> can_be_nearest n r dist x.
Proof.
  intros n k r dist found [ND [C [L [Full [S Rest]]]]] Hr x Hx. apply (in_firstn _ _ _ _ 0%nat) in Hx. destruct Hx as [j [Hj [Hl E]]]. assert (Ix : In x found) by (rewrite <- E; apply nth_In, Hl).
  split; [apply C, Ix|]. intros l Nl Hy. enough (Q : (length l <= length (firstn j found))%nat) by (rewrite firstn_length in Q; lia). apply NoDup_incl_length; [exact Nl|]. intros y Iy. destruct (Hy y Iy) as [Ly Dy].
  destruct (in_dec Nat.eq_dec y found) as [If|If].
  - apply (in_firstn _ _ _ _ 0%nat). apply (In_nth _ _ 0%nat) in If. destruct If as [p [Hp Ep]]. exists p. split; [|split; [exact Hp|exact Ep]]. destruct (Nat.lt_trichotomy p j) as [Q|[Q|Q]]; [exact Q| |]; exfalso.
    + subst p. rewrite E in Ep. subst y. lra.
    + pose proof (sorted_nth _ _ found 0%nat j p S) as Q'. cbn beta in Q'. rewrite E, Ep in Q'. specialize (Q' ltac:(lia)). lra.
  - pose proof (Rest x y Ix Ly If). lra.
Qed.

Lemma truth_has : forall n r depth (dist : nat -> R) row tb x, nearest_within n depth dist (fun _ => 0) row -> ties_fit n r depth dist -> (1 <= r)%nat -> (r <= tb <= depth)%nat ->
  ((tb < depth)%nat -> real (snd (nth tb row (0%nat, f32_zero))) <> real (snd (nth (r - 1) row (0%nat, f32_zero)))) -> can_be_nearest n r dist x -> In x (map fst (firstn tb row)).
Proof.
  intros n r depth dist row tb x [L [ND [S [A B]]]] T R1 Rt Last X. set (d0 := (0%nat, f32_zero)) in *.
  assert (Ex : forall y, In y row -> real (snd y) = dist (fst y)) by (intros y Hy; destruct (A y Hy) as [_ [_ Q]]; apply Raux.Rabs_le_inv in Q; lra).
  destruct (in_dec Nat.eq_dec x (map fst row)) as [Ix|Ix].
  2:{ exfalso. assert (Q : (length (x :: map fst row) <= depth)%nat); [|cbn [length] in Q; rewrite map_length in Q; lia]. apply T; [constructor; auto|]. intros y [<-|Hy]; [exact X|]. apply in_map_iff in Hy. destruct Hy as [z [<- Hz]]. split; [apply (A z Hz)|].
      intros l Nl Hl. apply X; [exact Nl|]. intros w Hw. destruct (Hl w Hw) as [Lw Dw]. split; [exact Lw|]. pose proof (B z x Hz (proj1 X) Ix). lra. }
  apply in_map_iff in Ix. destruct Ix as [z [<- Hz]]. apply (In_nth _ _ d0) in Hz. destruct Hz as [p [Hp Ep]]. destruct (Nat.lt_ge_cases p tb) as [Q|Q].
  { apply in_map. apply (in_firstn _ _ _ _ d0). eauto. }
  exfalso. assert (Lt : (tb < depth)%nat) by lia. specialize (Last Lt). destruct X as [_ X].
  assert (Sd : forall i j, (i <= j < depth)%nat -> real (snd (nth i row d0)) <= real (snd (nth j row d0))).
  { intros i j H. destruct (Nat.eq_dec i j) as [->|Ne]; [lra|]. apply (sorted_nth _ _ row d0 i j S). lia. }
  pose proof (Sd (r - 1)%nat tb ltac:(lia)) as Q1. pose proof (Sd tb p ltac:(lia)) as Q2. rewrite Ep in Q2.
  assert (Hz : In z row) by (rewrite <- Ep; apply nth_In, Hp). rewrite (Ex z Hz) in Q2.
  assert (Q3 : (length (map fst (firstn r row)) < r)%nat); [|rewrite map_length, firstn_length in Q3; lia]. apply X.
  - rewrite <- firstn_map. apply nodup_first, ND.
  - intros y Hy. apply in_map_iff in Hy. destruct Hy as [w [<- Hw]]. apply (in_firstn _ _ _ _ d0) in Hw. destruct Hw as [j [Hj [Hl Ew]]]. assert (Iw : In w row) by (rewrite <- Ew; apply nth_In, Hl). split; [apply (A w Iw)|].
    rewrite <- (Ex w Iw), <- Ew. pose proof (Sd j (r - 1)%nat ltac:(lia)). lra.
Qed.

(** ** The percentage *)
Lemma rnd_hundred : forall d, Rabs d <= 4 * ulp64 -> rnd (100 * (1 + d)) = 100.
Proof.
  intros d Hd. apply Raux.Rabs_le_inv in Hd. pose proof ulp64_bpow as U. change (bpow radix2 (-53)) with (/ 9007199254740992) in U.
  assert (F : generic_format radix2 (FLT_exp (-149) 24) 100).
  { apply generic_format_FLT. exists (Float radix2 100 0); cbn; [unfold F2R; cbn; lra|lia|lia]. }
  assert (M : mag radix2 100 = 7%Z :> Z) by (apply mag_unique; rewrite Rabs_pos_eq by lra; change (bpow radix2 (7 - 1)) with 64; change (bpow radix2 7) with 128; lra).
  assert (Ul : Ulp.ulp radix2 (FLT_exp (-149) 24) 100 = / 131072).
  { rewrite ulp_neq_0 by lra. unfold cexp. rewrite M. reflexivity. }
  apply Rle_antisym.
  - apply round_N_le_midp; [exact _|exact F|]. rewrite succ_eq_pos, Ul by lra. lra.
  - apply round_N_ge_midp; [exact _|exact F|]. rewrite pred_eq_pos by lra. unfold pred_pos. rewrite M, Ul.
    rewrite Req_bool_false by (change (bpow radix2 (7 - 1)) with 64; lra). lra.
Qed.

Lemma all_sum : forall (r : nat) hs, (forall j h, nth_error hs j = Some h -> h = r) -> list_sum hs = (length hs * r)%nat.
Proof.
  intros r hs. induction hs as [|h hs IH]; intros H; [reflexivity|]. cbn [list_sum fold_right length]. change (fold_right Nat.add 0%nat hs) with (list_sum hs). rewrite (IH (fun j => H (S j))), (H 0%nat h eq_refl). lia.
Qed.

Lemma percent_full : forall n k, (1 <= n < 2 ^ 32)%N -> (1 <= k < 2 ^ 32)%N -> (n * k <= 2 ^ 53)%N ->
  let v := f32_of_f64 (recall_percent (n * k) n k) in finite v /\ real v = 100.
Proof.
  intros n k Hn Hk NK v. destruct (recall_percent_close (n * k) n k) as [F [V [d [Hd E]]]]; [lia|lia|lia|lia|].
  assert (X : 100 * IZR (Z.of_N (n * k)) / (IZR (Z.of_N n) * IZR (Z.of_N k)) = 100).
  { rewrite N2Z.inj_mul, mult_IZR. assert (1 <= IZR (Z.of_N n)) by (apply IZR_le; lia). assert (1 <= IZR (Z.of_N k)) by (apply IZR_le; lia). field. lra. }
  rewrite X in E. destruct (f32_of_f64_real _ F) as [F' [_ R']].
  { rewrite E. pose proof (Raux.Rabs_le_inv _ _ Hd) as Hd'. pose proof ulp64_val as U. rewrite Rabs_pos_eq by (apply Rmult_le_pos; lra). apply Rle_trans with (bpow radix2 10); [change (bpow radix2 10) with 1024; lra|apply bpow_le; lia]. }
  split; [exact F'|]. unfold v. rewrite R', E. apply rnd_hundred, Hd.
Qed.

(** ** The recall tool on loaded files *)
Lemma recall_full : forall g g' truth results n dg gold gd dr ids rd' k, load_truthset g truth = Ok (n, dg, gold, Some gd) -> load_truthset g' results = Ok (n, dr, ids, rd') ->
  N.of_nat (length gold) = (dg * n)%N -> N.of_nat (length gd) = (dg * n)%N -> N.of_nat (length ids) = (dr * n)%N -> (forall x, In x gd -> is_nan (f32_of_bits x) = false) ->
  (1 <= n < 2 ^ 32)%N -> (1 <= k < 2 ^ 32)%N -> (k <= dg)%N -> (k <= dr)%N -> (n * k <= 2 ^ 53)%N ->
  (forall j tb, (j < N.to_nat n)%nat -> tie_end (map f32_of_bits gd) dg (N.of_nat j) k tb -> incl (prefix ids dr (N.of_nat j) k) (prefix gold dg (N.of_nat j) tb)) ->
  (forall j, (j < N.to_nat n)%nat -> NoDup (prefix ids dr (N.of_nat j) k) /\ length (prefix ids dr (N.of_nat j) k) = N.to_nat k) ->
  exists v, recall_tool g g' truth results k = Ok (Some v) /\ finite v /\ real v = 100.
Proof.
  intros g g' truth results n dg gold gd dr ids rd' k H1 H2 Lg Ld Lr Nan Hn Hk Kg Kr NK Inc ND.
  destruct (recall_ok gold (Some (map f32_of_bits gd)) dg ids dr k n) as [hs [Eh [Lh Hh]]].
  { unfold matrices_ok. repeat split; try lia; [rewrite map_length; lia|]. intros x Hx. apply in_map_iff in Hx. destruct Hx as [y [<- Hy]]. now apply Nan. }
  exists (f32_of_f64 (recall_percent (n * k) n k)). split; [|apply percent_full; auto].
  unfold recall_tool. rewrite H1, H2. cbn [bind]. rewrite N.eqb_refl. cbn [negb]. destruct (N.ltb_spec dr k); [lia|]. destruct (N.ltb_spec dg k); [lia|]. cbn [orb option_map]. rewrite Eh. cbn [bind].
  rewrite (all_sum (N.to_nat k)).
  { rewrite Lh. do 4 f_equal. lia. }
  intros j h E. destruct (Hh j h E) as [_ [tb [Tt [l [Nl [Il ->]]]]]]. assert (Hj : (j < N.to_nat n)%nat) by (rewrite <- Lh; apply nth_error_Some; congruence).
  destruct (ND j Hj) as [Nd Ln]. rewrite <- Ln. apply Permutation_length, NoDup_Permutation; auto. intros x. rewrite Il. split; [tauto|]. intros Hx. split; [apply (Inc j tb Hj Tt), Hx|exact Hx].
Qed.

Lemma dec_all_length : forall k cnt l, length (dec_all k cnt l) = cnt.
Proof. intros k cnt. induction cnt as [|cnt IH]; intros l; cbn; auto. Qed.

Lemma loaded_lengths : forall g f n d ids ds, load_truthset g f = Ok (n, d, ids, ds) -> N.of_nat (length ids) = (d * n)%N /\ match ds with Some l => N.of_nat (length l) = (d * n)%N | None => True end.
Proof.
  intros g f n d ids ds H. unfold load_truthset in H. destruct (take g 4 (copen f blk)) as [r1| | | |]; try discriminate. cbn [bind] in H. destruct (take g 4 (snd r1)) as [r2| | | |]; try discriminate. cbn [bind] in H.
  set (t := if (_ =? _)%N then 2%N else _) in H. destruct (t =? 0)%N; [discriminate|]. destruct (_ <=? _)%N; [discriminate|]. destruct (take g _ (snd r2)) as [r3| | | |]; try discriminate. cbn [bind] in H. destruct (t =? 1)%N.
  - destruct (take g _ (snd r3)) as [r4| | | |]; try discriminate. cbn [bind] in H. injection H as <- <- <- <-. rewrite !dec_all_length. lia.
  - injection H as <- <- <- <-. rewrite !dec_all_length. lia.
Qed.
