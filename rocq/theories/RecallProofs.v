(** * Lemmas about recall. *)
From Coq Require Import Arith NArith ZArith List Bool Lia Floats.SpecFloat.
From Verif Require Import Base Float32 RecallModel RecallSpec.
Import ListNotations.
Local Open Scope N_scope.

Lemma mem_In : forall x l, mem x l = true <-> In x l.
Proof.
  intros x l. unfold mem. rewrite existsb_exists. split.
  - intros [y [H E]]. apply N.eqb_eq in E. now subst.
  - intros H. exists x. split; [auto|apply N.eqb_refl].
Qed.

Lemma dedup_In : forall l x, In x (dedup l) <-> In x l.
Proof.
  induction l as [|y l IH]; intros x; [reflexivity|]. cbn [dedup]. destruct (mem y l) eqn:E.
  - rewrite IH. split; [now right|]. intros [<-|H]; [now apply mem_In|auto].
  - cbn [In]. now rewrite IH.
Qed.

Lemma dedup_NoDup : forall l, NoDup (dedup l).
Proof.
  induction l as [|y l IH]; [constructor|]. cbn [dedup]. destruct (mem y l) eqn:E; [auto|]. constructor; [|auto].
  rewrite dedup_In. intros H. apply mem_In in H. congruence.
Qed.

Lemma hits_common : forall gt rs, common gt rs (hits gt rs).
Proof.
  intros gt rs. exists (filter (fun v => mem v (dedup rs)) (dedup gt)). split; [apply NoDup_filter, dedup_NoDup|]. split; [|reflexivity].
  intros x. rewrite filter_In, mem_In, !dedup_In. tauto.
Qed.

Lemma common_unique : forall a b c c', common a b c -> common a b c' -> c = c'.
Proof.
  intros a b c c' [l [N1 [H1 ->]]] [l' [N2 [H2 ->]]]. apply Nat.le_antisymm; apply NoDup_incl_length; auto; intros x Hx; [apply H2, H1|apply H1, H2]; auto.
Qed.

Lemma common_bound : forall a b c, common a b c -> (c <= length a)%nat /\ (c <= length b)%nat.
Proof. intros a b c [l [ND [H ->]]]. split; apply NoDup_incl_length; auto; intros x Hx; apply H in Hx; tauto. Qed.

Lemma at_ok : forall (m : list f32) i, i < N.of_nat (length m) -> at_ m i = Ok (nth (N.to_nat i) m f32_zero).
Proof.
  intros m i H. unfold at_. rewrite (proj2 (N.ltb_lt _ _)) by auto. apply rd_ok. apply nth_error_nth'. lia.
Qed.

Lemma range_ok : forall (A : Type) (m : list A) off cnt, off + cnt <= N.of_nat (length m) ->
  range m off cnt = Ok (firstn (N.to_nat cnt) (skipn (N.to_nat off) m)).
Proof. intros A m off cnt H. unfold range. now rewrite (proj2 (N.leb_le _ _)). Qed.

Lemma ties_ok : forall dists dim i recall_at, dim * i + dim <= N.of_nat (length dists) -> 1 <= recall_at <= dim ->
  forall fuel tb, dim <= tb + N.of_nat fuel -> recall_at <= tb <= dim ->
  (forall j, recall_at <= j < tb -> feq (entry dists dim i j) (entry dists dim i (recall_at - 1)) = true) ->
  exists tb', ties fuel dists (dim * i) dim (recall_at - 1) tb = Ok tb' /\ tie_end dists dim i recall_at tb'.
Proof.
  intros dists dim i recall_at HL Hr. induction fuel as [|fuel IH]; intros tb Hf Ht Hj; cbn [ties].
  - exists tb. split; [auto|]. split; [lia|]. split; [auto|lia].
  - destruct (tb <? dim) eqn:E.
    + apply N.ltb_lt in E. rewrite !at_ok by lia. cbn [bind]. fold (entry dists dim i tb) (entry dists dim i (recall_at - 1)).
      destruct (feq (entry dists dim i tb) (entry dists dim i (recall_at - 1))) eqn:Ef.
      * apply IH; [lia|lia|]. intros j Hj1. destruct (N.eq_dec j tb) as [->|Hne]; [auto|apply Hj; lia].
      * exists tb. split; [auto|]. split; [lia|]. split; auto.
    + apply N.ltb_ge in E. exists tb. split; [auto|]. split; [lia|]. split; [auto|lia].
Qed.

Lemma feq_refl : forall x, is_nan x = false -> feq x x = true.
Proof.
  intros [s|s| |s m e] H; try discriminate; try reflexivity; try (destruct s; reflexivity).
  unfold feq, SFeqb, SFcompare. destruct s; rewrite Z.compare_refl, Pos.compare_cont_refl; reflexivity.
Qed.

Lemma row_bound : forall dim nq i, i < nq -> dim * i + dim <= dim * nq.
Proof. intros dim nq i H. replace (dim * i + dim) with (dim * (i + 1)) by lia. apply N.mul_le_mono_l. lia. Qed.

Lemma recall_query_ok : forall gold dists dim_gs results dim_or recall_at nq i, matrices_ok gold dists dim_gs results dim_or recall_at nq -> i < nq ->
  exists h tb, recall_query gold dists dim_gs results dim_or recall_at i = Ok h /\ truth_taken dists dim_gs recall_at i tb /\
    common (prefix gold dim_gs i tb) (prefix results dim_or i recall_at) h /\ (h <= N.to_nat recall_at)%nat.
Proof.
  intros gold dists dim_gs results dim_or recall_at nq i (H1 & H2 & H3 & H4 & HG & HR & HD) Hi.
  pose proof (row_bound dim_gs nq i Hi) as B1. pose proof (row_bound dim_or nq i Hi) as B2.
  assert (X : forall tb, recall_at <= tb <= dim_gs -> exists h, (do gt <- range gold (dim_gs * i) tb; do rs <- range results (dim_or * i) recall_at; Ok (hits gt rs)) = Ok h /\
            common (prefix gold dim_gs i tb) (prefix results dim_or i recall_at) h /\ (h <= N.to_nat recall_at)%nat).
  { intros tb Htb. rewrite range_ok by lia. cbn [bind]. rewrite range_ok by lia. cbn [bind]. eexists. split; [reflexivity|].
    fold (prefix gold dim_gs i tb) (prefix results dim_or i recall_at).
    pose proof (hits_common (prefix gold dim_gs i tb) (prefix results dim_or i recall_at)) as C. split; [auto|].
    apply common_bound in C. destruct C as [_ C]. eapply Nat.le_trans; [exact C|]. unfold prefix. rewrite firstn_length. lia. }
  unfold recall_query. destruct dists as [d|].
  - destruct HD as [HD Hnan].
    assert (Es : sub32 recall_at 1 = recall_at - 1).
    { unfold sub32. replace (recall_at + 4294967296 - 1) with ((recall_at - 1) + 1 * 4294967296) by lia. rewrite N.mod_add by discriminate. apply N.mod_small. lia. }
    rewrite Es. cbn zeta. destruct (N.to_nat dim_gs) as [|fuel] eqn:Ef; [lia|]. cbn [ties]. rewrite (proj2 (N.ltb_lt _ _)) by lia. rewrite at_ok by lia. cbn [bind].
    rewrite feq_refl by (apply Hnan, nth_In; lia). replace (recall_at - 1 + 1) with recall_at by lia.
    destruct (ties_ok d dim_gs i recall_at ltac:(lia) ltac:(lia) fuel recall_at) as [tb [-> T]]; [lia|lia|intros; lia|].
    cbn [bind]. destruct (X tb) as [h [E [C B]]]; [apply T|]. exists h, tb. auto.
  - cbn [bind]. destruct (X recall_at) as [h [E [C B]]]; [lia|]. exists h, recall_at. split; [auto|]. split; [reflexivity|auto].
Qed.

Lemma recall_hits_ok : forall gold dists dim_gs results dim_or recall_at nq, matrices_ok gold dists dim_gs results dim_or recall_at nq ->
  forall cnt i, i + N.of_nat cnt <= nq ->
  exists hs, recall_hits gold dists dim_gs results dim_or recall_at cnt i = Ok hs /\ length hs = cnt /\
    forall j h, nth_error hs j = Some h -> (h <= N.to_nat recall_at)%nat /\
      exists tb, truth_taken dists dim_gs recall_at (i + N.of_nat j) tb /\ common (prefix gold dim_gs (i + N.of_nat j) tb) (prefix results dim_or (i + N.of_nat j) recall_at) h.
Proof.
  intros gold dists dim_gs results dim_or recall_at nq M. induction cnt as [|cnt IH]; intros i Hi; cbn [recall_hits].
  - exists []. split; [auto|]. split; [auto|]. intros [|j]; discriminate.
  - destruct (recall_query_ok gold dists dim_gs results dim_or recall_at nq i M) as [h [tb [-> [T [C B]]]]]; [lia|]. cbn [bind].
    destruct (IH (i + 1)) as [hs [-> [L H]]]; [lia|]. cbn [bind]. exists (h :: hs). split; [auto|]. split; [cbn; lia|].
    intros [|j] h' Hj; cbn [nth_error] in Hj.
    + injection Hj as <-. split; [auto|]. exists tb. rewrite N.add_0_r. auto.
    + specialize (H j h' Hj). replace (i + N.of_nat (S j)) with (i + 1 + N.of_nat j) by lia. exact H.
Qed.

Lemma recall_ok : forall gold dists dim_gs results dim_or recall_at nq, matrices_ok gold dists dim_gs results dim_or recall_at nq ->
  exists hs, recall_hits gold dists dim_gs results dim_or recall_at (N.to_nat nq) 0 = Ok hs /\ length hs = N.to_nat nq /\
    forall j h, nth_error hs j = Some h -> (h <= N.to_nat recall_at)%nat /\
      exists tb, truth_taken dists dim_gs recall_at (N.of_nat j) tb /\ common (prefix gold dim_gs (N.of_nat j) tb) (prefix results dim_or (N.of_nat j) recall_at) h.
Proof.
  intros gold dists dim_gs results dim_or recall_at nq M. destruct (recall_hits_ok gold dists dim_gs results dim_or recall_at nq M (N.to_nat nq) 0) as [hs H]; [lia|].
  exists hs. exact H.
Qed.

(** recall_at beyond the columns of the last query's ground truth or results. *)
Lemma recall_past_end : forall gold dim_gs results dim_or recall_at nq, 1 <= nq -> N.of_nat (length gold) = dim_gs * nq -> N.of_nat (length results) = dim_or * nq ->
  dim_gs < recall_at \/ dim_or < recall_at ->
  recall_hits gold None dim_gs results dim_or recall_at (N.to_nat nq) 0 = UB.
Proof.
  intros gold dim_gs results dim_or recall_at nq Hq HG HR Hbig.
  assert (X : forall cnt i, i + N.of_nat (S cnt) = nq -> recall_hits gold None dim_gs results dim_or recall_at (S cnt) i = UB).
  { induction cnt as [|cnt IH]; intros i Hi.
    - cbn [recall_hits]. unfold recall_query. cbn [bind]. assert (Ei : i + 1 = nq) by lia.
      assert (E1 : dim_gs * nq = dim_gs * i + dim_gs) by (rewrite <- Ei; lia). assert (E2 : dim_or * nq = dim_or * i + dim_or) by (rewrite <- Ei; lia).
      unfold range. rewrite HG, HR, E1, E2.
      destruct (dim_gs * i + recall_at <=? dim_gs * i + dim_gs) eqn:A; [|reflexivity]. apply N.leb_le in A. cbn [bind].
      destruct (dim_or * i + recall_at <=? dim_or * i + dim_or) eqn:B; [|reflexivity]. apply N.leb_le in B. lia.
    - cbn [recall_hits]. destruct (recall_query gold None dim_gs results dim_or recall_at i) eqn:Eq; cbn [bind]; auto.
      + change (match cnt with O => _ | S _ => _ end) with (recall_hits gold None dim_gs results dim_or recall_at cnt (i + 1 + 1)).
        pose proof (IH (i + 1)) as Y. cbn [recall_hits] in Y. rewrite Y by lia. reflexivity.
      + unfold recall_query, range in Eq. cbn [bind] in Eq. destruct (_ <=? _); [cbn [bind] in Eq; destruct (_ <=? _); discriminate|discriminate].
      + unfold recall_query, range in Eq. cbn [bind] in Eq. destruct (_ <=? _); [cbn [bind] in Eq; destruct (_ <=? _); discriminate|discriminate].
      + unfold recall_query, range in Eq. cbn [bind] in Eq. destruct (_ <=? _); [cbn [bind] in Eq; destruct (_ <=? _); discriminate|discriminate]. }
  destruct (N.to_nat nq) as [|c] eqn:E; [lia|]. apply X. lia.
Qed.

(** recall_at = 0 with distances reads 2^32 - 1 ground truth ids. *)
Lemma recall_zero : forall gold d dim_gs results dim_or nq, 1 <= nq -> N.of_nat (length gold) < 4294967295 -> dim_gs < 4294967296 ->
  recall_hits gold (Some d) dim_gs results dim_or 0 (N.to_nat nq) 0 = UB.
Proof.
  intros gold d dim_gs results dim_or nq Hq HG HD. destruct (N.to_nat nq) as [|c] eqn:E; [lia|]. cbn [recall_hits]. unfold recall_query.
  change (sub32 0 1) with 4294967295. cbn zeta. assert (Et : ties (N.to_nat dim_gs) d (dim_gs * 0) dim_gs 4294967295 4294967295 = Ok 4294967295).
  { destruct (N.to_nat dim_gs); [reflexivity|]. cbn [ties]. rewrite (proj2 (N.ltb_ge _ _)) by lia. reflexivity. }
  rewrite Et. cbn [bind]. unfold range. rewrite (proj2 (N.leb_gt _ _)) by lia. reflexivity.
Qed.

Lemma range_hits_ok : forall groundtruth results cnt i, (i + cnt <= length groundtruth)%nat -> (i + cnt <= length results)%nat ->
  exists hs, range_hits groundtruth results cnt i = Ok hs /\ length hs = cnt /\
    forall j h g, nth_error hs j = Some (h, g) -> exists gt rs, nth_error groundtruth (i + j) = Some gt /\ nth_error results (i + j) = Some rs /\
      common gt rs h /\ common gt gt g /\ (h <= g)%nat.
Proof.
  intros groundtruth results. induction cnt as [|cnt IH]; intros i Hg Hr; cbn [range_hits].
  - exists []. split; [auto|]. split; [auto|]. intros [|j]; discriminate.
  - destruct (rd_lt _ groundtruth i) as [gt Eg]; [lia|]. destruct (rd_lt _ results i) as [rs Er]; [lia|]. rewrite Eg, Er. cbn [bind].
    apply rd_ok in Eg. apply rd_ok in Er. destruct (IH (S i)) as [hs [-> [L H]]]; [lia|lia|]. cbn [bind]. eexists. split; [reflexivity|]. split; [cbn; lia|].
    intros [|j] h g Hj; cbn [nth_error] in Hj.
    + injection Hj as <- <-. exists gt, rs. rewrite Nat.add_0_r. split; [auto|]. split; [auto|]. split; [apply hits_common|]. split.
      * exists (dedup gt). split; [apply dedup_NoDup|]. split; [intros x; rewrite dedup_In; tauto|reflexivity].
      * unfold hits. clear. induction (dedup gt) as [|x l IH]; cbn; [lia|]. destruct (mem x (dedup rs)); cbn; lia.
    + specialize (H j h g Hj). replace (i + S j)%nat with (S i + j)%nat by lia. exact H.
Qed.
