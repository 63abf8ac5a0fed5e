(** * Lemmas about the ground truth computation: parts and merging. *)
From Coq Require Import List Arith Bool Lia Sorting.Sorted Sorting.Permutation Floats.SpecFloat.
From Verif Require Import Base Float32 TopKSpec ListLemmas ClosestModel ClosestProofs HeapSpec GtModel GtSpec GtProofs.
Import ListNotations.

(** What is left out of [r] has [k] elements of [r] at most as far. *)
Definition covers (k : nat) (r all : list (nat * f32)) : Prop :=
  exists rest : list (nat * f32), Permutation all (r ++ rest) /\
    forall y, In y rest -> k <= length (filter (fun z => fle (snd z) (snd y)) r).

Lemma covers_le : forall k k' r all, k' <= k -> covers k r all -> covers k' r all.
Proof. intros k k' r all H [rest [P C]]. exists rest. split; [auto|]. intros y Hy. specialize (C y Hy). lia. Qed.

Lemma covers_app : forall k r1 all1 r2 all2, covers k r1 all1 -> covers k r2 all2 -> covers k (r1 ++ r2) (all1 ++ all2).
Proof.
  intros k r1 all1 r2 all2 [s1 [P1 C1]] [s2 [P2 C2]]. exists (s1 ++ s2). split.
  - rewrite P1, P2. rewrite <- !app_assoc. apply Permutation_app_head. rewrite !app_assoc. apply Permutation_app_tail. apply Permutation_app_comm.
  - intros y Hy. rewrite filter_app, app_length. apply in_app_iff in Hy. destruct Hy as [Hy|Hy]; [specialize (C1 y Hy)|specialize (C2 y Hy)]; lia.
Qed.

Lemma filter_all : forall (A : Type) (f : A -> bool) l, (forall x, In x l -> f x = true) -> filter f l = l.
Proof. intros A f. induction l as [|x l IH]; intros H; [auto|]. cbn. rewrite (H x) by (now left). f_equal. apply IH. intros; apply H; now right. Qed.

Lemma filter_none : forall (A : Type) (f : A -> bool) l, (forall x, In x l -> f x = false) -> filter f l = [].
Proof. intros A f. induction l as [|x l IH]; intros H; [auto|]. cbn. rewrite (H x) by (now left). apply IH. intros; apply H; now right. Qed.

Lemma filter_length_le : forall (A : Type) (f : A -> bool) l, length (filter f l) <= length l.
Proof. intros A f. induction l as [|x l IH]; cbn; [lia|]. destruct (f x); cbn; lia. Qed.

Definition shift (start : nat) (x : nat * f32) : nat * f32 := (fst x + start, snd x).

Lemma seq_map_add : forall n s, seq s n = map (fun j => j + s) (seq 0 n).
Proof. induction n as [|n IH]; intros s; [auto|]. rewrite !seq_S, map_app, <- IH. cbn. f_equal. f_equal. lia. Qed.

Lemma shift_score : forall row start n, map (shift start) (score (fun j => row (start + j)) (seq 0 n)) = score row (seq start n).
Proof.
  intros row start n. rewrite (seq_map_add n start). unfold score. rewrite !map_map. apply map_ext. intros j. unfold shift. cbn. now rewrite Nat.add_comm.
Qed.

Lemma top_covers : forall k row start n out, is_top_k k (score (fun j => row (start + j)) (seq 0 n)) out -> length out = k ->
  covers k (map (shift start) out) (score row (seq start n)).
Proof.
  intros k row start n out [rest [P [_ [_ H]]]] HL. exists (map (shift start) rest). split.
  - rewrite <- shift_score, <- map_app. now apply Permutation_map.
  - intros y Hy. apply in_map_iff in Hy. destruct Hy as [y' [<- Hy]]. rewrite filter_all.
    + rewrite map_length. apply Nat.eq_le_incl. now symmetry.
    + intros x Hx. apply in_map_iff in Hx. destruct Hx as [x' [<- Hx]]. cbn. now apply H.
Qed.

Lemma gather_nth : forall k start part results i j, nth_error (gather k start part i results) j = option_map (gather_one k start part (i + j)) (nth_error results j).
Proof.
  intros k start part. induction results as [|r t IH]; intros i j; cbn [gather]; [now destruct j|].
  destruct j as [|j]; cbn [nth_error option_map]; [now rewrite Nat.add_0_r|]. rewrite IH. now rewrite Nat.add_succ_comm.
Qed.

Lemma gather_length : forall k start part results i, length (gather k start part i results) = length results.
Proof. intros k start part. induction results as [|r t IH]; intros i; cbn; auto. Qed.

Lemma gt_parts_ok : forall pushf takef bs ps n nq dmat orders, heap_ok pushf takef -> (forall q p, is_nan (dmat q p) = false) -> 1 <= bs -> 1 <= ps ->
  (forall p, batch_orders nq bs (orders p)) ->
  forall cnt p k results, 1 <= k -> length results = nq -> (cnt = 0 \/ (p + cnt - 1) * ps < n) ->
  (forall i r, nth_error results i = Some r -> covers k r (score (dmat i) (seq 0 (min n (p * ps)))) /\ (p = 0 \/ k <= length r)) ->
  exists k' results', gt_parts pushf takef bs ps n nq dmat orders p cnt k results = Ok (k', results') /\ length results' = nq /\
    k' = (if cnt =? 0 then k else min k (min ps (n - (p + cnt - 1) * ps))) /\ 1 <= k' /\
    (forall i r, nth_error results' i = Some r -> covers k' r (score (dmat i) (seq 0 (min n ((p + cnt) * ps)))) /\ (p + cnt = 0 \/ k' <= length r)).
Proof.
  intros pushf takef bs ps n nq dmat orders HO Hn Hbs Hps Hord. induction cnt as [|cnt IH]; intros p k results Hk HL Hp HR; cbn [gt_parts].
  - exists k, results. rewrite !Nat.add_0_r. cbn. auto.
  - destruct Hp as [Hp|Hp]; [discriminate|]. set (start := p * ps). set (np := min ps (n - start)).
    assert (Hst : start < n) by (unfold start; nia). assert (Hnp : 1 <= np) by (unfold np; lia).
    set (k1 := if np <=? k then np else k). assert (Ek1 : k1 = min k np) by (unfold k1; destruct (np <=? k) eqn:E; [apply Nat.leb_le in E|apply Nat.leb_gt in E]; lia).
    destruct (exact_knn_ok pushf takef bs k1 np nq (fun q j => dmat q (start + j)) (orders p) (repeat (0, S754_nan) (nq * k1)) HO) as [part [-> [LP TP]]]; auto; try lia.
    { apply repeat_length. }
    cbn [bind]. destruct (IH (S p) k1 (gather k1 start part 0 results)) as (k' & results' & E & L' & Ek' & Hk' & HR').
    + lia.
    + now rewrite gather_length.
    + destruct cnt; [now left|right]. replace (S p + S cnt - 1) with (p + S (S cnt) - 1) by lia. exact Hp.
    + intros i r Hi. rewrite gather_nth in Hi. cbn [plus] in Hi. destruct (nth_error results i) as [r0|] eqn:E0; [|discriminate].
      assert (Er : r = gather_one k1 start part i r0) by (cbn [option_map] in Hi; congruence). subst r.
      assert (Hi' : i < nq) by (rewrite <- HL; apply nth_error_Some; congruence).
      destruct (HR i r0 E0) as [C0 _]. destruct (TP i Hi') as [T1 T2]. unfold gather_one.
      change (map (fun x : nat * f32 => (fst x + start, snd x)) (firstn k1 (skipn (i * k1) part))) with (map (shift start) (row_of k1 i part)).
      split.
      * assert (Es : min n (S p * ps) = start + np) by (unfold start, np; nia). assert (Es0 : min n (p * ps) = start) by (unfold start in *; lia).
        rewrite Es, seq_app, score_app. rewrite Es0 in C0. apply covers_app; [apply (covers_le k); [lia|auto]|]. now apply (top_covers k1 (dmat i)).
      * right. rewrite app_length, map_length. change (length (row_of k1 i part) = k1) in T2. lia.
    + exists k', results'. split; [exact E|]. split; [auto|]. split.
      * rewrite Ek', Ek1. cbn [Nat.eqb]. destruct cnt as [|cnt]; cbn [Nat.eqb].
        -- replace (p + 1 - 1) with p by lia. fold start. reflexivity.
        -- replace (S p + S cnt - 1) with (p + S (S cnt) - 1) by lia. set (z := n - (p + S (S cnt) - 1) * ps).
           assert (z <= n - start) by (unfold z, start; nia). unfold np. lia.
      * split; [auto|]. intros i r Hi. destruct (HR' i r Hi) as [A B]. replace (p + S cnt) with (S p + cnt) by lia. split; [exact A|]. right. destruct B as [B|B]; [discriminate|exact B].
Qed.

Lemma gt_copy_ok : forall k i r cnt j out, j + cnt <= length r -> i * k + j + cnt <= length out ->
  exists out', gt_copy k i j cnt r out = Ok out' /\ length out' = length out /\
    (forall x, j <= x -> x < j + cnt -> nth_error out' (i * k + x) = nth_error r x) /\
    (forall x, x < i * k + j \/ i * k + j + cnt <= x -> nth_error out' x = nth_error out x).
Proof.
  intros k i r. induction cnt as [|cnt IH]; intros j out Hr Ho; cbn [gt_copy].
  - exists out. split; [auto|]. split; [auto|]. split; [intros; lia|auto].
  - destruct (rd_lt _ r j) as [x Ex]; [lia|]. rewrite Ex. cbn [bind]. apply rd_ok in Ex.
    destruct (wr_nth _ out (i * k + j) x) as [o1 [E1 [L1 N1]]]; [lia|]. rewrite E1. cbn [bind].
    destruct (IH (S j) o1) as [out' [E [L [A B]]]]; [lia|lia|]. exists out'. split; [auto|]. split; [congruence|]. split.
    + intros y H1 H2. destruct (Nat.eq_dec y j) as [->|Hne]; [|apply A; lia]. rewrite B by lia. rewrite N1. destruct (Nat.eq_dec (i * k + j) (i * k + j)); congruence.
    + intros y Hy. rewrite B by lia. rewrite N1. destruct (Nat.eq_dec y (i * k + j)); [lia|auto].
Qed.

Lemma gt_merge_ok : forall sortf k results i out, (forall r, In r results -> k <= length (sortf r)) -> (i + length results) * k <= length out ->
  exists out', gt_merge sortf k i results out = Ok out' /\ length out' = length out /\
    (forall j r, nth_error results j = Some r -> row_of k (i + j) out' = firstn k (sortf r)) /\
    (forall x, x < i * k -> nth_error out' x = nth_error out x).
Proof.
  intros sortf k. induction results as [|r t IH]; intros i out Hr Ho; cbn [gt_merge].
  - exists out. split; [auto|]. split; [auto|]. split; [intros [|j]; discriminate|auto].
  - cbn [length] in Ho. destruct (gt_copy_ok k i (sortf r) k 0 out) as [o1 [-> [L1 [A1 B1]]]]; [specialize (Hr r (or_introl eq_refl)); lia|nia|]. cbn [bind].
    destruct (IH (S i) o1) as [out' [-> [L [A B]]]]; [intros; apply Hr; now right|nia|]. exists out'. split; [auto|]. split; [congruence|]. split.
    + intros [|j] r0 Hj; [|replace (i + S j) with (S i + j) by lia; now apply A]. cbn in Hj. injection Hj as ->. rewrite Nat.add_0_r.
      apply nth_error_ext2. intros x. rewrite nth_error_row. destruct (x <? k) eqn:E.
      * apply Nat.ltb_lt in E. rewrite B by nia. rewrite A1 by lia. now rewrite nth_error_firstn_lt.
      * apply Nat.ltb_ge in E. symmetry. apply nth_error_None. rewrite firstn_length. lia.
    + intros x Hx. rewrite B by nia. apply B1. lia.
Qed.

Lemma covers_top : forall sortf k r all, sorts_pairs sortf -> (forall z, In z all -> is_nan (snd z) = false) -> covers k r all -> k <= length r ->
  is_top_k k all (firstn k (sortf r)).
Proof.
  intros sortf k r all Hs Hn [rest [P C]] HL.
  assert (Hnr : forall z, In z r -> is_nan (snd z) = false) by (intros z Hz; apply Hn; apply (Permutation_in _ (Permutation_sym P)); apply in_app_iff; auto).
  destruct (Hs r Hnr) as [Pr Sr]. set (l := sortf r) in *.
  assert (Ll : length l = length r) by (now rewrite (Permutation_length Pr)).
  exists (skipn k l ++ rest). split; [|split; [|split]].
  - rewrite app_assoc, firstn_skipn, <- Pr. exact P.
  - assert (La : length all = length r + length rest) by (apply Permutation_length in P; rewrite P; apply app_length).
    transitivity k; [|symmetry; apply Nat.min_l; change (k <= @length (nat * f32) all); lia]. change (@length (nat * f32) (firstn k l) = k). rewrite firstn_length. lia.
  - clear -Sr. revert k. induction l as [|x l IH]; intros [|k]; cbn [firstn]; try constructor; apply StronglySorted_inv in Sr; destruct Sr as [S1 S2]; [now apply IH|].
    rewrite Forall_forall in *. intros z Hz. apply S2. rewrite <- (firstn_skipn k l). apply in_app_iff. now left.
  - intros x y Hx Hy. apply in_app_iff in Hy. destruct Hy as [Hy|Hy].
    + rewrite <- (firstn_skipn k l) in Sr. clear -Sr Hx Hy. induction (firstn k l) as [|a m IH]; [destruct Hx|]. cbn in Sr. apply StronglySorted_inv in Sr.
      destruct Sr as [S1 S2]. destruct Hx as [->|Hx]; [|now apply IH]. rewrite Forall_forall in S2. apply S2. apply in_app_iff. now right.
    + specialize (C y Hy). unfold no_farther. destruct (fle (snd x) (snd y)) eqn:E; [auto|exfalso].
      apply in_split in Hx. destruct Hx as [a [b Eab]].
      assert (El : l = a ++ x :: (b ++ skipn k l)) by (rewrite <- (firstn_skipn k l) at 1; rewrite Eab, <- app_assoc; reflexivity).
      assert (Len : length (filter (fun z => fle (snd z) (snd y)) l) = length (filter (fun z => fle (snd z) (snd y)) r)).
      { apply Permutation_length. apply Permutation_filter. now symmetry. }
      rewrite <- Len, El, filter_app, app_length in C. rewrite (filter_none _ _ (x :: b ++ skipn k l)) in C.
      * cbn [length] in C. pose proof (filter_length_le _ (fun z : nat * f32 => fle (snd z) (snd y)) a) as F.
        assert (La : length a + 1 <= k).
        { assert (X : length (firstn k l) <= k) by (rewrite firstn_length; lia). rewrite Eab, app_length in X. cbn in X. lia. }
        unfold scored in *. lia.
      * rewrite El in Sr. clear -Sr E. induction a as [|c a IH]; [|cbn in Sr; apply StronglySorted_inv in Sr; now apply IH].
        cbn [app] in Sr. apply StronglySorted_inv in Sr. destruct Sr as [_ S2]. rewrite Forall_forall in S2. intros z [<-|Hz]; [auto|].
        destruct (fle (snd z) (snd y)) eqn:Ez; [|auto]. rewrite (fle_trans _ _ _ (S2 z Hz) Ez) in E. discriminate.
Qed.

Lemma last_part_eq : forall n ps, 1 <= n -> 1 <= ps -> (n_blocks n ps - 1) * ps < n /\ min ps (n - (n_blocks n ps - 1) * ps) = last_part n ps /\ n <= n_blocks n ps * ps /\ 1 <= n_blocks n ps.
Proof.
  intros n ps Hn Hps. unfold n_blocks, last_part. pose proof (Nat.div_mod n ps ltac:(lia)) as D. pose proof (Nat.mod_upper_bound n ps ltac:(lia)) as M.
  destruct (n mod ps =? 0) eqn:E; [apply Nat.eqb_eq in E|apply Nat.eqb_neq in E].
  - assert (1 <= n / ps) by nia. split; [nia|]. split; [nia|]. split; nia.
  - replace (n / ps + 1 - 1) with (n / ps) by lia. split; [nia|]. split; [nia|]. split; nia.
Qed.

Lemma ground_truth_ok : forall pushf takef sortf bs ps n nq k dmat orders, heap_ok pushf takef -> sorts_pairs sortf ->
  (forall q p, is_nan (dmat q p) = false) -> 1 <= bs -> 1 <= ps -> 1 <= n -> 1 <= k -> (forall p, batch_orders nq bs (orders p)) ->
  exists out, ground_truth pushf takef sortf bs ps n nq k dmat orders = Ok (min k (last_part n ps), out) /\ length out = nq * k /\
    forall i, i < nq -> is_top_k (min k (last_part n ps)) (score (dmat i) (seq 0 n)) (row_of (min k (last_part n ps)) i out).
Proof.
  intros pushf takef sortf bs ps n nq k dmat orders HO Hs Hn Hbs Hps Hn1 Hk Hord. unfold ground_truth.
  destruct (last_part_eq n ps Hn1 Hps) as [B1 [B2 [B3 B4]]].
  destruct (gt_parts_ok pushf takef bs ps n nq dmat orders HO Hn Hbs Hps Hord (n_blocks n ps) 0 k (repeat [] nq)) as (k' & results & -> & L & Ek & Hk' & HR); auto.
  { apply repeat_length. }
  { intros i r Hi. apply nth_error_In in Hi. apply repeat_spec in Hi. subst r. split; [|now left].
    cbn [Nat.mul]. rewrite Nat.min_0_r. cbn. exists []. split; [constructor|intros y []]. }
  cbn [bind fst snd plus] in *. destruct (n_blocks n ps =? 0) eqn:E; [apply Nat.eqb_eq in E; lia|]. rewrite B2 in Ek. rewrite <- Ek.
  assert (HL : forall i r, nth_error results i = Some r -> k' <= length r) by (intros i r Hi; destruct (HR i r Hi) as [_ [X|X]]; [lia|exact X]).
  assert (Hnr : forall i r, nth_error results i = Some r -> forall z, In z r -> is_nan (snd z) = false).
  { intros i r Hi z Hz. destruct (HR i r Hi) as [[rest [P _]] _]. apply (score_nan (dmat i) (seq 0 (min n (n_blocks n ps * ps)))); [auto|].
    apply (Permutation_in _ (Permutation_sym P)). apply in_app_iff. now left. }
  assert (HLs : forall r, In r results -> k' <= length (sortf r)).
  { intros r Hr. apply In_nth_error in Hr. destruct Hr as [i Hi]. destruct (Hs r (Hnr i r Hi)) as [Pr _]. rewrite <- (Permutation_length Pr). eauto. }
  destruct (gt_merge_ok sortf k' results 0 (repeat (0, S754_nan) (nq * k)) HLs) as [out [-> [Lo [A _]]]].
  { rewrite repeat_length, L. cbn. nia. }
  cbn [bind]. exists out. split; [reflexivity|]. split; [rewrite Lo; apply repeat_length|].
  intros i Hi. destruct (nth_error results i) as [r|] eqn:Er; [|apply nth_error_None in Er; lia].
  pose proof (A i r Er) as X. cbn [plus] in X. rewrite X. destruct (HR i r Er) as [C _]. rewrite Nat.min_l in C by lia.
  apply covers_top; auto; [|eauto]. intros z Hz. now apply (score_nan (dmat i) (seq 0 n)).
Qed.
