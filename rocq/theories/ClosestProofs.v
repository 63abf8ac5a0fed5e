From Coq Require Import ZArith SpecFloat List Arith Lia Bool Sorting.Sorted Sorting.Permutation.
From Verif Require Import Base Float32 TopKSpec ListLemmas ClosestModel ClosestSpec.
Import ListNotations.

(** ** Negation reverses the order *)
Lemma fcompare_neg : forall x y, SFcompare (fneg x) (fneg y) = SFcompare y x.
Proof.
  intros [sx|sx| |sx mx ex] [sy|sy| |sy my ey]; try destruct sx; try destruct sy; try reflexivity.
  - unfold fneg, SFopp, SFcompare; cbn [negb]. rewrite (Z.compare_antisym ex ey). destruct (ex ?= ey)%Z; cbn [CompOpp]; auto.
    rewrite (Pos.compare_cont_antisym my mx Eq). cbn [CompOpp]. destruct (Pos.compare_cont Eq my mx); reflexivity.
  - unfold fneg, SFopp, SFcompare; cbn [negb]. rewrite (Z.compare_antisym ex ey). destruct (ex ?= ey)%Z; cbn [CompOpp]; auto.
    rewrite (Pos.compare_cont_antisym mx my Eq). reflexivity.
Qed.

Lemma fle_neg : forall x y, fle (fneg x) (fneg y) = fle y x.
Proof. intros x y. unfold fle, SFleb. rewrite fcompare_neg. reflexivity. Qed.

Lemma nan_neg : forall x, is_nan (fneg x) = is_nan x.
Proof. intros [| | |]; reflexivity. Qed.

(** ** One row *)
Lemma closest_one_none : forall row cnt j mn slot,
  (forall i, j <= i -> i < j + cnt -> flt (row i) mn = false) -> closest_one row j cnt mn slot = slot.
Proof.
  intros row cnt. induction cnt as [|cnt IH]; intros j mn slot H; cbn; auto.
  rewrite H by lia. apply IH. intros i H1 H2. apply H; lia.
Qed.

Lemma closest_one_found : forall row, (forall j, is_nan (row j) = false) ->
  forall cnt j c, c < j -> (forall i, i < j -> fle (row c) (row i) = true) ->
  (forall i, i < c -> flt (row c) (row i) = true) ->
  exists c', closest_one row j cnt (row c) (Some c) = Some c' /\ first_nearest row (j + cnt) c'.
Proof.
  intros row Hn cnt. induction cnt as [|cnt IH]; intros j c Hc Hle Hlt; cbn.
  - exists c. split; [auto|]. rewrite Nat.add_0_r. repeat split; auto.
  - destruct (flt (row j) (row c)) eqn:E.
    + destruct (IH (S j) j) as [c' [E1 E2]]; [lia| | |].
      * intros i Hi. destruct (Nat.eq_dec i j) as [->|]; [apply fle_refl; auto|].
        eapply fle_trans; [apply flt_fle; exact E|]. apply Hle. lia.
      * intros i Hi. eapply flt_fle_trans; [exact E|]. apply Hle. lia.
      * exists c'. split; [auto|]. rewrite Nat.add_succ_r. exact E2.
    + destruct (IH (S j) c) as [c' [E1 E2]]; [lia| |auto|].
      * intros i Hi. destruct (Nat.eq_dec i j) as [->|]; [apply flt_false_fle; auto|]. apply Hle. lia.
      * exists c'. split; [auto|]. rewrite Nat.add_succ_r. exact E2.
Qed.

Lemma closest_one_start : forall row, (forall j, is_nan (row j) = false) ->
  forall cnt j slot, (forall i, i < j -> flt (row i) FLT_MAX = false) ->
  (exists i, i < j + cnt /\ flt (row i) FLT_MAX = true) ->
  exists c, closest_one row j cnt FLT_MAX slot = Some c /\ first_nearest row (j + cnt) c.
Proof.
  intros row Hn cnt. induction cnt as [|cnt IH]; intros j slot Hb [i [Hi Hf]].
  - rewrite Hb in Hf by lia. discriminate.
  - cbn. destruct (flt (row j) FLT_MAX) eqn:E.
    + destruct (closest_one_found row Hn cnt (S j) j) as [c [E1 E2]]; [lia| | |].
      * intros x Hx. destruct (Nat.eq_dec x j) as [->|]; [apply fle_refl; auto|].
        eapply fle_trans; [apply flt_fle; exact E|]. apply flt_false_fle; auto. apply Hb. lia.
      * intros x Hx. eapply flt_fle_trans; [exact E|]. apply flt_false_fle; auto.
      * exists c. split; [auto|]. rewrite Nat.add_succ_r. exact E2.
    + destruct (IH (S j) slot) as [c [E1 E2]].
      * intros x Hx. destruct (Nat.eq_dec x j) as [->|]; [auto|]. apply Hb. lia.
      * exists i. split; [lia|auto].
      * exists c. split; [auto|]. rewrite Nat.add_succ_r. exact E2.
Qed.

Lemma closest_one_ok : forall row nc slot, (forall j, is_nan (row j) = false) ->
  (exists i, i < nc /\ flt (row i) FLT_MAX = true) ->
  exists c, closest_one row 0 nc FLT_MAX slot = Some c /\ first_nearest row nc c.
Proof. intros row nc slot Hn H. apply closest_one_start; auto. intros i Hi. lia. Qed.

Lemma first_nearest_unique : forall row nc c c', first_nearest row nc c -> first_nearest row nc c' -> c = c'.
Proof.
  intros row nc c c' [H1 [H2 H3]] [H1' [H2' H3']]. destruct (Nat.lt_trichotomy c c') as [L|[|L]]; auto; exfalso.
  - pose proof (H3' c L) as C. pose proof (flt_fle_trans _ _ _ C (H2 c' H1')) as D. rewrite flt_irrefl in D. discriminate.
  - pose proof (H3 c' L) as C. pose proof (flt_fle_trans _ _ _ C (H2' c H1)) as D. rewrite flt_irrefl in D. discriminate.
Qed.

Lemma first_nearest_top : forall row nc c, (forall j, is_nan (row j) = false) -> first_nearest row nc c ->
  is_top_k 1 (score row (seq 0 nc)) (score row [c]).
Proof.
  intros row nc c Hn [H1 [H2 _]]. assert (Hin : In c (seq 0 nc)) by (apply in_seq; lia).
  apply in_split in Hin. destruct Hin as [a [b E]]. exists (score row (a ++ b)). split; [|split; [|split]].
  - rewrite E. unfold score. rewrite !map_app. cbn. apply Permutation_sym. apply (Permutation_middle (map _ a) (map _ b)).
  - unfold score. rewrite !map_length, seq_length. cbn [length]. lia.
  - repeat constructor.
  - intros x y [<-|[]] Hy. unfold score in Hy. apply in_map_iff in Hy. destruct Hy as [j [<- Hj]]. unfold no_farther. cbn.
    apply H2. assert (In j (seq 0 nc)) as Hs by (rewrite E; apply in_app_or in Hj; apply in_or_app; cbn; tauto).
    apply in_seq in Hs. lia.
Qed.

Lemma top_firstn : forall row k l nc, Permutation (seq 0 nc) l -> (forall j, is_nan (row j) = false) ->
  StronglySorted (fun x y => fle (row x) (row y) = true) l ->
  is_top_k k (score row (seq 0 nc)) (score row (firstn k l)).
Proof.
  intros row k l nc P Hn Hs. exists (score row (skipn k l)). split; [|split; [|split]].
  - unfold score. rewrite <- map_app, firstn_skipn. apply Permutation_map. auto.
  - unfold score. rewrite !map_length, firstn_length, (Permutation_length P). auto.
  - clear P. revert k. induction Hs as [|x l Hs IH Hf]; intros k; destruct k as [|k]; cbn; try constructor; [apply IH|].
    rewrite Forall_forall in *. intros y Hy. unfold score in Hy. apply in_map_iff in Hy. destruct Hy as [z [<- Hz]].
    unfold no_farther. cbn. apply Hf. rewrite <- (firstn_skipn k l). apply in_or_app. auto.
  - intros x y Hx Hy. unfold score in *. apply in_map_iff in Hx. destruct Hx as [a [<- Ha]]. apply in_map_iff in Hy.
    destruct Hy as [b [<- Hb]]. unfold no_farther. cbn. clear P. revert k Ha Hb.
    induction Hs as [|z l Hs IH Hf]; intros k Ha Hb; destruct k as [|k]; try destruct Ha; cbn in *.
    + subst. rewrite Forall_forall in Hf. apply Hf. rewrite <- (firstn_skipn k l). apply in_or_app. auto.
    + eapply IH; eauto.
Qed.

Lemma closest_many_ok : forall popf row nc k, pops popf -> (forall j, is_nan (row j) = false) -> k <= nc ->
  length (closest_many popf row nc k) = k /\ NoDup (closest_many popf row nc k) /\
  (forall c, In c (closest_many popf row nc k) -> c < nc) /\
  is_top_k k (score row (seq 0 nc)) (score row (closest_many popf row nc k)).
Proof.
  intros popf row nc k Hp Hn Hk. unfold closest_many.
  destruct (Hp (map (fun j => (j, fneg (row j))) (seq 0 nc))) as [P S].
  { intros z Hz. apply in_map_iff in Hz. destruct Hz as [j [<- _]]. cbn. rewrite nan_neg. auto. }
  apply Permutation_sym in P. apply Permutation_map_inv in P. destruct P as [l [E P]]. rewrite E in *.
  assert (Em : map fst (firstn k (map (fun j => (j, fneg (row j))) l)) = firstn k l).
  { rewrite <- firstn_map, map_map. cbn. rewrite map_id. reflexivity. }
  rewrite Em. assert (Hl : length l = nc) by (rewrite <- (Permutation_length P); apply seq_length).
  split; [rewrite firstn_length; lia|]. split; [|split].
  - assert (NoDup l) by (eapply Permutation_NoDup; [exact P|apply seq_NoDup]).
    rewrite <- (firstn_skipn k l) in H. apply NoDup_app_l in H. auto.
  - intros c Hc. assert (In c l) as Hl' by (rewrite <- (firstn_skipn k l); apply in_or_app; auto).
    apply (Permutation_in _ (Permutation_sym P)) in Hl'. apply in_seq in Hl'. lia.
  - apply top_firstn; auto. clear - S. induction l as [|x l IH]; [constructor|]. cbn in S. inversion S as [|? ? S1 F]. subst.
    constructor; [auto|]. rewrite Forall_forall in *. intros y Hy.
    specialize (F (y, fneg (row y)) (in_map _ _ _ Hy)). cbn in F. rewrite fle_neg in F. auto.
Qed.

(** ** What one row yields *)
Definition nearest_ids (popf : list (nat * f32) -> list (nat * f32)) (row : nat -> f32) (nc k : nat) : list nat :=
  if k =? 1 then match closest_one row 0 nc FLT_MAX None with Some c => [c] | None => [] end
  else closest_many popf row nc k.

(** Rows on which the result is defined. *)
Definition row_ok (row : nat -> f32) (nc k : nat) : Prop :=
  (forall j, is_nan (row j) = false) /\ k <= nc /\ (k = 1 -> exists i, i < nc /\ flt (row i) FLT_MAX = true).

Lemma nearest_ids_ok : forall popf row nc k, pops popf -> row_ok row nc k ->
  length (nearest_ids popf row nc k) = k /\ NoDup (nearest_ids popf row nc k) /\
  (forall c, In c (nearest_ids popf row nc k) -> c < nc) /\
  is_top_k k (score row (seq 0 nc)) (score row (nearest_ids popf row nc k)) /\
  (k = 1 -> exists c, nearest_ids popf row nc k = [c] /\ first_nearest row nc c).
Proof.
  intros popf row nc k Hp [Hn [Hk H1]]. unfold nearest_ids. destruct (k =? 1) eqn:E.
  - apply Nat.eqb_eq in E. subst k. destruct (closest_one_ok row nc None Hn (H1 eq_refl)) as [c [-> Hc]].
    split; [auto|]. split; [repeat constructor; intros []|]. split; [intros x [<-|[]]; apply Hc|].
    split; [apply first_nearest_top; auto|]. intros _. exists c. auto.
  - apply Nat.eqb_neq in E. destruct (closest_many_ok popf row nc k Hp Hn Hk) as [A [B [C D]]].
    repeat (split; [solve [auto]|]). intros. congruence.
Qed.

Lemma nearest_one_slot : forall popf row nc slot, (forall j, is_nan (row j) = false) ->
  (exists i, i < nc /\ flt (row i) FLT_MAX = true) ->
  exists c, closest_one row 0 nc FLT_MAX slot = Some c /\ nearest_ids popf row nc 1 = [c].
Proof.
  intros popf row nc slot Hn H. destruct (closest_one_ok row nc slot Hn H) as [c [E Hc]].
  destruct (closest_one_ok row nc None Hn H) as [c' [E' Hc']]. exists c. split; [auto|].
  unfold nearest_ids. cbn [Nat.eqb]. rewrite E'. f_equal. eapply first_nearest_unique; eauto.
Qed.

Lemma write_ids_ok : forall ids closest off, off + length ids <= length closest ->
  exists closest', write_ids closest off ids = Ok closest' /\ length closest' = length closest /\
    (forall p, p < off \/ off + length ids <= p -> nth_error closest' p = nth_error closest p) /\
    (forall l c, nth_error ids l = Some c -> nth_error closest' (off + l) = Some (Some c)).
Proof.
  induction ids as [|c ids IH]; intros closest off H; cbn [write_ids]; cbn in H.
  - exists closest. repeat split; auto. intros l c Hl. destruct l; discriminate.
  - destruct (wr_nth _ closest off (Some c)) as [c1 [E1 [L1 N1]]]; [lia|]. rewrite E1. cbn [bind].
    destruct (IH c1 (S off)) as [c2 [E2 [L2 [O2 I2]]]]; [lia|].
    exists c2. split; [auto|]. split; [lia|]. split.
    + intros p Hp. rewrite O2 by (cbn in Hp; lia). rewrite N1. destruct (Nat.eq_dec p off); [cbn in Hp; lia|auto].
    + intros l x Hl. destruct l as [|l]; cbn in Hl.
      * assert (x = c) by congruence. subst. rewrite O2 by lia. rewrite N1. replace (off + 0) with off by lia.
        destruct (Nat.eq_dec off off); congruence.
      * replace (off + S l) with (S off + l) by lia. auto.
Qed.

Lemma closest_rows_ok : forall popf dmat nc k start, pops popf ->
  forall cnt i closest, (i + cnt) * k <= length closest ->
  (forall x, i <= x -> x < i + cnt -> row_ok (dmat (start + x)) nc k) ->
  exists closest', closest_rows popf dmat nc k start i cnt closest = Ok closest' /\ length closest' = length closest /\
    (forall p, p < i * k -> nth_error closest' p = nth_error closest p) /\
    (forall x l c, i <= x -> x < i + cnt -> nth_error (nearest_ids popf (dmat (start + x)) nc k) l = Some c ->
       nth_error closest' (x * k + l) = Some (Some c)).
Proof.
  intros popf dmat nc k start Hp cnt. induction cnt as [|cnt IH]; intros i closest Hlen Hrow; cbn [closest_rows].
  - exists closest. repeat split; auto. lia.
  - assert (Hri := Hrow i ltac:(lia) ltac:(lia)).
    assert (S1 : exists c1, (if k =? 1 then
           do s <- rd closest i; wr closest i (closest_one (dmat (start + i)) 0 nc FLT_MAX s)
         else write_ids closest (i * k) (closest_many popf (dmat (start + i)) nc k)) = Ok c1 /\ length c1 = length closest /\
      (forall p, p < i * k -> nth_error c1 p = nth_error closest p) /\
      (forall l c, nth_error (nearest_ids popf (dmat (start + i)) nc k) l = Some c -> nth_error c1 (i * k + l) = Some (Some c))).
    { destruct (k =? 1) eqn:E.
      - apply Nat.eqb_eq in E. subst k. destruct (rd_lt _ closest i) as [s Es]; [lia|]. rewrite Es. cbn [bind].
        destruct Hri as [Hn [Hk H1]]. destruct (nearest_one_slot popf (dmat (start + i)) nc s Hn (H1 eq_refl)) as [c [-> En]].
        destruct (wr_nth _ closest i (Some c)) as [c1 [E1 [L1 N1]]]; [lia|]. exists c1. split; [auto|]. split; [auto|]. split.
        + intros p Hp'. rewrite N1. destruct (Nat.eq_dec p i); [lia|auto].
        + intros l x Hl. rewrite En in Hl. destruct l as [|l]; [|destruct l; discriminate]. cbn in Hl.
          rewrite N1. destruct (Nat.eq_dec (i * 1 + 0) i); [congruence|lia].
      - assert (En : nearest_ids popf (dmat (start + i)) nc k = closest_many popf (dmat (start + i)) nc k).
        { unfold nearest_ids. rewrite E. auto. }
        destruct (nearest_ids_ok popf (dmat (start + i)) nc k Hp Hri) as [Hl _]. rewrite En in *.
        destruct (write_ids_ok (closest_many popf (dmat (start + i)) nc k) closest (i * k)) as [c1 [E1 [L1 [O1 I1]]]].
        { rewrite Hl. lia. }
        exists c1. split; [auto|]. split; [auto|]. split; [intros p Hp'; apply O1; lia|auto]. }
    destruct S1 as [c1 [E1 [L1 [O1 I1]]]]. rewrite E1. cbn [bind].
    destruct (IH (S i) c1) as [c2 [E2 [L2 [O2 I2]]]].
    { rewrite L1. lia. } { intros x H1 H2. apply Hrow; lia. }
    exists c2. split; [auto|]. split; [lia|]. split.
    + intros p Hp'. rewrite O2 by lia. apply O1. auto.
    + intros x l c H1 H2 Hl. destruct (Nat.eq_dec x i) as [->|Hne].
      * assert (l < k).
        { destruct (nearest_ids_ok popf (dmat (start + i)) nc k Hp Hri) as [HL _].
          rewrite <- HL. apply nth_error_Some. congruence. }
        rewrite O2 by lia. apply I1. auto.
      * apply I2; auto; lia.
Qed.

(** ** The copy loop *)
Definition assigned (assign : nat -> list nat) (p : nat * nat) : nat := nth (snd p) (assign (fst p)) 0.

Lemma distribute_ok : forall k start assign pairs closest ivf inv,
  (forall j l, In (j, l) pairs -> start <= j /\ l < k /\ j * k + l < length ivf /\
     nth_error closest ((j - start) * k + l) = Some (Some (assigned assign (j, l)))) ->
  (forall v, inv = Some v -> forall j l, In (j, l) pairs -> assigned assign (j, l) < length v) ->
  exists ivf' inv', distribute k start pairs closest ivf inv = Ok (ivf', inv') /\ length ivf' = length ivf /\
    (forall j l, In (j, l) pairs -> nth_error ivf' (j * k + l) = Some (assigned assign (j, l))) /\
    (forall p, (forall j l, In (j, l) pairs -> p <> j * k + l) -> nth_error ivf' p = nth_error ivf p) /\
    (inv = None -> inv' = None) /\
    (forall v, inv = Some v -> exists v', inv' = Some v' /\ length v' = length v /\
       forall c old, nth_error v c = Some old ->
         nth_error v' c = Some (old ++ map fst (filter (fun p => assigned assign p =? c) pairs))).
Proof.
  intros k start assign pairs. induction pairs as [|[j l] rest IH]; intros closest ivf inv Hp Hv; cbn [distribute].
  - exists ivf, inv. repeat (split; [solve [auto]|]). split; [intros j l []|]. split; [auto|]. split; [auto|].
    intros v ->. exists v. split; [auto|]. split; [auto|]. intros c old H. cbn. rewrite app_nil_r. auto.
  - destruct (Hp j l (or_introl eq_refl)) as [H1 [H2 [H3 H4]]]. apply rd_ok in H4. rewrite H4. cbn [bind].
    destruct (wr_nth _ ivf (j * k + l) (assigned assign (j, l))) as [i1 [E1 [L1 N1]]]; [auto|]. rewrite E1. cbn [bind].
    assert (S1 : exists inv1, match inv with
                 | None => Ok None
                 | Some v => do v' <- push_list v (assigned assign (j, l)) j; Ok (Some v')
                 end = Ok inv1 /\ (inv = None -> inv1 = None) /\
       (forall v, inv = Some v -> exists v1, inv1 = Some v1 /\ length v1 = length v /\
          forall c old, nth_error v c = Some old ->
            nth_error v1 c = Some (old ++ if assigned assign (j, l) =? c then [j] else []))).
    { destruct inv as [v|]; [|exists None; split; [auto|split; [auto|]]; intros v C; discriminate].
      specialize (Hv v eq_refl j l (or_introl eq_refl)). unfold push_list.
      destruct (rd_lt _ v (assigned assign (j, l))) as [old Eo]; [auto|]. rewrite Eo. cbn [bind].
      destruct (wr_nth _ v (assigned assign (j, l)) (old ++ [j])) as [v1 [E [L N]]]; [auto|]. rewrite E. cbn [bind].
      exists (Some v1). split; [auto|]. split; [discriminate|]. intros v0 Hv0. assert (v0 = v) by congruence. subst v0.
      exists v1. split; [auto|]. split; [auto|]. intros c o Hc. rewrite N. apply rd_ok in Eo.
      destruct (Nat.eq_dec c (assigned assign (j, l))) as [->|Hne].
      - rewrite Nat.eqb_refl. congruence.
      - replace (assigned assign (j, l) =? c) with false by (symmetry; apply Nat.eqb_neq; auto). rewrite app_nil_r. auto. }
    destruct S1 as [inv1 [E2 [Hnone Hsome]]]. rewrite E2. cbn [bind].
    destruct (IH closest i1 inv1) as [ivf' [inv' [E3 [L3 [I3 [O3 [N3 S3]]]]]]].
    { intros j' l' H. rewrite L1. apply Hp. right. auto. }
    { intros v1 Hv1 j' l' H. destruct inv as [v|]; [|rewrite Hnone in Hv1 by auto; discriminate].
      destruct (Hsome v eq_refl) as [v1' [E4 [L4 _]]]. assert (v1' = v1) by congruence. subst. rewrite L4.
      apply (Hv v eq_refl). right. auto. }
    exists ivf', inv'. split; [auto|]. split; [lia|].
    assert (Hdec : forall p, {q : nat * nat | In q rest /\ p = fst q * k + snd q} + {forall j l, In (j, l) rest -> p <> j * k + l}).
    { intros p. clear. induction rest as [|[a b] rest IH]; [right; intros j l []|].
      destruct (Nat.eq_dec p (a * k + b)) as [->|Hne]; [left; exists (a, b); split; [left|]; auto|].
      destruct IH as [[q [H1 H2]]|H]; [left; exists q; split; [right|]; auto|right].
      intros j l [E|Hin]; [inversion E; subst; auto|auto]. }
    split; [|split; [|split; [auto|]]].
    + intros j' l' [E|Hin]; [|apply I3; auto]. assert (j' = j /\ l' = l) as [-> ->] by (split; congruence).
      destruct (Hdec (j * k + l)) as [[[a b] [Hin Hq]]|Hno].
      * destruct (Hp a b (or_intror Hin)) as [_ [Hb _]]. cbn in Hq.
        assert (l = b /\ j = a) as [-> ->]; [|apply I3; auto].
        { assert (Hl : (j * k + l) mod k = l) by (rewrite Nat.add_comm, Nat.mod_add by lia; apply Nat.mod_small; auto).
          assert (Hl' : (a * k + b) mod k = b) by (rewrite Nat.add_comm, Nat.mod_add by lia; apply Nat.mod_small; auto).
          rewrite Hq in Hl. assert (l = b) by congruence. subst. split; [auto|]. nia. }
      * rewrite O3 by auto. rewrite N1. destruct (Nat.eq_dec (j * k + l) (j * k + l)); congruence.
    + intros p Hno. rewrite O3 by (intros j' l' Hin; apply Hno; right; auto). rewrite N1.
      destruct (Nat.eq_dec p (j * k + l)) as [->|]; [|auto]. exfalso. apply (Hno j l); [left|]; auto.
    + intros v Hv'. destruct (Hsome v Hv') as [v1 [E4 [L4 N4]]]. destruct (S3 v1 E4) as [v' [E5 [L5 N5]]].
      exists v'. split; [auto|]. split; [lia|]. intros c old Hc. rewrite (N5 c _ (N4 c old Hc)). f_equal.
      rewrite <- app_assoc. f_equal. cbn [filter]. destruct (assigned assign (j, l) =? c); reflexivity.
Qed.

(** ** Blocks *)
Lemma blocks_seq : forall n bs cnt b, 1 <= bs -> n <= (b + cnt) * bs -> b * bs <= n ->
  concat (map (fun b => seq (b * bs) (min bs (n - b * bs))) (seq b cnt)) = seq (b * bs) (n - b * bs).
Proof.
  intros n bs cnt. induction cnt as [|cnt IH]; intros b Hbs Hn Hb; cbn [seq map concat].
  - replace (n - b * bs) with 0 by lia. reflexivity.
  - destruct (Nat.le_gt_cases n (S b * bs)) as [Hle|Hgt].
    + replace (min bs (n - b * bs)) with (n - b * bs) by lia.
      assert (concat (map (fun b0 => seq (b0 * bs) (min bs (n - b0 * bs))) (seq (S b) cnt)) = []) as ->.
      { assert (H : forall x, In x (seq (S b) cnt) -> seq (x * bs) (min bs (n - x * bs)) = []).
        { intros x Hx. apply in_seq in Hx. replace (n - x * bs) with 0 by nia. rewrite Nat.min_0_r. reflexivity. }
        revert H. generalize (seq (S b) cnt). induction l as [|x l IHl]; intros H; [reflexivity|]. cbn.
        rewrite H by (left; auto). apply IHl. intros y Hy. apply H. right. auto. }
      apply app_nil_r.
    + rewrite IH by lia. replace (min bs (n - b * bs)) with bs by lia.
      replace (S b * bs) with (b * bs + bs) by lia. rewrite <- seq_app. f_equal. lia.
Qed.

Lemma n_blocks_bounds : forall n bs, 1 <= bs -> n <= n_blocks n bs * bs /\ n_blocks n bs * bs < n + bs.
Proof.
  intros n bs H. unfold n_blocks. pose proof (Nat.div_mod n bs ltac:(lia)) as D. pose proof (Nat.mod_upper_bound n bs ltac:(lia)) as M.
  destruct (n mod bs =? 0) eqn:E; [apply Nat.eqb_eq in E|apply Nat.eqb_neq in E]; nia.
Qed.

Lemma list_prod_app_l : forall (A B : Type) (l1 l2 : list A) (m : list B), list_prod (l1 ++ l2) m = list_prod l1 m ++ list_prod l2 m.
Proof. intros A B l1 l2 m. induction l1 as [|x l1 IH]; cbn; [auto|]. rewrite IH, app_assoc. auto. Qed.

(** Appended by a list of pairs to list c. *)
Definition appended (assign : nat -> list nat) (c : nat) (pairs : list (nat * nat)) : list nat :=
  map fst (filter (fun p => assigned assign p =? c) pairs).

Lemma closest_blocks_ok : forall popf dmat nc k n bs orders, pops popf -> 1 <= bs -> block_orders n k bs orders ->
  (forall j, j < n -> row_ok (dmat j) nc k) -> k <= nc ->
  let assign := fun j => nearest_ids popf (dmat j) nc k in
  forall cnt b closest ivf inv, (b + cnt) * bs < n + bs \/ cnt = 0 -> length closest = bs * k -> length ivf = n * k ->
  (forall v, inv = Some v -> length v = nc) ->
  exists ivf' inv', closest_blocks popf dmat nc k n bs orders b cnt closest ivf inv = Ok (ivf', inv') /\
    length ivf' = n * k /\
    (forall j l, b * bs <= j -> j < (b + cnt) * bs -> j < n -> l < k -> nth_error ivf' (j * k + l) = Some (assigned assign (j, l))) /\
    (forall j l, j < b * bs -> l < k -> nth_error ivf' (j * k + l) = nth_error ivf (j * k + l)) /\
    (inv = None -> inv' = None) /\
    (forall v, inv = Some v -> exists v', inv' = Some v' /\ length v' = nc /\
       forall c old, nth_error v c = Some old ->
         nth_error v' c = Some (old ++ appended assign c (concat (map orders (seq b cnt))))).
Proof.
  intros popf dmat nc k n bs orders Hp Hbs Ho Hrow Hk assign.
  induction cnt as [|cnt IH]; intros b closest ivf inv Hc Hcl Hiv Hv; cbn [closest_blocks].
  - exists ivf, inv. split; [auto|]. split; [auto|]. split; [intros; lia|]. split; [auto|]. split; [auto|].
    intros v ->. exists v. split; [auto|]. split; [auto|]. intros c old H. cbn. rewrite app_nil_r. auto.
  - assert (Hb : b * bs < n) by (destruct Hc; nia).
    set (npts := min bs (n - b * bs)).
    unfold closest_in_block. replace (nc <? k) with false by (symmetry; apply Nat.ltb_ge; auto).
    destruct (closest_rows_ok popf dmat nc k (b * bs) Hp npts 0 closest) as [c1 [E1 [L1 [_ I1]]]].
    { rewrite Hcl. unfold npts. cbn. apply Nat.mul_le_mono_r. lia. }
    { intros x _ Hx. apply Hrow. unfold npts in Hx. lia. }
    rewrite E1. cbn [bind].
    assert (Hmem : forall j l, In (j, l) (orders b) <-> b * bs <= j /\ j < b * bs + npts /\ l < k).
    { intros j l. split.
      - intros H. apply (Permutation_in _ (Ho b)) in H. apply in_prod_iff in H. destruct H as [H1 H2]. apply in_seq in H1, H2. fold npts in H1. lia.
      - intros H. apply (Permutation_in _ (Permutation_sym (Ho b))). apply in_prod_iff. rewrite !in_seq. fold npts. lia. }
    destruct (distribute_ok k (b * bs) assign (orders b) c1 ivf inv) as [i2 [v2 [E2 [L2 [I2 [O2 [N2 S2]]]]]]].
    { intros j l Hin. apply Hmem in Hin. unfold npts in Hin. split; [lia|]. split; [lia|]. split; [rewrite Hiv; nia|].
      assert (Hlk : length (assign j) = k) by (apply nearest_ids_ok; auto; apply Hrow; lia).
      specialize (I1 (j - b * bs) l (assigned assign (j, l)) ltac:(lia) ltac:(unfold npts; lia)).
      replace (b * bs + (j - b * bs)) with j in I1 by lia. apply I1. unfold assigned. cbn [fst snd].
      unfold assign in Hlk |- *. apply nth_error_nth'. rewrite Hlk. lia. }
    { intros v Hv' j l Hin. apply Hmem in Hin. unfold npts in Hin. rewrite (Hv v Hv').
      destruct (nearest_ids_ok popf (dmat j) nc k Hp) as [Hlk [_ [Hlt _]]]; [apply Hrow; lia|]. apply Hlt. unfold assigned. cbn [fst snd].
      apply nth_In. unfold assign. rewrite Hlk. lia. }
    rewrite E2. cbn [bind fst snd].
    assert (Hmul : S b * bs = b * bs + bs) by lia.
    destruct (IH (S b) c1 i2 v2) as [ivf' [inv' [E3 [L3 [I3 [O3 [N3 S3]]]]]]].
    { destruct Hc as [Hc|Hc]; [|lia]. left. replace (S b + cnt) with (b + S cnt) by lia. auto. }
    { lia. } { lia. }
    { intros v Hv2. destruct inv as [v0|]; [|rewrite N2 in Hv2 by auto; discriminate].
      destruct (S2 v0 eq_refl) as [v' [Ev [Lv _]]]. assert (v' = v) by congruence. subst. rewrite Lv. apply Hv. auto. }
    exists ivf', inv'. split; [auto|]. split; [auto|]. split; [|split; [|split; [auto|]]].
    + intros j l H1 H2 H3 H4. destruct (Nat.lt_ge_cases j (S b * bs)) as [Hj|Hj].
      * rewrite O3 by auto. apply I2. apply Hmem. unfold npts. lia.
      * apply I3; auto. replace (S b + cnt) with (b + S cnt) by lia. auto.
    + intros j l H1 H2. rewrite O3 by (auto; lia). apply O2. intros j' l' Hin. apply Hmem in Hin. nia.
    + intros v Hv'. destruct (S2 v Hv') as [v1 [Ev [Lv Nv]]]. destruct (S3 v1 Ev) as [v' [Ev' [Lv' Nv']]].
      exists v'. split; [auto|]. split; [auto|]. intros c old Hold. rewrite (Nv' c _ (Nv c old Hold)).
      cbn [seq map concat]. unfold appended. rewrite filter_app, map_app, app_assoc. reflexivity.
Qed.

Lemma concat_orders : forall n k bs orders, block_orders n k bs orders -> forall cnt b,
  Permutation (concat (map orders (seq b cnt)))
    (list_prod (concat (map (fun b => seq (b * bs) (min bs (n - b * bs))) (seq b cnt))) (seq 0 k)).
Proof.
  intros n k bs orders Ho cnt. induction cnt as [|cnt IH]; intros b; cbn [seq map concat]; [constructor|].
  rewrite list_prod_app_l. apply Permutation_app; auto.
Qed.

Lemma Permutation_filter : forall (A : Type) (f : A -> bool) l l', Permutation l l' -> Permutation (filter f l) (filter f l').
Proof.
  intros A f l l' P. induction P; cbn; auto.
  - destruct (f x); auto.
  - destruct (f x), (f y); auto. constructor.
  - eapply Permutation_trans; eauto.
Qed.

Lemma compute_closest_ok : forall popf mbs dmat n nc k orders ivf inv,
  pops popf -> 1 <= n -> 1 <= mbs -> k <= nc -> block_orders n k (min n mbs) orders ->
  (forall j, j < n -> row_ok (dmat j) nc k) -> length ivf = n * k ->
  (forall v, inv = Some v -> length v = nc) ->
  let assign := fun j => nearest_ids popf (dmat j) nc k in
  exists ivf' inv', compute_closest popf mbs dmat n nc k orders ivf inv = Ok (ivf', inv') /\
    length ivf' = n * k /\
    (forall j l, j < n -> l < k -> nth_error ivf' (j * k + l) = nth_error (assign j) l) /\
    (inv = None -> inv' = None) /\
    (forall v, inv = Some v -> exists v', inv' = Some v' /\ length v' = nc /\
       forall c old, nth_error v c = Some old ->
         exists new, nth_error v' c = Some (old ++ new) /\
           Permutation new (appended assign c (list_prod (seq 0 n) (seq 0 k)))).
Proof.
  intros popf mbs dmat n nc k orders ivf inv Hp Hn Hm Hk Ho Hrow Hiv Hv assign.
  unfold compute_closest. replace (nc <? k) with false by (symmetry; apply Nat.ltb_ge; auto).
  set (bs := min n mbs) in *. assert (Hbs : 1 <= bs) by (unfold bs; lia).
  replace (bs =? 0) with false by (symmetry; apply Nat.eqb_neq; lia).
  destruct (n_blocks_bounds n bs Hbs) as [B1 B2].
  destruct (closest_blocks_ok popf dmat nc k n bs orders Hp Hbs Ho Hrow Hk (n_blocks n bs) 0 (repeat None (bs * k)) ivf inv)
    as [ivf' [inv' [E [L [I [_ [Hnone Hsome]]]]]]]; auto.
  { apply repeat_length. }
  exists ivf', inv'. split; [auto|]. split; [auto|]. split; [|split; [auto|]].
  - intros j l Hj Hl. rewrite I by lia. unfold assigned. cbn [fst snd]. symmetry. apply nth_error_nth'.
    destruct (nearest_ids_ok popf (dmat j) nc k Hp (Hrow j Hj)) as [HL _]. lia.
  - intros v Hv'. destruct (Hsome v Hv') as [v' [E1 [L1 N1]]]. exists v'. split; [auto|]. split; [auto|].
    intros c old Hc. eexists. split; [apply N1; exact Hc|]. unfold appended. apply Permutation_map. apply Permutation_filter.
    eapply Permutation_trans; [apply concat_orders; exact Ho|].
    rewrite blocks_seq by lia. replace (n - 0 * bs) with n by lia. apply Permutation_refl.
Qed.
