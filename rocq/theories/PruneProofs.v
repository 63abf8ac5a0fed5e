(** * Lemmas about pruning. *)
From Coq Require Import String List Arith Lia Bool Sorting.Sorted Sorting.Permutation.
From Verif Require Import Base Float32 PoolModel TopKSpec SortSpec PruneModel PruneSpec ListLemmas
  FilterProofs PoolProofs PoolProofs2.
Import ListNotations.

(** ** select *)
Lemma select_app : forall (A : Type) (k1 k2 : list bool) (l1 l2 : list A), length k1 = length l1 ->
  select (k1 ++ k2) (l1 ++ l2) = select k1 l1 ++ select k2 l2.
Proof.
  intros A k1. induction k1 as [|b k1 IH]; intros k2 l1 l2 H; destruct l1 as [|x l1]; try discriminate; auto.
  cbn in H. destruct b; cbn; rewrite IH by lia; auto.
Qed.

Lemma select_firstn : forall (A : Type) (k : list bool) (l : list A),
  select k l = select k (firstn (length k) l).
Proof.
  intros A k. induction k as [|b k IH]; intros l; [reflexivity|]. destruct l as [|x l]; [destruct b; reflexivity|].
  destruct b; cbn; rewrite IH; auto.
Qed.

Lemma select_repeat_false : forall (A : Type) m (l : list A), select (repeat false m) l = [].
Proof. intros A m. induction m as [|m IH]; intros [|x l]; cbn; auto. Qed.

Lemma select_In : forall (A : Type) (k : list bool) (l : list A) x, In x (select k l) -> In x l.
Proof.
  intros A k. induction k as [|b k IH]; intros l x H; [destruct H|].
  destruct l as [|y l]; [destruct b; destruct H|]. destruct b; cbn in H; [destruct H; [left|right]|right]; auto.
Qed.

Lemma select_split : forall (A : Type) (keep : list bool) (l : list A), exists rest, Permutation l (select keep l ++ rest).
Proof.
  intros A k. induction k as [|b k IH]; intros l; [exists l; reflexivity|].
  destruct l as [|x l]; [exists []; destruct b; reflexivity|]. destruct (IH l) as [r Hr]. destruct b; cbn.
  - exists r. constructor. auto.
  - exists (x :: r). eapply Permutation_trans; [apply perm_skip; exact Hr|]. apply Permutation_middle.
Qed.

Lemma select_ssorted : forall (A : Type) (R : A -> A -> Prop) (keep : list bool) (l : list A),
  StronglySorted R l -> StronglySorted R (select keep l).
Proof.
  intros A R k. induction k as [|b k IH]; intros l H; [constructor|].
  destruct l as [|x l]; [destruct b; constructor|]. inversion H as [|? ? HS HF]. subst.
  destruct b; cbn; auto. constructor; auto. rewrite Forall_forall in *. intros y Hy. apply HF. eapply select_In; eauto.
Qed.

(** ** The inner loop *)
Definition allowed (sp : space) (a b : nat) : bool :=
  match prune_allowed sp a b with Ok x => x | _ => false end.

Lemma prune_allowed_ok : forall sp a b, a < sp_n sp -> b < sp_n sp ->
  (sp_filtered sp = true -> length (pts_to_labels (sp_labels sp)) = sp_n sp) ->
  exists r, prune_allowed sp a b = Ok r /\
    (r = true <-> (sp_filtered sp = false \/ forall x, In x (labels_of sp b) -> In x (labels_of sp a))).
Proof.
  intros sp a b Ha Hb Hl. unfold prune_allowed. destruct (sp_filtered sp) eqn:E.
  - specialize (Hl eq_refl).
    destruct (rd_lt _ (pts_to_labels (sp_labels sp)) b) as [lb Eb]; [lia|].
    destruct (rd_lt _ (pts_to_labels (sp_labels sp)) a) as [la Ea]; [lia|].
    rewrite Eb, Ea. cbn [bind]. apply rd_ok in Ea. apply rd_ok in Eb.
    assert (Hla : labels_of sp a = la) by (unfold labels_of; apply nth_error_nth; auto).
    assert (Hlb : labels_of sp b = lb) by (unfold labels_of; apply nth_error_nth; auto).
    rewrite Hla, Hlb. exists (forallb (fun x => label_mem x la) lb). split; [destruct lb; reflexivity|].
    rewrite forallb_forall. split.
    + intros H. right. intros x Hx. apply label_mem_In. auto.
    + intros [C|H] x Hx; [discriminate|]. apply label_mem_In. auto.
  - exists true. split; auto. split; auto.
Qed.

Lemma fmax_gt : forall a b alpha, is_nan a = false -> fgt a alpha = false ->
  fgt (fmax a b) alpha = fgt b alpha /\ is_nan (fmax a b) = false.
Proof.
  intros a b alpha Ha Hal. unfold fmax. destruct (flt a b) eqn:E.
  - split; auto. apply flt_not_nan in E. apply E.
  - split; auto. rewrite Hal. symmetry. destruct (fgt b alpha) eqn:Eb; auto. exfalso.
    change (flt alpha b = true) in Eb. change (flt alpha a = false) in Hal.
    destruct (flt_not_nan _ _ Eb) as [_ Hb]. pose proof (flt_false_fle _ _ Ha Hb E) as H.
    rewrite (flt_fle_trans _ _ _ Eb H) in Hal. discriminate.
Qed.

Lemma occlude_loop_ok : forall sp cands alpha p cnt t occ,
  nid p < sp_n sp -> (forall z, In z cands -> nid z < sp_n sp) ->
  (sp_filtered sp = true -> length (pts_to_labels (sp_labels sp)) = sp_n sp) ->
  length occ = length cands -> t + cnt <= length cands ->
  (forall i f, nth_error occ i = Some f -> is_nan f = false) ->
  exists occ', occlude_loop sp cands alpha p t cnt occ = Ok occ' /\ length occ' = length occ /\
    (forall i f, nth_error occ' i = Some f -> is_nan f = false) /\
    (forall i, i < t \/ t + cnt <= i -> nth_error occ' i = nth_error occ i) /\
    (forall i f c f', t <= i -> i < t + cnt -> nth_error occ i = Some f -> nth_error cands i = Some c ->
       nth_error occ' i = Some f' ->
       (fgt f' alpha = true <-> fgt f alpha = true \/ occludes sp alpha p c)).
Proof.
  intros sp cands alpha p cnt. induction cnt as [|cnt IH]; intros t occ Hp Hc Hl Hlen Ht Hnan.
  { exists occ. cbn. split; [auto|]. split; [auto|]. split; [auto|]. split; [auto|]. intros; lia. }
  cbn [occlude_loop]. destruct (rd_lt _ occ t) as [f Hf]; [lia|]. rewrite Hf. cbn [bind]. apply rd_ok in Hf.
  destruct (rd_lt _ cands t) as [c Hcc]; [lia|]. pose proof (proj1 (rd_ok _ _ _ _) Hcc) as Hct.
  assert (Hcn : nid c < sp_n sp) by (apply Hc; eapply nth_error_In; eauto).
  destruct (fgt f alpha) eqn:Egt.
  - destruct (IH (S t) occ) as [occ' [E [L1 [N1 [O1 I1]]]]]; auto; try lia.
    exists occ'. split; [auto|]. split; [auto|]. split; [auto|]. split; [intros; apply O1; lia|].
    intros i f0 c0 f' Hi1 Hi2 H1 H2 H3. destruct (Nat.eq_dec i t) as [->|Hne].
    + rewrite O1 in H3 by lia. assert (f' = f) by congruence. assert (f0 = f) by congruence. subst. tauto.
    + apply (I1 i f0 c0 f'); auto; lia.
  - rewrite Hcc. cbn [bind].
    destruct (prune_allowed_ok sp (nid p) (nid c) Hp Hcn Hl) as [r [Er Hr]]. rewrite Er. cbn [bind].
    destruct r; cbn [negb].
    + unfold data_dist. rewrite (proj2 (Nat.ltb_lt _ _) Hcn), (proj2 (Nat.ltb_lt _ _) Hp). cbn [andb bind].
      set (q := fdiv (ndist c) (sp_pd sp (nid c) (nid p))).
      assert (Hfn : is_nan f = false) by (eapply Hnan; eauto).
      destruct (fmax_gt f q alpha Hfn Egt) as [Hm1 Hm2].
      destruct (wr_nth _ occ t (fmax f q)) as [occ1 [W [L0 N0]]]; [lia|]. rewrite W. cbn [bind].
      destruct (IH (S t) occ1) as [occ' [E [L1 [N1 [O1 I1]]]]]; auto; try lia.
      { intros i g Hg. rewrite N0 in Hg. destruct (Nat.eq_dec i t); [congruence|eauto]. }
      exists occ'. split; [auto|]. split; [lia|]. split; [auto|]. split.
      * intros i Hi. rewrite O1 by lia. rewrite N0. destruct (Nat.eq_dec i t); [lia|auto].
      * intros i f0 c0 f' Hi1 Hi2 H1 H2 H3. destruct (Nat.eq_dec i t) as [->|Hne].
        -- rewrite O1 in H3 by lia. rewrite N0 in H3. destruct (Nat.eq_dec t t); [|congruence].
           assert (f' = fmax f q) by congruence. assert (f0 = f) by congruence. assert (c0 = c) by congruence.
           subst. rewrite Hm1. split.
           ++ intros H. right. split; [apply Hr; auto|exact H].
           ++ intros [H|[_ H]]; [congruence|exact H].
        -- apply (I1 i f0 c0 f'); auto; try lia. rewrite N0. destruct (Nat.eq_dec i t); [lia|auto].
    + destruct (IH (S t) occ) as [occ' [E [L1 [N1 [O1 I1]]]]]; auto; try lia.
      exists occ'. split; [auto|]. split; [auto|]. split; [auto|]. split; [intros; apply O1; lia|].
      intros i f0 c0 f' Hi1 Hi2 H1 H2 H3. destruct (Nat.eq_dec i t) as [->|Hne].
      * rewrite O1 in H3 by lia. assert (f' = f) by congruence. assert (f0 = f) by congruence.
        assert (c0 = c) by congruence. subst. split; auto.
        intros [H|[Ho _]]; auto. exfalso. destruct Hr as [_ Hr]. specialize (Hr Ho). discriminate.
      * apply (I1 i f0 c0 f'); auto; lia.
Qed.

(** ** The outer loop *)
Lemma nth_app_last : forall (l : list bool) b i, nth i (l ++ [b]) false = if i =? length l then b else nth i l false.
Proof.
  intros l b i. destruct (i =? length l) eqn:E.
  - apply Nat.eqb_eq in E. subst. rewrite app_nth2, Nat.sub_diag by lia. reflexivity.
  - apply Nat.eqb_neq in E. destruct (Nat.lt_ge_cases i (length l)).
    + apply app_nth1. auto.
    + rewrite !nth_overflow; auto. rewrite app_length. cbn. lia.
Qed.

(** Marks for the first positions, described as in [kept]. *)
Definition kept_upto (occl : neighbor -> neighbor -> Prop) (R point : nat)
    (cs : list neighbor) (keep : list bool) : Prop :=
  length keep <= length cs /\
  forall i c, i < length keep -> nth_error cs i = Some c ->
    (nth i keep false = true <->
     nid c <> point /\
     length (select (firstn i keep) cs) < R /\
     forall k, In k (select (firstn i keep) cs) -> ~ occl k c).

Lemma kept_upto_snoc : forall occl R point cs keep c b,
  kept_upto occl R point cs keep -> nth_error cs (length keep) = Some c ->
  (b = true <-> nid c <> point /\ length (select keep cs) < R /\ forall k, In k (select keep cs) -> ~ occl k c) ->
  kept_upto occl R point cs (keep ++ [b]) /\
  select (keep ++ [b]) cs = select keep cs ++ (if b then [c] else []).
Proof.
  intros occl R point cs keep c b [Hlen HK] Hc Hb. assert (Hlt : length keep < length cs) by (apply nth_error_Some; congruence).
  split.
  - split; [rewrite app_length; cbn; lia|]. intros i c' Hi Hc'. rewrite app_length in Hi. cbn in Hi.
    rewrite nth_app_last. destruct (i =? length keep) eqn:E.
    + apply Nat.eqb_eq in E. subst i. rewrite firstn_app, firstn_all, Nat.sub_diag. cbn [firstn].
      rewrite app_nil_r. assert (c' = c) by congruence. subst c'. exact Hb.
    + apply Nat.eqb_neq in E. rewrite firstn_app. replace (i - length keep) with 0 by lia. cbn [firstn].
      rewrite app_nil_r. apply HK; auto. lia.
  - rewrite <- (firstn_skipn (length keep) cs) at 1.
    rewrite select_app by (rewrite firstn_length; lia). rewrite <- select_firstn. f_equal.
    assert (Hs : exists t, skipn (length keep) cs = c :: t).
    { clear - Hc. revert cs Hc. induction (length keep) as [|m IH]; intros cs Hc; destruct cs; try discriminate.
      - cbn in Hc. inversion Hc. cbn. eauto.
      - cbn in *. auto. }
    destruct Hs as [t ->]. destruct b; reflexivity.
Qed.

Lemma kept_upto_full : forall occl R point cs keep,
  kept_upto occl R point cs keep -> R <= length (select keep cs) \/ length keep = length cs ->
  exists keep', kept occl R point cs keep' /\ select keep' cs = select keep cs.
Proof.
  intros occl R point cs keep [Hlen HK] Hend. exists (keep ++ repeat false (length cs - length keep)).
  assert (Hsel : forall m, select (keep ++ repeat false m) cs = select keep cs).
  { intros m. rewrite <- (firstn_skipn (length keep) cs) at 1.
    rewrite select_app by (rewrite firstn_length; lia). rewrite <- select_firstn, select_repeat_false.
    apply app_nil_r. }
  split; [|apply Hsel].
  split; [rewrite app_length, repeat_length; lia|]. intros i c Hc.
  assert (Hi : i < length cs) by (apply nth_error_Some; congruence).
  destruct (Nat.lt_ge_cases i (length keep)) as [Hlt|Hge].
  - rewrite app_nth1 by auto. rewrite firstn_app. replace (i - length keep) with 0 by lia. cbn [firstn].
    rewrite app_nil_r. apply HK; auto.
  - rewrite app_nth2 by auto.
    assert (Hn : nth (i - length keep) (repeat false (length cs - length keep)) false = false).
    { destruct (nth_in_or_default (i - length keep) (repeat false (length cs - length keep)) false) as [H|H]; auto.
      apply repeat_spec in H. auto. }
    rewrite Hn. split; [discriminate|]. intros [_ [H _]]. exfalso.
    rewrite firstn_app, firstn_all2 in H by auto.
    assert (Hr : exists m', firstn (i - length keep) (repeat false (length cs - length keep)) = repeat false m').
    { exists (Nat.min (i - length keep) (length cs - length keep)).
      assert (G : forall a b, firstn a (repeat false b) = repeat false (Nat.min a b)).
      { induction a as [|a IH]; intros b; [reflexivity|]. destruct b; cbn; auto. rewrite IH. reflexivity. }
      apply G. }
    destruct Hr as [m' Hr]. rewrite Hr, Hsel in H. lia.
Qed.

Lemma select_firstn_cs : forall (A : Type) (keep : list bool) (cs : list A) m, length keep <= m ->
  select keep (firstn m cs) = select keep cs.
Proof.
  intros A keep cs m H. rewrite select_firstn, firstn_firstn. rewrite Nat.min_l by auto. symmetry. apply select_firstn.
Qed.

Lemma prune_loop_ok : forall sp cands R C alpha point,
  (forall z, In z cands -> nid z < sp_n sp) ->
  (sp_filtered sp = true -> length (pts_to_labels (sp_labels sp)) = sp_n sp) ->
  forall fuel keep occ,
  kept_upto (occludes sp alpha) R point (firstn C cands) keep ->
  length cands - length keep <= fuel -> length occ = length cands ->
  (forall i f, nth_error occ i = Some f -> is_nan f = false) ->
  (forall i f c, length keep <= i -> i < C -> nth_error occ i = Some f -> nth_error cands i = Some c ->
     (fgt f alpha = true <-> exists k, In k (select keep cands) /\ occludes sp alpha k c)) ->
  exists keep', kept (occludes sp alpha) R point (firstn C cands) keep' /\
    prune_loop fuel sp cands R C alpha point (length keep) occ (select keep cands) = Ok (select keep' (firstn C cands)).
Proof.
  intros sp cands R C alpha point Hids Hlab. induction fuel as [|fuel IH]; intros keep occ HK Hfuel Hlen Hnan Hocc;
  cbn [prune_loop];
  (assert (HKl : length keep <= C /\ length keep <= length cands) by (destruct HK as [H _]; rewrite firstn_length in H; lia));
  destruct ((length (select keep cands) <? R) && (length keep <? length cands) && (length keep <? C)) eqn:Econd.
  - exfalso. apply andb_true_iff in Econd. destruct Econd as [Econd E3]. apply andb_true_iff in Econd.
    destruct Econd as [E1 E2]. apply Nat.ltb_lt in E2. lia.
  - destruct (kept_upto_full _ _ _ _ _ HK) as [keep' [K1 K2]].
    { rewrite firstn_length. rewrite select_firstn_cs by lia.
      apply andb_false_iff in Econd. destruct Econd as [Econd|E3]; [apply andb_false_iff in Econd; destruct Econd as [E1|E2]|].
      - left. apply Nat.ltb_ge in E1. auto.
      - right. apply Nat.ltb_ge in E2. lia.
      - right. apply Nat.ltb_ge in E3. lia. }
    exists keep'. split; auto. rewrite K2. rewrite select_firstn_cs by lia. reflexivity.
  - apply andb_true_iff in Econd. destruct Econd as [Econd E3]. apply andb_true_iff in Econd.
    destruct Econd as [E1 E2]. apply Nat.ltb_lt in E1. apply Nat.ltb_lt in E2. apply Nat.ltb_lt in E3.
    destruct (rd_lt _ cands (length keep)) as [p Hp]; [lia|]. rewrite Hp. cbn [bind]. apply rd_ok in Hp.
    assert (Hpf : nth_error (firstn C cands) (length keep) = Some p) by (rewrite nth_error_firstn_lt; auto).
    assert (Hpn : nid p < sp_n sp) by (apply Hids; eapply nth_error_In; eauto).
    destruct (nid p =? point) eqn:Ep.
    + apply Nat.eqb_eq in Ep.
      destruct (kept_upto_snoc _ _ _ _ _ p false HK Hpf) as [HK' HS].
      { split; [discriminate|]. intros [H _]. congruence. }
      rewrite app_nil_r in HS. rewrite !select_firstn_cs in HS by (rewrite ?app_length; cbn; lia).
      destruct (IH (keep ++ [false]) occ) as [keep' [K1 K2]]; auto; try (rewrite app_length; cbn; lia).
      { intros i f c Hi1 Hi2 Hf Hc. rewrite HS. rewrite app_length in Hi1. cbn in Hi1. apply (Hocc i f c); auto. lia. }
      exists keep'. split; auto. rewrite HS in K2. rewrite app_length in K2. cbn [length] in K2.
      rewrite Nat.add_1_r in K2. exact K2.
    + apply Nat.eqb_neq in Ep.
      destruct (rd_lt _ occ (length keep)) as [f Hf]; [lia|]. rewrite Hf. cbn [bind]. apply rd_ok in Hf.
      pose proof (Hocc (length keep) f p (le_n _) E3 Hf Hp) as Hiff.
      destruct (fgt f alpha) eqn:Ef.
      * destruct (kept_upto_snoc _ _ _ _ _ p false HK Hpf) as [HK' HS].
        { split; [discriminate|]. intros [_ [_ H]]. rewrite select_firstn_cs in H by lia.
          destruct (proj1 Hiff eq_refl) as [k [Hk1 Hk2]]. exfalso. eapply H; eauto. }
        rewrite app_nil_r in HS. rewrite !select_firstn_cs in HS by (rewrite ?app_length; cbn; lia).
        destruct (IH (keep ++ [false]) occ) as [keep' [K1 K2]]; auto; try (rewrite app_length; cbn; lia).
        { intros i f' c Hi1 Hi2 Hf' Hc. rewrite HS. rewrite app_length in Hi1. cbn in Hi1. apply (Hocc i f' c); auto. lia. }
        exists keep'. split; auto. rewrite HS in K2. rewrite app_length in K2. cbn [length] in K2.
        rewrite Nat.add_1_r in K2. exact K2.
      * destruct (kept_upto_snoc _ _ _ _ _ p true HK Hpf) as [HK' HS].
        { split; auto. intros _. split; [auto|]. rewrite select_firstn_cs by lia. split; [auto|].
          intros k Hk Ho. assert (false = true) by (apply Hiff; eauto). discriminate. }
        rewrite !select_firstn_cs in HS by (rewrite ?app_length; cbn; lia).
        destruct (wr_nth _ occ (length keep) FLT_MAX) as [occ1 [W [L1 N1]]]; [lia|]. rewrite W. cbn [bind].
        destruct (occlude_loop_ok sp cands alpha p (Nat.min (length cands) C - S (length keep)) (S (length keep)) occ1)
          as [occ2 [E [L2 [N2 [O2 I2]]]]]; auto; try lia.
        { intros i g Hg. rewrite N1 in Hg. destruct (Nat.eq_dec i (length keep)); [inversion Hg; reflexivity|eauto]. }
        rewrite E. cbn [bind].
        destruct (IH (keep ++ [true]) occ2) as [keep' [K1 K2]]; auto; try (rewrite app_length; cbn; lia); try lia.
        { intros i f' c Hi1 Hi2 Hf' Hc. rewrite HS. rewrite app_length in Hi1. cbn in Hi1.
          assert (Hic : i < length cands) by (apply nth_error_Some; congruence).
          destruct (rd_lt _ occ i) as [f0 Hf0]; [lia|]. apply rd_ok in Hf0.
          assert (Hf1 : nth_error occ1 i = Some f0) by (rewrite N1; destruct (Nat.eq_dec i (length keep)); [lia|auto]).
          rewrite (I2 i f0 c f') by (auto; lia).
          rewrite (Hocc i f0 c) by (auto; lia). split.
          - intros [[k [Hk1 Hk2]]|Ho]; [exists k|exists p]; split; auto; apply in_or_app; cbn; auto.
          - intros [k [Hk1 Hk2]]. apply in_app_or in Hk1. destruct Hk1 as [Hk1|[<-|[]]]; [left; eauto|right; auto]. }
        exists keep'. split; auto. rewrite HS in K2. rewrite app_length in K2. cbn [length] in K2.
        rewrite Nat.add_1_r in K2. exact K2.
  - destruct (kept_upto_full _ _ _ _ _ HK) as [keep' [K1 K2]].
    { rewrite firstn_length. rewrite select_firstn_cs by lia.
      apply andb_false_iff in Econd. destruct Econd as [Econd|E3]; [apply andb_false_iff in Econd; destruct Econd as [E1|E2]|].
      - left. apply Nat.ltb_ge in E1. auto.
      - right. apply Nat.ltb_ge in E2. lia.
      - right. apply Nat.ltb_ge in E3. lia. }
    exists keep'. split; auto. rewrite K2. rewrite select_firstn_cs by lia. reflexivity.
Qed.

(** ** The whole function *)
Lemma kept_not_point : forall occl R point cs keep, kept occl R point cs keep ->
  forall z, In z (select keep cs) -> nid z <> point.
Proof.
  intros occl R point cs keep [Hlen HK] z Hz.
  assert (G : forall (keep : list bool) (cs : list neighbor), In z (select keep cs) ->
    exists i, nth_error cs i = Some z /\ nth i keep false = true).
  { clear. induction keep as [|b keep IH]; intros cs H; [destruct H|].
    destruct cs as [|c cs]; [destruct b; destruct H|]. destruct b; cbn in H.
    - destruct H as [->|H]; [exists 0; auto|]. destruct (IH _ H) as [i [H1 H2]]. exists (S i). auto.
    - destruct (IH _ H) as [i [H1 H2]]. exists (S i). auto. }
  destruct (G _ _ Hz) as [i [H1 H2]]. apply (HK i z H1) in H2. tauto.
Qed.

Lemma kept_length : forall occl R point cs keep, kept occl R point cs keep -> length (select keep cs) <= R.
Proof.
  intros occl R point cs keep [Hlen HK].
  assert (G : forall m, m <= length keep -> length (select (firstn m keep) cs) <= R).
  { induction m as [|m IH]; intros Hm; [cbn; lia|]. specialize (IH ltac:(lia)).
    destruct (nth_error cs m) as [c|] eqn:Hc; [|apply nth_error_None in Hc; lia].
    assert (Hs : firstn (S m) keep = firstn m keep ++ [nth m keep false]).
    { clear - Hm. revert m Hm. induction keep as [|b keep IH]; intros m Hm; cbn in Hm; [lia|].
      destruct m as [|m]; [reflexivity|]. change (firstn (S (S m)) (b :: keep)) with (b :: firstn (S m) keep).
      rewrite IH by lia. reflexivity. }
    rewrite Hs. rewrite <- (firstn_skipn m cs).
    rewrite select_app by (rewrite !firstn_length; lia). rewrite app_length.
    assert (Hl : length (firstn m keep) = m) by (rewrite firstn_length; lia).
    replace (select (firstn m keep) (firstn m cs)) with (select (firstn m keep) cs)
      by (rewrite select_firstn, Hl; auto).
    destruct (nth m keep false) eqn:Eb.
    - apply (HK m c Hc) in Eb. destruct Eb as [_ [Hlt _]].
      assert (length (select [true] (skipn m cs)) <= 1) by (destruct (skipn m cs); cbn; lia). lia.
    - destruct (skipn m cs); cbn; lia. }
  specialize (G (length keep) (le_n _)). rewrite firstn_all in G. auto.
Qed.

Lemma filter_all : forall (A : Type) (f : A -> bool) l, (forall x, In x l -> f x = true) -> filter f l = l.
Proof.
  intros A f l. induction l as [|x l IH]; intros H; [reflexivity|]. cbn.
  rewrite H by (left; auto). rewrite IH; auto. intros y Hy. apply H. right. auto.
Qed.

Lemma sorts_nil : forall sortf, sorts sortf -> sortf [] = [].
Proof. intros sortf H. destruct (H []) as [P _]; [intros z []|]. apply Permutation_nil in P. auto. Qed.

Lemma sorted_ids_ok : forall sortf sp cands, sorts sortf -> prune_input_ok sp cands ->
  forall z, In z (sortf cands) -> nid z < sp_n sp.
Proof.
  intros sortf sp cands Hs [Hc _] z Hz. destruct (Hs cands) as [P _]; [intros y Hy; apply Hc; auto|].
  apply (Permutation_in _ (Permutation_sym P)) in Hz. apply Hc. auto.
Qed.

Lemma prune_alpha_exact : forall sortf sp prm point cands,
  sorts sortf -> prune_input_ok sp cands -> fgt f32_zero (bp_alpha prm) = false ->
  exists keep,
    kept (occludes sp (bp_alpha prm)) (bp_R prm) point (firstn (bp_C prm) (sortf cands)) keep /\
    prune_alpha sortf sp prm point cands [] = Ok (map nid (select keep (firstn (bp_C prm) (sortf cands)))).
Proof.
  intros sortf sp prm point cands Hs Hin Hal.
  assert (Hids := sorted_ids_ok _ _ _ Hs Hin).
  assert (E0 : prune_alpha sortf sp prm point cands [] =
    (do result <- prune_loop (length (sortf cands)) sp (sortf cands) (bp_R prm) (bp_C prm) (bp_alpha prm) point 0
                     (repeat f32_zero (length (sortf cands))) [];
     Ok (map nid (filter (fun z => negb (nid z =? point)) result)))).
  { destruct cands as [|c cands]; [|reflexivity]. cbn. rewrite sorts_nil by auto. cbn.
    rewrite andb_false_r. reflexivity. }
  destruct (prune_loop_ok sp (sortf cands) (bp_R prm) (bp_C prm) (bp_alpha prm) point Hids (proj2 Hin)
    (length (sortf cands)) [] (repeat f32_zero (length (sortf cands)))) as [keep [K1 K2]].
  - split; [cbn; lia|]. intros i c Hi. cbn in Hi. lia.
  - cbn. lia.
  - apply repeat_length.
  - intros i f H. apply nth_error_In in H. apply repeat_spec in H. subst. reflexivity.
  - intros i f c _ _ H _. apply nth_error_In in H. apply repeat_spec in H. subst. rewrite Hal.
    split; [discriminate|]. intros [k [[] _]].
  - exists keep. split; auto. rewrite E0. cbn [length select] in K2. rewrite K2. cbn [bind].
    rewrite filter_all; auto. intros z Hz. apply negb_true_iff. apply Nat.eqb_neq.
    eapply kept_not_point; eauto.
Qed.

Lemma prune_loop_neg : forall sp cands R C alpha point fuel start,
  fgt f32_zero alpha = true -> length cands - start <= fuel ->
  prune_loop fuel sp cands R C alpha point start (repeat f32_zero (length cands)) [] = Ok [].
Proof.
  intros sp cands R C alpha point fuel. induction fuel as [|fuel IH]; intros start Hal Hf; cbn [prune_loop];
  destruct ((length (@nil neighbor) <? R) && (start <? length cands) && (start <? C)) eqn:Econd; auto.
  - exfalso. apply andb_true_iff in Econd. destruct Econd as [Econd E3]. apply andb_true_iff in Econd.
    destruct Econd as [E1 E2]. apply Nat.ltb_lt in E2. lia.
  - apply andb_true_iff in Econd. destruct Econd as [Econd E3]. apply andb_true_iff in Econd.
    destruct Econd as [E1 E2]. apply Nat.ltb_lt in E2.
    destruct (rd_lt _ cands start) as [p Hp]; [lia|]. rewrite Hp. cbn [bind].
    destruct (nid p =? point); [apply IH; auto; lia|].
    destruct (rd_lt _ (repeat f32_zero (length cands)) start) as [f Hff]; [rewrite repeat_length; lia|].
    rewrite Hff. cbn [bind]. apply rd_ok in Hff. apply nth_error_In in Hff. apply repeat_spec in Hff. subst f.
    rewrite Hal. apply IH; auto. lia.
Qed.

Lemma firstn_split_perm : forall (A : Type) k (l : list A), exists rest, Permutation l (firstn k l ++ rest).
Proof. intros A k l. exists (skipn k l). rewrite firstn_skipn. reflexivity. Qed.

Lemma prune_alpha_shape : forall sortf sp prm point cands,
  sorts sortf -> prune_input_ok sp cands ->
  exists ks rest, prune_alpha sortf sp prm point cands [] = Ok (map nid ks) /\
    Permutation cands (ks ++ rest) /\ length ks <= bp_R prm /\ length ks <= bp_C prm /\
    StronglySorted (fun x y => fle (ndist x) (ndist y) = true) ks /\
    (forall z, In z ks -> nid z <> point).
Proof.
  intros sortf sp prm point cands Hs Hin.
  destruct (fgt f32_zero (bp_alpha prm)) eqn:Hal.
  - exists [], cands. split.
    + destruct cands as [|c cands]; [reflexivity|]. unfold prune_alpha.
      rewrite prune_loop_neg by (auto; lia). reflexivity.
    + repeat split; auto; cbn; try lia. constructor.
  - destruct (prune_alpha_exact sortf sp prm point cands Hs Hin Hal) as [keep [K E]].
    destruct (Hs cands) as [P HS]; [intros y Hy; apply Hin; auto|].
    destruct (firstn_split_perm _ (bp_C prm) (sortf cands)) as [r1 P1].
    destruct (select_split _ keep (firstn (bp_C prm) (sortf cands))) as [r2 P2].
    exists (select keep (firstn (bp_C prm) (sortf cands))), (r2 ++ r1).
    split; [auto|]. split.
    + eapply Permutation_trans; [exact P|]. eapply Permutation_trans; [exact P1|].
      rewrite app_assoc. apply Permutation_app_tail. exact P2.
    + split; [eapply kept_length; eauto|]. split; [|split].
      * pose proof (Permutation_length P2) as HL. rewrite app_length, firstn_length in HL. lia.
      * apply select_ssorted. apply ssorted_firstn. auto.
      * eapply kept_not_point; eauto.
Qed.

Lemma prune_alpha_first : forall sortf sp prm point cands c rest,
  sorts sortf -> prune_input_ok sp cands -> fgt f32_zero (bp_alpha prm) = false ->
  sortf cands = c :: rest -> nid c <> point -> 1 <= bp_R prm -> 1 <= bp_C prm ->
  exists out, prune_alpha sortf sp prm point cands [] = Ok (nid c :: out).
Proof.
  intros sortf sp prm point cands c rest Hs Hin Hal E Hne HR HC.
  destruct (prune_alpha_exact sortf sp prm point cands Hs Hin Hal) as [keep [[Hlen HK] Eq]].
  rewrite E in *. destruct (bp_C prm) as [|C']; [lia|]. cbn [firstn] in *.
  destruct keep as [|b keep]; [discriminate|].
  assert (b = true).
  { specialize (HK 0 c eq_refl). cbn in HK. apply HK. repeat split; auto. }
  subst b. rewrite Eq. cbn. eauto.
Qed.

Lemma may_occlude_dec : forall sp k c, may_occlude sp k c \/ ~ may_occlude sp k c.
Proof.
  intros sp k c. unfold may_occlude. destruct (sp_filtered sp); [|left; auto].
  assert (H : (forall x, In x (labels_of sp (nid c)) -> In x (labels_of sp (nid k))) \/
              ~ (forall x, In x (labels_of sp (nid c)) -> In x (labels_of sp (nid k)))).
  { induction (labels_of sp (nid c)) as [|y l IH]; [left; intros x []|].
    destruct IH as [IH|IH].
    - destruct (in_dec string_dec y (labels_of sp (nid k))) as [Hy|Hy].
      + left. intros x [<-|Hx]; auto.
      + right. intros H. apply Hy. apply H. left. auto.
    - right. intros H. apply IH. intros x Hx. apply H. right. auto. }
  destruct H as [H|H]; [left; auto|right; intros [C|C]; [discriminate|auto]].
Qed.

Lemma occludes_dec : forall sp alpha k c, occludes sp alpha k c \/ ~ occludes sp alpha k c.
Proof.
  intros sp alpha k c. unfold occludes. destruct (may_occlude_dec sp k c) as [H|H]; [|right; tauto].
  destruct (flt alpha (fdiv (ndist c) (sp_pd sp (nid c) (nid k)))); [left|right]; intuition congruence.
Qed.

Lemma list_find : forall (A : Type) (P : A -> Prop), (forall x, P x \/ ~ P x) ->
  forall l, (exists x, In x l /\ P x) \/ (forall x, In x l -> ~ P x).
Proof.
  intros A P Hd l. induction l as [|y l IH]; [right; intros x []|].
  destruct (Hd y) as [H|H]; [left; exists y; cbn; auto|].
  destruct IH as [[x [H1 H2]]|IH]; [left; exists x; cbn; auto|right].
  intros x [<-|Hx]; auto.
Qed.

Lemma select_prefix_In : forall (A : Type) i (keep : list bool) (cs : list A) x,
  In x (select (firstn i keep) cs) -> In x (select keep cs).
Proof.
  intros A i. induction i as [|i IH]; intros keep cs x H; [destruct H|].
  destruct keep as [|b keep]; [destruct H|]. destruct cs as [|c cs]; [destruct b; destruct H|].
  destruct b; cbn in *; [destruct H; [left|right]|]; auto.
Qed.

Lemma select_prefix_length : forall (A : Type) i (keep : list bool) (cs : list A),
  length (select (firstn i keep) cs) <= length (select keep cs).
Proof.
  intros A i. induction i as [|i IH]; intros keep cs; [cbn; lia|].
  destruct keep as [|b keep]; [cbn; lia|]. destruct cs as [|c cs]; [destruct b; cbn; lia|].
  destruct b; cbn; [|apply IH]. specialize (IH keep cs). lia.
Qed.

Lemma select_nth_In : forall (A : Type) (keep : list bool) (cs : list A) i x,
  nth_error cs i = Some x -> nth i keep false = true -> In x (select keep cs).
Proof.
  intros A keep. induction keep as [|b keep IH]; intros cs i x H1 H2; [destruct i; discriminate|].
  destruct cs as [|c cs]; [destruct i; discriminate|].
  destruct i as [|i]; cbn in H1, H2.
  - subst b. cbn. left. congruence.
  - destruct b; cbn; [right|]; eauto.
Qed.

(** The reason why a candidate is missing from the output. *)
Lemma prune_alpha_missing : forall sortf sp prm point cands c,
  sorts sortf -> prune_input_ok sp cands -> fgt f32_zero (bp_alpha prm) = false ->
  In c (firstn (bp_C prm) (sortf cands)) -> nid c <> point ->
  exists out, prune_alpha sortf sp prm point cands [] = Ok out /\
    (In (nid c) out \/ length out = bp_R prm \/
     exists k, In k cands /\ In (nid k) out /\ occludes sp (bp_alpha prm) k c).
Proof.
  intros sortf sp prm point cands c Hs Hin Hal Hc Hne.
  destruct (prune_alpha_exact sortf sp prm point cands Hs Hin Hal) as [keep [HK Eq]].
  exists (map nid (select keep (firstn (bp_C prm) (sortf cands)))). split; [auto|].
  pose proof (kept_length _ _ _ _ _ HK) as HR. destruct HK as [Hlen HK].
  apply In_nth_error in Hc. destruct Hc as [i Hi]. specialize (HK i c Hi).
  destruct (nth i keep false) eqn:Eb.
  - left. apply in_map. eapply select_nth_In; eauto.
  - right. pose proof (select_prefix_length _ i keep (firstn (bp_C prm) (sortf cands))) as Hpl.
    rewrite map_length.
    destruct (Nat.lt_ge_cases (length (select (firstn i keep) (firstn (bp_C prm) (sortf cands)))) (bp_R prm)) as [Hlt|Hge].
    + right. destruct (list_find _ (fun k => occludes sp (bp_alpha prm) k c) (fun k => occludes_dec sp _ k c)
        (select (firstn i keep) (firstn (bp_C prm) (sortf cands)))) as [[k [Hk Ho]]|Hno].
      * exists k. split; [|split; auto].
        -- apply select_In in Hk. apply In_firstn in Hk. destruct (Hs cands) as [P _]; [intros y Hy; apply Hin; auto|].
           apply (Permutation_in _ (Permutation_sym P)). auto.
        -- apply in_map. eapply select_prefix_In; eauto.
      * exfalso. assert (false = true) by (apply HK; auto). discriminate.
    + left. lia.
Qed.

Lemma prune_alpha_labels : forall sortf sp prm point cands c,
  sorts sortf -> prune_input_ok sp cands -> fgt f32_zero (bp_alpha prm) = false ->
  sp_filtered sp = true ->
  In c (firstn (bp_C prm) (sortf cands)) -> nid c <> point ->
  exists out, prune_alpha sortf sp prm point cands [] = Ok out /\
    (In (nid c) out \/ length out = bp_R prm \/
     exists k, In k out /\ forall x, In x (labels_of sp (nid c)) -> In x (labels_of sp k)).
Proof.
  intros sortf sp prm point cands c Hs Hin Hal Hf Hc Hne.
  destruct (prune_alpha_missing sortf sp prm point cands c Hs Hin Hal Hc Hne) as [out [E H]].
  exists out. split; auto. destruct H as [H|[H|[k [_ [Hk [[Hm|Hm] _]]]]]]; auto; [congruence|].
  right. right. exists (nid k). auto.
Qed.

(** ** Top-K *)
Lemma topk_loop_eq : forall R point l acc,
  topk_loop R point l acc = acc ++ firstn (R - length acc) (map nid (filter (fun z => negb (nid z =? point)) l)).
Proof.
  intros R point l. induction l as [|p l IH]; intros acc; cbn [topk_loop].
  - cbn. rewrite firstn_nil, app_nil_r. reflexivity.
  - destruct (length acc <? R) eqn:E.
    + apply Nat.ltb_lt in E. cbn [filter]. destruct (nid p =? point) eqn:Ep; cbn [negb]; rewrite IH; auto.
      rewrite app_length. cbn [length map].
      replace (R - length acc) with (S (R - (length acc + 1))) by lia. cbn [firstn]. rewrite <- app_assoc. reflexivity.
    + apply Nat.ltb_ge in E. replace (R - length acc) with 0 by lia. cbn. rewrite app_nil_r. reflexivity.
Qed.

Lemma Permutation_filter' : forall (A : Type) (f : A -> bool) l l', Permutation l l' -> Permutation (filter f l) (filter f l').
Proof.
  intros A f l l' H. induction H as [|x l l' H IH|x y l|l l' l'' H1 IH1 H2 IH2]; cbn; auto.
  - destruct (f x); auto.
  - destruct (f x), (f y); auto. apply perm_swap.
  - eapply Permutation_trans; eauto.
Qed.

Lemma ssorted_filter : forall (A : Type) (R : A -> A -> Prop) (f : A -> bool) l, StronglySorted R l -> StronglySorted R (filter f l).
Proof.
  intros A R f l H. induction H as [|x l HS IH HF]; cbn; [constructor|].
  destruct (f x); auto. constructor; auto. rewrite Forall_forall in *. intros y Hy. apply filter_In in Hy. apply HF. tauto.
Qed.

Lemma firstn_top_k : forall k (l : list neighbor), StronglySorted nle l ->
  is_top_k k (map nkey l) (map nkey (firstn k l)).
Proof.
  intros k l HS. exists (map nkey (skipn k l)). rewrite <- map_app, firstn_skipn. split; [reflexivity|].
  split; [rewrite !map_length, firstn_length; auto|].
  assert (G : StronglySorted no_farther (map nkey l)).
  { clear k. induction HS as [|x l HS IH HF]; cbn; constructor; auto.
    rewrite Forall_forall in *. intros y Hy. apply in_map_iff in Hy. destruct Hy as [z [<- Hz]]. apply (HF z Hz). }
  rewrite <- (firstn_skipn k l), map_app in G. apply ssorted_app in G. destruct G as [G1 [_ G3]].
  split; auto.
Qed.

Lemma prune_topk_spec : forall sortf prm point cands,
  sorts sortf -> (forall z, In z cands -> is_nan (ndist z) = false) ->
  exists out,
    prune_topk sortf prm point cands [] = Ok (map fst out) /\
    is_top_k (bp_R prm) (map (fun z => (nid z, ndist z)) (filter (fun z => negb (nid z =? point)) cands)) out.
Proof.
  intros sortf prm point cands Hs Hnan.
  exists (map nkey (firstn (bp_R prm) (filter (fun z => negb (nid z =? point)) (sortf cands)))).
  destruct (Hs cands Hnan) as [P HS]. split.
  - assert (E : prune_topk sortf prm point cands [] = Ok (topk_loop (bp_R prm) point (sortf cands) [])).
    { destruct cands; [|reflexivity]. rewrite sorts_nil by auto. reflexivity. }
    rewrite E, topk_loop_eq. cbn [app length]. rewrite Nat.sub_0_r, firstn_map, map_map. reflexivity.
  - eapply top_k_perm; [|apply firstn_top_k; apply ssorted_filter; exact HS].
    apply Permutation_map. apply Permutation_filter'. apply Permutation_sym. exact P.
Qed.
