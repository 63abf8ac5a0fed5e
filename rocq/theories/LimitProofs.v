(** * The limits of pruning: proofs. *)
From Coq Require Import ZArith String List Arith Lia Bool Sorting.Sorted Sorting.Permutation.
From Verif Require Import Base Float32 PoolModel TopKSpec SortSpec PruneModel PruneSpec SortInst PruneProofs LimitSpec ListLemmas LongerProofs.
Import ListNotations.

(** ** One more position *)
Lemma select_next : forall (A : Type) (keep : list bool) (cs : list A) i c, nth_error cs i = Some c -> i < length keep ->
  select (firstn (S i) keep) cs = select (firstn i keep) cs ++ (if nth i keep false then [c] else []).
Proof.
  intros A keep. induction keep as [|b keep IH]; intros cs i c Hc Hi; cbn in Hi; [lia|].
  destruct cs as [|x cs]; [destruct i; discriminate|]. destruct i as [|i].
  - cbn in Hc. injection Hc as ->. destruct b; cbn; destruct keep, cs; reflexivity.
  - cbn in Hc. change (firstn (S (S i)) (b :: keep)) with (b :: firstn (S i) keep).
    change (firstn (S i) (b :: keep)) with (b :: firstn i keep). cbn [nth].
    destruct b; cbn [select app]; rewrite (IH _ _ _ Hc) by lia; reflexivity.
Qed.

Lemma firstn_next : forall (A : Type) (l : list A) i c, nth_error l i = Some c -> firstn (S i) l = firstn i l ++ [c].
Proof.
  intros A l. induction l as [|x l IH]; intros i c H; [destruct i; discriminate|]. destruct i as [|i].
  - cbn in H. injection H as ->. reflexivity.
  - cbn in H. change (firstn (S (S i)) (x :: l)) with (x :: firstn (S i) l). rewrite (IH _ _ H). reflexivity.
Qed.

Lemma select_all : forall (A : Type) (keep : list bool) (cs : list A), length keep = length cs ->
  select (firstn (length cs) keep) cs = select keep cs.
Proof. intros A keep cs H. rewrite <- H, firstn_all. reflexivity. Qed.

Lemma sel_first : forall (A : Type) i (keep : list bool) (cs : list A) x, In x (select (firstn i keep) cs) -> In x (firstn i cs).
Proof.
  intros A i. induction i as [|i IH]; intros keep cs x H; [destruct H|]. destruct keep as [|b keep]; [destruct H|].
  destruct cs as [|c cs]; [destruct b; destruct H|]. destruct b; cbn [firstn select] in *.
  - destruct H as [<-|H]; [left; auto|right; eauto].
  - right. eauto.
Qed.

Lemma first_mem : forall (A : Type) i (l : list A) x, In x (firstn i l) -> In x l.
Proof. intros A i l x H. rewrite <- (firstn_skipn i l). apply in_or_app. auto. Qed.

Lemma first_nodup : forall (A : Type) i (l : list A), NoDup l -> NoDup (firstn i l).
Proof.
  intros A i. induction i as [|i IH]; intros l H; [constructor|]. destruct H as [|x l Hx Hl]; [constructor|].
  cbn. constructor; auto. intros Q. apply Hx. eapply first_mem; eauto.
Qed.

(** ** Larger limits *)
Lemma kept_within : forall occl R R' point cs cs' more keep keep', R <= R' -> cs' = cs ++ more ->
  kept occl R point cs keep -> kept occl R' point cs' keep' ->
  forall i, i <= length cs -> select (firstn i keep) cs = firstn R (select (firstn i keep') cs').
Proof.
  intros occl R R' point cs cs' more keep keep' HR E [L K] [L' K'] i. induction i as [|i IH]; intros Hi.
  - cbn. rewrite firstn_nil. reflexivity.
  - specialize (IH ltac:(lia)). destruct (nth_error cs i) as [c|] eqn:Hc; [|apply nth_error_None in Hc; lia].
    assert (Hc' : nth_error cs' i = Some c) by (rewrite E, nth_error_app1; [auto|lia]).
    assert (Ll : i < length keep') by (rewrite L', E, app_length; lia).
    rewrite (select_next _ keep cs i c Hc) by lia. rewrite (select_next _ keep' cs' i c Hc' Ll).
    set (s' := select (firstn i keep') cs') in *. specialize (K i c Hc). specialize (K' i c Hc'). fold s' in K'.
    rewrite IH in K |- *. destruct (Nat.lt_ge_cases (length s') R) as [Hlt|Hge].
    + assert (Es : firstn R s' = s') by (apply firstn_all2; lia). rewrite Es in K |- *.
      assert (Eb : nth i keep false = nth i keep' false).
      { apply eq_true_iff_eq. rewrite K, K'. intuition lia. }
      rewrite Eb. symmetry. apply firstn_all2. rewrite app_length. destruct (nth i keep' false); cbn; lia.
    + destruct (nth i keep false) eqn:Eb.
      * exfalso. destruct (proj1 K eq_refl) as [_ [Hl _]]. rewrite firstn_length in Hl. lia.
      * rewrite app_nil_r, firstn_app. replace (R - length s') with 0 by lia. cbn [firstn]. rewrite app_nil_r. reflexivity.
Qed.

Lemma select_firstn_longer : forall (A : Type) i (keep : list bool) (cs : list A), exists more, select keep cs = select (firstn i keep) cs ++ more.
Proof.
  intros A i. induction i as [|i IH]; intros keep cs; [eexists; reflexivity|].
  destruct keep as [|b keep]; [exists []; rewrite app_nil_r; reflexivity|]. destruct cs as [|x cs]; [exists []; destruct b; reflexivity|].
  destruct (IH keep cs) as [m H]. exists m. destruct b; cbn [firstn select]; rewrite H; reflexivity.
Qed.

Lemma prune_alpha_R : forall sortf sp prm point cands R out,
  sorts sortf -> prune_input_ok sp cands -> fgt f32_zero (bp_alpha prm) = false -> R <= bp_R prm ->
  prune_alpha sortf sp prm point cands [] = Ok out ->
  prune_alpha sortf sp (with_R prm R) point cands [] = Ok (firstn R out).
Proof.
  intros sortf sp prm point cands R out Hs Hin Hal HR E.
  destruct (prune_alpha_exact sortf sp prm point cands Hs Hin Hal) as [k' [K' E']].
  destruct (prune_alpha_exact sortf sp (with_R prm R) point cands Hs Hin Hal) as [k [K E1]].
  cbn [with_R bp_R bp_C bp_alpha] in *. rewrite E1. rewrite E in E'. injection E' as ->. f_equal.
  rewrite firstn_map. f_equal. set (cs := firstn (bp_C prm) (sortf cands)) in *.
  pose proof (kept_within _ R _ point cs cs [] k k' HR (eq_sym (app_nil_r _)) K K' (length cs) (le_n _)) as H.
  rewrite !select_all in H by (apply K || apply K'). exact H.
Qed.

Lemma kept_more : forall occl R point cs more keep keep',
  kept occl R point cs keep -> kept occl R point (cs ++ more) keep' ->
  exists rest, select keep' (cs ++ more) = select keep cs ++ rest.
Proof.
  intros occl R point cs more keep keep' K K'.
  pose proof (kept_within _ R R point cs (cs ++ more) more keep keep' (le_n _) eq_refl K K' (length cs) (le_n _)) as H.
  destruct (select_firstn_longer _ (length cs) keep' (cs ++ more)) as [m Hm]. exists m. rewrite Hm. f_equal.
  rewrite select_all in H by apply K. rewrite H. symmetry. apply firstn_all2.
  pose proof (kept_length _ _ _ _ _ K') as Hl. rewrite Hm, app_length in Hl. lia.
Qed.

Lemma firstn_more : forall (A : Type) (l : list A) a b, a <= b -> exists m, firstn b l = firstn a l ++ m.
Proof.
  intros A l a b H. exists (skipn a (firstn b l)). rewrite <- (firstn_skipn a (firstn b l)) at 1. f_equal.
  rewrite firstn_firstn, Nat.min_l by lia. reflexivity.
Qed.

Lemma prune_alpha_C : forall sortf sp prm point cands C out,
  sorts sortf -> prune_input_ok sp cands -> fgt f32_zero (bp_alpha prm) = false -> bp_C prm <= C ->
  prune_alpha sortf sp prm point cands [] = Ok out ->
  exists out', prune_alpha sortf sp (with_C prm C) point cands [] = Ok out' /\ begins out out'.
Proof.
  intros sortf sp prm point cands C out Hs Hin Hal HC E.
  destruct (prune_alpha_exact sortf sp prm point cands Hs Hin Hal) as [k [K E1]].
  destruct (prune_alpha_exact sortf sp (with_C prm C) point cands Hs Hin Hal) as [k' [K' E']].
  cbn [with_C bp_R bp_C bp_alpha] in *. rewrite E in E1. injection E1 as ->.
  destruct (firstn_more _ (sortf cands) _ _ HC) as [m Hm]. rewrite Hm in K', E'.
  destruct (kept_more _ _ _ _ _ _ _ K K') as [rest Hr]. eexists. split; [exact E'|]. exists (map nid rest).
  rewrite Hr, map_app. reflexivity.
Qed.

Lemma prune_topk_R : forall sortf prm point cands R out, R <= bp_R prm ->
  prune_topk sortf prm point cands [] = Ok out ->
  prune_topk sortf (with_R prm R) point cands [] = Ok (firstn R out).
Proof.
  intros sortf prm point cands R out HR E. destruct cands as [|c cands]; cbn [prune_topk] in *.
  - injection E as <-. rewrite firstn_nil. reflexivity.
  - injection E as <-. cbn [with_R bp_R]. rewrite !topk_loop_eq. cbn [app length]. rewrite !Nat.sub_0_r, firstn_firstn, Nat.min_l by lia. reflexivity.
Qed.

(** ** Nothing occluded *)
Lemma kept_free : forall occl R point cs keep,
  kept occl R point cs keep -> NoDup (map nid cs) ->
  (forall k c, In k cs -> In c cs -> nid k <> nid c -> ~ occl k c) ->
  select keep cs = firstn R (filter (fun z => negb (nid z =? point)) cs).
Proof.
  intros occl R point cs keep [L K] ND H.
  assert (G : forall i, i <= length cs ->
    select (firstn i keep) cs = firstn R (filter (fun z => negb (nid z =? point)) (firstn i cs))).
  { induction i as [|i IH]; intros Hi; [cbn; rewrite firstn_nil; reflexivity|]. specialize (IH ltac:(lia)).
    destruct (nth_error cs i) as [c|] eqn:Hc; [|apply nth_error_None in Hc; lia].
    rewrite (select_next _ keep cs i c Hc) by lia. rewrite (firstn_next _ _ _ _ Hc), filter_app.
    specialize (K i c Hc). set (s := select (firstn i keep) cs) in *.
    assert (Hk : forall k, In k s -> ~ occl k c).
    { intros k Hk. apply sel_first in Hk. destruct (In_nth_error _ _ Hk) as [j Hj].
      assert (Hji : j < i) by (assert (j < length (firstn i cs)) by (apply nth_error_Some; rewrite Hj; discriminate); rewrite firstn_length in *; lia).
      rewrite nth_error_firstn_lt in Hj by auto. apply H; [eapply nth_error_In; eauto|eapply nth_error_In; eauto|].
      intros Eq. assert (j = i); [|lia]. apply (proj1 (NoDup_nth_error (map nid cs)) ND); [rewrite map_length; lia|].
      rewrite !nth_error_map, Hj, Hc. cbn. rewrite Eq. reflexivity. }
    set (f := filter (fun z => negb (nid z =? point)) (firstn i cs)) in *. cbn [filter].
    destruct (nid c =? point) eqn:Ep; cbn [negb].
    - apply Nat.eqb_eq in Ep. destruct (nth i keep false); [exfalso; apply (proj1 (proj1 K eq_refl)); auto|].
      rewrite !app_nil_r. exact IH.
    - apply Nat.eqb_neq in Ep. rewrite firstn_app, <- IH. f_equal.
      assert (Ls : length s = min R (length f)) by (rewrite IH, firstn_length; reflexivity).
      destruct (Nat.lt_ge_cases (length f) R) as [Hl|Hl].
      + assert (Eb : nth i keep false = true) by (apply K; repeat split; auto; lia). rewrite Eb.
        destruct (R - length f) as [|q] eqn:Eq; [lia|]. destruct q; reflexivity.
      + replace (R - length f) with 0 by lia. destruct (nth i keep false); [|reflexivity].
        destruct (proj1 K eq_refl) as [_ [Hx _]]. lia. }
  specialize (G (length cs) (le_n _)). rewrite select_all, firstn_all in G by auto. exact G.
Qed.

Lemma prune_alpha_free : forall sortf sp prm point cands,
  sorts sortf -> prune_input_ok sp cands -> fgt f32_zero (bp_alpha prm) = false ->
  length cands <= bp_C prm -> NoDup (map nid cands) ->
  (forall k c, In k cands -> In c cands -> nid k <> nid c -> flt (bp_alpha prm) (fdiv (ndist c) (sp_pd sp (nid c) (nid k))) = false) ->
  prune_alpha sortf sp prm point cands [] = prune_topk sortf prm point cands [].
Proof.
  intros sortf sp prm point cands Hs Hin Hal HC ND H.
  destruct (prune_alpha_exact sortf sp prm point cands Hs Hin Hal) as [keep [K E]]. rewrite E. clear E.
  destruct (Hs cands) as [P _]; [intros z Hz; apply Hin; auto|].
  rewrite firstn_all2 in K |- * by (rewrite <- (Permutation_length P); auto).
  rewrite (kept_free _ _ _ _ _ K).
  - destruct cands as [|c cands].
    + rewrite sorts_nil by auto. cbn. rewrite firstn_nil. reflexivity.
    + cbn [prune_topk]. rewrite topk_loop_eq. cbn [app length]. rewrite Nat.sub_0_r, firstn_map. reflexivity.
  - eapply Permutation_NoDup; [|exact ND]. apply Permutation_map. exact P.
  - intros k c Hk Hc Hn [_ Ho]. rewrite H in Ho; [discriminate| | |auto]; apply (Permutation_in _ (Permutation_sym P)); assumption.
Qed.

(** ** Sorting without ties *)
Lemma sorted_one : forall (l1 l2 : list neighbor),
  (forall x y, In x l1 -> In y l1 -> fle (ndist x) (ndist y) = true -> fle (ndist y) (ndist x) = true -> x = y) ->
  Permutation l1 l2 ->
  StronglySorted (fun x y => fle (ndist x) (ndist y) = true) l1 ->
  StronglySorted (fun x y => fle (ndist x) (ndist y) = true) l2 -> l1 = l2.
Proof.
  induction l1 as [|x l1 IH]; intros l2 T P S1 S2.
  - apply Permutation_nil in P. auto.
  - destruct l2 as [|y l2]; [apply Permutation_sym, Permutation_nil in P; discriminate|].
    assert (E : x = y).
    { inversion S1 as [|? ? _ F1]; subst. inversion S2 as [|? ? _ F2]; subst. rewrite Forall_forall in F1, F2.
      assert (Hy : In y (x :: l1)) by (eapply Permutation_in; [apply Permutation_sym, P|left; auto]).
      assert (Hx : In x (y :: l2)) by (eapply Permutation_in; [exact P|left; auto]).
      destruct Hy as [Hy|Hy]; [auto|]. destruct Hx as [Hx|Hx]; [auto|]. apply T; [left; auto|right; auto| |]; auto. }
    subst y. f_equal. apply IH.
    + intros a b Ha Hb. apply T; right; auto.
    + eapply Permutation_cons_inv; eauto.
    + inversion S1; auto.
    + inversion S2; auto.
Qed.

Lemma tagged_one : forall d ids, no_two_equal d ids -> forall x y, In x (tagged d ids) -> In y (tagged d ids) ->
  fle (ndist x) (ndist y) = true -> fle (ndist y) (ndist x) = true -> x = y.
Proof.
  intros d ids H x y Hx Hy A B. apply in_map_iff in Hx. apply in_map_iff in Hy. destruct Hx as [i [<- Hi]]. destruct Hy as [j [<- Hj]].
  cbn [ndist] in *. destruct (Nat.eq_dec i j) as [->|Hn]; [reflexivity|]. pose proof (fle_both _ _ A B) as C. rewrite (H i j Hi Hj Hn) in C. discriminate.
Qed.

(** ** Leaving out rejected candidates *)
Lemma kept_thin : forall occl R point cs keep, kept occl R point cs keep ->
  forall m keep', length m = length cs -> (forall i, nth i keep false = true -> nth i m false = true) ->
  kept occl R point (select m cs) keep' -> select keep' (select m cs) = select keep cs.
Proof.
  intros occl R point cs keep [L K] m keep' Lm Hm [L' K'].
  assert (G : forall i, i <= length cs -> exists j, select (firstn i m) cs = firstn j (select m cs) /\ j <= length (select m cs) /\
    select (firstn j keep') (select m cs) = select (firstn i keep) cs).
  { induction i as [|i IH]; intros Hi; [exists 0; cbn; repeat split; auto; lia|].
    destruct (IH ltac:(lia)) as [j [A [Lj B]]].
    destruct (nth_error cs i) as [c|] eqn:Hc; [|apply nth_error_None in Hc; lia].
    rewrite (select_next _ keep cs i c Hc) by lia. rewrite (select_next _ m cs i c Hc) by lia.
    destruct (nth i m false) eqn:Em.
    - assert (Hj : nth_error (select m cs) j = Some c).
      { destruct (select_firstn_longer _ (S i) m cs) as [q Hq]. rewrite (select_next _ m cs i c Hc), Em in Hq by lia.
        rewrite Hq, <- app_assoc, A. assert (Hl : length (firstn j (select m cs)) = j) by (rewrite firstn_length; lia).
        rewrite nth_error_app2 by lia. rewrite Hl, Nat.sub_diag. reflexivity. }
      assert (Hjl : j < length (select m cs)) by (apply nth_error_Some; rewrite Hj; discriminate).
      exists (S j). split; [rewrite (firstn_next _ _ _ _ Hj), A; reflexivity|]. split; [lia|].
      rewrite (select_next _ keep' _ j c Hj) by lia. rewrite B. f_equal.
      specialize (K i c Hc). specialize (K' j c Hj). rewrite B in K'.
      assert (Eb : nth j keep' false = nth i keep false) by (apply eq_true_iff_eq; rewrite K, K'; tauto). rewrite Eb. reflexivity.
    - exists j. rewrite app_nil_r. split; [exact A|]. split; [exact Lj|].
      destruct (nth i keep false) eqn:Ek; [rewrite (Hm i Ek) in Em; discriminate|]. rewrite app_nil_r. exact B. }
  destruct (G (length cs) (le_n _)) as [j [A [Lj B]]]. rewrite !select_all in * by auto. rewrite <- B. f_equal.
  assert (j = length (select m cs)); [|subst j; rewrite <- L', firstn_all; reflexivity].
  pose proof (f_equal (@length _) A) as Hx. rewrite firstn_length in Hx. lia.
Qed.

(** Members of [ids2] marked in a list. *)
Lemma select_filter : forall (A : Type) (f : A -> bool) (l : list A), select (map f l) l = filter f l.
Proof. intros A f l. induction l as [|x l IH]; [reflexivity|]. cbn. destruct (f x); rewrite IH; reflexivity. Qed.

Lemma keep_marks : forall (keep : list bool) (cs : list neighbor) (f : neighbor -> bool), length keep = length cs ->
  (forall x, In x (select keep cs) -> f x = true) ->
  forall i, nth i keep false = true -> nth i (map f cs) false = true.
Proof.
  intros keep cs f L H i Hi. destruct (nth_error cs i) as [c|] eqn:Hc.
  - assert (Hin : In c (select keep cs)).
    { assert (Hl : i < length keep) by (rewrite L; apply nth_error_Some; rewrite Hc; discriminate).
      destruct (select_firstn_longer _ (S i) keep cs) as [q Hq]. rewrite Hq, (select_next _ keep cs i c Hc Hl), Hi.
      apply in_or_app. left. apply in_or_app. right. left. reflexivity. }
    assert (E : nth_error (map f cs) i = Some true) by (rewrite nth_error_map, Hc; cbn; rewrite (H c Hin); reflexivity).
    exact (nth_error_nth _ _ false E).
  - apply nth_error_None in Hc. rewrite nth_overflow in Hi by lia. discriminate.
Qed.

Definition among (ids : list nat) (z : neighbor) : bool := if in_dec Nat.eq_dec (nid z) ids then true else false.

Lemma among_iff : forall ids z, among ids z = true <-> In (nid z) ids.
Proof. intros ids z. unfold among. destruct (in_dec Nat.eq_dec (nid z) ids); split; auto; discriminate. Qed.

Lemma tagged_ids : forall d ids, map nid (tagged d ids) = ids.
Proof. intros d ids. unfold tagged. rewrite map_map. cbn. apply map_id. Qed.

Lemma tagged_filter : forall d ids sub, NoDup ids -> NoDup sub -> (forall i, In i sub -> In i ids) ->
  Permutation (tagged d sub) (filter (among sub) (tagged d ids)).
Proof.
  intros d ids sub N1 N2 H. apply NoDup_Permutation.
  - apply (NoDup_map_inv nid). rewrite tagged_ids. exact N2.
  - apply NoDup_filter. apply (NoDup_map_inv nid). rewrite tagged_ids. exact N1.
  - intros z. rewrite filter_In, among_iff. unfold tagged. rewrite !in_map_iff. split.
    + intros [i [<- Hi]]. split; [exists i; auto|exact Hi].
    + intros [[i [<- Hi]] Hz]. exists i. auto.
Qed.

Lemma sort_sub : forall sortf d ids sub, sorts sortf -> (forall i, In i ids -> is_nan (d i) = false) ->
  NoDup ids -> NoDup sub -> (forall i, In i sub -> In i ids) -> no_two_equal d ids ->
  sortf (tagged d sub) = filter (among sub) (sortf (tagged d ids)).
Proof.
  intros sortf d ids sub Hs Hn N1 N2 Hsub HT.
  destruct (Hs (tagged d ids)) as [P1 S1]; [intros z Hz; apply in_map_iff in Hz; destruct Hz as [i [<- Hi]]; cbn; auto|].
  destruct (Hs (tagged d sub)) as [P2 S2]; [intros z Hz; apply in_map_iff in Hz; destruct Hz as [i [<- Hi]]; cbn; auto|].
  apply sorted_one; auto.
  - intros x y Hx Hy. apply (tagged_one d sub); [intros a b Ha Hb; apply HT; auto| |]; apply (Permutation_in _ (Permutation_sym P2)); assumption.
  - eapply Permutation_trans; [apply Permutation_sym, P2|]. eapply Permutation_trans; [apply (tagged_filter d ids sub N1 N2 Hsub)|].
    apply Permutation_filter'. exact P1.
  - apply ssorted_filter. exact S1.
Qed.

Lemma input_sub : forall sp d ids sub, prune_input_ok sp (tagged d ids) -> (forall i, In i sub -> In i ids) -> prune_input_ok sp (tagged d sub).
Proof.
  intros sp d ids sub [H1 H2] H. split; auto. intros z Hz. apply H1. apply in_map_iff in Hz. destruct Hz as [i [<- Hi]].
  apply in_map_iff. exists i. auto.
Qed.

Lemma input_num : forall sp d ids, prune_input_ok sp (tagged d ids) -> forall i, In i ids -> is_nan (d i) = false.
Proof. intros sp d ids [H _] i Hi. apply (H (mkN i (d i) true)). apply in_map_iff. exists i. auto. Qed.

Lemma sorted_in : forall sortf sp d ids, sorts sortf -> prune_input_ok sp (tagged d ids) ->
  Permutation (tagged d ids) (sortf (tagged d ids)).
Proof. intros sortf sp d ids Hs [H _]. apply Hs. intros z Hz. apply H. exact Hz. Qed.

Lemma thin : forall sortf sp prm point d ids sub out,
  sorts sortf -> prune_input_ok sp (tagged d ids) -> fgt f32_zero (bp_alpha prm) = false ->
  NoDup ids -> no_two_equal d ids -> length ids <= bp_C prm ->
  prune_alpha sortf sp prm point (tagged d ids) [] = Ok out ->
  NoDup sub -> (forall i, In i sub -> In i ids) -> (forall i, In i out -> In i sub) ->
  prune_alpha sortf sp prm point (tagged d sub) [] = Ok out.
Proof.
  intros sortf sp prm point d ids sub out Hs Hin Hal N1 HT HC E N2 Hsub Hout.
  destruct (prune_alpha_exact sortf sp prm point (tagged d ids) Hs Hin Hal) as [k [K E1]].
  destruct (prune_alpha_exact sortf sp prm point (tagged d sub) Hs (input_sub _ _ _ _ Hin Hsub) Hal) as [k' [K' E2]].
  rewrite E in E1. injection E1 as E1. rewrite E2. clear E2. f_equal. rewrite E1. f_equal.
  pose proof (Permutation_length (sorted_in sortf sp d ids Hs Hin)) as L1.
  pose proof (Permutation_length (sorted_in sortf sp d sub Hs (input_sub _ _ _ _ Hin Hsub))) as L2.
  unfold tagged in L1 at 1. unfold tagged in L2 at 1. rewrite map_length in L1, L2.
  assert (Lsub : length sub <= length ids) by (apply NoDup_incl_length; auto).
  rewrite firstn_all2 in K, E1 |- * by lia. rewrite firstn_all2 in K' |- * by lia.
  rewrite (sort_sub sortf d ids sub) in K' |- * by (auto; apply (input_num sp d ids Hin)).
  rewrite <- select_filter in K' |- *. refine (kept_thin _ _ _ _ _ K _ _ _ _ K'); [apply map_length|].
  apply keep_marks; [apply K|]. intros x Hx. apply among_iff. apply Hout. rewrite E1. apply in_map. exact Hx.
Qed.

Lemma again : forall sortf sp prm point d ids out,
  sorts sortf -> prune_input_ok sp (tagged d ids) -> fgt f32_zero (bp_alpha prm) = false ->
  NoDup ids -> no_two_equal d ids ->
  prune_alpha sortf sp prm point (tagged d ids) [] = Ok out ->
  prune_alpha sortf sp prm point (tagged d out) [] = Ok out.
Proof.
  intros sortf sp prm point d ids out Hs Hin Hal N1 HT E.
  destruct (prune_alpha_exact sortf sp prm point (tagged d ids) Hs Hin Hal) as [k [K E1]].
  rewrite E in E1. injection E1 as E1. pose proof (sorted_in sortf sp d ids Hs Hin) as P.
  set (cs := firstn (bp_C prm) (sortf (tagged d ids))) in *.
  assert (Ncs : NoDup (map nid cs)).
  { unfold cs. rewrite <- firstn_map. apply first_nodup. eapply Permutation_NoDup; [apply Permutation_map; exact P|]. rewrite tagged_ids. exact N1. }
  assert (Hsub : forall i, In i out -> In i ids).
  { intros i Hi. rewrite E1 in Hi. apply in_map_iff in Hi. destruct Hi as [z [<- Hz]]. apply select_In in Hz.
    apply first_mem in Hz. apply (Permutation_in _ (Permutation_sym P)) in Hz. rewrite <- (tagged_ids d ids). apply in_map. exact Hz. }
  assert (Nout : NoDup out).
  { rewrite E1. clear - Ncs. revert k. induction cs as [|c cs IH]; intros k; [destruct k as [|[] ?]; constructor|].
    cbn in Ncs. inversion Ncs as [|? ? Hc Hr]; subst. destruct k as [|[] k]; cbn; [constructor| |apply IH; auto].
    constructor; [|apply IH; auto]. intros H. apply Hc. apply in_map_iff in H. destruct H as [z [Ez Hz]]. apply select_In in Hz.
    rewrite <- Ez. apply in_map. exact Hz. }
  destruct (prune_alpha_exact sortf sp prm point (tagged d out) Hs (input_sub _ _ _ _ Hin Hsub) Hal) as [k' [K' E2]].
  rewrite E2. clear E2. f_equal. rewrite E1 at 2. f_equal.
  assert (Es : firstn (bp_C prm) (sortf (tagged d out)) = select (map (among out) cs) cs).
  { rewrite select_filter. rewrite (sort_sub sortf d ids out) by (auto; apply (input_num sp d ids Hin)).
    rewrite <- (firstn_skipn (bp_C prm) (sortf (tagged d ids))). fold cs. rewrite filter_app.
    assert (Z : filter (among out) (skipn (bp_C prm) (sortf (tagged d ids))) = []).
    { destruct (filter (among out) (skipn (bp_C prm) (sortf (tagged d ids)))) as [|z q] eqn:Eq; [reflexivity|exfalso].
      assert (Hz : In z (filter (among out) (skipn (bp_C prm) (sortf (tagged d ids))))) by (rewrite Eq; left; reflexivity).
      apply filter_In in Hz. destruct Hz as [Hz Ha]. apply among_iff in Ha. rewrite E1 in Ha. apply in_map_iff in Ha.
      destruct Ha as [w [Ew Hw]]. apply select_In in Hw.
      assert (Nall : NoDup (map nid (cs ++ skipn (bp_C prm) (sortf (tagged d ids))))).
      { unfold cs. rewrite firstn_skipn. eapply Permutation_NoDup; [apply Permutation_map; exact P|]. rewrite tagged_ids. exact N1. }
      rewrite map_app in Nall. clear - Nall Hz Hw Ew. revert Nall. induction cs as [|c cs IH]; [destruct Hw|]. intros N.
      cbn in N. inversion N as [|? ? Hc Hr]; subst. destruct Hw as [->|Hw]; [|apply IH; auto].
      apply Hc. apply in_or_app. right. rewrite Ew. apply in_map. exact Hz. }
    rewrite Z, app_nil_r. apply firstn_all2.
    eapply Nat.le_trans; [|apply (firstn_le_length (bp_C prm) (sortf (tagged d ids)))]. fold cs.
    clear. induction cs as [|c cs IH]; cbn; [lia|]. destruct (among out c); cbn; lia. }
  rewrite Es in K' |- *. refine (kept_thin _ _ _ _ _ K _ _ _ _ K'); [apply map_length|].
  apply keep_marks; [apply K|]. intros x Hx. apply among_iff. rewrite E1. apply in_map. exact Hx.
Qed.

(** ** Farther candidates *)
Lemma farther : forall sortf sp prm point d ids more out,
  sorts sortf -> prune_input_ok sp (tagged d (ids ++ more)) -> fgt f32_zero (bp_alpha prm) = false ->
  NoDup (ids ++ more) -> no_two_equal d ids ->
  (forall i j, In i ids -> In j more -> flt (d i) (d j) = true) ->
  prune_alpha sortf sp prm point (tagged d ids) [] = Ok out ->
  exists out', prune_alpha sortf sp prm point (tagged d (ids ++ more)) [] = Ok out' /\ begins out out'.
Proof.
  intros sortf sp prm point d ids more out Hs Hin Hal N HT Hf E.
  assert (Hsub : forall i, In i ids -> In i (ids ++ more)) by (intros i Hi; apply in_or_app; auto).
  destruct (prune_alpha_exact sortf sp prm point (tagged d ids) Hs (input_sub _ _ _ _ Hin Hsub) Hal) as [k [K E1]].
  destruct (prune_alpha_exact sortf sp prm point (tagged d (ids ++ more)) Hs Hin Hal) as [k' [K' E2]].
  rewrite E in E1. injection E1 as ->.
  assert (Es : exists s2, sortf (tagged d (ids ++ more)) = sortf (tagged d ids) ++ s2).
  { destruct (Hs (tagged d (ids ++ more))) as [P S]; [intros z Hz; apply Hin; auto|].
    destruct (Hs (tagged d ids)) as [P1 S1]; [intros z Hz; apply (input_sub _ _ _ _ Hin Hsub); auto|].
    set (s := sortf (tagged d (ids ++ more))) in *.
    assert (Sp : s = filter (among ids) s ++ filter (fun z => negb (among ids z)) s).
    { assert (Hx : forall x y, In x s -> In y s -> among ids x = false -> among ids y = true -> fle (ndist x) (ndist y) = false).
      { intros x y Hx Hy Fx Fy. apply (Permutation_in _ (Permutation_sym P)) in Hx, Hy.
        apply in_map_iff in Hx. apply in_map_iff in Hy. destruct Hx as [i [<- Hi]]. destruct Hy as [j [<- Hj]]. cbn [nid ndist] in *.
        apply among_iff in Fy. cbn in Fy. apply flt_fle_false. apply Hf; auto. apply in_app_or in Hi. destruct Hi as [Hi|Hi]; [|exact Hi].
        exfalso. assert (among ids (mkN i (d i) true) = true) by (apply among_iff; auto). congruence. }
      clear - S Hx. induction S as [|x s Ss IH F]; [reflexivity|]. cbn [filter]. rewrite Forall_forall in F.
      destruct (among ids x) eqn:Ea; cbn [negb].
      - cbn [app]. f_equal. apply IH. intros a b Ha Hb. apply Hx; right; auto.
      - assert (Z : filter (among ids) s = []).
        { destruct (filter (among ids) s) as [|z q] eqn:Eq; [reflexivity|exfalso].
          assert (Hz : In z (filter (among ids) s)) by (rewrite Eq; left; reflexivity). apply filter_In in Hz. destruct Hz as [Hz Az].
          pose proof (F z Hz) as A1. rewrite (Hx x z) in A1; [discriminate|left; auto|right; auto|auto|auto]. }
        rewrite Z. cbn [app]. f_equal. rewrite Z in IH. cbn [app] in IH. apply IH. intros a b Ha Hb. apply Hx; right; auto. }
    exists (filter (fun z => negb (among ids z)) s). rewrite Sp at 1. f_equal. symmetry. apply sorted_one; auto.
    - intros x y Hx Hy. apply (tagged_one d ids HT); apply (Permutation_in _ (Permutation_sym P1)); assumption.
    - eapply Permutation_trans; [apply Permutation_sym, P1|]. eapply Permutation_trans; [|apply Permutation_filter'; exact P].
      apply tagged_filter; auto. clear - N. induction ids as [|i ids IH]; [constructor|]. cbn in N. inversion N as [|? ? Hi Hr]; subst.
      constructor; auto. intros H. apply Hi. apply in_or_app. auto.
    - apply ssorted_filter. exact S. }
  destruct Es as [s2 Es]. rewrite Es in K', E2.
  assert (Ef : exists m, firstn (bp_C prm) (sortf (tagged d ids) ++ s2) = firstn (bp_C prm) (sortf (tagged d ids)) ++ m) by (rewrite firstn_app; eexists; reflexivity).
  destruct Ef as [m Ef]. rewrite Ef in K', E2.
  destruct (kept_more _ _ _ _ _ _ _ K K') as [rest Hr]. eexists. split; [exact E2|]. exists (map nid rest).
  rewrite Hr, map_app. reflexivity.
Qed.
