(** * Greedy search with a longer list makes the same expansions first. *)
From Coq Require Import String List Arith Lia Bool Sorting.Sorted Sorting.Permutation Floats.SpecFloat.
From Verif Require Import Base Float32 PoolModel TopKSpec SortSpec GraphSpec GreedyModel ListLemmas PoolProofs PoolProofs2 GreedyProofs LongerSpec.
Import ListNotations.

(** ** The k nearest of a larger collection *)
Lemma top_k_dominates : forall k k' c c' out out', is_top_k k c out -> is_top_k k' c' out' -> k <= k' ->
  NoDup c -> incl c c' -> (forall z, In z c' -> is_nan (snd z) = false) ->
  forall i x, nth_error out i = Some x -> exists y, nth_error out' i = Some y /\ no_farther y x.
Proof.
  intros k k' c c' out out' [rest [P [Hl [S R]]]] [rest' [P' [Hl' [S' R']]]] Hk Nd I Hn i x Hx.
  assert (Hi : i < length out) by (apply nth_error_Some; congruence).
  assert (Hcc : length c <= length c') by (apply NoDup_incl_length; auto).
  assert (Hi' : i < length out') by lia.
  destruct (nth_error out' i) as [y|] eqn:Ey; [|apply nth_error_None in Ey; lia].
  exists y. split; [reflexivity|]. unfold no_farther. destruct (fle (snd y) (snd x)) eqn:E; [reflexivity|exfalso].
  assert (Iout : forall z, In z out -> In z c').
  { intros z Hz. apply I. apply (Permutation_in _ (Permutation_sym P)). apply in_or_app. auto. }
  assert (Hsort : forall (l : list scored) a b u v, by_distance l -> (forall z, In z l -> is_nan (snd z) = false) -> a <= b ->
    nth_error l a = Some u -> nth_error l b = Some v -> no_farther u v).
  { intros l. induction l as [|w l IH]; intros a b u v Hs Hnl Hab Hu Hv; [destruct a; discriminate|].
    apply StronglySorted_inv in Hs. destruct Hs as [Hs Hf]. destruct a as [|a].
    - cbn in Hu. injection Hu as <-. destruct b as [|b].
      + cbn in Hv. injection Hv as <-. unfold no_farther. apply fle_refl. apply Hnl. left. reflexivity.
      + cbn in Hv. rewrite Forall_forall in Hf. apply Hf. eapply nth_error_In; eauto.
    - destruct b as [|b]; [lia|]. cbn in Hu, Hv. apply (IH a b); auto; [intros; apply Hnl; right; auto|lia]. }
  assert (Iout' : forall z, In z out' -> is_nan (snd z) = false).
  { intros z Hz. apply Hn. apply (Permutation_in _ (Permutation_sym P')). apply in_or_app. auto. }
  assert (Hinc : incl (firstn (Datatypes.S i) out) (firstn i out')).
  { intros z Hz. destruct (In_nth_error _ _ Hz) as [a Ha].
    assert (La : a < length (firstn (Datatypes.S i) out)) by (apply nth_error_Some; congruence). rewrite firstn_length in La.
    rewrite nth_error_firstn_lt in Ha by lia.
    assert (Zx : no_farther z x) by (apply (Hsort out a i); auto; lia).
    assert (Zc : In z c') by (apply Iout; eapply nth_error_In; eauto).
    apply (Permutation_in _ P') in Zc. apply in_app_or in Zc. destruct Zc as [Zc|Zc].
    - destruct (In_nth_error _ _ Zc) as [b Hb]. destruct (le_lt_dec i b) as [Hib|Hib].
      + exfalso. assert (Yz : no_farther y z) by (apply (Hsort out' i b); auto).
        unfold no_farther in *. rewrite (fle_trans _ _ _ Yz Zx) in E. discriminate.
      + apply nth_error_In with (n := b). rewrite nth_error_firstn_lt by lia. exact Hb.
    - exfalso. assert (Yz : no_farther y z) by (apply R'; auto; eapply nth_error_In; eauto).
      unfold no_farther in *. rewrite (fle_trans _ _ _ Yz Zx) in E. discriminate. }
  assert (Nd2 : NoDup (firstn (Datatypes.S i) out)).
  { apply (Permutation_NoDup P) in Nd. apply NoDup_app_l in Nd.
    rewrite <- (firstn_skipn (Datatypes.S i) out) in Nd. apply NoDup_app_l in Nd. exact Nd. }
  pose proof (NoDup_incl_length Nd2 Hinc) as Hle. rewrite !firstn_length in Hle. lia.
Qed.

(** Without ties there is only one answer. *)
Lemma sorted_unique : forall l l' : list scored, by_distance l -> by_distance l' -> NoDup l -> NoDup l' ->
  (forall z, In z l <-> In z l') -> (forall u v, In u l -> In v l -> no_farther u v -> no_farther v u -> u = v) -> l = l'.
Proof.
  intros l. induction l as [|a l IH]; intros l' S S' N N' H T.
  - destruct l' as [|b l']; [reflexivity|]. exfalso. apply (proj2 (H b)). left. reflexivity.
  - destruct l' as [|b l']; [exfalso; apply (proj1 (H a)); left; reflexivity|].
    apply StronglySorted_inv in S. destruct S as [S F]. apply StronglySorted_inv in S'. destruct S' as [S' F'].
    rewrite Forall_forall in F, F'. apply NoDup_cons_iff in N. destruct N as [N0 N]. apply NoDup_cons_iff in N'. destruct N' as [N0' N'].
    assert (a = b).
    { destruct (proj1 (H a) (or_introl eq_refl)) as [E|Ha]; [auto|]. destruct (proj2 (H b) (or_introl eq_refl)) as [E|Hb]; [auto|].
      apply T; [left; auto|right; exact Hb|apply F; exact Hb|apply F'; exact Ha]. }
    subst b. f_equal. apply IH; auto.
    + intros z. split; intros Hz.
      * destruct (proj1 (H z) (or_intror Hz)) as [->|Hz']; [contradiction|exact Hz'].
      * destruct (proj2 (H z) (or_intror Hz)) as [->|Hz']; [contradiction|exact Hz'].
    + intros u v Hu Hv. apply T; right; auto.
Qed.

Lemma top_k_unique : forall k c o1 o2, is_top_k k c o1 -> is_top_k k c o2 -> NoDup c ->
  (forall u v, In u c -> In v c -> no_farther u v -> no_farther v u -> u = v) -> o1 = o2.
Proof.
  intros k c o1 o2 [r1 [P1 [L1 [S1 R1]]]] [r2 [P2 [L2 [S2 R2]]]] N T.
  assert (N1 : NoDup (o1 ++ r1)) by (apply (Permutation_NoDup P1 N)).
  assert (N2 : NoDup (o2 ++ r2)) by (apply (Permutation_NoDup P2 N)).
  assert (I1 : forall z, In z (o1 ++ r1) -> In z c) by (intros z; apply Permutation_in; symmetry; exact P1).
  assert (I2 : forall z, In z (o2 ++ r2) -> In z c) by (intros z; apply Permutation_in; symmetry; exact P2).
  assert (G : forall a ra b rb, Permutation c (a ++ ra) -> Permutation c (b ++ rb) -> length a = length b -> NoDup (a ++ ra) -> NoDup (b ++ rb) ->
    (forall x y, In x a -> In y ra -> no_farther x y) -> (forall x y, In x b -> In y rb -> no_farther x y) -> incl a b).
  { intros a ra b rb Pa Pb Lab Na Nb Ra Rb x Hx.
    assert (Hxc : In x c) by (apply (Permutation_in _ (Permutation_sym Pa)); apply in_or_app; auto).
    destruct (in_app_or _ _ _ (Permutation_in _ Pb Hxc)) as [Hb|Hb]; [exact Hb|exfalso].
    (* some y of b is not in a *)
    assert (Hy : exists y, In y b /\ ~ In y a).
    { destruct (incl_Forall_in_iff b a) as [_ _]. clear -Lab Hx Hb Nb Na.
      assert (Dec : forall u v : scored, {u = v} + {u <> v}) by (unfold scored; repeat decide equality).
      destruct (Forall_Exists_dec (fun y => In y a) (fun y => in_dec Dec y a) b) as [A|A].
      - exfalso. rewrite Forall_forall in A. assert (incl a b).
        { apply NoDup_length_incl; [apply NoDup_app_l in Nb; exact Nb|lia|exact A]. }
        assert (Hn : forall (l1 l2 : list scored) z, NoDup (l1 ++ l2) -> In z l1 -> In z l2 -> False).
        { clear. intros l1. induction l1 as [|w l1 IH]; intros l2 z Nd H1 H2; [destruct H1|]. cbn in Nd. apply NoDup_cons_iff in Nd.
          destruct Nd as [Nw Nd]. destruct H1 as [<-|H1]; [apply Nw; apply in_or_app; auto|eapply IH; eauto]. }
        apply (Hn b rb x Nb); [apply H; exact Hx|exact Hb].
      - apply Exists_exists in A. exact A. }
    destruct Hy as [y [Yb Ya]].
    assert (Hyc : In y c) by (apply (Permutation_in _ (Permutation_sym Pb)); apply in_or_app; auto).
    destruct (in_app_or _ _ _ (Permutation_in _ Pa Hyc)) as [Hya|Hyr]; [contradiction|].
    assert (x = y) by (apply T; [exact Hxc|exact Hyc|apply Ra; auto|apply Rb; auto]). subst y. contradiction. }
  apply sorted_unique; auto.
  - apply NoDup_app_l in N1. exact N1.
  - apply NoDup_app_l in N2. exact N2.
  - intros z. split; intros Hz.
    + eapply (G o1 r1 o2 r2); eauto. lia.
    + eapply (G o2 r2 o1 r1); eauto. lia.
  - intros u v Hu Hv. apply T; apply I1; apply in_or_app; auto.
Qed.

Lemma top_k_firstn : forall k k' c out, k <= k' -> is_top_k k' c out -> is_top_k k c (firstn k out).
Proof.
  intros k k' c out Hk [rest [P [L [S R]]]]. exists (skipn k out ++ rest).
  assert (S2 := S). unfold by_distance in S2. rewrite <- (firstn_skipn k out) in S2. apply ssorted_app in S2. destruct S2 as [A [B C]].
  split; [rewrite app_assoc, firstn_skipn; exact P|]. split; [rewrite firstn_length; lia|]. split; [exact A|].
  intros x y Hx Hy. apply in_app_or in Hy. destruct Hy as [Hy|Hy]; [apply C; auto|]. apply R; [apply In_firstn in Hx; exact Hx|exact Hy].
Qed.

Lemma top_k_longer : forall k k' c o o', k <= k' -> is_top_k k c o -> is_top_k k' c o' -> NoDup c ->
  (forall u v, In u c -> In v c -> no_farther u v -> no_farther v u -> u = v) -> o = firstn k o'.
Proof.
  intros k k' c o o' Hk H H' N T. apply (top_k_unique k c); auto. apply (top_k_firstn k k'); auto.
Qed.

(** ** The ids discovered *)
Definition discover (acc : nat -> bool) (ins l : list nat) : list nat :=
  fold_left (fun s id => if acc id && negb (set_mem id s) then id :: s else s) l ins.

Lemma process_one_ins : forall n dist accept acc m st id st', process_one n dist accept m st id = Ok st' -> accept id = Ok (acc id) ->
  p_ins st' = if acc id && negb (set_mem id (p_ins st)) then id :: p_ins st else p_ins st.
Proof.
  intros n dist accept acc m st id st' H A. unfold process_one in H. rewrite A in H. cbn [bind] in H.
  destruct (acc id); cbn [negb andb] in *; [|congruence]. destruct (set_mem id (p_ins st)) eqn:E; cbn [negb]; [congruence|].
  destruct (id <? n); cbn [bind] in H; [|discriminate].
  destruct (if 0 <? p_cur st then _ else _) as [skip| | | |] eqn:Es in H; cbn [bind] in H; try discriminate.
  destruct skip; [injection H as <-; reflexivity|].
  destruct (insert_into_pool _ _ _) as [[a r]| | | |]; cbn [bind] in H; try discriminate. injection H as <-. reflexivity.
Qed.

Lemma process_loop_ins : forall n dist accept acc m l st st', process_loop n dist accept m st l = Ok st' ->
  (forall id, In id l -> accept id = Ok (acc id)) -> p_ins st' = discover acc (p_ins st) l.
Proof.
  intros n dist accept acc m l. induction l as [|id l IH]; intros st st' H A; cbn [process_loop] in H; [injection H as <-; reflexivity|].
  destruct (process_one n dist accept m st id) as [st1| | | |] eqn:E; cbn [bind] in H; try discriminate.
  rewrite (IH st1 st' H (fun i Hi => A i (or_intror Hi))).
  rewrite (process_one_ins _ _ _ _ _ _ _ _ E (A id (or_introl eq_refl))). reflexivity.
Qed.

Lemma init_loop_discover : forall n dist L ids arr l ins arr' l' ins', init_loop n dist L arr l ins ids = Ok (arr', l', ins') ->
  l + length ids <= L -> ins' = discover (fun _ => true) ins ids.
Proof.
  intros n dist L ids. induction ids as [|id ids IH]; intros arr l ins arr' l' ins' H Hl; cbn [init_loop] in H.
  - injection H as _ _ <-. reflexivity.
  - cbn [length] in Hl. destruct (id <? n); cbn [bind] in H; [|discriminate]. unfold discover. cbn [fold_left andb]. fold (discover (fun _ => true)).
    destruct (set_mem id ins) eqn:E; cbn [negb bind] in *.
    + destruct (l =? L) eqn:El; [apply Nat.eqb_eq in El; lia|]. apply IH in H; [exact H|lia].
    + destruct (wr arr l _) as [arr1| | | |]; cbn [bind] in H; try discriminate.
      destruct (S l =? L) eqn:El.
      * apply Nat.eqb_eq in El. destruct ids; [injection H as _ _ <-; reflexivity|cbn in Hl; lia].
      * apply IH in H; [exact H|lia].
Qed.

Lemma greedy_init_ins : forall sortf n dist L ids st, greedy_init sortf n dist L ids = Ok st -> length ids <= L ->
  p_ins (g_pool st) = discover (fun _ => true) [] ids.
Proof.
  intros sortf n dist L ids st H Hl. unfold greedy_init in H.
  destruct (init_loop _ _ _ _ _ _ _) as [[[arr l] ins]| | | |] eqn:E; cbn [bind] in H; try discriminate. injection H as <-. cbn [g_pool p_ins].
  eapply init_loop_discover; [exact E|]. cbn. exact Hl.
Qed.

(** ** One iteration, as seen from outside *)
Inductive step_seen (acc : nat -> bool) (g : graph) (st st' : gstate) : Prop :=
| ss_skip : forall x, nth_error (found st) (g_k st) = Some x -> nflag x = false ->
    g_pool st' = g_pool st -> g_exp st' = g_exp st -> step_seen acc g st st'
| ss_expand : forall x nbrs, nth_error (found st) (g_k st) = Some x -> nflag x = true -> nth_error g (nid x) = Some nbrs ->
    g_exp st' = mkN (nid x) (ndist x) false :: g_exp st -> p_ins (g_pool st') = discover acc (p_ins (g_pool st)) nbrs -> step_seen acc g st st'.

Lemma step_sees : forall n dist accept acc L c0 g st st', (forall id, id < n -> accept id = Ok (acc id)) -> graph_ok n g ->
  ginv n dist L c0 st -> greedy_running st = true -> greedy_step n dist accept L g st = Ok st' -> step_seen acc g st st'.
Proof.
  intros n dist accept acc L c0 g st st' A [Hgl Hg] HI Hr H. unfold greedy_running in Hr. apply Nat.ltb_lt in Hr.
  unfold greedy_step in H. destruct (gi_wf _ _ _ _ _ HI) as [HL [Hal [Hcm _]]].
  destruct (rd_lt _ (p_arr (g_pool st)) (g_k st)) as [x Hx]; [lia|]. rewrite Hx in H. cbn [bind] in H. apply rd_ok in Hx.
  assert (Hf : nth_error (found st) (g_k st) = Some x).
  { unfold found, pool_entries. rewrite nth_error_firstn_lt by exact Hr. exact Hx. }
  destruct (nflag x) eqn:Ef.
  - destruct (wr _ _ _) as [arr1| | | |]; cbn [bind] in H; try discriminate.
    destruct (rd g (nid x)) as [nbrs| | | |] eqn:En; cbn [bind] in H; try discriminate. apply rd_ok in En.
    destruct (process_candidates _ _ _ _ _ _) as [p'| | | |] eqn:Ep; cbn [bind] in H; try discriminate. injection H as <-.
    apply (ss_expand acc g st _ x nbrs); auto. unfold process_candidates in Ep. cbn [g_pool].
    rewrite (process_loop_ins _ _ _ acc _ _ _ _ Ep); [reflexivity|]. intros id Hid. apply A. eapply Hg; eauto.
  - injection H as <-. apply (ss_skip acc g st _ x); auto.
Qed.

Lemma discover_incl : forall acc l ins, incl ins (discover acc ins l).
Proof.
  intros acc l. induction l as [|id l IH]; intros ins x Hx; cbn; [exact Hx|]. apply IH. destruct (acc id && _); [right|]; exact Hx.
Qed.

(** The rest of a run only adds. *)
Lemma loop_adds : forall n dist accept acc L c0 g, (forall id, is_nan (dist id) = false) -> (forall id, id < n -> accept id = Ok (acc id)) -> graph_ok n g ->
  forall fuel i st fin, greedy_loop fuel n dist accept L (fun _ => g) i st = Ok fin -> ginv n dist L c0 st ->
  ginv n dist L c0 fin /\ (exists later, g_exp fin = later ++ g_exp st) /\ incl (p_ins (g_pool st)) (p_ins (g_pool fin)).
Proof.
  intros n dist accept acc L c0 g Hnan A Hg. induction fuel as [|fuel IH]; intros i st fin H HI; cbn [greedy_loop] in H;
    destruct (greedy_running st) eqn:Er; try discriminate; try (injection H as <-; split; [exact HI|]; split; [exists []; reflexivity|apply incl_refl]).
  destruct (greedy_step_ok n dist accept acc L c0 g st Hnan A Hg HI Er) as [st1 [E [HI1 _]]]. rewrite E in H. cbn [bind] in H.
  destruct (IH _ _ _ H HI1) as [F1 [[later F2] F3]]. split; [exact F1|].
  destruct (step_sees n dist accept acc L c0 g st st1 A Hg HI Er E) as [x _ _ P X|x nbrs _ _ _ X P].
  - rewrite P, X in *. split; [exists later; exact F2|exact F3].
  - split.
    + exists (later ++ [mkN (nid x) (ndist x) false]). rewrite F2, X, <- app_assoc. reflexivity.
    + intros z Hz. apply F3. rewrite P. apply discover_incl. exact Hz.
Qed.

Lemma fle_both : forall x y, fle x y = true -> fle y x = true -> feq x y = true.
Proof.
  intros x y H1 H2. apply fle_flt_false in H2. unfold fle, flt, feq, SFleb, SFltb, SFeqb in *.
  destruct (SFcompare x y) as [[]|]; congruence.
Qed.

(** With the same points discovered, the shorter list is the beginning of the longer one. *)
Lemma found_firstn : forall n dist L L' c0 c0' st st', no_ties n dist -> (forall id, is_nan (dist id) = false) -> L <= L' ->
  ginv n dist L c0 st -> ginv n dist L' c0' st' -> p_ins (g_pool st) = p_ins (g_pool st') ->
  map nid (found st) = firstn L (map nid (found st')).
Proof.
  intros n dist L L' c0 c0' st st' T Hnan HL HI HI' E.
  destruct (gi_top _ _ _ _ _ HI) as [Nd [_ Top]]. destruct (gi_top _ _ _ _ _ HI') as [_ [_ Top']]. rewrite <- E in Top'.
  assert (R : map nkey (found st) = firstn L (map nkey (found st'))).
  { apply (top_k_longer L L' (score dist (p_ins (g_pool st)))); auto.
    - unfold score. apply FinFun.Injective_map_NoDup; [|exact Nd]. intros a b Hab. congruence.
    - intros u v Hu Hv H1 H2. unfold score in Hu, Hv. apply in_map_iff in Hu. destruct Hu as [a [<- Ha]]. apply in_map_iff in Hv. destruct Hv as [b [<- Hb]].
      unfold no_farther in *. cbn [snd] in *. assert (a = b); [|subst; reflexivity].
      apply T; [apply (gi_lt _ _ _ _ _ HI); exact Ha|apply (gi_lt _ _ _ _ _ HI); exact Hb|]. apply fle_both; auto. }
  assert (M : forall l, map nid l = map fst (map nkey l)) by (intros l; rewrite map_map; reflexivity).
  rewrite !M, R. symmetry. apply firstn_map.
Qed.

(** ** The two runs *)
Lemma lockstep : forall n dist accept acc L L' c0 g, no_ties n dist -> (forall id, is_nan (dist id) = false) ->
  (forall id, id < n -> accept id = Ok (acc id)) -> graph_ok n g -> L <= L' ->
  forall m fuel fuel' i i' st st' fin fin', fuel + fuel' <= m ->
  greedy_loop fuel n dist accept L (fun _ => g) i st = Ok fin -> greedy_loop fuel' n dist accept L' (fun _ => g) i' st' = Ok fin' ->
  ginv n dist L c0 st -> ginv n dist L' c0 st' -> p_ins (g_pool st) = p_ins (g_pool st') -> g_exp st = g_exp st' ->
  (exists later, g_exp fin' = later ++ g_exp fin) /\ incl (p_ins (g_pool fin)) (p_ins (g_pool fin')).
Proof.
  intros n dist accept acc L L' c0 g T Hnan A Hg HLL. induction m as [|m IH]; intros fuel fuel' i i' st st' fin fin' Hm H H' HI HI' Ei Ee.
  - assert (fuel = 0) by lia. subst fuel. cbn [greedy_loop] in H. destruct (greedy_running st); [discriminate|]. injection H as <-.
    destruct (loop_adds n dist accept acc L' c0 g Hnan A Hg _ _ _ _ H' HI') as [_ [F2 F3]]. rewrite Ee, Ei. split; [exact F2|exact F3].
  - assert (H0 := H). destruct fuel as [|fuel]; cbn [greedy_loop] in H; destruct (greedy_running st) eqn:Er; try discriminate;
      try (injection H as <-; destruct (loop_adds n dist accept acc L' c0 g Hnan A Hg _ _ _ _ H' HI') as [_ [F2 F3]]; rewrite Ee, Ei; split; [exact F2|exact F3]).
    destruct (greedy_step_ok n dist accept acc L c0 g st Hnan A Hg HI Er) as [st1 [E [HI1 _]]]. rewrite E in H. cbn [bind] in H.
    destruct (step_sees n dist accept acc L c0 g st st1 A Hg HI Er E) as [x Hx Fx P X|x nbrs Hx Fx Nx X P].
    { apply (IH fuel fuel' (S i) i' st1 st' fin fin'); auto; [lia|congruence|congruence]. }
    (* the point to expand is in the longer list too *)
    assert (FF := found_firstn n dist L L' c0 c0 st st' T Hnan HLL HI HI' Ei).
    assert (Kx : nth_error (map nid (found st)) (g_k st) = Some (nid x)) by (rewrite nth_error_map, Hx; reflexivity).
    assert (Klen : length (map nid (found st)) <= L) by (rewrite FF, firstn_length; lia).
    assert (Kl : g_k st < L) by (assert (g_k st < length (map nid (found st))) by (apply nth_error_Some; congruence); lia).
    assert (Kx' : nth_error (map nid (found st')) (g_k st) = Some (nid x)).
    { rewrite FF, nth_error_firstn_lt in Kx by exact Kl. exact Kx. }
    rewrite nth_error_map in Kx'. destruct (nth_error (found st') (g_k st)) as [y|] eqn:Hy; [|discriminate]. cbn in Kx'.
    assert (Eyx : nid y = nid x) by congruence.
    assert (Exp : forall s : gstate, g_exp s = g_exp st -> exp_ids s = exp_ids st) by (intros s Es; unfold exp_ids; rewrite Es; reflexivity).
    assert (Nx' : ~ In (nid x) (exp_ids st)).
    { intros C. apply (gi_flag _ _ _ _ _ HI x) in C; [congruence|eapply nth_error_In; eauto]. }
    assert (Fy : nflag y = true).
    { destruct (nflag y) eqn:Fy; [reflexivity|]. exfalso. apply Nx'. rewrite <- (Exp st') by auto. rewrite <- Eyx.
      apply (gi_flag _ _ _ _ _ HI' y); [eapply nth_error_In; eauto|exact Fy]. }
    assert (Kle : g_k st' <= g_k st).
    { destruct (le_lt_dec (g_k st') (g_k st)) as [?|C]; [assumption|]. pose proof (gi_k _ _ _ _ _ HI' _ _ C Hy). congruence. }
    assert (Er' : greedy_running st' = true).
    { unfold greedy_running. apply Nat.ltb_lt. assert (g_k st < length (found st')) by (apply nth_error_Some; congruence).
      unfold found in H1. rewrite (pool_entries_length _ _ _ (gi_wf _ _ _ _ _ HI')) in H1. lia. }
    destruct fuel' as [|fuel']; cbn [greedy_loop] in H'; rewrite Er' in H'; [discriminate|].
    destruct (greedy_step_ok n dist accept acc L' c0 g st' Hnan A Hg HI' Er') as [st1' [E' [HI1' _]]]. rewrite E' in H'. cbn [bind] in H'.
    destruct (step_sees n dist accept acc L' c0 g st' st1' A Hg HI' Er' E') as [z Hz Fz P' X'|z nbrs' Hz Fz Nz X' P'].
    { apply (IH (S fuel) fuel' i (S i') st st1' fin fin'); auto; [lia|congruence|congruence]. }
    assert (Ek : g_k st' = g_k st).
    { destruct (Nat.eq_dec (g_k st') (g_k st)) as [?|C]; [assumption|exfalso].
      assert (Kz : nth_error (map nid (found st)) (g_k st') = Some (nid z)).
      { rewrite FF, nth_error_firstn_lt by lia. rewrite nth_error_map, Hz. reflexivity. }
      rewrite nth_error_map in Kz. destruct (nth_error (found st) (g_k st')) as [w|] eqn:Hw; [|discriminate]. cbn in Kz.
      assert (Ew : nid w = nid z) by congruence.
      pose proof (gi_k _ _ _ _ _ HI (g_k st') w ltac:(lia) Hw) as Fw.
      assert (In (nid z) (exp_ids st')) by (rewrite (Exp st') by auto; rewrite <- Ew; apply (gi_flag _ _ _ _ _ HI w); [eapply nth_error_In; eauto|exact Fw]).
      apply (gi_flag _ _ _ _ _ HI' z) in H1; [congruence|eapply nth_error_In; eauto]. }
    rewrite Ek, Hy in Hz. injection Hz as <-.
    assert (Dx : ndist y = ndist x).
    { destruct (gi_wf _ _ _ _ _ HI) as [_ [_ [_ [_ W]]]]. destruct (gi_wf _ _ _ _ _ HI') as [_ [_ [_ [_ W']]]].
      assert (ndist x = dist (nid x)) by (apply W; eapply nth_error_In; eauto).
      assert (ndist y = dist (nid y)) by (apply W'; eapply nth_error_In; eauto). congruence. }
    rewrite Eyx in *. assert (nbrs' = nbrs) by congruence. subst nbrs'.
    apply (IH fuel fuel' (S i) (S i') st1 st1' fin fin'); auto; [lia|congruence|congruence].
Qed.

Lemma greedy_longer : forall sortf n dist accept acc L L' g ids, sorts sortf -> 1 <= L -> L <= L' -> (forall id, is_nan (dist id) = false) -> no_ties n dist ->
  (forall id, id < n -> accept id = Ok (acc id)) -> graph_ok n g -> (forall id, In id ids -> id < n) -> length ids <= L ->
  exists st st', greedy_search sortf n dist accept L g ids = Ok st /\ greedy_search sortf n dist accept L' g ids = Ok st' /\
    (exists later, rev (g_exp st') = rev (g_exp st) ++ later) /\ g_hops st <= g_hops st' /\ p_cmps (g_pool st) <= p_cmps (g_pool st') /\
    incl (p_ins (g_pool st)) (p_ins (g_pool st')) /\ no_worse dist (map nid (found st)) (map nid (found st')).
Proof.
  intros sortf n dist accept acc L L' g ids Hs HL HLL Hnan T A Hg Hids Hlen.
  destruct (greedy_dyn_ok sortf n dist accept acc L (fun _ => g) ids) as [s0 [st [E0 [E [HI [Hr [_ [X0 [K0 [_ [_ HI0]]]]]]]]]]]; auto.
  destruct (greedy_dyn_ok sortf n dist accept acc L' (fun _ => g) ids) as [s0' [st' [E0' [E' [HI' [Hr' [_ [X0' [K0' [_ [_ HI0']]]]]]]]]]]; auto; try lia.
  exists st, st'. split; [exact E|]. split; [exact E'|].
  assert (Ei : p_ins (g_pool s0) = p_ins (g_pool s0')).
  { rewrite (greedy_init_ins _ _ _ _ _ _ E0 Hlen). symmetry. apply (greedy_init_ins _ _ _ _ _ _ E0'). lia. }
  unfold greedy_search_dyn in E, E'. rewrite E0 in E. rewrite E0' in E'. cbn [bind] in E, E'. rewrite <- Ei in HI0', HI'.
  destruct (lockstep n dist accept acc L L' _ g T Hnan A Hg HLL _ _ _ 0 0 s0 s0' st st' (le_n _) E E' HI0 HI0' Ei) as [[later F1] F2]; [congruence|].
  split; [exists (rev later); rewrite F1, rev_app_distr; reflexivity|].
  split; [rewrite (gi_hops _ _ _ _ _ HI), (gi_hops _ _ _ _ _ HI'), F1, app_length; lia|].
  destruct (gi_top _ _ _ _ _ HI) as [Nd [C Top]]. destruct (gi_top _ _ _ _ _ HI') as [Nd' [C' Top']].
  split; [pose proof (NoDup_incl_length Nd F2); lia|]. split; [exact F2|].
  intros i x Hx. rewrite nth_error_map in Hx. destruct (nth_error (found st) i) as [z|] eqn:Hz; [|discriminate]. cbn in Hx. injection Hx as <-.
  destruct (top_k_dominates L L' _ _ _ _ Top Top' HLL) with (i := i) (x := nkey z) as [y [Hy Hle]].
  - unfold score. apply FinFun.Injective_map_NoDup; [|exact Nd]. intros a b Hab. congruence.
  - intros u Hu. unfold score in *. apply in_map_iff in Hu. destruct Hu as [a [<- Ha]]. apply in_map_iff. exists a. auto.
  - intros u Hu. unfold score in Hu. apply in_map_iff in Hu. destruct Hu as [a [<- Ha]]. apply Hnan.
  - rewrite nth_error_map. unfold found in Hz. rewrite Hz. reflexivity.
  - rewrite nth_error_map in Hy. destruct (nth_error (pool_entries (g_pool st')) i) as [w|] eqn:Hw; [|discriminate]. cbn in Hy. injection Hy as <-.
    exists (nid w). split; [unfold found; rewrite nth_error_map, Hw; reflexivity|].
    destruct (gi_wf _ _ _ _ _ HI) as [_ [_ [_ [_ W]]]]. destruct (gi_wf _ _ _ _ _ HI') as [_ [_ [_ [_ W']]]].
    assert (D1 : ndist z = dist (nid z)) by (apply W; eapply nth_error_In; exact Hz).
    assert (D2 : ndist w = dist (nid w)) by (apply W'; eapply nth_error_In; exact Hw).
    unfold no_farther in Hle. cbn [snd nkey] in Hle. unfold nkey in Hle. cbn [snd] in Hle. rewrite <- D1, <- D2. exact Hle.
Qed.
