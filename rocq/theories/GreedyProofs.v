(** * Lemmas about greedy graph search. *)
From Coq Require Import List Arith Lia Bool Sorting.Sorted Sorting.Permutation.
From Verif Require Import Base Float32 PoolModel TopKSpec SortSpec GraphSpec PoolProofs PoolProofs2 GreedyModel.
Import ListNotations.

(** ** Initialisation *)
Definition fresh (dist : nat -> f32) (id : nat) : neighbor := mkN id (dist id) true.

Lemma wr_split : forall (A : Type) (a : list A) i x, i < length a ->
  exists b, wr a i x = Ok b /\ length b = length a /\ firstn (S i) b = firstn i a ++ [x].
Proof.
  intros A a i x H. rewrite wr_ok by auto. eexists. split; [reflexivity|]. split.
  - assert (E : wr a i x = Ok (firstn i a ++ x :: skipn (S i) a)) by (apply wr_ok; auto).
    apply wr_length in E. auto.
  - rewrite firstn_app, firstn_length. replace (min i (length a)) with i by lia.
    rewrite firstn_firstn. replace (min (S i) i) with i by lia.
    replace (S i - i) with 1 by lia. reflexivity.
Qed.

Lemma init_loop_ok : forall n dist L ids arr l ins,
  1 <= L -> l < L -> l = length ins -> NoDup ins -> length arr = L + 1 ->
  firstn l arr = map (fresh dist) (rev ins) ->
  (forall id, In id ids -> id < n) -> (forall id, In id ins -> id < n) ->
  exists arr' l' ins', init_loop n dist L arr l ins ids = Ok (arr', l', ins') /\
    length arr' = L + 1 /\ l' <= L /\ l' = length ins' /\ NoDup ins' /\
    firstn l' arr' = map (fresh dist) (rev ins') /\
    (forall id, In id ins' -> id < n) /\ incl ins ins' /\
    (forall id, In id ins' -> In id ins \/ In id ids) /\
    (l' = L \/ forall id, In id ids -> In id ins').
Proof.
  intros n dist L ids. induction ids as [|id ids IH]; intros arr l ins HL Hl Hlen Hnd Ha Hf Hn Hi.
  - exists arr, l, ins. cbn. repeat split; auto; try lia; try apply incl_refl. right. intros id [].
  - cbn [init_loop]. assert (E : id <? n = true) by (apply Nat.ltb_lt; apply Hn; left; auto).
    rewrite E. cbn [bind]. destruct (set_mem id ins) eqn:Em.
    + cbn [bind]. assert (El : l =? L = false) by (apply Nat.eqb_neq; lia). rewrite El.
      destruct (IH arr l ins) as [arr' [l' [ins' [R1 [R2 [R3 [R4 [R5 [R6 [R7 [R8 [R9 R10]]]]]]]]]]]]; auto.
      { intros; apply Hn; right; auto. }
      exists arr', l', ins'. repeat split; auto.
      * intros x Hx. apply R9 in Hx. cbn. tauto.
      * destruct R10 as [R10|R10]; auto. right. intros x [<-|Hx]; auto. apply R8. apply set_mem_In. auto.
    + apply set_mem_not_In in Em.
      destruct (wr_split _ arr l (mkN id (dist id) true)) as [b [Eb [Lb Fb]]]; [lia|].
      rewrite Eb. cbn [bind].
      assert (Fb' : firstn (S l) b = map (fresh dist) (rev (id :: ins))).
      { rewrite Fb, Hf. cbn. rewrite map_app. reflexivity. }
      assert (Hi' : forall x, In x (id :: ins) -> x < n).
      { intros x [<-|Hx]; auto. apply Hn. left. auto. }
      destruct (S l =? L) eqn:El.
      * apply Nat.eqb_eq in El. exists b, (S l), (id :: ins). repeat split; auto; cbn; try lia.
        -- constructor; auto.
        -- intros x Hx. right. auto.
        -- intros x [<-|Hx]; auto.
      * apply Nat.eqb_neq in El.
        destruct (IH b (S l) (id :: ins)) as [arr' [l' [ins' [R1 [R2 [R3 [R4 [R5 [R6 [R7 [R8 [R9 R10]]]]]]]]]]]]; auto.
        { lia. } { cbn. lia. } { constructor; auto. } { lia. }
        { intros; apply Hn; right; auto. }
        exists arr', l', ins'. repeat split; auto.
        -- intros x Hx. apply R8. right. auto.
        -- intros x Hx. apply R9 in Hx. cbn in *. tauto.
        -- destruct R10 as [R10|R10]; auto. right. intros x [<-|Hx]; auto. apply R8. left. auto.
Qed.

(** ** The loop invariant *)
Definition exp_ids (st : gstate) : list nat := map nid (g_exp st).

Record ginv (n : nat) (dist : nat -> f32) (L c0 : nat) (st : gstate) : Prop := {
  gi_wf : pool_wf dist L (g_pool st);
  gi_top : pool_top dist L c0 (g_pool st);
  gi_cur : p_ins (g_pool st) = [] <-> p_cur (g_pool st) = 0;
  gi_lt : forall x, In x (p_ins (g_pool st)) -> x < n;
  gi_nd : NoDup (exp_ids st);
  gi_exp : forall x, In x (g_exp st) -> In (nid x) (p_ins (g_pool st)) /\ ndist x = dist (nid x) /\ nflag x = false;
  gi_hops : g_hops st = length (g_exp st);
  gi_flag : forall z, In z (found st) -> (nflag z = false <-> In (nid z) (exp_ids st));
  gi_k : forall i z, i < g_k st -> nth_error (found st) i = Some z -> nflag z = false
}.

Lemma greedy_init_ok : forall sortf n dist L init_ids,
  sorts sortf -> 1 <= L -> (forall id, is_nan (dist id) = false) ->
  (forall id, In id init_ids -> id < n) ->
  exists st, greedy_init sortf n dist L init_ids = Ok st /\
    ginv n dist L (length (p_ins (g_pool st))) st /\ g_exp st = [] /\ g_k st = 0 /\
    (forall id, In id (p_ins (g_pool st)) -> In id init_ids) /\
    (p_cur (g_pool st) = L \/ forall id, In id init_ids -> In id (p_ins (g_pool st))) /\
    p_cur (g_pool st) = length (p_ins (g_pool st)) /\ p_cmps (g_pool st) = 0.
Proof.
  intros sortf n dist L init_ids Hsort HL Hnan Hn. unfold greedy_init.
  destruct (init_loop_ok n dist L init_ids (repeat default_neighbor (L + 1)) 0 [])
    as [arr [l [ins [R1 [R2 [R3 [R4 [R5 [R6 [R7 [R8 [R9 R10]]]]]]]]]]]]; auto; try lia.
  { constructor. } { apply repeat_length. } { intros id []. }
  rewrite R1. cbn [bind]. eexists. split; [reflexivity|].
  assert (Hno : forall z, In z (firstn l arr) -> is_nan (ndist z) = false).
  { intros z Hz. rewrite R6 in Hz. apply in_map_iff in Hz. destruct Hz as [y [<- _]]. cbn. auto. }
  destruct (Hsort _ Hno) as [Hperm Hsorted].
  assert (Hlen : length (sortf (firstn l arr)) = l).
  { rewrite <- (Permutation_length Hperm), firstn_length. lia. }
  set (p := mkP (sortf (firstn l arr) ++ skipn l arr) l ins 0 0).
  assert (HE : pool_entries p = sortf (firstn l arr)).
  { unfold pool_entries, p. cbn [p_arr p_cur]. rewrite firstn_app, Hlen, Nat.sub_diag. cbn [firstn].
    rewrite app_nil_r. apply firstn_all2. lia. }
  assert (Hin : forall z, In z (pool_entries p) <-> exists id, In id ins /\ z = fresh dist id).
  { intros z. rewrite HE. split.
    - intros Hz. apply (Permutation_in _ (Permutation_sym Hperm)) in Hz. rewrite R6 in Hz.
      apply in_map_iff in Hz. destruct Hz as [y [<- Hy]]. exists y. rewrite in_rev. auto.
    - intros [id [Hid ->]]. apply (Permutation_in _ Hperm). rewrite R6. apply in_map. rewrite <- in_rev. auto. }
  cbn [g_pool g_exp g_k p_ins p_cur].
  split; [constructor; cbn [g_pool g_exp g_k g_hops]; fold p|].
  - split; [auto|]. split; [|split; [cbn; auto|split]].
    + cbn. rewrite app_length, Hlen, skipn_length. lia.
    + rewrite HE. exact Hsorted.
    + intros z Hz. apply Hin in Hz. destruct Hz as [id [Hid ->]]. cbn. auto.
  - split; [auto|]. split; [reflexivity|]. exists []. rewrite app_nil_r.
    assert (HP : Permutation (score dist ins) (map nkey (pool_entries p))).
    { rewrite HE. rewrite <- Hperm, R6, map_map. cbn. unfold score. apply Permutation_map. apply Permutation_rev. }
    split; [exact HP|]. split; [|split].
    + rewrite <- (Permutation_length HP). unfold score. rewrite !map_length. cbn [p p_ins]. lia.
    + rewrite HE. clear - Hsorted. induction Hsorted as [|a t H IH Hf]; cbn; constructor; auto.
      rewrite Forall_forall in *. intros x Hx. apply in_map_iff in Hx. destruct Hx as [y [<- Hy]]. apply Hf. auto.
    + intros x y _ [].
  - cbn. destruct ins; cbn in R4; split; intros; subst; try discriminate; auto.
  - auto.
  - constructor.
  - intros x [].
  - reflexivity.
  - intros z Hz. unfold found in Hz. cbn [g_pool] in Hz. apply Hin in Hz. destruct Hz as [id [_ ->]].
    cbn. split; [discriminate|intros []].
  - intros i z Hi. lia.
  - repeat split; auto.
    + intros id Hid. apply R9 in Hid. destruct Hid as [[]|Hid]; auto.
Qed.

(** ** One iteration *)
Lemma set_flag_entries : forall (arr : list neighbor) l k x x' arr1, k < l -> l <= length arr ->
  nth_error arr k = Some x -> wr arr k x' = Ok arr1 ->
  exists A B, firstn l arr = A ++ x :: B /\ firstn l arr1 = A ++ x' :: B /\ length A = k /\ length arr1 = length arr.
Proof.
  intros arr l k x x' arr1 Hk Hl Hx Hw.
  assert (Hlen := wr_length _ _ _ _ _ Hw). rewrite wr_ok in Hw by lia.
  assert (E1 : arr1 = firstn k arr ++ x' :: skipn (S k) arr) by congruence.
  assert (E0 : arr = firstn k arr ++ x :: skipn (S k) arr).
  { clear - Hx. revert k Hx. induction arr as [|a arr IH]; intros k Hx; [destruct k; discriminate|].
    destruct k as [|k]; cbn in *; [congruence|]. f_equal. apply IH. auto. }
  assert (Lk : length (firstn k arr) = k) by (rewrite firstn_length; lia).
  exists (firstn k arr), (firstn (l - S k) (skipn (S k) arr)). split; [|split; [|split]]; auto.
  - rewrite E0 at 1. rewrite firstn_app, Lk. rewrite firstn_all2 by lia.
    replace (l - k) with (S (l - S k)) by lia. reflexivity.
  - rewrite E1. rewrite firstn_app, Lk. rewrite firstn_all2 by lia.
    replace (l - k) with (S (l - S k)) by lia. reflexivity.
Qed.

(** What an iteration does to the bookkeeping. *)
Inductive step_kind (acc : nat -> bool) (g : graph) (st st' : gstate) : Prop :=
| sk_skip : g_pool st' = g_pool st -> g_exp st' = g_exp st -> g_k st' = S (g_k st) -> step_kind acc g st st'
| sk_expand : forall x nbrs, g_exp st' = x :: g_exp st -> nth_error g (nid x) = Some nbrs ->
    In (nid x) (p_ins (g_pool st)) ->
    (forall y, In y (p_ins (g_pool st')) <-> In y (p_ins (g_pool st)) \/ (In y nbrs /\ acc y = true)) ->
    step_kind acc g st st'.

Lemma greedy_step_ok : forall n dist accept acc L c0 g st,
  (forall id, is_nan (dist id) = false) -> (forall id, id < n -> accept id = Ok (acc id)) ->
  graph_ok n g -> ginv n dist L c0 st -> greedy_running st = true ->
  exists st', greedy_step n dist accept L g st = Ok st' /\ ginv n dist L c0 st' /\ step_kind acc g st st'.
Proof.
  intros n dist accept acc L c0 g st Hnan Hacc [Hgl Hg] HI Hrun.
  unfold greedy_running in Hrun. apply Nat.ltb_lt in Hrun.
  destruct HI as [Hwf Htop Hcur Hlt Hnd Hexp Hhops Hflag Hk].
  unfold greedy_step. set (p := g_pool st) in *.
  assert (Hwf' := Hwf). destruct Hwf' as [HL [Hal [Hcm [Hs He]]]].
  pose proof (pool_entries_length _ _ _ Hwf) as Hlen.
  destruct (rd_lt _ (p_arr p) (g_k st)) as [x Hx]; [lia|]. rewrite Hx. cbn [bind].
  apply rd_ok in Hx.
  assert (Hxe : nth_error (pool_entries p) (g_k st) = Some x).
  { unfold pool_entries. rewrite <- Hx. rewrite <- (firstn_skipn (p_cur p) (p_arr p)) at 2.
    symmetry. apply nth_error_app1. rewrite firstn_length. lia. }
  assert (Hxin : In x (pool_entries p)) by (eapply nth_error_In; eauto).
  destruct (nflag x) eqn:Ef.
  - (* expand *)
    set (x' := mkN (nid x) (ndist x) false).
    destruct (wr_split _ (p_arr p) (g_k st) x') as [arr1 [Hw [Hw2 _]]]; [lia|].
    rewrite Hw. cbn [bind].
    destruct (set_flag_entries (p_arr p) (p_cur p) (g_k st) x x' arr1) as [A [B [EA [EB [LA LB]]]]]; auto; try lia.
    set (p1 := mkP arr1 (p_cur p) (p_ins p) (p_cmps p) (p_best p)).
    assert (EE : pool_entries p = A ++ x :: B) by exact EA.
    assert (EE1 : pool_entries p1 = A ++ x' :: B) by exact EB.
    destruct (He x Hxin) as [Hx1 [Hx2 Hx3]].
    assert (Hxn : nid x < n) by (apply Hlt; auto).
    destruct (rd_lt _ g (nid x)) as [nbrs Hnb]; [lia|]. rewrite Hnb. cbn [bind]. apply rd_ok in Hnb.
    assert (Hkeys : map nkey (pool_entries p1) = map nkey (pool_entries p)).
    { rewrite EE, EE1, !map_app. reflexivity. }
    assert (Hwf1 : pool_wf dist L p1).
    { repeat split; auto.
      - cbn. lia.
      - rewrite EE1. rewrite EE in Hs. apply ssorted_app in Hs. destruct Hs as [S1 [S2 S3]].
        apply StronglySorted_inv in S2. destruct S2 as [S2 S4].
        apply ssorted_app. split; [auto|]. split; [constructor; auto|].
        intros a b Ha [<-|Hb]; [apply (S3 a x); auto; left; auto|apply S3; auto; right; auto].
      - rewrite EE1 in H. apply in_app_or in H. destruct H as [H|[<-|H]]; [| exact Hx1 |];
          apply He; rewrite EE; apply in_or_app; cbn; auto.
      - rewrite EE1 in H. apply in_app_or in H. destruct H as [H|[<-|H]]; [| exact Hx2 |];
          apply He; rewrite EE; apply in_or_app; cbn; auto.
      - rewrite EE1 in H. apply in_app_or in H. destruct H as [H|[<-|H]]; [| exact Hx3 |];
          apply He; rewrite EE; apply in_or_app; cbn; auto. }
    assert (Htop1 : pool_top dist L c0 p1).
    { destruct Htop as [T1 [T2 T3]]. split; [auto|]. split; [auto|]. rewrite Hkeys. exact T3. }
    unfold process_candidates.
    destruct (process_loop_spec n dist accept acc L nbrs (with_best p1 L)) as [p2 [Hp2 Hrel]]; auto.
    { intros id Hid. apply Hacc. eapply Hg; eauto. }
    { intros id Hid _. eapply Hg; eauto. }
    { intros C. cbn in C. lia. }
    fold (with_best p1 L). rewrite Hp2. cbn [bind].
    eexists. split; [reflexivity|].
    pose proof (loop_rel_ins _ _ _ _ _ _ Hrel) as Hins. cbn [with_best p1 p_ins] in Hins.
    assert (Hnew : ~ In (nid x) (exp_ids st)).
    { intros C. apply (Hflag x Hxin) in C. congruence. }
    assert (HndE : NoDup (map nid (pool_entries p))).
    { replace (map nid (pool_entries p)) with (map fst (map nkey (pool_entries p))) by (rewrite map_map; reflexivity).
      destruct Htop as [T1 [_ T3]]. eapply top_k_NoDup; [|exact T3]. rewrite score_fst. auto. }
    split.
    + constructor; cbn [g_pool g_exp g_k g_hops].
      * eapply loop_rel_wf; [auto| |exact Hrel]. auto.
      * eapply loop_rel_top; [auto| | |exact Hrel]; auto.
      * eapply loop_rel_cur; [exact HL| |exact Hrel]. exact Hcur.
      * intros y Hy. apply Hins in Hy. destruct Hy as [Hy|[Hy _]]; auto. eapply Hg; eauto.
      * unfold exp_ids. cbn. constructor; auto.
      * intros y [<-|Hy]; [cbn; repeat split; auto; apply Hins; auto|].
        destruct (Hexp y Hy) as [Y1 [Y2 Y3]]. repeat split; auto. apply Hins. auto.
      * cbn. auto.
      * intros z Hz. unfold found in Hz. cbn [g_pool] in Hz.
        apply (loop_rel_entries _ _ _ _ _ _ Hrel) in Hz. unfold exp_ids. cbn [g_exp map].
        change (nid x') with (nid x).
        destruct Hz as [Hz|[Hz1 Hz2]].
        -- change (pool_entries (with_best p1 L)) with (pool_entries p1) in Hz. rewrite EE1 in Hz.
           rewrite EE, map_app in HndE. cbn [map] in HndE. apply NoDup_remove_2 in HndE.
           apply in_app_or in Hz. destruct Hz as [Hz|[<-|Hz]].
           ++ rewrite (Hflag z) by (fold p; unfold found; fold p; rewrite EE; apply in_or_app; auto).
              split; [intros; right; auto|]. intros [C|C]; auto. exfalso. apply HndE. rewrite C.
              apply in_or_app. left. apply in_map. auto.
           ++ cbn. tauto.
           ++ rewrite (Hflag z) by (unfold found; fold p; rewrite EE; apply in_or_app; right; right; auto).
              split; [intros; right; auto|]. intros [C|C]; auto. exfalso. apply HndE. rewrite C.
              apply in_or_app. right. apply in_map. auto.
        -- cbn [with_best p1 p_ins] in Hz2. rewrite Hz1. split; [discriminate|].
           intros [C|C]; exfalso; apply Hz2; [rewrite <- C; auto|].
           unfold exp_ids in C. apply in_map_iff in C. destruct C as [y [<- Hy]]. apply Hexp. auto.
      * intros i z Hi Hz. unfold found in Hz. cbn [g_pool] in Hz.
        assert (Hfl : forall j w, j < S (g_k st) -> nth_error (pool_entries p1) j = Some w -> nflag w = false).
        { intros j w Hj Hw0. rewrite EE1 in Hw0. destruct (Nat.eq_dec j (g_k st)) as [->|Hne].
          - rewrite nth_error_app2 in Hw0 by lia. rewrite LA, Nat.sub_diag in Hw0. cbn in Hw0. inversion Hw0. reflexivity.
          - rewrite nth_error_app1 in Hw0 by lia. apply (Hk j w); [lia|].
            unfold found. fold p. rewrite EE. rewrite nth_error_app1 by lia. auto. }
        destruct (p_best p2 <=? g_k st) eqn:Eb.
        -- apply Nat.leb_le in Eb. apply (Hfl i); [lia|].
           rewrite (loop_rel_prefix _ _ _ _ _ _ Hrel) in Hz by auto. exact Hz.
        -- apply Nat.leb_gt in Eb. apply (Hfl i); [lia|].
           rewrite (loop_rel_prefix _ _ _ _ _ _ Hrel) in Hz by lia. exact Hz.
    + apply (sk_expand acc g st _ x' nbrs); cbn [g_exp g_pool]; auto.
  - (* already expanded *)
    eexists. split; [reflexivity|]. split.
    + constructor; cbn [g_pool g_exp g_k g_hops]; auto.
      intros i z Hi Hz. destruct (Nat.eq_dec i (g_k st)) as [->|]; [|apply (Hk i); auto; lia].
      unfold found in Hz. cbn [g_pool] in Hz. fold p in Hz. congruence.
    + apply sk_skip; reflexivity.
Qed.

(** ** The measure *)
Definition gmeasure (n L : nat) (st : gstate) : nat := (n - length (g_exp st)) * (L + 1) + (L - g_k st).

Lemma ginv_exp_le : forall n dist L c0 st, ginv n dist L c0 st -> length (g_exp st) <= length (p_ins (g_pool st)) /\ length (p_ins (g_pool st)) <= n.
Proof.
  intros n dist L c0 st H. destruct H as [Hwf [Tnd Htop] Hcur Hlt Hnd Hexp Hhops Hflag Hk]. split.
  - replace (length (g_exp st)) with (length (exp_ids st)) by apply map_length.
    apply NoDup_incl_length; auto. intros y Hy. unfold exp_ids in Hy. apply in_map_iff in Hy.
    destruct Hy as [z [<- Hz]]. apply Hexp. auto.
  - rewrite <- (seq_length n 0). apply NoDup_incl_length; auto. intros y Hy. apply in_seq. apply Hlt in Hy. lia.
Qed.

Lemma step_measure : forall n dist L c0 acc g st st',
  ginv n dist L c0 st -> ginv n dist L c0 st' -> greedy_running st = true -> step_kind acc g st st' ->
  gmeasure n L st' < gmeasure n L st.
Proof.
  intros n dist L c0 acc g st st' HI HI' Hrun Hk. unfold gmeasure.
  unfold greedy_running in Hrun. apply Nat.ltb_lt in Hrun.
  destruct (gi_wf _ _ _ _ _ HI) as [HL [_ [Hc _]]].
  destruct Hk as [E1 E2 E3|x nbrs E1 E2 E3 E4].
  - rewrite E2, E3. lia.
  - pose proof (ginv_exp_le _ _ _ _ _ HI') as [A B]. rewrite E1 in *. cbn [length] in *.
    replace (n - length (g_exp st)) with (S (n - S (length (g_exp st)))) by lia.
    cbn [Nat.mul]. lia.
Qed.

(** ** The whole loop, against any schedule of graphs *)
Inductive run (acc : nat -> bool) (gs : nat -> graph) : nat -> gstate -> gstate -> Prop :=
| run_done : forall i st, greedy_running st = false -> run acc gs i st st
| run_step : forall i st st1 st2, greedy_running st = true -> step_kind acc (gs i) st st1 ->
    run acc gs (S i) st1 st2 -> run acc gs i st st2.

Lemma greedy_loop_ok : forall n dist accept acc L c0 gs,
  (forall id, is_nan (dist id) = false) -> (forall id, id < n -> accept id = Ok (acc id)) ->
  (forall i, graph_ok n (gs i)) ->
  forall fuel i st, ginv n dist L c0 st -> gmeasure n L st <= fuel ->
  exists st', greedy_loop fuel n dist accept L gs i st = Ok st' /\ ginv n dist L c0 st' /\
    greedy_running st' = false /\ run acc gs i st st'.
Proof.
  intros n dist accept acc L c0 gs Hnan Hacc Hg. induction fuel as [|fuel IH]; intros i st HI Hm.
  - cbn [greedy_loop]. destruct (greedy_running st) eqn:Er.
    + exfalso. destruct (greedy_step_ok n dist accept acc L c0 (gs i) st) as [st' [_ [HI' Hk]]]; auto.
      pose proof (step_measure _ _ _ _ _ _ _ _ HI HI' Er Hk). lia.
    + exists st. split; [auto|]. split; [auto|]. split; [auto|]. constructor. auto.
  - cbn [greedy_loop]. destruct (greedy_running st) eqn:Er.
    + destruct (greedy_step_ok n dist accept acc L c0 (gs i) st) as [st' [Hs [HI' Hk]]]; auto.
      rewrite Hs. cbn [bind]. pose proof (step_measure _ _ _ _ _ _ _ _ HI HI' Er Hk).
      destruct (IH (S i) st' HI') as [st2 [R1 [R2 [R3 R4]]]]; [lia|].
      exists st2. split; [auto|]. split; [auto|]. split; [auto|]. econstructor; eauto.
    + exists st. split; [auto|]. split; [auto|]. split; [auto|]. constructor. auto.
Qed.

(** ** Consequences of a run on one fixed graph *)
Lemma run_closed : forall acc g i st st', run acc (fun _ => g) i st st' ->
  (forall x y, In x (exp_ids st) -> edge acc g x y -> In y (p_ins (g_pool st))) ->
  forall x y, In x (exp_ids st') -> edge acc g x y -> In y (p_ins (g_pool st')).
Proof.
  intros acc g i st st' H. induction H as [|i st st1 st2 Hr Hk Hrun IH]; auto. intros Hc. apply IH.
  intros x y Hx [nbrs [E1 [E2 E3]]]. destruct Hk as [A B C|z nz A B C D].
  - rewrite A. apply (Hc x y); [unfold exp_ids in *; rewrite B in Hx; auto|exists nbrs; auto].
  - apply D. unfold exp_ids in Hx. rewrite A in Hx. cbn in Hx. destruct Hx as [<-|Hx].
    + right. rewrite B in E1. inversion E1; subst. auto.
    + left. apply (Hc x y); auto. exists nbrs. auto.
Qed.

Lemma run_mono : forall acc gs i st st', run acc gs i st st' ->
  (forall x, In x (p_ins (g_pool st)) -> In x (p_ins (g_pool st'))) /\
  (forall x, In x (exp_ids st) -> In x (exp_ids st')).
Proof.
  intros acc gs i st st' H. induction H as [|i st st1 st2 Hr Hk Hrun [IH1 IH2]]; auto.
  destruct Hk as [A B C|z nz A B C D]; split; intros x Hx.
  - apply IH1. rewrite A. auto.
  - apply IH2. unfold exp_ids in *. rewrite B. auto.
  - apply IH1. apply D. auto.
  - apply IH2. unfold exp_ids in *. rewrite A. right. auto.
Qed.

(** Everything discovered is reachable from the initial ids. *)
Lemma run_reach : forall acc g i st st', run acc (fun _ => g) i st st' ->
  forall x, In x (p_ins (g_pool st')) -> reach acc g (fun y => In y (p_ins (g_pool st))) x.
Proof.
  intros acc g i st st' H. induction H as [|i st st1 st2 Hr Hk Hrun IH]; intros x Hx.
  - constructor. auto.
  - apply IH in Hx. clear IH. induction Hx as [y Hy|y z Hy IHy He].
    + destruct Hk as [A B C|w nw A B C D].
      * rewrite A in Hy. constructor. auto.
      * apply D in Hy. destruct Hy as [Hy|[Hy1 Hy2]]; [constructor; auto|].
        apply (reach_edge _ _ _ (nid w)); [constructor; auto|]. exists nw. auto.
    + eapply reach_edge; eauto.
Qed.

Lemma reach_weaken : forall acc g (S S' : nat -> Prop) x, (forall y, S y -> S' y) -> reach acc g S x -> reach acc g S' x.
Proof. intros acc g S S' x H R. induction R; [constructor; auto|eapply reach_edge; eauto]. Qed.

(** ** Search as called *)
Lemma greedy_dyn_ok : forall sortf n dist accept acc L gs init_ids,
  sorts sortf -> 1 <= L -> (forall id, is_nan (dist id) = false) ->
  (forall id, id < n -> accept id = Ok (acc id)) -> (forall i, graph_ok n (gs i)) ->
  (forall id, In id init_ids -> id < n) ->
  exists st0 st, greedy_init sortf n dist L init_ids = Ok st0 /\
    greedy_search_dyn sortf n dist accept L gs init_ids = Ok st /\
    ginv n dist L (length (p_ins (g_pool st0))) st /\ greedy_running st = false /\ run acc gs 0 st0 st /\
    g_exp st0 = [] /\ g_k st0 = 0 /\
    (forall id, In id (p_ins (g_pool st0)) -> In id init_ids) /\
    (p_cur (g_pool st0) = L \/ forall id, In id init_ids -> In id (p_ins (g_pool st0))) /\
    ginv n dist L (length (p_ins (g_pool st0))) st0.
Proof.
  intros sortf n dist accept acc L gs init_ids Hs HL Hnan Hacc Hg Hn.
  destruct (greedy_init_ok sortf n dist L init_ids) as [st0 [E [HI [Hexp [Hk [H1 [H2 _]]]]]]]; auto.
  destruct (greedy_loop_ok n dist accept acc L (length (p_ins (g_pool st0))) gs Hnan Hacc Hg ((n + 1) * (L + 1)) 0 st0 HI)
    as [st [R1 [R2 [R3 R4]]]].
  { unfold gmeasure. rewrite Hexp, Hk. cbn [length]. rewrite !Nat.sub_0_r. nia. }
  exists st0, st. split; [auto|]. split; [unfold greedy_search_dyn; rewrite E; cbn [bind]; auto|].
  repeat (split; [auto|]). auto.
Qed.

Lemma greedy_loop_more : forall k fuel n dist accept L gs i st st',
  greedy_loop fuel n dist accept L gs i st = Ok st' ->
  greedy_loop (fuel + k) n dist accept L gs i st = Ok st'.
Proof.
  intros k fuel n dist accept L gs. induction fuel as [|fuel IH]; intros i st st' H.
  - cbn [greedy_loop] in H. destruct (greedy_running st) eqn:E; [discriminate H|].
    destruct k; cbn [greedy_loop Nat.add]; rewrite E; auto.
  - cbn [greedy_loop Nat.add] in *. destruct (greedy_running st); auto.
    destruct (greedy_step n dist accept L (gs i) st); cbn [bind] in *; try discriminate. auto.
Qed.

Lemma greedy_terminates : forall sortf n dist accept acc L gs init_ids,
  sorts sortf -> 1 <= L -> (forall id, is_nan (dist id) = false) ->
  (forall id, id < n -> accept id = Ok (acc id)) -> (forall i, graph_ok n (gs i)) ->
  (forall id, In id init_ids -> id < n) ->
  exists st0 st, greedy_init sortf n dist L init_ids = Ok st0 /\
    (forall budget, (n + 1) * (L + 1) <= budget -> greedy_loop budget n dist accept L gs 0 st0 = Ok st) /\
    greedy_search_dyn sortf n dist accept L gs init_ids = Ok st /\
    greedy_running st = false /\
    g_hops st <= length (p_ins (g_pool st)) /\
    NoDup (p_ins (g_pool st)) /\ length (p_ins (g_pool st)) <= n.
Proof.
  intros sortf n dist accept acc L gs init_ids Hs HL Hnan Hacc Hg Hn.
  destruct (greedy_dyn_ok sortf n dist accept acc L gs init_ids) as [st0 [st [E0 [E [HI [Hr _]]]]]]; auto.
  exists st0, st. split; [auto|]. split; [|split; [auto|split; [auto|]]].
  - intros budget Hb. replace budget with ((n + 1) * (L + 1) + (budget - (n + 1) * (L + 1))) by lia.
    apply greedy_loop_more. unfold greedy_search_dyn in E. rewrite E0 in E. exact E.
  - pose proof (ginv_exp_le _ _ _ _ _ HI) as [A B]. rewrite (gi_hops _ _ _ _ _ HI).
    repeat split; auto. apply (gi_top _ _ _ _ _ HI).
Qed.

Lemma found_all_expanded : forall n dist L c0 st, ginv n dist L c0 st -> greedy_running st = false ->
  forall z, In z (found st) -> nflag z = false /\ In (nid z) (exp_ids st).
Proof.
  intros n dist L c0 st HI Hr z Hz. unfold greedy_running in Hr. apply Nat.ltb_ge in Hr.
  assert (Hf : nflag z = false).
  { apply In_nth_error in Hz. destruct Hz as [i Hi]. apply (gi_k _ _ _ _ _ HI i); auto.
    assert (i < length (found st)) by (apply nth_error_Some; congruence).
    unfold found in H. rewrite (pool_entries_length _ _ _ (gi_wf _ _ _ _ _ HI)) in H. lia. }
  split; auto. apply (gi_flag _ _ _ _ _ HI); auto.
Qed.

Lemma top_k_cases : forall k c out y, is_top_k k c out -> In y c ->
  In y out \/ (length out = k /\ forall x, In x out -> no_farther x y).
Proof.
  intros k c out y [rest [A [B [C D]]]] Hy. apply (Permutation_in _ A) in Hy. apply in_app_or in Hy.
  destruct Hy as [Hy|Hy]; auto. right. split; auto. apply Permutation_length in A. rewrite app_length in A.
  assert (0 < length rest) by (destruct rest; cbn; [destruct Hy|lia]). lia.
Qed.

Lemma ginv_discovered : forall n dist L c0 st y, ginv n dist L c0 st -> In y (p_ins (g_pool st)) ->
  In y (map nid (found st)) \/ (length (found st) = L /\ forall z, In z (found st) -> fle (ndist z) (dist y) = true).
Proof.
  intros n dist L c0 st y HI Hy. destruct (gi_top _ _ _ _ _ HI) as [_ [_ T]].
  destruct (top_k_cases _ _ _ (y, dist y) T) as [H|[H1 H2]].
  - unfold score. apply in_map_iff. exists y. auto.
  - left. apply in_map_iff in H. destruct H as [z [E Hz]]. apply in_map_iff. exists z. split; auto. inversion E. auto.
  - right. rewrite map_length in H1. split; auto. intros z Hz. apply (H2 (nkey z)). apply in_map. auto.
Qed.

Lemma greedy_fixed_point : forall sortf n dist accept acc L g init_ids,
  sorts sortf -> 1 <= L -> (forall id, is_nan (dist id) = false) ->
  (forall id, id < n -> accept id = Ok (acc id)) -> graph_ok n g ->
  (forall id, In id init_ids -> id < n) ->
  exists st, greedy_search sortf n dist accept L g init_ids = Ok st /\
    (forall z, In z (found st) -> In (nid z) (exp_ids st)) /\
    (forall x y, In x (exp_ids st) -> edge acc g x y ->
       In y (map nid (found st)) \/
       (length (found st) = L /\ forall z, In z (found st) -> fle (ndist z) (dist y) = true)).
Proof.
  intros sortf n dist accept acc L g init_ids Hs HL Hnan Hacc Hg Hn.
  destruct (greedy_dyn_ok sortf n dist accept acc L (fun _ => g) init_ids) as [st0 [st [E0 [E [HI [Hr [Hrun [Hexp _]]]]]]]]; auto.
  exists st. split; [exact E|]. split.
  - intros z Hz. eapply found_all_expanded; eauto.
  - intros x y Hx He. eapply ginv_discovered; [exact HI|]. eapply run_closed; eauto.
    intros a b Ha. unfold exp_ids in Ha. rewrite Hexp in Ha. destruct Ha.
Qed.

Lemma greedy_sorted_distinct : forall sortf n dist accept acc L gs init_ids,
  sorts sortf -> 1 <= L -> (forall id, is_nan (dist id) = false) ->
  (forall id, id < n -> accept id = Ok (acc id)) -> (forall i, graph_ok n (gs i)) ->
  (forall id, In id init_ids -> id < n) ->
  exists st, greedy_search_dyn sortf n dist accept L gs init_ids = Ok st /\
    StronglySorted (fun x y => fle (ndist x) (ndist y) = true) (found st) /\
    NoDup (map nid (found st)).
Proof.
  intros sortf n dist accept acc L gs init_ids Hs HL Hnan Hacc Hg Hn.
  destruct (greedy_dyn_ok sortf n dist accept acc L gs init_ids) as [st0 [st [E0 [E [HI [Hr _]]]]]]; auto.
  exists st. split; [auto|]. split.
  - destruct (gi_wf _ _ _ _ _ HI) as [_ [_ [_ [H _]]]]. exact H.
  - destruct (gi_top _ _ _ _ _ HI) as [T1 [_ T3]].
    replace (map nid (found st)) with (map fst (map nkey (found st))) by (rewrite map_map; reflexivity).
    eapply top_k_NoDup; [|exact T3]. rewrite score_fst. auto.
Qed.

Lemma greedy_true_distances : forall sortf n dist accept acc L g init_ids,
  sorts sortf -> 1 <= L -> (forall id, is_nan (dist id) = false) ->
  (forall id, id < n -> accept id = Ok (acc id)) -> graph_ok n g ->
  (forall id, In id init_ids -> id < n) ->
  exists st, greedy_search sortf n dist accept L g init_ids = Ok st /\
    forall z, In z (found st) -> nid z < n /\ ndist z = dist (nid z) /\
      reach acc g (fun x => In x init_ids) (nid z).
Proof.
  intros sortf n dist accept acc L g init_ids Hs HL Hnan Hacc Hg Hn.
  destruct (greedy_dyn_ok sortf n dist accept acc L (fun _ => g) init_ids) as [st0 [st [E0 [E [HI [Hr [Hrun [Hexp [_ [H1 _]]]]]]]]]]; auto.
  exists st. split; [exact E|]. intros z Hz. destruct (gi_wf _ _ _ _ _ HI) as [_ [_ [_ [_ H]]]].
  destruct (H z Hz) as [A [B C]]. split; [apply (gi_lt _ _ _ _ _ HI); auto|]. split; [auto|].
  eapply reach_weaken; [|eapply run_reach; eauto]. auto.
Qed.
