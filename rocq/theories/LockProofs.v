(** * The build with explicit locks. *)
From Coq Require Import String List Arith Lia Bool.
From Verif Require Import Base Float32 PoolModel TopKSpec SortSpec GraphSpec GreedyModel SearchModel PruneModel PruneSpec
  BuildModel BuildSpec ListLemmas BuildProofs BuildProofs2.
Import ListNotations.

Record linv (env : benv) (st : lstate) : Prop := {
  lv_b : binv env (ls_b st);
  lv_len : length (ls_held st) = sp_n (be_sp env);
  (* who holds a lock is about to use it *)
  lv_need : forall i t h, nth_error (bs_tasks (ls_b st)) i = Some t -> nth_error (ls_held st) i = Some (Some h) ->
            lock_need i t = Some h;
  lv_excl : forall i j a b, i <> j -> nth_error (ls_held st) i = Some (Some a) ->
            nth_error (ls_held st) j = Some (Some b) -> lock_conflict a b = false
}.

Definition idle (held : list (option (nat * bool))) : nat :=
  length (filter (fun h => match h with None => true | _ => false end) held).

Definition lmeasure (env : benv) (st : lstate) : nat :=
  2 * tmeasure env (bs_tasks (ls_b st)) + idle (ls_held st).

Lemma idle_wr : forall held i h h' held', nth_error held i = Some h -> wr held i h' = Ok held' ->
  idle held' + (match h with None => 1 | _ => 0 end) = idle held + (match h' with None => 1 | _ => 0 end).
Proof.
  intros held i h h' held' Hn Hw. destruct (nth_error_split _ _ Hn) as [l1 [l2 [-> Hl]]].
  rewrite wr_ok in Hw by (rewrite app_length; cbn; lia). subst i.
  rewrite firstn_app_len, skipn_app_S in Hw.
  assert (E : held' = l1 ++ h' :: l2) by congruence. subst. unfold idle. rewrite !filter_app, !app_length. cbn [filter].
  destruct h, h'; cbn [length]; lia.
Qed.

Lemma lock_conflict_sym : forall a b, lock_conflict a b = lock_conflict b a.
Proof. intros [a x] [b y]. unfold lock_conflict. cbn. rewrite Nat.eqb_sym, orb_comm. reflexivity. Qed.

Lemma lock_free_spec : forall held want, lock_free held want = true <->
  (forall i h, nth_error held i = Some (Some h) -> lock_conflict h want = false).
Proof.
  intros held want. unfold lock_free. rewrite forallb_forall. split.
  - intros H i h Hi. specialize (H _ (nth_error_In _ _ Hi)). cbn in H. apply negb_true_iff in H. auto.
  - intros H [h|] Hin; auto. apply In_nth_error in Hin. destruct Hin as [i Hi]. rewrite (H i h Hi). reflexivity.
Qed.

Lemma done_need : forall i t, task_done t = true -> lock_need i t = None.
Proof. intros i [| | |[|]|]; cbn; try discriminate; auto. Qed.

(** What a step of the lock model can be. *)
Lemma lock_step_ok : forall env st i, sorts (be_sort env) -> build_input_ok env -> linv env st ->
  i < sp_n (be_sp env) ->
  exists o, lock_step env st i = Ok o /\
    match o with
    | None =>
        exists t, nth_error (bs_tasks (ls_b st)) i = Some t /\
          (task_done t = true \/
           (nth_error (ls_held st) i = Some None /\ exists want j h, lock_need i t = Some want /\ j <> i /\
            nth_error (ls_held st) j = Some (Some h) /\ lock_conflict h want = true))
    | Some st' =>
        linv env st' /\ lmeasure env st' < lmeasure env st /\
        (ls_b st' = ls_b st \/ build_step env (ls_b st) i = Ok (ls_b st'))
    end.
Proof.
  intros env st i Hs Hin HI Hi. unfold lock_step.
  destruct (rd_lt _ (bs_tasks (ls_b st)) i) as [t Et]; [rewrite (bv_tl _ _ (lv_b _ _ HI)); auto|].
  destruct (rd_lt _ (ls_held st) i) as [h Eh]; [rewrite (lv_len _ _ HI); auto|].
  rewrite Et, Eh. cbn [bind]. apply rd_ok in Et. apply rd_ok in Eh.
  destruct (task_done t) eqn:Ed.
  { exists None. split; [auto|]. exists t. auto. }
  assert (Hexec : exists o,
    (do b <- build_step env (ls_b st) i; do held <- wr (ls_held st) i None; Ok (Some (mkLS b held))) = Ok (Some o) /\
    (linv env o /\ lmeasure env o < lmeasure env st /\
        (ls_b o = ls_b st \/ build_step env (ls_b st) i = Ok (ls_b o)))).
  { destruct (build_step_ok env (ls_b st) i t Hs Hin (lv_b _ _ HI) Et Ed)
      as [g' [t' [ts' [Hstep [Hw [E [HI' [Hm _]]]]]]]].
    rewrite E. cbn [bind]. destruct (wr_nth _ (ls_held st) i None) as [held [W [L N]]]; [rewrite (lv_len _ _ HI); auto|].
    rewrite W. cbn [bind]. eexists. split; [reflexivity|]. split; [|split].
    - constructor; cbn [ls_b ls_held].
      + auto.
      + rewrite L. apply (lv_len _ _ HI).
      + intros j tj hj Hj Hh. cbn [bs_tasks] in Hj. rewrite (wr_nth_Some _ _ _ _ _ Hw) in Hj. rewrite N in Hh.
        destruct (Nat.eq_dec j i) as [->|Hne]; [discriminate|]. eapply (lv_need _ _ HI); eauto.
      + intros a b ha hb Hab Ha Hb. rewrite N in Ha, Hb.
        destruct (Nat.eq_dec a i); [discriminate|]. destruct (Nat.eq_dec b i); [discriminate|].
        exact (lv_excl _ _ HI a b ha hb Hab Ha Hb).
    - unfold lmeasure. cbn [ls_b ls_held bs_tasks]. pose proof (idle_wr _ _ _ _ _ Eh W).
      destruct h; lia.
    - right. reflexivity. }
  destruct Hexec as [o [Eo Ho]].
  destruct h as [h|].
  { exists (Some o). split; [exact Eo|exact Ho]. }
  destruct (lock_need i t) as [want|] eqn:En.
  2:{ exists (Some o). split; [exact Eo|exact Ho]. }
  destruct (lock_free (ls_held st) want) eqn:Ef.
  - destruct (wr_nth _ (ls_held st) i (Some want)) as [held [W [L N]]]; [rewrite (lv_len _ _ HI); auto|].
    rewrite W. cbn [bind]. eexists. split; [reflexivity|]. cbn beta iota. split; [|split].
    + constructor; cbn [ls_b ls_held].
      * apply (lv_b _ _ HI).
      * rewrite L. apply (lv_len _ _ HI).
      * intros j tj hj Hj Hh. rewrite N in Hh. destruct (Nat.eq_dec j i) as [->|Hne].
        { congruence. } eapply (lv_need _ _ HI); eauto.
      * rewrite lock_free_spec in Ef. intros a b ha hb Hab Ha Hb. rewrite N in Ha, Hb.
        destruct (Nat.eq_dec a i) as [->|]; destruct (Nat.eq_dec b i) as [->|].
        { congruence. }
        { inversion Ha. subst. rewrite lock_conflict_sym. eapply Ef; eauto. }
        { inversion Hb. subst. eapply Ef; eauto. }
        { exact (lv_excl _ _ HI a b ha hb Hab Ha Hb). }
    + unfold lmeasure. cbn [ls_b ls_held]. pose proof (idle_wr _ _ _ _ _ Eh W) as Hid. cbn beta iota in Hid. lia.
    + left. reflexivity.
  - exists None. split; [auto|]. exists t. split; [auto|]. right. split; [auto|].
    assert (Hex : exists j h, nth_error (ls_held st) j = Some (Some h) /\ lock_conflict h want = true).
    { unfold lock_free in Ef. destruct (forallb_false_exists _ _ _ Ef) as [x [Hx Hf]].
      destruct x as [h|]; [|discriminate]. apply In_nth_error in Hx. destruct Hx as [j Hj].
      exists j, h. split; auto. destruct (lock_conflict h want); auto. }
    destruct Hex as [j [h [Hj Hc]]]. exists want, j, h. split; [auto|]. split; [|auto].
    intros ->. congruence.
Qed.

Lemma linit : forall env, linv env (lock_init env).
Proof.
  intros env. constructor; cbn [lock_init ls_b ls_held].
  - apply build_init_inv.
  - apply repeat_length.
  - intros i t h _ H. apply nth_error_In in H. apply repeat_spec in H. discriminate.
  - intros i j a b _ H. apply nth_error_In in H. apply repeat_spec in H. discriminate.
Qed.

Lemma lock_run_ok : forall env, sorts (be_sort env) -> build_input_ok env ->
  forall sched st, linv env st -> (forall i, In i sched -> i < sp_n (be_sp env)) ->
  exists st' sched', lock_run env st sched = Ok st' /\ linv env st' /\
    (forall i, In i sched' -> In i sched) /\
    build_run env (ls_b st) sched' = Ok (ls_b st').
Proof.
  intros env Hs Hin sched. induction sched as [|i sched IH]; intros st HI Hsc; cbn [lock_run].
  - exists st, []. cbn. auto.
  - destruct (lock_step_ok env st i Hs Hin HI) as [o [E Ho]]; [apply Hsc; left; auto|]. rewrite E. cbn [bind].
    destruct o as [st1|].
    + destruct Ho as [HI1 [_ Hb]].
      destruct (IH st1 HI1) as [st' [s' [R [HI' [Sub B]]]]]; [intros j Hj; apply Hsc; right; auto|].
      exists st'. destruct Hb as [Hb|Hb].
      * exists s'. rewrite <- Hb. split; [auto|]. split; [auto|]. split; [intros j Hj; right; auto|auto].
      * exists (i :: s'). split; [auto|]. split; [auto|]. split; [intros j [<-|Hj]; [left|right]; auto|].
        cbn [build_run]. rewrite Hb. cbn [bind]. auto.
    + destruct (IH st HI) as [st' [s' [R [HI' [Sub B]]]]]; [intros j Hj; apply Hsc; right; auto|].
      exists st', s'. split; [auto|]. split; [auto|]. split; [intros j Hj; right; auto|auto].
Qed.

(** Some thread can always move. *)
Lemma lock_progress : forall env st, sorts (be_sort env) -> build_input_ok env -> linv env st ->
  all_done (ls_b st) = false ->
  exists i st', i < sp_n (be_sp env) /\ lock_step env st i = Ok (Some st').
Proof.
  intros env st Hs Hin HI Hd.
  destruct (not_all_done _ Hd) as [i [t [Et Ed]]].
  assert (Hi : i < sp_n (be_sp env)).
  { rewrite <- (bv_tl _ _ (lv_b _ _ HI)). apply nth_error_Some. congruence. }
  destruct (lock_step_ok env st i Hs Hin HI Hi) as [[st'|] [E Ho]].
  - exists i, st'. auto.
  - destruct Ho as [t0 [Et0 [Hd0|[_ [want [j [h [_ [_ [Hj _]]]]]]]]]]; [congruence|].
    assert (Hjn : j < sp_n (be_sp env)).
    { rewrite <- (lv_len _ _ HI). apply nth_error_Some. congruence. }
    destruct (lock_step_ok env st j Hs Hin HI Hjn) as [[st'|] [E' Ho']].
    + exists j, st'. auto.
    + destruct Ho' as [tj [Etj [Hdj|[Hn _]]]]; [|congruence].
      pose proof (lv_need _ _ HI j tj h Etj Hj) as Hneed. rewrite (done_need j tj Hdj) in Hneed. discriminate.
Qed.

Lemma moving_bound : forall env, sorts (be_sort env) -> build_input_ok env ->
  forall sched st, linv env st -> moving env st sched -> length sched <= lmeasure env st.
Proof.
  intros env Hs Hin sched. induction sched as [|i sched IH]; intros st HI Hm; [cbn; lia|].
  destruct Hm as [Hi [st' [E Hm]]]. destruct (lock_step_ok env st i Hs Hin HI Hi) as [o [E' Ho]].
  rewrite E in E'. inversion E'. subst o. destruct Ho as [HI' [Hlt _]]. specialize (IH st' HI' Hm). cbn [length]. lia.
Qed.

Lemma idle_repeat : forall m, idle (repeat None m) = m.
Proof. induction m as [|m IH]; [reflexivity|]. unfold idle in *. cbn. lia. Qed.

Lemma lmeasure_init : forall env, lmeasure env (lock_init env) =
  sp_n (be_sp env) * (2 * ((sp_n (be_sp env) + 1) * (bp_L (be_prm env) + 1) + 2 * bp_R (be_prm env) + 3) + 1).
Proof.
  intros env. unfold lmeasure. cbn [lock_init ls_b ls_held build_init bs_tasks].
  rewrite idle_repeat, tmeasure_repeat. unfold task_measure. lia.
Qed.

Lemma lock_excl_run : forall env sched st, sorts (be_sort env) -> build_input_ok env ->
  (forall i, In i sched -> i < sp_n (be_sp env)) -> lock_run env (lock_init env) sched = Ok st ->
  forall i j x wi wj, i <> j -> nth_error (ls_held st) i = Some (Some (x, wi)) ->
    nth_error (ls_held st) j = Some (Some (x, wj)) -> wi = false /\ wj = false.
Proof.
  intros env sched st Hs Hin Hsc Hrun i j x wi wj Hij Hi Hj.
  destruct (lock_run_ok env Hs Hin sched (lock_init env) (linit env) Hsc) as [st' [s' [E [HI _]]]].
  assert (st' = st) by congruence. subst. pose proof (lv_excl _ _ HI i j _ _ Hij Hi Hj) as H.
  unfold lock_conflict in H. cbn in H. rewrite Nat.eqb_refl in H. cbn in H. apply orb_false_iff in H. auto.
Qed.

Lemma lock_progress_run : forall env sched, sorts (be_sort env) -> build_input_ok env ->
  (forall i, In i sched -> i < sp_n (be_sp env)) ->
  exists st, lock_run env (lock_init env) sched = Ok st /\
    (all_done (ls_b st) = true \/ exists i st', i < sp_n (be_sp env) /\ lock_step env st i = Ok (Some st')).
Proof.
  intros env sched Hs Hin Hsc.
  destruct (lock_run_ok env Hs Hin sched (lock_init env) (linit env) Hsc) as [st [s' [E [HI _]]]].
  exists st. split; [auto|]. destruct (all_done (ls_b st)) eqn:Ed; [auto|]. right. apply lock_progress; auto.
Qed.

Lemma lock_moving_bound : forall env sched, sorts (be_sort env) -> build_input_ok env ->
  moving env (lock_init env) sched ->
  length sched <= sp_n (be_sp env) *
    (2 * ((sp_n (be_sp env) + 1) * (bp_L (be_prm env) + 1) + 2 * bp_R (be_prm env) + 3) + 1).
Proof.
  intros env sched Hs Hin Hm. rewrite <- lmeasure_init. apply moving_bound; auto. apply linit.
Qed.

Lemma lock_refines : forall env sched st, sorts (be_sort env) -> build_input_ok env ->
  (forall i, In i sched -> i < sp_n (be_sp env)) -> lock_run env (lock_init env) sched = Ok st ->
  exists sched', (forall i, In i sched' -> i < sp_n (be_sp env)) /\
    build_run env (build_init env) sched' = Ok (ls_b st).
Proof.
  intros env sched st Hs Hin Hsc Hrun.
  destruct (lock_run_ok env Hs Hin sched (lock_init env) (linit env) Hsc) as [st' [s' [E [HI [Sub B]]]]].
  assert (st' = st) by congruence. subst. exists s'. split; auto.
Qed.
