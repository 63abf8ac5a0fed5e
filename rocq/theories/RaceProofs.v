(** * The build is free of data races if the first reservation is large enough. *)
From Coq Require Import String List Arith Lia Bool.
From Verif Require Import Base Float32 PoolModel TopKSpec SortSpec GraphSpec GreedyModel SearchModel PruneModel PruneSpec
  BuildModel BuildSpec ListLemmas BuildProofs BuildProofs2 LockProofs RaceModel RaceSpec.
Import ListNotations.

Record rinv (env : benv) (rs : lstate * list nat) : Prop := {
  rv_l : linv env (fst rs);
  rv_len : length (snd rs) = sp_n (be_sp env);
  rv_cap : forall x c, nth_error (snd rs) x = Some c -> first_reserve (bp_R (be_prm env)) <= c
}.

Lemma nth_set_cap : forall caps x c y, x < length caps ->
  nth_error (set_cap caps x c) y = if y =? x then Some c else nth_error caps y.
Proof.
  unfold set_cap. induction caps as [|a caps IH]; intros x c y H; [cbn in H; lia|].
  destruct x as [|x]; destruct y as [|y]; try reflexivity. cbn. apply IH. cbn in H. lia.
Qed.

Lemma set_cap_out : forall caps x c, length caps <= x -> set_cap caps x c = caps.
Proof. intros caps x c H. unfold set_cap. rewrite skipn_all2, firstn_all2 by lia. apply app_nil_r. Qed.

Lemma length_set_cap : forall caps x c, length (set_cap caps x c) = length caps.
Proof.
  unfold set_cap. induction caps as [|a caps IH]; intros x c.
  - rewrite firstn_nil, skipn_nil. reflexivity.
  - destruct x as [|x]; [reflexivity|]. cbn. f_equal. apply IH.
Qed.

Lemma pushes_same : forall k cap size, size + k <= cap -> pushes_cap cap size k = cap.
Proof.
  induction k as [|k IH]; intros cap size H; cbn [pushes_cap]; auto. unfold push_cap.
  destruct (Nat.ltb_spec size cap); [|lia]. apply IH. lia.
Qed.

Lemma pushes_ge : forall k cap size, cap <= pushes_cap cap size k.
Proof.
  induction k as [|k IH]; intros cap size; cbn [pushes_cap]; auto. etransitivity; [|apply IH]. unfold push_cap.
  destruct (Nat.ltb_spec size cap); lia.
Qed.

Lemma reserves : forall R, second_reserve R <= first_reserve R.
Proof.
  intros R. unfold second_reserve, first_reserve. apply Nat.div_le_lower_bound; [lia|].
  pose proof (Nat.mul_div_le (13 * R) 10). lia.
Qed.

(** A step acquires a lock, or works while holding exactly the lock it needs. *)
Lemma race_step_cases : forall env rs i rs', rinv env rs -> race_step env rs i = Ok (Some rs') ->
  exists t h, nth_error (bs_tasks (ls_b (fst rs))) i = Some t /\ nth_error (ls_held (fst rs)) i = Some h /\ task_done t = false /\
    ((h = None /\ exists want, lock_need i t = Some want /\ ls_b (fst rs') = ls_b (fst rs) /\
        lock_free (ls_held (fst rs)) want = true /\
        wr (ls_held (fst rs)) i (Some want) = Ok (ls_held (fst rs')) /\ snd rs' = snd rs) \/
     (lock_need i t = h /\ build_step env (ls_b (fst rs)) i = Ok (ls_b (fst rs')) /\
        wr (ls_held (fst rs)) i None = Ok (ls_held (fst rs')) /\
        snd rs' = caps_step env i (bs_graph (ls_b (fst rs))) (snd rs) t)).
Proof.
  intros env [st caps] i rs' HI H. cbn [fst snd] in *. unfold race_step, lock_step in H.
  destruct (rd (bs_tasks (ls_b st)) i) as [t| | | |] eqn:Et; try discriminate.
  destruct (rd (ls_held st) i) as [h| | | |] eqn:Eh; try discriminate. cbn [bind] in H.
  apply rd_ok in Et. apply rd_ok in Eh. exists t, h. split; [auto|]. split; [auto|].
  destruct (task_done t); [discriminate|]. split; [auto|].
  assert (W : (match h, lock_need i t with None, Some _ => false | _, _ => true end) = true -> lock_need i t = h).
  { destruct h as [w|].
    - intros _. exact (lv_need _ _ (rv_l _ _ HI) i t w Et Eh).
    - destruct (lock_need i t); [discriminate|auto]. }
  destruct h as [h|]; [|destruct (lock_need i t) as [want|] eqn:En].
  - specialize (W eq_refl). right. split; [auto|]. destruct (build_step env (ls_b st) i) as [b| | | |]; try discriminate. cbn [bind] in H.
    destruct (wr (ls_held st) i None) as [held| | | |] eqn:Ew; try discriminate. cbn [bind] in H.
    assert (rs' = (mkLS b held, caps_step env i (bs_graph (ls_b st)) caps t)) by (destruct (lock_need i t); congruence).
    subst. cbn. auto.
  - left. split; [auto|]. exists want. split; [auto|].
    destruct (lock_free (ls_held st) want) eqn:Ef; [|discriminate].
    destruct (wr (ls_held st) i (Some want)) as [held| | | |] eqn:Ew; try discriminate. cbn [bind] in H.
    assert (rs' = (mkLS (ls_b st) held, caps)) by congruence. subst. cbn. auto.
  - right. split; [auto|]. destruct (build_step env (ls_b st) i) as [b| | | |]; try discriminate. cbn [bind] in H.
    destruct (wr (ls_held st) i None) as [held| | | |] eqn:Ew; try discriminate. cbn [bind] in H.
    assert (rs' = (mkLS b held, caps_step env i (bs_graph (ls_b st)) caps t)) by congruence. subst. cbn. auto.
Qed.

Lemma set_cap_ge : forall caps x c y d e, nth_error caps y = Some e -> nth x caps 0 <= c ->
  nth_error (set_cap caps x c) y = Some d -> e <= d.
Proof.
  intros caps x c y d e He Hc Hd. destruct (Nat.lt_ge_cases x (length caps)) as [Hx|Hx].
  - rewrite nth_set_cap in Hd by auto. destruct (Nat.eqb_spec y x) as [->|Hne]; [|rewrite He in Hd; inversion Hd; lia].
    rewrite (nth_error_nth _ _ 0 He) in Hc. inversion Hd. lia.
  - rewrite set_cap_out in Hd by auto. rewrite He in Hd. inversion Hd. lia.
Qed.

Lemma caps_step_len : forall env loc g caps t, length (caps_step env loc g caps t) = length caps.
Proof.
  intros env loc g caps [|st|p|[|des todo]|des new todo]; cbn [caps_step]; auto; try apply length_set_cap.
  - destruct (greedy_running st); auto. apply length_set_cap.
  - destruct (set_mem _ _); auto. destruct (_ <? _); auto. apply length_set_cap.
Qed.

Lemma caps_step_ge : forall env loc g caps t y d e, nth_error caps y = Some e ->
  nth_error (caps_step env loc g caps t) y = Some d -> e <= d.
Proof.
  intros env loc g caps t y d e He Hd.
  assert (S : nth_error caps y = Some d -> e <= d) by (rewrite He; intro X; inversion X; lia).
  destruct t as [|st|p|[|des todo]|des new todo]; cbn [caps_step] in Hd; auto.
  - destruct (greedy_running st); auto. refine (set_cap_ge _ _ _ _ _ _ He _ Hd). apply Nat.le_max_l.
  - refine (set_cap_ge _ _ _ _ _ _ He _ Hd). apply pushes_ge.
  - destruct (set_mem _ _); auto. destruct (_ <? _); auto. refine (set_cap_ge _ _ _ _ _ _ He _ Hd). apply pushes_ge.
  - refine (set_cap_ge _ _ _ _ _ _ He _ Hd). apply pushes_ge.
Qed.

Lemma race_step_inv : forall env rs i rs', sorts (be_sort env) -> build_input_ok env -> rinv env rs -> i < sp_n (be_sp env) ->
  race_step env rs i = Ok (Some rs') -> rinv env rs' /\ lock_step env (fst rs) i = Ok (Some (fst rs')).
Proof.
  intros env [st caps] i rs' Hs Hin HI Hi H.
  assert (Hl : lock_step env st i = Ok (Some (fst rs'))).
  { cbn [race_step] in H. destruct (lock_step env st i) as [[st'|]| | | |]; try discriminate. cbn [bind] in H.
    destruct (rd (bs_tasks (ls_b st)) i) as [t| | | |]; try discriminate.
    destruct (rd (ls_held st) i) as [h| | | |]; try discriminate. cbn [bind] in H. destruct h, (lock_need i t); inversion H; reflexivity. }
  split; [|exact Hl].
  destruct (lock_step_ok env st i Hs Hin (rv_l _ _ HI) Hi) as [o [E Ho]]. assert (o = Some (fst rs')) by congruence. subst o.
  destruct (race_step_cases env (st, caps) i rs' HI H) as [t [h [_ [_ [_ [[_ [w [_ [_ [_ [_ Hc]]]]]]|[_ [_ [_ Hc]]]]]]]]]; cbn [fst snd] in *.
  - constructor; rewrite ?Hc; [apply Ho|apply (rv_len _ _ HI)|apply (rv_cap _ _ HI)].
  - constructor; rewrite ?Hc; [apply Ho|rewrite caps_step_len; apply (rv_len _ _ HI)|].
    intros x c Hx. assert (L : x < length caps) by (rewrite <- (caps_step_len env i (bs_graph (ls_b st)) caps t); apply nth_error_Some; congruence).
    destruct (nth_error caps x) as [e|] eqn:Ee; [|apply nth_error_None in Ee; lia].
    pose proof (rv_cap _ _ HI x e Ee). pose proof (caps_step_ge _ _ _ _ _ _ _ _ Ee Hx). lia.
Qed.

Lemma race_init_inv : forall env, rinv env (race_init env).
Proof.
  intros env. constructor; cbn [race_init fst snd].
  - apply linit.
  - apply repeat_length.
  - intros x c H. apply nth_error_In in H. apply repeat_spec in H. lia.
Qed.

Lemma race_step_total : forall env rs i, sorts (be_sort env) -> build_input_ok env -> rinv env rs -> i < sp_n (be_sp env) ->
  exists o, race_step env rs i = Ok o /\
    lock_step env (fst rs) i = Ok (match o with Some rs' => Some (fst rs') | None => None end).
Proof.
  intros env [st caps] i Hs Hin HI Hi. destruct (lock_step_ok env st i Hs Hin (rv_l _ _ HI) Hi) as [o [E _]].
  pose proof (bv_tl _ _ (lv_b _ _ (rv_l _ _ HI))) as L1. pose proof (lv_len _ _ (rv_l _ _ HI)) as L2. cbn [fst] in L1, L2.
  cbn [race_step fst]. rewrite E. cbn [bind]. destruct o as [st'|]; [|eexists; split; reflexivity].
  destruct (rd_lt _ (bs_tasks (ls_b st)) i) as [t Et]; [lia|].
  destruct (rd_lt _ (ls_held st) i) as [h Eh]; [lia|].
  rewrite Et, Eh. cbn [bind]. destruct h, (lock_need i t); eexists; split; reflexivity.
Qed.

Lemma race_run_ok : forall env, sorts (be_sort env) -> build_input_ok env ->
  forall sched rs, rinv env rs -> (forall i, In i sched -> i < sp_n (be_sp env)) ->
  exists rs', race_run env rs sched = Ok rs' /\ rinv env rs' /\ lock_run env (fst rs) sched = Ok (fst rs').
Proof.
  intros env Hs Hin sched. induction sched as [|i sched IH]; intros rs HI Hsc; cbn [race_run lock_run].
  - exists rs. auto.
  - assert (Hi : i < sp_n (be_sp env)) by (apply Hsc; left; auto).
    destruct (race_step_total env rs i Hs Hin HI Hi) as [o [E El]]. rewrite E, El. cbn [bind].
    destruct o as [rs1|].
    + apply IH; [|intros j Hj; apply Hsc; right; auto]. eapply race_step_inv; eauto.
    + apply IH; auto. intros j Hj. apply Hsc. right. auto.
Qed.

(** Every access is covered by the lock the step needs, except the test of reserve. *)
Lemma push_accesses_in : forall x cap size k a, In a (push_accesses x cap size k) ->
  a_list a = x /\ (a = mkA x Bounds (cap <? size + k) \/ a = mkA x Items true).
Proof. intros x cap size [|k] a; cbn; [tauto|]. intros [<-|[<-|[]]]; auto. Qed.

Lemma accesses_need : forall env loc g caps t a, loc < length caps ->
  (forall x c, nth_error caps x = Some c -> first_reserve (bp_R (be_prm env)) <= c) ->
  In a (accesses env loc g caps t) ->
  (exists w, lock_need loc t = Some (a_list a, w) /\ (a_write a = true -> w = true)) \/
  (exists s, t = TSearch s /\ greedy_running s = false /\ a = mkA loc Bounds false).
Proof.
  intros env loc g caps t a Hl Hc H. destruct t as [|st|p|[|des todo]|des new todo]; cbn [accesses lock_need] in *; try (destruct H; fail).
  - destruct (greedy_running st) eqn:Er.
    + left. destruct (nth_error (p_arr (g_pool st)) (g_k st)) as [x|]; [|destruct H]. destruct (nflag x); [|destruct H].
      exists false. destruct H as [<-|[<-|[]]]; cbn; split; auto; discriminate.
    + right. exists st. split; [auto|]. split; [auto|]. unfold reserve_accesses in H.
      assert (C : nth loc caps 0 <? second_reserve (bp_R (be_prm env)) = false).
      { apply Nat.ltb_ge. destruct (nth_error caps loc) as [c|] eqn:E; [|apply nth_error_None in E; lia].
        rewrite (nth_error_nth _ _ 0 E). specialize (Hc _ _ E). pose proof (reserves (bp_R (be_prm env))). lia. }
      rewrite C in H. destruct H as [<-|[]]. reflexivity.
  - left. exists true. apply push_accesses_in in H. destruct H as [-> _]. auto.
  - left. exists true. split; [|auto]. apply in_app_or in H. destruct H as [[<-|[<-|[]]]|H]; auto.
    destruct (set_mem _ _); [destruct H|]. destruct (_ <? _); [|destruct H]. apply push_accesses_in in H. destruct H as [-> _]. auto.
  - left. exists true. split; [|auto]. destruct H as [<-|H]; auto. apply push_accesses_in in H. destruct H as [-> _]. auto.
Qed.

Lemma need_held : forall env rs i a, rinv env rs -> about_to env rs i a ->
  exists t, nth_error (bs_tasks (ls_b (fst rs))) i = Some t /\ In a (accesses env i (bs_graph (ls_b (fst rs))) (snd rs) t) /\
    task_done t = false /\ nth_error (ls_held (fst rs)) i = Some (lock_need i t).
Proof.
  intros env rs i a HI [rs' [t [H [Hn [Et Ha]]]]]. exists t. split; [auto|]. split; [auto|].
  destruct (race_step_cases env rs i rs' HI H) as [t' [h [Et' [Eh [Ed [[_ [w [_ [_ [_ [W _]]]]]]|[Hw _]]]]]]].
  - rewrite (wr_nth_Some _ _ _ _ _ W) in Hn. destruct (Nat.eq_dec i i); [|congruence]. discriminate.
  - assert (t' = t) by congruence. subst. auto.
Qed.

Lemma about_locked : forall env rs i a, rinv env rs -> about_to env rs i a ->
  (exists w, holds rs i (a_list a) w /\ (a_write a = true -> w = true)) \/
  (exists s, nth_error (bs_tasks (ls_b (fst rs))) i = Some (TSearch s) /\ greedy_running s = false /\ a = mkA i Bounds false).
Proof.
  intros env rs i a HI H. destruct (need_held env rs i a HI H) as [t [Et [Ha [_ Hh]]]].
  assert (Hi : i < length (snd rs)).
  { rewrite (rv_len _ _ HI), <- (bv_tl _ _ (lv_b _ _ (rv_l _ _ HI))). apply nth_error_Some. congruence. }
  destruct (accesses_need env i _ _ t a Hi (rv_cap _ _ HI) Ha) as [[w [Hw Hx]]|[s [-> [Hr Ha']]]].
  - left. exists w. split; auto. unfold holds. rewrite Hh, Hw. reflexivity.
  - right. exists s. auto.
Qed.

(** Nobody replaces the storage of a list before its own thread links. *)
Lemma storage_stays : forall env rs j i s, rinv env rs -> slack (bp_R (be_prm env)) <= first_reserve (bp_R (be_prm env)) ->
  j <> i -> nth_error (bs_tasks (ls_b (fst rs))) i = Some (TSearch s) -> ~ about_to env rs j (mkA i Bounds true).
Proof.
  intros env rs j i s HI Hsl Hij Ei H. destruct (need_held env rs j _ HI H) as [t [Et [Ha [_ _]]]].
  assert (Hi : i < length (snd rs)).
  { rewrite (rv_len _ _ HI), <- (bv_tl _ _ (lv_b _ _ (rv_l _ _ HI))). apply nth_error_Some. congruence. }
  destruct (nth_error (snd rs) i) as [c|] eqn:Ec; [|apply nth_error_None in Ec; lia].
  pose proof (rv_cap _ _ HI i c Ec) as Hc. pose proof (bv_task _ _ (lv_b _ _ (rv_l _ _ HI)) j t Et) as Ht.
  destruct t as [|st|p|[|des todo]|des new todo]; cbn [accesses] in Ha; try (destruct Ha; fail).
  - destruct (greedy_running st).
    + destruct (nth_error (p_arr (g_pool st)) (g_k st)) as [x|]; [|destruct Ha]. destruct (nflag x); [|destruct Ha]. destruct Ha as [Ha|[Ha|[]]]; discriminate.
    + unfold reserve_accesses in Ha. destruct (nth j (snd rs) 0 <? second_reserve (bp_R (be_prm env))); destruct Ha as [Ha|Ha]; try congruence; [destruct Ha as [Ha|[]]; discriminate|destruct Ha].
  - apply push_accesses_in in Ha. destruct Ha as [Ha _]. cbn in Ha. congruence.
  - apply in_app_or in Ha. destruct Ha as [[Ha|[Ha|[]]]|Ha]; try discriminate.
    destruct (set_mem j (nth des (bs_graph (ls_b (fst rs))) [])); [destruct Ha|].
    destruct (10 * length (nth des (bs_graph (ls_b (fst rs))) []) <? 13 * bp_R (be_prm env)) eqn:El; [|destruct Ha]. apply Nat.ltb_lt in El.
    apply push_accesses_in in Ha. destruct Ha as [Hl [Ha|Ha]]; [|discriminate]. cbn in Hl. subst des.
    inversion Ha as [Hb]. symmetry in Hb. apply Nat.ltb_lt in Hb. rewrite (nth_error_nth _ _ 0 Ec) in Hb.
    apply slack_lt in El. lia.
  - destruct Ha as [Ha|Ha]; [discriminate|]. apply push_accesses_in in Ha. destruct Ha as [Hl [Ha|Ha]]; [|discriminate]. cbn in Hl. subst des.
    inversion Ha as [Hb]. symmetry in Hb. apply Nat.ltb_lt in Hb. rewrite (nth_error_nth _ _ 0 Ec) in Hb.
    destruct Ht as [_ [[_ [Hn _]] _]]. assert (bp_R (be_prm env) <= slack (bp_R (be_prm env))).
    { unfold slack. apply Nat.div_le_lower_bound; lia. } lia.
Qed.

Lemma no_race : forall env rs, rinv env rs -> slack (bp_R (be_prm env)) <= first_reserve (bp_R (be_prm env)) -> ~ race env rs.
Proof.
  intros env rs HI Hsl [i [j [a [b [Hij [Ha [Hb [Hl [Hp Hw]]]]]]]]].
  destruct (about_locked env rs i a HI Ha) as [[wa [La Wa]]|[sa [Ta [_ ->]]]];
  destruct (about_locked env rs j b HI Hb) as [[wb [Lb Wb]]|[sb [Tb [_ ->]]]]; cbn [a_list a_part a_write] in *.
  - unfold holds in La, Lb. rewrite Hl in La. pose proof (lv_excl _ _ (rv_l _ _ HI) i j _ _ Hij La Lb) as X.
    unfold lock_conflict in X. cbn in X. rewrite Nat.eqb_refl in X. cbn in X. apply orb_false_iff in X. destruct X as [-> ->].
    destruct Hw as [Hw|Hw]; [specialize (Wa Hw)|specialize (Wb Hw)]; discriminate.
  - destruct Hw as [Hw|Hw]; [|discriminate]. destruct a as [x p w]. cbn in *. subst. eapply storage_stays with (s := sb); [exact HI|exact Hsl|exact Hij|exact Tb|exact Ha].
  - destruct Hw as [Hw|Hw]; [discriminate|]. destruct b as [x p w]. cbn in *. subst. eapply storage_stays with (s := sa); [exact HI|exact Hsl|apply not_eq_sym; exact Hij|exact Ta|exact Hb].
  - congruence.
Qed.

Lemma no_race_run : forall env sched rs, sorts (be_sort env) -> build_input_ok env -> (forall i, In i sched -> i < sp_n (be_sp env)) ->
  slack (bp_R (be_prm env)) <= first_reserve (bp_R (be_prm env)) -> race_run env (race_init env) sched = Ok rs -> ~ race env rs.
Proof.
  intros env sched rs Hs Hin Hsc Hsl H. destruct (race_run_ok env Hs Hin sched (race_init env) (race_init_inv env) Hsc) as [rs' [E [HI _]]].
  assert (rs' = rs) by congruence. subst. apply no_race; auto.
Qed.

(** 1, 2, 4, 5, 7 and 8 are the degrees whose first reservation is too small. *)
Lemma slack_reserve : forall R, slack R <= first_reserve R <-> ~ In R [1; 2; 4; 5; 7; 8].
Proof.
  intros R. unfold slack, first_reserve. pose proof (Nat.div_mod (13 * R + 9) 10) as A. pose proof (Nat.mod_upper_bound (13 * R + 9) 10) as B.
  pose proof (Nat.div_mod (1365 * R) 1000) as C. pose proof (Nat.mod_upper_bound (1365 * R) 1000) as D.
  destruct (Nat.le_gt_cases 16 R) as [H|H].
  - split; [intros _ X; cbn in X; lia|intros _; lia].
  - clear A B C D. assert (X : In R (seq 0 16)) by (apply in_seq; lia). cbn in X.
    repeat (destruct X as [<-|X]; [vm_compute; split; [intros L M; lia|intro M; try lia; exfalso; apply M; auto 10]|]). destruct X.
Qed.
