(** * The accesses of a step are all the memory it depends on and changes; races for the
    remaining degrees. *)
From Coq Require Import ZArith String List Arith Lia Bool.
From Verif Require Import Base Float32 PoolModel TopKSpec SortSpec SortInst GraphSpec GreedyModel SearchModel PruneModel PruneSpec
  BuildModel BuildSpec ListLemmas BuildProofs BuildProofs2 BuildWitness LockProofs RaceModel RaceSpec RaceProofs.
Import ListNotations.

Lemma wr_len_eq : forall (A : Type) (a b : list A) i x, wr a i x = Ok b -> length b = length a /\ i < length a.
Proof.
  intros A a b i x H. unfold wr in H. destruct (i <? length a) eqn:E; [|discriminate]. apply Nat.ltb_lt in E.
  destruct (wr_nth _ a i x E) as [b' [W [L _]]]. rewrite wr_ok in W by auto. assert (b = b') by congruence. subst. auto.
Qed.

Lemma build_step_inv : forall env st i st', build_step env st i = Ok st' ->
  exists t t', nth_error (bs_tasks st) i = Some t /\ task_step env i (bs_graph st) t = Ok (bs_graph st', t') /\ wr (bs_tasks st) i t' = Ok (bs_tasks st').
Proof.
  intros env st i st' H. unfold build_step in H. destruct (rd (bs_tasks st) i) as [t| | | |] eqn:Et; try discriminate. cbn [bind] in H.
  destruct (task_step env i (bs_graph st) t) as [[g' t']| | | |] eqn:Es; try discriminate. cbn [bind] in H.
  destruct (wr (bs_tasks st) i t') as [ts| | | |] eqn:Ew; try discriminate. cbn [bind] in H. inversion H. subst. cbn.
  exists t, t'. apply rd_ok in Et. auto.
Qed.

(** What changes. *)
Lemma task_changes : forall env loc g caps t g' t' x, task_step env loc g t = Ok (g', t') ->
  nth_error g' x <> nth_error g x -> In (mkA x Items true) (accesses env loc g caps t).
Proof.
  intros env loc g caps t g' t' x H Hx.
  destruct t as [|st|p|[|des todo]|des new todo]; cbn [task_step accesses] in *.
  - destruct (_ =? 0); [discriminate|]. destruct (task_filters env loc); try discriminate. cbn [bind] in H.
    destruct (greedy_init _ _ _ _ _); try discriminate. inversion H. congruence.
  - destruct (task_filters env loc); try discriminate. cbn [bind] in H. destruct (greedy_running st).
    + destruct (greedy_step _ _ _ _ _ _); try discriminate. inversion H. congruence.
    + destruct (prune_alpha _ _ _ _ _ _); try discriminate. inversion H. congruence.
  - destruct (rd g loc) as [old| | | |] eqn:Eo; try discriminate. cbn [bind] in H. apply rd_ok in Eo.
    destruct (wr g loc (old ++ p)) as [g1| | | |] eqn:Ew; try discriminate. inversion H. subst. rewrite (wr_nth_Some _ _ _ _ _ Ew) in Hx.
    destruct (Nat.eq_dec x loc) as [->|]; [|congruence]. destruct p as [|y p]; [rewrite app_nil_r in Hx; congruence|]. cbn. auto.
  - inversion H. congruence.
  - destruct (rd g des) as [pool| | | |] eqn:Eo; try discriminate. cbn [bind] in H. apply rd_ok in Eo. rewrite (nth_error_nth _ _ [] Eo).
    destruct (set_mem loc pool); [inversion H; congruence|]. destruct (10 * length pool <? _).
    + destruct (wr g des _) as [g1| | | |] eqn:Ew; try discriminate. inversion H. subst. rewrite (wr_nth_Some _ _ _ _ _ Ew) in Hx.
      destruct (Nat.eq_dec x des) as [->|]; [|congruence]. cbn. auto.
    + destruct (reprune _ _ _); try discriminate. inversion H. congruence.
  - destruct (wr g des new) as [g1| | | |] eqn:Ew; try discriminate. inversion H. subst. rewrite (wr_nth_Some _ _ _ _ _ Ew) in Hx.
    destruct (Nat.eq_dec x des) as [->|]; [|congruence]. left. reflexivity.
Qed.

Lemma set_cap_changes : forall caps y c x, nth_error (set_cap caps y c) x <> nth_error caps x -> x = y /\ c <> nth y caps 0.
Proof.
  intros caps y c x H. destruct (Nat.lt_ge_cases y (length caps)) as [L|L].
  - rewrite nth_set_cap in H by auto. destruct (Nat.eqb_spec x y) as [Exy|]; [|congruence]. split; auto. intros ->. rewrite Exy in H.
    apply H. symmetry. apply nth_error_nth'. auto.
  - rewrite set_cap_out in H by auto. congruence.
Qed.

Lemma pushes_change : forall x cap size k, pushes_cap cap size k <> cap -> In (mkA x Bounds true) (push_accesses x cap size k).
Proof.
  intros x cap size k H. destruct (Nat.le_gt_cases (size + k) cap) as [L|L]; [rewrite pushes_same in H by auto; congruence|].
  destruct k as [|k]; [exfalso; apply H; reflexivity|]. apply Nat.ltb_lt in L. unfold push_accesses. rewrite L. left. reflexivity.
Qed.

Lemma caps_change : forall env loc g caps t x, nth_error (caps_step env loc g caps t) x <> nth_error caps x ->
  In (mkA x Bounds true) (accesses env loc g caps t).
Proof.
  intros env loc g caps t x H. destruct t as [|st|p|[|des todo]|des new todo]; cbn [caps_step accesses] in *; try congruence.
  - destruct (greedy_running st); [congruence|]. apply set_cap_changes in H. destruct H as [-> H]. unfold reserve_accesses.
    destruct (Nat.ltb_spec (nth loc caps 0) (second_reserve (bp_R (be_prm env)))); [left; reflexivity|]. exfalso. apply H. lia.
  - apply set_cap_changes in H. destruct H as [-> H]. apply pushes_change. auto.
  - destruct (set_mem loc (nth des g [])); [congruence|]. destruct (10 * _ <? _); [|congruence].
    apply set_cap_changes in H. destruct H as [-> H]. apply in_or_app. right. apply pushes_change. auto.
  - apply set_cap_changes in H. destruct H as [-> H]. right. apply pushes_change. auto.
Qed.

(** What it depends on. *)
Lemma task_depends : forall env loc g g2 caps t g' t', task_step env loc g t = Ok (g', t') -> length g2 = length g ->
  (forall a, In a (accesses env loc g caps t) -> a_part a = Items -> nth_error g2 (a_list a) = nth_error g (a_list a)) ->
  exists g2', task_step env loc g2 t = Ok (g2', t') /\
    (forall a, In a (accesses env loc g caps t) -> a_part a = Items -> nth_error g2' (a_list a) = nth_error g' (a_list a)).
Proof.
  intros env loc g g2 caps t g' t' H L D.
  destruct t as [|st|p|[|des todo]|des new todo]; cbn [task_step accesses] in *.
  - destruct (_ =? 0); [discriminate|]. destruct (task_filters env loc); try discriminate. cbn [bind] in *.
    destruct (greedy_init _ _ _ _ _); try discriminate. cbn [bind] in *. inversion H. subst. exists g2. split; auto.
  - destruct (task_filters env loc) as [fs| | | |]; try discriminate. cbn [bind] in *. destruct (greedy_running st) eqn:Er.
    + destruct (greedy_step _ _ _ _ g st) as [st'| | | |] eqn:Es; try discriminate. cbn [bind] in *. inversion H. subst.
      exists g2. split; [|exact D]. unfold greedy_step in *. destruct (rd (p_arr (g_pool st)) (g_k st)) as [x| | | |] eqn:Ex; try discriminate. cbn [bind] in *.
      apply rd_ok in Ex. rewrite Ex in D. destruct (nflag x); [|cbn [bind]; congruence].
      destruct (wr _ _ _) as [arr1| | | |]; try discriminate. cbn [bind] in *.
      assert (E : rd g2 (nid x) = rd g' (nid x)). { unfold rd. pose proof (D (mkA (nid x) Items false)) as D1. cbn in D1. rewrite D1 by auto. reflexivity. }
      rewrite E. rewrite Es. reflexivity.
    + destruct (prune_alpha _ _ _ _ _ _); try discriminate. cbn [bind] in *. inversion H. subst. exists g2. split; auto.
  - destruct (rd g loc) as [old| | | |] eqn:Eo; try discriminate. cbn [bind] in H. apply rd_ok in Eo.
    destruct (wr g loc (old ++ p)) as [g1| | | |] eqn:Ew; try discriminate. cbn [bind] in H. inversion H. subst.
    destruct (wr_len_eq _ _ _ _ _ Ew) as [_ Lt].
    destruct (rd_lt _ g2 loc) as [old2 Eo2]; [lia|]. rewrite Eo2. cbn [bind]. apply rd_ok in Eo2.
    destruct (wr_nth _ g2 loc (old2 ++ p)) as [g3 [W3 [_ N3]]]; [lia|]. rewrite W3. cbn [bind]. exists g3. split; [auto|].
    intros a Ha Hp. assert (D' := D). apply push_accesses_in in Ha as Ha'. destruct Ha' as [Hl _]. rewrite Hl, N3, (wr_nth_Some _ _ _ _ _ Ew).
    destruct (Nat.eq_dec loc loc); [|congruence]. specialize (D a Ha Hp). rewrite Hl in D. congruence.
  - inversion H. subst. exists g2. split; auto.
  - assert (E : nth_error g2 des = nth_error g des). { apply (D (mkA des Items false)); cbn; auto. }
    destruct (rd g des) as [pool| | | |] eqn:Eo; try discriminate. cbn [bind] in H. apply rd_ok in Eo. rewrite (nth_error_nth _ _ [] Eo) in *.
    rewrite Eo in E. pose proof E as E2. apply rd_ok in E2. rewrite E2. cbn [bind].
    assert (All : forall a, In a (read_accesses des ++ (if set_mem loc pool then [] else if 10 * length pool <? 13 * bp_R (be_prm env) then push_accesses des (nth des caps 0) (length pool) 1 else [])) -> a_list a = des).
    { intros a Ha. apply in_app_or in Ha. destruct Ha as [[<-|[<-|[]]]|Ha]; auto. destruct (set_mem loc pool); [destruct Ha|]. destruct (_ <? _); [|destruct Ha]. apply push_accesses_in in Ha. apply Ha. }
    destruct (set_mem loc pool); [inversion H; subst; exists g2; split; auto|]. destruct (10 * length pool <? 13 * bp_R (be_prm env)).
    + destruct (wr g des (pool ++ [loc])) as [g1| | | |] eqn:Ew; try discriminate. cbn [bind] in H. inversion H. subst.
      destruct (wr_len_eq _ _ _ _ _ Ew) as [_ Lt].
      destruct (wr_nth _ g2 des (pool ++ [loc])) as [g3 [W3 [_ N3]]]; [lia|]. rewrite W3. cbn [bind]. exists g3. split; [auto|].
      intros a Ha _. rewrite (All a Ha), N3, (wr_nth_Some _ _ _ _ _ Ew). reflexivity || (destruct (Nat.eq_dec des des); congruence).
    + destruct (reprune env des (pool ++ [loc])); try discriminate. cbn [bind] in *. inversion H. subst. exists g2. split; auto.
  - destruct (wr g des new) as [g1| | | |] eqn:Ew; try discriminate. cbn [bind] in H. inversion H. subst.
    destruct (wr_len_eq _ _ _ _ _ Ew) as [_ Lt].
    destruct (wr_nth _ g2 des new) as [g3 [W3 [_ N3]]]; [lia|]. rewrite W3. cbn [bind]. exists g3. split; [auto|].
    intros a Ha _. assert (Hl : a_list a = des) by (destruct Ha as [<-|Ha]; [reflexivity|apply push_accesses_in in Ha; apply Ha]).
    rewrite Hl, N3, (wr_nth_Some _ _ _ _ _ Ew). destruct (Nat.eq_dec des des); congruence.
Qed.

Lemma nth_of_error : forall (A : Type) (l l2 : list A) x d, nth_error l2 x = nth_error l x -> nth x l2 d = nth x l d.
Proof.
  intros A l l2 x d H. destruct (nth_error l x) as [a|] eqn:E.
  - rewrite (nth_error_nth _ _ d E), (nth_error_nth _ _ d H). reflexivity.
  - apply nth_error_None in E. apply nth_error_None in H. rewrite !nth_overflow by auto. reflexivity.
Qed.

Lemma set_cap_depends : forall caps caps2 y c c2 x, length caps2 = length caps -> c2 = c ->
  (x <> y -> nth_error caps2 x = nth_error caps x) -> nth_error (set_cap caps2 y c2) x = nth_error (set_cap caps y c) x.
Proof.
  intros caps caps2 y c c2 x L -> D. destruct (Nat.lt_ge_cases y (length caps)) as [H|H].
  - rewrite !nth_set_cap by lia. destruct (Nat.eqb_spec x y); auto.
  - rewrite !set_cap_out by lia. destruct (Nat.eq_dec x y) as [->|]; auto.
    rewrite (proj2 (nth_error_None caps y)), (proj2 (nth_error_None caps2 y)) by lia. reflexivity.
Qed.

Lemma caps_depend : forall env loc g g2 caps caps2 t, length caps2 = length caps ->
  (forall a, In a (accesses env loc g caps t) -> a_part a = Items -> nth_error g2 (a_list a) = nth_error g (a_list a)) ->
  (forall a, In a (accesses env loc g caps t) -> a_part a = Bounds -> nth_error caps2 (a_list a) = nth_error caps (a_list a)) ->
  forall a, In a (accesses env loc g caps t) -> a_part a = Bounds ->
    nth_error (caps_step env loc g2 caps2 t) (a_list a) = nth_error (caps_step env loc g caps t) (a_list a).
Proof.
  intros env loc g g2 caps caps2 t L Dg Dc a Ha Hp. pose proof (Dc a Ha Hp) as Da.
  destruct t as [|st|p|[|des todo]|des new todo]; cbn [caps_step accesses] in *; auto.
  - destruct (greedy_running st); auto. assert (Hl : nth_error caps2 loc = nth_error caps loc).
    { apply (Dc (mkA loc Bounds (nth loc caps 0 <? second_reserve (bp_R (be_prm env))))); [left; reflexivity|reflexivity]. }
    apply set_cap_depends; auto. rewrite (nth_of_error _ _ _ _ 0 Hl). reflexivity.
  - destruct p as [|y p]; [destruct Ha|]. apply set_cap_depends; auto.
    assert (Hc : nth_error caps2 loc = nth_error caps loc) by (eapply (Dc (mkA loc Bounds _)); [left; reflexivity|reflexivity]).
    assert (Hg : nth_error g2 loc = nth_error g loc) by (apply (Dg (mkA loc Items true)); cbn; auto).
    rewrite (nth_of_error _ _ _ _ 0 Hc), (nth_of_error _ _ _ _ [] Hg). reflexivity.
  - assert (Hc : nth_error caps2 des = nth_error caps des) by (apply (Dc (mkA des Bounds false)); cbn; auto).
    assert (Hg : nth_error g2 des = nth_error g des) by (apply (Dg (mkA des Items false)); cbn; auto).
    rewrite (nth_of_error _ _ _ _ 0 Hc), (nth_of_error _ _ _ _ [] Hg).
    destruct (set_mem loc (nth des g [])); auto. destruct (10 * _ <? _); auto. apply set_cap_depends; auto.
  - destruct new as [|y new]; [destruct Ha as [<-|[]]; discriminate|]. apply set_cap_depends; auto.
    assert (Hc : nth_error caps2 des = nth_error caps des) by (eapply (Dc (mkA des Bounds _)); [right; left; reflexivity|reflexivity]).
    rewrite (nth_of_error _ _ _ _ 0 Hc). reflexivity.
Qed.

(** ** In terms of [race_step] *)
Lemma step_changes : forall env rs i rs' x, rinv env rs -> race_step env rs i = Ok (Some rs') ->
  (adjacency rs' x <> adjacency rs x -> about_to env rs i (mkA x Items true)) /\
  (capacity rs' x <> capacity rs x -> about_to env rs i (mkA x Bounds true)).
Proof.
  intros env rs i rs' x HI H. destruct (race_step_cases env rs i rs' HI H) as [t [h [Et [Eh [Ed [[_ [w [_ [Eb [_ [_ Ec]]]]]]|[Hn [Hb [Hw Hc]]]]]]]]].
  - unfold adjacency, capacity. rewrite Eb, Ec. split; congruence.
  - destruct (build_step_inv _ _ _ _ Hb) as [t1 [t2 [Et1 [Hs _]]]]. assert (t1 = t) by congruence. subst t1.
    assert (Hn' : nth_error (ls_held (fst rs')) i = Some None) by (rewrite (wr_nth_Some _ _ _ _ _ Hw); destruct (Nat.eq_dec i i); congruence).
    unfold adjacency, capacity. split; intro Hx; exists rs', t; (split; [auto|]); (split; [auto|]); (split; [auto|]).
    + eapply task_changes; eauto.
    + rewrite Hc in Hx. apply caps_change. auto.
Qed.

Lemma step_depends : forall env rs rs2 i rs', rinv env rs -> race_step env rs i = Ok (Some rs') ->
  tasks_and_locks rs2 = tasks_and_locks rs ->
  length (bs_graph (ls_b (fst rs2))) = length (bs_graph (ls_b (fst rs))) -> length (snd rs2) = length (snd rs) ->
  (forall a, about_to env rs i a -> match a_part a with
     | Items => adjacency rs2 (a_list a) = adjacency rs (a_list a)
     | Bounds => capacity rs2 (a_list a) = capacity rs (a_list a) end) ->
  exists rs2', race_step env rs2 i = Ok (Some rs2') /\ tasks_and_locks rs2' = tasks_and_locks rs' /\
    (forall a, about_to env rs i a -> match a_part a with
       | Items => adjacency rs2' (a_list a) = adjacency rs' (a_list a)
       | Bounds => capacity rs2' (a_list a) = capacity rs' (a_list a) end).
Proof.
  intros env rs [st2 caps2] i rs' HI H TL Lg Lc D. unfold tasks_and_locks in TL. cbn [fst snd] in *. inversion TL as [[T1 T2]]. clear TL.
  assert (HA := fun a => need_held env rs i a HI).
  destruct (race_step_cases env rs i rs' HI H) as [t [h [Et [Eh [Ed [[-> [w [En [Eb [Ef [Hw Ec]]]]]]|[Hn [Hb [Hw Hc]]]]]]]]].
  - assert (NoA : forall a, ~ about_to env rs i a).
    { intros a Ha. destruct (HA a Ha) as [t' [Et' [_ [_ Hh]]]]. assert (t' = t) by congruence. subst. congruence. }
    assert (R1 : rd (bs_tasks (ls_b st2)) i = Ok t) by (rewrite T1; apply rd_ok; auto).
    assert (R2 : rd (ls_held st2) i = Ok None) by (rewrite T2; apply rd_ok; auto).
    exists (mkLS (ls_b st2) (ls_held (fst rs')), caps2). split; [|split].
    + unfold race_step, lock_step. rewrite R1, R2. cbn [bind]. rewrite Ed, En, T2, Ef, Hw. cbn [bind]. reflexivity.
    + unfold tasks_and_locks. cbn. rewrite Eb, T1. reflexivity.
    + intros a Ha. destruct (NoA a Ha).
  - destruct (build_step_inv _ _ _ _ Hb) as [t1 [t2 [Et1 [Hs Hwt]]]]. assert (t1 = t) by congruence. subst t1.
    assert (Hn' : nth_error (ls_held (fst rs')) i = Some None) by (rewrite (wr_nth_Some _ _ _ _ _ Hw); destruct (Nat.eq_dec i i); congruence).
    assert (AI : forall a, In a (accesses env i (bs_graph (ls_b (fst rs))) (snd rs) t) <-> about_to env rs i a).
    { intros a. split; intro Ha.
      - exists rs', t. auto.
      - destruct (HA a Ha) as [t' [Et' [Ha' _]]]. assert (t' = t) by congruence. subst. auto. }
    assert (Dg : forall a, In a (accesses env i (bs_graph (ls_b (fst rs))) (snd rs) t) -> a_part a = Items -> nth_error (bs_graph (ls_b st2)) (a_list a) = nth_error (bs_graph (ls_b (fst rs))) (a_list a)).
    { intros a Ha Hp. apply AI in Ha. specialize (D a Ha). rewrite Hp in D. exact D. }
    assert (Dc : forall a, In a (accesses env i (bs_graph (ls_b (fst rs))) (snd rs) t) -> a_part a = Bounds -> nth_error caps2 (a_list a) = nth_error (snd rs) (a_list a)).
    { intros a Ha Hp. apply AI in Ha. specialize (D a Ha). rewrite Hp in D. exact D. }
    destruct (task_depends _ _ _ _ _ _ _ _ Hs Lg Dg) as [g2' [Hs2 Dg2]].
    assert (B2 : build_step env (ls_b st2) i = Ok (mkBS g2' (bs_tasks (ls_b (fst rs'))))).
    { unfold build_step. rewrite T1. assert (R1 : rd (bs_tasks (ls_b (fst rs))) i = Ok t) by (apply rd_ok; auto). rewrite R1. cbn [bind].
      rewrite Hs2. cbn [bind]. rewrite Hwt. reflexivity. }
    assert (R1 : rd (bs_tasks (ls_b st2)) i = Ok t) by (rewrite T1; apply rd_ok; auto).
    assert (R2 : rd (ls_held st2) i = Ok h) by (rewrite T2; apply rd_ok; auto).
    assert (W2 : wr (ls_held st2) i None = Ok (ls_held (fst rs'))) by (rewrite T2; exact Hw).
    exists (mkLS (mkBS g2' (bs_tasks (ls_b (fst rs')))) (ls_held (fst rs')), caps_step env i (bs_graph (ls_b st2)) caps2 t). split; [|split].
    + unfold race_step, lock_step. rewrite R1, R2. cbn [bind]. rewrite Ed, Hn, B2, W2. cbn [bind]. destruct h; reflexivity.
    + reflexivity.
    + intros a Ha. apply AI in Ha. unfold adjacency, capacity. cbn [fst snd ls_b bs_graph]. destruct (a_part a) eqn:Hp.
      * rewrite Hc. apply caps_depend; auto.
      * apply Dg2; auto.
Qed.

Lemma reached : forall env sched rs, sorts (be_sort env) -> build_input_ok env -> (forall i, In i sched -> i < sp_n (be_sp env)) ->
  race_run env (race_init env) sched = Ok rs -> rinv env rs.
Proof.
  intros env sched rs Hs Hin Hsc H. destruct (race_run_ok env Hs Hin sched (race_init env) (race_init_inv env) Hsc) as [rs' [E [HI _]]].
  assert (rs' = rs) by congruence. subst. auto.
Qed.

Lemma changes_run : forall env sched rs i rs' x, sorts (be_sort env) -> build_input_ok env -> (forall i, In i sched -> i < sp_n (be_sp env)) ->
  race_run env (race_init env) sched = Ok rs -> race_step env rs i = Ok (Some rs') ->
  (adjacency rs' x <> adjacency rs x -> about_to env rs i (mkA x Items true)) /\
  (capacity rs' x <> capacity rs x -> about_to env rs i (mkA x Bounds true)).
Proof. intros env sched rs i rs' x Hs Hin Hsc H. apply step_changes. eapply reached; eauto. Qed.

Lemma depends_run : forall env sched rs rs2 i rs', sorts (be_sort env) -> build_input_ok env -> (forall i, In i sched -> i < sp_n (be_sp env)) ->
  race_run env (race_init env) sched = Ok rs -> race_step env rs i = Ok (Some rs') ->
  tasks_and_locks rs2 = tasks_and_locks rs ->
  length (bs_graph (ls_b (fst rs2))) = length (bs_graph (ls_b (fst rs))) -> length (snd rs2) = length (snd rs) ->
  (forall a, about_to env rs i a -> match a_part a with
     | Items => adjacency rs2 (a_list a) = adjacency rs (a_list a)
     | Bounds => capacity rs2 (a_list a) = capacity rs (a_list a) end) ->
  exists rs2', race_step env rs2 i = Ok (Some rs2') /\ tasks_and_locks rs2' = tasks_and_locks rs' /\
    (forall a, about_to env rs i a -> match a_part a with
       | Items => adjacency rs2' (a_list a) = adjacency rs' (a_list a)
       | Bounds => capacity rs2' (a_list a) = capacity rs' (a_list a) end).
Proof. intros env sched rs rs2 i rs' Hs Hin Hsc H. apply step_depends. eapply reached; eauto. Qed.

Lemma locked_run : forall env sched rs i a, sorts (be_sort env) -> build_input_ok env -> (forall i, In i sched -> i < sp_n (be_sp env)) ->
  race_run env (race_init env) sched = Ok rs -> about_to env rs i a ->
  (exists w, holds rs i (a_list a) w /\ (a_write a = true -> w = true)) \/ a = mkA i Bounds false.
Proof.
  intros env sched rs i a Hs Hin Hsc H Ha. destruct (about_locked env rs i a (reached _ _ _ Hs Hin Hsc H) Ha) as [X|[s [_ [_ X]]]]; auto.
Qed.

Lemma no_race_small : forall env sched rs, sorts (be_sort env) -> build_input_ok env -> (forall i, In i sched -> i < sp_n (be_sp env)) ->
  ~ In (bp_R (be_prm env)) [1; 2; 4; 5; 7; 8] -> race_run env (race_init env) sched = Ok rs -> ~ race env rs.
Proof. intros env sched rs Hs Hin Hsc HR. apply no_race_run; auto. apply slack_reserve. auto. Qed.

(** ** The six degrees for which there is a race *)
Definition race_env (R : nat) : benv := mkEnv isort (mkSp 14 line_pd false (mkL [] true "0"%string)) (mkB 100 R 750 f12 0) 4 [].
Definition others : list nat := [0; 1; 2; 3] ++ seq 5 9.
Definition race_sched (R : nat) : list nat :=
  [4; 4; 4] ++ concat (map (fun p => repeat p 6) others) ++
  concat (map (fun p => repeat p 2) (firstn (first_reserve R) others)) ++ [nth (first_reserve R) others 0].

Lemma race_env_ok : forall R, build_input_ok (race_env R).
Proof. intros R. constructor; cbn; try lia. intros a b. apply Float32Facts.f32_of_Z_not_nan. Qed.

Lemma race_found : forall R, In R [1; 2; 4; 5; 7; 8] -> exists env sched rs, sorts (be_sort env) /\ build_input_ok env /\
  (forall i, In i sched -> i < sp_n (be_sp env)) /\ bp_R (be_prm env) = R /\ race_run env (race_init env) sched = Ok rs /\ race env rs.
Proof.
  intros R HR. exists (race_env R), (race_sched R).
  assert (X : exists rs t p, race_run (race_env R) (race_init (race_env R)) (race_sched R) = Ok rs /\ forallb (fun i => i <? 14) (race_sched R) = true /\
    (exists rs1, race_step (race_env R) rs 4 = Ok (Some rs1) /\ nth_error (ls_held (fst rs1)) 4 = Some None) /\
    nth_error (bs_tasks (ls_b (fst rs))) 4 = Some t /\ In (mkA 4 Bounds false) (accesses (race_env R) 4 (bs_graph (ls_b (fst rs))) (snd rs) t) /\
    (exists rs2, race_step (race_env R) rs p = Ok (Some rs2) /\ nth_error (ls_held (fst rs2)) p = Some None) /\ (p =? 4) = false /\
    exists t2, nth_error (bs_tasks (ls_b (fst rs))) p = Some t2 /\ In (mkA 4 Bounds true) (accesses (race_env R) p (bs_graph (ls_b (fst rs))) (snd rs) t2)).
  { destruct HR as [<-|[<-|[<-|[<-|[<-|[<-|[]]]]]]].
    all: eexists; eexists; eexists; split; [vm_compute; reflexivity|]; split; [vm_compute; reflexivity|].
    all: split; [eexists; split; vm_compute; reflexivity|]; split; [vm_compute; reflexivity|]; split; [vm_compute; auto|].
    all: match goal with |- (exists _, race_step (race_env ?R) _ _ = _ /\ _) /\ _ => let p := eval vm_compute in (nth (first_reserve R) others 0) in instantiate (1 := p) end.
    all: split; [eexists; split; vm_compute; reflexivity|]; split; [reflexivity|]; eexists; split; [vm_compute; reflexivity|vm_compute; auto 10]. }
  destruct X as [rs [t [p [H1 [H2 [[rs1 [H3 H4]] [H5 [H6 [[rs2 [H7 H8]] [H9 [t2 [H10 H11]]]]]]]]]]]]. exists rs.
  split; [exact isort_sorts|]. split; [apply race_env_ok|]. split; [|split; [reflexivity|split; [auto|]]].
  - intros i Hi. rewrite forallb_forall in H2. specialize (H2 i Hi). apply Nat.ltb_lt in H2. exact H2.
  - exists 4, p, (mkA 4 Bounds false), (mkA 4 Bounds true). split; [apply Nat.eqb_neq in H9; auto|].
    split; [exists rs1, t; auto|]. split; [exists rs2, t2; auto|]. split; [reflexivity|]. split; [reflexivity|]. right. reflexivity.
Qed.

(** ** reserve without a lock while another thread appends *)
Lemma unlocked_reserve : exists env sched rs i j, sorts (be_sort env) /\ build_input_ok env /\ bp_R (be_prm env) = 64 /\
  (forall i, In i sched -> i < sp_n (be_sp env)) /\ race_run env (race_init env) sched = Ok rs /\ i <> j /\
  about_to env rs i (mkA i Bounds false) /\ (forall x w, ~ holds rs i x w) /\
  about_to env rs j (mkA i Items true) /\ holds rs j i true.
Proof.
  exists (race_env 64), ([4; 4; 4] ++ repeat 0 7). eexists. exists 4, 0. split; [exact isort_sorts|]. split; [apply race_env_ok|]. split; [reflexivity|].
  split; [intros i Hi; cbn in Hi |- *; lia|]. split; [vm_compute; reflexivity|]. split; [lia|]. split; [|split; [|split]].
  - eexists. eexists. split; [vm_compute; reflexivity|]. split; [reflexivity|]. split; [reflexivity|]. vm_compute. auto.
  - intros x w H. unfold holds in H. vm_compute in H. discriminate.
  - eexists. eexists. split; [vm_compute; reflexivity|]. split; [reflexivity|]. split; [reflexivity|]. vm_compute. auto.
  - vm_compute. reflexivity.
Qed.

Lemma race_runs : forall env sched, sorts (be_sort env) -> build_input_ok env -> (forall i, In i sched -> i < sp_n (be_sp env)) ->
  exists rs, race_run env (race_init env) sched = Ok rs /\ lock_run env (lock_init env) sched = Ok (fst rs).
Proof.
  intros env sched Hs Hin Hsc. destruct (race_run_ok env Hs Hin sched (race_init env) (race_init_inv env) Hsc) as [rs' [E [_ L]]]. exists rs'. auto.
Qed.
