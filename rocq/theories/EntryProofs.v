(** * Lemmas about entry points and degree statistics. *)
From Coq Require Import String List Arith Lia Bool.
From Verif Require Import Base Float32 PoolModel GraphSpec SearchModel EntryModel EntrySpec BuildProofs.
Import ListNotations.

Lemma argmin_loop_ok : forall ds, (forall d, In d ds -> is_nan d = false) ->
  forall fuel n i mi md,
  i + fuel = length ds -> mi < i -> nth_error ds mi = Some md ->
  (forall j e, j < i -> nth_error ds j = Some e -> fle md e = true) ->
  (forall j e, j < mi -> nth_error ds j = Some e -> flt md e = true) ->
  exists r, argmin_loop ds n i mi md fuel = Ok r /\ first_min ds r.
Proof.
  intros ds Hnan fuel. induction fuel as [|fuel IH]; intros n i mi md Hf Hmi Hmd Hle Hlt; cbn [argmin_loop].
  - exists mi. split; [auto|]. exists md. split; [auto|]. split; [|auto].
    intros j e Hj. apply (Hle j); auto. assert (j < length ds) by (apply nth_error_Some; congruence). lia.
  - destruct (rd_lt _ ds i) as [d Ed]; [lia|]. rewrite Ed. cbn [bind]. apply rd_ok in Ed.
    assert (Nd : is_nan d = false) by (apply Hnan; eapply nth_error_In; eauto).
    assert (Nm : is_nan md = false) by (apply Hnan; eapply nth_error_In; eauto).
    destruct (flt d md) eqn:E.
    + apply IH; auto; try lia.
      * intros j e Hj He. destruct (Nat.eq_dec j i) as [->|Hne].
        -- assert (e = d) by congruence. subst. apply fle_refl. auto.
        -- apply fle_trans with md; [apply flt_fle; auto|]. apply (Hle j); auto. lia.
      * intros j e Hj He. apply flt_fle_trans with md; auto. apply (Hle j); auto.
    + apply IH; auto; try lia. intros j e Hj He. destruct (Nat.eq_dec j i) as [->|Hne].
      * assert (e = d) by congruence. subst. apply flt_false_fle; auto.
      * apply (Hle j); auto. lia.
Qed.

Lemma calculate_medoid_ok : forall n ds, 1 <= n -> length ds = n -> (forall d, In d ds -> is_nan d = false) ->
  exists i, calculate_medoid n ds = Ok i /\ i < n /\ first_min ds i.
Proof.
  intros n ds Hn Hl Hnan. unfold calculate_medoid.
  destruct (rd_lt _ ds 0) as [d0 E0]; [lia|]. rewrite E0. cbn [bind]. apply rd_ok in E0.
  destruct (argmin_loop_ok ds Hnan (n - 1) n 1 0 d0) as [r [Er Hr]]; auto; try lia.
  - intros j e Hj He. replace j with 0 in He by lia. assert (e = d0) by congruence. subst. apply fle_refl.
    apply Hnan. eapply nth_error_In; eauto.
  - exists r. split; [auto|]. split; [|auto]. destruct Hr as [d [Hd _]]. rewrite <- Hl. apply nth_error_Some. congruence.
Qed.

(** ** Label entry points *)
Lemma label_mem_In : forall x l, label_mem x l = true <-> In x l.
Proof.
  intros x l. unfold label_mem. rewrite existsb_exists. split.
  - intros [y [H E]]. apply String.eqb_eq in E. subst. auto.
  - intros H. exists x. split; auto. apply String.eqb_refl.
Qed.

Definition eligible (lc : label_ctx) (x : label) (ls : list label) : Prop :=
  In x ls \/ exists u, universal_of lc = Some u /\ In u ls.

Lemma eligible_bool : forall lc x ls,
  (label_mem x ls || (use_universal_label lc && label_mem (universal_label lc) ls)) = true <-> eligible lc x ls.
Proof.
  intros lc x ls. rewrite orb_true_iff, andb_true_iff, !label_mem_In. unfold eligible, universal_of.
  destruct (use_universal_label lc); split.
  - intros [H|[_ H]]; [auto|right; eauto].
  - intros [H|[u [E H]]]; [auto|right]. inversion E. subst. auto.
  - intros [H|[H _]]; [auto|discriminate].
  - intros [H|[u [E H]]]; [auto|discriminate].
Qed.

Lemma filtered_points_spec : forall lc x lists i id, In id (filtered_points lc x i lists) <->
  exists ls, i <= id /\ nth_error lists (id - i) = Some ls /\ eligible lc x ls.
Proof.
  intros lc x lists. induction lists as [|ls lists IH]; intros i id; cbn [filtered_points].
  - split; [intros []|]. intros [ls [_ [H _]]]. destruct (id - i); discriminate.
  - assert (Hrest : (exists ls0, S i <= id /\ nth_error lists (id - S i) = Some ls0 /\ eligible lc x ls0) <->
      (exists ls0, S i <= id /\ nth_error (ls :: lists) (id - i) = Some ls0 /\ eligible lc x ls0)).
    { split; intros [l0 [A [B C]]]; exists l0; split; auto; split; auto;
      replace (id - i) with (S (id - S i)) in * by lia; auto. }
    destruct (label_mem x ls || (use_universal_label lc && label_mem (universal_label lc) ls)) eqn:E.
    + cbn [In]. rewrite IH, Hrest. split.
      * intros [<-|[l0 [A [B C]]]].
        -- exists ls. rewrite Nat.sub_diag. split; [lia|]. split; [auto|]. apply eligible_bool. auto.
        -- exists l0. split; [lia|]. auto.
      * intros [l0 [A [B C]]]. destruct (Nat.eq_dec i id) as [->|Hne]; [auto|]. right. exists l0. split; [lia|]. auto.
    + rewrite IH, Hrest. split.
      * intros [l0 [A [B C]]]. exists l0. split; [lia|]. auto.
      * intros [l0 [A [B C]]]. exists l0. split; [|auto]. destruct (Nat.eq_dec i id) as [->|Hne]; [|lia].
        rewrite Nat.sub_diag in B. cbn in B. inversion B. subst.
        assert (eligible lc x l0) by auto. apply eligible_bool in H. congruence.
Qed.

Lemma draw_loop_ok : forall pts, pts <> [] -> forall rands cnd best bc counts,
  (cnd = 0 \/ In best pts) ->
  exists b counts', draw_loop pts rands cnd best bc counts = Ok (b, counts') /\
    (In b pts \/ (rands = [] /\ cnd = 0)).
Proof.
  intros pts Hne rands. induction rands as [|r rands IH]; intros cnd best bc counts Hb; cbn [draw_loop].
  - exists best, counts. split; auto. destruct Hb; auto.
  - assert (Hlen : length pts <> 0) by (destruct pts; cbn; [congruence|lia]).
    destruct (rd_lt _ pts (r mod length pts)) as [cur Ec]; [apply Nat.mod_upper_bound; auto|].
    rewrite Ec. cbn [bind]. apply rd_ok in Ec. assert (Hcur : In cur pts) by (eapply nth_error_In; eauto).
    destruct (match count_of counts cur with None => (0, (cur, 0) :: counts) | Some c => (c, counts) end) as [cnt counts1].
    destruct ((match bc with None => true | Some b => cnt <? b end) || (cnd =? 0)) eqn:E.
    + destruct (IH (S cnd) cur (Some cnt) counts1) as [b [c' [H1 H2]]]; [auto|].
      exists b, c'. split; auto. destruct H2 as [H2|[_ H2]]; [auto|lia].
    + apply orb_false_iff in E. destruct E as [_ E]. apply Nat.eqb_neq in E.
      destruct (IH (S cnd) best bc counts1) as [b [c' [H1 H2]]]; [destruct Hb; [contradiction|auto]|].
      exists b, c'. split; auto. destruct H2 as [H2|[_ H2]]; [auto|lia].
Qed.

Definition medoids_good (lc : label_ctx) (m : list (label * nat)) : Prop :=
  forall x id, In (x, id) m -> exists ls, nth_error (pts_to_labels lc) id = Some ls /\ eligible lc x ls.

Lemma label_medoid_step_ok : forall lc x rands st, rands <> [] -> medoids_good lc (ms_medoids st) ->
  exists st', label_medoid_step lc x rands st = Ok st' /\ medoids_good lc (ms_medoids st') /\
    ((exists id, ms_medoids st' = (x, id) :: ms_medoids st) \/
     (ms_medoids st' = ms_medoids st /\ forall id ls, nth_error (pts_to_labels lc) id = Some ls -> ~ eligible lc x ls)).
Proof.
  intros lc x rands st Hr Hg. unfold label_medoid_step.
  pose proof (filtered_points_spec lc x (pts_to_labels lc) 0) as Hf.
  destruct (filtered_points lc x 0 (pts_to_labels lc)) as [|p pts] eqn:Ef.
  - exists st. split; [auto|]. split; [auto|]. right. split; [auto|]. intros id ls Hid He.
    destruct (proj2 (Hf id)). exists ls. rewrite Nat.sub_0_r. split; [lia|auto].
  - destruct (draw_loop_ok (p :: pts) ltac:(discriminate) rands 0 0 None (ms_counts st)) as [b [c' [E Hb]]]; [auto|].
    rewrite E. cbn [bind]. eexists. split; [reflexivity|]. cbn [ms_medoids]. split; [|left; eauto].
    intros y id [H|H]; [|apply Hg; auto]. inversion H. subst y id.
    destruct Hb as [Hb|[Hb _]]; [|contradiction]. apply Hf in Hb. destruct Hb as [ls [_ [A B]]].
    rewrite Nat.sub_0_r in A. eauto.
Qed.

Lemma label_medoids_ok : forall lc work st, (forall x r, In (x, r) work -> r <> []) -> medoids_good lc (ms_medoids st) ->
  exists st', label_medoids lc work st = Ok st' /\ medoids_good lc (ms_medoids st') /\
    (forall x, (exists id, In (x, id) (ms_medoids st')) <->
       (exists id, In (x, id) (ms_medoids st)) \/
       (In x (map fst work) /\ exists id ls, nth_error (pts_to_labels lc) id = Some ls /\ eligible lc x ls)).
Proof.
  intros lc work. induction work as [|[x r] work IH]; intros st Hr Hg; cbn [label_medoids].
  - exists st. split; [auto|]. split; [auto|]. intros x. cbn. tauto.
  - destruct (label_medoid_step_ok lc x r st) as [st1 [E [Hg1 Hc]]]; auto; [apply (Hr x); left; auto|].
    rewrite E. cbn [bind]. destruct (IH st1) as [st' [E' [Hg' Hx]]]; auto; [intros y s Hy; apply (Hr y); right; auto|].
    exists st'. split; [auto|]. split; [auto|]. intros y. rewrite Hx. cbn [map fst In].
    destruct Hc as [[id Hc]|[Hc Hno]]; rewrite Hc.
    + split.
      * intros [[i [H|H]]|[H1 H2]].
        -- inversion H. subst. right. split; auto. destruct (Hg1 y i) as [ls [A B]]; [rewrite Hc; left; auto|eauto].
        -- left. eauto.
        -- right. auto.
      * intros [[i H]|[[<-|H1] H2]].
        -- left. exists i. right. auto.
        -- left. exists id. left. auto.
        -- right. auto.
    + split.
      * intros [H|[H1 H2]]; auto.
      * intros [H|[[<-|H1] H2]]; auto. destruct H2 as [i [ls [A B]]]. exfalso. apply (Hno i ls); auto.
Qed.

Lemma medoid_of_some : forall m x, (exists id, In (x, id) m) -> exists id, medoid_of m x = Some id /\ In (x, id) m.
Proof.
  induction m as [|[y i] m IH]; intros x [id H]; [destruct H|]. cbn [medoid_of].
  destruct (String.eqb x y) eqn:E.
  - apply String.eqb_eq in E. subst. exists i. split; auto. left. auto.
  - destruct H as [H|H]; [inversion H; subst; rewrite String.eqb_refl in E; discriminate|].
    destruct (IH x) as [j [A B]]; [eauto|]. exists j. split; auto. right. auto.
Qed.

Lemma label_medoids_final : forall lc work, (forall x r, In (x, r) work -> length r = 25) ->
  exists st, label_medoids lc work (mkMS [] []) = Ok st /\
    (forall x id, medoid_of (ms_medoids st) x = Some id ->
       carries (pts_to_labels lc) id x \/
       exists u, universal_of lc = Some u /\ carries (pts_to_labels lc) id u) /\
    (forall x, In x (map fst work) -> (exists id, carries (pts_to_labels lc) id x) ->
       exists id, medoid_of (ms_medoids st) x = Some id).
Proof.
  intros lc work Hr. destruct (label_medoids_ok lc work (mkMS [] [])) as [st [E [Hg Hx]]].
  - intros x r H. apply Hr in H. destruct r; [discriminate|congruence].
  - intros x id [].
  - exists st. split; [auto|]. split.
    + intros x id H. assert (Hin : In (x, id) (ms_medoids st)).
      { clear - H. revert H. induction (ms_medoids st) as [|[y i] m IH]; cbn [medoid_of]; [discriminate|].
        destruct (String.eqb x y) eqn:E.
        - apply String.eqb_eq in E. intros H. inversion H. subst. left. auto.
        - intros H. right. auto. }
      destruct (Hg x id Hin) as [ls [A [B|[u [B1 B2]]]]].
      * left. exists ls. auto.
      * right. exists u. split; auto. exists ls. auto.
    + intros x Hw [id [ls [A B]]]. destruct (medoid_of_some (ms_medoids st) x) as [j [H _]]; [|eauto].
      apply Hx. right. split; auto. exists id, ls. split; auto. left. auto.
Qed.

(** ** Degree statistics *)
Lemma bump_ok : forall l ind, (forall x, In x l -> x < length ind) ->
  exists ind', bump l ind = Ok ind' /\ length ind' = length ind /\
    forall x c, nth_error ind x = Some c -> nth_error ind' x = Some (c + count_occ Nat.eq_dec l x).
Proof.
  induction l as [|x l IH]; intros ind H; cbn [bump].
  - exists ind. split; [auto|]. split; [auto|]. intros y c Hc. cbn. rewrite Nat.add_0_r. auto.
  - destruct (rd_lt _ ind x) as [c Ec]; [apply H; left; auto|]. rewrite Ec. cbn [bind]. apply rd_ok in Ec.
    destruct (wr_nth _ ind x (S c)) as [ind1 [W [L N]]]; [apply H; left; auto|]. rewrite W. cbn [bind].
    destruct (IH ind1) as [ind' [E [L' H']]]; [intros y Hy; rewrite L; apply H; right; auto|].
    exists ind'. split; [auto|]. split; [lia|]. intros y d Hd.
    specialize (N y). destruct (Nat.eq_dec y x) as [->|Hne].
    + apply H' in N. rewrite N. assert (d = c) by congruence. subst. rewrite count_occ_cons_eq by auto. f_equal. lia.
    + rewrite Hd in N. apply H' in N. rewrite N, count_occ_cons_neq by auto. auto.
Qed.

Lemma degree_loop_ok : forall n g ind m, (forall l x, In l g -> In x l -> x < length ind) ->
  exists m' ind', degree_loop n g ind m = Ok (m', ind') /\ length ind' = length ind /\
    m <= m' /\ (forall l, In l g -> length l <= m') /\ (m' = m \/ exists l, In l g /\ length l = m') /\
    forall x c, nth_error ind x = Some c -> nth_error ind' x = Some (c + in_degree g x).
Proof.
  intros n g. induction g as [|l g IH]; intros ind m H; cbn [degree_loop].
  - exists m, ind. split; [auto|]. split; [auto|]. split; [auto|]. split; [intros l []|]. split; [auto|].
    intros x c Hc. unfold in_degree. cbn. rewrite Nat.add_0_r. auto.
  - destruct (bump_ok l ind) as [ind1 [E [L N]]]; [intros x Hx; apply (H l); auto; left; auto|].
    rewrite E. cbn [bind].
    destruct (IH ind1 (if length l <? m then m else length l)) as [m' [ind' [E' [L' [Hm [Hall [Hex Hin]]]]]]].
    { intros l0 x Hl0 Hx. rewrite L. apply (H l0); auto. right. auto. }
    exists m', ind'. split; [auto|]. split; [lia|].
    destruct (length l <? m) eqn:El; [apply Nat.ltb_lt in El|apply Nat.ltb_ge in El].
    + split; [auto|]. split; [intros l0 [<-|Hl0]; [lia|auto]|]. split.
      * destruct Hex as [->|[l0 [A B]]]; [auto|right; exists l0; split; auto; right; auto].
      * intros x c Hc. rewrite (Hin x _ (N x c Hc)). unfold in_degree. cbn [concat]. rewrite count_occ_app. f_equal. lia.
    + split; [lia|]. split; [intros l0 [<-|Hl0]; [lia|auto]|]. split.
      * destruct Hex as [->|[l0 [A B]]]; right; [exists l; split; auto; left; auto|exists l0; split; auto; right; auto].
      * intros x c Hc. rewrite (Hin x _ (N x c Hc)). unfold in_degree. cbn [concat]. rewrite count_occ_app. f_equal. lia.
Qed.

Lemma degree_stats_ok : forall g old, graph_ok (length g) g ->
  exists m ind, update_degree_stats true (length g) old g = Ok (m, ind) /\ max_length g m /\
    length ind = length g /\ forall x, x < length g -> nth_error ind x = Some (in_degree g x).
Proof.
  intros g old [_ Hg]. unfold update_degree_stats.
  destruct (degree_loop_ok (length g) g (repeat 0 (length g)) 0) as [m [ind [E [L [_ [Hall [Hex Hin]]]]]]].
  { intros l x Hl Hx. rewrite repeat_length. apply In_nth_error in Hl. destruct Hl as [i Hi]. eapply Hg; eauto. }
  rewrite repeat_length in L.
  exists m, ind. split; [auto|]. split; [|split; [auto|]].
  - split; [auto|]. destruct Hex as [->|Hex]; [|auto]. destruct g as [|l g]; [auto|]. right. exists l. split; [left; auto|].
    specialize (Hall l (or_introl eq_refl)). lia.
  - intros x Hx. rewrite (Hin x 0); [auto|]. rewrite nth_error_repeat; auto.
Qed.
