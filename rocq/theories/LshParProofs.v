(** Several threads searching one LSH index. *)
From Coq Require Import NArith List Arith Lia Bool Sorting.Sorted Sorting.Permutation.
From Verif Require Import Base Float32 PoolModel FlatModel LshModel LshSpec LshProofs LshParModel LshParSpec.
Import ListNotations.

(** ** Lists *)
Lemma set_at_length : forall (A : Type) (l : list A) i x, length (set_at l i x) = length l.
Proof. intros A l. induction l as [|a l IH]; intros [|i] x; cbn; auto. Qed.

Lemma set_at_same : forall (A : Type) (l : list A) i x, i < length l -> nth_error (set_at l i x) i = Some x.
Proof. intros A l. induction l as [|a l IH]; intros [|i] x H; cbn in *; try lia; auto. apply IH. lia. Qed.

Lemma set_at_other : forall (A : Type) (l : list A) i k x, i <> k -> nth_error (set_at l i x) k = nth_error l k.
Proof. intros A l. induction l as [|a l IH]; intros [|i] [|k] x H; cbn in *; try lia; auto. Qed.

Lemma set_at_id : forall (A : Type) (l : list A) i x, nth_error l i = Some x -> set_at l i x = l.
Proof. intros A l. induction l as [|a l IH]; intros [|i] x H; cbn in *; try discriminate; [congruence|]. rewrite IH; auto. Qed.

Lemma nth_lt : forall (A : Type) (l : list A) i x, nth_error l i = Some x -> i < length l.
Proof. intros A l i x H. apply nth_error_Some. congruence. Qed.

Lemma firstn_S : forall (A : Type) (l : list A) i x, nth_error l i = Some x -> firstn (S i) l = firstn i l ++ [x].
Proof. intros A l. induction l as [|a l IH]; intros [|i] x H; cbn in *; try discriminate; [congruence|]. f_equal. apply IH, H. Qed.

(** ** Touching keys *)
Definition touch (m : list (N * list nat)) (k : N) : list (N * list nat) := map_update m k (fun l => l).

Lemma touch_comm : forall m k1 k2, touch (touch m k1) k2 = touch (touch m k2) k1.
Proof.
  assert (G : forall m k1 k2, (k1 < k2)%N -> touch (touch m k1) k2 = touch (touch m k2) k1).
  { unfold touch. induction m as [|[k l] m IH]; intros k1 k2 H; cbn [map_update].
    - destruct (N.ltb_spec k2 k1); [lia|]. destruct (N.eqb_spec k2 k1); [lia|]. destruct (N.ltb_spec k1 k2); [reflexivity|lia].
    - destruct (N.ltb_spec k1 k) as [A|A]; destruct (N.ltb_spec k2 k) as [B|B]; cbn [map_update].
      + destruct (N.ltb_spec k2 k1); [lia|]. destruct (N.eqb_spec k2 k1); [lia|]. destruct (N.ltb_spec k2 k); [|lia]. destruct (N.ltb_spec k1 k2); [reflexivity|lia].
      + destruct (N.ltb_spec k2 k1); [lia|]. destruct (N.eqb_spec k2 k1); [lia|]. destruct (N.ltb_spec k2 k); [lia|].
        destruct (N.eqb_spec k2 k) as [E|E]; cbn [map_update]; destruct (N.ltb_spec k1 k); try lia; reflexivity.
      + lia.
      + destruct (N.eqb_spec k1 k) as [E|E]; destruct (N.eqb_spec k2 k) as [E'|E']; cbn [map_update]; try lia;
          destruct (N.ltb_spec k1 k); try lia; destruct (N.ltb_spec k2 k); try lia; destruct (N.eqb_spec k1 k); try lia; destruct (N.eqb_spec k2 k); try lia; try reflexivity.
        f_equal. apply IH, H. }
  intros m k1 k2. destruct (N.lt_trichotomy k1 k2) as [H|[->|H]]; [apply G, H|reflexivity|symmetry; apply G, H].
Qed.

Lemma touch_all_perm : forall l l', Permutation l l' -> forall m, fold_left touch l m = fold_left touch l' m.
Proof.
  intros l l' P. induction P; intros m; cbn [fold_left]; auto.
  - rewrite touch_comm. reflexivity.
  - now rewrite IHP1, IHP2.
Qed.

Lemma touch_bucket : forall l m k, bucket (fold_left touch l m) k = bucket m k.
Proof. intros l. induction l as [|x l IH]; intros m k; cbn [fold_left]; auto. rewrite IH. apply bucket_touch. Qed.

Lemma touch_get : forall l m k, map_get (fold_left touch l m) k = None -> map_get m k = None.
Proof.
  intros l. induction l as [|x l IH]; intros m k H; cbn [fold_left] in H; auto. apply IH in H. unfold touch in H. rewrite map_get_update in H.
  destruct (N.eqb k x); [discriminate|exact H].
Qed.

Lemma touch_present : forall m k l, map_get m k = Some l -> touch m k = m.
Proof.
  unfold touch. induction m as [|[k' l'] m IH]; intros k l H; cbn [map_get map_update] in *; [discriminate|].
  destruct (N.ltb k k'); [discriminate|]. destruct (N.eqb k k'); [reflexivity|]. now rewrite (IH k l).
Qed.

Lemma get_none : forall m k, keys_sorted m -> (map_get m k = None <-> ~ In k (map fst m)).
Proof.
  unfold keys_sorted. induction m as [|[k' l'] m IH]; intros k S; cbn [map_get map fst In]; [tauto|]. inversion S as [|? ? S1 F]; subst.
  destruct (N.ltb_spec k k') as [A|A].
  - split; [intros _ [E|E]; [lia|]|auto]. apply in_map_iff in E. destruct E as [[k1 l1] [<- E]]. rewrite Forall_forall in F. specialize (F _ E). cbn in *. lia.
  - destruct (N.eqb_spec k k') as [->|E]; [split; [discriminate|tauto]|]. rewrite (IH k S1). split; [intros H [Q|Q]; [congruence|tauto]|tauto].
Qed.

(** ** The invariant *)
Definition found (dotf : list N -> list f32 -> f32) (ts : list table) (q : list f32) : list nat :=
  concat (map (fun t => bucket (t_map t) (get_hash dotf t q)) ts).

Definition next (st : par) (i : nat) : nat := fst (nth i (p_threads st) (0, [])).

Record inv (dotf : list N -> list f32 -> f32) (ts : list table) (qs : list (list f32)) (st : par) : Prop := {
  i_threads : length (p_threads st) = length qs;
  i_tables : length (p_tables st) = length ts;
  i_thread : forall i q j c, nth_error qs i = Some q -> nth_error (p_threads st) i = Some (j, c) -> j <= length ts /\ c = found dotf (firstn j ts) q;
  i_table : forall j t0, nth_error ts j = Some t0 -> exists l, NoDup l /\ (forall i, In i l <-> i < length qs /\ j < next st i) /\
    nth_error (p_tables st) j = Some (mkT (t_hps t0) (fold_left touch (map (fun i => get_hash dotf t0 (nth i qs [])) l) (t_map t0)))
}.

Lemma inv_init : forall dotf ts qs, inv dotf ts qs (par_init ts (length qs)).
Proof.
  intros dotf ts qs. constructor; cbn [par_init p_tables p_threads].
  - apply repeat_length.
  - reflexivity.
  - intros i q j c _ H. assert (E : (j, c) = (0, [])) by (apply (repeat_spec (length qs)), nth_error_In in H || (apply nth_error_In in H; apply repeat_spec in H; exact H)).
    assert (j = 0 /\ c = []) as [-> ->] by (split; congruence). split; [lia|reflexivity].
  - intros j t0 H. exists []. split; [constructor|]. split.
    + intros i. unfold next. cbn [p_threads par_init]. rewrite nth_repeat. cbn. split; [tauto|lia].
    + cbn. rewrite H. destruct t0; reflexivity.
Qed.

Lemma hash_hps : forall dotf t t' q, t_hps t' = t_hps t -> get_hash dotf t' q = get_hash dotf t q.
Proof. intros dotf t t' q H. unfold get_hash. now rewrite H. Qed.

Lemma step_inv : forall dotf ts qs st i st', inv dotf ts qs st -> par_step dotf qs st i = Some st' -> inv dotf ts qs st'.
Proof.
  intros dotf ts qs st i st' [I1 I2 I3 I4] H. unfold par_step in H.
  destruct (nth_error qs i) as [q|] eqn:Q; [|discriminate]. destruct (nth_error (p_threads st) i) as [[j c]|] eqn:T; [|discriminate].
  destruct (nth_error (p_tables st) j) as [t|] eqn:Tb; [|discriminate]. cbn [get_bucket] in H. injection H as <-.
  assert (Hj : j < length ts) by (rewrite <- I2; apply nth_lt in Tb; exact Tb).
  assert (Hi : i < length (p_threads st)) by (apply nth_lt in T; exact T).
  destruct (nth_error ts j) as [t0|] eqn:T0; [|apply nth_error_None in T0; lia].
  destruct (I4 j t0 T0) as [l [Nd [Hl Ht]]]. rewrite Tb in Ht. injection Ht as Ht.
  assert (Hh : get_hash dotf t q = get_hash dotf t0 q) by (apply hash_hps; rewrite Ht; reflexivity).
  constructor; cbn [p_tables p_threads].
  - now rewrite set_at_length.
  - now rewrite set_at_length.
  - intros i' q' j' c' Q' T'. destruct (Nat.eq_dec i i') as [<-|N].
    + rewrite set_at_same in T' by exact Hi. injection T' as <- <-. rewrite Q in Q'. injection Q' as <-.
      destruct (I3 i q j c Q T) as [_ ->]. split; [lia|]. rewrite (firstn_S _ ts j t0 T0). unfold found. rewrite map_app, concat_app. cbn [map concat]. rewrite app_nil_r. f_equal.
      rewrite Hh. rewrite Ht. cbn [t_map]. rewrite <- (touch_bucket (map (fun i => get_hash dotf t0 (nth i qs [])) l) (t_map t0)). reflexivity.
    + rewrite set_at_other in T' by exact N. eapply I3; eauto.
  - assert (Nx : forall i', next (mkP (set_at (p_tables st) j (mkT (t_hps t) (map_update (t_map t) (get_hash dotf t q) (fun l => l)))) (set_at (p_threads st) i (S j, c ++ match map_get (t_map t) (get_hash dotf t q) with Some l => l | None => [] end))) i' = if Nat.eq_dec i i' then S j else next st i').
    { intros i'. unfold next. cbn [p_threads]. destruct (Nat.eq_dec i i') as [<-|N].
      - rewrite (nth_error_nth _ _ _ (set_at_same _ (p_threads st) i _ Hi)). reflexivity.
      - f_equal. pose proof (set_at_other _ (p_threads st) i i' (S j, c ++ match map_get (t_map t) (get_hash dotf t q) with Some l => l | None => [] end) N) as E.
        destruct (nth_error (p_threads st) i') as [x|] eqn:X.
        + rewrite (nth_error_nth _ _ _ E), (nth_error_nth _ _ _ X). reflexivity.
        + rewrite !nth_overflow; [reflexivity| |]; [apply nth_error_None, X|apply nth_error_None, E]. }
    assert (Ni : next st i = j) by (unfold next; rewrite (nth_error_nth _ _ _ T); reflexivity).
    intros j' t1 T1. destruct (Nat.eq_dec j j') as [<-|N].
    + rewrite T0 in T1. injection T1 as <-. exists (l ++ [i]). split; [|split].
      * apply (Permutation_NoDup (l := i :: l)); [apply Permutation_cons_append|]. constructor; [|exact Nd]. rewrite Hl. lia.
      * intros i'. rewrite in_app_iff, Hl, Nx. cbn [In]. destruct (Nat.eq_dec i i') as [<-|N]; [|tauto]. split; [intros _; split; [lia|lia]|tauto].
      * rewrite set_at_same by lia. f_equal. rewrite map_app, fold_left_app. cbn [map fold_left]. rewrite (nth_error_nth _ _ _ Q). rewrite <- Hh.
        rewrite Ht at 1. cbn [t_hps]. f_equal. rewrite Ht at 1. cbn [t_map]. reflexivity.
    + destruct (I4 j' t1 T1) as [l1 [Nd1 [Hl1 Ht1]]]. exists l1. split; [exact Nd1|]. split.
      * intros i'. rewrite Hl1, Nx. destruct (Nat.eq_dec i i') as [<-|N']; [rewrite Ni; lia|tauto].
      * rewrite set_at_other by exact N. exact Ht1.
Qed.

Lemma run_inv : forall dotf ts qs sched st st', inv dotf ts qs st -> par_run dotf qs sched st = Some st' -> inv dotf ts qs st'.
Proof.
  intros dotf ts qs sched. induction sched as [|i sched IH]; intros st st' I H; cbn [par_run] in H; [congruence|].
  destruct (par_step dotf qs st i) as [st1|] eqn:E; [|discriminate]. eapply IH; [|exact H]. eapply step_inv; eauto.
Qed.

Lemma reach_inv : forall dotf ts qs st, reachable dotf ts qs st -> inv dotf ts qs st.
Proof. intros dotf ts qs st [sched H]. eapply run_inv; [apply inv_init|exact H]. Qed.

(** ** Answers *)
Lemma answers_alone : forall dotf ix qs st i q cands dist m filters indices distances, reachable dotf (l_tables ix) qs st ->
  nth_error qs i = Some q -> nth_error (p_threads st) i = Some (length (l_tables ix), cands) ->
  par_answer ix cands dist m filters indices distances = (do r <- lsh_search dotf ix q dist m filters indices distances; Ok (fst r)).
Proof.
  intros dotf ix qs st i q cands dist m filters indices distances R Q T. destruct (i_thread _ _ _ _ (reach_inv _ _ _ _ R) i q _ _ Q T) as [_ ->].
  rewrite firstn_all. unfold par_answer, lsh_search, found. rewrite <- lookup_fst.
  destruct (lookup_all dotf q (l_tables ix)) as [c ts']. cbn [fst].
  destruct (flat_search (l_n ix) dist (passes_filter (l_labels ix) filters) m c indices distances); reflexivity.
Qed.

Lemma one_by_one_nth : forall dotf qs ts j t0, nth_error ts j = Some t0 ->
  nth_error (one_by_one dotf qs ts) j = Some (mkT (t_hps t0) (fold_left touch (map (get_hash dotf t0) qs) (t_map t0))).
Proof.
  intros dotf qs. induction qs as [|q qs IH]; intros ts j t0 H; cbn [one_by_one map fold_left]; [rewrite H; destruct t0; reflexivity|].
  rewrite lookup_snd. erewrite IH by (erewrite map_nth_error by exact H; reflexivity). cbn [t_hps t_map]. do 2 f_equal.
Qed.

Lemma one_by_one_length : forall dotf qs ts, length (one_by_one dotf qs ts) = length ts.
Proof. intros dotf qs. induction qs as [|q qs IH]; intros ts; cbn [one_by_one]; [reflexivity|]. rewrite IH, lookup_snd. apply map_length. Qed.

Lemma nth_error_eq : forall (A : Type) (l l' : list A), length l = length l' -> (forall i x, nth_error l i = Some x -> nth_error l' i = Some x) -> l = l'.
Proof.
  intros A l. induction l as [|a l IH]; intros [|b l'] L H; try discriminate L; [reflexivity|].
  assert (E : Some b = Some a) by (apply (H 0 a eq_refl)). f_equal; [congruence|]. apply IH; [cbn in L; lia|]. intros i x. apply (H (S i) x).
Qed.

Lemma map_nth_seq : forall (A B : Type) (f : A -> B) (l : list A) d, map (fun i => f (nth i l d)) (seq 0 (length l)) = map f l.
Proof.
  intros A B f l d. induction l as [|a l IH]; cbn [length seq map nth]; [reflexivity|]. f_equal. rewrite <- seq_shift, map_map. exact IH.
Qed.

Lemma tables_at_end : forall dotf ts qs st, reachable dotf ts qs st -> finished st -> p_tables st = one_by_one dotf qs ts.
Proof.
  intros dotf ts qs st R F. pose proof (reach_inv _ _ _ _ R) as [I1 I2 I3 I4]. symmetry.
  apply nth_error_eq; [now rewrite one_by_one_length|]. intros j t H.
  assert (Hj : j < length ts) by (apply nth_lt in H; rewrite one_by_one_length in H; exact H).
  destruct (nth_error ts j) as [t0|] eqn:T0; [|apply nth_error_None in T0; lia].
  rewrite (one_by_one_nth _ _ _ _ _ T0) in H. injection H as <-. destruct (I4 j t0 T0) as [l [Nd [Hl Ht]]]. rewrite Ht. do 2 f_equal.
  rewrite <- (map_nth_seq _ _ (get_hash dotf t0) qs []). apply touch_all_perm, Permutation_map. apply NoDup_Permutation; [exact Nd|apply seq_NoDup|].
  intros i. rewrite Hl, in_seq. split; [lia|]. intros [_ Hi]. cbn in Hi. split; [lia|]. unfold next.
  destruct (nth_error (p_threads st) i) as [th|] eqn:T; [|apply nth_error_None in T; lia]. rewrite (nth_error_nth _ _ _ T).
  rewrite (F th) by (eapply nth_error_In, T). lia.
Qed.

(** ** Races *)
Lemma tables_unchanged : forall dotf ts qs st, (forall q t, In q qs -> In t ts -> map_get (t_map t) (get_hash dotf t q) <> None) ->
  reachable dotf ts qs st -> p_tables st = ts.
Proof.
  intros dotf ts qs st K [sched H]. assert (G : forall sched st0, p_tables st0 = ts -> par_run dotf qs sched st0 = Some st -> p_tables st = ts).
  { intros s. induction s as [|i s IH]; intros st0 E R; cbn [par_run] in R; [congruence|].
    destruct (par_step dotf qs st0 i) as [st1|] eqn:S; [|discriminate]. apply (IH st1); [|exact R]. unfold par_step in S.
    destruct (nth_error qs i) as [q|] eqn:Q; [|discriminate]. destruct (nth_error (p_threads st0) i) as [[j c]|]; [|discriminate].
    destruct (nth_error (p_tables st0) j) as [t|] eqn:T; [|discriminate]. cbn [get_bucket] in S. injection S as <-. cbn [p_tables].
    rewrite E in *. assert (M : map_get (t_map t) (get_hash dotf t q) <> None) by (apply K; eapply nth_error_In; eauto).
    destruct (map_get (t_map t) (get_hash dotf t q)) as [l|] eqn:Gt; [|congruence]. fold (touch (t_map t) (get_hash dotf t q)). rewrite (touch_present _ _ _ Gt).
    apply set_at_id. rewrite T. destruct t; reflexivity. }
  apply (G sched (par_init ts (length qs))); [reflexivity|exact H].
Qed.

Lemma writes_missing : forall dotf ts qs st i j, reachable dotf ts qs st -> about_to dotf qs st i j true ->
  exists q t, In q qs /\ In t ts /\ map_get (t_map t) (get_hash dotf t q) = None.
Proof.
  intros dotf ts qs st i j R [q [c [t [Q [T [Tb W]]]]]]. pose proof (reach_inv _ _ _ _ R) as [I1 I2 I3 I4].
  destruct (nth_error ts j) as [t0|] eqn:T0; [|apply nth_error_None in T0; apply nth_lt in Tb; lia].
  destruct (I4 j t0 T0) as [l [_ [_ Ht]]]. rewrite Tb in Ht. injection Ht as ->.
  exists q, t0. split; [eapply nth_error_In, Q|]. split; [eapply nth_error_In, T0|]. unfold lookup_writes in W. cbn [t_map] in W.
  rewrite (hash_hps dotf t0 (mkT (t_hps t0) _) q eq_refl) in W.
  destruct (map_get (fold_left touch (map (fun i => get_hash dotf t0 (nth i qs [])) l) (t_map t0)) (get_hash dotf t0 q)) eqn:E; [discriminate|].
  eapply touch_get, E.
Qed.

Lemma advance : forall dotf qs i q k st j c, nth_error qs i = Some q -> nth_error (p_threads st) i = Some (j, c) -> j + k <= length (p_tables st) ->
  exists st' c', par_run dotf qs (repeat i k) st = Some st' /\ nth_error (p_threads st') i = Some (j + k, c') /\
    (forall i', i' <> i -> nth_error (p_threads st') i' = nth_error (p_threads st) i') /\ length (p_tables st') = length (p_tables st) /\
    forall j', j + k <= j' -> nth_error (p_tables st') j' = nth_error (p_tables st) j'.
Proof.
  intros dotf qs i q k. induction k as [|k IH]; intros st j c Q T L; cbn [repeat par_run].
  - exists st, c. rewrite Nat.add_0_r. auto.
  - destruct (nth_error (p_tables st) j) as [t|] eqn:Tb; [|apply nth_error_None in Tb; lia].
    destruct (get_bucket t (get_hash dotf t q)) as [b t'] eqn:B.
    assert (E : par_step dotf qs st i = Some (mkP (set_at (p_tables st) j t') (set_at (p_threads st) i (S j, c ++ b)))) by (unfold par_step; rewrite Q, T, Tb, B; reflexivity).
    rewrite E. destruct (IH (mkP (set_at (p_tables st) j t') (set_at (p_threads st) i (S j, c ++ b))) (S j) (c ++ b)) as [st' [c' [R [A1 [A2 [A3 A4]]]]]].
    + exact Q.
    + cbn [p_threads]. apply set_at_same. eapply nth_lt, T.
    + cbn [p_tables]. rewrite set_at_length. lia.
    + cbn [p_tables p_threads] in *. exists st', c'. split; [exact R|]. split; [rewrite A1; do 2 f_equal; lia|]. split; [|split].
      * intros i' N. rewrite A2 by exact N. apply set_at_other. auto.
      * rewrite A3. apply set_at_length.
      * intros j' H. rewrite A4 by lia. apply set_at_other. lia.
Qed.

Lemma run_app : forall dotf qs s1 s2 st, par_run dotf qs (s1 ++ s2) st = match par_run dotf qs s1 st with Some st' => par_run dotf qs s2 st' | None => None end.
Proof. intros dotf qs s1. induction s1 as [|i s1 IH]; intros s2 st; cbn [app par_run]; [reflexivity|]. destruct (par_step dotf qs st i); auto. Qed.

Lemma race_happens : forall dotf ts qs q t, 2 <= length qs -> In q qs -> In t ts -> map_get (t_map t) (get_hash dotf t q) = None ->
  exists st, reachable dotf ts qs st /\ race dotf qs st.
Proof.
  intros dotf ts qs q t L Hq Ht M. destruct (In_nth_error _ _ Hq) as [i Q]. destruct (In_nth_error _ _ Ht) as [j T].
  assert (X : exists i' q', i' <> i /\ nth_error qs i' = Some q').
  { destruct (Nat.eq_dec i 0) as [->|N].
    - destruct (nth_error qs 1) as [q'|] eqn:E; [exists 1, q'; auto|apply nth_error_None in E; lia].
    - destruct (nth_error qs 0) as [q'|] eqn:E; [exists 0, q'; auto|apply nth_error_None in E; lia]. }
  destruct X as [i' [q' [N Q']]]. pose proof (nth_lt _ _ _ _ T) as Lj. pose proof (nth_lt _ _ _ _ Q) as Li. pose proof (nth_lt _ _ _ _ Q') as Li'.
  assert (S0 : forall i, i < length qs -> nth_error (p_threads (par_init ts (length qs))) i = Some (0, [])) by (intros k Hk; cbn; apply nth_error_repeat, Hk).
  destruct (advance dotf qs i q j (par_init ts (length qs)) 0 [] Q (S0 i Li)) as [st1 [c1 [R1 [A1 [A2 [A3 A4]]]]]]; [cbn; lia|].
  destruct (advance dotf qs i' q' j st1 0 [] Q') as [st2 [c2 [R2 [B1 [B2 [B3 B4]]]]]]; [rewrite A2 by exact N; apply S0, Li'|rewrite A3; cbn; lia|].
  exists st2. split; [exists (repeat i j ++ repeat i' j); rewrite run_app, R1; exact R2|].
  assert (Tb : nth_error (p_tables st2) j = Some t) by (rewrite B4, A4 by lia; exact T).
  exists i, i', j, true, (lookup_writes t (get_hash dotf t q')). split; [auto|]. split; [|split].
  - exists q, c1, t. split; [exact Q|]. split; [rewrite B2 by auto; exact A1|]. split; [exact Tb|]. unfold lookup_writes. rewrite M. reflexivity.
  - exists q', c2, t. split; [exact Q'|]. split; [exact B1|]. split; [exact Tb|reflexivity].
  - left. reflexivity.
Qed.

Lemma race_iff : forall dotf ts qs, (forall t, In t ts -> keys_sorted (t_map t)) ->
  ((exists st, reachable dotf ts qs st /\ race dotf qs st) <-> 2 <= length qs /\ exists q t, In q qs /\ In t ts /\ ~ has_key dotf t q).
Proof.
  intros dotf ts qs S. split.
  - intros [st [R [i [i' [j [w [w' [N [A [A' W]]]]]]]]]]. split.
    + destruct A as [q [_ [_ [Q _]]]]. destruct A' as [q' [_ [_ [Q' _]]]]. apply nth_lt in Q, Q'. lia.
    + assert (X : exists q t, In q qs /\ In t ts /\ map_get (t_map t) (get_hash dotf t q) = None) by (destruct W as [-> | ->]; eapply writes_missing; eauto).
      destruct X as [q [t [Hq [Ht M]]]]. exists q, t. split; [exact Hq|]. split; [exact Ht|]. apply get_none; auto.
  - intros [L [q [t [Hq [Ht M]]]]]. apply (race_happens dotf ts qs q t L Hq Ht). apply get_none; auto.
Qed.

Lemma present_unchanged : forall dotf ts qs st, (forall t, In t ts -> keys_sorted (t_map t)) -> (forall q t, In q qs -> In t ts -> has_key dotf t q) ->
  reachable dotf ts qs st -> p_tables st = ts.
Proof.
  intros dotf ts qs st S K. apply tables_unchanged. intros q t Hq Ht M. apply get_none in M; auto. apply M, K; auto.
Qed.

(** ** Built indices *)
Lemma map_get_In : forall m k l, keys_sorted m -> In (k, l) m -> map_get m k = Some l.
Proof.
  unfold keys_sorted. induction m as [|[k' l'] m IH]; intros k l S H; [destruct H|]. inversion S as [|? ? S1 F]; subst. cbn [map_get].
  destruct H as [H|H]; [assert (k' = k /\ l' = l) as [-> ->] by (split; congruence); rewrite N.ltb_irrefl, N.eqb_refl; reflexivity|].
  rewrite Forall_forall in F. pose proof (F _ H) as Q. cbn [fst] in Q. destruct (N.ltb_spec k k'); [lia|]. destruct (N.eqb_spec k k'); [lia|]. apply IH; auto.
Qed.

Lemma built_key : forall dotf data ts planes ix ix' t q, (ts <= 64)%N -> length (l_tags ix) = l_n ix -> lsh_new ix -> lsh_build dotf data ts planes ix = Ok ix' -> In t (l_tables ix') ->
  keys_sorted (t_map t) /\ (has_key dotf t q <-> exists id, id < l_n ix /\ sign_pattern dotf (t_hps t) (data id) = sign_pattern dotf (t_hps t) q).
Proof.
  intros dotf data ts planes ix ix' t q Hts Ht Hn B Hin. destruct (lsh_build_ok dotf data ts planes ix Hts Ht Hn) as [ix1 [B1 [_ [_ [_ [_ [_ F]]]]]]].
  assert (ix1 = ix') by congruence. subst ix1. destruct (lsh_built_shape _ _ _ _ _ _ B Hn) as [_ [_ [_ Sh]]]. destruct (Sh t Hin) as [S Ne]. split; [exact S|].
  assert (Bk : forall k, bucket (t_map t) k = map (tag_of (l_tags ix)) (filter (fun j => N.eqb k (get_hash dotf (mkT (t_hps t) []) (data j))) (seq 0 (l_n ix)))).
  { clear - F Hin. induction F as [|p t' l l' [A C] F IH]; [destruct Hin|]. destruct Hin as [->|Hin]; [rewrite A; exact C|auto]. }
  unfold has_key. split.
  - intros H. apply in_map_iff in H. destruct H as [[k l] [E H]]. cbn [fst] in E. destruct (Ne k l H) as [_ [Nl _]].
    pose proof (Bk k) as Q. unfold bucket in Q. rewrite (map_get_In _ _ _ S H) in Q.
    destruct (filter (fun j => N.eqb k (get_hash dotf (mkT (t_hps t) []) (data j))) (seq 0 (l_n ix))) as [|id r] eqn:Ef; [cbn in Q; congruence|].
    assert (Hid : In id (id :: r)) by (left; reflexivity). rewrite <- Ef in Hid. apply filter_In in Hid. destruct Hid as [Hs Hh]. apply in_seq in Hs. apply N.eqb_eq in Hh.
    exists id. split; [lia|]. apply hash_pattern. rewrite <- E, Hh. reflexivity.
  - intros [id [Hid P]]. apply hash_pattern in P. destruct (map_get (t_map t) (get_hash dotf t q)) as [l|] eqn:G.
    + assert (X : ~ ~ In (get_hash dotf t q) (map fst (t_map t))) by (rewrite <- get_none by exact S; congruence).
      destruct (in_dec N.eq_dec (get_hash dotf t q) (map fst (t_map t))); tauto.
    + exfalso. pose proof (Bk (get_hash dotf t q)) as Q. unfold bucket in Q. rewrite G in Q.
      assert (Hin' : In id (filter (fun j => N.eqb (get_hash dotf t q) (get_hash dotf (mkT (t_hps t) []) (data j))) (seq 0 (l_n ix)))).
      { apply filter_In. split; [apply in_seq; lia|]. apply N.eqb_eq. rewrite <- P. reflexivity. }
      destruct (filter (fun j => N.eqb (get_hash dotf t q) (get_hash dotf (mkT (t_hps t) []) (data j))) (seq 0 (l_n ix))); [destruct Hin'|discriminate Q].
Qed.

Lemma built_race : forall dotf data ts planes ix ix' qs, (ts <= 64)%N -> length (l_tags ix) = l_n ix -> lsh_new ix -> lsh_build dotf data ts planes ix = Ok ix' ->
  ((exists st, reachable dotf (l_tables ix') qs st /\ race dotf qs st) <->
   2 <= length qs /\ exists q hps, In q qs /\ In hps planes /\ forall id, id < l_n ix -> sign_pattern dotf hps (data id) <> sign_pattern dotf hps q).
Proof.
  intros dotf data ts planes ix ix' qs Hts Ht Hn B. destruct (lsh_built_shape _ _ _ _ _ _ B Hn) as [Hp _].
  rewrite race_iff by (intros t H; apply (built_key dotf data ts planes ix ix' t [] Hts Ht Hn B H)).
  split; (intros [L [q [x [Hq [Hx M]]]]]; split; [exact L|]).
  - exists q, (t_hps x). split; [exact Hq|]. split; [rewrite <- Hp; apply in_map, Hx|]. intros id Hid P.
    apply M. apply (built_key dotf data ts planes ix ix' x q Hts Ht Hn B Hx). eauto.
  - rewrite <- Hp in Hx. apply in_map_iff in Hx. destruct Hx as [t [<- Hx]]. exists q, t. split; [exact Hq|]. split; [exact Hx|].
    intros K. apply (built_key dotf data ts planes ix ix' t q Hts Ht Hn B Hx) in K. destruct K as [id [Hid P]]. exact (M id Hid P).
Qed.

(** While some search is not through, one can go on. *)
Lemma progress : forall dotf ts qs st, reachable dotf ts qs st -> ~ finished st -> exists i st', par_step dotf qs st i = Some st'.
Proof.
  intros dotf ts qs st R NF. pose proof (reach_inv _ _ _ _ R) as [I1 I2 I3 I4].
  assert (X : exists th, In th (p_threads st) /\ fst th <> length (p_tables st)).
  { unfold finished in NF. clear - NF. induction (p_threads st) as [|th l IH]; [exfalso; apply NF; intros ? []|].
    destruct (Nat.eq_dec (fst th) (length (p_tables st))) as [E|E]; [|exists th; split; [left; auto|auto]].
    destruct IH as [x [A C]]; [intros H; apply NF; intros y [<-|Hy]; auto|]. exists x. split; [right; auto|auto]. }
  destruct X as [[j c] [H N]]. cbn [fst] in N. destruct (In_nth_error _ _ H) as [i T].
  destruct (nth_error qs i) as [q|] eqn:Q; [|apply nth_error_None in Q; apply nth_lt in T; lia].
  destruct (I3 i q j c Q T) as [Lj _]. destruct (nth_error (p_tables st) j) as [t|] eqn:Tb; [|apply nth_error_None in Tb; lia].
  exists i. unfold par_step. rewrite Q, T, Tb. destruct (get_bucket t (get_hash dotf t q)) as [b t']. eauto.
Qed.

Lemma step_sum : forall dotf qs st i st', par_step dotf qs st i = Some st' -> list_sum (map fst (p_threads st')) = S (list_sum (map fst (p_threads st))).
Proof.
  intros dotf qs st i st' H. unfold par_step in H. destruct (nth_error qs i); [|discriminate]. destruct (nth_error (p_threads st) i) as [[j c]|] eqn:T; [|discriminate].
  destruct (nth_error (p_tables st) j); [|discriminate]. destruct (get_bucket t (get_hash dotf t l)) as [b t']. injection H as <-. cbn [p_threads].
  revert i T. induction (p_threads st) as [|th r IH]; intros [|i] T; cbn in *; try discriminate.
  - injection T as ->. cbn. reflexivity.
  - unfold list_sum in *. rewrite (IH i T). lia.
Qed.

Lemma steps_bound : forall dotf ts qs sched st, par_run dotf qs sched (par_init ts (length qs)) = Some st -> length sched <= length qs * length ts.
Proof.
  intros dotf ts qs sched st H. assert (I : inv dotf ts qs st) by (eapply run_inv; [apply inv_init|exact H]). destruct I as [I1 I2 I3 I4].
  assert (E : list_sum (map fst (p_threads st)) = length sched).
  { assert (G : forall sched st0 st, par_run dotf qs sched st0 = Some st -> list_sum (map fst (p_threads st)) = length sched + list_sum (map fst (p_threads st0))).
    { intros s. induction s as [|i s IH]; intros st0 st1 R; cbn [par_run] in R; [injection R as <-; reflexivity|].
      destruct (par_step dotf qs st0 i) as [st2|] eqn:S; [|discriminate]. rewrite (IH _ _ R), (step_sum _ _ _ _ _ S). cbn. lia. }
    rewrite (G _ _ _ H). cbn [par_init p_threads]. assert (Z : forall n, list_sum (map fst (repeat (0, @nil nat) n)) = 0) by (intros n; induction n; cbn; auto).
    rewrite Z. lia. }
  rewrite <- E, <- I1. assert (B : forall th, In th (p_threads st) -> fst th <= length ts).
  { intros [j c] Hin. destruct (In_nth_error _ _ Hin) as [i T]. destruct (nth_error qs i) as [q|] eqn:Q; [|apply nth_error_None in Q; apply nth_lt in T; lia].
    apply (I3 i q j c Q T). }
  clear - B. induction (p_threads st) as [|th l IH]; [cbn; lia|]. cbn [map list_sum length fold_right]. specialize (IH (fun x H => B x (or_intror H))). pose proof (B th (or_introl eq_refl)). unfold list_sum in *. cbn [fold_right]. lia.
Qed.
