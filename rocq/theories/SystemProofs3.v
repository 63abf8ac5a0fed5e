(** * Lemmas about the search tools. *)
From Coq Require Import NArith String List Arith Lia Bool Permutation.
From Verif Require Import Base Float32 Bytes StreamModel BinModel BinSpec BinProofs BinProofs2 TextModel TextProofs PoolModel
  GreedyModel SearchModel HnswModel FlatModel IvfModel IndexFileModel SystemModel SystemSpec.
Import ListNotations.
Local Open Scope string_scope.

(** ** The searches write their own slots only *)

Lemma wr_length : forall (A : Type) (a : list A) i x a', wr a i x = Ok a' -> length a' = length a.
Proof.
  intros A a i x a' H. unfold wr in H. destruct (i <? length a)%nat eqn:E; [|discriminate]. apply Nat.ltb_lt in E.
  assert (E2 : a' = (firstn i a ++ x :: skipn (S i) a)%list) by congruence. rewrite E2, app_length, firstn_length. cbn [length]. rewrite skipn_length. lia.
Qed.

Lemma wr_app : forall (A : Type) (a b : list A) i x, i < length a -> exists a', wr a i x = Ok a' /\ length a' = length a /\ wr (a ++ b) i x = Ok (a' ++ b)%list.
Proof.
  intros A a b i x H. exists (firstn i a ++ x :: skipn (S i) a)%list.
  assert (E : wr a i x = Ok (firstn i a ++ x :: skipn (S i) a)%list) by (unfold wr; apply Nat.ltb_lt in H; rewrite H; auto).
  split; [auto|]. split; [eapply wr_length; eauto|]. unfold wr. rewrite app_length.
  destruct (i <? length a + length b)%nat eqn:E2; [|apply Nat.ltb_ge in E2; lia].
  rewrite firstn_app, skipn_app. replace (i - length a) with 0 by lia. replace (S i - length a) with 0 by lia. cbn [firstn skipn].
  rewrite app_nil_r, <- app_assoc. reflexivity.
Qed.

Lemma report_app : forall tags arr cnt i a a2 b b2, i + cnt <= length a -> i + cnt <= length b ->
  match report tags arr i cnt a b with
  | Ok (x, y) => report tags arr i cnt (a ++ a2) (b ++ b2) = Ok (x ++ a2, y ++ b2)%list /\ length x = length a /\ length y = length b
  | r => report tags arr i cnt (a ++ a2) (b ++ b2) = r
  end.
Proof.
  intros tags arr cnt. induction cnt as [|cnt IH]; intros i a a2 b b2 Ha Hb; cbn [report]; [auto|].
  destruct (rd arr i) as [x| | | |]; cbn [bind]; auto. destruct (rd tags (nid x)) as [t| | | |]; cbn [bind]; auto.
  destruct (wr_app _ a a2 i t) as [a' [E1 [L1 E2]]]; [lia|]. destruct (wr_app _ b b2 i (ndist x)) as [b' [E3 [L3 E4]]]; [lia|].
  rewrite E1, E2. cbn [bind]. rewrite E3, E4. cbn [bind]. 
  specialize (IH (S i) a' a2 b' b2 ltac:(lia) ltac:(lia)).
  destruct (report tags arr (S i) cnt a' b') as [[u v]| | | |]; auto. rewrite L1, L3 in IH. auto.
Qed.

Lemma report_ids_app : forall arr cnt i a a2 b b2, i + cnt <= length a -> i + cnt <= length b ->
  match report_ids arr i cnt a (Some b) with
  | Ok (x, y) => exists y', y = Some y' /\ report_ids arr i cnt (a ++ a2) (Some (b ++ b2)%list) = Ok (x ++ a2, Some (y' ++ b2))%list /\ length x = length a /\ length y' = length b
  | r => report_ids arr i cnt (a ++ a2) (Some (b ++ b2)%list) = r
  end.
Proof.
  intros arr cnt. induction cnt as [|cnt IH]; intros i a a2 b b2 Ha Hb; cbn [report_ids]; [eauto|].
  destruct (rd arr i) as [x| | | |]; cbn [bind]; auto.
  destruct (wr_app _ a a2 i (nid x)) as [a' [E1 [L1 E2]]]; [lia|]. destruct (wr_app _ b b2 i (ndist x)) as [b' [E3 [L3 E4]]]; [lia|].
  rewrite E1, E2. cbn [bind wr_opt]. rewrite E3, E4. cbn [bind].
  specialize (IH (S i) a' a2 b' b2 ltac:(lia) ltac:(lia)).
  destruct (report_ids arr (S i) cnt a' (Some b')) as [[u v]| | | |]; auto. rewrite L1, L3 in IH. auto.
Qed.

Lemma local_vamana : forall sortf qd filters k x, writes_own_slots k (vamana_searcher sortf qd filters k x).
Proof.
  intros sortf qd filters k x q L a a2 b b2 Ha Hb. unfold vamana_searcher, vamana_search.
  destruct (greedy_search _ _ _ _ _ _ _) as [st| | | |]; cbn [bind]; auto.
  pose proof (report_app (ix_tags (graph_view x)) (p_arr (g_pool st)) k 0 a a2 b b2 ltac:(lia) ltac:(lia)) as H.
  destruct (report _ _ 0 k a b) as [[u v]| | | |]; cbn [bind]; [|rewrite H; auto..]. destruct H as [H [H1 H2]]. rewrite H. cbn [bind]. split; [auto|lia].
Qed.

Lemma local_rng : forall sortf qd k x, writes_own_slots k (rng_searcher sortf qd k x).
Proof.
  intros sortf qd k x q L a a2 b b2 Ha Hb. unfold rng_searcher, rng_search.
  destruct (greedy_search _ _ _ _ _ _ _) as [st| | | |]; cbn [bind]; auto.
  pose proof (report_app (ix_tags (graph_view x)) (p_arr (g_pool st)) k 0 a a2 b b2 ltac:(lia) ltac:(lia)) as H.
  destruct (report _ _ 0 k a b) as [[u v]| | | |]; cbn [bind]; [|rewrite H; auto..]. destruct H as [H [H1 H2]]. rewrite H. cbn [bind]. split; [auto|lia].
Qed.

Lemma local_hnsw : forall sortf qd k levels, writes_own_slots k (hnsw_searcher sortf qd k levels).
Proof.
  intros sortf qd k levels q L a a2 b b2 Ha Hb. unfold hnsw_searcher. destruct levels as [|x inner]; [auto|].
  cbn [map hnsw_search]. destruct (match map graph_view inner with [] => _ | _ :: _ => _ end) as [init| | | |]; cbn [bind]; auto.
  destruct (greedy_search _ _ _ _ _ _ _) as [st| | | |]; cbn [bind]; auto.
  pose proof (report_app (ix_tags (graph_view x)) (p_arr (g_pool st)) k 0 a a2 b b2 ltac:(lia) ltac:(lia)) as H.
  destruct (report _ _ 0 k a b) as [[u v]| | | |]; cbn [bind]; [|rewrite H; auto..]. destruct H as [H [H1 H2]]. rewrite H. cbn [bind]. split; [auto|lia].
Qed.

Lemma local_ivf : forall popf mbs qd cd filters k a centres nc lists, writes_own_slots k (ivf_searcher popf mbs qd cd filters k a centres nc lists).
Proof.
  intros popf mbs qd cd filters k an centres nc lists q L a a2 b b2 Ha Hb. unfold ivf_searcher, ivf_search, flat_search.
  destruct (ivf_candidates _ _ _ _ _) as [cands| | | |]; cbn [bind]; auto.
  destruct (process_candidates _ _ _ _ _ _) as [st| | | |]; cbn [bind]; auto.
  pose proof (report_ids_app (p_arr st) (min (p_cur st) k) 0 a a2 b b2 ltac:(lia) ltac:(lia)) as H.
  destruct (report_ids _ 0 _ a (Some b)) as [[u v]| | | |]; cbn [bind]; [|rewrite H; auto..].
  destruct H as [y' [-> [H [H1 H2]]]]. rewrite H. cbn [bind]. split; [auto|lia].
Qed.

(** ** The arrays of all results *)

Lemma concat_uniform : forall (A : Type) k (ls : list (list A)), (forall l, In l ls -> length l = k) -> length (concat ls) = length ls * k.
Proof.
  intros A k ls. induction ls as [|l ls IH]; intros H; cbn [concat length]; [auto|]. rewrite app_length, IH by (intros; apply H; right; auto).
  rewrite (H l) by (left; auto). lia.
Qed.

Lemma concat_split : forall (A : Type) k (f : nat -> list A) n i, (forall j, j < n -> length (f j) = k) -> i < n ->
  concat (map f (seq 0 n)) = (concat (map f (seq 0 i)) ++ f i ++ concat (map f (seq (S i) (n - S i))))%list /\ length (concat (map f (seq 0 i))) = i * k.
Proof.
  intros A k f n i H Hi. split.
  - replace (seq 0 n) with (seq 0 i ++ i :: seq (S i) (n - S i))%list; [rewrite map_app, concat_app; reflexivity|].
    change (i :: seq (S i) (n - S i)) with (seq i (S (n - S i))). rewrite <- seq_app. f_equal. lia.
  - rewrite (concat_uniform _ k); [rewrite map_length, seq_length; auto|]. intros l Hl. apply in_map_iff in Hl. destruct Hl as [j [<- Hj]]. apply in_seq in Hj. apply H. lia.
Qed.

Lemma skipn_exact : forall (A : Type) n (a b : list A), length a = n -> skipn n (a ++ b) = b.
Proof. intros A n a b H. rewrite skipn_app, <- H, skipn_all, Nat.sub_diag. reflexivity. Qed.
Lemma firstn_exact : forall (A : Type) n (a b : list A), length a = n -> firstn n (a ++ b) = a.
Proof. intros A n a b H. rewrite firstn_app, <- H, firstn_all, Nat.sub_diag. apply app_nil_r. Qed.

Definition part {A : Type} (done : list nat) (R : nat -> A) (z : A) (j : nat) : A := if existsb (Nat.eqb j) done then R j else z.

Lemma existsb_eqb : forall l j, existsb (Nat.eqb j) l = true <-> In j l.
Proof. intros l j. rewrite existsb_exists. split; [intros [x [A B]]; apply Nat.eqb_eq in B; subst; auto|intros H; exists j; split; [auto|apply Nat.eqb_refl]]. Qed.

Lemma answer_all_ok : forall w adim qadim mem srch k L nq (R : nat -> list nat) (D : nat -> list f32), writes_own_slots k srch ->
  (forall i, i < nq -> exists q c, query_vec w adim qadim mem i = Ok q /\ srch q L (repeat 0 k) (repeat f32_zero k) = Ok (R i, D i, c)) ->
  forall order done, NoDup (done ++ order) -> (forall i, In i (done ++ order) -> i < nq) ->
  answer_all w adim qadim mem srch k L order
    (concat (map (part done R (repeat 0 k)) (seq 0 nq)), concat (map (part done D (repeat f32_zero k)) (seq 0 nq))) =
  Ok (concat (map (part (done ++ order) R (repeat 0 k)) (seq 0 nq)), concat (map (part (done ++ order) D (repeat f32_zero k)) (seq 0 nq))).
Proof.
  intros w adim qadim mem srch k L nq R D Hloc HR.
  assert (Hlen : forall j, j < nq -> length (R j) = k /\ length (D j) = k).
  { intros j Hj. destruct (HR j Hj) as [q [c [_ E]]]. specialize (Hloc q L (repeat 0 k) [] (repeat f32_zero k) [] (repeat_length _ _) (repeat_length _ _)).
    rewrite E in Hloc. apply Hloc. }
  assert (HRl : forall done j, j < nq -> length (part done R (repeat 0 k) j) = k).
  { intros done j Hj. unfold part. destruct (existsb _ _); [apply Hlen; auto|apply repeat_length]. }
  assert (HDl : forall done j, j < nq -> length (part done D (repeat f32_zero k) j) = k).
  { intros done j Hj. unfold part. destruct (existsb _ _); [apply Hlen; auto|apply repeat_length]. }
  induction order as [|i order IH]; intros done Hnd Hin; cbn [answer_all]; [rewrite app_nil_r; auto|].
  assert (Hi : i < nq) by (apply Hin, in_or_app; right; left; auto).
  assert (Hni : existsb (Nat.eqb i) done = false).
  { destruct (existsb (Nat.eqb i) done) eqn:E; [|auto]. apply existsb_eqb in E. apply NoDup_remove_2 in Hnd. elim Hnd. apply in_or_app. auto. }
  assert (Hstep : answer_one w adim qadim mem srch k L i (concat (map (part done R (repeat 0 k)) (seq 0 nq)), concat (map (part done D (repeat f32_zero k)) (seq 0 nq))) =
     Ok (concat (map (part (done ++ [i]) R (repeat 0 k)) (seq 0 nq)), concat (map (part (done ++ [i]) D (repeat f32_zero k)) (seq 0 nq)))).
  { unfold answer_one. destruct (HR i Hi) as [q [c [Eq Es]]]. rewrite Eq. cbn [bind fst snd].
    destruct (concat_split _ k (part done R (repeat 0 k)) nq i (HRl done) Hi) as [C1 N1].
    destruct (concat_split _ k (part done D (repeat f32_zero k)) nq i (HDl done) Hi) as [C2 N2].
    destruct (concat_split _ k (part (done ++ [i]) R (repeat 0 k)) nq i (HRl _) Hi) as [C3 N3].
    destruct (concat_split _ k (part (done ++ [i]) D (repeat f32_zero k)) nq i (HDl _) Hi) as [C4 N4].
    assert (Hsame : forall (A : Type) (F : nat -> list A) z a len, (forall j, In j (seq a len) -> j <> i) ->
      map (part (done ++ [i]) F z) (seq a len) = map (part done F z) (seq a len)).
    { intros A F z a len Hj. apply map_ext_in. intros j Hj'. unfold part. rewrite existsb_app. cbn [existsb].
      specialize (Hj j Hj'). apply Nat.eqb_neq in Hj. rewrite Hj. cbn. rewrite orb_false_r. auto. }
    assert (Hat : forall (A : Type) (F : nat -> list A) z, part (done ++ [i]) F z i = F i).
    { intros A F z. unfold part. rewrite existsb_app. cbn [existsb]. rewrite Nat.eqb_refl. cbn. rewrite orb_true_r. auto. }
    assert (Hzn : forall (A : Type) (F : nat -> list A) z, part done F z i = z) by (intros A F z; unfold part; rewrite Hni; auto).
    rewrite C1, C2, C3, C4, !Hat, !Hzn. rewrite !Hsame by (intros j Hj; apply in_seq in Hj; lia).
    rewrite (skipn_exact _ _ _ _ N1), (skipn_exact _ _ _ _ N2), (firstn_exact _ _ _ _ N1), (firstn_exact _ _ _ _ N2).
    pose proof (Hloc q L (repeat 0 k) (concat (map (part done R (repeat 0 k)) (seq (S i) (nq - S i)))) (repeat f32_zero k)
      (concat (map (part done D (repeat f32_zero k)) (seq (S i) (nq - S i)))) (repeat_length _ _) (repeat_length _ _)) as Hl.
    rewrite Es in Hl. destruct Hl as [Hl _]. rewrite Hl. reflexivity. }
  rewrite Hstep. cbn [bind]. rewrite IH; rewrite <- app_assoc; auto.
Qed.

Lemma concat_zeros : forall (A : Type) (z : A) k n, concat (map (fun _ => repeat z k) (seq 0 n)) = repeat z (k * n).
Proof.
  intros A z k n. generalize 0. induction n as [|n IH]; intros a; cbn [seq map concat]; [rewrite Nat.mul_0_r; auto|].
  rewrite IH, <- repeat_app. f_equal. lia.
Qed.

Lemma run_test_ok : forall w adim qadim mem srch k L nq (R : nat -> list nat) order, writes_own_slots k srch -> 1 <= nq -> each_once nq order ->
  (forall i, i < nq -> exists q ds c, query_vec w adim qadim mem i = Ok q /\ srch q L (repeat 0 k) (repeat f32_zero k) = Ok (R i, ds, c)) ->
  run_test w adim qadim mem srch nq k L order = Ok (concat (map R (seq 0 nq))) /\ (forall i, i < nq -> length (R i) = k).
Proof.
  intros w adim qadim mem srch k L nq R order Hloc Hnq Ho HR.
  assert (Hlen : forall i, i < nq -> length (R i) = k).
  { intros j Hj. destruct (HR j Hj) as [q [ds [c [_ E]]]]. specialize (Hloc q L (repeat 0 k) [] (repeat f32_zero k) [] (repeat_length _ _) (repeat_length _ _)).
    rewrite E in Hloc. apply Hloc. }
  split; [|auto]. unfold run_test.
  set (D := fun i => match query_vec w adim qadim mem i with Ok q => match srch q L (repeat 0 k) (repeat f32_zero k) with Ok (_, ds, _) => ds | _ => [] end | _ => [] end).
  assert (HR' : forall i, i < nq -> exists q c, query_vec w adim qadim mem i = Ok q /\ srch q L (repeat 0 k) (repeat f32_zero k) = Ok (R i, D i, c)).
  { intros i Hi. destruct (HR i Hi) as [q [ds [c [E1 E2]]]]. exists q, c. split; [auto|]. unfold D. rewrite E1, E2. auto. }
  pose proof (answer_all_ok w adim qadim mem srch k L nq R D Hloc HR' order []) as H. cbn [app] in H.
  assert (Hin : forall i, In i order -> i < nq) by (intros i Hi; apply (Permutation_in i Ho), in_seq in Hi; lia).
  specialize (H (Permutation_NoDup (Permutation_sym Ho) (seq_NoDup _ _)) Hin).
  change (map (part [] R (repeat 0 k)) (seq 0 nq)) with (map (fun _ : nat => repeat 0 k) (seq 0 nq)) in H.
  change (map (part [] D (repeat f32_zero k)) (seq 0 nq)) with (map (fun _ : nat => repeat f32_zero k) (seq 0 nq)) in H.
  rewrite !concat_zeros in H. rewrite H. cbn [bind fst]. destruct (nq =? 0)%nat eqn:E; [apply Nat.eqb_eq in E; lia|]. do 2 f_equal.
  apply map_ext_in. intros j Hj. apply in_seq in Hj. unfold part. 
  assert (Hjo : existsb (Nat.eqb j) order = true) by (apply existsb_eqb, (Permutation_in j (Permutation_sym Ho)), in_seq; lia). rewrite Hjo. auto.
Qed.
