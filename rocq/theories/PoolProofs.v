(** * Lemmas about the candidate pool. *)
From Coq Require Import List Arith Lia Bool Sorting.Sorted Sorting.Permutation.
From Verif Require Import Base Float32 PoolModel TopKSpec.
Import ListNotations.

Definition nkey (x : neighbor) : scored := (nid x, ndist x).
Definition nle (x y : neighbor) : Prop := fle (ndist x) (ndist y) = true.

(** ** Sorted lists and indices *)
Lemma ssorted_nth : forall (l : list neighbor) i j x y,
  StronglySorted nle l -> i < j -> nth_error l i = Some x -> nth_error l j = Some y -> nle x y.
Proof.
  induction l as [|z l IH]; intros i j x y Hs Hij Hx Hy.
  - destruct i; discriminate.
  - apply StronglySorted_inv in Hs. destruct Hs as [Hs Hf].
    destruct j as [|j]; [lia|]. destruct i as [|i]; cbn in Hx, Hy.
    + inversion Hx; subst. rewrite Forall_forall in Hf. apply Hf. eapply nth_error_In; eauto.
    + apply (IH i j); auto. lia.
Qed.

Lemma ssorted_nth_le : forall (l : list neighbor) i j x y,
  StronglySorted nle l -> (forall z, In z l -> is_nan (ndist z) = false) ->
  i <= j -> nth_error l i = Some x -> nth_error l j = Some y -> nle x y.
Proof.
  intros l i j x y Hs Hn Hij Hx Hy. destruct (Nat.eq_dec i j) as [->|Hne].
  - assert (x = y) by congruence. subst. apply fle_refl. apply Hn. eapply nth_error_In; eauto.
  - eapply (ssorted_nth l i j); eauto. lia.
Qed.

Lemma ssorted_app : forall (A : Type) (R : A -> A -> Prop) l1 l2,
  StronglySorted R (l1 ++ l2) <->
  StronglySorted R l1 /\ StronglySorted R l2 /\ (forall x y, In x l1 -> In y l2 -> R x y).
Proof.
  induction l1 as [|a l1 IH]; intros l2; cbn.
  - split; [intros H; repeat split; auto using SSorted_nil; intros x y [] | tauto].
  - split.
    + intros H. apply StronglySorted_inv in H. destruct H as [H1 H2].
      apply IH in H1. destruct H1 as [A1 [A2 A3]]. rewrite Forall_app in H2. destruct H2 as [B1 B2].
      repeat split; auto.
      * constructor; auto.
      * intros x y [->|Hx] Hy; auto. rewrite Forall_forall in B2. auto.
    + intros [H1 [H2 H3]]. apply StronglySorted_inv in H1. destruct H1 as [A1 A2].
      constructor.
      * apply IH. repeat split; auto.
      * apply Forall_app. split; auto. apply Forall_forall. auto.
Qed.

(** ** The array as (pool ++ spare slot ++ tail) *)
Lemma nth_pool : forall (P : list neighbor) T i, i < length P -> nth_error (P ++ T) i = nth_error P i.
Proof. intros. apply nth_error_app1. auto. Qed.

Lemma rd_pool : forall (P : list neighbor) T i, i < length P ->
  exists x, rd (P ++ T) i = Ok x /\ nth_error P i = Some x.
Proof.
  intros P T i H. unfold rd. rewrite nth_pool by auto.
  destruct (nth_error P i) as [x|] eqn:E; [eauto|].
  apply nth_error_None in E. lia.
Qed.

Lemma bsearch_ok : forall P T nn fuel left right xl xr,
  StronglySorted nle P -> (forall z, In z P -> is_nan (ndist z) = false) ->
  is_nan (ndist nn) = false ->
  right < length P -> left <= right -> right - left < fuel ->
  nth_error P left = Some xl -> nth_error P right = Some xr ->
  fle (ndist xl) (ndist nn) = true -> fle (ndist nn) (ndist xr) = true ->
  (right = length P - 1 \/ flt (ndist nn) (ndist xr) = true) ->
  exists l r yl yr,
    bsearch fuel (P ++ T) nn left right = Ok (l, r) /\
    l <= r /\ r <= l + 1 /\ r < length P /\
    nth_error P l = Some yl /\ nth_error P r = Some yr /\
    fle (ndist yl) (ndist nn) = true /\ fle (ndist nn) (ndist yr) = true /\
    (r = length P - 1 \/ flt (ndist nn) (ndist yr) = true).
Proof.
  intros P T nn. induction fuel as [|fuel IH]; intros left right xl xr Hs Hn Hnn Hr Hlr Hf Hxl Hxr Hl Hrr Hlast.
  - lia.
  - cbn [bsearch]. destruct ((1 <? right) && (left <? right - 1)) eqn:E.
    + apply andb_true_iff in E. destruct E as [E1 E2].
      apply Nat.ltb_lt in E1. apply Nat.ltb_lt in E2.
      assert (Hmid : left < (left + right) / 2 < right).
      { split.
        - apply Nat.div_le_lower_bound; lia.
        - apply Nat.div_lt_upper_bound; lia. }
      remember ((left + right) / 2) as mid eqn:Emid. clear Emid.
      destruct (rd_pool P T mid) as [m [Hm1 Hm2]]; [lia|].
      rewrite Hm1. cbn [bind].
      assert (Hmn : is_nan (ndist m) = false) by (apply Hn; eapply nth_error_In; eauto).
      destruct (fgt (ndist m) (ndist nn)) eqn:G.
      * apply (IH left mid xl m); auto; try lia. apply flt_fle; auto.
      * apply (IH mid right m xr); auto; try lia.
        apply flt_false_fle; auto.
    + exists left, right, xl, xr. repeat split; auto.
      apply andb_false_iff in E. destruct E as [E|E]; apply Nat.ltb_ge in E; lia.
Qed.

Lemma dup_walk_fresh : forall P T nn left,
  (forall z, In z P -> nid z <> nid nn) -> left < length P ->
  exists l, dup_walk (P ++ T) nn left = Ok (Some l) /\ l < length P.
Proof.
  intros P T nn left Hid. induction left as [|left IH]; intros Hl.
  - exists 0. split; auto.
  - cbn [dup_walk]. destruct (rd_pool P T (S left)) as [x [Hx1 Hx2]]; [lia|].
    rewrite Hx1. cbn [bind]. destruct (flt (ndist x) (ndist nn)) eqn:E.
    + exists (S left). split; auto.
    + destruct (nid x =? nid nn) eqn:E2.
      * apply Nat.eqb_eq in E2. exfalso. eapply Hid; eauto. eapply nth_error_In; eauto.
      * apply IH. lia.
Qed.

Lemma memmove_up_split : forall (P1 P2 T : list neighbor) t,
  memmove_up (P1 ++ P2 ++ t :: T) (length P1) (length P2) =
  Ok (firstn (length P1 + 1) (P1 ++ P2 ++ [t]) ++ P2 ++ T).
Proof.
  intros P1 P2 T t. unfold memmove_up.
  assert (E : length P1 + 1 + length P2 <=? length (P1 ++ P2 ++ t :: T) = true).
  { apply Nat.leb_le. rewrite !app_length. cbn. lia. }
  rewrite E. f_equal.
  assert (F1 : firstn (length P1 + 1) (P1 ++ P2 ++ t :: T) = firstn (length P1 + 1) (P1 ++ P2 ++ [t])).
  { replace (P1 ++ P2 ++ t :: T) with ((P1 ++ P2 ++ [t]) ++ T) by (rewrite <- !app_assoc; reflexivity).
    rewrite firstn_app. replace (length P1 + 1 - length (P1 ++ P2 ++ [t])) with 0.
    - cbn. rewrite app_nil_r. reflexivity.
    - rewrite !app_length. cbn. lia. }
  rewrite F1. f_equal. f_equal.
  - rewrite skipn_app, skipn_all, Nat.sub_diag. cbn [skipn app].
    rewrite firstn_app, firstn_all, Nat.sub_diag. cbn. rewrite app_nil_r. reflexivity.
  - replace (P1 ++ P2 ++ t :: T) with ((P1 ++ P2 ++ [t]) ++ T) by (rewrite <- !app_assoc; reflexivity).
    rewrite skipn_app.
    replace (length P1 + 1 + length P2 - length (P1 ++ P2 ++ [t])) with 0 by (rewrite !app_length; cbn; lia).
    rewrite skipn_all2; [reflexivity|]. rewrite !app_length. cbn. lia.
Qed.

Lemma memmove_wr : forall (P1 P2 T : list neighbor) t nn,
  (do a1 <- memmove_up (P1 ++ P2 ++ t :: T) (length P1) (length P2);
   do a2 <- wr a1 (length P1) nn; Ok (a2, length P1)) =
  Ok (P1 ++ nn :: P2 ++ T, length P1).
Proof.
  intros P1 P2 T t nn. rewrite memmove_up_split. cbn [bind].
  assert (Hlen : length P1 < length (firstn (length P1 + 1) (P1 ++ P2 ++ [t]) ++ P2 ++ T)).
  { rewrite app_length, firstn_length, !app_length. cbn. lia. }
  rewrite wr_ok by exact Hlen. cbn [bind]. f_equal. f_equal.
  destruct (P2 ++ [t]) as [|h tl] eqn:E; [destruct P2; discriminate|].
  replace (firstn (length P1 + 1) (P1 ++ h :: tl)) with (P1 ++ [h]).
  2:{ rewrite firstn_app. rewrite firstn_all2 by lia.
      replace (length P1 + 1 - length P1) with 1 by lia. reflexivity. }
  rewrite <- app_assoc. cbn [app].
  rewrite firstn_app, firstn_all, Nat.sub_diag. cbn [firstn]. rewrite app_nil_r.
  f_equal. f_equal. rewrite skipn_app.
  rewrite skipn_all2 by lia. replace (S (length P1) - length P1) with 1 by lia. reflexivity.
Qed.

Lemma nth_split_firstn : forall (A : Type) (P : list A) k, P = firstn k P ++ skipn k P.
Proof. intros. symmetry. apply firstn_skipn. Qed.

Lemma nth_error_firstn_In : forall (A : Type) (l : list A) k x, In x (firstn k l) ->
  exists i, i < k /\ nth_error l i = Some x.
Proof.
  intros A l. induction l as [|a l IH]; intros k x H.
  - rewrite firstn_nil in H. destruct H.
  - destruct k as [|k]; [destruct H|]. cbn in H. destruct H as [->|H].
    + exists 0. split; [lia|reflexivity].
    + destruct (IH _ _ H) as [i [Hi Hx]]. exists (S i). split; [lia|auto].
Qed.

Lemma nth_error_skipn_In : forall (A : Type) (l : list A) k x, In x (skipn k l) ->
  exists i, k <= i /\ nth_error l i = Some x.
Proof.
  intros A l. induction l as [|a l IH]; intros k x H.
  - rewrite skipn_nil in H. destruct H.
  - destruct k as [|k].
    + apply In_nth_error in H. destruct H as [i Hi]. exists i. split; [lia|auto].
    + cbn in H. destruct (IH _ _ H) as [i [Hi Hx]]. exists (S i). split; [lia|auto].
Qed.

(** ** Insertion of a fresh id *)
Lemma insert_fresh : forall P t T nn,
  P <> [] -> StronglySorted nle P -> (forall z, In z P -> is_nan (ndist z) = false) ->
  is_nan (ndist nn) = false -> (forall z, In z P -> nid z <> nid nn) ->
  exists P1 P2,
    P = P1 ++ P2 /\
    insert_into_pool (P ++ t :: T) (length P) nn = Ok (P1 ++ nn :: P2 ++ T, length P1) /\
    (forall z, In z P1 -> nle z nn) /\ (forall z, In z P2 -> nle nn z).
Proof.
  intros P t T nn Hne Hs Hn Hnn Hid.
  assert (Hlen : 0 < length P) by (destruct P; cbn; [congruence|lia]).
  unfold insert_into_pool.
  destruct (rd_pool P (t :: T) 0) as [x0 [Hx01 Hx02]]; [lia|]. rewrite Hx01. cbn [bind].
  assert (Hx0n : is_nan (ndist x0) = false) by (apply Hn; eapply nth_error_In; eauto).
  destruct (fgt (ndist x0) (ndist nn)) eqn:E0.
  - exists [], P. split; [reflexivity|]. split.
    + exact (memmove_wr [] P T t nn).
    + split; [intros z []|]. intros z Hz. apply In_nth_error in Hz. destruct Hz as [i Hi].
      unfold nle. eapply fle_trans; [apply flt_fle; exact E0|].
      exact (ssorted_nth_le P 0 i x0 z Hs Hn (Nat.le_0_l i) Hx02 Hi).
  - destruct (length P) as [|right0] eqn:EL; [lia|].
    destruct (rd_pool P (t :: T) right0) as [xr [Hxr1 Hxr2]]; [lia|]. rewrite Hxr1. cbn [bind].
    assert (Hxrn : is_nan (ndist xr) = false) by (apply Hn; eapply nth_error_In; eauto).
    destruct (flt (ndist xr) (ndist nn)) eqn:E1.
    + exists P, []. split; [rewrite app_nil_r; reflexivity|]. split.
      * rewrite <- EL. rewrite wr_ok by (rewrite app_length; cbn; lia). cbn [bind].
        f_equal. f_equal. rewrite firstn_app, firstn_all, Nat.sub_diag. cbn [firstn]. rewrite app_nil_r.
        f_equal. f_equal. rewrite skipn_app, skipn_all2 by lia.
        replace (S (length P) - length P) with 1 by lia. reflexivity.
      * split; [|intros z []]. intros z Hz. apply In_nth_error in Hz. destruct Hz as [i Hi].
        unfold nle. eapply fle_trans; [|apply flt_fle; exact E1].
        assert (Hi' : i < length P) by (apply nth_error_Some; congruence).
        apply (ssorted_nth_le P i right0 z xr Hs Hn); auto. lia.
    + destruct (bsearch_ok P (t :: T) nn (S right0) 0 right0 x0 xr) as
        [l [r [yl [yr [Hb [Hlr [Hrl [Hr [Hyl [Hyr [Hle [Hge _]]]]]]]]]]]]; auto; try lia.
      { apply flt_false_fle; auto. }
      { apply flt_false_fle; auto. }
      rewrite Hb. cbn [bind].
      destruct (dup_walk_fresh P (t :: T) nn l) as [l1 [Hw Hl1]]; auto; [lia|].
      rewrite Hw. cbn [bind].
      destruct (rd_pool P (t :: T) l1) as [z1 [Hz11 Hz12]]; [auto|]. rewrite Hz11. cbn [bind].
      destruct (rd_pool P (t :: T) r) as [z2 [Hz21 Hz22]]; [lia|]. rewrite Hz21. cbn [bind].
      assert (Hid1 : nid z1 =? nid nn = false).
      { apply Nat.eqb_neq. apply Hid. eapply nth_error_In; eauto. }
      assert (Hid2 : nid z2 =? nid nn = false).
      { apply Nat.eqb_neq. apply Hid. eapply nth_error_In; eauto. }
      rewrite Hid1, Hid2. cbn [orb].
      assert (Lf : length (firstn r P) = r) by (rewrite firstn_length; lia).
      exists (firstn r P), (skipn r P). split; [apply nth_split_firstn|]. split.
      * rewrite (nth_split_firstn _ P r) at 1. rewrite <- app_assoc.
        replace (S right0 - r) with (length (skipn r P)) by (rewrite skipn_length; lia).
        pose proof (memmove_wr (firstn r P) (skipn r P) T t nn) as HM.
        rewrite Lf in HM. rewrite Lf. exact HM.
      * split.
        -- intros z Hz. apply nth_error_firstn_In in Hz. destruct Hz as [i [Hi Hz]].
           unfold nle. eapply fle_trans; [|exact Hle].
           apply (ssorted_nth_le P i l z yl Hs Hn); auto. lia.
        -- intros z Hz. apply nth_error_skipn_In in Hz. destruct Hz as [i [Hi Hz]].
           unfold nle. eapply fle_trans; [exact Hge|].
           apply (ssorted_nth_le P r i yr z Hs Hn); auto.
Qed.

(** ** Insertion of an id that is already there *)
Lemma dup_walk_bound : forall P T nn left, left < length P ->
  dup_walk (P ++ T) nn left = Ok None \/
  exists l, dup_walk (P ++ T) nn left = Ok (Some l) /\ l <= left.
Proof.
  intros P T nn left. induction left as [|left IH]; intros Hl.
  - right. exists 0. split; auto.
  - cbn [dup_walk]. destruct (rd_pool P T (S left)) as [x [Hx1 Hx2]]; [lia|].
    rewrite Hx1. cbn [bind]. destruct (flt (ndist x) (ndist nn)).
    + right. exists (S left). split; auto.
    + destruct (nid x =? nid nn); [left; reflexivity|].
      destruct IH as [IH|[l [IH Hle]]]; [lia|left; auto|]. right. exists l. split; auto.
Qed.

Lemma dup_walk_dup : forall P T nn left i z,
  StronglySorted nle P -> (forall y, In y P -> is_nan (ndist y) = false) ->
  nth_error P i = Some z -> nid z = nid nn -> fle (ndist nn) (ndist z) = true ->
  i <= left -> left < length P ->
  dup_walk (P ++ T) nn left = Ok None \/ (dup_walk (P ++ T) nn left = Ok (Some 0) /\ i = 0).
Proof.
  intros P T nn left i z Hs Hn Hz Hid Hge. induction left as [|left IH]; intros Hi Hl.
  - right. split; [reflexivity|lia].
  - cbn [dup_walk]. destruct (rd_pool P T (S left)) as [x [Hx1 Hx2]]; [lia|].
    rewrite Hx1. cbn [bind].
    assert (Hzx : nle z x) by (apply (ssorted_nth_le P i (S left) z x Hs Hn); auto).
    assert (Hnx : flt (ndist x) (ndist nn) = false).
    { apply fle_flt_false. eapply fle_trans; [exact Hge|exact Hzx]. }
    rewrite Hnx. destruct (nid x =? nid nn) eqn:E; [left; reflexivity|].
    apply IH; [|lia]. destruct (Nat.eq_dec i (S left)) as [->|]; [|lia].
    assert (x = z) by congruence. subst. apply Nat.eqb_neq in E. congruence.
Qed.

Lemma insert_dup : forall P t T nn z,
  StronglySorted nle P -> (forall y, In y P -> is_nan (ndist y) = false) ->
  In z P -> nid z = nid nn -> feq (ndist z) (ndist nn) = true ->
  insert_into_pool (P ++ t :: T) (length P) nn = Ok (P ++ t :: T, length P + 1).
Proof.
  intros P t T nn z Hs Hn Hin Hid Heq.
  assert (Hnn : is_nan (ndist nn) = false).
  { unfold feq, SpecFloat.SFeqb in Heq. destruct (ndist nn); auto. destruct (ndist z); discriminate Heq. }
  assert (Hle1 : fle (ndist z) (ndist nn) = true).
  { unfold feq, fle, SpecFloat.SFeqb, SpecFloat.SFleb in *.
    destruct (SpecFloat.SFcompare (ndist z) (ndist nn)) as [[]|]; auto; discriminate. }
  assert (Hle2 : fle (ndist nn) (ndist z) = true).
  { apply flt_false_fle; auto. unfold feq, flt, SpecFloat.SFeqb, SpecFloat.SFltb in *.
    destruct (SpecFloat.SFcompare (ndist z) (ndist nn)) as [[]|]; auto; discriminate. }
  apply In_nth_error in Hin. destruct Hin as [i Hz].
  assert (Hi : i < length P) by (apply nth_error_Some; congruence).
  unfold insert_into_pool.
  destruct (rd_pool P (t :: T) 0) as [x0 [Hx01 Hx02]]; [lia|]. rewrite Hx01. cbn [bind].
  assert (Hx0n : is_nan (ndist x0) = false) by (apply Hn; eapply nth_error_In; eauto).
  assert (E0 : fgt (ndist x0) (ndist nn) = false).
  { apply fle_flt_false. eapply fle_trans; [|exact Hle1].
    apply (ssorted_nth_le P 0 i x0 z Hs Hn); auto. lia. }
  rewrite E0. destruct (length P) as [|right0] eqn:EL; [lia|].
  destruct (rd_pool P (t :: T) right0) as [xr [Hxr1 Hxr2]]; [lia|]. rewrite Hxr1. cbn [bind].
  assert (Hxrn : is_nan (ndist xr) = false) by (apply Hn; eapply nth_error_In; eauto).
  assert (E1 : flt (ndist xr) (ndist nn) = false).
  { apply fle_flt_false. eapply fle_trans; [exact Hle2|].
    apply (ssorted_nth_le P i right0 z xr Hs Hn); auto. lia. }
  rewrite E1.
  destruct (bsearch_ok P (t :: T) nn (S right0) 0 right0 x0 xr) as
    [l [r [yl [yr [Hb [Hlr [Hrl [Hr [Hyl [Hyr [Hle [Hge Hlast]]]]]]]]]]]]; auto; try lia.
  { apply flt_false_fle; auto. }
  { apply flt_false_fle; auto. }
  rewrite Hb. cbn [bind].
  destruct (le_lt_dec i l) as [Hil|Hil].
  - destruct (dup_walk_dup P (t :: T) nn l i z Hs Hn Hz Hid Hle2 Hil) as [Hw|[Hw ->]]; [lia| |];
      rewrite Hw; cbn [bind]; [reflexivity|].
    assert (x0 = z) by congruence. subst. rewrite Hx01. cbn [bind].
    destruct (rd_pool P (t :: T) r) as [z2 [Hz21 Hz22]]; [lia|]. rewrite Hz21. cbn [bind].
    apply Nat.eqb_eq in Hid. rewrite Hid. reflexivity.
  - assert (i = r).
    { destruct (Nat.eq_dec i r) as [|Hne]; auto. exfalso.
      assert (Hri : r < i) by lia.
      destruct Hlast as [Hlast|Hlast]; [lia|].
      assert (nle yr z) by (apply (ssorted_nth_le P r i yr z Hs Hn); auto; lia).
      assert (flt (ndist nn) (ndist nn) = true).
      { eapply flt_fle_trans; [exact Hlast|]. eapply fle_trans; [exact H|exact Hle1]. }
      rewrite flt_irrefl in *. discriminate. }
    subst i. assert (yr = z) by congruence. subst yr.
    destruct (dup_walk_bound P (t :: T) nn l) as [Hw|[l1 [Hw Hl1]]]; [lia| |];
      rewrite Hw; cbn [bind]; [reflexivity|].
    destruct (rd_pool P (t :: T) l1) as [z1 [Hz11 Hz12]]; [lia|]. rewrite Hz11. cbn [bind].
    destruct (rd_pool P (t :: T) r) as [z2 [Hz21 Hz22]]; [lia|]. rewrite Hz21. cbn [bind].
    assert (z2 = z) by congruence. subst z2.
    apply Nat.eqb_eq in Hid. rewrite Hid, orb_true_r. reflexivity.
Qed.

Lemma insert_empty : forall t T nn, fgt (ndist t) (ndist nn) = true ->
  insert_into_pool (t :: T) 0 nn = Ok (nn :: T, 0).
Proof.
  intros t T nn H. unfold insert_into_pool, rd. cbn [nth_error bind]. rewrite H. reflexivity.
Qed.

(** ** One candidate *)
Definition pool_wf (dist : nat -> f32) (m : nat) (st : pool_state) : Prop :=
  1 <= m /\ length (p_arr st) = m + 1 /\ p_cur st <= m /\
  StronglySorted nle (pool_entries st) /\
  (forall z, In z (pool_entries st) ->
     is_nan (ndist z) = false /\ ndist z = dist (nid z) /\ In (nid z) (p_ins st)).

Lemma pool_entries_length : forall dist m st, pool_wf dist m st -> length (pool_entries st) = p_cur st.
Proof.
  intros dist m st [H1 [H2 [H3 _]]]. unfold pool_entries. rewrite firstn_length. lia.
Qed.

Lemma pool_arr_split : forall dist m st, pool_wf dist m st ->
  exists t T, p_arr st = pool_entries st ++ t :: T.
Proof.
  intros dist m st [H1 [H2 [H3 _]]]. unfold pool_entries.
  destruct (skipn (p_cur st) (p_arr st)) as [|t T] eqn:E.
  - apply (f_equal (@length neighbor)) in E. rewrite skipn_length in E. cbn in E. lia.
  - exists t, T. rewrite <- E. symmetry. apply firstn_skipn.
Qed.

Lemma set_mem_In : forall x s, set_mem x s = true <-> In x s.
Proof.
  intros x s. unfold set_mem. rewrite existsb_exists. split.
  - intros [y [Hy E]]. apply Nat.eqb_eq in E. subst. auto.
  - intros H. exists x. split; auto. apply Nat.eqb_refl.
Qed.

Lemma set_mem_not_In : forall x s, set_mem x s = false <-> ~ In x s.
Proof.
  intros x s. rewrite <- set_mem_In. destruct (set_mem x s); split; congruence.
Qed.

(** The three things an iteration can do. *)
Inductive one_rel (dist : nat -> f32) (m : nat) (st : pool_state) (id : nat) (b : bool) : pool_state -> Prop :=
| one_skip : (b = false \/ In id (p_ins st)) -> one_rel dist m st id b st
| one_far : b = true -> ~ In id (p_ins st) -> p_cur st = m ->
    (forall z, In z (pool_entries st) -> fle (ndist z) (dist id) = true) ->
    one_rel dist m st id b (mkP (p_arr st) (p_cur st) (id :: p_ins st) (S (p_cmps st)) (p_best st))
| one_ins : forall P1 P2 arr' cur',
    b = true -> ~ In id (p_ins st) ->
    pool_entries st = P1 ++ P2 ->
    (forall z, In z P1 -> fle (ndist z) (dist id) = true) ->
    (forall z, In z P2 -> fle (dist id) (ndist z) = true) ->
    length P1 < m ->
    length arr' = m + 1 ->
    cur' = min m (S (p_cur st)) ->
    firstn cur' arr' = firstn m (P1 ++ mkN id (dist id) true :: P2) ->
    one_rel dist m st id b
      (mkP arr' cur' (id :: p_ins st) (S (p_cmps st)) (min (length P1) (p_best st))).

Lemma firstn_app_le : forall (A : Type) (l1 l2 : list A) k, k <= length l1 -> firstn k (l1 ++ l2) = firstn k l1.
Proof.
  intros A l1 l2 k H. rewrite firstn_app. replace (k - length l1) with 0 by lia. cbn.
  apply app_nil_r.
Qed.

Lemma last_le_all : forall P x, StronglySorted nle P -> (forall z, In z P -> is_nan (ndist z) = false) ->
  nth_error P (length P - 1) = Some x -> forall z, In z P -> nle z x.
Proof.
  intros P x Hs Hn Hx z Hz. apply In_nth_error in Hz. destruct Hz as [i Hi].
  assert (i < length P) by (apply nth_error_Some; congruence).
  apply (ssorted_nth_le P i (length P - 1) z x Hs Hn); auto. lia.
Qed.

Lemma process_one_spec : forall n dist accept m st id b,
  pool_wf dist m st -> accept id = Ok b ->
  (b = true -> ~ In id (p_ins st) -> id < n /\ is_nan (dist id) = false /\
     (p_cur st = 0 -> exists x, nth_error (p_arr st) 0 = Some x /\ flt (dist id) (ndist x) = true)) ->
  exists st', process_one n dist accept m st id = Ok st' /\ one_rel dist m st id b st'.
Proof.
  intros n dist accept m st id b Hwf Hacc Hid. unfold process_one. rewrite Hacc. cbn [bind].
  destruct b; cbn [negb].
  2:{ exists st. split; auto. constructor. auto. }
  destruct (set_mem id (p_ins st)) eqn:Eins.
  { exists st. split; auto. constructor. right. apply set_mem_In. auto. }
  apply set_mem_not_In in Eins.
  destruct (Hid eq_refl Eins) as [Hn [Hnan H0]]. clear Hid.
  assert (En : id <? n = true) by (apply Nat.ltb_lt; auto). rewrite En. cbn [bind].
  pose proof (pool_entries_length _ _ _ Hwf) as Hlen.
  destruct (pool_arr_split _ _ _ Hwf) as [t [T Harr]].
  assert (Hwf' := Hwf). destruct Hwf' as [Hm [Hal [Hcm [Hs He]]]].
  assert (Hnn : forall z, In z (pool_entries st) -> is_nan (ndist z) = false) by (intros; apply He; auto).
  set (nn := mkN id (dist id) true).
  destruct (0 <? p_cur st) eqn:Ecur.
  - apply Nat.ltb_lt in Ecur.
    destruct (rd_pool (pool_entries st) (t :: T) (p_cur st - 1)) as [w [Hw1 Hw2]]; [lia|].
    rewrite <- Harr in Hw1. rewrite Hw1. cbn [bind].
    destruct (fge (dist id) (ndist w) && (p_cur st =? m)) eqn:Esk.
    + apply andb_true_iff in Esk. destruct Esk as [Ege Em]. apply Nat.eqb_eq in Em.
      eexists. split; [reflexivity|]. apply one_far; auto.
      intros z Hz. eapply fle_trans; [|exact Ege].
      apply (last_le_all (pool_entries st) w Hs Hnn); auto. rewrite Hlen. auto.
    + destruct (insert_fresh (pool_entries st) t T nn) as [P1 [P2 [HP [Hins [HP1 HP2]]]]]; auto.
      { intros C. rewrite C in Hlen. cbn in Hlen. lia. }
      { intros z Hz. cbn. intros C. apply Eins. rewrite <- C. apply He. auto. }
      rewrite <- Harr in Hins. rewrite Hlen in Hins. rewrite Hins. cbn [bind].
      eexists. split; [reflexivity|].
      assert (HPl : length P1 + length P2 = p_cur st).
      { rewrite <- Hlen, HP, app_length. reflexivity. }
      assert (HTl : p_cur st + S (length T) = m + 1).
      { rewrite <- Hal, Harr, app_length, Hlen. cbn. lia. }
      replace (if length P1 <? p_best st then length P1 else p_best st) with (min (length P1) (p_best st)).
      2:{ destruct (length P1 <? p_best st) eqn:E; [apply Nat.ltb_lt in E|apply Nat.ltb_ge in E]; lia. }
      replace (if p_cur st <? m then S (p_cur st) else p_cur st) with (min m (S (p_cur st))).
      2:{ destruct (p_cur st <? m) eqn:E; [apply Nat.ltb_lt in E|apply Nat.ltb_ge in E]; lia. }
      apply (one_ins dist m st id true P1 P2); auto.
      * destruct (Nat.eq_dec (p_cur st) m) as [Em|]; [|lia].
        apply andb_false_iff in Esk. rewrite Em, Nat.eqb_refl in Esk.
        destruct Esk as [Esk|]; [|discriminate].
        destruct P2 as [|y P2]; [|cbn in HPl; lia]. exfalso.
        rewrite app_nil_r in HP. rewrite HP in Hw2.
        assert (In w P1) by (eapply nth_error_In; eauto).
        apply HP1 in H. unfold nle in H. cbn in H. unfold fge in *. unfold fle in *. congruence.
      * rewrite app_length. cbn. rewrite app_length. lia.
      * replace (P1 ++ nn :: P2 ++ T) with ((P1 ++ nn :: P2) ++ T) by (rewrite <- app_assoc; reflexivity).
        rewrite firstn_app_le.
        2:{ rewrite app_length. cbn. lia. }
        destruct (le_lt_dec m (p_cur st)) as [Hc|Hc].
        -- replace (min m (S (p_cur st))) with m by lia. reflexivity.
        -- rewrite !firstn_all2; auto; rewrite app_length; cbn; lia.
  - apply Nat.ltb_ge in Ecur. cbn [bind]. assert (Ec0 : p_cur st = 0) by lia.
    destruct (H0 Ec0) as [x [Hx Hlt]].
    assert (HE : pool_entries st = []) by (unfold pool_entries; rewrite Ec0; reflexivity).
    rewrite HE in Harr. cbn in Harr. rewrite Harr in Hx. cbn in Hx. inversion Hx; subst x.
    rewrite Harr, Ec0. rewrite (insert_empty t T nn); auto. cbn [bind].
    eexists. split; [reflexivity|].
    assert (E1 : 0 <? m = true) by (apply Nat.ltb_lt; lia). rewrite E1.
    replace (if 0 <? p_best st then 0 else p_best st) with (min (@length neighbor []) (p_best st)).
    2:{ destruct (0 <? p_best st) eqn:E; [apply Nat.ltb_lt in E|apply Nat.ltb_ge in E]; cbn; lia. }
    apply (one_ins dist m st id true [] []); auto; try (intros z []).
    + rewrite <- Hal, Harr. reflexivity.
    + lia.
    + destruct m; [lia|]. cbn. rewrite firstn_nil. reflexivity.
Qed.

(** ** Preservation *)
Lemma ssorted_firstn : forall (A : Type) (R : A -> A -> Prop) k l, StronglySorted R l -> StronglySorted R (firstn k l).
Proof.
  intros A R k l H. rewrite <- (firstn_skipn k l) in H. apply ssorted_app in H. tauto.
Qed.

Lemma insert_sorted : forall P1 P2 x, StronglySorted nle (P1 ++ P2) ->
  (forall z, In z P1 -> nle z x) -> (forall z, In z P2 -> nle x z) ->
  StronglySorted nle (P1 ++ x :: P2).
Proof.
  intros P1 P2 x Hs H1 H2. apply ssorted_app in Hs. destruct Hs as [A [B C]].
  apply ssorted_app. repeat split; auto.
  - constructor; auto. apply Forall_forall. auto.
  - intros y z Hy [<-|Hz]; auto.
Qed.

Lemma In_firstn : forall (A : Type) k (l : list A) x, In x (firstn k l) -> In x l.
Proof.
  intros A k l x H. rewrite <- (firstn_skipn k l). apply in_or_app. auto.
Qed.

Lemma one_rel_wf : forall dist m st id b st',
  pool_wf dist m st -> is_nan (dist id) = false -> one_rel dist m st id b st' -> pool_wf dist m st'.
Proof.
  intros dist m st id b st' Hwf Hnan H. pose proof (pool_entries_length _ _ _ Hwf) as Hlen.
  destruct Hwf as [Hm [Hal [Hcm [Hs He]]]]. destruct H as [H|Hb Hni Hc Hall|P1 P2 arr' cur' Hb Hni HP H1 H2 Hl Hla Hcur Hf].
  - repeat split; auto; apply He; auto.
  - repeat split; auto; cbn; try right; apply He; auto.
  - split; [auto|]. split; [auto|]. split; [cbn; lia|].
    unfold pool_entries at 1 2. cbn [p_arr p_cur p_ins]. rewrite Hf.
    rewrite HP in Hs. split.
    + apply ssorted_firstn. apply insert_sorted; auto.
    + intros z Hz. apply In_firstn in Hz. apply in_app_or in Hz. cbn in Hz.
      destruct Hz as [Hz|[<-|Hz]].
      * destruct (He z) as [A [B C]]; [rewrite HP; apply in_or_app; auto|]. cbn; auto.
      * cbn. auto.
      * destruct (He z) as [A [B C]]; [rewrite HP; apply in_or_app; auto|]. cbn; auto.
Qed.

(** ** The k nearest *)
Lemma top_k_perm : forall k c c' out, Permutation c c' -> is_top_k k c out -> is_top_k k c' out.
Proof.
  intros k c c' out HP [rest [A [B [C D]]]]. exists rest. repeat split; auto.
  - rewrite <- HP. auto.
  - rewrite <- (Permutation_length HP). auto.
Qed.

Lemma top_k_far : forall k c out x, is_top_k k c out -> length out = k ->
  (forall y, In y out -> no_farther y x) -> is_top_k k (x :: c) out.
Proof.
  intros k c out x [rest [A [B [C D]]]] Hk Hx. exists (x :: rest). repeat split; auto.
  - rewrite A. apply Permutation_middle.
  - cbn. lia.
  - intros y z Hy [<-|Hz]; auto.
Qed.

Lemma top_k_insert : forall k c O1 O2 x, is_top_k k c (O1 ++ O2) ->
  (forall y, In y O1 -> no_farther y x) -> (forall y, In y O2 -> no_farther x y) ->
  length O1 < k ->
  is_top_k k (x :: c) (firstn k (O1 ++ x :: O2)).
Proof.
  intros k c O1 O2 x [rest [A [B [C D]]]] H1 H2 Hk.
  exists (skipn k (O1 ++ x :: O2) ++ rest).
  apply ssorted_app in C. destruct C as [C1 [C2 C3]].
  assert (HS : by_distance (O1 ++ x :: O2)).
  { apply ssorted_app. repeat split; auto.
    - constructor; auto. apply Forall_forall. auto.
    - intros y z Hy [<-|Hz]; auto. }
  repeat split.
  - rewrite app_assoc, firstn_skipn. rewrite A. rewrite <- !app_assoc. cbn. apply Permutation_middle.
  - rewrite firstn_length. cbn [length]. apply Permutation_length in A.
    rewrite !app_length in *. cbn [length]. lia.
  - apply ssorted_firstn. auto.
  - intros y z Hy Hz. apply in_app_or in Hz. destruct Hz as [Hz|Hz].
    + rewrite <- (firstn_skipn k (O1 ++ x :: O2)) in HS. apply ssorted_app in HS.
      destruct HS as [_ [_ HS]]. auto.
    + (* left out earlier: then the pool was full *)
      assert (Hfull : length (O1 ++ O2) = k).
      { apply Permutation_length in A. rewrite app_length in A.
        assert (0 < length rest) by (destruct rest; cbn; [destruct Hz|lia]). lia. }
      apply In_firstn in Hy. apply in_app_or in Hy. destruct Hy as [Hy|[<-|Hy]].
      * apply D; auto. apply in_or_app. auto.
      * destruct O2 as [|w O2]; [rewrite app_nil_r in Hfull; lia|].
        unfold no_farther. eapply fle_trans; [apply (H2 w); left; auto|].
        apply D; auto. apply in_or_app. right. left. auto.
      * apply D; auto. apply in_or_app. auto.
Qed.

(** [c0] ids were inserted without being counted as comparisons. *)
Definition pool_top (dist : nat -> f32) (m c0 : nat) (st : pool_state) : Prop :=
  NoDup (p_ins st) /\ p_cmps st + c0 = length (p_ins st) /\
  is_top_k m (score dist (p_ins st)) (map nkey (pool_entries st)).

Lemma one_rel_top : forall dist m c0 st id b st',
  pool_wf dist m st -> pool_top dist m c0 st -> one_rel dist m st id b st' -> pool_top dist m c0 st'.
Proof.
  intros dist m c0 st id b st' Hwf [Hnd [Hcm Ht]] H. pose proof (pool_entries_length _ _ _ Hwf) as Hlen.
  destruct Hwf as [Hm [Hal [Hcur0 [Hs He]]]].
  destruct H as [H|Hb Hni Hc Hall|P1 P2 arr' cur' Hb Hni HP H1 H2 Hl Hla Hcur Hf].
  - repeat split; auto.
  - repeat split; cbn [p_ins p_cmps length]; auto; try lia.
    + constructor; auto.
    + apply top_k_far; auto.
      * rewrite map_length. unfold pool_entries in *. cbn [p_cur p_arr]. lia.
      * intros y Hy. unfold pool_entries in Hy. cbn [p_cur p_arr] in Hy.
        apply in_map_iff in Hy. destruct Hy as [z [<- Hz]]. apply Hall. auto.
  - repeat split; cbn [p_ins p_cmps length]; auto; try lia.
    + constructor; auto.
    + unfold pool_entries. cbn [p_cur p_arr]. rewrite Hf. rewrite <- firstn_map, map_app. cbn [map].
      cbn [score map]. change (nkey (mkN id (dist id) true)) with (id, dist id).
      apply top_k_insert.
      * rewrite <- map_app, <- HP. auto.
      * intros y Hy. apply in_map_iff in Hy. destruct Hy as [z [<- Hz]]. apply H1. auto.
      * intros y Hy. apply in_map_iff in Hy. destruct Hy as [z [<- Hz]]. apply H2. auto.
      * rewrite map_length. auto.
Qed.

(** ** Whole candidate lists *)

(** What has been inserted after a list: the accepted ids, once each. *)
Lemma one_rel_ins : forall dist m st id b st', one_rel dist m st id b st' ->
  forall x, In x (p_ins st') <-> In x (p_ins st) \/ (b = true /\ x = id).
Proof.
  intros dist m st id b st' H x. destruct H as [H|Hb Hni Hc Hall|P1 P2 arr' cur' Hb Hni HP H1 H2 Hl Hla Hcur Hf]; cbn.
  - split; [tauto|]. intros [Hx|[-> ->]]; auto. destruct H; [discriminate|auto].
  - split; [intros [<-|Hx]; auto|]. intros [Hx|[_ ->]]; auto.
  - split; [intros [<-|Hx]; auto|]. intros [Hx|[_ ->]]; auto.
Qed.

Lemma one_rel_best : forall dist m st id b st', one_rel dist m st id b st' -> p_best st' <= p_best st.
Proof. intros dist m st id b st' H. destruct H; cbn; lia. Qed.

(** The first slot before anything is inserted. *)
Definition first_ok (dist : nat -> f32) (acc : nat -> bool) (st : pool_state) (l : list nat) : Prop :=
  p_cur st = 0 ->
  match filter acc l with
  | [] => True
  | id :: _ => exists x, nth_error (p_arr st) 0 = Some x /\ flt (dist id) (ndist x) = true
  end.

(** The state after a list is determined up to the order of ties, and is reached
    through a chain of iterations. *)
Inductive loop_rel (dist : nat -> f32) (m : nat) (acc : nat -> bool) : pool_state -> list nat -> pool_state -> Prop :=
| loop_nil : forall st, loop_rel dist m acc st [] st
| loop_cons : forall st id rest st1 st2,
    one_rel dist m st id (acc id) st1 -> loop_rel dist m acc st1 rest st2 ->
    loop_rel dist m acc st (id :: rest) st2.

Lemma one_rel_cur : forall dist m st id st', 1 <= m -> (p_ins st = [] <-> p_cur st = 0) ->
  forall b, one_rel dist m st id b st' -> (p_ins st' = [] <-> p_cur st' = 0).
Proof.
  intros dist m st id st' Hm Hi b H. destruct H as [H|Hb Hni Hc Hall|P1 P2 arr' cur' Hb Hni HP H1 H2 Hl Hla Hcur Hf]; auto; cbn.
  - split; [discriminate|]. lia.
  - split; [discriminate|]. lia.
Qed.

Lemma process_loop_spec : forall n dist accept acc m l st,
  pool_wf dist m st ->
  (p_ins st = [] <-> p_cur st = 0) ->
  (forall id, In id l -> accept id = Ok (acc id)) ->
  (forall id, In id l -> acc id = true -> id < n) ->
  (forall id, is_nan (dist id) = false) ->
  first_ok dist acc st l ->
  exists st', process_loop n dist accept m st l = Ok st' /\ loop_rel dist m acc st l st'.
Proof.
  intros n dist accept acc m l. induction l as [|id l IH]; intros st Hwf H0 Hacc Hn Hnan Hf.
  - exists st. split; [reflexivity|constructor].
  - cbn [process_loop].
    destruct (process_one_spec n dist accept m st id (acc id)) as [st1 [Hst1 Hrel]]; auto.
    + apply Hacc. left. auto.
    + intros Hb Hni. split; [apply Hn; [left|]; auto|]. split; [auto|]. intros Hc.
      specialize (Hf Hc). cbn [filter] in Hf. rewrite Hb in Hf. exact Hf.
    + rewrite Hst1. cbn [bind].
      destruct (IH st1) as [st2 [Hst2 Hrel2]].
      * eapply one_rel_wf; eauto.
      * destruct Hwf as [Hm _]. exact (one_rel_cur dist m st id st1 Hm H0 _ Hrel).
      * intros; apply Hacc; right; auto.
      * intros; apply Hn; auto; right; auto.
      * auto.
      * intros Hc1. destruct Hwf as [Hm _].
        assert (E1 : p_ins st1 = []) by (apply (one_rel_cur dist m st id st1 Hm H0 _ Hrel); auto).
        destruct Hrel as [H|Hb Hni Hc Hall|P1 P2 arr' cur' Hb Hni HP H1 H2 Hl Hla Hcur Hfi]; try discriminate.
        specialize (Hf Hc1). cbn [filter] in Hf. destruct H as [Hb|Hin].
        -- rewrite Hb in Hf. exact Hf.
        -- rewrite E1 in Hin. destruct Hin.
      * exists st2. split; auto. econstructor; eauto.
Qed.

Lemma loop_rel_wf : forall dist m acc l st st', (forall id, is_nan (dist id) = false) ->
  pool_wf dist m st -> loop_rel dist m acc st l st' -> pool_wf dist m st'.
Proof.
  intros dist m acc l st st' Hnan Hwf H. induction H; auto. apply IHloop_rel. eapply one_rel_wf; eauto.
Qed.

Lemma loop_rel_top : forall dist m c0 acc l st st', (forall id, is_nan (dist id) = false) ->
  pool_wf dist m st -> pool_top dist m c0 st -> loop_rel dist m acc st l st' -> pool_top dist m c0 st'.
Proof.
  intros dist m c0 acc l st st' Hnan Hwf Ht H. induction H; auto. apply IHloop_rel.
  - eapply one_rel_wf; eauto.
  - eapply one_rel_top; eauto.
Qed.

Lemma loop_rel_ins : forall dist m acc l st st', loop_rel dist m acc st l st' ->
  forall x, In x (p_ins st') <-> In x (p_ins st) \/ (In x l /\ acc x = true).
Proof.
  intros dist m acc l st st' H. induction H; intros x.
  - cbn. tauto.
  - rewrite IHloop_rel. rewrite (one_rel_ins _ _ _ _ _ _ H). cbn. split.
    + intros [[A|[A ->]]|[A B]]; auto.
    + intros [A|[[->|A] B]]; auto.
Qed.

Lemma loop_rel_best : forall dist m acc l st st', loop_rel dist m acc st l st' -> p_best st' <= p_best st.
Proof.
  intros dist m acc l st st' H. induction H; auto. apply one_rel_best in H. lia.
Qed.

Lemma loop_rel_cur : forall dist m acc l st st', 1 <= m -> (p_ins st = [] <-> p_cur st = 0) ->
  loop_rel dist m acc st l st' -> (p_ins st' = [] <-> p_cur st' = 0).
Proof.
  intros dist m acc l st st' Hm H0 H. induction H; auto. apply IHloop_rel. eapply one_rel_cur; eauto.
Qed.

(** Entries keep their id and distance; resetting [p_best] changes nothing else. *)
Definition with_best (st : pool_state) (b : nat) : pool_state :=
  mkP (p_arr st) (p_cur st) (p_ins st) (p_cmps st) b.

Lemma with_best_wf : forall dist m st b, pool_wf dist m st -> pool_wf dist m (with_best st b).
Proof. intros dist m st b H. exact H. Qed.

Lemma with_best_top : forall dist m c0 st b, pool_top dist m c0 st -> pool_top dist m c0 (with_best st b).
Proof. intros dist m c0 st b H. exact H. Qed.

Lemma empty_pool_wf : forall dist m, 1 <= m -> pool_wf dist m (empty_pool m).
Proof.
  intros dist m Hm. unfold pool_wf, empty_pool, pool_entries. cbn [p_arr p_cur p_ins].
  rewrite repeat_length. repeat split; try lia; try (cbn; constructor);
  try (cbn in H; destruct H).
Qed.

Lemma empty_pool_top : forall dist m, pool_top dist m 0 (empty_pool m).
Proof.
  intros dist m. split; [constructor|]. split; [reflexivity|]. exists []. cbn.
  rewrite Nat.min_0_r. repeat split; try constructor. intros x y [].
Qed.

Lemma first_ok_empty : forall dist acc m l,
  match filter acc l with [] => True | id :: _ => flt (dist id) FLT_MAX = true end ->
  first_ok dist acc (empty_pool m) l.
Proof.
  intros dist acc m l H _. destruct (filter acc l) as [|id t]; auto.
  exists default_neighbor. split; auto. cbn. replace (m + 1) with (S m) by lia. reflexivity.
Qed.

Lemma feed_spec : forall n dist accept acc m c0 batches st,
  pool_wf dist m st -> pool_top dist m c0 st ->
  (p_ins st = [] <-> p_cur st = 0) ->
  (forall id, In id (concat batches) -> accept id = Ok (acc id)) ->
  (forall id, In id (concat batches) -> acc id = true -> id < n) ->
  (forall id, is_nan (dist id) = false) ->
  first_ok dist acc st (concat batches) ->
  exists st', feed n dist accept m st batches = Ok st' /\
    pool_wf dist m st' /\ pool_top dist m c0 st' /\
    (forall x, In x (p_ins st') <-> In x (p_ins st) \/ (In x (concat batches) /\ acc x = true)).
Proof.
  intros n dist accept acc m c0 batches. induction batches as [|b bs IH]; intros st Hwf Ht H0 Hacc Hn Hnan Hf.
  - exists st. cbn. repeat split; auto; try tauto; try apply Hwf; try apply Ht; auto; destruct Hwf as [? [? [? [? ?]]]]; firstorder.
  - cbn [feed]. unfold process_candidates. fold (with_best st m).
    cbn [concat] in *.
    destruct (process_loop_spec n dist accept acc m b (with_best st m)) as [st1 [Hst1 Hrel]]; auto.
    + intros id Hid. apply Hacc. apply in_or_app. auto.
    + intros id Hid. apply Hn. apply in_or_app. auto.
    + intros Hc. specialize (Hf Hc). rewrite filter_app in Hf. cbn [with_best p_arr].
      destruct (filter acc b); auto.
    + rewrite Hst1. cbn [bind].
      assert (Hm : 1 <= m) by (destruct Hwf; auto).
      assert (Hcur1 : p_ins st1 = [] <-> p_cur st1 = 0) by (exact (loop_rel_cur dist m acc b (with_best st m) st1 Hm H0 Hrel)).
      destruct (IH st1) as [st2 [Hst2 [W2 [T2 I2]]]]; auto.
      * eapply loop_rel_wf; [auto| |exact Hrel]. auto.
      * eapply loop_rel_top; [auto| | |exact Hrel]; auto.
      * intros id Hid. apply Hacc. apply in_or_app. auto.
      * intros id Hid. apply Hn. apply in_or_app. auto.
      * intros Hc1. assert (E1 : p_ins st1 = []) by (apply Hcur1; auto).
        assert (Hnone : filter acc b = []).
        { destruct (filter acc b) as [|y ys] eqn:E; auto. exfalso.
          assert (Hy : In y (filter acc b)) by (rewrite E; left; auto).
          apply filter_In in Hy. assert (H : In y (p_ins st1)) by (apply (loop_rel_ins _ _ _ _ _ _ Hrel); right; tauto).
          rewrite E1 in *. destruct H. }
        assert (E0 : p_ins st = []).
        { destruct (p_ins st) as [|y ys] eqn:E; auto. exfalso.
          assert (H : In y (p_ins st1)) by (apply (loop_rel_ins _ _ _ _ _ _ Hrel); left; cbn; rewrite E; left; auto).
          rewrite E1 in *. destruct H. }
        specialize (Hf (proj1 H0 E0)). rewrite filter_app, Hnone in Hf. cbn [app] in Hf.
        assert (Earr : p_arr st1 = p_arr st).
        { clear - Hrel Hnone E1. change (p_arr st) with (p_arr (with_best st m)).
          remember (with_best st m) as s eqn:Es. clear Es.
          induction Hrel as [|s id rest s1 s2 H1 H2 IH]; auto.
          assert (Ei : p_ins s1 = []).
          { destruct (p_ins s1) as [|y ys] eqn:E; auto. exfalso.
            assert (H : In y (p_ins s2)) by (apply (loop_rel_ins _ _ _ _ _ _ H2); left; rewrite E; left; auto).
            rewrite E1 in *. destruct H. }
          cbn [filter] in Hnone. destruct (acc id) eqn:Ea; [discriminate|].
          destruct H1; try discriminate. auto. }
        rewrite Earr. exact Hf.
      * exists st2. split; [exact Hst2|]. split; [exact W2|]. split; [exact T2|].
        intros x. rewrite I2. rewrite (loop_rel_ins _ _ _ _ _ _ Hrel). cbn [with_best p_ins].
        rewrite in_app_iff. tauto.
Qed.

(** Positions before the best inserted one are not touched, and new entries are
    fresh and unexpanded. *)
Lemma one_rel_prefix : forall dist m st id b st', one_rel dist m st id b st' ->
  forall i, i < p_best st' -> nth_error (pool_entries st') i = nth_error (pool_entries st) i.
Proof.
  intros dist m st id b st' H i Hi.
  destruct H as [H|Hb Hni Hc Hall|P1 P2 arr' cur' Hb Hni HP H1 H2 Hl Hla Hcur Hf]; auto.
  cbn [p_best] in Hi. unfold pool_entries at 1. cbn [p_arr p_cur]. rewrite Hf, HP.
  assert (Hi1 : i < length P1) by lia.
  rewrite nth_error_app1 by auto.
  rewrite <- (firstn_skipn m (P1 ++ _)) in Hf.
  transitivity (nth_error (P1 ++ mkN id (dist id) true :: P2) i).
  - clear - Hi1 Hl. revert Hi1 Hl. generalize (mkN id (dist id) true :: P2). revert i m.
    induction P1 as [|x P1 IH]; intros i m l Hi Hm; cbn in *; [lia|].
    destruct m as [|m]; [lia|]. destruct i as [|i]; cbn; auto. apply IH; lia.
  - apply nth_error_app1. auto.
Qed.

Lemma loop_rel_prefix : forall dist m acc l st st', loop_rel dist m acc st l st' ->
  forall i, i < p_best st' -> nth_error (pool_entries st') i = nth_error (pool_entries st) i.
Proof.
  intros dist m acc l st st' H. induction H; intros i Hi; auto.
  rewrite IHloop_rel by auto. eapply one_rel_prefix; eauto.
  apply loop_rel_best in H0. lia.
Qed.

Lemma one_rel_entries : forall dist m st id b st', one_rel dist m st id b st' ->
  forall z, In z (pool_entries st') ->
    In z (pool_entries st) \/ (z = mkN id (dist id) true /\ ~ In id (p_ins st)).
Proof.
  intros dist m st id b st' H z Hz.
  destruct H as [H|Hb Hni Hc Hall|P1 P2 arr' cur' Hb Hni HP H1 H2 Hl Hla Hcur Hf]; auto.
  unfold pool_entries at 1 in Hz. cbn [p_arr p_cur] in Hz. rewrite Hf in Hz. apply In_firstn in Hz.
  apply in_app_or in Hz. cbn in Hz. rewrite HP, in_app_iff. destruct Hz as [Hz|[<-|Hz]]; auto.
Qed.

Lemma loop_rel_entries : forall dist m acc l st st', loop_rel dist m acc st l st' ->
  forall z, In z (pool_entries st') ->
    In z (pool_entries st) \/ (nflag z = true /\ ~ In (nid z) (p_ins st)).
Proof.
  intros dist m acc l st st' H. induction H; intros z Hz; auto.
  apply IHloop_rel in Hz. destruct Hz as [Hz|[Hz1 Hz2]].
  - apply (one_rel_entries _ _ _ _ _ _ H) in Hz. destruct Hz as [Hz|[-> Hz]]; auto.
  - right. split; auto. intros C. apply Hz2. apply (one_rel_ins _ _ _ _ _ _ H). auto.
Qed.
