(** * Memory safety of candidate processing, for arbitrary distances (NaN included). *)
From Coq Require Import List Arith Lia Bool.
From Verif Require Import Base Float32 PoolModel PoolProofs.
Import ListNotations.

Lemma bsearch_safe : forall a nn fuel left right,
  left <= right -> right < length a -> right - left < fuel ->
  exists l r, bsearch fuel a nn left right = Ok (l, r) /\ l <= r /\ r <= right.
Proof.
  intros a nn. induction fuel as [|fuel IH]; intros left right Hlr Hr Hf; [lia|].
  cbn [bsearch]. destruct ((1 <? right) && (left <? right - 1)) eqn:E.
  - apply andb_true_iff in E. destruct E as [E1 E2]. apply Nat.ltb_lt in E1. apply Nat.ltb_lt in E2.
    assert (Hmid : left < (left + right) / 2 < right).
    { split; [apply Nat.div_le_lower_bound; lia|apply Nat.div_lt_upper_bound; lia]. }
    remember ((left + right) / 2) as mid eqn:Emid. clear Emid.
    destruct (rd_lt _ a mid) as [m Hm]; [lia|]. rewrite Hm. cbn [bind].
    destruct (fgt (ndist m) (ndist nn)).
    + destruct (IH left mid) as [l [r [H1 [H2 H3]]]]; try lia. exists l, r. repeat split; auto. lia.
    + destruct (IH mid right) as [l [r [H1 [H2 H3]]]]; try lia. exists l, r. repeat split; auto.
  - exists left, right. auto.
Qed.

Lemma dup_walk_safe : forall a nn left, left < length a ->
  exists w, dup_walk a nn left = Ok w /\ (forall l, w = Some l -> l <= left).
Proof.
  intros a nn left. induction left as [|left IH]; intros H.
  - exists (Some 0). split; [reflexivity|]. intros l E. inversion E; auto.
  - cbn [dup_walk]. destruct (rd_lt _ a (S left) H) as [x Hx]. rewrite Hx. cbn [bind].
    destruct (flt (ndist x) (ndist nn)).
    + exists (Some (S left)). split; auto. intros l E. inversion E; auto.
    + destruct (nid x =? nid nn).
      * exists None. split; auto. discriminate.
      * destruct IH as [w [Hw Hl]]; [lia|]. exists w. split; auto.
Qed.

Lemma memmove_up_safe : forall a src cnt, src + 1 + cnt <= length a ->
  exists b, memmove_up a src cnt = Ok b /\ length b = length a.
Proof.
  intros a src cnt H. unfold memmove_up. assert (E := H). apply Nat.leb_le in E. rewrite E.
  eexists. split; [reflexivity|].
  rewrite !app_length, !firstn_length, !skipn_length. lia.
Qed.

Lemma wr_safe : forall (a : list neighbor) i x, i < length a ->
  exists b, wr a i x = Ok b /\ length b = length a.
Proof.
  intros a i x H. rewrite wr_ok by auto. eexists. split; [reflexivity|].
  rewrite app_length. cbn [length]. rewrite firstn_length.
  change (skipn (S i) a) with (skipn (S i) a). rewrite skipn_length. lia.
Qed.

Lemma insert_safe : forall a K nn, 1 <= K -> K < length a ->
  exists b r, insert_into_pool a K nn = Ok (b, r) /\ length b = length a.
Proof.
  intros a K nn HK Ha. unfold insert_into_pool.
  destruct (rd_lt _ a 0) as [x0 H0]; [lia|]. rewrite H0. cbn [bind].
  destruct (fgt (ndist x0) (ndist nn)).
  - destruct (memmove_up_safe a 0 K) as [b1 [E1 L1]]; [lia|]. rewrite E1. cbn [bind].
    destruct (wr_safe b1 0 nn) as [b2 [E2 L2]]; [lia|]. rewrite E2. cbn [bind].
    exists b2, 0. split; auto. lia.
  - destruct K as [|right0]; [lia|].
    destruct (rd_lt _ a right0) as [xr Hr]; [lia|]. rewrite Hr. cbn [bind].
    destruct (flt (ndist xr) (ndist nn)).
    + destruct (wr_safe a (S right0) nn) as [b2 [E2 L2]]; [lia|]. rewrite E2. cbn [bind].
      exists b2, (S right0). split; auto.
    + destruct (bsearch_safe a nn (S right0) 0 right0) as [l [r [E [H1 H2]]]]; try lia.
      rewrite E. cbn [bind].
      destruct (dup_walk_safe a nn l) as [w [Ew Hw]]; [lia|]. rewrite Ew. cbn [bind].
      destruct w as [l1|]; [|exists a, (S right0 + 1); split; auto].
      assert (Hl1 : l1 <= l) by (apply Hw; auto).
      destruct (rd_lt _ a l1) as [xl Hxl]; [lia|]. rewrite Hxl. cbn [bind].
      destruct (rd_lt _ a r) as [xr' Hxr]; [lia|]. rewrite Hxr. cbn [bind].
      destruct ((nid xl =? nid nn) || (nid xr' =? nid nn)); [exists a, (S right0 + 1); split; auto|].
      destruct (memmove_up_safe a r (S right0 - r)) as [b1 [E1 L1]]; [lia|]. rewrite E1. cbn [bind].
      destruct (wr_safe b1 r nn) as [b2 [E2 L2]]; [lia|]. rewrite E2. cbn [bind].
      exists b2, r. split; auto. lia.
Qed.

(** The buffer invariant that memory safety needs. *)
Definition buf_ok (m : nat) (st : pool_state) : Prop :=
  1 <= m /\ length (p_arr st) = m + 1 /\ p_cur st <= m /\
  (p_cur st = 0 -> p_arr st = repeat default_neighbor (m + 1) /\ p_ins st = []).

Lemma process_one_safe : forall n dist accept m st id b,
  buf_ok m st -> accept id = Ok b -> (b = true -> id < n) ->
  (p_cur st = 0 -> b = true -> flt (dist id) FLT_MAX = true) ->
  exists st', process_one n dist accept m st id = Ok st' /\ buf_ok m st' /\
    (p_cur st' = 0 -> p_cur st = 0 /\ b = false).
Proof.
  intros n dist accept m st id b [Hm [Hal [Hc H0]]] Hacc Hn Hf. unfold process_one. rewrite Hacc. cbn [bind].
  destruct b; cbn [negb].
  2:{ exists st. repeat split; auto; apply H0; auto. }
  destruct (set_mem id (p_ins st)) eqn:Ei.
  { exists st. split; [auto|]. split; [repeat split; auto; apply H0; auto|]. intros Hc0.
    destruct (H0 Hc0) as [_ E]. rewrite E in Ei. discriminate. }
  assert (En : id <? n = true) by (apply Nat.ltb_lt; auto). rewrite En. cbn [bind].
  destruct (0 <? p_cur st) eqn:Ec.
  - apply Nat.ltb_lt in Ec. destruct (rd_lt _ (p_arr st) (p_cur st - 1)) as [w Hw]; [lia|].
    rewrite Hw. cbn [bind]. destruct (fge (dist id) (ndist w) && (p_cur st =? m)).
    + eexists. split; [reflexivity|]. unfold buf_ok. cbn [p_arr p_cur p_ins]. repeat split; auto; exfalso; lia.
    + destruct (insert_safe (p_arr st) (p_cur st) (mkN id (dist id) true)) as [b [r [E L]]]; try lia.
      rewrite E. cbn [bind]. eexists. split; [reflexivity|]. unfold buf_ok. cbn [p_arr p_cur p_ins].
      destruct (p_cur st <? m) eqn:El; [apply Nat.ltb_lt in El|apply Nat.ltb_ge in El];
        repeat split; try lia; exfalso; lia.
  - apply Nat.ltb_ge in Ec. cbn [bind]. assert (Ec0 : p_cur st = 0) by lia.
    destruct (H0 Ec0) as [Ha _].
    rewrite Ha, Ec0. replace (m + 1) with (S m) by lia. cbn [repeat].
    rewrite insert_empty by (apply (Hf Ec0); auto). cbn [bind]. eexists. split; [reflexivity|].
    assert (E1 : 0 <? m = true) by (apply Nat.ltb_lt; lia). rewrite E1. unfold buf_ok. cbn [p_arr p_cur p_ins length].
    rewrite repeat_length. repeat split; try lia; exfalso; lia.
Qed.

Lemma process_loop_safe : forall n dist accept acc m l st,
  buf_ok m st -> (forall id, In id l -> accept id = Ok (acc id)) ->
  (forall id, In id l -> acc id = true -> id < n) ->
  (p_cur st = 0 -> match filter acc l with [] => True | id :: _ => flt (dist id) FLT_MAX = true end) ->
  exists st', process_loop n dist accept m st l = Ok st' /\ buf_ok m st' /\
    (p_cur st' = 0 -> p_cur st = 0 /\ filter acc l = []).
Proof.
  intros n dist accept acc m l. induction l as [|id l IH]; intros st Hb Ha Hn Hf.
  - exists st. cbn. auto.
  - cbn [process_loop]. destruct (process_one_safe n dist accept m st id (acc id)) as [st1 [E1 [B1 C1]]]; auto.
    + apply Ha; left; auto.
    + apply Hn; left; auto.
    + intros Hc Hid. specialize (Hf Hc). cbn [filter] in Hf. rewrite Hid in Hf. auto.
    + rewrite E1. cbn [bind]. destruct (IH st1) as [st2 [E2 [B2 C2]]]; auto.
      * intros; apply Ha; right; auto.
      * intros; apply Hn; auto; right; auto.
      * intros Hc1. destruct (C1 Hc1) as [Hc Hid]. specialize (Hf Hc). cbn [filter] in Hf. rewrite Hid in Hf. auto.
      * exists st2. split; [auto|]. split; [auto|]. intros Hc2. destruct (C2 Hc2) as [Hc1 Hfl].
        destruct (C1 Hc1) as [Hc Hid]. split; auto. cbn [filter]. rewrite Hid. auto.
Qed.

Lemma feed_safe_gen : forall n dist accept acc m batches st,
  buf_ok m st -> (forall id, In id (concat batches) -> accept id = Ok (acc id)) ->
  (forall id, In id (concat batches) -> acc id = true -> id < n) ->
  (p_cur st = 0 -> match filter acc (concat batches) with [] => True | id :: _ => flt (dist id) FLT_MAX = true end) ->
  exists st', feed n dist accept m st batches = Ok st' /\ buf_ok m st'.
Proof.
  intros n dist accept acc m batches. induction batches as [|b bs IH]; intros st Hb Ha Hn Hf.
  - exists st. auto.
  - cbn [feed]. unfold process_candidates. cbn [concat] in *.
    destruct (process_loop_safe n dist accept acc m b (mkP (p_arr st) (p_cur st) (p_ins st) (p_cmps st) m)) as [st1 [E1 [B1 C1]]]; auto.
    + intros; apply Ha; apply in_or_app; auto.
    + intros; apply Hn; auto; apply in_or_app; auto.
    + cbn. intros Hc. specialize (Hf Hc). rewrite filter_app in Hf. destruct (filter acc b); auto.
    + rewrite E1. cbn [bind]. apply IH; auto.
      * intros; apply Ha; apply in_or_app; auto.
      * intros; apply Hn; auto; apply in_or_app; auto.
      * intros Hc1. destruct (C1 Hc1) as [Hc Hid]. cbn in Hc. specialize (Hf Hc).
        rewrite filter_app, Hid in Hf. auto.
Qed.

Lemma empty_pool_buf_ok : forall m, 1 <= m -> buf_ok m (empty_pool m).
Proof.
  intros m Hm. repeat split; cbn; try lia. rewrite repeat_length. lia.
Qed.

Lemma feed_safe : forall n dist accept acc m batches, 1 <= m ->
  (forall id, In id (concat batches) -> accept id = Ok (acc id)) ->
  (forall id, In id (concat batches) -> acc id = true -> id < n) ->
  match filter acc (concat batches) with [] => True | id :: _ => flt (dist id) FLT_MAX = true end ->
  exists st, feed n dist accept m (empty_pool m) batches = Ok st /\ length (p_arr st) = m + 1.
Proof.
  intros n dist accept acc m batches Hm Ha Hn Hf.
  destruct (feed_safe_gen n dist accept acc m batches (empty_pool m)) as [st [E B]]; auto.
  - apply empty_pool_buf_ok; auto.
  - exists st. split; auto. apply B.
Qed.
