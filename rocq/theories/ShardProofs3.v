(** * Lemmas about the estimate of the shard sizes. *)
From Coq Require Import List Arith NArith Bool Lia.
From Verif Require Import Base Bytes Float32 ListLemmas TopKSpec ClosestModel ClosestSpec ClosestProofs PqModel PqProofs PqProofs2 ShardModel ShardSpec ShardProofs ShardProofs2.
Import ListNotations.

Lemma count_copies_ok : forall nc closest cnt x (f : nat -> nat), (forall y, x <= y -> y < x + cnt -> exists s, nth_error closest y = Some s /\ s < nc) ->
  count_copies closest x cnt (map f (seq 0 nc)) = Ok (map (fun i => f i + count_occ Nat.eq_dec (firstn cnt (skipn x closest)) i) (seq 0 nc)).
Proof.
  intros nc closest. induction cnt as [|cnt IH]; intros x f H; cbn [count_copies].
  - f_equal. apply map_ext. intros i. cbn [firstn count_occ]. lia.
  - destruct (H x ltac:(lia) ltac:(lia)) as [s [E Hs]]. assert (E1 : rd closest x = Ok s) by (apply rd_ok; auto). rewrite E1. cbn [bind].
    assert (E2 : rd (map f (seq 0 nc)) s = Ok (f s)) by (apply rd_ok; rewrite nth_error_map, nth_error_seq_lt by auto; reflexivity). rewrite E2. cbn [bind].
    destruct (wr_nth _ (map f (seq 0 nc)) s (S (f s))) as [b [Ew [Lw Nw]]]; [rewrite map_length, seq_length; auto|]. rewrite Ew. cbn [bind].
    rewrite map_length, seq_length in Lw.
    assert (Eb : b = map (fun i => f i + if Nat.eq_dec s i then 1 else 0) (seq 0 nc)).
    { apply nth_error_ext_lt; [now rewrite Lw, map_length, seq_length|]. intros i Hi. rewrite Lw in Hi. rewrite Nw, !nth_error_map, nth_error_seq_lt by auto. cbn [option_map plus].
      destruct (Nat.eq_dec i s) as [->|Hne]; [destruct (Nat.eq_dec s s); [f_equal; lia|congruence]|destruct (Nat.eq_dec s i); [congruence|f_equal; lia]]. }
    rewrite Eb, IH by (intros; apply H; lia). f_equal. apply map_ext. intros i.
    assert (Ek : skipn x closest = s :: skipn (S x) closest). { clear -E. revert x E. induction closest as [|a l IHl]; intros [|x] E; try discriminate; [now injection E as ->|]. cbn [nth_error] in E. cbn [skipn]. rewrite (IHl x E). reflexivity. }
    rewrite Ek. cbn [firstn count_occ]. destruct (Nat.eq_dec s i); lia.
Qed.

Lemma count_flat : forall (f : nat -> list nat) i l, count_occ Nat.eq_dec (flat_map f l) i = length (flat_map (fun p => repeat p (count_occ Nat.eq_dec (f p) i)) l).
Proof. intros f i. induction l as [|p l IH]; [reflexivity|]. cbn [flat_map]. now rewrite count_occ_app, app_length, repeat_length, IH. Qed.

Lemma nth_error_skipn_add : forall (A : Type) (l : list A) k i, nth_error (skipn k l) i = nth_error l (k + i).
Proof. intros A l k i. revert l. induction k as [|k IH]; intros l; [reflexivity|]. destruct l; [cbn; now destruct i|]. cbn [skipn plus nth_error]. apply IH. Qed.

Lemma flat_assigned : forall (assign : nat -> list nat) k start size closest, (forall j, j < size -> length (assign (start + j)) = k) -> length closest = size * k ->
  (forall j l s, j < size -> nth_error (assign (start + j)) l = Some s -> nth_error closest (j * k + l) = Some s) -> closest = flat_map assign (seq start size).
Proof.
  intros assign k start size. revert start. induction size as [|size IH]; intros start closest HA HL H.
  - destruct closest; [reflexivity|discriminate].
  - cbn [seq flat_map]. rewrite <- (firstn_skipn k closest). f_equal.
    + apply nth_error_ext_lt; [rewrite firstn_length, HL; specialize (HA 0 ltac:(lia)); rewrite Nat.add_0_r in HA; lia|]. intros i Hi. rewrite firstn_length in Hi.
      rewrite nth_error_firstn_lt by lia. pose proof (HA 0 ltac:(lia)) as H0. rewrite Nat.add_0_r in H0. destruct (nth_error (assign start) i) as [s|] eqn:E; [|apply nth_error_None in E; lia].
      pose proof (H 0 i s ltac:(lia)) as X. rewrite Nat.add_0_r in X. exact (X E).
    + apply IH.
      * intros j Hj. replace (S start + j) with (start + S j) by lia. apply HA. lia.
      * rewrite skipn_length. lia.
      * intros j l s Hj Hs. rewrite nth_error_skipn_add. replace (S start + j) with (start + S j) in Hs by lia. rewrite <- (H (S j) l s ltac:(lia) Hs). f_equal. lia.
Qed.

Lemma estimate_blocks_ok : forall popf mbs dmat n nc k bs orders, pops popf -> 1 <= mbs -> 1 <= bs -> 1 <= nc -> k <= nc -> usable_dists dmat n nc k -> shard_orders n k bs mbs orders ->
  forall cnt b closest, n <= (b + cnt) * bs -> ((b + cnt) * bs < n + bs \/ cnt = 0) -> length closest = bs * k ->
    estimate_blocks popf mbs dmat n nc k bs orders b cnt closest (map (fun i => length (members (assigned popf dmat nc k) (min (b * bs) n) i)) (seq 0 nc)) =
      Ok (map (fun i => length (members (assigned popf dmat nc k) n i)) (seq 0 nc)).
Proof.
  intros popf mbs dmat n nc k bs orders Hp Hm Hbs Hnc Hk HU Ho. induction cnt as [|cnt IH]; intros b closest H1 H2 HL; cbn [estimate_blocks].
  - rewrite Nat.add_0_r in H1. now rewrite Nat.min_r by lia.
  - assert (Hlt : b * bs < n). { destruct H2 as [H2|H2]; [|lia]. assert (S b * bs <= (b + S cnt) * bs) by (apply Nat.mul_le_mono_r; lia). lia. }
    rewrite (Nat.min_l (b * bs) n) by lia. set (start := b * bs) in *. set (size := min (S b * bs) n - start).
    assert (ES : S b * bs = start + bs) by (unfold start; lia). assert (Hsz : 1 <= size <= bs /\ start + size <= n /\ start + size = min (S b * bs) n) by (unfold size; lia).
    destruct Hsz as [Hsz [Hsn Hse]]. clearbody size.
    pose proof (Ho b) as Hob. cbn zeta in Hob. fold start in Hob. replace (min (S b * bs) n - start) with size in Hob by lia.
    destruct (block_closest popf mbs dmat n nc k start size bs (orders b) closest) as [ivf [Ec [L' [Z' [L2 I]]]]]; auto; try lia.
    rewrite Ec. cbn [bind fst].
    assert (HA : forall j, j < size -> length (assigned popf dmat nc k (start + j)) = k /\ (forall s, In s (assigned popf dmat nc k (start + j)) -> s < nc)).
    { intros j Hj. apply (assigned_ok popf dmat n); auto. lia. }
    assert (EF : ivf = flat_map (assigned popf dmat nc k) (seq start size)).
    { apply (flat_assigned _ k); auto; [intros j Hj; apply HA; auto|]. intros j l s Hj Hs. pose proof (I j l s Hj Hs) as X. rewrite nth_error_app1 in X; [auto|].
      assert (Hl : l < k) by (rewrite <- (proj1 (HA j Hj)); apply nth_error_Some; rewrite Hs; discriminate). rewrite L2.
      apply Nat.lt_le_trans with (S j * k); [lia|apply Nat.mul_le_mono_r; lia]. }
    rewrite count_copies_ok.
    + cbn [bind skipn]. rewrite firstn_app, L2, Nat.sub_diag, firstn_O, app_nil_r. rewrite (firstn_all2 ivf) by lia.
      rewrite (map_ext _ (fun i => length (members (assigned popf dmat nc k) (min (S b * bs) n) i))).
      * replace (b + S cnt) with (S b + cnt) in H1, H2 by lia. apply IH; auto. left; lia.
      * intros i. rewrite EF, count_flat, <- app_length. unfold members. rewrite <- flat_map_app, <- Hse. f_equal. f_equal. symmetry. apply (seq_app start size 0).
    + intros y _ Hy. cbn [plus] in Hy. assert (Hyl : y < length ivf) by lia. rewrite nth_error_app1 by auto. destruct (nth_error ivf y) as [s|] eqn:E; [|apply nth_error_None in E; lia].
      exists s. split; [auto|]. apply nth_error_In in E. rewrite EF in E. apply in_flat_map in E. destruct E as [p [Hp' Hs]]. apply in_seq in Hp'.
      replace p with (start + (p - start)) in Hs by lia. apply (HA (p - start)); [lia|auto].
Qed.

Lemma estimate_ok : forall popf mbs maxb dmat n nc k orders garbage, pops popf -> 1 <= mbs -> 1 <= maxb -> 1 <= n -> 1 <= nc -> k <= nc -> usable_dists dmat n nc k ->
  shard_orders n k (min n maxb) mbs orders -> length garbage = min n maxb * k -> (N.of_nat (n * k) < 2 ^ 32)%N ->
  exists assign, nearest_shards dmat n nc k assign /\
    estimate_sizes popf mbs maxb dmat n nc k orders garbage =
      Ok (map (fun i => N.of_nat (length (filter (fun p => if in_dec Nat.eq_dec i (assign p) then true else false) (seq 0 n)))) (seq 0 nc)).
Proof.
  intros popf mbs maxb dmat n nc k orders garbage Hp Hm Hx Hn Hnc Hk HU Ho HG H32. exists (assigned popf dmat nc k).
  pose proof (assigned_nearest popf dmat n nc k Hp HU Hk) as HA. split; [exact HA|]. unfold estimate_sizes.
  assert (Ebs : (if n <=? maxb then n else maxb) = min n maxb) by (destruct (Nat.leb_spec n maxb); lia). rewrite Ebs. clear Ebs.
  set (bs := min n maxb) in *. assert (Hbs : 1 <= bs) by (unfold bs; lia). rewrite (proj2 (Nat.eqb_neq bs 0)) by lia. rewrite (proj2 (Nat.ltb_ge nc k)) by auto. rewrite div_round_up_eq.
  destruct (n_blocks_bounds n bs Hbs) as [B1 B2].
  assert (E0 : repeat 0 nc = map (fun i => length (members (assigned popf dmat nc k) (min (0 * bs) n) i)) (seq 0 nc)).
  { apply nth_error_ext_lt; [now rewrite repeat_length, map_length, seq_length|]. intros i Hi. rewrite repeat_length in Hi. rewrite nth_error_repeat, nth_error_map, nth_error_seq_lt by auto. reflexivity. }
  rewrite E0, (estimate_blocks_ok popf mbs dmat n nc k bs orders) by auto. cbn [bind]. f_equal. rewrite map_map. apply map_ext_in. intros i Hi. apply in_seq in Hi.
  rewrite (members_filter _ n i) by (intros p Hp'; apply (HA p Hp')). apply N.mod_small.
  assert (HT : sum (map (fun i => length (members (assigned popf dmat nc k) n i)) (seq 0 nc)) = n * k) by (apply members_total; intros p Hp'; apply (assigned_ok popf dmat n); auto).
  assert (HI : length (members (assigned popf dmat nc k) n i) <= n * k).
  { rewrite <- HT. replace nc with (i + S (nc - S i)) by lia. rewrite seq_app, map_app, sum_app. cbn [seq map sum plus]. lia. }
  rewrite (members_filter _ n i) in HI by (intros p Hp'; apply (HA p Hp')). change (2 ^ 32)%N with 4294967296%N in H32. lia.
Qed.
