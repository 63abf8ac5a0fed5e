(** * Graph search in renumbered data does the same. *)
From Coq Require Import String List Arith Lia Bool Sorting.Sorted Sorting.Permutation.
From Verif Require Import Base Float32 PoolModel PoolProofs SortSpec GraphSpec GreedyModel GreedyProofs SearchModel SearchSpec SearchProofs ListLemmas FlatSpec RenameSpec.
Import ListNotations.

Definition rmap {A B : Type} (f : A -> B) (r : res A) : res B :=
  match r with Ok a => Ok (f a) | UB => UB | Throw => Throw | Exit => Exit | Fuel => Fuel end.

Lemma rd_map : forall (A B : Type) (f : A -> B) l i, rd (map f l) i = rmap f (rd l i).
Proof. intros A B f l i. unfold rd. rewrite nth_error_map. destruct (nth_error l i); reflexivity. Qed.

Lemma wr_map : forall (A B : Type) (f : A -> B) l i x, wr (map f l) i (f x) = rmap (map f) (wr l i x).
Proof.
  intros A B f l i x. destruct (Nat.lt_ge_cases i (length l)) as [H|H].
  - rewrite !wr_ok by (rewrite ?map_length; exact H). cbn [rmap]. rewrite map_app, firstn_map. cbn [map]. rewrite skipn_map. reflexivity.
  - assert (Q : forall (C : Type) (m : list C) j y, length m <= j -> wr m j y = UB).
    { intros C m j y. revert j. induction m as [|a m IH]; intros j Hj; [destruct j; reflexivity|].
      unfold wr in *. destruct (_ <? _) eqn:E; [apply Nat.ltb_lt in E; lia|reflexivity]. }
    rewrite !Q by (rewrite ?map_length; exact H). reflexivity.
Qed.

(** An entry with its id renumbered; unused slots hold FLT_MAX and stay. *)
Definition ren (p : nat -> nat) (x : neighbor) : neighbor :=
  if flt (ndist x) FLT_MAX then mkN (p (nid x)) (ndist x) (nflag x) else x.

Lemma ren_dist : forall p x, ndist (ren p x) = ndist x.
Proof. intros p x. unfold ren. destruct (flt _ _); reflexivity. Qed.

Lemma ren_flag : forall p x, nflag (ren p x) = nflag x.
Proof. intros p x. unfold ren. destruct (flt _ _); reflexivity. Qed.

Lemma ren_id : forall p x, flt (ndist x) FLT_MAX = true -> nid (ren p x) = p (nid x).
Proof. intros p x H. unfold ren. rewrite H. reflexivity. Qed.

Lemma ren_new : forall p id d b, flt d FLT_MAX = true -> ren p (mkN id d b) = mkN (p id) d b.
Proof. intros p id d b H. unfold ren. cbn [ndist nid nflag]. rewrite H. reflexivity. Qed.

Lemma memmove_ren : forall p a src cnt, memmove_up (map (ren p) a) src cnt = rmap (map (ren p)) (memmove_up a src cnt).
Proof.
  intros p a src cnt. unfold memmove_up. rewrite map_length. destruct (_ <=? _); [|reflexivity]. cbn [rmap].
  rewrite !map_app, !firstn_map, !skipn_map, !firstn_map. reflexivity.
Qed.

Lemma bsearch_ren : forall p fuel a nn left right, bsearch fuel (map (ren p) a) (ren p nn) left right = bsearch fuel a nn left right.
Proof.
  intros p fuel. induction fuel as [|fuel IH]; intros a nn left right; cbn [bsearch]; [reflexivity|].
  destruct (_ && _); [|reflexivity]. rewrite rd_map. destruct (rd a _) as [m| | | |]; cbn [rmap bind]; try reflexivity.
  rewrite !ren_dist. destruct (fgt _ _); apply IH.
Qed.

Lemma bsearch_bound : forall fuel a nn left right l r, left <= right -> bsearch fuel a nn left right = Ok (l, r) -> l <= r <= right.
Proof.
  intros fuel. induction fuel as [|fuel IH]; intros a nn left right l r Hlr H; cbn [bsearch] in H; [discriminate|].
  destruct ((1 <? right) && (left <? right - 1)) eqn:E; [|injection H as <- <-; lia].
  apply andb_true_iff in E. destruct E as [E1 E2]. apply Nat.ltb_lt in E1, E2.
  assert (M : left <= (left + right) / 2 <= right).
  { split; [apply Nat.div_le_lower_bound; lia|apply Nat.div_le_upper_bound; lia]. }
  destruct (rd a _) as [m| | | |]; cbn [bind] in H; try discriminate.
  destruct (fgt _ _); apply IH in H; lia.
Qed.

(** The test for an id that is there already. *)
Definition same_id (p : nat -> nat) (a : list neighbor) (K : nat) (nn : neighbor) : Prop :=
  forall i x, i < K -> nth_error a i = Some x -> (nid (ren p x) =? nid (ren p nn)) = (nid x =? nid nn).

Lemma dup_walk_ren : forall p a nn K left, same_id p a K nn -> left < K -> dup_walk (map (ren p) a) (ren p nn) left = dup_walk a nn left.
Proof.
  intros p a nn K left H. induction left as [|left IH]; intros Hl; cbn [dup_walk]; [reflexivity|].
  rewrite rd_map. unfold rd. destruct (nth_error a (S left)) as [x|] eqn:E; [|reflexivity]. cbn [rmap bind]. rewrite !ren_dist.
  destruct (flt _ _); [reflexivity|]. rewrite (H (S left) x Hl E). destruct (_ =? _); [reflexivity|]. apply IH. lia.
Qed.

Lemma dup_walk_le : forall a nn left l, dup_walk a nn left = Ok (Some l) -> l <= left.
Proof.
  intros a nn left. induction left as [|left IH]; intros l H; cbn [dup_walk] in H; [injection H as <-; lia|].
  destruct (rd a (S left)) as [x| | | |]; cbn [bind] in H; try discriminate.
  destruct (flt _ _); [injection H as <-; lia|]. destruct (_ =? _); [discriminate|]. apply IH in H. lia.
Qed.

Lemma insert_ren : forall p a K nn, same_id p a K nn ->
  insert_into_pool (map (ren p) a) K (ren p nn) = rmap (fun r => (map (ren p) (fst r), snd r)) (insert_into_pool a K nn).
Proof.
  intros p a K nn H. unfold insert_into_pool. rewrite rd_map. destruct (rd a 0) as [x0| | | |]; cbn [rmap bind]; try reflexivity.
  rewrite !ren_dist. destruct (fgt _ _).
  - rewrite memmove_ren. destruct (memmove_up a 0 K) as [a1| | | |]; cbn [rmap bind]; try reflexivity.
    rewrite wr_map. destruct (wr a1 0 nn); reflexivity.
  - destruct K as [|K]; [reflexivity|]. rewrite rd_map. destruct (rd a K) as [x1| | | |]; cbn [rmap bind]; try reflexivity.
    rewrite ren_dist. destruct (flt _ _).
    + rewrite wr_map. destruct (wr a (S K) nn); reflexivity.
    + rewrite bsearch_ren. destruct (bsearch (S K) a nn 0 K) as [[left right]| | | |] eqn:Eb; cbn [bind rmap]; try reflexivity.
      apply bsearch_bound in Eb; [|lia].
      rewrite (dup_walk_ren p a nn (S K) left H) by lia. destruct (dup_walk a nn left) as [[left1|]| | | |] eqn:Ew; cbn [bind rmap]; try reflexivity.
      apply dup_walk_le in Ew. rewrite !rd_map. unfold rd.
      destruct (nth_error a left1) as [xl|] eqn:E1; cbn [rmap bind]; [|reflexivity].
      destruct (nth_error a right) as [xr|] eqn:E2; cbn [rmap bind]; [|reflexivity].
      rewrite (H left1 xl) by (auto; lia). rewrite (H right xr) by (auto; lia). destruct (_ || _); [reflexivity|].
      rewrite memmove_ren. destruct (memmove_up a right _) as [a1| | | |]; cbn [rmap bind]; try reflexivity.
      rewrite wr_map. destruct (wr a1 right nn); reflexivity.
Qed.

(** ** Feeding candidates *)
Definition ren_pool (p : nat -> nat) (st : pool_state) : pool_state :=
  mkP (map (ren p) (p_arr st)) (p_cur st) (map p (p_ins st)) (p_cmps st) (p_best st).

Lemma set_mem_ren : forall n p x s, renumbering n p -> x < n -> (forall y, In y s -> y < n) -> set_mem (p x) (map p s) = set_mem x s.
Proof.
  intros n p x s [_ Hp] Hx Hs. induction s as [|y s IH]; [reflexivity|]. unfold set_mem in *. cbn [map existsb].
  rewrite IH by (intros; apply Hs; right; auto). f_equal. destruct (Nat.eqb_spec x y) as [->|Hne]; [apply Nat.eqb_refl|].
  apply Nat.eqb_neq. intros C. apply Hne. apply Hp; auto. apply Hs. left. reflexivity.
Qed.

Lemma process_one_ren : forall n p dist dist' accept accept' m st id, renumbering n p -> finite_distances n dist ->
  (forall x, x < n -> dist' (p x) = dist x) -> (forall x, x < n -> accept' (p x) = accept x) ->
  pool_wf dist m st -> (forall x, In x (p_ins st) -> x < n) -> id < n ->
  process_one n dist' accept' m (ren_pool p st) (p id) = rmap (ren_pool p) (process_one n dist accept m st id).
Proof.
  intros n p dist dist' accept accept' m st id Hp [_ Hfin] Hd Ha Hwf Hins Hid. unfold process_one. cbn [ren_pool p_arr p_cur p_ins p_cmps p_best].
  rewrite Ha by exact Hid. destruct (accept id) as [ok| | | |]; cbn [bind rmap]; try reflexivity. destruct (negb ok); [reflexivity|].
  rewrite (set_mem_ren n) by assumption. destruct (set_mem id (p_ins st)); [reflexivity|]. cbv zeta.
  assert (E1 : id <? n = true) by (apply Nat.ltb_lt; exact Hid). assert (E2 : p id <? n = true) by (apply Nat.ltb_lt, Hp, Hid).
  rewrite E1, E2. cbn [bind]. rewrite Hd by exact Hid.
  rewrite rd_map. set (skip := if 0 <? p_cur st then do w <- rd (p_arr st) (p_cur st - 1); Ok (fge (dist id) (ndist w) && (p_cur st =? m)) else Ok false).
  replace (if 0 <? p_cur st then do w <- rmap (ren p) (rd (p_arr st) (p_cur st - 1)); Ok (fge (dist id) (ndist w) && (p_cur st =? m)) else Ok false) with skip.
  2:{ unfold skip. destruct (0 <? p_cur st); [|reflexivity]. destruct (rd _ _) as [w| | | |]; cbn [bind rmap]; try reflexivity. rewrite ren_dist. reflexivity. }
  destruct skip as [b| | | |]; cbn [bind rmap]; try reflexivity. destruct b; [reflexivity|].
  rewrite <- (ren_new p id (dist id) true) by (apply Hfin; exact Hid).
  rewrite insert_ren.
  - destruct (insert_into_pool (p_arr st) (p_cur st) _) as [[arr' r]| | | |]; reflexivity.
  - intros i x Hi Hx. destruct Hwf as [_ [_ [_ [_ He]]]].
    assert (Hin : In x (pool_entries st)). { unfold pool_entries. apply nth_error_In with i. rewrite nth_error_firstn_lt by exact Hi. exact Hx. }
    destruct (He x Hin) as [_ [Hxd Hxi]]. specialize (Hins _ Hxi).
    rewrite ren_id by (rewrite Hxd; apply Hfin; exact Hins). rewrite ren_new by (apply Hfin; exact Hid). cbn [nid].
    destruct (Nat.eqb_spec (nid x) id) as [->|Hne]; [apply Nat.eqb_refl|]. apply Nat.eqb_neq. intros C. apply Hne. apply Hp; auto.
Qed.

Lemma one_rel_pos : forall dist m st id b st', 1 <= m -> one_rel dist m st id b st' -> 1 <= p_cur st -> 1 <= p_cur st'.
Proof. intros dist m st id b st' Hm H. destruct H; cbn; auto. intros. subst. lia. Qed.

Lemma process_loop_ren : forall n p dist dist' accept accept' acc m, renumbering n p -> finite_distances n dist ->
  (forall x, x < n -> dist' (p x) = dist x) -> (forall x, x < n -> accept' (p x) = accept x) -> (forall x, x < n -> accept x = Ok (acc x)) ->
  forall l st, pool_wf dist m st -> 1 <= p_cur st -> (forall x, In x (p_ins st) -> x < n) -> (forall x, In x l -> x < n) ->
  process_loop n dist' accept' m (ren_pool p st) (map p l) = rmap (ren_pool p) (process_loop n dist accept m st l).
Proof.
  intros n p dist dist' accept accept' acc m Hp Hfin Hd Ha Hacc l. induction l as [|id l IH]; intros st Hwf Hc Hins Hl; cbn [process_loop map]; [reflexivity|].
  assert (Hid : id < n) by (apply Hl; left; reflexivity).
  rewrite (process_one_ren n p dist dist' accept accept' m st id) by assumption.
  destruct (process_one_spec n dist accept m st id (acc id)) as [st' [E R]]; auto.
  { intros _ _. split; [exact Hid|]. split; [apply Hfin|]. intros C. lia. }
  rewrite E. cbn [rmap bind]. apply IH.
  - eapply one_rel_wf; [exact Hwf| |exact R]. apply Hfin.
  - eapply one_rel_pos; [|exact R|exact Hc]. apply Hwf.
  - intros x Hx. apply (one_rel_ins _ _ _ _ _ _ R) in Hx. destruct Hx as [Hx|[_ ->]]; [auto|exact Hid].
  - intros; apply Hl; right; auto.
Qed.

(** ** Greedy search *)
Definition ren_state (p : nat -> nat) (st : gstate) : gstate :=
  mkG (ren_pool p (g_pool st)) (g_k st) (map (ren p) (g_exp st)) (g_hops st).

Lemma flag_wf : forall dist L p k x arr1, pool_wf dist L p -> k < p_cur p -> nth_error (p_arr p) k = Some x ->
  wr (p_arr p) k (mkN (nid x) (ndist x) false) = Ok arr1 -> forall b, pool_wf dist L (mkP arr1 (p_cur p) (p_ins p) (p_cmps p) b).
Proof.
  intros dist L p k x arr1 Hwf Hk Hx Hw b. pose proof Hwf as [HL [Hal [Hcm [Hs He]]]].
  destruct (set_flag_entries (p_arr p) (p_cur p) k x (mkN (nid x) (ndist x) false) arr1) as [A [B [EA [EB [LA LB]]]]]; auto; try lia.
  assert (EE : pool_entries p = A ++ x :: B) by exact EA.
  assert (EE1 : pool_entries (mkP arr1 (p_cur p) (p_ins p) (p_cmps p) b) = A ++ mkN (nid x) (ndist x) false :: B) by exact EB.
  assert (Hxin : In x (pool_entries p)) by (rewrite EE; apply in_or_app; right; left; reflexivity).
  split; [exact HL|]. split; [cbn; lia|]. split; [exact Hcm|]. split.
  - rewrite EE1. rewrite EE in Hs. apply ssorted_app in Hs. destruct Hs as [S1 [S2 S3]].
    apply StronglySorted_inv in S2. destruct S2 as [S2 S4].
    apply ssorted_app. split; [auto|]. split; [constructor; auto|].
    intros a c Ha [<-|Hb]; [apply (S3 a x); auto; left; auto|apply S3; auto; right; auto].
  - intros z Hz. rewrite EE1 in Hz. cbn [p_ins]. apply in_app_or in Hz. destruct Hz as [H|[<-|H]].
    + apply He. rewrite EE. apply in_or_app. auto.
    + cbn. apply (He x Hxin).
    + apply He. rewrite EE. apply in_or_app. right. right. exact H.
Qed.

Lemma greedy_step_ren : forall n p dist dist' accept accept' acc L c0 g g' st, renumbering n p -> finite_distances n dist ->
  (forall x, x < n -> dist' (p x) = dist x) -> (forall x, x < n -> accept' (p x) = accept x) -> (forall x, x < n -> accept x = Ok (acc x)) ->
  graph_ok n g -> moved_graph n p g g' -> ginv n dist L c0 st -> greedy_running st = true ->
  greedy_step n dist' accept' L g' (ren_state p st) = rmap (ren_state p) (greedy_step n dist accept L g st).
Proof.
  intros n p dist dist' accept accept' acc L c0 g g' st Hp Hfin Hd Ha Hacc [Hgl Hg] [_ [_ Hmg]] HI Hrun.
  unfold greedy_running in Hrun. apply Nat.ltb_lt in Hrun. pose proof (gi_wf _ _ _ _ _ HI) as Hwf. pose proof (gi_lt _ _ _ _ _ HI) as Hlt.
  pose proof Hwf as [_ [Hal [Hcm [_ He]]]].
  unfold greedy_step. cbn [ren_state ren_pool g_pool g_k g_exp g_hops p_arr p_cur p_ins p_cmps p_best].
  rewrite rd_map. destruct (rd_lt _ (p_arr (g_pool st)) (g_k st)) as [x Hx]; [lia|]. rewrite Hx. cbn [rmap bind]. rewrite ren_flag.
  destruct (nflag x); [|reflexivity]. cbv zeta. apply rd_ok in Hx.
  assert (Hxin : In x (pool_entries (g_pool st))).
  { unfold pool_entries. apply nth_error_In with (g_k st). rewrite nth_error_firstn_lt by exact Hrun. exact Hx. }
  destruct (He x Hxin) as [_ [Hxd Hxi]]. specialize (Hlt _ Hxi).
  assert (Hxf : flt (ndist x) FLT_MAX = true) by (rewrite Hxd; apply Hfin; exact Hlt).
  rewrite ren_id, ren_dist by exact Hxf. rewrite <- (ren_new p (nid x) (ndist x) false) by exact Hxf.
  rewrite wr_map. destruct (wr (p_arr (g_pool st)) (g_k st) _) as [arr1| | | |] eqn:Hw; cbn [rmap bind]; try reflexivity.
  assert (Lg : nid x < length g) by lia. apply nth_error_Some in Lg. destruct (nth_error g (nid x)) as [nb|] eqn:En; [|congruence].
  unfold rd. rewrite (Hmg _ _ En), En. cbn [bind].
  unfold process_candidates. cbn [p_arr p_cur p_ins p_cmps].
  change (mkP (map (ren p) arr1) (p_cur (g_pool st)) (map p (p_ins (g_pool st))) (p_cmps (g_pool st)) L)
    with (ren_pool p (mkP arr1 (p_cur (g_pool st)) (p_ins (g_pool st)) (p_cmps (g_pool st)) L)).
  rewrite (process_loop_ren n p dist dist' accept accept' acc L Hp Hfin Hd Ha Hacc nb).
  - destruct (process_loop n dist accept L _ nb) as [p2| | | |]; reflexivity.
  - eapply flag_wf; eassumption.
  - cbn. lia.
  - cbn. apply (gi_lt _ _ _ _ _ HI).
  - intros y Hy. eapply Hg; eassumption.
Qed.

Lemma greedy_loop_ren : forall n p dist dist' accept accept' acc L c0 g g', renumbering n p -> finite_distances n dist ->
  (forall x, x < n -> dist' (p x) = dist x) -> (forall x, x < n -> accept' (p x) = accept x) -> (forall x, x < n -> accept x = Ok (acc x)) ->
  graph_ok n g -> moved_graph n p g g' -> forall fuel i st, ginv n dist L c0 st ->
  greedy_loop fuel n dist' accept' L (fun _ => g') i (ren_state p st) = rmap (ren_state p) (greedy_loop fuel n dist accept L (fun _ => g) i st).
Proof.
  intros n p dist dist' accept accept' acc L c0 g g' Hp Hfin Hd Ha Hacc Hg Hm fuel.
  induction fuel as [|fuel IH]; intros i st HI; cbn [greedy_loop]; change (greedy_running (ren_state p st)) with (greedy_running st);
    destruct (greedy_running st) eqn:Er; try reflexivity.
  rewrite (greedy_step_ren n p dist dist' accept accept' acc L c0 g g' st) by assumption.
  destruct (greedy_step_ok n dist accept acc L c0 g st) as [st' [E [HI' _]]]; auto; [apply Hfin|].
  rewrite E. cbn [rmap bind]. apply IH. exact HI'.
Qed.

Lemma init_loop_ren : forall n p dist dist' L, renumbering n p -> finite_distances n dist -> (forall x, x < n -> dist' (p x) = dist x) ->
  forall ids arr l ins, (forall x, In x ids -> x < n) -> (forall x, In x ins -> x < n) ->
  init_loop n dist' L (map (ren p) arr) l (map p ins) (map p ids) =
  rmap (fun r => (map (ren p) (fst (fst r)), snd (fst r), map p (snd r))) (init_loop n dist L arr l ins ids).
Proof.
  intros n p dist dist' L Hp Hfin Hd ids. induction ids as [|id ids IH]; intros arr l ins Hids Hins; cbn [init_loop map]; [reflexivity|].
  assert (Hid : id < n) by (apply Hids; left; reflexivity).
  assert (E1 : id <? n = true) by (apply Nat.ltb_lt; exact Hid). assert (E2 : p id <? n = true) by (apply Nat.ltb_lt, Hp, Hid).
  rewrite E1, E2. cbn [bind]. rewrite Hd by exact Hid. rewrite (set_mem_ren n) by assumption.
  assert (Hids' : forall x, In x ids -> x < n) by (intros; apply Hids; right; auto).
  destruct (set_mem id ins); cbn [bind].
  - destruct (l =? L); [reflexivity|]. apply IH; assumption.
  - rewrite <- (ren_new p id (dist id) true) by (apply Hfin; exact Hid). rewrite wr_map.
    destruct (wr arr l _) as [a1| | | |]; cbn [rmap bind]; try reflexivity. destruct (S l =? L); [reflexivity|].
    apply (IH a1 (S l) (id :: ins)); [assumption|]. intros x [<-|Hx]; auto.
Qed.

Lemma greedy_ren : forall sortf n p dist dist' accept accept' acc L g g' ids, sorts sortf -> by_distances_only sortf -> renumbering n p -> finite_distances n dist ->
  (forall x, x < n -> dist' (p x) = dist x) -> (forall x, x < n -> accept' (p x) = accept x) -> (forall x, x < n -> accept x = Ok (acc x)) ->
  1 <= L -> graph_ok n g -> moved_graph n p g g' -> (forall x, In x ids -> x < n) ->
  greedy_search sortf n dist' accept' L g' (map p ids) = rmap (ren_state p) (greedy_search sortf n dist accept L g ids).
Proof.
  intros sortf n p dist dist' accept accept' acc L g g' ids Hs Hb Hp Hfin Hd Ha Hacc HL Hg Hm Hids.
  unfold greedy_search, greedy_search_dyn.
  destruct (greedy_init_ok sortf n dist L ids) as [st0 [E0 [HI _]]]; auto; [apply Hfin|].
  assert (Q : greedy_init sortf n dist' L (map p ids) = rmap (ren_state p) (greedy_init sortf n dist L ids)).
  { unfold greedy_init.
    assert (R : repeat default_neighbor (L + 1) = map (ren p) (repeat default_neighbor (L + 1))).
    { generalize (L + 1) as k. intros k. induction k as [|k IH]; [reflexivity|]. cbn [repeat map]. rewrite <- IH. reflexivity. }
    rewrite R at 1. rewrite (init_loop_ren n p dist dist' L Hp Hfin Hd ids _ 0 []) by (auto; intros x []).
    destruct (init_loop n dist L _ 0 [] ids) as [[[arr l] ins]| | | |]; cbn [rmap bind fst snd]; try reflexivity.
    unfold ren_state, ren_pool. cbn [g_pool g_k g_exp g_hops p_arr p_cur p_ins p_cmps p_best map].
    rewrite firstn_map, skipn_map, (Hb (ren p)) by apply ren_dist. rewrite map_app. reflexivity. }
  rewrite Q, E0. cbn [rmap bind]. eapply greedy_loop_ren; eassumption.
Qed.

(** ** Renumberings *)
Lemma renumbering_onto : forall n p y, renumbering n p -> y < n -> exists x, x < n /\ p x = y.
Proof.
  intros n p y [H1 H2] Hy.
  assert (ND : NoDup (map p (seq 0 n))).
  { assert (Q : forall l, NoDup l -> (forall x, In x l -> x < n) -> NoDup (map p l)).
    { intros l Hl. induction Hl as [|a l Ha Hl IH]; intros Hlt; cbn [map]; constructor.
      - intros C. apply in_map_iff in C. destruct C as [b [E Hb]]. apply H2 in E; [subst; auto| |]; apply Hlt; [right|left]; auto.
      - apply IH. intros; apply Hlt; right; auto. }
    apply Q; [apply seq_NoDup|]. intros x Hx. apply in_seq in Hx. lia. }
  assert (Q : incl (seq 0 n) (map p (seq 0 n))).
  { apply (NoDup_length_incl ND); [rewrite map_length, seq_length; lia|]. intros z Hz. apply in_map_iff in Hz. destruct Hz as [x [<- Hx]].
    apply in_seq in Hx. apply in_seq. split; [lia|]. apply H1. lia. }
  assert (Hin : In y (map p (seq 0 n))) by (apply Q, in_seq; lia).
  apply in_map_iff in Hin. destruct Hin as [x [E Hx]]. apply in_seq in Hx. exists x. split; [lia|exact E].
Qed.

Lemma moved_graph_ok : forall n p g g', renumbering n p -> graph_ok n g -> moved_graph n p g g' -> graph_ok n g'.
Proof.
  intros n p g g' Hp [Hl Hg] [_ [Hl' Hm]]. split; [exact Hl'|]. intros y l z Hy Hz.
  assert (Ly : y < n) by (rewrite <- Hl'; apply nth_error_Some; congruence).
  destruct (renumbering_onto n p y Hp Ly) as [x [Hx Ex]]. assert (Lx : x < length g) by lia. apply nth_error_Some in Lx.
  destruct (nth_error g x) as [nb|] eqn:E; [|congruence]. pose proof (Hm _ _ E) as M. rewrite Ex, Hy in M. injection M as ->.
  apply in_map_iff in Hz. destruct Hz as [w [<- Hw]]. apply Hp. eapply Hg; eassumption.
Qed.

Lemma nth_same : forall (A : Type) (a b : list A), (forall i, nth_error a i = nth_error b i) -> a = b.
Proof.
  intros A a. induction a as [|x a IH]; intros b H.
  - destruct b as [|y b]; [reflexivity|]. specialize (H 0). discriminate.
  - destruct b as [|y b]; [specialize (H 0); discriminate|]. f_equal; [specialize (H 0); cbn in H; congruence|]. apply IH. intros i. apply (H (S i)).
Qed.

(** ** Searches *)
Lemma search_ren : forall sortf n p t dist dist' accept accept' acc L g g' ids tags tags' k ind dst ind' dst', sorts sortf -> by_distances_only sortf -> renumbering n p ->
  finite_distances n dist -> (forall id, is_nan (dist' id) = false) ->
  (forall x, x < n -> dist' (p x) = dist x) -> (forall x, x < n -> accept' (p x) = accept x) -> (forall x, x < n -> accept x = Ok (acc x)) ->
  1 <= L -> 1 <= n -> graph_ok n g -> graph_ok n g' -> moved_graph n p g g' -> (forall x, In x ids -> x < n) ->
  length tags = n -> length tags' = n -> (forall x, x < n -> nth_error tags' (p x) = option_map t (nth_error tags x)) ->
  k <= L + 1 -> k <= length ind -> k <= length dst -> k <= length ind' -> k <= length dst' ->
  exists i d i' d' c,
    (do st <- greedy_search sortf n dist accept L g ids; do bufs <- report tags (p_arr (g_pool st)) 0 k ind dst; Ok (bufs, min k (p_cur (g_pool st)))) = Ok (i, d, c) /\
    (do st <- greedy_search sortf n dist' accept' L g' (map p ids); do bufs <- report tags' (p_arr (g_pool st)) 0 k ind' dst'; Ok (bufs, min k (p_cur (g_pool st)))) = Ok (i', d', c) /\
    c <= k /\ firstn c i' = map t (firstn c i) /\ firstn c d' = firstn c d /\ length i = length ind /\ length i' = length ind' /\ length d = length dst /\ length d' = length dst'.
Proof.
  intros sortf n p t dist dist' accept accept' acc L g g' ids tags tags' k ind dst ind' dst' Hs Hb Hp Hfin Hnan' Hd Ha Hacc HL Hn Hg Hg' Hm Hids Ht Ht' Htt Hk H1 H2 H3 H4.
  destruct (search_core sortf n dist accept acc L g ids tags k ind dst) as [st [i [d [G1 [G2 [G3 [G4 [G5 [_ G7]]]]]]]]]; auto; [apply Hfin|].
  set (acc' := fun y => match accept' y with Ok b => b | _ => false end).
  destruct (search_core sortf n dist' accept' acc' L g' (map p ids) tags' k ind' dst') as [st' [i' [d' [F1 [F2 [F3 [F4 [F5 [_ F7]]]]]]]]]; auto.
  { intros y Hy. destruct (renumbering_onto n p y Hp Hy) as [x [Hx <-]]. unfold acc'. rewrite (Ha x Hx), (Hacc x Hx). reflexivity. }
  { intros y Hy. apply in_map_iff in Hy. destruct Hy as [x [<- Hx]]. apply Hp. auto. }
  pose proof F1 as X. rewrite (greedy_ren sortf n p dist dist' accept accept' acc L g g' ids) in X by assumption. rewrite G1 in X. cbn [rmap] in X.
  assert (Est : st' = ren_state p st) by congruence.
  exists i, d, i', d', (min k (p_cur (g_pool st))). rewrite G1, F1. cbn [bind]. rewrite G2, F2. cbn [bind]. rewrite Est. cbn [ren_state ren_pool g_pool p_cur].
  split; [reflexivity|]. split; [reflexivity|]. split; [lia|].
  assert (Hz : forall j, j < min k (p_cur (g_pool st)) -> exists z, nth_error (found st) j = Some z /\ nth_error (found st') j = Some (ren p z) /\
     flt (ndist z) FLT_MAX = true /\ nid z < n).
  { intros j Hj. rewrite G3 in Hj. destruct (nth_error (found st) j) as [z|] eqn:Ez; [|apply nth_error_None in Ez; lia].
    exists z. split; [reflexivity|]. split.
    - rewrite Est. unfold found, pool_entries in *. cbn [ren_state ren_pool g_pool p_arr p_cur]. rewrite firstn_map, nth_error_map, Ez. reflexivity.
    - destruct (greedy_dyn_ok sortf n dist accept acc L (fun _ => g) ids) as [st0 [st1 [_ [E [HI _]]]]]; auto; [apply Hfin|].
      unfold greedy_search in G1. assert (st1 = st) by congruence. subst st1.
      destruct (gi_wf _ _ _ _ _ HI) as [_ [_ [_ [_ He]]]]. destruct (He z (nth_error_In _ _ Ez)) as [_ [Hzd Hzi]].
      pose proof (gi_lt _ _ _ _ _ HI _ Hzi) as Lz. split; [rewrite Hzd; apply Hfin; exact Lz|exact Lz]. }
  assert (Hj : forall j, j < min k (p_cur (g_pool st)) -> nth_error i' j = option_map t (nth_error i j) /\ nth_error d' j = nth_error d j).
  { intros j Hj. destruct (Hz j Hj) as [z [Z1 [Z2 [Z3 Z4]]]]. destruct (G7 j z ltac:(lia) Z1) as [A1 A2]. destruct (F7 j (ren p z) ltac:(lia) Z2) as [B1 B2].
    rewrite A1, A2, B1, B2, ren_dist, ren_id by exact Z3. split; [apply Htt; exact Z4|reflexivity]. }
  split; [|split; [|auto]].
  - apply nth_same. intros j. destruct (Nat.lt_ge_cases j (min k (p_cur (g_pool st)))) as [Lj|Lj].
    + rewrite nth_error_map, !nth_error_firstn_lt by exact Lj. apply Hj. exact Lj.
    + transitivity (@None nat); [apply nth_error_None; rewrite firstn_length; lia|]. symmetry. apply nth_error_None. rewrite map_length, firstn_length. lia.
  - apply nth_same. intros j. destruct (Nat.lt_ge_cases j (min k (p_cur (g_pool st)))) as [Lj|Lj].
    + rewrite !nth_error_firstn_lt by exact Lj. apply Hj. exact Lj.
    + transitivity (@None f32); [apply nth_error_None; rewrite firstn_length; lia|]. symmetry. apply nth_error_None. rewrite firstn_length. lia.
Qed.

Lemma moved_tags : forall n p (l l' : list nat), moved n p l l' -> length l = n /\ length l' = n /\ forall x, x < n -> nth_error l' (p x) = option_map (fun y => y) (nth_error l x).
Proof. intros n p l l' [H1 [H2 H3]]. split; [exact H1|]. split; [exact H2|]. intros x Hx. rewrite H3 by exact Hx. destruct (nth_error l x); reflexivity. Qed.

Lemma medoid_ren : forall p m x, medoid_of (map (fun c => (fst c, p (snd c))) m) x = option_map p (medoid_of m x).
Proof. intros p m x. induction m as [|[l i] m IH]; cbn; [reflexivity|]. destruct (String.eqb x l); [reflexivity|exact IH]. Qed.

Lemma starts_ren : forall p m fs, filter_starts (map (fun c => (fst c, p (snd c))) m) fs = map p (filter_starts m fs).
Proof.
  intros p m fs. induction fs as [|x fs IH]; cbn [filter_starts map]; [reflexivity|]. rewrite medoid_ren. destruct (medoid_of m x); cbn [option_map map]; rewrite IH; reflexivity.
Qed.

Lemma medoid_of_in : forall m x id, medoid_of m x = Some id -> In (x, id) m.
Proof.
  induction m as [|[l i] m IH]; intros x id H; cbn in H; [discriminate|]. destruct (String.eqb x l) eqn:E; [|right; auto].
  apply String.eqb_eq in E. subst. injection H as ->. left. reflexivity.
Qed.

Lemma starts_in : forall m fs id, In id (filter_starts m fs) -> exists x, In (x, id) m.
Proof.
  intros m fs. induction fs as [|x fs IH]; intros id H; cbn [filter_starts] in H; [destruct H|].
  destruct (medoid_of m x) eqn:E; [|auto]. destruct H as [<-|H]; [|auto]. exists x. apply medoid_of_in. exact E.
Qed.

Lemma passes_ren : forall n p lc lc' fs x, universal_label lc' = universal_label lc -> use_universal_label lc' = use_universal_label lc ->
  (fs = [] \/ moved n p (pts_to_labels lc) (pts_to_labels lc')) -> x < n -> passes_filter lc' fs (p x) = passes_filter lc fs x.
Proof.
  intros n p lc lc' fs x E1 E2 Hf Hx. unfold passes_filter. destruct fs as [|f fs]; [reflexivity|]. destruct Hf as [C|[_ [_ Hm]]]; [discriminate|].
  unfold rd. rewrite (Hm x Hx), E1, E2. reflexivity.
Qed.

Lemma passes_ok : forall n lc fs x, (fs = [] \/ length (pts_to_labels lc) = n) -> x < n -> passes_filter lc fs x = Ok (acc_of lc fs x).
Proof.
  intros n lc fs x Hf Hx. unfold acc_of, passes_filter. destruct fs as [|f fs]; [reflexivity|]. destruct Hf as [C|Hl]; [discriminate|].
  unfold rd. destruct (nth_error (pts_to_labels lc) x) eqn:E; [reflexivity|]. apply nth_error_None in E. lia.
Qed.

(** Vamana, with filters, and the relative neighbourhood graph: the same tags and distances. *)
Lemma vamana_renumbered : forall sortf p ix ix' dist dist' L k filters indices distances indices' distances',
  sorts sortf -> by_distances_only sortf -> index_ok ix -> renumbered p ix ix' ->
  (filters = [] \/ moved (ix_n ix) p (pts_to_labels (ix_labels ix)) (pts_to_labels (ix_labels ix'))) ->
  finite_distances (ix_n ix) dist -> finite_distances (ix_n ix) dist' -> (forall x, x < ix_n ix -> dist' (p x) = dist x) ->
  1 <= L -> k <= L + 1 -> k <= length indices -> k <= length distances -> k <= length indices' -> k <= length distances' ->
  exists i d i' d' c, vamana_search sortf ix dist L k filters indices distances = Ok (i, d, c) /\
    vamana_search sortf ix' dist' L k filters indices' distances' = Ok (i', d', c) /\ c <= k /\ firstn c i' = firstn c i /\ firstn c d' = firstn c d.
Proof.
  intros sortf p ix ix' dist dist' L k fs ind dst ind' dst' Hs Hb Hix [En Hp Htags Hgr Est Emed [U1 U2]] Hlab Hfin Hfin' Hd HL Hk H1 H2 H3 H4.
  unfold vamana_search. rewrite En. destruct Hix as [Hn [Hg [Ht [Hst Hmed]]]]. apply moved_tags in Htags. destruct Htags as [_ [T2 T3]].
  assert (Ei : vamana_init_ids ix' fs = map p (vamana_init_ids ix fs)).
  { unfold vamana_init_ids. destruct fs as [|f fs]; [rewrite Est; reflexivity|]. rewrite Emed. apply starts_ren. }
  rewrite Ei.
  destruct (search_ren sortf (ix_n ix) p (fun y => y) dist dist' (passes_filter (ix_labels ix) fs) (passes_filter (ix_labels ix') fs) (acc_of (ix_labels ix) fs) L (ix_graph ix) (ix_graph ix')
    (vamana_init_ids ix fs) (ix_tags ix) (ix_tags ix') k ind dst ind' dst') as [i [d [i' [d' [c [A1 [A2 [A3 [A4 [A5 _]]]]]]]]]]; auto.
  - apply Hfin'.
  - intros x Hx. apply (passes_ren (ix_n ix)); auto.
  - intros x Hx. apply (passes_ok (ix_n ix)); auto. destruct Hlab as [->|[Hl _]]; auto.
  - eapply moved_graph_ok; eassumption.
  - intros x Hx. unfold vamana_init_ids in Hx. destruct fs as [|f fs]; [destruct Hx as [<-|[]]; exact Hst|].
    apply starts_in in Hx. destruct Hx as [y Hy]. eapply Hmed; exact Hy.
  - rewrite map_id in A4. exists i, d, i', d', c. auto.
Qed.

Lemma rng_renumbered : forall sortf p ix ix' dist dist' L k filters indices distances indices' distances',
  sorts sortf -> by_distances_only sortf -> index_ok ix -> renumbered p ix ix' ->
  finite_distances (ix_n ix) dist -> finite_distances (ix_n ix) dist' -> (forall x, x < ix_n ix -> dist' (p x) = dist x) ->
  1 <= L -> k <= L + 1 -> k <= length indices -> k <= length distances -> k <= length indices' -> k <= length distances' ->
  exists i d i' d' c, rng_search sortf ix dist L k filters indices distances = Ok (i, d, c) /\
    rng_search sortf ix' dist' L k filters indices' distances' = Ok (i', d', c) /\ c <= k /\ firstn c i' = firstn c i /\ firstn c d' = firstn c d.
Proof.
  intros sortf p ix ix' dist dist' L k fs ind dst ind' dst' Hs Hb Hix Hr Hfin Hfin' Hd HL Hk H1 H2 H3 H4.
  exact (vamana_renumbered sortf p ix ix' dist dist' L k [] ind dst ind' dst' Hs Hb Hix Hr (or_introl eq_refl) Hfin Hfin' Hd HL Hk H1 H2 H3 H4).
Qed.
