From Coq Require Import ZArith String List Arith Lia Bool Sorting.Sorted Sorting.Permutation.
From Verif Require Import Base Float32 PoolModel TopKSpec FilterSpec SearchSpec SearchModel ListLemmas FilterProofs
  ClosestModel ClosestSpec ClosestProofs FlatModel FlatSpec FlatProofs IvfModel SearchProofs.
Import ListNotations.

(** ** Build *)
Lemma resize_length : forall v k, length (resize_lists v k) = k.
Proof. intros v k. unfold resize_lists. rewrite app_length, firstn_length, repeat_length. lia. Qed.

Lemma list_prod_one : forall (l : list nat), list_prod l [0] = map (fun j => (j, 0)) l.
Proof. induction l as [|x l IH]; cbn; [auto|]. f_equal. auto. Qed.

Lemma filter_map : forall (A B : Type) (f : A -> B) (p : B -> bool) l, filter p (map f l) = map f (filter (fun x => p (f x)) l).
Proof. intros A B f p l. induction l as [|x l IH]; cbn; [auto|]. destruct (p (f x)); cbn; congruence. Qed.

Lemma row_ok_one : forall row nc, (forall c, is_nan (row c) = false) ->
  (exists c, c < nc /\ flt (row c) FLT_MAX = true) -> row_ok row nc 1.
Proof. intros row nc H [c [Hc Hf]]. split; [auto|]. split; [lia|]. intros _. exists c. auto. Qed.

(** The lists after build, from any contents before. *)
Lemma ivf_build_ok : forall popf mbs dmat n nc orders old, pops popf -> 1 <= n -> 1 <= mbs ->
  block_orders n 1 (min n mbs) orders ->
  (forall j c, is_nan (dmat j c) = false) ->
  (forall j, j < n -> exists c, c < nc /\ flt (dmat j c) FLT_MAX = true) ->
  exists (assign : nat -> nat) inv,
    ivf_build popf mbs dmat n nc orders old = Ok inv /\ length inv = nc /\
    (forall j, j < n -> first_nearest (dmat j) nc (assign j)) /\
    forall c o, nth_error (resize_lists old nc) c = Some o ->
      exists new, nth_error inv c = Some (o ++ new) /\ Permutation new (filter (fun j => assign j =? c) (seq 0 n)).
Proof.
  intros popf mbs dmat n nc orders old Hp Hn Hm Ho Hnan Hfin.
  assert (Hnc : 1 <= nc) by (destruct (Hfin 0 ltac:(lia)) as [c [Hc _]]; lia).
  assert (Hrow : forall j, j < n -> row_ok (dmat j) nc 1) by (intros j Hj; apply row_ok_one; auto).
  destruct (compute_closest_ok popf mbs dmat n nc 1 orders (repeat 0 n) (Some (resize_lists old nc)))
    as [ivf' [inv' [E [_ [_ [_ Hs]]]]]]; auto.
  { rewrite repeat_length. lia. } { intros v Hv. assert (v = resize_lists old nc) by congruence. subst. apply resize_length. }
  destruct (Hs _ eq_refl) as [v' [-> [Hl Hv]]].
  exists (fun j => nth 0 (nearest_ids popf (dmat j) nc 1) 0), v'. unfold ivf_build. rewrite E. cbn [bind snd].
  split; [auto|]. split; [auto|]. split.
  - intros j Hj. destruct (nearest_ids_ok popf (dmat j) nc 1 Hp (Hrow j Hj)) as [_ [_ [_ [_ H1]]]].
    destruct (H1 eq_refl) as [c [-> Hc]]. exact Hc.
  - intros c o Hc. destruct (Hv c o Hc) as [new [En Pn]]. exists new. split; [auto|].
    eapply Permutation_trans; [exact Pn|]. unfold appended. cbn [seq]. rewrite list_prod_one, filter_map, map_map. cbn [fst].
    rewrite map_id. unfold assigned. cbn [fst snd]. apply Permutation_refl.
Qed.

Lemma nth_error_seq : forall n s i, i < n -> nth_error (seq s n) i = Some (s + i).
Proof.
  induction n as [|n IH]; intros s i H; [lia|]. destruct i; cbn.
  - f_equal. lia.
  - rewrite IH by lia. f_equal. lia.
Qed.

Lemma concat_filters : forall (assign : nat -> nat) (l : list nat) nc, (forall j, In j l -> assign j < nc) ->
  Permutation (concat (map (fun c => filter (fun j => assign j =? c) l) (seq 0 nc))) l.
Proof.
  intros assign l nc. induction l as [|x l IH]; intros H.
  - cbn. induction (seq 0 nc); cbn; auto.
  - specialize (IH (fun j Hj => H j (or_intror Hj))). specialize (H x (or_introl eq_refl)).
    eapply Permutation_trans; [|apply perm_skip; exact IH]. clear IH.
    assert (Hs : In (assign x) (seq 0 nc)) by (apply in_seq; lia). pose proof (seq_NoDup nc 0) as Hd. revert Hs Hd.
    generalize (seq 0 nc). intros cs Hs Hd. induction cs as [|c cs IHc]; [destruct Hs|]. cbn [map concat].
    inversion Hd as [|? ? Hni Hd']. subst. cbn [filter]. destruct (assign x =? c) eqn:E.
    + apply Nat.eqb_eq in E. subst c. cbn [app]. apply perm_skip. apply Permutation_app_head.
      clear - Hni. induction cs as [|c cs IH]; [constructor|]. cbn [map concat filter].
      replace (assign x =? c) with false by (symmetry; apply Nat.eqb_neq; intros C; apply Hni; left; auto).
      apply Permutation_app_head. apply IH. intros C. apply Hni. right. auto.
    + apply Nat.eqb_neq in E. destruct Hs as [C|Hs]; [congruence|]. specialize (IHc Hs Hd').
      eapply Permutation_trans; [apply Permutation_app_head; exact IHc|].
      apply Permutation_sym. apply Permutation_middle.
Qed.

Lemma nth_error_resize_nil : forall nc c, c < nc -> nth_error (resize_lists [] nc) c = Some [].
Proof.
  intros nc c H. unfold resize_lists. rewrite firstn_nil. cbn. rewrite Nat.sub_0_r. revert c H.
  induction nc as [|nc IH]; intros c H; [lia|]. destruct c; cbn; auto. apply IH. lia.
Qed.

Lemma list_as_map : forall (A : Type) (d : A) (l : list A), l = map (fun i => nth i l d) (seq 0 (length l)).
Proof.
  intros A d l. induction l as [|x l IH]; [reflexivity|]. cbn [length seq map]. f_equal. rewrite IH at 1.
  rewrite <- seq_shift, map_map. apply map_ext. reflexivity.
Qed.

Lemma Permutation_concat_pw : forall (A B : Type) (f g : A -> list B) l, (forall x, In x l -> Permutation (f x) (g x)) ->
  Permutation (concat (map f l)) (concat (map g l)).
Proof.
  intros A B f g l. induction l as [|x l IH]; intros H; cbn; [constructor|]. apply Permutation_app; [apply H; left; auto|].
  apply IH. intros y Hy. apply H. right. auto.
Qed.

Lemma ivf_build_fresh : forall popf mbs dmat n nc orders, pops popf -> 1 <= n -> 1 <= mbs ->
  block_orders n 1 (min n mbs) orders ->
  (forall j c, is_nan (dmat j c) = false) ->
  (forall j, j < n -> exists c, c < nc /\ flt (dmat j c) FLT_MAX = true) ->
  exists inv, ivf_build popf mbs dmat n nc orders [] = Ok inv /\ length inv = nc /\
    Permutation (concat inv) (seq 0 n) /\
    (forall c l j, nth_error inv c = Some l -> In j l -> first_nearest (dmat j) nc c).
Proof.
  intros popf mbs dmat n nc orders Hp Hn Hm Ho Hnan Hfin.
  destruct (ivf_build_ok popf mbs dmat n nc orders [] Hp Hn Hm Ho Hnan Hfin) as [assign [inv [E [L [Ha Hl]]]]].
  exists inv. split; [auto|]. split; [auto|].
  assert (Hc : forall c, c < nc -> exists new, nth_error inv c = Some new /\ Permutation new (filter (fun j => assign j =? c) (seq 0 n))).
  { intros c Hc. apply (Hl c []). apply nth_error_resize_nil. auto. }
  split.
  - rewrite (list_as_map _ [] inv), L. eapply Permutation_trans; [|apply (concat_filters assign (seq 0 n) nc)].
    + apply Permutation_concat_pw. intros c Hcs. apply in_seq in Hcs. destruct (Hc c ltac:(lia)) as [new [E1 P1]].
      rewrite (nth_error_nth _ _ [] E1). exact P1.
    + intros j Hj. apply in_seq in Hj. apply Ha. lia.
  - intros c l j Hcl Hj. destruct (Hc c) as [new [E1 P1]].
    { rewrite <- L. apply nth_error_Some. congruence. }
    assert (new = l) by congruence. subst new. apply (Permutation_in _ P1) in Hj. apply filter_In in Hj. destruct Hj as [Hj He].
    apply Nat.eqb_eq in He. subst c. apply in_seq in Hj. apply Ha. lia.
Qed.

(** Building again keeps the old lists. *)
Lemma ivf_build_again : forall popf mbs dmat n nc orders old, pops popf -> 1 <= n -> 1 <= mbs ->
  block_orders n 1 (min n mbs) orders ->
  (forall j c, is_nan (dmat j c) = false) ->
  (forall j, j < n -> exists c, c < nc /\ flt (dmat j c) FLT_MAX = true) ->
  length old = nc -> Permutation (concat old) (seq 0 n) ->
  exists inv, ivf_build popf mbs dmat n nc orders old = Ok inv /\
    Permutation (concat inv) (seq 0 n ++ seq 0 n).
Proof.
  intros popf mbs dmat n nc orders old Hp Hn Hm Ho Hnan Hfin Hlo Hpo.
  destruct (ivf_build_ok popf mbs dmat n nc orders old Hp Hn Hm Ho Hnan Hfin) as [assign [inv [E [L [Ha Hl]]]]].
  exists inv. split; [auto|].
  assert (Er : resize_lists old nc = old).
  { unfold resize_lists. rewrite Hlo, Nat.sub_diag. cbn. rewrite app_nil_r. apply firstn_all2. lia. }
  rewrite Er in Hl.
  rewrite (list_as_map _ [] inv), L.
  assert (P : Permutation (concat (map (fun i => nth i inv []) (seq 0 nc)))
      (concat (map (fun i => nth i old [] ++ filter (fun j => assign j =? i) (seq 0 n)) (seq 0 nc)))).
  { apply Permutation_concat_pw. intros c Hc. apply in_seq in Hc.
    destruct (nth_error old c) as [o|] eqn:Eo.
    - destruct (Hl c o Eo) as [new [E1 P1]]. rewrite (nth_error_nth _ _ [] E1), (nth_error_nth _ _ [] Eo). apply Permutation_app_head. exact P1.
    - apply nth_error_None in Eo. lia. }
  eapply Permutation_trans; [exact P|]. clear P.
  assert (P2 : forall (f g : nat -> list nat) l, Permutation (concat (map (fun i => f i ++ g i) l)) (concat (map f l) ++ concat (map g l))).
  { intros f g l. induction l as [|x l IH]; cbn; [constructor|]. rewrite <- !app_assoc. apply Permutation_app_head.
    eapply Permutation_trans; [apply Permutation_app_head; exact IH|]. rewrite !app_assoc. apply Permutation_app_tail. apply Permutation_app_comm. }
  eapply Permutation_trans; [apply P2|]. apply Permutation_app.
  - rewrite <- Hlo. rewrite <- list_as_map. exact Hpo.
  - apply concat_filters. intros j Hj. apply in_seq in Hj. apply Ha. lia.
Qed.

(** A point with no centre nearer than FLT_MAX. *)
Lemma closest_rows_far : forall popf dmat nc start cnt i closest closest', closest_rows popf dmat nc 1 start i cnt closest = Ok closest' ->
  forall x, nth_error closest x = Some None -> (forall c, flt (dmat (start + x) c) FLT_MAX = false) -> nth_error closest' x = Some None.
Proof.
  intros popf dmat nc start cnt. induction cnt as [|cnt IH]; intros i closest closest' H x Hx Hf; cbn [closest_rows] in H.
  - congruence.
  - cbn [Nat.eqb] in H. destruct (rd closest i) as [s| | | |] eqn:Er; try discriminate. cbn [bind] in H.
    destruct (wr closest i (closest_one (dmat (start + i)) 0 nc FLT_MAX s)) as [c1| | | |] eqn:Ew; try discriminate. cbn [bind] in H.
    apply (IH _ _ _ H x); auto. apply rd_ok in Er. assert (Hi : i < length closest) by (apply nth_error_Some; congruence).
    destruct (wr_nth _ closest i (closest_one (dmat (start + i)) 0 nc FLT_MAX s) Hi) as [b [Eb [_ Nb]]].
    assert (b = c1) by congruence. subst b. rewrite Nb. destruct (Nat.eq_dec x i) as [->|]; [|auto].
    rewrite closest_one_none by (intros; apply Hf). congruence.
Qed.

Lemma distribute_none : forall k start pairs closest ivf inv j l, In (j, l) pairs ->
  nth_error closest ((j - start) * k + l) = Some None -> distribute k start pairs closest ivf inv = UB.
Proof.
  intros k start pairs. induction pairs as [|[j' l'] rest IH]; intros closest ivf inv j l Hin Hc; [destruct Hin|].
  cbn [distribute]. destruct Hin as [E|Hin].
  - assert (j' = j /\ l' = l) as [-> ->] by (split; congruence). apply rd_ok in Hc. rewrite Hc. reflexivity.
  - unfold rd at 1. destruct (nth_error closest ((j' - start) * k + l')) as [[c|]|]; cbn [bind]; auto.
    unfold wr at 1. destruct (j' * k + l' <? length ivf); cbn [bind]; auto.
    destruct inv as [v|]; cbn [bind]; [|eapply IH; eauto]. unfold push_list, rd. destruct (nth_error v c); cbn [bind]; auto.
    unfold wr. destruct (c <? length v); cbn [bind]; auto. eapply IH; eauto.
Qed.

Lemma closest_rows_ok_ub : forall popf dmat nc start cnt i closest,
  (exists c, closest_rows popf dmat nc 1 start i cnt closest = Ok c) \/ closest_rows popf dmat nc 1 start i cnt closest = UB.
Proof.
  intros popf dmat nc start cnt. induction cnt as [|cnt IH]; intros i cl; cbn [closest_rows]; [left; eexists; reflexivity|].
  cbn [Nat.eqb]. unfold rd. destruct (nth_error cl i); cbn [bind]; [|auto].
  unfold wr. destruct (i <? length cl); cbn [bind]; auto.
Qed.

Lemma ivf_build_far : forall popf mbs dmat n nc orders old j, n <= mbs -> 1 <= nc ->
  block_orders n 1 (min n mbs) orders -> j < n -> (forall c, flt (dmat j c) FLT_MAX = false) ->
  ivf_build popf mbs dmat n nc orders old = UB.
Proof.
  intros popf mbs dmat n nc orders old j Hm Hnc Ho Hj Hf. unfold ivf_build, compute_closest.
  replace (nc <? 1) with false by (symmetry; apply Nat.ltb_ge; auto). rewrite Nat.min_l in * by auto.
  replace (n =? 0) with false by (symmetry; apply Nat.eqb_neq; lia).
  assert (En : n_blocks n n = 1) by (unfold n_blocks; rewrite Nat.mod_same, Nat.div_same by lia; reflexivity).
  rewrite En. cbn [closest_blocks]. unfold closest_in_block.
  replace (nc <? 1) with false by (symmetry; apply Nat.ltb_ge; auto).
  replace (min n (n - 0 * n)) with n by lia.
  destruct (closest_rows popf dmat nc 1 (0 * n) 0 n (repeat None (n * 1))) as [c1| | | |] eqn:E; cbn [bind]; auto.
  - assert (Hx : nth_error c1 j = Some None).
    { eapply closest_rows_far; [exact E| |].
      - apply nth_error_repeat. lia.
      - intros c. cbn. apply Hf. }
    rewrite (distribute_none 1 (0 * n) (orders 0) c1 _ _ j 0); [reflexivity| |].
    + apply (Permutation_in _ (Permutation_sym (Ho 0))). apply in_prod_iff. rewrite !in_seq. lia.
    + replace ((j - 0 * n) * 1 + 0) with j by lia. auto.
  - exfalso. destruct (closest_rows_ok_ub popf dmat nc (0 * n) n 0 (repeat None (n * 1))) as [[c C]|C]; congruence.
  - exfalso. destruct (closest_rows_ok_ub popf dmat nc (0 * n) n 0 (repeat None (n * 1))) as [[c C]|C]; congruence.
  - exfalso. destruct (closest_rows_ok_ub popf dmat nc (0 * n) n 0 (repeat None (n * 1))) as [[c C]|C]; congruence.
Qed.

(** ** Search *)
Lemma one_point_orders : forall k mbs, 1 <= mbs -> block_orders 1 k (min 1 mbs) (one_point_order k).
Proof.
  intros k mbs H b. replace (min 1 mbs) with 1 by lia. unfold one_point_order. rewrite Nat.mul_1_r.
  replace (min 1 (1 - b)) with (1 - b) by lia. apply Permutation_refl.
Qed.

Lemma gather_ok : forall inv cs, (forall c, In c cs -> c < length inv) ->
  gather inv cs = Ok (concat (map (fun c => nth c inv []) cs)).
Proof.
  intros inv cs. induction cs as [|c cs IH]; intros H; cbn; [auto|].
  destruct (rd_lt _ inv c) as [l El]; [apply H; left; auto|]. rewrite El. cbn [bind]. apply rd_ok in El.
  rewrite IH by (intros x Hx; apply H; right; auto). cbn [bind]. rewrite (nth_error_nth _ _ [] El). reflexivity.
Qed.

Lemma nth_error_ext' : forall (A : Type) (l l' : list A), (forall i, nth_error l i = nth_error l' i) -> l = l'.
Proof.
  intros A l. induction l as [|x l IH]; intros [|y l'] H.
  - reflexivity.
  - specialize (H 0). discriminate.
  - specialize (H 0). discriminate.
  - pose proof (H 0) as H0. cbn in H0. assert (x = y) by congruence. subst. f_equal. apply IH. intros i. apply (H (S i)).
Qed.

Lemma ivf_candidates_ok : forall popf mbs ix cdist probe, pops popf -> 1 <= mbs -> probe <= ivf_nc ix ->
  length (ivf_inv ix) = ivf_nc ix ->
  (forall c, is_nan (cdist c) = false) -> (exists c, c < ivf_nc ix /\ flt (cdist c) FLT_MAX = true) ->
  exists probed, length probed = probe /\ NoDup probed /\ (forall c, In c probed -> c < ivf_nc ix) /\
    is_top_k probe (score cdist (seq 0 (ivf_nc ix))) (score cdist probed) /\
    ivf_candidates popf mbs ix cdist probe = Ok (concat (map (fun c => nth c (ivf_inv ix) []) probed)).
Proof.
  intros popf mbs ix cdist probe Hp Hm Hpr Hl Hnan Hfin.
  assert (Hrow : row_ok cdist (ivf_nc ix) probe) by (split; [auto|split; auto]).
  destruct (compute_closest_ok popf mbs (fun _ => cdist) 1 (ivf_nc ix) probe (one_point_order probe) (repeat 0 probe) None)
    as [ivf' [inv' [E [L [I _]]]]]; auto.
  { apply one_point_orders; auto. } { rewrite repeat_length. lia. } { discriminate. }
  destruct (nearest_ids_ok popf cdist (ivf_nc ix) probe Hp Hrow) as [A [B [C [D _]]]].
  assert (Ei : ivf' = nearest_ids popf cdist (ivf_nc ix) probe).
  { apply nth_error_ext'. intros i. destruct (Nat.lt_ge_cases i probe) as [Hi|Hi].
    - specialize (I 0 i ltac:(lia) Hi). cbn in I. exact I.
    - rewrite (proj2 (nth_error_None _ _)) by lia. symmetry. apply nth_error_None. lia. }
  subst ivf'. exists (nearest_ids popf cdist (ivf_nc ix) probe). repeat (split; [solve [auto]|]).
  unfold ivf_candidates. rewrite E. cbn [bind fst]. apply gather_ok. intros c Hc. rewrite Hl. auto.
Qed.

(** What build gives and search needs. *)
Definition ivf_ok (ix : ivf_index) : Prop :=
  length (ivf_inv ix) = ivf_nc ix /\ (forall l id, In l (ivf_inv ix) -> In id l -> id < ivf_n ix).

Lemma ivf_search_probed : forall popf mbs ix cdist dist probe m filters indices distances,
  pops popf -> 1 <= mbs -> ivf_ok ix -> probe <= ivf_nc ix -> 1 <= m ->
  (filters = [] \/ length (pts_to_labels (ivf_labels ix)) = ivf_n ix) ->
  (forall c, is_nan (cdist c) = false) -> (exists c, c < ivf_nc ix /\ flt (cdist c) FLT_MAX = true) ->
  finite_distances (ivf_n ix) dist -> room m indices distances ->
  exists probed ids indices' distances' cmps,
    length probed = probe /\ NoDup probed /\ (forall c, In c probed -> c < ivf_nc ix) /\
    is_top_k probe (score cdist (seq 0 (ivf_nc ix))) (score cdist probed) /\
    ivf_search popf mbs ix cdist dist probe m filters indices distances = Ok (indices', distances', length ids, cmps) /\
    is_top_k m (score dist (nodup Nat.eq_dec (filter (acc_of (ivf_labels ix) filters)
                              (concat (map (fun c => nth c (ivf_inv ix) []) probed))))) (score dist ids) /\
    NoDup ids /\ (forall id, In id ids -> id < ivf_n ix /\ acc_of (ivf_labels ix) filters id = true) /\
    holds dist ids indices indices' distances distances'.
Proof.
  intros popf mbs ix cdist dist probe m filters indices distances Hp Hmb [Hl Hin] Hpr Hm Hlab Hnan Hfin Hd Hr.
  destruct (ivf_candidates_ok popf mbs ix cdist probe Hp Hmb Hpr Hl Hnan Hfin) as [probed [A [B [C [D E]]]]].
  set (cands := concat (map (fun c => nth c (ivf_inv ix) []) probed)) in *.
  assert (Hc : forall id, In id cands -> id < ivf_n ix).
  { intros id H. unfold cands in H. apply in_concat in H. destruct H as [l [H1 H2]]. apply in_map_iff in H1.
    destruct H1 as [c [<- Hc]]. apply (Hin (nth c (ivf_inv ix) [])); auto. apply nth_In. rewrite Hl. auto. }
  destruct (flat_search_ok (ivf_n ix) dist (passes_filter (ivf_labels ix) filters) (acc_of (ivf_labels ix) filters) m cands indices distances)
    as [ids [i' [d' [E2 [T [N [F H]]]]]]]; auto.
  { intros id Hid. apply (acc_of_ok _ _ (ivf_n ix)); auto. }
  exists probed, ids, i', d', (length (nodup Nat.eq_dec (filter (acc_of (ivf_labels ix) filters) cands))).
  repeat (split; [solve [auto]|]). unfold ivf_search. rewrite E. cbn [bind].
  split; [auto|]. split; [auto|]. split; [auto|]. split; [|auto]. intros id Hid. destruct (F id Hid) as [F1 F2]. auto.
Qed.

Lemma top_k_perm : forall k a b out, Permutation a b -> is_top_k k a out -> is_top_k k b out.
Proof.
  intros k a b out P [rest [H1 [H2 H3]]]. exists rest. split; [|split; auto].
  - eapply Permutation_trans; [apply Permutation_sym; exact P|auto].
  - rewrite <- (Permutation_length P). auto.
Qed.

Lemma nodup_perm_seq : forall n acc l, Permutation l (seq 0 n) ->
  Permutation (nodup Nat.eq_dec (filter acc l)) (filter acc (seq 0 n)).
Proof.
  intros n acc l P. rewrite nodup_fixed_point.
  - apply Permutation_filter. auto.
  - apply NoDup_filter. eapply Permutation_NoDup; [apply Permutation_sym; exact P|apply seq_NoDup].
Qed.

Lemma all_probed : forall (inv : list (list nat)) nc probed, length inv = nc -> NoDup probed -> length probed = nc ->
  (forall c, In c probed -> c < nc) ->
  Permutation (concat (map (fun c => nth c inv []) probed)) (concat inv).
Proof.
  intros inv nc probed Hl Hd Hn Hb.
  assert (P : Permutation probed (seq 0 nc)).
  { apply NoDup_Permutation_bis; auto.
    - rewrite seq_length. lia.
    - intros c Hc. apply in_seq. specialize (Hb c Hc). lia. }
  assert (E : concat inv = concat (map (fun c => nth c inv []) (seq 0 nc))) by (f_equal; rewrite <- Hl; apply list_as_map).
  rewrite E. rewrite <- !flat_map_concat_map. apply Permutation_flat_map. exact P.
Qed.

Lemma ivf_search_exact : forall popf mbs ix cdist dist m filters indices distances,
  pops popf -> 1 <= mbs -> length (ivf_inv ix) = ivf_nc ix -> Permutation (concat (ivf_inv ix)) (seq 0 (ivf_n ix)) -> 1 <= m ->
  (filters = [] \/ length (pts_to_labels (ivf_labels ix)) = ivf_n ix) ->
  (forall c, is_nan (cdist c) = false) -> (exists c, c < ivf_nc ix /\ flt (cdist c) FLT_MAX = true) ->
  finite_distances (ivf_n ix) dist -> room m indices distances ->
  exists ids indices' distances' cmps,
    ivf_search popf mbs ix cdist dist (ivf_nc ix) m filters indices distances = Ok (indices', distances', length ids, cmps) /\
    is_top_k m (score dist (filter (acc_of (ivf_labels ix) filters) (seq 0 (ivf_n ix)))) (score dist ids) /\
    holds dist ids indices indices' distances distances'.
Proof.
  intros popf mbs ix cdist dist m filters indices distances Hp Hmb Hl HP Hm Hlab Hnan Hfin Hd Hr.
  assert (Hok : ivf_ok ix).
  { split; [auto|]. intros l id H1 H2. assert (In id (concat (ivf_inv ix))) as H by (apply in_concat; exists l; auto).
    apply (Permutation_in _ HP) in H. apply in_seq in H. lia. }
  destruct (ivf_search_probed popf mbs ix cdist dist (ivf_nc ix) m filters indices distances Hp Hmb Hok (le_n _) Hm Hlab Hnan Hfin Hd Hr)
    as [probed [ids [i' [d' [cmps [A [B [C [D [E [T [N [F H]]]]]]]]]]]]].
  exists ids, i', d', cmps. split; [auto|]. split; [|auto]. eapply top_k_perm; [|exact T]. unfold score. apply Permutation_map.
  apply nodup_perm_seq. eapply Permutation_trans; [|exact HP]. eapply all_probed; eauto.
Qed.

Lemma nodup_same_filter : forall (acc : nat -> bool) l k, 1 <= k ->
  Permutation (nodup Nat.eq_dec (filter acc (concat (repeat l k)))) (nodup Nat.eq_dec (filter acc l)).
Proof.
  intros acc l k Hk. apply NoDup_Permutation; try apply NoDup_nodup. intros x. rewrite !nodup_In, !filter_In.
  split; intros [H1 H2]; split; auto.
  - apply in_concat in H1. destruct H1 as [y [Hy Hx]]. apply repeat_spec in Hy. subst. auto.
  - apply in_concat. exists l. split; [|auto]. destruct k; [lia|]. left. auto.
Qed.

Lemma ivf_search_wide : forall popf mbs ix cdist dist probe m filters indices distances l0 rest,
  ivf_ok ix -> ivf_inv ix = l0 :: rest -> ivf_nc ix < probe -> 1 <= m ->
  (filters = [] \/ length (pts_to_labels (ivf_labels ix)) = ivf_n ix) ->
  finite_distances (ivf_n ix) dist -> room m indices distances ->
  exists ids indices' distances' cmps,
    ivf_search popf mbs ix cdist dist probe m filters indices distances = Ok (indices', distances', length ids, cmps) /\
    is_top_k m (score dist (nodup Nat.eq_dec (filter (acc_of (ivf_labels ix) filters) l0))) (score dist ids) /\
    holds dist ids indices indices' distances distances'.
Proof.
  intros popf mbs ix cdist dist probe m filters indices distances l0 rest [Hl Hin] Hi Hpr Hm Hlab Hd Hr.
  assert (Hg : ivf_candidates popf mbs ix cdist probe = Ok (concat (repeat l0 probe))).
  { unfold ivf_candidates, compute_closest. apply Nat.ltb_lt in Hpr. rewrite Hpr. cbn [bind fst]. rewrite Hi.
    rewrite gather_ok by (intros c Hc; apply repeat_spec in Hc; subst; cbn; lia). f_equal. f_equal.
    clear. induction probe as [|p IH]; [reflexivity|]. cbn [repeat map]. rewrite IH. reflexivity. }
  assert (Hc : forall id, In id (concat (repeat l0 probe)) -> id < ivf_n ix).
  { intros id H. apply in_concat in H. destruct H as [l [H1 H2]]. apply repeat_spec in H1. subst l. apply (Hin l0); auto. rewrite Hi. left. auto. }
  destruct (flat_search_ok (ivf_n ix) dist (passes_filter (ivf_labels ix) filters) (acc_of (ivf_labels ix) filters) m
      (concat (repeat l0 probe)) indices distances) as [ids [i' [d' [E2 [T [N [F H]]]]]]]; auto.
  { intros id Hid. apply (acc_of_ok _ _ (ivf_n ix)); auto. }
  exists ids, i', d'. eexists. unfold ivf_search. rewrite Hg. cbn [bind]. split; [exact E2|]. split; [|auto].
  eapply top_k_perm; [|exact T]. unfold score. apply Permutation_map. apply nodup_same_filter. lia.
Qed.

Lemma ivf_search_no_clusters : forall popf mbs ix cdist dist probe m filters indices distances,
  ivf_inv ix = [] -> ivf_nc ix = 0 -> 1 <= probe ->
  ivf_search popf mbs ix cdist dist probe m filters indices distances = UB.
Proof.
  intros popf mbs ix cdist dist probe m filters indices distances Hi Hn Hp. unfold ivf_search, ivf_candidates, compute_closest.
  rewrite Hn. replace (0 <? probe) with true by (symmetry; apply Nat.ltb_lt; auto). cbn [bind fst]. rewrite Hi.
  destruct probe; [lia|]. reflexivity.
Qed.

Lemma acc_matches : forall lc filters id labels, nth_error (pts_to_labels lc) id = Some labels ->
  acc_of lc filters id = true -> matches (universal_of lc) filters labels.
Proof.
  intros lc filters id labels H1 H2. unfold acc_of in H2. destruct (passes_filter lc filters id) as [b| | | |] eqn:E; try discriminate.
  subst b. eapply passes_filter_sound; eauto.
Qed.

(** Slot i < length ids holds the i-th id. *)
Lemma holds_nth : forall dist ids i i' d d', holds dist ids i i' d d' ->
  forall k, k < length ids -> nth_error i' k = nth_error ids k.
Proof.
  intros dist ids i i' d d' [_ [H _]] k Hk. rewrite <- H at 1. symmetry. apply nth_error_firstn_lt. auto.
Qed.

Lemma ivf_search_filtered : forall popf mbs ix cdist dist probe m filters indices distances,
  pops popf -> 1 <= mbs -> ivf_ok ix -> probe <= ivf_nc ix -> 1 <= m ->
  length (pts_to_labels (ivf_labels ix)) = ivf_n ix ->
  (forall c, is_nan (cdist c) = false) -> (exists c, c < ivf_nc ix /\ flt (cdist c) FLT_MAX = true) ->
  finite_distances (ivf_n ix) dist -> room m indices distances ->
  exists ids indices' distances' cmps,
    ivf_search popf mbs ix cdist dist probe m filters indices distances = Ok (indices', distances', length ids, cmps) /\
    holds dist ids indices indices' distances distances' /\
    forall id, In id ids -> exists labels, nth_error (pts_to_labels (ivf_labels ix)) id = Some labels /\
      matches (universal_of (ivf_labels ix)) filters labels.
Proof.
  intros popf mbs ix cdist dist probe m filters indices distances Hp Hmb Hok Hpr Hm Hlab Hnan Hfin Hd Hr.
  destruct (ivf_search_probed popf mbs ix cdist dist probe m filters indices distances Hp Hmb Hok Hpr Hm (or_intror Hlab) Hnan Hfin Hd Hr)
    as [probed [ids [i' [d' [cmps [A [B [C [D [E [T [N [F H]]]]]]]]]]]]].
  exists ids, i', d', cmps. split; [auto|]. split; [auto|]. intros id Hid. destruct (F id Hid) as [F1 F2].
  destruct (nth_error (pts_to_labels (ivf_labels ix)) id) as [labels|] eqn:El.
  - exists labels. split; [auto|]. eapply acc_matches; eauto.
  - apply nth_error_None in El. lia.
Qed.

Lemma ivf_search_tags : forall popf mbs ix cdist dist probe m filters indices distances,
  pops popf -> 1 <= mbs -> ivf_ok ix -> probe <= ivf_nc ix -> 1 <= m ->
  (filters = [] \/ length (pts_to_labels (ivf_labels ix)) = ivf_n ix) ->
  (forall c, is_nan (cdist c) = false) -> (exists c, c < ivf_nc ix /\ flt (cdist c) FLT_MAX = true) ->
  finite_distances (ivf_n ix) dist -> room m indices distances ->
  (forall t, In t (ivf_tags ix) -> ivf_n ix <= t) ->
  exists indices' distances' cnt cmps,
    ivf_search popf mbs ix cdist dist probe m filters indices distances = Ok (indices', distances', cnt, cmps) /\
    forall i t, i < cnt -> nth_error indices' i = Some t -> ~ In t (ivf_tags ix).
Proof.
  intros popf mbs ix cdist dist probe m filters indices distances Hp Hmb Hok Hpr Hm Hlab Hnan Hfin Hd Hr Ht.
  destruct (ivf_search_probed popf mbs ix cdist dist probe m filters indices distances Hp Hmb Hok Hpr Hm Hlab Hnan Hfin Hd Hr)
    as [probed [ids [i' [d' [cmps [A [B [C [D [E [T [N [F H]]]]]]]]]]]]].
  exists i', d', (length ids), cmps. split; [auto|]. intros i t Hi Hit Hin. rewrite (holds_nth _ _ _ _ _ _ H) in Hit by auto.
  apply nth_error_In in Hit. destruct (F t Hit) as [F1 _]. specialize (Ht t Hin). lia.
Qed.
