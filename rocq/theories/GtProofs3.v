(** * The ground truth computation on k = 0 and on no points. *)
From Coq Require Import List Arith Bool Lia Sorting.Permutation Floats.SpecFloat.
From Verif Require Import Base Float32 ClosestModel ClosestProofs TopKSpec HeapSpec GtModel GtSpec GtProofs2.
Import ListNotations.

Lemma exact_knn_zero : forall pushf takef bs npoints nq dmat orders out, heap_ok pushf takef -> 1 <= bs -> 1 <= npoints -> 1 <= nq -> batch_orders nq bs orders ->
  exact_knn pushf takef bs 0 npoints nq dmat orders out = UB.
Proof.
  intros pushf takef bs npoints nq dmat orders out (_ & Ht & _) Hbs Hn Hq Hb. unfold exact_knn.
  destruct (n_blocks nq bs) as [|c] eqn:E.
  - exfalso. unfold n_blocks in E. pose proof (Nat.div_mod nq bs ltac:(lia)) as D. destruct (nq mod bs =? 0) eqn:M; [apply Nat.eqb_eq in M; nia|lia].
  - cbn [knn_batches]. specialize (Hb 0). cbn [Nat.mul] in Hb. rewrite Nat.sub_0_r in Hb. destruct (orders 0) as [|q t].
    + apply Permutation_nil in Hb. destruct (min bs nq) eqn:M; [lia|discriminate].
    + cbn [knn_queries]. unfold knn_query. cbn [knn_fill bind]. rewrite Nat.sub_0_r. destruct npoints as [|np]; [lia|]. cbn [knn_scan]. rewrite Ht. reflexivity.
Qed.

Lemma ground_truth_no_points : forall pushf takef sortf bs ps nq k dmat orders, sorts_pairs sortf -> 1 <= ps -> 1 <= nq -> 1 <= k ->
  ground_truth pushf takef sortf bs ps 0 nq k dmat orders = UB.
Proof.
  intros pushf takef sortf bs ps nq k dmat orders Hs Hps Hq Hk. unfold ground_truth, n_blocks.
  rewrite Nat.mod_small, Nat.div_small by lia. cbn [Nat.eqb gt_parts bind fst snd]. destruct nq as [|nq]; [lia|]. cbn [repeat gt_merge].
  destruct (Hs []) as [P _]; [intros z []|]. apply Permutation_nil in P. rewrite P. destruct k as [|k]; [lia|]. reflexivity.
Qed.

Lemma ground_truth_k_zero : forall pushf takef sortf bs ps n nq dmat orders, heap_ok pushf takef -> 1 <= bs -> 1 <= ps -> 1 <= n -> 1 <= nq ->
  (forall p, batch_orders nq bs (orders p)) -> ground_truth pushf takef sortf bs ps n nq 0 dmat orders = UB.
Proof.
  intros pushf takef sortf bs ps n nq dmat orders HO Hbs Hps Hn Hq Hord. unfold ground_truth.
  destruct (n_blocks n ps) as [|c] eqn:E.
  - exfalso. unfold n_blocks in E. pose proof (Nat.div_mod n ps ltac:(lia)) as D. destruct (n mod ps =? 0) eqn:M; [apply Nat.eqb_eq in M; nia|lia].
  - cbn [gt_parts]. cbn zeta. rewrite Nat.mul_0_l, Nat.sub_0_r. assert (Z : (if min ps n <=? 0 then min ps n else 0) = 0) by (destruct (Nat.leb_spec (min ps n) 0); lia).
    rewrite Z. rewrite exact_knn_zero; auto. lia.
Qed.

Lemma ground_truth_k : forall pushf takef sortf bs ps n nq k dmat orders k' out, heap_ok pushf takef -> sorts_pairs sortf ->
  (forall q p, is_nan (dmat q p) = false) -> 1 <= bs -> 1 <= ps -> 1 <= n -> 1 <= k -> (forall p, batch_orders nq bs (orders p)) ->
  ground_truth pushf takef sortf bs ps n nq k dmat orders = Ok (k', out) -> k' = min k (last_part n ps).
Proof.
  intros pushf takef sortf bs ps n nq k dmat orders k' out HO Hs Hn Hbs Hps Hn1 Hk Hord E.
  destruct (ground_truth_ok pushf takef sortf bs ps n nq k dmat orders HO Hs Hn Hbs Hps Hn1 Hk Hord) as [out' [E' _]]. congruence.
Qed.
