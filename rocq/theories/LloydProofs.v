(** * Lemmas about Lloyd's iterations. *)
From Coq Require Import ZArith List Arith Bool Lia Sorting.Permutation Floats.SpecFloat.
From Verif Require Import Base Float32 ListLemmas ClosestModel ClosestSpec ClosestProofs IvfProofs PqModel PqSpec PqProofs PqProofs2 LloydModel LloydSpec.
Import ListNotations.

(** ** The new centre of a cluster *)
Lemma add_docs_ok : forall dim data docs f, (forall p, In p docs -> exists x, nth_error data p = Some x /\ length x = dim) ->
  add_docs dim data docs (map f (seq 0 dim)) =
    Ok (map (fun i => fold_left f64_add (map f64_of_f32 (map (fun p => nth i (nth p data []) f32_zero) docs)) (f i)) (seq 0 dim)).
Proof.
  intros dim data. induction docs as [|p docs IH]; intros f H; cbn [add_docs map fold_left]; [reflexivity|].
  destruct (H p ltac:(now left)) as [x [E L]]. rewrite (proj2 (rd_ok _ data p x) E). cbn [bind].
  assert (En : nth p data [] = x) by (now apply nth_error_nth).
  rewrite (collect_map _ _ _ (fun j => f64_add (f j) (f64_of_f32 (nth j x f32_zero)))).
  - cbn [bind]. rewrite (IH (fun j => f64_add (f j) (f64_of_f32 (nth j x f32_zero)))) by (intros; apply H; now right). f_equal. apply map_ext. intros i. now rewrite En.
  - intros j Hj. apply in_seq in Hj. assert (E1 : rd (map f (seq 0 dim)) j = Ok (f j)) by (apply rd_ok; rewrite nth_error_map, nth_error_seq_lt by lia; reflexivity).
    rewrite E1. cbn [bind]. assert (E2 : rd x j = Ok (nth j x f32_zero)) by (apply rd_ok, nth_error_nth'; lia). now rewrite E2.
Qed.

Lemma map_const_seq : forall (A : Type) (a : A) n s, map (fun _ => a) (seq s n) = repeat a n.
Proof. intros A a. induction n as [|n IH]; intros s; cbn; [auto|]. now rewrite IH. Qed.

Lemma new_center_ok : forall dim data docs, (forall p, In p docs -> exists x, nth_error data p = Some x /\ length x = dim) ->
  new_center dim data docs = Ok (centroid_of dim data docs).
Proof.
  intros dim data docs H. unfold new_center. rewrite <- (map_const_seq _ f64_zero dim 0), (add_docs_ok dim data docs (fun _ => f64_zero) H). cbn [bind].
  destruct docs as [|p docs]; [reflexivity|]. cbn [length Nat.ltb Nat.leb]. set (ds := p :: docs) in *.
  rewrite (collect_map _ _ _ (fun i => mean_of (map (fun p => nth i (nth p data []) f32_zero) ds))); [reflexivity|].
  intros i Hi. apply in_seq in Hi.
  assert (E : rd (map (fun i => fold_left f64_add (map f64_of_f32 (map (fun p => nth i (nth p data []) f32_zero) ds)) f64_zero) (seq 0 dim)) i =
    Ok (fold_left f64_add (map f64_of_f32 (map (fun p => nth i (nth p data []) f32_zero) ds)) f64_zero)) by (apply rd_ok; rewrite nth_error_map, nth_error_seq_lt by lia; reflexivity).
  rewrite E. cbn [bind]. unfold mean_of. now rewrite map_length.
Qed.

(** ** The residual is computed without fault *)
Lemma chunk_residual_ok : forall rdist data centers assign cnt d r, (forall p, d <= p -> p < d + cnt -> exists c, nth_error assign p = Some c /\ c < length centers) ->
  d + cnt <= length data -> exists v, chunk_residual rdist data centers assign d cnt r = Ok v.
Proof.
  intros rdist data centers assign. induction cnt as [|cnt IH]; intros d r H Hd; cbn [chunk_residual]; [eauto|].
  destruct (nth_error data d) as [x|] eqn:E1; [|apply nth_error_None in E1; lia]. rewrite (proj2 (rd_ok _ data d x) E1). cbn [bind].
  destruct (H d ltac:(lia) ltac:(lia)) as [c [E2 Hc]]. rewrite (proj2 (rd_ok _ assign d c) E2). cbn [bind].
  destruct (nth_error centers c) as [y|] eqn:E3; [|apply nth_error_None in E3; lia]. rewrite (proj2 (rd_ok _ centers c y) E3). cbn [bind].
  apply IH; [intros; apply H; lia|lia].
Qed.

Lemma residual_ok : forall rdist csz n data centers assign, 1 <= csz -> length data = n -> (forall p, p < n -> exists c, nth_error assign p = Some c /\ c < length centers) ->
  forall cnt chunk r, (chunk + cnt) * csz < n + csz \/ cnt = 0 -> exists v, residual_from rdist csz n data centers assign chunk cnt r = Ok v.
Proof.
  intros rdist csz n data centers assign Hc HL H. induction cnt as [|cnt IH]; intros chunk r Hb; cbn [residual_from]; [eauto|].
  destruct (chunk_residual_ok rdist data centers assign (min csz (n - chunk * csz)) (chunk * csz) f32_zero) as [v ->].
  - intros p Hp1 Hp2. apply H. lia.
  - assert (chunk * csz < n). { destruct Hb as [Hb|Hb]; [|lia]. assert (S chunk * csz <= (chunk + S cnt) * csz) by (apply Nat.mul_le_mono_r; lia). lia. } lia.
  - cbn [bind]. apply IH. destruct cnt; [auto|]. left. replace (S chunk + S cnt) with (chunk + S (S cnt)) by lia. lia.
Qed.

(** ** One iteration *)
Lemma centre_usable : forall cdist n centers, usable_centers cdist n centers ->
  (forall p c, is_nan (centre_dist cdist centers p c) = false) /\
  forall p, p < n -> exists c, c < length centers /\ flt (centre_dist cdist centers p c) FLT_MAX = true.
Proof.
  intros cdist n centers [H1 H2]. split.
  - intros p c. unfold centre_dist. destruct (nth_error centers c) as [y|] eqn:E; [|reflexivity]. apply H1. eapply nth_error_In. exact E.
  - intros p Hp. destruct (H2 p Hp) as [y [Hy Hf]]. apply In_nth_error in Hy. destruct Hy as [c Hc]. exists c. split; [apply nth_error_Some; rewrite Hc; discriminate|].
    unfold centre_dist. now rewrite Hc.
Qed.

Lemma lloyd_iter_ok : forall popf mbs csz cdist rdist n dim nc data orders centers assign0,
  pops popf -> 1 <= n -> 1 <= mbs -> 1 <= csz -> block_orders n 1 (min n mbs) orders -> rows_of n dim data -> length centers = nc ->
  usable_centers cdist n centers -> length assign0 = n ->
  exists (assign : nat -> nat) st, lloyd_iter popf mbs csz cdist rdist n dim nc data orders centers assign0 = Ok st /\
    ll_assign st = map assign (seq 0 n) /\ (forall p, p < n -> first_nearest (centre_dist cdist centers p) nc (assign p)) /\
    length (ll_docs st) = nc /\ length (ll_centers st) = nc /\
    forall c, c < nc -> exists docs, nth_error (ll_docs st) c = Some docs /\ Permutation docs (filter (fun p => assign p =? c) (seq 0 n)) /\
      nth_error (ll_centers st) c = Some (centroid_of dim data docs).
Proof.
  intros popf mbs csz cdist rdist n dim nc data orders centers assign0 Hp Hn Hm Hcs Ho [HL HD] HC HU HA.
  destruct (centre_usable cdist n centers HU) as [Hnan Hfin]. rewrite HC in Hfin.
  assert (Hnc : 1 <= nc) by (destruct (Hfin 0 ltac:(lia)) as [c [Hc _]]; lia).
  assert (Hrow : forall j, j < n -> row_ok (centre_dist cdist centers j) nc 1) by (intros j Hj; apply row_ok_one; auto).
  destruct (compute_closest_ok popf mbs (centre_dist cdist centers) n nc 1 orders assign0 (Some (repeat [] nc)))
    as [ivf' [inv' [E [L' [I [_ Hs]]]]]]; auto.
  { lia. } { intros v Hv. injection Hv as <-. apply repeat_length. }
  destruct (Hs _ eq_refl) as [docs [-> [Hl Hv]]]. set (assign := fun j => nth 0 (nearest_ids popf (centre_dist cdist centers j) nc 1) 0).
  unfold lloyd_iter. rewrite E. cbn [bind fst snd].
  assert (HN : forall p, p < n -> first_nearest (centre_dist cdist centers p) nc (assign p) /\ nearest_ids popf (centre_dist cdist centers p) nc 1 = [assign p]).
  { intros p Hpn. destruct (nearest_ids_ok popf (centre_dist cdist centers p) nc 1 Hp (Hrow p Hpn)) as [_ [_ [_ [_ H1]]]]. destruct (H1 eq_refl) as [c [E1 Hc]].
    unfold assign. rewrite E1. auto. }
  assert (EA : ivf' = map assign (seq 0 n)).
  { apply nth_error_ext_lt; [rewrite map_length, seq_length; lia|]. intros p Hp'. specialize (I p 0 ltac:(lia) ltac:(lia)). replace (p * 1 + 0) with p in I by lia.
    rewrite I, nth_error_map, nth_error_seq_lt by lia. destruct (HN p ltac:(lia)) as [_ ->]. reflexivity. }
  assert (HDc : forall c ds, nth_error docs c = Some ds -> Permutation ds (filter (fun p => assign p =? c) (seq 0 n))).
  { intros c ds Hc. assert (Hcn : c < nc) by (rewrite <- Hl; apply nth_error_Some; rewrite Hc; discriminate).
    destruct (Hv c [] (nth_error_repeat [] Hcn)) as [new [En Pn]]. rewrite En in Hc. injection Hc as <-. cbn [app].
    eapply Permutation_trans; [exact Pn|]. unfold appended. cbn [seq]. rewrite list_prod_one, filter_map, map_map. cbn [fst].
    rewrite map_id. unfold ClosestProofs.assigned. cbn [fst snd]. apply Permutation_refl. }
  assert (HX : forall ds, In ds docs -> new_center dim data ds = Ok (centroid_of dim data ds)).
  { intros ds Hds. apply new_center_ok. intros p Hp'. apply In_nth_error in Hds. destruct Hds as [c Hc].
    apply (Permutation_in _ (HDc c ds Hc)) in Hp'. apply filter_In in Hp'. destruct Hp' as [Hp' _]. apply in_seq in Hp'.
    destruct (nth_error data p) as [x|] eqn:Ex; [|apply nth_error_None in Ex; lia]. exists x. split; [auto|]. apply HD. eapply nth_error_In. exact Ex. }
  rewrite (collect_map _ _ _ (centroid_of dim data) docs HX). cbn [bind].
  destruct (residual_ok rdist csz n data (map (centroid_of dim data) docs) ivf' Hcs HL) with (cnt := div_round_up n csz) (chunk := 0) (r := f32_zero) as [v Ev].
  { intros p Hp'. exists (assign p). rewrite EA, nth_error_map, nth_error_seq_lt by auto. split; [reflexivity|]. rewrite map_length, Hl. apply (HN p Hp'). }
  { rewrite div_round_up_eq. left. apply (n_blocks_bounds n csz Hcs). }
  rewrite Ev. cbn [bind]. exists assign. eexists. split; [reflexivity|]. cbn [ll_assign ll_docs ll_centers]. split; [auto|]. split; [intros; apply HN; auto|].
  split; [auto|]. split; [now rewrite map_length|]. intros c Hc. destruct (nth_error docs c) as [ds|] eqn:Ed; [|apply nth_error_None in Ed; lia].
  exists ds. split; [auto|]. split; [auto|]. rewrite nth_error_map, Ed. reflexivity.
Qed.
