(** One iteration on a table of distances. *)
From Coq Require Import ZArith List Arith Bool Lia Sorting.Permutation Floats.SpecFloat.
From Verif Require Import Base Float32 ListLemmas ClosestModel ClosestSpec ClosestProofs IvfProofs PqModel PqSpec PqProofs PqProofs2 LloydModel LloydSpec LloydProofs KmeansModel.
Import ListNotations.

Lemma iter_is_step : forall popf mbs csz cdist rdist n dim nc data orders centers assign, lloyd_iter popf mbs csz cdist rdist n dim nc data orders centers assign = lloyd_step popf mbs csz (centre_dist cdist centers) rdist n dim nc data orders assign.
Proof. reflexivity. Qed.

Lemma lloyd_step_ok : forall popf mbs csz (dm : nat -> nat -> f32) rdist n dim nc data orders assign0,
  pops popf -> 1 <= n -> 1 <= mbs -> 1 <= csz -> block_orders n 1 (min n mbs) orders -> rows_of n dim data ->
  (forall p c, is_nan (dm p c) = false) -> (forall p, p < n -> exists c, c < nc /\ flt (dm p c) FLT_MAX = true) -> length assign0 = n ->
  exists (assign : nat -> nat) st, lloyd_step popf mbs csz dm rdist n dim nc data orders assign0 = Ok st /\
    ll_assign st = map assign (seq 0 n) /\ (forall p, p < n -> first_nearest (dm p) nc (assign p)) /\
    length (ll_docs st) = nc /\ length (ll_centers st) = nc /\
    forall c, c < nc -> exists docs, nth_error (ll_docs st) c = Some docs /\ Permutation docs (filter (fun p => assign p =? c) (seq 0 n)) /\
      nth_error (ll_centers st) c = Some (centroid_of dim data docs).
Proof.
  intros popf mbs csz dm rdist n dim nc data orders assign0 Hp Hn Hm Hcs Ho [HL HD] Hnan Hfin HA.
  assert (Hnc : 1 <= nc) by (destruct (Hfin 0 ltac:(lia)) as [c [Hc _]]; lia).
  assert (Hrow : forall j, j < n -> row_ok (dm j) nc 1) by (intros j Hj; apply row_ok_one; auto).
  destruct (compute_closest_ok popf mbs dm n nc 1 orders assign0 (Some (repeat [] nc)))
    as [ivf' [inv' [E [L' [I [_ Hs]]]]]]; auto.
  { lia. } { intros v Hv. injection Hv as <-. apply repeat_length. }
  destruct (Hs _ eq_refl) as [docs [-> [Hl Hv]]]. set (assign := fun j => nth 0 (nearest_ids popf (dm j) nc 1) 0).
  unfold lloyd_step. rewrite E. cbn [bind fst snd].
  assert (HN : forall p, p < n -> first_nearest (dm p) nc (assign p) /\ nearest_ids popf (dm p) nc 1 = [assign p]).
  { intros p Hpn. destruct (nearest_ids_ok popf (dm p) nc 1 Hp (Hrow p Hpn)) as [_ [_ [_ [_ H1]]]]. destruct (H1 eq_refl) as [c [E1 Hc]].
    unfold assign. rewrite E1. auto. }
  assert (EA : ivf' = map assign (seq 0 n)).
  { apply nth_error_ext_lt; [rewrite map_length, seq_length; lia|]. intros p Hp'. specialize (I p 0 ltac:(lia) ltac:(lia)). replace (p * 1 + 0) with p in I by lia.
    rewrite I, nth_error_map, nth_error_seq_lt by lia. destruct (HN p ltac:(lia)) as [_ ->]. reflexivity. }
  assert (HDc : forall c ds, nth_error docs c = Some ds -> Permutation ds (filter (fun p => assign p =? c) (seq 0 n))).
  { intros c ds Hc. assert (Hcn : c < nc) by (rewrite <- Hl; apply nth_error_Some; rewrite Hc; discriminate).
    destruct (Hv c [] (nth_error_repeat [] Hcn)) as [new [En Pn]]. rewrite En in Hc. injection Hc as <-. cbn [app].
    eapply Permutation_trans; [exact Pn|]. unfold appended. cbn [seq]. rewrite list_prod_one, filter_map, map_map. cbn [fst].
    rewrite map_id. unfold ClosestProofs.assigned. cbn [fst snd]. apply Permutation_refl. }
  assert (HX : forall ds, In ds docs -> new_center dim data ds = Ok (centroid_of dim data ds)).
  { intros ds Hds. apply new_center_ok. intros p Hp'. apply In_nth_error in Hds. destruct Hds as [c Hc].
    apply (Permutation_in _ (HDc c ds Hc)) in Hp'. apply filter_In in Hp'. destruct Hp' as [Hp' _]. apply in_seq in Hp'.
    destruct (nth_error data p) as [x|] eqn:Ex; [|apply nth_error_None in Ex; lia]. exists x. split; [auto|]. apply HD. eapply nth_error_In. exact Ex. }
  rewrite (collect_map _ _ _ (centroid_of dim data) docs HX). cbn [bind].
  destruct (residual_ok rdist csz n data (map (centroid_of dim data) docs) ivf' Hcs HL) with (cnt := div_round_up n csz) (chunk := 0) (r := f32_zero) as [v Ev].
  { intros p Hp'. exists (assign p). rewrite EA, nth_error_map, nth_error_seq_lt by auto. split; [reflexivity|]. rewrite map_length, Hl. apply (HN p Hp'). }
  { rewrite div_round_up_eq. left. apply (n_blocks_bounds n csz Hcs). }
  rewrite Ev. cbn [bind]. exists assign. eexists. split; [reflexivity|]. cbn [ll_assign ll_docs ll_centers]. split; [auto|]. split; [intros; apply HN; auto|].
  split; [auto|]. split; [now rewrite map_length|]. intros c Hc. destruct (nth_error docs c) as [ds|] eqn:Ed; [|apply nth_error_None in Ed; lia].
  exists ds. split; [auto|]. split; [auto|]. rewrite nth_error_map, Ed. reflexivity.
Qed.
