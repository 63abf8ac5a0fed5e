(** * The limits of pruning: concrete cases. *)
From Coq Require Import ZArith String List Arith Lia Bool.
From Verif Require Import Base Float32 PoolModel GreedyModel TopKSpec SortSpec PruneModel PruneSpec SortInst PruneProofs LimitSpec LimitProofs.
Import ListNotations.

(** Five points in space, squared distances; the list of point 0 is pruned. *)
Definition spot (i : nat) : list Z := nth i [[0; 0; 0]; [2; -2; -2]; [-2; -4; -2]; [-4; 0; -4]; [-3; -4; 3]]%Z [].
Definition gap (a b : nat) : f32 :=
  f32_of_Z (fold_left Z.add (map (fun q => (fst q - snd q) * (fst q - snd q))%Z (combine (spot a) (spot b))) 0%Z).
Definition field : space := mkSp 5 gap false (mkL [] true ""%string).
Definition limits (R C : nat) (alpha : f32) : bparams := mkB 10 R C alpha 0.
Definition five_quarters : f32 := fdiv (f32_of_Z 5) (f32_of_Z 4).
Definition hundred : f32 := f32_of_Z 100.

Lemma field_ok : forall ids, (forall i, In i ids -> i < 5) -> prune_input_ok field (tagged (gap 0) ids).
Proof.
  intros ids H. split; [|discriminate]. intros z Hz. apply in_map_iff in Hz. destruct Hz as [i [<- Hi]]. apply H in Hi.
  split; [exact Hi|]. do 5 (destruct i as [|i]; [vm_compute; reflexivity|]). lia.
Qed.

Lemma field_apart : no_two_equal (gap 0) [1; 2; 3; 4].
Proof.
  intros i j Hi Hj Hn. repeat (destruct Hi as [<-|Hi]; [repeat (destruct Hj as [<-|Hj]; [try (exfalso; apply Hn; reflexivity); vm_compute; reflexivity|]); destruct Hj|]). destruct Hi.
Qed.

(** Degree 2 instead of 4; one, two and all candidates scanned. *)
Lemma field_limits : sorts isort /\ prune_input_ok field (tagged (gap 0) [4; 2; 1; 3]) /\
  fgt f32_zero f32_one = false /\
  prune_alpha isort field (limits 4 4 f32_one) 0 (tagged (gap 0) [4; 2; 1; 3]) [] = Ok [1; 3; 4] /\
  prune_alpha isort field (limits 2 4 f32_one) 0 (tagged (gap 0) [4; 2; 1; 3]) [] = Ok [1; 3] /\
  prune_alpha isort field (limits 4 2 f32_one) 0 (tagged (gap 0) [4; 2; 1; 3]) [] = Ok [1] /\
  prune_alpha isort field (limits 4 3 f32_one) 0 (tagged (gap 0) [4; 2; 1; 3]) [] = Ok [1; 3] /\
  prune_topk isort (limits 4 4 f32_one) 0 (tagged (gap 0) [4; 2; 1; 3]) [] = Ok [1; 2; 3; 4] /\
  prune_topk isort (limits 2 4 f32_one) 0 (tagged (gap 0) [4; 2; 1; 3]) [] = Ok [1; 2].
Proof.
  split; [exact isort_sorts|]. split; [apply field_ok; intros i Hi; repeat (destruct Hi as [<-|Hi]; [lia|]); destruct Hi|].
  vm_compute. repeat split.
Qed.

(** With alpha = 100 nothing is occluded. *)
Lemma field_free : 
  fgt f32_zero (bp_alpha (limits 4 4 hundred)) = false /\
  (forall k c, In k (tagged (gap 0) [4; 2; 1; 3]) -> In c (tagged (gap 0) [4; 2; 1; 3]) -> nid k <> nid c ->
     flt (bp_alpha (limits 4 4 hundred)) (fdiv (ndist c) (sp_pd field (nid c) (nid k))) = false) /\
  NoDup (map nid (tagged (gap 0) [4; 2; 1; 3])) /\
  prune_alpha isort field (limits 4 4 hundred) 0 (tagged (gap 0) [4; 2; 1; 3]) [] = Ok [1; 2; 3; 4].
Proof.
  split; [reflexivity|]. split.
  - intros k c Hk Hc Hn.
    repeat (destruct Hk as [<-|Hk]; [repeat (destruct Hc as [<-|Hc]; [try (exfalso; apply Hn; reflexivity); vm_compute; reflexivity|]); destruct Hc|]). destruct Hk.
  - split; [|vm_compute; reflexivity]. rewrite tagged_ids. repeat (constructor; [cbn; lia|]). constructor.
Qed.

(** Without the rejected 2 the list is the same, and pruning it once more changes nothing. *)
Lemma field_again : NoDup [1; 2; 3; 4] /\ no_two_equal (gap 0) [1; 2; 3; 4] /\
  prune_alpha isort field (limits 4 4 f32_one) 0 (tagged (gap 0) [1; 2; 3; 4]) [] = Ok [1; 3; 4] /\
  prune_alpha isort field (limits 4 4 f32_one) 0 (tagged (gap 0) [4; 3; 1]) [] = Ok [1; 3; 4].
Proof.
  split; [repeat (constructor; [cbn; lia|]); constructor|]. split; [exact field_apart|]. vm_compute. auto.
Qed.

(** If fewer candidates are scanned than there are, leaving out a rejected one lets another in. *)
Lemma field_thin_short : 
  prune_alpha isort field (limits 4 2 f32_one) 0 (tagged (gap 0) [1; 2; 3; 4]) [] = Ok [1] /\
  prune_alpha isort field (limits 4 2 f32_one) 0 (tagged (gap 0) [1; 3; 4]) [] = Ok [1; 3].
Proof. vm_compute. auto. Qed.

(** 3 and 4 are farther than 1 and 2. *)
Lemma field_farther : 
  (forall i j, In i [1; 2] -> In j [3; 4] -> flt (gap 0 i) (gap 0 j) = true) /\
  prune_alpha isort field (limits 4 4 f32_one) 0 (tagged (gap 0) [1; 2]) [] = Ok [1] /\
  prune_alpha isort field (limits 4 4 f32_one) 0 (tagged (gap 0) ([1; 2] ++ [3; 4])) [] = Ok [1; 3; 4].
Proof.
  split; [|vm_compute; auto]. intros i j Hi Hj.
  repeat (destruct Hi as [<-|Hi]; [repeat (destruct Hj as [<-|Hj]; [vm_compute; reflexivity|]); destruct Hj|]). destruct Hi.
Qed.

(** A larger alpha may remove links and leave fewer of them. *)
Lemma alpha_not_monotone : ~ (forall sortf sp prm point cands alpha out out',
  sorts sortf -> prune_input_ok sp cands -> fgt f32_zero (bp_alpha prm) = false -> fle (bp_alpha prm) alpha = true ->
  prune_alpha sortf sp prm point cands [] = Ok out ->
  prune_alpha sortf sp (with_alpha prm alpha) point cands [] = Ok out' ->
  (forall i, In i out -> In i out') \/ length out <= length out').
Proof.
  intros H.
  assert (A : prune_input_ok field (tagged (gap 0) [1; 2; 3; 4])) by (apply field_ok; intros i Hi; repeat (destruct Hi as [<-|Hi]; [lia|]); destruct Hi).
  specialize (H isort field (limits 4 4 f32_one) 0 (tagged (gap 0) [1; 2; 3; 4]) five_quarters [1; 3; 4] [1; 2] isort_sorts A eq_refl ltac:(vm_compute; reflexivity) ltac:(vm_compute; reflexivity) ltac:(vm_compute; reflexivity)).
  destruct H as [H|H]; [|cbn in H; lia]. destruct (H 3) as [E|[E|[]]]; [right; left; reflexivity| |]; discriminate.
Qed.
