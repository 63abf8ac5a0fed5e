(** * Executable instances of [heap_ok] and [sorts_pairs], for examples and witnesses. *)
From Coq Require Import List Sorting.Sorted Sorting.Permutation.
From Verif Require Import Float32 ClosestSpec PopInst HeapSpec.
Import ListNotations.

Definition heap_push (x : nat * f32) (h : list (nat * f32)) : list (nat * f32) := x :: h.
Definition heap_take (h : list (nat * f32)) : option ((nat * f32) * list (nat * f32)) :=
  match pop_all h with [] => None | x :: r => Some (x, r) end.

Lemma heap_inst : heap_ok heap_push heap_take.
Proof.
  split; [reflexivity|]. split; [reflexivity|]. intros h Hne Hn. destruct (pop_all_pops h Hn) as [P Hs]. unfold heap_take.
  destruct (pop_all h) as [|x r]; [apply Permutation_sym, Permutation_nil in P; congruence|]. exists x, r. split; [auto|]. split; [auto|].
  apply StronglySorted_inv in Hs. destruct Hs as [_ Hs]. rewrite Forall_forall in Hs. auto.
Qed.

Definition sort_pairs (l : list (nat * f32)) : list (nat * f32) := rev (pop_all l).

Lemma sorted_app_last : forall (A : Type) (R : A -> A -> Prop) l x, StronglySorted R l -> (forall y, In y l -> R y x) -> StronglySorted R (l ++ [x]).
Proof.
  intros A R. induction l as [|a l IH]; intros x Hs H; cbn; [repeat constructor|]. apply StronglySorted_inv in Hs. destruct Hs as [H1 H2]. constructor.
  - apply IH; auto. intros y Hy. apply H. now right.
  - apply Forall_app. split; [auto|]. constructor; [apply H; now left|constructor].
Qed.

Lemma sort_inst : sorts_pairs sort_pairs.
Proof.
  intros l Hn. destruct (pop_all_pops l Hn) as [P Hs]. unfold sort_pairs. split; [rewrite <- Permutation_rev; auto|].
  clear P. induction (pop_all l) as [|x r IH]; [constructor|]. apply StronglySorted_inv in Hs. destruct Hs as [H1 H2]. cbn.
  apply sorted_app_last; [auto|]. intros y Hy. apply in_rev in Hy. rewrite Forall_forall in H2. auto.
Qed.
