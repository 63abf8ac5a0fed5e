(** * An executable instance of [pops], for examples and witnesses. *)
From Coq Require Import List Sorting.Sorted Sorting.Permutation.
From Verif Require Import Float32 ClosestSpec.
Import ListNotations.

Fixpoint ins_desc (x : nat * f32) (l : list (nat * f32)) : list (nat * f32) :=
  match l with
  | [] => [x]
  | y :: t => if flt (snd x) (snd y) then y :: ins_desc x t else x :: l
  end.

Fixpoint pop_all (l : list (nat * f32)) : list (nat * f32) :=
  match l with [] => [] | x :: t => ins_desc x (pop_all t) end.

Lemma ins_desc_perm : forall x l, Permutation (x :: l) (ins_desc x l).
Proof.
  intros x l. induction l as [|y t IH]; cbn; auto. destruct (flt (snd x) (snd y)); auto.
  rewrite perm_swap. constructor. auto.
Qed.

Lemma pop_all_perm : forall l, Permutation l (pop_all l).
Proof. induction l as [|x t IH]; cbn; auto. rewrite <- ins_desc_perm. constructor. auto. Qed.

Lemma ins_desc_sorted : forall x l, is_nan (snd x) = false -> (forall z, In z l -> is_nan (snd z) = false) ->
  StronglySorted (fun x y => fle (snd y) (snd x) = true) l ->
  StronglySorted (fun x y => fle (snd y) (snd x) = true) (ins_desc x l).
Proof.
  intros x l Hx. induction l as [|y t IH]; intros Hl Hs; cbn.
  - repeat constructor.
  - apply StronglySorted_inv in Hs. destruct Hs as [Hs Hf]. destruct (flt (snd x) (snd y)) eqn:E.
    + constructor; [apply IH; auto; intros; apply Hl; right; auto|].
      apply Forall_forall. intros z Hz. apply (Permutation_in _ (Permutation_sym (ins_desc_perm x t))) in Hz.
      destruct Hz as [<-|Hz]; [apply flt_fle; auto|]. rewrite Forall_forall in Hf. auto.
    + assert (Hyx : fle (snd y) (snd x) = true) by (apply flt_false_fle; auto; apply Hl; left; auto).
      constructor; [constructor; auto|]. constructor; auto.
      rewrite Forall_forall in *. intros z Hz. eapply fle_trans; [|exact Hyx]. auto.
Qed.

Lemma pop_all_pops : pops pop_all.
Proof.
  intros l Hl. split; [apply pop_all_perm|]. induction l as [|x t IH]; cbn; [constructor|].
  apply ins_desc_sorted.
  - apply Hl. left. auto.
  - intros z Hz. apply Hl. right. apply (Permutation_in _ (Permutation_sym (pop_all_perm t))). auto.
  - apply IH. intros; apply Hl; right; auto.
Qed.
