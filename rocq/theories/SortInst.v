(** * An executable instance of [sorts], for examples and witnesses. *)
From Coq Require Import List Sorting.Sorted Sorting.Permutation.
From Verif Require Import Float32 PoolModel SortSpec.
Import ListNotations.

Fixpoint ins_nb (x : neighbor) (l : list neighbor) : list neighbor :=
  match l with
  | [] => [x]
  | y :: t => if flt (ndist y) (ndist x) then y :: ins_nb x t else x :: l
  end.

Fixpoint isort (l : list neighbor) : list neighbor :=
  match l with [] => [] | x :: t => ins_nb x (isort t) end.

Lemma ins_nb_perm : forall x l, Permutation (x :: l) (ins_nb x l).
Proof.
  intros x l. induction l as [|y t IH]; cbn; auto. destruct (flt (ndist y) (ndist x)); auto.
  rewrite perm_swap. constructor. auto.
Qed.

Lemma isort_perm : forall l, Permutation l (isort l).
Proof.
  induction l as [|x t IH]; cbn; auto. rewrite <- ins_nb_perm. constructor. auto.
Qed.

Lemma ins_nb_sorted : forall x l, is_nan (ndist x) = false -> (forall z, In z l -> is_nan (ndist z) = false) ->
  StronglySorted (fun x y => fle (ndist x) (ndist y) = true) l ->
  StronglySorted (fun x y => fle (ndist x) (ndist y) = true) (ins_nb x l).
Proof.
  intros x l Hx. induction l as [|y t IH]; intros Hl Hs; cbn.
  - repeat constructor.
  - apply StronglySorted_inv in Hs. destruct Hs as [Hs Hf]. destruct (flt (ndist y) (ndist x)) eqn:E.
    + constructor; [apply IH; auto; intros; apply Hl; right; auto|].
      apply Forall_forall. intros z Hz. apply (Permutation_in _ (Permutation_sym (ins_nb_perm x t))) in Hz.
      destruct Hz as [<-|Hz]; [apply flt_fle; auto|]. rewrite Forall_forall in Hf. auto.
    + assert (Hyx : fle (ndist x) (ndist y) = true) by (apply flt_false_fle; auto; apply Hl; left; auto).
      constructor; [constructor; auto|]. constructor; auto.
      rewrite Forall_forall in *. intros z Hz. eapply fle_trans; [exact Hyx|]. auto.
Qed.

Lemma isort_sorts : sorts isort.
Proof.
  intros l Hl. split; [apply isort_perm|]. induction l as [|x t IH]; cbn; [constructor|].
  apply ins_nb_sorted.
  - apply Hl. left. auto.
  - intros z Hz. apply Hl. right. apply (Permutation_in _ (Permutation_sym (isort_perm t))). auto.
  - apply IH. intros; apply Hl; right; auto.
Qed.
