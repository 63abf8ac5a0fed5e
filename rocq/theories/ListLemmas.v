(** * Generic list lemmas (nothing about grann). *)
From Coq Require Import List Arith Lia Bool Sorting.Sorted Sorting.Permutation.
Import ListNotations.

Lemma nth_error_firstn_lt : forall (A : Type) (l : list A) k i, i < k ->
  nth_error (firstn k l) i = nth_error l i.
Proof.
  intros A l. induction l as [|x l IH]; intros k i H; destruct k, i; try lia; cbn; auto.
  apply IH. lia.
Qed.

Lemma forallb_false_exists : forall (A : Type) (f : A -> bool) l, forallb f l = false ->
  exists x, In x l /\ f x = false.
Proof.
  intros A f l. induction l as [|x l IH]; cbn; [discriminate|]. intros H.
  destruct (f x) eqn:E; [|eauto]. destruct (IH H) as [y [H1 H2]]. eauto.
Qed.

Lemma firstn_app_len : forall (A : Type) (l1 l2 : list A), firstn (length l1) (l1 ++ l2) = l1.
Proof. intros A l1 l2. rewrite firstn_app, Nat.sub_diag, firstn_all. cbn. apply app_nil_r. Qed.

Lemma skipn_app_S : forall (A : Type) (l1 l2 : list A) x, skipn (S (length l1)) (l1 ++ x :: l2) = l2.
Proof. intros A l1 l2 x. induction l1 as [|y l1 IH]; cbn in *; auto. Qed.

Lemma NoDup_app_l : forall (A : Type) (l1 l2 : list A), NoDup (l1 ++ l2) -> NoDup l1.
Proof.
  intros A l1 l2. induction l1 as [|x l1 IH]; cbn; intros H; [constructor|]. inversion H. subst. constructor; auto.
  intros C. apply H2. apply in_or_app. auto.
Qed.

Lemma NoDup_app_r : forall (A : Type) (l1 l2 : list A), NoDup (l1 ++ l2) -> NoDup l2.
Proof. intros A l1 l2. induction l1 as [|x l1 IH]; cbn; intros H; [auto|]. inversion H. auto. Qed.
