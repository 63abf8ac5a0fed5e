(** * Outcomes and list helpers shared by all models.

    Nothing here models grann code; it is the vocabulary the models use. *)
From Coq Require Import List Arith Lia Bool ZArith.
Import ListNotations.

(** Outcome of running a piece of C++.  [UB] is undefined behaviour (out of
    bounds access, division by zero, read of uninitialised memory), [Throw] a
    C++ exception leaving the function, [Exit] a call of [exit], [Fuel] says
    that a modelled loop ran out of its iteration budget (every theorem shows
    that it does not happen). *)
Inductive res (A : Type) : Type :=
| Ok (a : A)
| UB
| Throw
| Exit
| Fuel.
Arguments Ok {A} a.
Arguments UB {A}.
Arguments Throw {A}.
Arguments Exit {A}.
Arguments Fuel {A}.

Definition bind {A B : Type} (r : res A) (f : A -> res B) : res B :=
  match r with
  | Ok a => f a
  | UB => UB
  | Throw => Throw
  | Exit => Exit
  | Fuel => Fuel
  end.

Notation "'do' x <- r ; k" := (bind r (fun x => k))
  (at level 200, x pattern, r at level 100, k at level 200, right associativity).

(** [a[i]] on an array of which [a] lists all allocated elements. *)
Definition rd {A : Type} (a : list A) (i : nat) : res A :=
  match nth_error a i with Some x => Ok x | None => UB end.

(** [a[i] = x]. *)
Definition wr {A : Type} (a : list A) (i : nat) (x : A) : res (list A) :=
  if i <? length a then Ok (firstn i a ++ x :: skipn (S i) a) else UB.

Lemma rd_ok : forall (A : Type) (a : list A) i x, rd a i = Ok x <-> nth_error a i = Some x.
Proof.
  intros A a i x. unfold rd. destruct (nth_error a i) as [y|]; split; intros H; inversion H; auto.
Qed.

Lemma rd_lt : forall (A : Type) (a : list A) i, i < length a -> exists x, rd a i = Ok x.
Proof.
  intros A a i H. unfold rd. destruct (nth_error a i) as [y|] eqn:E; [eauto|].
  apply nth_error_None in E. lia.
Qed.

Lemma wr_ok : forall (A : Type) (a : list A) i x,
  i < length a -> wr a i x = Ok (firstn i a ++ x :: skipn (S i) a).
Proof.
  intros A a i x H. unfold wr. apply Nat.ltb_lt in H. rewrite H. reflexivity.
Qed.

Lemma wr_length : forall (A : Type) (a b : list A) i x, wr a i x = Ok b -> length b = length a.
Proof.
  intros A a b i x H. unfold wr in H. destruct (i <? length a) eqn:E; [|discriminate].
  apply Nat.ltb_lt in E. assert (Hb : b = firstn i a ++ x :: skipn (S i) a) by congruence.
  rewrite Hb, app_length, firstn_length.
  change (length (x :: skipn (S i) a)) with (S (length (skipn (S i) a))).
  rewrite skipn_length. lia.
Qed.

Lemma bind_ok : forall (A B : Type) (r : res A) (f : A -> res B) b,
  bind r f = Ok b <-> exists a, r = Ok a /\ f a = Ok b.
Proof.
  intros A B r f b. split.
  - destruct r; cbn; intros H; try discriminate. eauto.
  - intros [a [-> H]]. exact H.
Qed.

Lemma wr_nth : forall (A : Type) (a : list A) i x, i < length a ->
  exists b, wr a i x = Ok b /\ length b = length a /\
    forall j, nth_error b j = if Nat.eq_dec j i then Some x else nth_error a j.
Proof.
  intros A a i x H. rewrite wr_ok by auto. eexists. split; [reflexivity|].
  assert (E : wr a i x = Ok (firstn i a ++ x :: skipn (S i) a)) by (apply wr_ok; auto).
  split; [apply wr_length in E; auto|]. clear E. intros j.
  revert i j H. induction a as [|y a IH]; intros i j H; cbn in H; [lia|].
  destruct i as [|i]; destruct j as [|j]; try reflexivity.
  cbn [firstn app nth_error]. rewrite skipn_cons. rewrite IH by lia.
  destruct (Nat.eq_dec j i), (Nat.eq_dec (S j) (S i)); auto; congruence.
Qed.
