(** * Proofs about the hash table: a larger limit only removes overflows. *)
From Coq Require Import NArith List Arith Bool Lia Sorting.Permutation.
From Verif Require Import Base HashModel HashArith HashSpec HashProofs HashProofs2.
Import ListNotations.
Local Open Scope nat_scope.

Definition with_limit {A K : Type} (P : kind A K) (m : N) : kind A K := mkKind (k_key P) (k_eq P) (k_hash P) (k_store P) m.

Definition under {X : Type} (r r' : res X) : Prop := r = UB \/ r = r'.

Lemma under_refl : forall (X : Type) (r : res X), under r r.
Proof. intros. right. reflexivity. Qed.
Lemma under_bind : forall (X Y : Type) (r r' : res X) (f g : X -> res Y), under r r' -> (forall x, under (f x) (g x)) -> under (bind r f) (bind r' g).
Proof. intros X Y r r' f g [E1 | E1] H; rewrite E1; [left; reflexivity|]. destruct r' as [x| | | |]; cbn [bind]; auto; right; reflexivity. Qed.
Lemma under_bump : forall lim lim' d, (lim <= lim')%N -> under (bump lim d) (bump lim' d).
Proof. intros lim lim' d H. unfold bump, under. destruct (N.ltb_spec (N.of_nat d) lim); [|auto]. rewrite (proj2 (N.ltb_lt (N.of_nat d) lim')) by lia. auto. Qed.

Ltac und := repeat first [apply under_refl | apply under_bind; [|intros ?] | apply under_bump; assumption | match goal with |- under (match ?x with _ => _ end) _ => destruct x end | assumption].

Lemma under_probe : forall (A K : Type) (P : kind A K) m, (k_limit P <= m)%N -> forall fuel bs mask k i d, under (probe P fuel bs mask k i d) (probe (with_limit P m) fuel bs mask k i d).
Proof. intros A K P m H. induction fuel as [|fuel IH]; intros bs mask k i d; [apply under_refl|]. cbn [probe]. cbn [with_limit k_limit k_eq k_key]. und; apply IH. Qed.

Lemma under_skip : forall (A : Type) lim m, (lim <= m)%N -> forall fuel (bs : list (bucket A)) mask i d, under (skip lim fuel bs mask i d) (skip m fuel bs mask i d).
Proof. intros A lim m H. induction fuel as [|fuel IH]; intros bs mask i d; [apply under_refl|]. cbn [skip]. und; apply IH. Qed.

Lemma under_place : forall (A : Type) lim m, (lim <= m)%N -> forall fuel mask (bs : list (bucket A)) i d h v, under (place lim fuel mask bs i d h v) (place m fuel mask bs i d h v).
Proof. intros A lim m H. induction fuel as [|fuel IH]; intros mask bs i d h v; [apply under_refl|]. cbn [place]. und; apply IH. Qed.

Lemma under_shift_in : forall (A : Type) lim m, (lim <= m)%N -> forall fuel mask size (bs : list (bucket A)) i d h v flag, under (shift_in lim fuel mask size bs i d h v flag) (shift_in m fuel mask size bs i d h v flag).
Proof. intros A lim m H. induction fuel as [|fuel IH]; intros mask size bs i d h v flag; [apply under_refl|]. cbn [shift_in]. und; apply IH. Qed.

Lemma under_move_all : forall (A K : Type) (P : kind A K) m, (k_limit P <= m)%N -> forall mask old new, under (move_all P mask old new) (move_all (with_limit P m) mask old new).
Proof.
  intros A K P m H mask old new. unfold move_all. cbn [with_limit k_store k_hash k_key k_limit truncated]. assert (G : forall r r' : res (list (bucket A)), under r r' ->
    under (fold_left (fun r b => do bs <- r; match b with None => Ok bs | Some (_, th, v) => place (k_limit P) (length bs) mask bs (bucket_for_hash mask (if k_store P && (mask <=? 4294967295)%N then th else k_hash P (k_key P v))) 0 (truncated P (if k_store P && (mask <=? 4294967295)%N then th else k_hash P (k_key P v))) v end) old r)
     (fold_left (fun r b => do bs <- r; match b with None => Ok bs | Some (_, th, v) => place m (length bs) mask bs (bucket_for_hash mask (if k_store P && (mask <=? 4294967295)%N then th else k_hash P (k_key P v))) 0 (truncated P (if k_store P && (mask <=? 4294967295)%N then th else k_hash P (k_key P v))) v end) old r')).
  { induction old as [|b old IH]; intros r r' Hr; [exact Hr|]. cbn [fold_left]. apply IH. apply under_bind; [exact Hr|]. intros bs. destruct b as [[[d th] v]|]; [|apply under_refl]. apply under_place. exact H. }
  apply G, under_refl.
Qed.

Lemma under_rehash : forall (A K : Type) (P : kind A K) m, (k_limit P <= m)%N -> forall n t, under (rehash_impl P n t) (rehash_impl (with_limit P m) n t).
Proof. intros A K P m H n t. unfold rehash_impl. apply under_bind; [now apply under_move_all|]. intros. apply under_refl. Qed.

Lemma under_insert_at : forall (A K : Type) (P : kind A K) m, (k_limit P <= m)%N -> forall t i d v, under (insert_at P t i d v) (insert_at (with_limit P m) t i d v).
Proof.
  intros A K P m H t i d v. unfold insert_at, insert_value. cbn [with_limit k_store k_hash k_key k_limit truncated]. unfold truncated. cbn [with_limit k_store]. apply under_bind; [apply under_refl|]. intros [b|]; [|apply under_refl].
  apply under_bind; [|intros; apply under_refl]. apply under_bind; [apply under_refl|]. intros [[[d2 h2] v2]|]; [|apply under_refl]. apply under_bind; [apply under_refl|]. intros bs. apply under_bind; [now apply under_bump|]. intros d3. now apply under_shift_in.
Qed.

Lemma under_insert : forall (A K : Type) (P : kind A K) m, (k_limit P <= m)%N -> forall v t, under (insert P v t) (insert (with_limit P m) v t).
Proof.
  intros A K P m H v t. unfold insert. cbn [with_limit k_hash k_key]. apply under_bind; [now apply under_probe|]. intros [[i d] f]. destruct f; [apply under_refl|]. destruct (t_grow t || _).
  - apply under_bind; [now apply under_rehash|]. intros t'. apply under_bind; [now apply under_skip|]. intros q. apply under_bind; [now apply under_insert_at|]. intros. apply under_refl.
  - apply under_bind; [now apply under_insert_at|]. intros. apply under_refl.
Qed.

Lemma under_step : forall (A K : Type) (P : kind A K) m, (k_limit P <= m)%N -> forall t o, under (step P t o) (step (with_limit P m) t o).
Proof.
  intros A K P m H t o. destruct o as [v|k|k|v set| | | |n]; cbn [step]; try apply under_refl.
  - apply under_bind; [now apply under_insert|]. intros. apply under_refl.
  - apply under_bind; [|intros; apply under_refl]. unfold find. cbn [with_limit k_hash]. apply under_bind; [now apply under_probe|]. intros. apply under_refl.
  - apply under_bind; [|intros; apply under_refl]. unfold erase. cbn [with_limit k_hash]. apply under_bind; [now apply under_probe|]. intros. apply under_refl.
  - apply under_bind; [|intros; apply under_refl]. unfold assign. apply under_bind; [now apply under_insert|]. intros. apply under_refl.
  - apply under_bind; [|intros; apply under_refl]. unfold reserve. now apply under_rehash.
Qed.

Lemma under_run : forall (A K : Type) (P : kind A K) m, (k_limit P <= m)%N -> forall ops t, under (run P t ops) (run (with_limit P m) t ops).
Proof.
  intros A K P m H. induction ops as [|o ops IH]; intros t; [apply under_refl|]. cbn [run]. apply under_bind; [now apply under_step|]. intros r. apply under_bind; [apply IH|]. intros. apply under_refl.
Qed.

Lemma with_limit_spec : forall (A K : Type) (P : kind A K) m ops s, spec_run (with_limit P m) s ops = spec_run P s ops.
Proof. intros A K P m. induction ops as [|o ops IH]; intros s; [reflexivity|]. cbn [spec_run]. rewrite IH. destruct o; reflexivity. Qed.

Lemma with_limit_fits : forall (A K : Type) (P : kind A K) m x ops s, fits P x s ops -> fits (with_limit P m) x s ops.
Proof. intros A K P m x. induction ops as [|o ops IH]; intros s H; [exact H|]. destruct H as [H1 H2]. split; [exact H1|]. apply IH. destruct o; exact H2. Qed.

Lemma any_history_ok : forall (A K : Type) (P : kind A K) n m ops, (forall x y, k_eq P x y = true <-> x = y) -> (m < 2 ^ 62)%N -> (n < 2 ^ 62)%N -> Forall (right_op P) ops -> fits P m [] ops ->
  run P (new_table n) ops = UB \/ exists answers, run P (new_table n) ops = Ok answers /\ Forall2 agree answers (spec_run P [] ops).
Proof.
  intros A K P n m ops Heq Hm Hn Hr Hf. set (x := N.max (k_limit P) m). destruct (under_run A K P x ltac:(unfold x; lia) ops (new_table n)) as [E|E]; [left; exact E|right].
  rewrite E, <- (with_limit_spec A K P x). apply (run_ok A K (with_limit P x) m); auto.
  - cbn. unfold x. lia.
  - now apply with_limit_fits.
  - apply new_table_ok. change (2 ^ 62)%N with 4611686018427387904%N in Hn. change (2 ^ 64)%N with 18446744073709551616%N. lia.
Qed.
