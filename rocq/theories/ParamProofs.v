(** * Lemmas about Parameters. *)
From Coq Require Import NArith Ascii String List Bool Lia.
From Verif Require Import TextModel TextProofs ParamModel ParamSpec.
Import ListNotations.
Local Open Scope string_scope.

Lemma conv_show : forall v, (v < 4294967296)%N -> conv_u32 (show v) = Val v.
Proof.
  intros v H. unfold conv_u32. rewrite skip_digit by apply show_digits. rewrite sign_digit by apply show_digits.
  destruct (digits_show v) as [k [Hk ->]]. destruct k; [lia|]. cbn [Nat.eqb]. rewrite (proj2 (N.leb_gt _ _)) by lia. reflexivity.
Qed.

Lemma fold_untouched : forall name os p, untouched name os -> fold_left (fun p o => pstep o p) os p name = p name.
Proof.
  intros name os. induction os as [|o t IH]; intros p H; [reflexivity|]. cbn [fold_left]. rewrite IH by (intros x Hx; apply H; now right).
  assert (E : pname o <> name) by (apply H; now left).
  destruct o; cbn in *; unfold p_set, p_text; rewrite (proj2 (String.eqb_neq _ _)); auto.
Qed.

Lemma prun_app : forall a b, prun (a ++ b) = fold_left (fun p o => pstep o p) b (prun a).
Proof. intros. unfold prun. apply fold_left_app. Qed.

Lemma last_text : forall pre o post text, untouched (pname o) post -> (text = match o with SetU _ v => show v | SetT _ t => t end) ->
  prun (pre ++ o :: post) (pname o) = Some text.
Proof.
  intros pre o post text H E. rewrite prun_app. cbn [fold_left]. rewrite fold_untouched by auto. subst text.
  destruct o; cbn; unfold p_set, p_text; now rewrite String.eqb_refl.
Qed.

Lemma get_last : forall pre name v post, (v < 4294967296)%N -> untouched name post ->
  p_get conv_u32 name (prun (pre ++ SetU name v :: post)) = Val v.
Proof.
  intros pre name v post Hv H. unfold p_get. pose proof (last_text pre (SetU name v) post (show v) H eq_refl) as E. cbn [pname] in E. rewrite E. now apply conv_show.
Qed.

Lemma new_params_none : forall name, name <> "num_threads" -> name <> "alpha" -> name <> "pruning_rule" -> new_params name = None.
Proof. intros name A B C. unfold new_params, p_set, p_text. rewrite !(proj2 (String.eqb_neq _ _)); auto. Qed.

Lemma get_unset : forall A (conv : string -> pres A) name os, untouched name os -> name <> "num_threads" -> name <> "alpha" -> name <> "pruning_rule" ->
  p_get conv name (prun os) = NoName /\ forall d, p_get_default conv name d (prun os) = Val d.
Proof.
  intros A conv name os H H1 H2 H3. assert (E : p_get conv name (prun os) = NoName).
  { unfold p_get, prun. rewrite fold_untouched by auto. now rewrite new_params_none. }
  split; [auto|]. intros d. unfold p_get_default. now rewrite E.
Qed.

Lemma get_defaults : forall os,
  (untouched "num_threads" os -> p_get conv_u32 "num_threads" (prun os) = Val 0%N) /\
  (untouched "pruning_rule" os -> p_get conv_u32 "pruning_rule" (prun os) = Val 0%N) /\
  (untouched "alpha" os -> prun os "alpha" = Some "1").
Proof.
  intros os. split; [|split]; intros H; unfold p_get, prun; rewrite fold_untouched by auto; reflexivity.
Qed.

Lemma word_spaceless : forall s, spaceless s -> word s = (s, "").
Proof.
  induction s as [|a t IH]; intros H; [reflexivity|]. cbn [word]. rewrite (H a) by (now left). rewrite IH by (intros x Hx; apply H; now right). reflexivity.
Qed.

Lemma word_split : forall s w r, word s = (w, r) -> s = w ++ r /\ spaceless w.
Proof.
  induction s as [|a t IH]; intros w r H; cbn [word] in H.
  - injection H as <- <-. split; [reflexivity|intros x []].
  - destruct (is_space a) eqn:E.
    + injection H as <- <-. split; [reflexivity|intros x []].
    + destruct (word t) as [w' r'] eqn:Ew. injection H as <- <-. destruct (IH w' r' eq_refl) as [-> Hs].
      split; [reflexivity|]. intros x [<-|Hx]; [auto|now apply Hs].
Qed.

Lemma skip_space_spaceless : forall s, spaceless s -> skip_space s = s.
Proof. intros [|a t] H; [reflexivity|]. cbn [skip_space]. rewrite (H a) by (now left). reflexivity. Qed.

Lemma conv_str_ok : forall s, s <> "" -> spaceless s -> conv_str s = Val s.
Proof.
  intros s Hne H. unfold conv_str. rewrite skip_space_spaceless by auto. rewrite word_spaceless by auto. destruct s; [congruence|reflexivity].
Qed.

Lemma skip_length : forall s, (String.length (skip_space s) <= String.length s)%nat.
Proof. induction s as [|a t IH]; cbn [skip_space String.length]; [lia|]. destruct (is_space a); cbn [String.length]; lia. Qed.

Lemma conv_str_only : forall s, conv_str s = Val s -> s <> "" /\ spaceless s.
Proof.
  intros s H. unfold conv_str in H. destruct (word (skip_space s)) as [w r] eqn:E. destruct w as [|a w]; [discriminate|]. destruct r; [|discriminate].
  injection H as H. apply word_split in E. destruct E as [E Hs]. rewrite <- H. split; [discriminate|auto].
Qed.

Lemma get_string : forall pre name s post, untouched name post ->
  p_get conv_str name (prun (pre ++ SetT name s :: post)) = Val s <-> s <> "" /\ spaceless s.
Proof.
  intros pre name s post H. unfold p_get. pose proof (last_text pre (SetT name s) post s H eq_refl) as E. cbn [pname] in E. rewrite E. split; [apply conv_str_only|].
  intros [A B]. now apply conv_str_ok.
Qed.
