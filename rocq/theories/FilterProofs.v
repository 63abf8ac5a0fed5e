(** * Lemmas about the label filter. *)
From Coq Require Import String List Arith Bool NArith Ascii Sorting.Sorted Lia.
From Verif Require Import Base Float32 PoolModel FilterSpec.
Import ListNotations.

Lemma string_compare_eq : forall a b, String.compare a b = Eq <-> a = b.
Proof.
  intros a b. split; [apply String.compare_eq_iff|]. intros <-.
  induction a as [|x a IH]; cbn; auto. unfold Ascii.compare. rewrite N.compare_refl. auto.
Qed.

Lemma string_compare_trans_lt : forall a b c,
  String.compare a b = Lt -> String.compare b c = Lt -> String.compare a c = Lt.
Proof.
  induction a as [|x a IH]; intros b c H1 H2.
  - destruct b; [discriminate|]. destruct c; [cbn in H2; discriminate|]. reflexivity.
  - destruct b as [|y b]; [cbn in H1; discriminate|]. destruct c as [|z c]; [cbn in H2; discriminate|].
    cbn in *. unfold Ascii.compare in *.
    destruct (N.compare_spec (N_of_ascii x) (N_of_ascii y)) as [E1|E1|E1]; try discriminate;
    destruct (N.compare_spec (N_of_ascii y) (N_of_ascii z)) as [E2|E2|E2]; try discriminate;
    destruct (N.compare_spec (N_of_ascii x) (N_of_ascii z)) as [E3|E3|E3]; try lia; auto.
    eapply IH; eauto.
Qed.

Lemma string_compare_lt_le : forall a b c,
  String.compare a b = Lt -> label_le b c -> String.compare a c = Lt.
Proof.
  intros a b c H1 H2. unfold label_le in H2. destruct (String.compare b c) eqn:E; [|eapply string_compare_trans_lt; eauto|congruence].
  apply string_compare_eq in E. subst. auto.
Qed.

Lemma string_compare_lt_neq : forall a b, String.compare a b = Lt -> a <> b.
Proof. intros a b H ->. assert (String.compare b b = Eq) by (apply string_compare_eq; auto). congruence. Qed.

Lemma set_intersection_cons : forall x xs y ys,
  set_intersection (x :: xs) (y :: ys) =
  match String.compare x y with
  | Lt => set_intersection xs (y :: ys)
  | Gt => set_intersection (x :: xs) ys
  | Eq => x :: set_intersection xs ys
  end.
Proof. reflexivity. Qed.

Lemma set_intersection_nil_r : forall xs, set_intersection xs [] = [].
Proof. destruct xs; reflexivity. Qed.

(** Soundness needs no order. *)
Lemma set_intersection_sound : forall xs ys z, In z (set_intersection xs ys) -> In z xs /\ In z ys.
Proof.
  induction xs as [|x xs IHx]; intros ys.
  - intros z H. destruct ys; destruct H.
  - induction ys as [|y ys IHy]; intros z H.
    + rewrite set_intersection_nil_r in H. destruct H.
    + rewrite set_intersection_cons in H. destruct (String.compare x y) eqn:E.
      * apply string_compare_eq in E. subst y. destruct H as [<-|H]; [split; left; auto|].
        apply IHx in H. split; right; tauto.
      * apply IHx in H. split; [right|]; tauto.
      * apply IHy in H. split; [|right]; tauto.
Qed.

Lemma set_intersection_complete : forall xs ys, sorted_labels xs -> sorted_labels ys ->
  share_label xs ys -> set_intersection xs ys <> [].
Proof.
  induction xs as [|x xs IHx]; intros ys Hx Hy [z [H1 H2]].
  - destruct H1.
  - induction ys as [|y ys IHy].
    + destruct H2.
    + rewrite set_intersection_cons.
      assert (Hx' := Hx). assert (Hy' := Hy).
      apply StronglySorted_inv in Hx'. apply StronglySorted_inv in Hy'.
      destruct Hx' as [Sx Fx]. destruct Hy' as [Sy Fy]. rewrite Forall_forall in Fx, Fy.
      destruct (String.compare x y) eqn:E.
      * discriminate.
      * apply IHx; auto. exists z. split; auto. destruct H1 as [<-|H1]; auto. exfalso.
        destruct H2 as [<-|H2]; [apply string_compare_lt_neq in E; congruence|].
        apply Fy in H2. assert (C := string_compare_lt_le _ _ _ E H2).
        apply string_compare_lt_neq in C. congruence.
      * apply IHy; auto. destruct H2 as [<-|H2]; auto. exfalso.
        rewrite String.compare_antisym in E. destruct (String.compare y x) eqn:E2; cbn in E; try discriminate.
        destruct H1 as [<-|H1]; [apply string_compare_lt_neq in E2; congruence|].
        apply Fx in H1. assert (C := string_compare_lt_le _ _ _ E2 H1).
        apply string_compare_lt_neq in C. congruence.
Qed.

Lemma label_mem_In : forall x l, label_mem x l = true <-> In x l.
Proof.
  intros x l. unfold label_mem. rewrite existsb_exists. split.
  - intros [y [Hy E]]. apply String.eqb_eq in E. subst. auto.
  - intros H. exists x. split; auto. apply String.eqb_refl.
Qed.

Lemma passes_filter_defined : forall lc filters id, filters <> [] ->
  id < length (pts_to_labels lc) ->
  exists curr b, nth_error (pts_to_labels lc) id = Some curr /\ passes_filter lc filters id = Ok b /\
    (b = true <-> (set_intersection filters curr <> [] \/
       exists u, universal_of lc = Some u /\ (In u filters \/ In u curr))).
Proof.
  intros lc filters id Hne Hid. destruct filters as [|f fs]; [congruence|].
  unfold passes_filter. destruct (rd_lt _ (pts_to_labels lc) id Hid) as [curr Hc]. rewrite Hc. cbn [bind].
  apply rd_ok in Hc. exists curr. eexists. split; [auto|]. split; [reflexivity|].
  unfold universal_of. destruct (use_universal_label lc); cbn [andb].
  - destruct (label_mem (universal_label lc) (f :: fs) || label_mem (universal_label lc) curr) eqn:E.
    + apply orb_true_iff in E. rewrite !label_mem_In in E.
      split.
      * intros _. right. exists (universal_label lc). split; auto.
      * intros _. destruct (set_intersection (f :: fs) curr); reflexivity.
    + apply orb_false_iff in E. destruct E as [E1 E2].
      split.
      * intros H. left. destruct (set_intersection (f :: fs) curr); congruence.
      * intros [H|[u [Hu H]]].
        -- destruct (set_intersection (f :: fs) curr); congruence.
        -- inversion Hu; subst u. exfalso. rewrite <- !label_mem_In in H. destruct H; congruence.
  - split.
    + intros H. left. destruct (set_intersection (f :: fs) curr); congruence.
    + intros [H|[u [Hu H]]]; [|discriminate]. destruct (set_intersection (f :: fs) curr); congruence.
Qed.

(** Accepted points match, whatever the order of the filter list. *)
Lemma passes_filter_sound : forall lc filters id curr,
  nth_error (pts_to_labels lc) id = Some curr ->
  passes_filter lc filters id = Ok true -> matches (universal_of lc) filters curr.
Proof.
  intros lc filters id curr Hc H. destruct filters as [|f fs]; [left; reflexivity|]. right.
  assert (Hid : id < length (pts_to_labels lc)) by (apply nth_error_Some; congruence).
  destruct (passes_filter_defined lc (f :: fs) id) as [c [b [Hc' [Hp Hb]]]]; [discriminate|auto|].
  assert (c = curr) by congruence. subst c.
  assert (b = true) by congruence. subst b. destruct (proj1 Hb eq_refl) as [Hi|Hu]; [|right; exact Hu].
  left. destruct (set_intersection (f :: fs) curr) as [|z t] eqn:E; [congruence|].
  exists z. apply set_intersection_sound. rewrite E. left. auto.
Qed.

Lemma passes_filter_exact : forall lc filters id curr,
  nth_error (pts_to_labels lc) id = Some curr ->
  sorted_labels filters -> sorted_labels curr ->
  exists b, passes_filter lc filters id = Ok b /\
    (b = true <-> matches (universal_of lc) filters curr).
Proof.
  intros lc filters id curr Hc Hsf Hsc.
  destruct filters as [|f fs].
  { exists true. split; [reflexivity|]. split; auto. intros _. left. reflexivity. }
  assert (Hid : id < length (pts_to_labels lc)) by (apply nth_error_Some; congruence).
  destruct (passes_filter_defined lc (f :: fs) id) as [c [b [Hc' [Hp Hb]]]]; [discriminate|auto|].
  assert (c = curr) by congruence. subst c. exists b. split; auto. split.
  - intros ->. eapply passes_filter_sound; eauto.
  - intros [C|[H|H]]; [discriminate| |]; apply Hb; [left|right; exact H].
    apply set_intersection_complete; auto.
Qed.
