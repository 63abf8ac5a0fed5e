From Coq Require Import List Arith Lia Bool Permutation.
From Verif Require Import Base LifeModel LifeSpec LifeProofs.
Import ListNotations.

Lemma base_from_file_ok : forall m f h L b h', base_from_file m f h = Done (Some b, h') -> holds h L ->
  goodb b /\ has b /\ b_tags b <> Null /\ holds h' (own_base b ++ L).
Proof.
  intros m f h L b h' R H. unfold base_from_file in R. destruct (data_ok f); [|discriminate].
  destruct (obtain FMalloc h) as [p h1] eqn:O1. destruct (obtain_holds _ _ _ _ _ O1 H) as (-> & H1).
  destruct m; [|discriminate].
  destruct (obtain FNew h1) as [d h2] eqn:O2. destruct (obtain_holds _ _ _ _ _ O2 H1) as (-> & H2).
  destruct (obtain FNew h2) as [e h3] eqn:O3. destruct (obtain_holds _ _ _ _ _ O3 H2) as (-> & H3).
  destruct (tags_ok f); [|discriminate].
  destruct (obtain FArr h3) as [q h4] eqn:O4. destruct (obtain_holds _ _ _ _ _ O4 H3) as (-> & H4).
  destruct (counts_ok f); [|discriminate]. inversion R; subst. unfold goodb, has, own_base; cbn.
  repeat match goal with |- _ /\ _ => split end; eauto; try discriminate.
  eapply holds_perm; [exact H4|]. perm.
Qed.
Lemma base_from_file_none : forall m f h h', base_from_file m f h <> Done (None, h').
Proof.
  intros m f h h' R. unfold base_from_file in R. destruct (data_ok f); [|discriminate].
  destruct m; cbn in R; [|discriminate]. destruct (tags_ok f); [|discriminate]. destruct (counts_ok f); discriminate.
Qed.
(** A constructor that throws loses what it had obtained. *)
Lemma base_from_file_threw : forall m f h L o h', base_from_file m f h = Threw (o, h') -> holds h L ->
  exists E, holds h' (E ++ L) /\ (data_ok f = false -> E = []) /\ (m = true -> tags_ok f = true -> E = []).
Proof.
  intros m f h L o h' R H. unfold base_from_file in R. destruct (data_ok f).
  2:{ inversion R; subst. exists []; cbn; auto. }
  destruct (obtain FMalloc h) as [p h1] eqn:O1. destruct (obtain_holds _ _ _ _ _ O1 H) as (-> & H1).
  destruct m.
  2:{ inversion R; subst. exists [(h_next h, FMalloc)]; cbn; repeat split; try discriminate; exact H1 || apply H1. }
  destruct (obtain FNew h1) as [d h2] eqn:O2. destruct (obtain_holds _ _ _ _ _ O2 H1) as (-> & H2).
  destruct (obtain FNew h2) as [e h3] eqn:O3. destruct (obtain_holds _ _ _ _ _ O3 H2) as (-> & H3).
  destruct (tags_ok f).
  - destruct (obtain FArr h3) as [q h4]. destruct (counts_ok f); discriminate.
  - inversion R; subst. exists [(h_next h2, FNew); (h_next h1, FNew); (h_next h, FMalloc)]; cbn. split; [exact H3 | split; discriminate].
Qed.

Lemma base_empty_ok : forall h L b h', base_empty h = (b, h') -> holds h L ->
  goodb b /\ b_data b = Wild /\ b_tags b = Null /\ holds h' (own_base b ++ L).
Proof.
  intros h L b h' R H. unfold base_empty in R.
  destruct (obtain FNew h) as [d h2] eqn:O2. destruct (obtain_holds _ _ _ _ _ O2 H) as (-> & H2).
  destruct (obtain FNew h2) as [e h3] eqn:O3. destruct (obtain_holds _ _ _ _ _ O3 H2) as (-> & H3).
  inversion R; subst. unfold goodb, own_base; cbn.
  repeat match goal with |- _ /\ _ => split end; eauto; try discriminate. eapply holds_perm; [exact H3|]. perm.
Qed.

(** ** The inner levels of HNSW *)
Definition goodi (q : ptr * base) : Prop := (exists x, fst q = Blk x) /\ goodb (snd q).
Definition hasi (q : ptr * base) : Prop := has (snd q).

Lemma empty_inners_ok : forall l h L inners h', empty_inners l h = (inners, h') -> holds h L ->
  Forall goodi inners /\ length inners = l /\ holds h' (own_inners inners ++ L) /\ Forall (fun q => b_data (snd q) = Wild /\ b_tags (snd q) = Null) inners.
Proof.
  induction l as [|l IH]; intros h L inners h' R H; cbn [empty_inners] in R.
  - inversion R; subst. cbn. auto.
  - destruct (obtain FNew h) as [p h1] eqn:O1. destruct (obtain_holds _ _ _ _ _ O1 H) as (-> & H1).
    destruct (base_empty h1) as [b h2] eqn:O2. destruct (base_empty_ok _ _ _ _ O2 H1) as (G & W & T & H2).
    destruct (empty_inners l h2) as [rest h3] eqn:O3. destruct (IH _ _ _ _ O3 H2) as (A & B & C & F).
    inversion R; subst. repeat match goal with |- _ /\ _ => split end; auto.
    + constructor; [|exact A]. split; [cbn; eauto | exact G].
    + eapply holds_perm; [exact C|]. cbn. perm.
Qed.

Lemma load_inners_ok : forall l inners fs h L inners' h', load_inners l inners fs h = Done (inners', h') \/ load_inners l inners fs h = Threw (inners', h') ->
  Forall goodi inners -> holds h (own_inners inners ++ L) ->
  Forall goodi inners' /\ length inners' = length inners /\ (exists E, holds h' (own_inners inners' ++ E ++ L)) /\
  (Forall hasi inners -> Forall hasi inners').
Proof.
  induction l as [|l IH]; intros inners fs h L inners' h' R G H.
  - cbn in R. destruct R as [R|R]; inversion R; subst. repeat split; auto. exists []. exact H.
  - cbn in R. destruct inners as [|[p b] rest]; [now destruct R|]. destruct fs as [|f fs']; [now destruct R|].
    inversion G as [|? ? G1 G2]; subst. cbn in H.
    assert (holds h (own_inners rest ++ (own FNew p ++ own_base b) ++ L)) as H0 by (eapply holds_perm; [exact H|]; perm).
    destruct (load_inners l rest fs' h) as [[rest1 h1]|[rest1 h1]| |] eqn:O1; try (now destruct R).
    + destruct (IH _ _ _ _ _ _ (or_introl O1) G2 H0) as (A & B & (E & C) & D).
      assert (holds h1 (own_base b ++ own FNew p ++ own_inners rest1 ++ E ++ L)) as H1 by (eapply holds_perm; [exact C|]; perm).
      destruct (base_load f b h1) as [[b1 h2]|[b1 h2]| |] eqn:O2; try (now destruct R).
      * destruct (base_load_ok f b h1 _ b1 h2 (or_introl O2) (proj2 G1) H1) as (A2 & B2 & C2 & D2 & _).
        destruct R as [R|R]; inversion R; subst. repeat split.
        { constructor; [|exact A]. split; [exact (proj1 G1) | exact A2]. }
        { cbn. now f_equal. }
        { exists (spill f b ++ E). cbn. eapply holds_perm; [exact B2|]. perm. }
        { intros W. inversion W as [|? ? W1 W2]; subst. constructor; [apply C2; exact W1 | now apply D]. }
      * destruct (base_load_ok f b h1 _ b1 h2 (or_intror O2) (proj2 G1) H1) as (A2 & B2 & C2 & D2 & _).
        destruct R as [R|R]; inversion R; subst. repeat split.
        { constructor; [|exact A]. split; [exact (proj1 G1) | exact A2]. }
        { cbn. now f_equal. }
        { exists (spill f b ++ E). cbn. eapply holds_perm; [exact B2|]. perm. }
        { intros W. inversion W as [|? ? W1 W2]; subst. constructor; [apply C2; exact W1 | now apply D]. }
    + destruct (IH _ _ _ _ _ _ (or_intror O1) G2 H0) as (A & B & (E & C) & D).
      destruct R as [R|R]; inversion R; subst. repeat split.
      { constructor; [|exact A]. exact G1. }
      { cbn. now f_equal. }
      { exists E. cbn. eapply holds_perm; [exact C|]. perm. }
      { intros W. inversion W as [|? ? W1 W2]; subst. constructor; [exact W1 | now apply D]. }
Qed.

(** Every inner level is loaded exactly when all its files are as expected. *)
Lemma base_load_full : forall f b h b' h', base_load f b h = Done (b', h') -> full f = true.
Proof.
  intros f b h b' h' R. unfold base_load in R. unfold full. destruct (data_ok f); [|discriminate]. cbn in R.
  destruct (tags_ok f); [|discriminate]. destruct (counts_ok f); [|discriminate]. destruct (f_rest f); [reflexivity|discriminate|discriminate].
Qed.
Lemma full_base_load : forall f b h, full f = true -> exists b' h', base_load f b h = Done (b', h').
Proof.
  intros f b h F. unfold full in F. unfold base_load. destruct (data_ok f); [|discriminate]. destruct (tags_ok f); [|discriminate].
  destruct (counts_ok f); [|discriminate]. destruct (f_rest f); [|discriminate|discriminate]. cbn. eauto.
Qed.
Lemma load_inners_done : forall l inners fs h inners' h', load_inners l inners fs h = Done (inners', h') ->
  forallb full (firstn l fs) = true /\ (length inners = l -> Forall goodi inners -> Forall hasi inners').
Proof.
  induction l as [|l IH]; intros inners fs h inners' h' R; cbn in R.
  - inversion R; subst. split; [reflexivity|]. intros E _. destruct inners'; [constructor | discriminate].
  - destruct inners as [|[p b] rest]; [discriminate|]. destruct fs as [|f fs']; [discriminate|].
    destruct (load_inners l rest fs' h) as [[rest1 h1]|[rest1 h1]| |] eqn:O1; try discriminate.
    destruct (IH _ _ _ _ _ O1) as (A & B).
    destruct (base_load f b h1) as [[b1 h2]|[b1 h2]| |] eqn:O2; try discriminate. inversion R; subst.
    cbn [firstn forallb]. pose proof (base_load_full _ _ _ _ _ O2) as F. rewrite F, A. split; [reflexivity|].
    intros E G. inversion G as [|? ? G1 G2]; subst. cbn in E. constructor; [|apply B; [lia | exact G2]].
    unfold full in F. unfold base_load in O2. destruct (data_ok f); [|discriminate]. cbn in O2. destruct (tags_ok f); [|discriminate].
    destruct (counts_ok f); [|discriminate]. destruct (f_rest f); inversion O2; subst. unfold hasi, has. cbn. discriminate.
Qed.
Lemma load_inners_threw : forall l inners fs h inners' h', load_inners l inners fs h = Threw (inners', h') -> forallb full (firstn l fs) = false.
Proof.
  induction l as [|l IH]; intros inners fs h inners' h' R; cbn in R; [discriminate|].
  destruct inners as [|[p b] rest]; [discriminate|]. destruct fs as [|f fs']; [discriminate|]. cbn [firstn forallb].
  destruct (load_inners l rest fs' h) as [[rest1 h1]|[rest1 h1]| |] eqn:O1; try discriminate.
  - destruct (full f) eqn:F; [|reflexivity]. destruct (full_base_load f b h1 F) as (b' & h2 & E). rewrite E in R. discriminate.
  - rewrite (IH _ _ _ _ _ O1). apply andb_false_r.
Qed.

Lemma build_inners_ok : forall l inners ins h L inners' h', build_inners l inners ins h = Done (inners', h') \/ build_inners l inners ins h = Threw (inners', h') ->
  Forall goodi inners -> Forall hasi inners -> (l = 0 -> inners = []) -> holds h (own_inners inners ++ L) ->
  Forall goodi inners' /\ Forall hasi inners' /\ (l = 0 -> inners' = []) /\
  exists E, holds h' (own_inners inners' ++ E ++ L) /\ (inners = [] -> forallb (fun i => full (temp i)) ins = true -> E = []).
Proof.
  induction l as [|l IH]; intros inners ins h L inners' h' R G W Z H.
  - destruct ins as [|i ins']; cbn in R.
    + destruct R as [R|R]; inversion R; subst. repeat match goal with |- _ /\ _ => split end; auto. exists []. auto.
    + destruct (params_ok i); [destruct (rest_ok i)|]; destruct R as [R|R]; inversion R; subst; repeat match goal with |- _ /\ _ => split end; auto; exists []; auto.
  - destruct ins as [|i ins']; cbn [build_inners] in R.
    { destruct R as [R|R]; inversion R; subst. repeat match goal with |- _ /\ _ => split end; auto. exists []. auto. }
    destruct (params_ok i).
    2:{ destruct R as [R|R]; inversion R; subst. repeat match goal with |- _ /\ _ => split end; auto. exists []. auto. }
    destruct (obtain FNew h) as [p h1] eqn:O1. destruct (obtain_holds _ _ _ _ _ O1 H) as (-> & H1).
    destruct (base_from_file true (temp i) h1) as [[[b|] h2]|[o h2]| |] eqn:O2; try (now destruct R).
    + destruct (base_from_file_ok _ _ _ _ _ _ O2 H1) as (A & B & _ & C).
      assert (holds h2 (own_inners [] ++ own FNew (Blk (h_next h)) ++ own_base b ++ own_inners inners ++ L)) as H2 by (eapply holds_perm; [exact C|]; cbn; perm).
      assert (forall rest h3, build_inners l [] ins' h2 = Done (rest, h3) \/ build_inners l [] ins' h2 = Threw (rest, h3) ->
        Forall goodi ((Blk (h_next h), b) :: rest) /\ Forall hasi ((Blk (h_next h), b) :: rest) /\
        exists E, holds h3 (own_inners ((Blk (h_next h), b) :: rest) ++ E ++ L) /\ (inners = [] -> forallb (fun i => full (temp i)) (i :: ins') = true -> E = [])) as K.
      { intros rest h3 Q. destruct (IH [] ins' h2 _ rest h3 Q (Forall_nil _) (Forall_nil _) ltac:(auto) H2) as (A3 & B3 & _ & E & C3 & D3).
        split; [constructor; [split; [cbn; eauto | exact A] | exact A3]|]. split; [constructor; [exact B | exact B3]|].
        exists (E ++ own_inners inners). split; [eapply holds_perm; [exact C3|]; cbn; perm|].
        intros -> F. cbn in F. apply andb_true_iff in F as [_ F]. rewrite (D3 eq_refl F). reflexivity. }
      destruct (build_inners l [] ins' h2) as [[rest h3]|[rest h3]| |] eqn:O3; try (now destruct R).
      * destruct (K rest h3 (or_introl eq_refl)) as (K1 & K2 & K3).
        destruct (rest_ok i); destruct R as [R|R]; inversion R; subst; repeat match goal with |- _ /\ _ => split end; auto; discriminate.
      * destruct (K rest h3 (or_intror eq_refl)) as (K1 & K2 & K3).
        destruct R as [R|R]; inversion R; subst; repeat match goal with |- _ /\ _ => split end; auto; discriminate.
    + destruct (base_from_file_none _ _ _ _ O2).
    + destruct (base_from_file_threw _ _ _ _ _ _ O2 H1) as (E & C & D1 & D2).
      assert (holds h2 ((h_next h, FNew) :: E ++ own_inners inners ++ L)) as H2 by (eapply holds_perm; [exact C|]; perm).
      destruct (release_blk FNew (h_next h) h2 _ H2) as (h3 & Q & H3 & _). rewrite Q in R.
      destruct R as [R|R]; inversion R; subst. repeat match goal with |- _ /\ _ => split end; auto.
      exists E. split; [eapply holds_perm; [exact H3|]; perm|]. intros _ F. cbn in F. apply andb_true_iff in F as [F _].
      unfold full in F. apply D2; [reflexivity|]. destruct (tags_ok (temp i)); [reflexivity|]. rewrite andb_false_r in F. discriminate.
Qed.

Lemma destroy_inners_ok : forall inners h L, Forall goodi inners -> Forall hasi inners -> holds h (own_inners inners ++ L) ->
  exists h', destroy_inners inners h = Ok h' /\ holds h' L.
Proof.
  induction inners as [|[p b] rest IH]; intros h L G W H; cbn; [now exists h|].
  inversion G as [|? ? ((x & G0) & G1) G2]; subst. inversion W as [|? ? W1 W2]; subst. cbn in *.
  destruct (IH h (own_base b ++ own FNew p ++ L) G2 W2) as (h1 & -> & H1). { eapply holds_perm; [exact H|]. perm. }
  cbn. destruct (destroy_base_ok b h1 _ G1 W1 H1) as (h2 & -> & H2). cbn. apply release_own; [congruence | exact H2].
Qed.
Lemma destroy_inners_cases : forall inners h, destroy_inners inners h = UB \/ exists h', destroy_inners inners h = Ok h'.
Proof.
  induction inners as [|[p b] rest IH]; intros h; cbn; [eauto|]. destruct (IH h) as [-> | (h1 & ->)]; cbn; [auto|].
  destruct (destroy_base_cases b h1) as [-> | (h2 & ->)]; cbn; [auto|]. apply release_cases.
Qed.
