From Coq Require Import List Arith Lia Bool Permutation.
From Verif Require Import Base LifeModel LifeSpec LifeProofs LifeProofs2 LifeProofs3.
Import ListNotations.

(** ** IVF *)
Definition ivf_inv (b : base) (c : ptr) (cf : option form) (h : heap) (L : list (nat * form)) : Prop :=
  goodb b /\ match cf with
             | None => c = Wild /\ holds h (own_base b ++ L)
             | Some f => has b /\ f <> FNew /\ exists x, c = Blk x /\ holds h ((x, f) :: own_base b ++ L)
             end.

Lemma ivf_perm : forall b c cf h L M, ivf_inv b c cf h L -> Permutation L M -> ivf_inv b c cf h M.
Proof.
  intros b c cf h L M (G & I) P. split; [exact G|]. destruct cf as [f|].
  - destruct I as (W & N & x & X & H). split; [exact W|]. split; [exact N|]. exists x. split; [exact X|]. eapply holds_perm; [exact H|]. now rewrite P.
  - destruct I as (X & H). split; [exact X|]. eapply holds_perm; [exact H|]. now rewrite P.
Qed.

Lemma ivf_step : forall k b c cf h L o' h', goes (step k (Ivf b c) h) o' h' -> ivf_inv b c cf h L ->
  exists b' c' E, o' = Ivf b' c' /\ ivf_inv b' c' (centres cf k) h' (E ++ L).
Proof.
  intros k b c cf h L o' h' R (G & I). unfold goes in R. destruct k as [fs cok|ins|r]; cbn [step] in R.
  - destruct fs as [|f fs]; cbn [call_load] in R; [now destruct R|].
    set (g := mkF (data_ok f) (tags_ok f) (counts_ok f) Fine) in *.
    (* the extra blocks: those of the centres *)
    assert (exists C, holds h (own_base b ++ C ++ L) /\ match cf with None => C = [] /\ c = Wild | Some f0 => f0 <> FNew /\ has b /\ exists x, c = Blk x /\ C = [(x, f0)] end) as (C & H & HC).
    { destruct cf as [f0|].
      - destruct I as (W & N & x & -> & H). exists [(x, f0)]. split; [eapply holds_perm; [exact H|]; perm|]. eauto 6.
      - destruct I as (-> & H). exists []. auto. }
    assert (forall b1 h1, base_load g b h = Done (b1, h1) \/ base_load g b h = Threw (b1, h1) -> ivf_inv b1 c cf h1 (spill g b ++ L)) as K.
    { intros b1 h1 Q. destruct (base_load_ok _ _ _ _ _ _ Q G H) as (A & B & D & _). split; [exact A|]. destruct cf as [f0|].
      - destruct HC as (N & W & x & -> & ->). split; [auto|]. split; [exact N|]. exists x. split; [reflexivity|]. eapply holds_perm; [exact B|]. perm.
      - destruct HC as (-> & ->). split; [reflexivity|]. exact B. }
    destruct (base_load g b h) as [[b1 h1]|[b1 h1]| |] eqn:O; try (now destruct R).
    + pose proof (base_load_full _ _ _ _ _ O) as F. unfold full, g in F. cbn in F. rewrite andb_true_r in F.
      destruct (base_load_ok _ _ _ _ _ _ (or_introl O) G H) as (A & B & D & D2 & _).
      cbn [centres]. rewrite F. cbn [andb]. destruct cok.
      * destruct (obtain FMalloc h1) as [p h2] eqn:O2. destruct (obtain_holds _ _ _ _ _ O2 B) as (-> & H2).
        assert (o' = Ivf b1 (Blk (h_next h1)) /\ h' = h2) as (-> & ->). { destruct (f_rest f); cbn in R; destruct R as [R|R]; inversion R; auto. }
        exists b1, (Blk (h_next h1)), (spill g b ++ C). split; [reflexivity|]. split; [exact A|]. split; [apply D2; cbn; destruct (data_ok f); [reflexivity | discriminate]|]. split; [discriminate|].
        eexists. split; [reflexivity|]. eapply holds_perm; [exact H2|]. perm.
      * assert (o' = Ivf b1 c /\ h' = h1) as (-> & ->) by (destruct R as [R|R]; inversion R; auto).
        exists b1, c, (spill g b). split; [reflexivity|]. apply K. auto.
    + assert (o' = Ivf b1 c /\ h' = h1) as (-> & ->) by (destruct R as [R|R]; inversion R; auto).
      exists b1, c, (spill g b). split; [reflexivity|]. cbn [centres].
      destruct (data_ok f && tags_ok f && counts_ok f) eqn:F.
      * exfalso. assert (full g = true) as FG by (unfold full, g; cbn; now rewrite F). destruct (full_base_load g b h FG) as (? & ? & X). congruence.
      * cbn [andb]. apply K. auto.
  - cbn [call_build] in R. destruct (set_ptr (b_data b)) eqn:W; [|now destruct R].
    assert (has b) as Hb by (unfold has; destruct (b_data b); discriminate).
    destruct ins as [|i ins].
    { assert (o' = Ivf b c /\ h' = h) as (-> & ->) by (destruct R as [R|R]; inversion R; auto). exists b, c, []. split; [reflexivity|]. split; [exact G | exact I]. }
    cbn [centres]. destruct (params_ok i).
    2:{ assert (o' = Ivf b c /\ h' = h) as (-> & ->) by (destruct R as [R|R]; inversion R; auto). exists b, c, []. split; [reflexivity|]. split; [exact G | exact I]. }
    assert (exists C, holds h (own_base b ++ C ++ L)) as (C & H).
    { destruct cf as [f0|]; [destruct I as (_ & _ & x & _ & H); exists [(x, f0)]; eapply holds_perm; [exact H|]; perm | exists []; apply I]. }
    destruct (obtain FArr h) as [p h1] eqn:O. destruct (obtain_holds _ _ _ _ _ O H) as (-> & H1).
    assert (o' = Ivf b (Blk (h_next h)) /\ h' = h1) as (-> & ->). { destruct (rest_ok i); destruct R as [R|R]; inversion R; auto. }
    exists b, (Blk (h_next h)), C. split; [reflexivity|]. split; [exact G|]. split; [exact Hb|]. split; [discriminate|]. eexists. split; [reflexivity | exact H1].
  - destruct (usable (Ivf b c)); [|now destruct R].
    assert (o' = Ivf b c /\ h' = h) as (-> & ->). { destruct r; destruct R as [R|R]; inversion R; auto. }
    exists b, c, []. split; [reflexivity|]. split; [exact G | exact I].
Qed.

Lemma ivf_run : forall cs b c cf h L o' h', run cs (Ivf b c) h = Done (o', h') -> ivf_inv b c cf h L ->
  exists b' c' E, o' = Ivf b' c' /\ ivf_inv b' c' (fold_left centres cs cf) h' (E ++ L).
Proof.
  induction cs as [|k cs IH]; intros b c cf h L o' h' R I.
  - cbn in R. inversion R; subst. exists b, c, []. auto.
  - apply run_cons in R as (o1 & h1 & R1 & R2). destruct (ivf_step _ _ _ _ _ _ _ _ R1 I) as (b1 & c1 & E1 & -> & I1).
    destruct (IH _ _ _ _ _ _ _ R2 I1) as (b' & c' & E & -> & I'). exists b', c', (E ++ E1). split; [reflexivity|]. now rewrite <- app_assoc.
Qed.

Lemma ivf_destroy : forall b c cf h L, ivf_inv b c cf h L ->
  match cf with Some FArr => exists h', destroy (Ivf b c) h = Ok h' /\ holds h' L | _ => destroy (Ivf b c) h = UB end.
Proof.
  intros b c cf h L (G & I). cbn [destroy]. destruct cf as [[]|].
  - destruct I as (_ & N & _). congruence.
  - destruct I as (W & _ & x & -> & H). destruct (release_blk _ _ _ _ H) as (h1 & -> & H1 & _). cbn [bind]. now apply destroy_base_ok.
  - destruct I as (W & _ & x & -> & H). now rewrite (release_wrong FArr FMalloc x h _ H (or_introl eq_refl) ltac:(discriminate)).
  - destruct I as (-> & _). reflexivity.
Qed.

Lemma ivf_made : forall h0 o h1, heap_ok h0 -> made KIvf h0 o h1 -> exists b, o = Ivf b Wild /\ ivf_inv b Wild None h1 (h_live h0).
Proof.
  intros h0 o h1 K [(m & f & M)|(m & M)].
  - unfold make_from_file in M. destruct (base_from_file m f h0) as [[[b|] h]|[[b|] h]| |] eqn:O; try discriminate. inversion M; subst.
    destruct (base_from_file_ok _ _ _ _ _ _ O (heap_holds _ K)) as (G & W & T & H). exists b. split; [reflexivity|]. split; auto.
  - unfold make_empty in M. destruct m; [|discriminate]. destruct (base_empty h0) as [b h] eqn:O. inversion M; subst.
    destruct (base_empty_ok _ _ _ _ O (heap_holds _ K)) as (G & W & T & H). exists b. split; [reflexivity|]. split; auto.
Qed.

Lemma ivf_life : forall h0 o h1 cs o' h2, heap_ok h0 -> made KIvf h0 o h1 -> run cs o h1 = Done (o', h2) ->
  match fold_left centres cs None with
  | Some FArr => exists h3 E, destroy o' h2 = Ok h3 /\ Permutation (h_live h3) (E ++ h_live h0)
  | _ => destroy o' h2 = UB
  end.
Proof.
  intros h0 o h1 cs o' h2 K M R. destruct (ivf_made _ _ _ K M) as (b & -> & I).
  destruct (ivf_run _ _ _ _ _ _ _ _ R I) as (b' & c' & E & -> & I'). pose proof (ivf_destroy _ _ _ _ _ I') as D.
  destruct (fold_left centres cs None) as [[]|]; auto. destruct D as (h3 & Q & H3). exists h3, E. split; [exact Q | apply H3].
Qed.

(** ** Two objects with the same pointers *)
Lemma holds_in : forall h a f L b g, holds h ((a, f) :: L) -> In (b, g) L -> a <> b.
Proof.
  intros h a f L b g ((N & _) & P) I ->. rewrite P in N. cbn in N. inversion N as [|? ? N1 _]; subst. apply N1. apply in_map_iff. now exists (b, g).
Qed.
Lemma holds_not_in : forall h a f L, holds h ((a, f) :: L) -> ~ In a (map fst L).
Proof. intros h a f L ((N & _) & P). rewrite P in N. cbn in N. now inversion N. Qed.

Lemma plain_copy : forall h0 o h1 cs o' h2 h3, heap_ok h0 -> made KPlain h0 o h1 -> run cs o h1 = Done (o', h2) -> destroy o' h2 = Ok h3 -> destroy o' h3 = UB.
Proof.
  intros h0 o h1 cs o' h2 h3 K M R D.
  assert (exists b, o = Plain b /\ goodb b /\ holds h1 (own_base b ++ h_live h0)) as (b & -> & G & H).
  { destruct M as [(m & f & M)|(m & M)].
    - unfold make_from_file in M. destruct (base_from_file m f h0) as [[[b|] h]|[[b|] h]| |] eqn:O; try discriminate. inversion M; subst.
      destruct (base_from_file_ok _ _ _ _ _ _ O (heap_holds _ K)) as (G & W & T & H). exists b. auto.
    - unfold make_empty in M. destruct m; [|discriminate]. destruct (base_empty h0) as [b h] eqn:O. inversion M; subst.
      destruct (base_empty_ok _ _ _ _ O (heap_holds _ K)) as (G & W & T & H). exists b. auto. }
  destruct (plain_run _ _ _ _ _ _ R G H) as (b' & E & -> & G' & H' & _).
  destruct (b_data b') eqn:W.
  { cbn in D. rewrite destroy_base_wild in D by exact W. discriminate. }
  all: destruct (destroy_base_ok b' h2 _ G' ltac:(unfold has; congruence) H') as (h4 & Q & H4); cbn in D; rewrite Q in D; inversion D; subst;
    destruct G' as ((x & X) & _); cbn; unfold destroy_base; rewrite X; unfold own_base in H'; rewrite X in H'; cbn in H';
    apply holds_not_in in H'; rewrite (release_gone FNew x h3 _ H4); [reflexivity|]; intros I; apply H'; rewrite !map_app, !in_app_iff in *; tauto.
Qed.
Lemma ivf_copy : forall h0 o h1 cs o' h2 h3, heap_ok h0 -> made KIvf h0 o h1 -> run cs o h1 = Done (o', h2) -> destroy o' h2 = Ok h3 -> destroy o' h3 = UB.
Proof.
  intros h0 o h1 cs o' h2 h3 K M R D. destruct (ivf_made _ _ _ K M) as (b & -> & I).
  destruct (ivf_run _ _ _ _ _ _ _ _ R I) as (b' & c' & E & -> & I'). pose proof (ivf_destroy _ _ _ _ _ I') as D'.
  destruct (fold_left centres cs None) as [[]|]; try congruence. destruct D' as (h4 & Q & H4). rewrite Q in D. inversion D; subst.
  destruct I' as (_ & _ & _ & x & -> & H). apply holds_not_in in H. cbn [destroy].
  rewrite (release_gone FArr x h3 _ H4); [reflexivity|]. intros J. apply H. rewrite map_app, in_app_iff. auto.
Qed.

(** ** The ways the tools go *)
Lemma run_uses : forall us o h, forallb is_use us = true -> run us o h = Bad \/ run us o h = Done (o, h).
Proof.
  induction us as [|u us IH]; intros o h U; [auto|]. cbn in U. apply andb_true_iff in U as [U1 U2]. destruct u as [| |r]; try discriminate. cbn [run step].
  destruct (usable o); [|auto]. destruct r; apply IH; auto.
Qed.

Lemma build_then_use : forall k m f h0 o h1 ins us o' h2, heap_ok h0 ->
  make_from_file k m f h0 = Done (Some o, h1) -> forallb (fun i => full (temp i)) ins = true -> (k = KIvf -> exists i ins', ins = i :: ins' /\ params_ok i = true) ->
  forallb is_use us = true -> run (Build ins :: us) o h1 = Done (o', h2) ->
  exists h3, destroy o' h2 = Ok h3 /\ Permutation (h_live h3) (h_live h0).
Proof.
  intros k m f h0 o h1 ins us o' h2 K M F P U R. apply run_cons in R as (o1 & h3 & R1 & R2).
  destruct (run_uses us o1 h3 U) as [X|X]; rewrite X in R2; inversion R2; subst o1 h3; clear R2 X.
  unfold make_from_file in M. destruct (base_from_file m f h0) as [[[b|] h]|[[b|] h]| |] eqn:O; try discriminate. inversion M; subst; clear M.
  destruct (base_from_file_ok _ _ _ _ _ _ O (heap_holds _ K)) as (G & W & T & H). unfold goes in R1.
  destruct k as [| |level]; cbn [step call_build] in R1; destruct (set_ptr (b_data b)) eqn:SW; try (now destruct R1).
  - assert (o' = Plain b /\ h2 = h1) as (-> & ->). { destruct ins as [|i ins]; [|destruct (params_ok i && rest_ok i)]; destruct R1 as [R|R]; inversion R; auto. }
    destruct (destroy_base_ok b h1 _ G W H) as (h3 & Q & H3). exists h3. split; [exact Q | apply H3].
  - destruct (P eq_refl) as (i & ins' & -> & PO). rewrite PO in R1.
    destruct (obtain FArr h1) as [p h4] eqn:O2. destruct (obtain_holds _ _ _ _ _ O2 H) as (-> & H4).
    assert (o' = Ivf b (Blk (h_next h1)) /\ h2 = h4) as (-> & ->). { destruct (rest_ok i); destruct R1 as [R|R]; inversion R; auto. }
    cbn [destroy]. destruct (release_blk _ _ _ _ H4) as (h5 & -> & H5 & _). cbn [bind].
    destruct (destroy_base_ok b h5 _ G W H5) as (h3 & Q & H3). exists h3. split; [exact Q | apply H3].
  - assert (exists in1, o' = Hnsw b level in1 /\ (build_inners level [] ins h1 = Done (in1, h2) \/ build_inners level [] ins h1 = Threw (in1, h2))) as (in1 & -> & Q).
    { destruct (build_inners level [] ins h1) as [[i1 h4]|[i1 h4]| |]; destruct R1 as [R|R]; inversion R; subst; (eexists; split; [reflexivity | auto]). }
    destruct (build_inners_ok level [] ins h1 (own_base b ++ h_live h0) _ _ Q (Forall_nil _) (Forall_nil _) ltac:(auto) H) as (A & B & C & E & D & E0).
    rewrite (E0 eq_refl F) in D.
    destruct (hnsw_destroy b level in1 h2 (h_live h0)) as (h3 & Q3 & H3).
    + repeat split; auto; try apply G. intros X. now destruct W.
    + exact W.
    + eapply holds_perm; [exact D|]. perm.
    + exists h3. split; [exact Q3 | apply H3].
Qed.

Lemma load_inners_full : forall l inners fs h L, Forall goodi inners -> Forall (fun q => b_data (snd q) = Wild /\ b_tags (snd q) = Null) inners -> length inners = l -> l <= length fs ->
  forallb full (firstn l fs) = true -> holds h (own_inners inners ++ L) ->
  exists inners' h', load_inners l inners fs h = Done (inners', h') /\ Forall goodi inners' /\ Forall hasi inners' /\ length inners' = l /\ holds h' (own_inners inners' ++ L).
Proof.
  induction l as [|l IH]; intros inners fs h L G W E EF F H.
  - destruct inners; [|discriminate]. exists [], h. cbn. auto.
  - destruct inners as [|[p b] rest]; [discriminate|]. destruct fs as [|f fs]; [cbn in EF; lia|].
    inversion G as [|? ? G1 G2]; subst. inversion W as [|? ? W1 W2]; subst. cbn [firstn forallb] in F. apply andb_true_iff in F as [F1 F2]. cbn in E, EF, H, W1.
    destruct (IH rest fs h ((own FNew p ++ own_base b) ++ L) G2 W2 ltac:(lia) ltac:(lia) F2) as (r1 & h1 & Q & A & B & C & D). { eapply holds_perm; [exact H|]. perm. }
    destruct (full_base_load f b h1 F1) as (b1 & h2 & Q2).
    destruct (base_load_ok f b h1 (own FNew p ++ own_inners r1 ++ L) b1 h2 (or_introl Q2) (proj2 G1)) as (A2 & B2 & C2 & D2 & _). { eapply holds_perm; [exact D|]. perm. }
    cbn [load_inners]. rewrite Q, Q2. exists ((p, b1) :: r1), h2. split; [reflexivity|].
    split; [constructor; [split; [exact (proj1 G1) | exact A2] | exact A]|].
    split; [constructor; [unfold hasi; cbn; apply D2; unfold full in F1; destruct (data_ok f); [reflexivity | discriminate] | exact B]|].
    split; [cbn; lia|]. cbn. unfold spill in B2. destruct W1 as (-> & ->) in B2. cbn in B2.
    eapply holds_perm; [exact B2|]. destruct (data_ok f), (tags_ok f); cbn; perm.
Qed.

Lemma load_then_use : forall k m h0 o h1 f fs c us o' h2, heap_ok h0 -> k <> KIvf ->
  make_empty k m h0 = Done (Some o, h1) -> full f = true -> forallb full fs = true -> forallb is_use us = true ->
  run (Load (f :: fs) c :: us) o h1 = Done (o', h2) ->
  exists h3, destroy o' h2 = Ok h3 /\ Permutation (h_live h3) (h_live h0).
Proof.
  intros k m h0 o h1 f fs c us o' h2 K NK M Ff F U R. apply run_cons in R as (o1 & h3 & R1 & R2).
  destruct (run_uses us o1 h3 U) as [X|X]; rewrite X in R2; inversion R2; subst o1 h3; clear R2 X. unfold goes in R1.
  unfold make_empty in M. destruct m; [|discriminate]. destruct (base_empty h0) as [b h] eqn:O.
  destruct (base_empty_ok _ _ _ _ O (heap_holds _ K)) as (G & W & T & H).
  destruct k as [| |level]; [|congruence|].
  - inversion M; subst; clear M. cbn [step call_load] in R1.
    destruct (full_base_load f b h1 Ff) as (b1 & h3 & Q). rewrite Q in R1. destruct R1 as [R|R]; inversion R; subst.
    destruct (base_load_ok _ _ _ _ _ _ (or_introl Q) G H) as (A & B & C & D & _).
    unfold spill in B. rewrite W, T in B. assert (data_ok f = true) as DO by (unfold full in Ff; destruct (data_ok f); [reflexivity | discriminate]).
    destruct (destroy_base_ok b1 h2 (h_live h0) A (D DO)) as (h3 & Q3 & H3). { eapply holds_perm; [exact B|]. destruct (data_ok f), (tags_ok f); cbn; perm. }
    exists h3. split; [exact Q3 | apply H3].
  - destruct (empty_inners level h) as [inners h'] eqn:O2. inversion M; subst; clear M. cbn [step call_load] in R1.
    destruct (empty_inners_ok _ _ _ _ _ O2 H) as (A & B & C & D).
    destruct (le_lt_dec level (length fs)) as [LE|LT].
    + assert (forallb full (firstn level fs) = true) as FF.
      { rewrite forallb_forall in *. intros x I. apply F. rewrite <- (firstn_skipn level fs). apply in_app_iff. auto. }
      destruct (load_inners_full level inners fs h1 _ A D B LE FF C) as (in1 & h3 & Q & A1 & B1 & C1 & D1). rewrite Q in R1.
      destruct (full_base_load f b h3 Ff) as (b1 & h4 & Q4). rewrite Q4 in R1. destruct R1 as [R|R]; inversion R; subst.
      destruct (base_load_ok f b h3 (own_inners in1 ++ h_live h0) b1 h2 (or_introl Q4) G) as (A5 & B5 & C5 & D5 & _). { eapply holds_perm; [exact D1|]. perm. }
      assert (data_ok f = true) as DO by (unfold full in Ff; destruct (data_ok f); [reflexivity | discriminate]).
      unfold spill in B5. rewrite W, T in B5.
      destruct (hnsw_destroy b1 (length inners) in1 h2 (h_live h0)) as (h5 & Q5 & H5).
      * repeat split; auto; try apply A5. intros X. destruct in1; [reflexivity | cbn in C1; lia].
      * exact (D5 DO).
      * eapply holds_perm; [exact B5|]. destruct (data_ok f), (tags_ok f); cbn; perm.
      * exists h5. split; [exact Q5 | apply H5].
    + exfalso. assert (forall l inn ff hh, length ff < l -> load_inners l inn ff hh = Bad) as BAD.
      { induction l as [|l IHl]; intros inn ff hh X; [lia|]. cbn. destruct inn as [|[p q] inn]; [reflexivity|]. destruct ff as [|g ff]; [reflexivity|]. cbn in X. rewrite IHl by lia. reflexivity. }
      rewrite BAD in R1 by exact LT. now destruct R1.
Qed.

(** The search tool for IVF: every run ends in a mismatched delete. *)
Lemma ivf_search : forall h0 o h1 f fs us, heap_ok h0 -> make_empty KIvf true h0 = Done (Some o, h1) -> full f = true -> forallb is_use us = true ->
  exists o' h2, run (Load (f :: fs) true :: us) o h1 = Done (o', h2) /\ destroy o' h2 = UB.
Proof.
  intros h0 o h1 f fs us K M F U.
  assert (exists o' h2, run (Load (f :: fs) true :: us) o h1 = Done (o', h2)) as (o' & h2 & R).
  { unfold make_empty in M. destruct (base_empty h0) as [b h] eqn:O. inversion M; subst. cbn [run step call_load].
    unfold full in F. unfold base_load. cbn. destruct (data_ok f); [|discriminate]. destruct (tags_ok f); [|discriminate]. destruct (counts_ok f); [|discriminate].
    destruct (f_rest f); [|discriminate|discriminate]. cbn.
    match goal with |- context [run us ?a ?b] => destruct (run_uses us a b U) as [X|X]; [|rewrite X; eauto]; exfalso; clear - X U; generalize X; clear X end.
    induction us as [|u us IH]; cbn; [discriminate|]. cbn in U. apply andb_true_iff in U as [U1 U2]. destruct u as [| |[]]; try discriminate; cbn; auto. }
  exists o', h2. split; [exact R|].
  assert (fold_left centres (Load (f :: fs) true :: us) None = Some FMalloc) as E.
  { cbn. unfold full in F. apply andb_true_iff in F as [F _]. rewrite F. cbn. clear - U. induction us as [|u us IH]; [reflexivity|]. cbn in *. apply andb_true_iff in U as [U1 U2].
    destruct u; try discriminate. cbn. auto. }
  pose proof (ivf_life h0 o h1 _ o' h2 K (or_intror (ex_intro _ true M)) R) as D. now rewrite E in D.
Qed.

(** HNSW: load into an object made from a file. *)
Lemma hnsw_load_bad : forall level m f h0 o h1 fs c us, make_from_file (KHnsw (S level)) m f h0 = Done (Some o, h1) ->
  run (Load fs c :: us) o h1 = Bad.
Proof.
  intros level m f h0 o h1 fs c us M. unfold make_from_file in M. destruct (base_from_file m f h0) as [[[b|] h]|[[b|] h]| |] eqn:O; try discriminate. inversion M; subst.
  cbn. destruct fs; reflexivity.
Qed.

(** A second build loses what the first one obtained. *)
Lemma ivf_two_builds : forall m f h0 o h1 i ins j jns o' h2, heap_ok h0 -> make_from_file KIvf m f h0 = Done (Some o, h1) ->
  params_ok i = true -> params_ok j = true -> run [Build (i :: ins); Build (j :: jns)] o h1 = Done (o', h2) ->
  exists h3, destroy o' h2 = Ok h3 /\ length (h_live h3) = length (h_live h0) + 1.
Proof.
  intros m f h0 o h1 i ins j jns o' h2 K M Pi Pj R. unfold make_from_file in M. destruct (base_from_file m f h0) as [[[b|] h]|[[b|] h]| |] eqn:O; try discriminate. inversion M; subst.
  destruct (base_from_file_ok _ _ _ _ _ _ O (heap_holds _ K)) as (G & W & T & H).
  assert (o' = Ivf b (Blk (S (h_next h1))) /\ h2 = snd (obtain FArr (snd (obtain FArr h1)))) as (-> & ->).
  { cbn [run step call_build] in R. destruct (set_ptr (b_data b)) eqn:SW; [|discriminate]. rewrite Pi in R. cbn in R.
    destruct (rest_ok i); cbn in R; rewrite SW, Pj in R; cbn in R; destruct (rest_ok j); inversion R; auto. }
  destruct (obtain FArr h1) as [p h4] eqn:O2. destruct (obtain_holds _ _ _ _ _ O2 H) as (-> & H4). cbn [snd].
  assert (h_next h4 = S (h_next h1)) as N by (unfold obtain in O2; inversion O2; reflexivity).
  destruct (obtain FArr h4) as [q h5] eqn:O3. destruct (obtain_holds _ _ _ _ _ O3 H4) as (-> & H5). cbn [snd destroy]. rewrite N in H5.
  destruct (release_blk _ _ _ _ H5) as (h6 & -> & H6 & _). cbn [bind].
  destruct (destroy_base_ok b h6 ((h_next h1, FArr) :: h_live h0) G W) as (h7 & Q & H7). { eapply holds_perm; [exact H6|]. perm. }
  exists h7. split; [exact Q|]. destruct H7 as (_ & P7). apply Permutation_length in P7. cbn in P7. lia.
Qed.

Lemma base_from_file_len : forall m f h b h', base_from_file m f h = Done (Some b, h') -> length (h_live h') = length (h_live h) + 4 /\ length (own_base b) = 4.
Proof.
  intros m f h b h' R. unfold base_from_file in R. destruct (data_ok f); [|discriminate]. destruct m; [|discriminate]. destruct (tags_ok f); [|discriminate].
  destruct (counts_ok f); [|discriminate]. inversion R; subst. cbn. lia.
Qed.
Lemma build_inners_len : forall l inners ins h inners' h', (l = 0 -> inners = []) -> build_inners l inners ins h = Done (inners', h') ->
  length (h_live h') = length (h_live h) + 5 * l /\ length (own_inners inners') = 5 * l.
Proof.
  induction l as [|l IH]; intros inners ins h inners' h' Z R; destruct ins as [|i ins]; cbn [build_inners] in R; try discriminate.
  - destruct (params_ok i), (rest_ok i); inversion R; subst. rewrite Z by reflexivity. cbn. lia.
  - destruct (params_ok i); [|discriminate]. destruct (obtain FNew h) as [p h1] eqn:O. unfold obtain in O. inversion O; subst.
    match goal with R : match base_from_file ?a ?b ?c with _ => _ end = _ |- _ => destruct (base_from_file a b c) as [[[bb|] h2]|[o h2]| |] eqn:O2; try discriminate end.
    + destruct (base_from_file_len _ _ _ _ _ O2) as (A & B). cbn [h_live] in A.
      destruct (build_inners l [] ins h2) as [[rest h3]|[rest h3]| |] eqn:O3; try discriminate. destruct (IH _ _ _ _ _ ltac:(auto) O3) as (C & D).
      destruct (rest_ok i); inversion R; subst. cbn [own_inners]. rewrite !app_length, B, D. cbn. cbn in A. lia.
    + match goal with R : match ?x with _ => _ end = _ |- _ => destruct x; discriminate end.
    + match goal with R : match ?x with _ => _ end = _ |- _ => destruct x; discriminate end.
Qed.
Lemma hnsw_two_builds : forall level m f h0 o h1 ins jns o1 h2 o2 h3, heap_ok h0 -> make_from_file (KHnsw level) m f h0 = Done (Some o, h1) ->
  step (Build ins) o h1 = Done (o1, h2) -> step (Build jns) o1 h2 = Done (o2, h3) ->
  exists h4, destroy o2 h3 = Ok h4 /\ length (h_live h4) = length (h_live h0) + 5 * level.
Proof.
  intros level m f h0 o h1 ins jns o1 h2 o2 h3 K M S1 S2. unfold make_from_file in M. destruct (base_from_file m f h0) as [[[b|] h]|[[b|] h]| |] eqn:O; try discriminate. inversion M; subst.
  destruct (base_from_file_ok _ _ _ _ _ _ O (heap_holds _ K)) as (G & W & T & H). destruct (base_from_file_len _ _ _ _ _ O) as (LA & LB).
  assert (hn_ok b level []) as I0. { repeat split; auto; try apply G. intros X. now destruct W. }
  destruct (hnsw_step (Build ins) b level [] h1 (h_live h0) o1 h2 (or_introl S1) I0 H) as (b1 & in1 & E1 & -> & I1 & H1 & _).
  destruct (hnsw_step (Build jns) b1 level in1 h2 _ o2 h3 (or_introl S2) I1 H1) as (b2 & in2 & E2 & -> & I2 & H2 & D2).
  cbn [step call_build] in S1, S2. destruct (set_ptr (b_data b)) eqn:SW; [|discriminate]. destruct (build_inners level [] ins h1) as [[a h5]|[a h5]| |] eqn:B1; inversion S1; subst.
  rewrite SW in S2. destruct (build_inners level in1 jns h2) as [[a h5]|[a h5]| |] eqn:B2; inversion S2; subst.
  destruct (build_inners_len level [] _ _ _ _ ltac:(auto) B1) as (L1 & L2). destruct I1 as (_ & _ & _ & _ & Z1). destruct (build_inners_len level in1 _ _ _ _ Z1 B2) as (L3 & L4).
  destruct (hnsw_destroy _ _ _ _ _ I2 W H2) as (h4 & Q & H4). exists h4. split; [exact Q|].
  destruct H2 as (_ & P2). destruct H4 as (_ & P4). apply Permutation_length in P2, P4. rewrite !app_length in *. lia.
Qed.
