From Coq Require Import List Arith Lia Bool Permutation.
From Verif Require Import Base LifeModel LifeSpec LifeProofs LifeProofs2.
Import ListNotations.

Definition sz (p : ptr) : nat := match p with Blk _ => 1 | _ => 0 end.
Definition b2n (b : bool) : nat := if b then 1 else 0.
Definition or1 (b : bool) (n : nat) : nat := if b then 1 else n.
Lemma own_sz : forall f p, length (own f p) = sz p.
Proof. now intros f []. Qed.

Lemma base_load_shape : forall f b h b' h', base_load f b h = Done (b', h') \/ base_load f b h = Threw (b', h') ->
  sz (b_data b') = or1 (data_ok f) (sz (b_data b)) /\ sz (b_tags b') = or1 (data_ok f && tags_ok f) (sz (b_tags b)) /\
  (data_ok f = false -> b_data b' = b_data b) /\ (data_ok f = true -> b_data b' <> Wild).
Proof.
  intros f b h b' h' R. unfold base_load in R. destruct (data_ok f); cbn in *.
  - destruct (tags_ok f); cbn in *.
    + destruct (counts_ok f); [|now destruct R]. destruct (f_rest f); cbn in R; destruct R as [R|R]; inversion R; subst; cbn; repeat split; congruence.
    + destruct R as [R|R]; inversion R; subst; cbn; repeat split; congruence.
  - destruct R as [R|R]; inversion R; subst; cbn; repeat split; congruence.
Qed.
Lemma spill_len : forall f b, length (spill f b) = if data_ok f then sz (b_data b) + (if tags_ok f then sz (b_tags b) else 0) else 0.
Proof. intros f b. unfold spill. destruct (data_ok f); [|reflexivity]. rewrite app_length, own_sz. destruct (tags_ok f); [now rewrite own_sz | cbn; lia]. Qed.

Definition goes (r : out (obj * heap)) (o : obj) (h : heap) : Prop := r = Done (o, h) \/ r = Threw (o, h).
Lemma run_cons : forall c cs o h o' h', run (c :: cs) o h = Done (o', h') -> exists o1 h1, goes (step c o h) o1 h1 /\ run cs o1 h1 = Done (o', h').
Proof.
  intros c cs o h o' h' R. cbn in R. destruct (step c o h) as [[o1 h1]|[o1 h1]| |] eqn:E; try discriminate; exists o1, h1; unfold goes; auto.
Qed.

Lemma count_cons : forall p c cs, count p (c :: cs) = b2n (p c) + count p cs.
Proof. intros p c cs. unfold count. cbn. destruct (p c); reflexivity. Qed.

(** ** Vamana, RelativeNG, LSH *)
Lemma plain_step : forall c b h L o' h', goes (step c (Plain b) h) o' h' -> goodb b -> holds h (own_base b ++ L) ->
  exists b' E, o' = Plain b' /\ goodb b' /\ holds h' (own_base b' ++ E ++ L) /\
    length E + sz (b_data b') + sz (b_tags b') = sz (b_data b) + sz (b_tags b) + b2n (loads_data c) + b2n (loads_tags c) /\
    sz (b_data b') = or1 (loads_data c) (sz (b_data b)) /\ sz (b_tags b') = or1 (loads_tags c) (sz (b_tags b)) /\
    (b_data b' <> Wild <-> b_data b <> Wild \/ loads_data c = true).
Proof.
  intros c b h L o' h' R G H. unfold goes in R. destruct c as [fs cok|ins|r]; cbn [step] in R.
  - destruct fs as [|f fs]; cbn [call_load] in R; [now destruct R|].
    assert (exists b', o' = Plain b' /\ (base_load f b h = Done (b', h') \/ base_load f b h = Threw (b', h'))) as (b' & -> & Q).
    { destruct (base_load f b h) as [[b1 h1]|[b1 h1]| |]; destruct R as [R|R]; inversion R; subst; (eexists; split; [reflexivity | auto]). }
    destruct (base_load_ok _ _ _ _ _ _ Q G H) as (A & B & C & D & E & _). destruct (base_load_shape _ _ _ _ _ Q) as (S1 & S2 & S3 & S4).
    exists b', (spill f b). cbn [loads_data loads_tags]. repeat match goal with |- _ /\ _ => split end; auto.
    + rewrite spill_len, S1, S2. destruct (data_ok f), (tags_ok f); cbn; lia.
    + split.
      * intros W. destruct (data_ok f); [auto|]. left. now rewrite <- S3.
      * intros [W|W]; [exact (C W) | exact (D W)].
  - cbn [call_build] in R. destruct (set_ptr (b_data b)) eqn:W; [|now destruct R].
    assert (o' = Plain b /\ h' = h) as (-> & ->). { destruct ins as [|i ins]; [|destruct (params_ok i && rest_ok i)]; destruct R as [R|R]; inversion R; auto. }
    exists b, []. cbn. repeat match goal with |- _ /\ _ => split end; auto; try lia. intuition discriminate.
  - cbn [usable] in R. destruct (set_ptr (b_data b)) eqn:W; [|now destruct R].
    assert (o' = Plain b /\ h' = h) as (-> & ->). { destruct r; destruct R as [R|R]; inversion R; auto. }
    exists b, []. cbn. repeat match goal with |- _ /\ _ => split end; auto; try lia. intuition discriminate.
Qed.

Lemma plain_run : forall cs b h L o' h', run cs (Plain b) h = Done (o', h') -> goodb b -> holds h (own_base b ++ L) ->
  exists b' E, o' = Plain b' /\ goodb b' /\ holds h' (own_base b' ++ E ++ L) /\
    length E + sz (b_data b') + sz (b_tags b') = sz (b_data b) + sz (b_tags b) + count loads_data cs + count loads_tags cs /\
    sz (b_data b') = or1 (0 <? count loads_data cs) (sz (b_data b)) /\ sz (b_tags b') = or1 (0 <? count loads_tags cs) (sz (b_tags b)) /\
    (b_data b' <> Wild <-> b_data b <> Wild \/ existsb loads_data cs = true).
Proof.
  induction cs as [|c cs IH]; intros b h L o' h' R G H.
  - cbn in R. inversion R; subst. exists b, []. cbn. repeat match goal with |- _ /\ _ => split end; auto; try lia. intuition discriminate.
  - apply run_cons in R as (o1 & h1 & R1 & R2). destruct (plain_step _ _ _ _ _ _ R1 G H) as (b1 & E1 & -> & G1 & H1 & A1 & B1 & C1 & D1).
    destruct (IH _ _ _ _ _ R2 G1 H1) as (b' & E & -> & G' & H' & A' & B' & C' & D'). exists b', (E ++ E1). rewrite !count_cons.
    repeat match goal with |- _ /\ _ => split end; auto.
    + now rewrite <- app_assoc.
    + rewrite app_length. lia.
    + rewrite B', B1. destruct (loads_data c), (count loads_data cs); reflexivity.
    + rewrite C', C1. destruct (loads_tags c), (count loads_tags cs); reflexivity.
    + cbn [existsb]. rewrite orb_true_iff. tauto.
Qed.

Lemma heap_holds : forall h, heap_ok h -> holds h (h_live h).
Proof. intros h H. split; [exact H | reflexivity]. Qed.

Lemma plain_file : forall m f h0 o h1 cs o' h2, heap_ok h0 -> make_from_file KPlain m f h0 = Done (Some o, h1) -> run cs o h1 = Done (o', h2) ->
  exists h3 E, destroy o' h2 = Ok h3 /\ Permutation (h_live h3) (E ++ h_live h0) /\ length E = count loads_data cs + count loads_tags cs.
Proof.
  intros m f h0 o h1 cs o' h2 K M R. unfold make_from_file in M.
  destruct (base_from_file m f h0) as [[[b|] h]|[[b|] h]| |] eqn:O; try discriminate. inversion M; subst.
  destruct (base_from_file_ok _ _ _ _ _ _ O (heap_holds _ K)) as (G & W & T & H).
  destruct (plain_run _ _ _ _ _ _ R G H) as (b' & E & -> & G' & H' & A & B & C & D).
  destruct (destroy_base_ok b' h2 _ G' ltac:(unfold has in *; tauto) H') as (h3 & Q & H3). exists h3, E. split; [exact Q|]. split; [apply H3|].
  assert (sz (b_data b) = 1 /\ sz (b_tags b) = 1) as (S1 & S2).
  { unfold base_from_file in O. destruct (data_ok f); [|discriminate]. destruct m; [|discriminate]. destruct (tags_ok f); [|discriminate]. destruct (counts_ok f); [|discriminate].
    inversion O; subst. cbn. auto. }
  rewrite S1 in *. rewrite S2 in *. destruct (count loads_data cs), (count loads_tags cs); cbn in *; lia.
Qed.

Lemma exists_count : forall p cs, existsb p cs = (0 <? count p cs).
Proof. intros p cs. unfold count. induction cs as [|c cs IH]; [reflexivity|]. cbn. rewrite IH. destruct (p c); reflexivity. Qed.

Lemma plain_empty : forall m h0 o h1 cs o' h2, heap_ok h0 -> make_empty KPlain m h0 = Done (Some o, h1) -> run cs o h1 = Done (o', h2) ->
  if existsb (reads KPlain) cs
  then exists h3 E, destroy o' h2 = Ok h3 /\ Permutation (h_live h3) (E ++ h_live h0) /\ length E = (count loads_data cs - 1) + (count loads_tags cs - 1)
  else destroy o' h2 = UB.
Proof.
  intros m h0 o h1 cs o' h2 K M R. unfold make_empty in M. destruct m; [|discriminate].
  destruct (base_empty h0) as [b h] eqn:O. inversion M; subst.
  destruct (base_empty_ok _ _ _ _ O (heap_holds _ K)) as (G & W & T & H).
  destruct (plain_run _ _ _ _ _ _ R G H) as (b' & E & -> & G' & H' & A & B & C & D). rewrite W, T in *. cbn in A.
  change (reads KPlain) with loads_data. destruct (existsb loads_data cs) eqn:X.
  - destruct (destroy_base_ok b' h2 _ G' ltac:(unfold has in *; tauto) H') as (h3 & Q & H3). exists h3, E. split; [exact Q|]. split; [apply H3|].
    rewrite exists_count in X. destruct (count loads_data cs), (count loads_tags cs); cbn in *; try discriminate; lia.
  - cbn. apply destroy_base_wild. destruct (b_data b'); [reflexivity | |]; exfalso; destruct (proj1 D ltac:(discriminate)); congruence.
Qed.

(** ** HNSW *)
Definition hn_ok (b : base) (level : nat) (inners : list (ptr * base)) : Prop :=
  goodb b /\ Forall goodi inners /\ (has b -> Forall hasi inners) /\ (b_data b = Wild -> length inners = level) /\ (level = 0 -> inners = []).

Lemma hnsw_step : forall c b level inners h L o' h', goes (step c (Hnsw b level inners) h) o' h' -> hn_ok b level inners ->
  holds h (own_base b ++ own_inners inners ++ L) ->
  exists b' inners' E, o' = Hnsw b' level inners' /\ hn_ok b' level inners' /\ holds h' (own_base b' ++ own_inners inners' ++ E ++ L) /\
    (b_data b' <> Wild <-> b_data b <> Wild \/ reads (KHnsw level) c = true).
Proof.
  intros c b level inners h L o' h' R (G & GI & HI & LN & Z) H. unfold goes in R. destruct c as [fs cok|ins|r]; cbn [step] in R.
  - destruct fs as [|f fs]; cbn [call_load] in R; [now destruct R|].
    assert (holds h (own_inners inners ++ own_base b ++ L)) as H0 by (eapply holds_perm; [exact H|]; perm).
    destruct (load_inners level inners fs h) as [[in1 h1]|[in1 h1]| |] eqn:O1; try (now destruct R).
    + destruct (load_inners_ok _ _ _ _ _ _ _ (or_introl O1) GI H0) as (A & B & (E & C) & D).
      destruct (load_inners_done _ _ _ _ _ _ O1) as (F & FH).
      assert (exists b', o' = Hnsw b' level in1 /\ (base_load f b h1 = Done (b', h') \/ base_load f b h1 = Threw (b', h'))) as (b' & -> & Q).
      { destruct (base_load f b h1) as [[b1 h2]|[b1 h2]| |]; destruct R as [R|R]; inversion R; subst; (eexists; split; [reflexivity | auto]). }
      assert (holds h1 (own_base b ++ own_inners in1 ++ E ++ L)) as H1 by (eapply holds_perm; [exact C|]; perm).
      destruct (base_load_ok _ _ _ _ _ _ Q G H1) as (A2 & B2 & C2 & D2 & E2 & _).
      exists b', in1, (spill f b ++ E). split; [reflexivity|]. cbn [reads]. rewrite F. cbn [andb].
      assert (b_data b' <> Wild <-> b_data b <> Wild \/ data_ok f = true) as IFF.
      { destruct (base_load_shape _ _ _ _ _ Q) as (_ & _ & S3 & S4). split.
        - intros X. destruct (data_ok f); [auto|]. left. now rewrite <- S3.
        - intros [X|X]; [exact (C2 X) | exact (D2 X)]. }
      split; [|split; [|exact IFF]].
      * split; [exact A2|]. split; [exact A|]. split; [|split].
        { intros X. destruct (b_data b) eqn:W; [apply FH; auto | apply D, HI; unfold has; congruence | apply D, HI; unfold has; congruence]. }
        { intros X. destruct (b_data b) eqn:W; [rewrite B; auto | exfalso; apply IFF in X; auto; left; discriminate | exfalso; apply IFF in X; auto; left; discriminate]. }
        { intros X. specialize (Z X). subst inners. destruct in1; [reflexivity | discriminate]. }
      * eapply holds_perm; [exact B2|]. perm.
    + destruct (load_inners_ok _ _ _ _ _ _ _ (or_intror O1) GI H0) as (A & B & (E & C) & D).
      pose proof (load_inners_threw _ _ _ _ _ _ O1) as F.
      assert (o' = Hnsw b level in1 /\ h' = h1) as (-> & ->) by (destruct R as [R|R]; inversion R; auto).
      exists b, in1, E. split; [reflexivity|]. cbn [reads]. rewrite F. cbn [andb]. split; [|split].
      * split; [exact G|]. split; [exact A|]. split; [auto|]. split; [rewrite B; auto|]. intros X. specialize (Z X). subst inners. destruct in1; [reflexivity | discriminate].
      * eapply holds_perm; [exact C|]. perm.
      * intuition discriminate.
  - cbn [call_build] in R. destruct (set_ptr (b_data b)) eqn:W; [|now destruct R].
    assert (has b) as Hb by (unfold has; destruct (b_data b); discriminate).
    assert (holds h (own_inners inners ++ own_base b ++ L)) as H0 by (eapply holds_perm; [exact H|]; perm).
    assert (exists in1, o' = Hnsw b level in1 /\ (build_inners level inners ins h = Done (in1, h') \/ build_inners level inners ins h = Threw (in1, h'))) as (in1 & -> & Q).
    { destruct (build_inners level inners ins h) as [[i1 h1]|[i1 h1]| |]; destruct R as [R|R]; inversion R; subst; (eexists; split; [reflexivity | auto]). }
    destruct (build_inners_ok _ _ _ _ _ _ _ Q GI (HI Hb) Z H0) as (A & B & C & E & D & _).
    exists b, in1, E. split; [reflexivity|]. split; [|split].
    + split; [exact G|]. split; [exact A|]. split; [auto|]. split; [|auto]. intros X. now destruct Hb.
    + eapply holds_perm; [exact D|]. perm.
    + cbn. intuition discriminate.
  - destruct (usable (Hnsw b level inners)); [|now destruct R].
    assert (o' = Hnsw b level inners /\ h' = h) as (-> & ->). { destruct r; destruct R as [R|R]; inversion R; auto. }
    exists b, inners, []. cbn. split; [reflexivity|]. split; [exact (conj G (conj GI (conj HI (conj LN Z))))|]. split; [exact H|]. intuition discriminate.
Qed.

Lemma hnsw_run : forall cs b level inners h L o' h', run cs (Hnsw b level inners) h = Done (o', h') -> hn_ok b level inners ->
  holds h (own_base b ++ own_inners inners ++ L) ->
  exists b' inners' E, o' = Hnsw b' level inners' /\ hn_ok b' level inners' /\ holds h' (own_base b' ++ own_inners inners' ++ E ++ L) /\
    (b_data b' <> Wild <-> b_data b <> Wild \/ existsb (reads (KHnsw level)) cs = true).
Proof.
  induction cs as [|c cs IH]; intros b level inners h L o' h' R G H.
  - cbn in R. inversion R; subst. exists b, inners, []. cbn. repeat match goal with |- _ /\ _ => split end; auto. intuition discriminate.
  - apply run_cons in R as (o1 & h1 & R1 & R2). destruct (hnsw_step _ _ _ _ _ _ _ _ R1 G H) as (b1 & in1 & E1 & -> & G1 & H1 & D1).
    destruct (IH _ _ _ _ _ _ _ R2 G1 H1) as (b' & in' & E & -> & G' & H' & D'). exists b', in', (E ++ E1).
    repeat match goal with |- _ /\ _ => split end; auto.
    + now rewrite <- app_assoc.
    + cbn [existsb]. rewrite orb_true_iff. tauto.
Qed.

Lemma hnsw_destroy : forall b level inners h L, hn_ok b level inners -> has b -> holds h (own_base b ++ own_inners inners ++ L) ->
  exists h', destroy (Hnsw b level inners) h = Ok h' /\ holds h' L.
Proof.
  intros b level inners h L (G & GI & HI & LN & Z) W H. cbn [destroy].
  assert (exists h1, (if 0 <? level then destroy_inners inners h else Ok h) = Ok h1 /\ holds h1 (own_base b ++ L)) as (h1 & -> & H1).
  { destruct (Nat.ltb_spec 0 level).
    - apply destroy_inners_ok; auto. eapply holds_perm; [exact H|]. perm.
    - exists h. split; [reflexivity|]. rewrite Z in H by lia. exact H. }
  cbn. now apply destroy_base_ok.
Qed.

Lemma hnsw_file : forall level m f h0 o h1 cs o' h2, heap_ok h0 -> make_from_file (KHnsw level) m f h0 = Done (Some o, h1) -> run cs o h1 = Done (o', h2) ->
  exists h3 E, destroy o' h2 = Ok h3 /\ Permutation (h_live h3) (E ++ h_live h0).
Proof.
  intros level m f h0 o h1 cs o' h2 K M R. unfold make_from_file in M.
  destruct (base_from_file m f h0) as [[[b|] h]|[[b|] h]| |] eqn:O; try discriminate. inversion M; subst.
  destruct (base_from_file_ok _ _ _ _ _ _ O (heap_holds _ K)) as (G & W & T & H).
  destruct (hnsw_run _ _ level [] _ (h_live h0) _ _ R) as (b' & in' & E & -> & G' & H' & D); [|exact H|].
  { repeat split; auto; try apply G. intros X. now destruct W. }
  destruct (hnsw_destroy _ _ _ _ _ G' ltac:(unfold has in *; tauto) H') as (h3 & Q & H3). exists h3, E. split; [exact Q | apply H3].
Qed.
Lemma hnsw_empty : forall level m h0 o h1 cs o' h2, heap_ok h0 -> make_empty (KHnsw level) m h0 = Done (Some o, h1) -> run cs o h1 = Done (o', h2) ->
  if existsb (reads (KHnsw level)) cs
  then exists h3 E, destroy o' h2 = Ok h3 /\ Permutation (h_live h3) (E ++ h_live h0)
  else destroy o' h2 = UB.
Proof.
  intros level m h0 o h1 cs o' h2 K M R. unfold make_empty in M. destruct m; [|discriminate].
  destruct (base_empty h0) as [b h] eqn:O. destruct (empty_inners level h) as [inners h'] eqn:O2. inversion M; subst.
  destruct (base_empty_ok _ _ _ _ O (heap_holds _ K)) as (G & W & T & H).
  destruct (empty_inners_ok _ _ _ _ _ O2 H) as (A & B & C & _).
  destruct (hnsw_run _ _ level inners _ (h_live h0) _ _ R) as (b' & in' & E & -> & G' & H' & D).
  { split; [exact G|]. split; [exact A|]. split; [unfold has; intros X; congruence|]. split; [auto|]. intros ->. now destruct inners. }
  { eapply holds_perm; [exact C|]. perm. }
  destruct (existsb (reads (KHnsw level)) cs) eqn:X.
  - destruct (hnsw_destroy _ _ _ _ _ G' ltac:(unfold has in *; tauto) H') as (h3 & Q & H3). exists h3, E. split; [exact Q | apply H3].
  - assert (b_data b' = Wild) as W'. { destruct (b_data b'); [reflexivity | |]; exfalso; destruct (proj1 D ltac:(discriminate)); congruence. }
    cbn [destroy]. destruct (0 <? level); cbn [bind]; [|now apply destroy_base_wild].
    destruct (destroy_inners_cases in' h2) as [-> | (h4 & ->)]; cbn; [reflexivity | now apply destroy_base_wild].
Qed.
