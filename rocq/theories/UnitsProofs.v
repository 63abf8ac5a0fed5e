(** * C121: what a change of the unit leaves as it is. *)
From Coq Require Import ZArith String List Arith Lia Bool Floats.SpecFloat.
From Verif Require Import Base Float32 PoolModel SortSpec SortInst GraphSpec GreedyModel SearchSpec SearchModel PruneModel BuildModel VamanaModel VamanaProofs HnswModel HnswSpec RngModel
  FlatModel FlatSpec FusedModel OrderSpec OrderProofs OrderProofs2 OrderProofs3 ScaleProofs ScaleL2 UnitsSpec.
Import ListNotations.

Definition by_2 (j : Z) (a a' : f32) : Prop := a' = fscale j a /\ fits j a.

Lemma fits_below : forall j a, fits j a -> flt a FLT_MAX = true /\ fle a FLT_MAX = true /\ flt FLT_MAX a = false /\ fle FLT_MAX a = false.
Proof.
  intros j [s|s| |s m e] H; cbn in H; try contradiction; [repeat split|].
  unfold flt, fle, FLT_MAX, SFltb, SFleb, SFcompare. destruct s; [repeat split|].
  rewrite (proj2 (Z.compare_lt_iff e 104)) by lia. rewrite (proj2 (Z.compare_gt_iff 104 e)) by lia. repeat split.
Qed.

Lemma fits_scaled : forall j a, fits j a -> fits (- j) (fscale j a).
Proof. intros j [s|s| |s m e] H; cbn in *; auto. lia. Qed.

Lemma by_2_alike : forall j, alike (widen (by_2 j)).
Proof.
  intros j a a' b b' [[-> Fa]|[-> ->]] [[-> Fb]|[-> ->]]; [split; [now rewrite scale_flt|now rewrite scale_fle]| | |split; reflexivity].
  - destruct (fits_below _ _ Fa) as [H1 [H2 _]]. destruct (fits_below _ _ (fits_scaled _ _ Fa)) as [H1' [H2' _]]. rewrite H1, H2, H1', H2'. auto.
  - destruct (fits_below _ _ Fb) as [_ [_ [H1 H2]]]. destruct (fits_below _ _ (fits_scaled _ _ Fb)) as [_ [_ [H1' H2']]]. rewrite H1, H2, H1', H2'. auto.
Qed.

Lemma by_2_ratio : forall j alpha, ratio_rel alpha (by_2 j) (by_2 j).
Proof. intros j alpha a a' b b' [-> _] [-> _]. left. symmetry. apply scale_fdiv. Qed.

Lemma rescaled_rel : forall j sp sp', rescaled j sp sp' -> space_rel (by_2 j) sp sp'.
Proof. intros j sp sp' [H1 [H2 [H3 H4]]]. repeat split; auto; apply H4. Qed.

Lemma scaled_rel : forall j l l', all_scaled j l l' -> Forall2 (by_2 j) l l'.
Proof. intros j l l' [H ->]. induction H as [|x l Hx _ IH]; cbn; constructor; auto. split; auto. Qed.

Lemma units_vamana : forall j v v', by_comparisons (vi_sort v) -> vinput_ok v -> vinput_ok v' -> rescaled_input j v v' -> vamana_build v' = vamana_build v.
Proof.
  intros j v v' Hs Hv Hv' [HS [Hc [E1 [E2 [E3 [E4 [E5 E6]]]]]]]. symmetry. apply (vamana_build_rel (by_2 j)); auto using by_2_alike, by_2_ratio.
  repeat split; auto using rescaled_rel, scaled_rel; apply HS.
Qed.

Lemma narrow_by_2 : forall j, alike (by_2 j).
Proof. intros j. apply alike_narrow, by_2_alike. Qed.

Lemma units_rng : forall j sortf sp sp' tags c c' order, by_comparisons sortf -> rescaled j sp sp' -> all_scaled j c c' ->
  rng_build sortf sp' tags c' order = rng_build sortf sp tags c order.
Proof.
  intros j sortf sp sp' tags c c' order Hs HS Hc. symmetry. apply (rng_build_rel (by_2 j)); auto using narrow_by_2, by_2_ratio, rescaled_rel, scaled_rel.
Qed.

(** For HNSW the list also holds the entry point of the level, at distance FLT_MAX. *)
Definition by_2_roomy (j : Z) (on : bool) (alpha : f32) (a a' : f32) : Prop := by_2 j a a' /\ (on = true -> roomy alpha a /\ roomy alpha a').

Lemma units_hnsw : forall j sortf prm sp sp' tags cs cs', by_comparisons sortf -> rescaled j sp sp' -> Forall2 (rescaled_choice j) cs cs' ->
  (bp_rule prm = 0 -> forall a b, roomy (bp_alpha prm) (sp_pd sp a b) /\ roomy (bp_alpha prm) (sp_pd sp' a b)) ->
  (bp_rule prm = 0 -> forall c x, In c cs -> In x (hc_centroid c) -> roomy (bp_alpha prm) x /\ roomy (bp_alpha prm) (fscale j x)) ->
  hnsw_build sortf prm sp' tags cs' = hnsw_build sortf prm sp tags cs.
Proof.
  intros j sortf prm sp sp' tags cs cs' Hs HS Hcs Hr Hc. symmetry. set (D := by_2_roomy j (bp_rule prm =? 0) (bp_alpha prm)). apply (hnsw_build_rel D); auto.
  - intros a a' b b' Ha Hb. apply (by_2_alike j); [destruct Ha as [[Ha _]|Ha]; [left|right]; exact Ha|destruct Hb as [[Hb _]|Hb]; [left|right]; exact Hb].
  - intros Er a a' b b' Ha [Hb Hb2]. destruct Ha as [[Ha _]|[-> ->]]; [apply (by_2_ratio j); auto|]. right. rewrite Er in Hb2. apply Hb2. reflexivity.
  - clear - Hcs Hc. revert Hc. induction Hcs as [|c c' cs cs' [H1 [[H2 H3] [H4 H5]]] _ IH]; intros Hc; constructor; [|apply IH; intros E d x Hd; apply Hc; [exact E|right; exact Hd]].
    repeat split; auto. rewrite H3. assert (Hc' : bp_rule prm = 0 -> forall x, In x (hc_centroid c) -> roomy (bp_alpha prm) x /\ roomy (bp_alpha prm) (fscale j x)) by (intros E x; apply (Hc E); left; reflexivity).
    clear - H2 Hc'. induction H2 as [|x l Hx _ IH]; cbn; constructor; [|apply IH; intros E y Hy; apply (Hc' E); right; exact Hy].
    split; [split; auto|]. intros E. apply Nat.eqb_eq in E. apply (Hc' E). left. reflexivity.
  - destruct HS as [H1 [H2 [H3 H4]]]. repeat split; auto; try apply H4; apply Nat.eqb_eq in H; apply (Hr H).
Qed.

(** ** Vectors *)
Definition is_ok {A : Type} (r : res A) : bool := match r with Ok _ => true | _ => false end.

Lemma eval_ok : forall t fac fac', (forall i, is_ok (fac i) = is_ok (fac' i)) -> is_ok (fred_eval fac t) = is_ok (fred_eval fac' t).
Proof.
  intros t fac fac' H. induction t as [|i|l IHl r IHr|i r IHr]; cbn [fred_eval]; [reflexivity| | |].
  - specialize (H i). destruct (fac i), (fac' i); cbn in *; congruence.
  - destruct (fred_eval fac l), (fred_eval fac' l); cbn in *; try congruence. destruct (fred_eval fac r), (fred_eval fac' r); cbn in *; congruence.
  - specialize (H i). destruct (fac i), (fac' i); cbn in *; try congruence. destruct (fred_eval fac r), (fred_eval fac' r); cbn in *; congruence.
Qed.

Lemma l2_of_scale : forall k t u v, Forall (ordinary k) u -> Forall (ordinary k) v -> fits (2 * k) (l2_of t u v) ->
  l2_of t (in_unit k u) (in_unit k v) = fscale (2 * k) (l2_of t u v).
Proof.
  intros k t u v Hu Hv F. unfold l2_of in *.
  assert (E : is_ok (l2_fused t (in_unit k u) (in_unit k v)) = is_ok (l2_fused t u v)).
  { apply eval_ok. intros i. unfold in_unit. rewrite !rd_map. destruct (rd u i); cbn; try reflexivity. destruct (rd v i); reflexivity. }
  destruct (l2_fused t u v) as [r| | | |] eqn:Er.
  - unfold in_unit. rewrite (l2_scale k t u v r Hu Hv Er F). reflexivity.
  - destruct (l2_fused t (in_unit k u) (in_unit k v)); try discriminate E; reflexivity.
  - destruct (l2_fused t (in_unit k u) (in_unit k v)); try discriminate E; reflexivity.
  - destruct (l2_fused t (in_unit k u) (in_unit k v)); try discriminate E; reflexivity.
  - destruct (l2_fused t (in_unit k u) (in_unit k v)); try discriminate E; reflexivity.
Qed.

Lemma nth_unit : forall k a data, nth a (map (in_unit k) data) [] = in_unit k (nth a data []).
Proof. intros k a data. change (@nil f32) with (in_unit k []) at 1. apply map_nth. Qed.

Lemma nth_ordinary : forall k a data, Forall (Forall (ordinary k)) data -> Forall (ordinary k) (nth a data []).
Proof. intros k a data H. destruct (nth_in_or_default a data []) as [Hi| ->]; [|constructor]. rewrite Forall_forall in H. apply H, Hi. Qed.

Lemma among_scale : forall k t data a b, Forall (Forall (ordinary k)) data -> fits (2 * k) (among t data a b) ->
  among t (map (in_unit k) data) a b = fscale (2 * k) (among t data a b).
Proof. intros k t data a b H F. unfold among in *. rewrite !nth_unit. apply l2_of_scale; auto using nth_ordinary. Qed.

Lemma from_scale : forall k t data q a, Forall (Forall (ordinary k)) data -> Forall (ordinary k) q -> fits (2 * k) (from t data q a) ->
  from t (map (in_unit k) data) (in_unit k q) a = fscale (2 * k) (from t data q a).
Proof. intros k t data q a H Hq F. unfold from in *. rewrite !nth_unit. apply l2_of_scale; auto using nth_ordinary. Qed.

Lemma fits_not_nan : forall j a, fits j a -> is_nan a = false.
Proof. intros j [s|s| |s m e] H; cbn in *; auto; contradiction. Qed.

(** The order of the points around a query. *)
Lemma units_order : forall k t data q n, Forall (Forall (ordinary k)) data -> Forall (ordinary k) q -> (forall id, fits (2 * k) (from t data q id)) ->
  finite_distances n (from t data q) /\ finite_distances n (from t (map (in_unit k) data) (in_unit k q)) /\
  same_order n (from t data q) (from t (map (in_unit k) data) (in_unit k q)).
Proof.
  intros k t data q n Hd Hq F. assert (E : forall id, from t (map (in_unit k) data) (in_unit k q) id = fscale (2 * k) (from t data q id)) by (intros; apply from_scale; auto).
  split; [|split].
  - split; intros id; [|intros _]; [eapply fits_not_nan|eapply fits_below]; apply F.
  - split; intros id; [|intros _]; rewrite E; [eapply fits_not_nan|eapply fits_below]; apply fits_scaled, F.
  - intros a b _ _. rewrite !E. symmetry. apply scale_flt.
Qed.

(** A Vamana index of the vectors, in two units: the same build, and the same answers. *)
Lemma vector_units : forall k t data v v' q,
  Forall (Forall (ordinary k)) data -> Forall (ordinary k) q -> (forall a b, fits (2 * k) (among t data a b)) -> (forall id, fits (2 * k) (from t data q id)) ->
  by_comparisons (vi_sort v) -> vinput_ok v -> vectors_input k t data v v' ->
  vamana_build v' = vamana_build v /\
  forall ix md L kk filters indices distances, vamana_build v = Ok (ix, md) -> 1 <= L -> kk <= L + 1 -> kk <= length indices -> kk <= length distances ->
    (filters = [] \/ length (pts_to_labels (ix_labels ix)) = ix_n ix) ->
    exists ids i d d',
      vamana_search (vi_sort v) ix (from t data q) L kk filters indices distances = Ok (i, d, length ids) /\ reports (ix_n ix) (ix_tags ix) (from t data q) i d ids /\
      vamana_search (vi_sort v) ix (from t (map (in_unit k) data) (in_unit k q)) L kk filters indices distances = Ok (i, d', length ids) /\
      forall r x, r < length ids -> nth_error d r = Some x -> nth_error d' r = Some (fscale (2 * k) x).
Proof.
  intros k t data v v' q Hd Hq Fa Fq Hs Hv [Hv1 [Hv2 [Hc [En [Ef [El [E1 [E2 [E3 [E4 [E5 E6]]]]]]]]]]].
  assert (HS : rescaled (2 * k) (vi_sp v) (vi_sp v')).
  { repeat split; auto; [rewrite Hv1; apply Fa|]. rewrite Hv1, Hv2. apply among_scale; auto. }
  assert (Hv' : vinput_ok v').
  { pose proof Hc as [Hc1 Hc2]. destruct Hv. constructor; rewrite <- ?E1, <- ?E2, <- ?E3, <- ?E4, <- ?E5, <- ?E6, <- ?En, <- ?Ef, <- ?El; auto.
    - intros a b. destruct HS as [_ [_ [_ HS]]]. destruct (HS a b) as [F ->]. eapply fits_not_nan. apply fits_scaled, F.
    - rewrite Hc2, map_length. auto.
    - intros d Hi. rewrite Hc2 in Hi. apply in_map_iff in Hi. destruct Hi as [x [<- Hx]]. rewrite Forall_forall in Hc1. eapply fits_not_nan. apply fits_scaled, Hc1, Hx. }
  split; [apply (units_vamana (2 * k)); auto; repeat split; auto; apply HS||apply Hc|].
  intros ix md L kk fs ind dst E HL Hk Hi Hds Hfl. destruct (units_order k t data q (ix_n ix) Hd Hq Fq) as [F1 [F2 S]].
  destruct (vamana_same_order (vi_sort v) ix (from t data q) (from t (map (in_unit k) data) (in_unit k q)) L kk fs ind dst) as [ids [i [d [d' [S1 [R1 [S2 R2]]]]]]]; auto.
  { apply (vo_sort v Hv). }
  { destruct (vamana_build_ok v Hv) as [[ix' [md' [E' [Hok _]]]]|E']; rewrite E in E'; [injection E' as <- <-; exact Hok|discriminate E']. }
  exists ids, i, d, d'. split; [exact S1|]. split; [exact R1|]. split; [exact S2|]. intros r x Hr Hx.
  destruct (nth_error ids r) as [id|] eqn:Eid; [|apply nth_error_None in Eid; lia].
  destruct R1 as [_ [_ [_ R1]]]. destruct R2 as [_ [_ [_ R2]]]. destruct (R1 r id Eid) as [_ A1]. destruct (R2 r id Eid) as [_ A2]. rewrite A1 in Hx. injection Hx as <-. rewrite A2. f_equal. apply from_scale; auto.
Qed.
