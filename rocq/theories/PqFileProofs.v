(** * Lemmas about the product quantisation files. *)
From Coq Require Import ZArith NArith String List Arith Bool Lia Floats.SpecFloat.
From Verif Require Import Base Bytes Float32 FloatBits DivFacts ListLemmas StreamModel BinModel BinSpec BinProofs IndexFileModel CacheModel ClosestModel TruthModel
  PqModel PqSpec PqProofs PqProofs2 LloydModel LloydProofs2 SliceModel PqFileModel PqFileSpec.
Import ListNotations.

(** ** collect *)
Lemma collect_length : forall (A B : Type) (f : A -> res B) l r, collect f l = Ok r -> length r = length l.
Proof.
  intros A B f. induction l as [|x l IH]; intros r H; cbn in H; [injection H as <-; auto|].
  apply bind_ok in H. destruct H as [y [_ H]]. apply bind_ok in H. destruct H as [ys [E H]]. injection H as <-. cbn. f_equal. auto.
Qed.

Lemma collect_in : forall (A B : Type) (f : A -> res B) l r y, collect f l = Ok r -> In y r -> exists x, In x l /\ f x = Ok y.
Proof.
  intros A B f. induction l as [|x l IH]; intros r y H Hy; cbn in H; [injection H as <-; destruct Hy|].
  apply bind_ok in H. destruct H as [y0 [E0 H]]. apply bind_ok in H. destruct H as [ys [E H]]. injection H as <-. destruct Hy as [<-|Hy].
  - exists x. split; [now left|auto].
  - destruct (IH ys y E Hy) as [x' [H1 H2]]. exists x'. split; [now right|auto].
Qed.

(** ** Lengths in the closest centre computation *)
Lemma distribute_inv_length : forall k start pairs closest ivf v r, distribute k start pairs closest ivf (Some v) = Ok r ->
  exists v', snd r = Some v' /\ length v' = length v.
Proof.
  intros k start. induction pairs as [|[j l] rest IH]; intros closest ivf v r H; cbn [distribute] in H; [injection H as <-; exists v; auto|].
  apply bind_ok in H. destruct H as [s [_ H]]. apply bind_ok in H. destruct H as [c [_ H]]. apply bind_ok in H. destruct H as [ivf' [_ H]].
  apply bind_ok in H. destruct H as [inv' [E H]]. apply bind_ok in E. destruct E as [v1 [E E']]. injection E' as <-.
  unfold push_list in E. apply bind_ok in E. destruct E as [x [_ E]]. apply wr_length in E. apply IH in H. destruct H as [v' [H1 H2]]. exists v'. split; [auto|lia].
Qed.

Lemma closest_blocks_inv_length : forall popf dmat nc k n bs orders cnt b closest ivf v r, closest_blocks popf dmat nc k n bs orders b cnt closest ivf (Some v) = Ok r ->
  exists v', snd r = Some v' /\ length v' = length v.
Proof.
  intros popf dmat nc k n bs orders. induction cnt as [|cnt IH]; intros b closest ivf v r H; cbn [closest_blocks] in H; [injection H as <-; exists v; auto|].
  apply bind_ok in H. destruct H as [closest' [_ H]]. apply bind_ok in H. destruct H as [[ivf1 inv1] [E H]].
  apply distribute_inv_length in E. destruct E as [v1 [E1 E2]]. cbn [fst snd] in *. subst inv1. apply IH in H. destruct H as [v' [H1 H2]]. exists v'. split; [auto|lia].
Qed.

Lemma compute_closest_inv_length : forall popf mbs dmat n nc k orders ivf v r, compute_closest popf mbs dmat n nc k orders ivf (Some v) = Ok r ->
  exists v', snd r = Some v' /\ length v' = length v.
Proof.
  intros popf mbs dmat n nc k orders ivf v r H. unfold compute_closest in H. destruct (nc <? k); [injection H as <-; exists v; auto|].
  destruct (min n mbs =? 0); [discriminate|]. eapply closest_blocks_inv_length; eauto.
Qed.

(** ** What k-means gives *)
Lemma f32_of_f64_valid : forall x, f32_valid (f32_of_f64 x) = true.
Proof. intros [s|s| |s m e]; try reflexivity. apply normalize_valid. Qed.

Lemma new_center_shape : forall dim data docs c, new_center dim data docs = Ok c -> length c = dim /\ forall v, In v c -> f32_valid v = true.
Proof.
  intros dim data docs c H. unfold new_center in H. apply bind_ok in H. destruct H as [sum [_ H]]. destruct (0 <? length docs).
  - split; [apply collect_length in H; now rewrite seq_length in H|]. intros v Hv. destruct (collect_in _ _ _ _ _ _ H Hv) as [i [_ E]].
    apply bind_ok in E. destruct E as [s [_ E]]. injection E as <-. apply f32_of_f64_valid.
  - injection H as <-. split; [apply repeat_length|]. intros v Hv. apply repeat_spec in Hv. subst v. reflexivity.
Qed.

Definition rows_shape (nc dim : nat) (rows : list (list f32)) : Prop := rows_of nc dim rows /\ floats_ok rows.

Lemma lloyd_iter_shape : forall popf mbs csz cdist rdist n dim nc data orders centers assign st,
  lloyd_iter popf mbs csz cdist rdist n dim nc data orders centers assign = Ok st -> rows_shape nc dim (ll_centers st).
Proof.
  intros popf mbs csz cdist rdist n dim nc data orders centers assign st H. unfold lloyd_iter in H.
  apply bind_ok in H. destruct H as [r [E H]]. apply compute_closest_inv_length in E. destruct E as [docs [Ed El]]. rewrite Ed in H.
  apply bind_ok in H. destruct H as [cs [E H]]. apply bind_ok in H. destruct H as [v [_ H]]. injection H as <-. cbn [ll_centers].
  rewrite repeat_length in El. split; [split|].
  - apply collect_length in E. lia.
  - intros x Hx. destruct (collect_in _ _ _ _ _ _ E Hx) as [y [_ Ey]]. now apply new_center_shape in Ey.
  - intros x v0 Hx Hv. destruct (collect_in _ _ _ _ _ _ E Hx) as [y [_ Ey]]. apply new_center_shape in Ey. now apply Ey.
Qed.

Lemma kmeans_shape : forall e dim nc reps rows p, kmeans e dim nc reps rows = Ok p -> 1 <= reps -> rows_shape nc dim p.
Proof.
  intros e dim nc reps rows p H Hr. unfold kmeans in H. apply bind_ok in H. destruct H as [first [_ H]]. apply bind_ok in H. destruct H as [st [E H]]. injection H as <-.
  destruct (run_lloyds_ok _ _ _ _ _ _ _ _ _ _ _ _ _ _ _ E Hr) as [r [s [Hr1 [_ [Es [Hrun _]]]]]].
  destruct r as [|r]; [lia|]. specialize (Hrun r (Nat.lt_succ_diag_r r)). cbn beta in Hrun. rewrite Es in Hrun. eapply lloyd_iter_shape; eauto.
Qed.

(** ** The chunks of the pivots *)
Lemma slice_rows_ok : forall a size n dim rows, rows_of n dim rows -> a + size <= dim -> collect (slice_row a size) rows = Ok (map (coords a size) rows).
Proof. intros a size n dim rows [_ H] Ha. apply collect_map. intros x Hx. apply slice_row_ok. rewrite (H x Hx). auto. Qed.

(** full_pivot_data when the first [a] coordinates of every row are written. *)
Definition partly (dim a : nat) (rows : list (list f32)) : list (list (option f32)) := map (fun r => map Some r ++ repeat None (dim - a)) rows.

Lemma skipn_repeat : forall (A : Type) (x : A) k n, skipn k (repeat x n) = repeat x (n - k).
Proof. intros A x. induction k as [|k IH]; intros [|n]; cbn; auto. Qed.

Lemma paste_rows_ok : forall dim a size ps rows, a + size <= dim -> length ps = length rows -> (forall r, In r rows -> length r = a) -> (forall p, In p ps -> length p = size) ->
  paste_rows a ps (partly dim a rows) = Ok (partly dim (a + size) (map (fun x => fst x ++ snd x) (combine rows ps))).
Proof.
  intros dim a size. induction ps as [|p ps IH]; intros rows Ha HL Hr Hp; destruct rows as [|r rows]; cbn in HL; try lia; [reflexivity|].
  cbn [partly map paste_rows combine fst snd]. unfold paste. rewrite app_length, map_length, repeat_length. rewrite (Hr r ltac:(now left)), (Hp p ltac:(now left)).
  destruct (Nat.leb_spec (a + size) (a + (dim - a))) as [_|]; [|lia]. cbn [bind].
  fold (partly dim a rows). rewrite IH; auto; [|intros; apply Hr; now right|intros; apply Hp; now right]. cbn [bind]. fold (partly dim (a + size)). do 2 f_equal.
  rewrite firstn_len_app by (rewrite map_length; apply Hr; now left). rewrite skipn_app, map_length, (Hr r ltac:(now left)).
  rewrite skipn_all2 by (rewrite map_length, (Hr r ltac:(now left)); lia). rewrite skipn_repeat. cbn [app]. rewrite map_app, <- app_assoc. do 3 f_equal. lia.
Qed.

Lemma combine_app_length : forall (rows ps : list (list f32)) a size r, (forall r, In r rows -> length r = a) -> (forall p, In p ps -> length p = size) ->
  In r (map (fun x => fst x ++ snd x) (combine rows ps)) -> length r = a + size.
Proof.
  intros rows ps a size r Hr Hp H. apply in_map_iff in H. destruct H as [[x p] [<- H]]. cbn [fst snd]. rewrite app_length.
  rewrite (Hr x (in_combine_l _ _ _ _ H)), (Hp p (in_combine_r _ _ _ _ H)). auto.
Qed.

Lemma coords_app_old : forall a size r p, a + size <= length r -> coords a size (r ++ p) = coords a size r.
Proof.
  intros a size r p H. unfold coords. rewrite skipn_app. rewrite firstn_app, skipn_length. replace (size - (length r - a)) with 0 by lia.
  cbn [firstn]. apply app_nil_r.
Qed.

Lemma coords_app_new : forall a size r p, length r = a -> length p = size -> coords a size (r ++ p) = p.
Proof. intros a size r p <- <-. unfold coords. rewrite skipn_len_app by auto. apply firstn_all. Qed.

Lemma combine_map_old : forall a size (rows ps : list (list f32)), length ps = length rows -> (forall r, In r rows -> a + size <= length r) ->
  map (coords a size) (map (fun x => fst x ++ snd x) (combine rows ps)) = map (coords a size) rows.
Proof.
  intros a size rows. induction rows as [|r rows IH]; intros [|p ps] HL H; cbn in HL; try lia; [reflexivity|]. cbn [combine map fst snd].
  rewrite coords_app_old by (apply H; now left). f_equal. apply IH; [lia|]. intros; apply H; now right.
Qed.

Lemma combine_map_new : forall a size (rows ps : list (list f32)), length ps = length rows -> (forall r, In r rows -> length r = a) -> (forall p, In p ps -> length p = size) ->
  map (coords a size) (map (fun x => fst x ++ snd x) (combine rows ps)) = ps.
Proof.
  intros a size rows. induction rows as [|r rows IH]; intros [|p ps] HL H Hp; cbn in HL; try lia; [reflexivity|]. cbn [combine map fst snd].
  rewrite coords_app_new by (try apply H; try apply Hp; now left). f_equal. apply IH; [lia|..]; intros; [apply H|apply Hp]; now right.
Qed.

Lemma boundary_mono : forall dim chunks offs i a, boundaries dim chunks offs -> i <= chunks -> nth_error offs i = Some a -> a <= dim.
Proof.
  intros dim chunks offs i a [HL [H0 [Hc H]]] Hi Ha. remember (chunks - i) as k eqn:Ek. revert i a Hi Ha Ek. induction k as [|k IH]; intros i a Hi Ha Ek.
  - assert (i = chunks) by lia. subst i. rewrite Hc in Ha. injection Ha as <-. auto.
  - destruct (H i ltac:(lia)) as [a' [E1 E2]]. rewrite Ha in E1. injection E1 as <-. specialize (IH (S i) _ ltac:(lia) E2 ltac:(lia)). lia.
Qed.

Lemma boundary_next : forall dim chunks offs i j a b, boundaries dim chunks offs -> j < i -> i <= chunks -> nth_error offs j = Some a -> nth_error offs i = Some b -> a + chunk_size dim chunks j <= b.
Proof.
  intros dim chunks offs i j a b B Hj Hi Ha Hb. destruct B as [HL [H0 [Hc H]]]. revert b Hi Hb. induction i as [|i IH]; intros b Hi Hb; [lia|].
  destruct (H i ltac:(lia)) as [a' [E1 E2]]. rewrite Hb in E2. injection E2 as ->. destruct (Nat.eq_dec j i) as [->|Hne].
  - rewrite Ha in E1. injection E1 as <-. lia.
  - specialize (IH ltac:(lia) a' ltac:(lia) E1). lia.
Qed.

(** [rows] are the first [a] coordinates of the pivots after [i] chunks. *)
Definition trained_upto (env : nat -> kmenv) (dim nc chunks reps : nat) (offs : list nat) (train rows : list (list f32)) (k : nat) : Prop :=
  forall i a, i < k -> nth_error offs i = Some a ->
    kmeans (env i) (chunk_size dim chunks i) nc reps (map (coords a (chunk_size dim chunks i)) train) = Ok (map (coords a (chunk_size dim chunks i)) rows).

Lemma floats_ok_app : forall rows ps, floats_ok rows -> floats_ok ps -> floats_ok (map (fun x => fst x ++ snd x) (combine rows ps)).
Proof.
  intros rows ps H1 H2 x v Hx Hv. apply in_map_iff in Hx. destruct Hx as [[r p] [<- H]]. cbn [fst snd] in Hv. apply in_app_iff in Hv. destruct Hv as [Hv|Hv].
  - eapply H1; eauto. eapply in_combine_l; eauto.
  - eapply H2; eauto. eapply in_combine_r; eauto.
Qed.

Lemma train_chunks_from : forall env nc reps dim chunks n offs train, boundaries dim chunks offs -> 1 <= chunks <= dim -> rows_of n dim train -> 1 <= reps ->
  forall cnt i a rows full', i + cnt = chunks -> nth_error offs i = Some a -> length rows = nc -> (forall r, In r rows -> length r = a) -> floats_ok rows ->
  trained_upto env dim nc chunks reps offs train rows i ->
  train_chunks env nc reps offs train i cnt (partly dim a rows) = Ok full' ->
  exists pivots, rows_of nc dim pivots /\ floats_ok pivots /\ full' = map (map Some) pivots /\ trained_upto env dim nc chunks reps offs train pivots chunks.
Proof.
  intros env nc reps dim chunks n offs train B Hc HR Hreps. induction cnt as [|cnt IH]; intros i a rows full' Hi Ha HL Hrow Hval Ht H; cbn [train_chunks] in H.
  - injection H as <-. assert (i = chunks) by lia. subst i. pose proof B as [_ [_ [Hend _]]]. rewrite Hend in Ha. injection Ha as <-.
    exists rows. split; [split; auto|]. split; [auto|]. split; [|auto]. unfold partly. rewrite Nat.sub_diag. cbn [repeat]. apply map_ext. intros. apply app_nil_r.
  - rewrite (proj2 (rd_ok _ offs i a) Ha) in H. cbn [bind] in H. pose proof B as [_ [_ [_ Hb]]]. destruct (Hb i ltac:(lia)) as [a' [E1 E2]].
    rewrite Ha in E1. injection E1 as <-. rewrite (proj2 (rd_ok _ offs (S i) _) E2) in H. cbn [bind] in H.
    set (size := chunk_size dim chunks i) in *. assert (Hs : 1 <= size).
    { unfold size, chunk_size. assert (1 <= dim / chunks) by (apply Nat.div_le_lower_bound; lia). lia. }
    assert (Hb2 : a + size <= dim) by (apply (boundary_mono dim chunks offs (S i)); auto; lia).
    destruct (Nat.ltb_spec (a + size) a); [lia|]. destruct (Nat.eqb_spec (a + size) a); [lia|].
    replace (a + size - a) with size in H by lia. rewrite (slice_rows_ok a size n dim train HR Hb2) in H. cbn [bind] in H.
    apply bind_ok in H. destruct H as [ps [Ek H]]. destruct (kmeans_shape _ _ _ _ _ _ Ek Hreps) as [[PL Pr] Pv].
    rewrite (paste_rows_ok dim a size ps rows Hb2 ltac:(lia) Hrow Pr) in H. cbn [bind] in H.
    eapply IH; [| |..|exact H]; auto; try lia.
    + rewrite map_length, combine_length. lia.
    + intros r. apply combine_app_length; auto.
    + apply floats_ok_app; auto.
    + intros j aj Hj Haj. destruct (Nat.eq_dec j i) as [->|Hne].
      * rewrite Ha in Haj. injection Haj as <-. fold size. rewrite combine_map_new; auto. lia.
      * assert (aj + chunk_size dim chunks j <= a) by (apply (boundary_next dim chunks offs i j); auto; lia).
        rewrite combine_map_old; [apply Ht; auto; lia|lia|]. intros r Hr. rewrite (Hrow r Hr). auto.
Qed.

Lemma train_chunks_ok : forall env nc reps dim chunks n offs train full', boundaries dim chunks offs -> 1 <= chunks <= dim -> rows_of n dim train -> 1 <= reps ->
  train_chunks env nc reps offs train 0 chunks (repeat (repeat None dim) nc) = Ok full' ->
  exists pivots, rows_of nc dim pivots /\ floats_ok pivots /\ full' = map (map Some) pivots /\ trained env dim nc chunks reps offs train pivots.
Proof.
  intros env nc reps dim chunks n offs train full' B Hc HR Hreps H.
  assert (E : repeat (repeat None dim) nc = partly dim 0 (repeat [] nc)).
  { unfold partly. rewrite Nat.sub_0_r. clear. induction nc as [|nc IH]; cbn; [auto|]. now rewrite <- IH. }
  rewrite E in H. eapply (train_chunks_from env nc reps dim chunks n offs train B Hc HR Hreps chunks 0 0 (repeat [] nc)); eauto.
  - apply B.
  - apply repeat_length.
  - intros r Hr. apply repeat_spec in Hr. now subst r.
  - intros r v Hr Hv. apply repeat_spec in Hr. subst r. destruct Hv.
  - intros i a Hi. lia.
Qed.
