(** * The squared L2 distance of vectors whose coordinates are all multiplied by a power of two. *)
From Coq Require Import ZArith Bool Lia List Floats.SpecFloat.
From Verif Require Import Base Float32 DistModel FusedModel ConvProofs OrderSpec ScaleProofs.
Import ListNotations.
Local Open Scope Z_scope.

Definition fin (j : Z) (x : f32) : Prop :=
  match x with S754_zero _ => True | S754_finite _ _ e => e + j <= 104 | _ => False end.

(** What a difference of coordinates can be. *)
Definition df (k : Z) (x : f32) : Prop :=
  match x with S754_zero _ | S754_infinity _ => True | S754_finite _ m e => dg m = 24 /\ -86 <= e /\ -86 <= e + k | S754_nan => False end.

(** What a partial sum of squares can be. *)
Definition nn (j : Z) (x : f32) : Prop :=
  match x with
  | S754_zero s | S754_infinity s => s = false
  | S754_finite s m e => s = false /\ dg m = 24 /\ -149 <= e /\ -149 <= e + j
  | S754_nan => False
  end.

Lemma digits_ge : forall p n, 2 ^ (n - 1) <= Zpos p -> n <= dg p.
Proof.
  intros p n H. cbv beta. destruct (Z_lt_le_dec (Zpos (digits2_pos p)) n) as [L|]; [|assumption]. pose proof (digits2_bounds p) as B.
  assert (2 ^ Zpos (digits2_pos p) <= 2 ^ (n - 1)) by (apply Z.pow_le_mono_r; lia). lia.
Qed.

Lemma digits_24 : forall p, 2 ^ 23 <= Zpos p < 2 ^ 24 -> dg p = 24.
Proof. intros p H. change (Zdigits2 (Zpos p) = 24). apply digits2_unique; cbn; lia. Qed.

Lemma bounds_24 : forall p, dg p = 24 -> 2 ^ 23 <= Zpos p < 2 ^ 24.
Proof. intros p H. pose proof (digits2_bounds p) as B. cbv beta in H. rewrite H in B. exact B. Qed.

Lemma close_scale : forall j s m e, fin j (close s m e) -> close s m (e + j) = fscale j (close s m e).
Proof.
  intros j s m e. unfold close. destruct (Z.leb_spec e 104); cbn [fin fscale]; [|contradiction]. intros H'. destruct (Z.leb_spec (e + j) 104); [reflexivity|lia].
Qed.

Lemma align_z : forall m e e', e' <= e -> Zpos (fst (shl_align m e e')) = Zpos m * 2 ^ (e - e').
Proof.
  intros m e e' H. unfold shl_align. destruct (e' - e) as [|q|q] eqn:E; cbn [fst]; [|lia|].
  - replace (e - e') with 0 by lia. cbn. lia.
  - rewrite shift_pos_correct, Z.pow_pos_fold. replace (e - e') with (Zpos q) by lia. lia.
Qed.

Lemma align_scale : forall m e e' k, fst (shl_align m (e + k) (e' + k)) = fst (shl_align m e e').
Proof. intros. unfold shl_align. replace (e' + k - (e + k)) with (e' - e) by lia. destruct (e' - e); reflexivity. Qed.

Lemma norm_close : forall M, M <> 0 -> exists mo c, dg mo = 24 /\ Zdigits2 M - 24 <= c <= Zdigits2 M - 23 /\
  forall e z, -125 <= Zdigits2 M + e -> binary_normalize prec emax M e z = close (M <? 0) mo (e + c).
Proof.
  intros [|p|p] H; [lia| |]; destruct (round_core p) as [mo [c [H1 [H2 H3]]]]; exists mo, c; (split; [exact H1|]); (split; [exact H2|]); intros e z He; cbn [binary_normalize Zdigits2] in *; apply H3, He.
Qed.

(** ** Differences *)
Lemma sub_scale : forall k a b, ordinary k a -> ordinary k b ->
  df k (fsub a b) /\ (fin k (fsub a b) -> fsub (fscale k a) (fscale k b) = fscale k (fsub a b)).
Proof.
  intros k a b Ha Hb. destruct a as [sa|sa| |sa ma ea]; try contradiction; destruct b as [sb|sb| |sb mb eb]; try contradiction; unfold fsub; cbn [SFsub fscale] in *.
  - destruct (eqb sa (negb sb)); cbn; auto.
  - cbn [df ordinary] in *. split; [|reflexivity]. split; [apply digits_24|]; lia.
  - cbn [df ordinary] in *. split; [|reflexivity]. split; [apply digits_24|]; lia.
  - cbn [ordinary] in *. replace (Z.min (ea + k) (eb + k)) with (Z.min ea eb + k) by lia. rewrite !align_scale.
    set (M := cond_Zopp sa _ - cond_Zopp sb _). destruct (Z.eq_dec M 0) as [E|E]; [rewrite E; cbn; auto|].
    destruct (norm_close M E) as [mo [c [H1 [H2 H3]]]]. assert (1 <= Zdigits2 M) by (destruct M; cbn; lia).
    rewrite !H3 by lia. split.
    + unfold close. destruct (_ <=? _); cbn [df]; [|auto]. lia.
    + intros F. replace (Z.min ea eb + k + c) with (Z.min ea eb + c + k) by lia. apply close_scale, F.
Qed.

(** ** Squares, sums and fused sums *)
Lemma square_digits : forall m, dg m = 24 -> 47 <= dg (m * m)%positive.
Proof. intros m H. apply digits_ge. apply bounds_24 in H. rewrite Pos2Z.inj_mul. change (2 ^ (47 - 1)) with (2 ^ 23 * 2 ^ 23). nia. Qed.

Lemma sq_scale : forall k d, df k d -> nn (2 * k) (fmul d d) /\
  (fin (2 * k) (fmul d d) -> fin k d /\ fmul (fscale k d) (fscale k d) = fscale (2 * k) (fmul d d)).
Proof.
  intros k d Hd. destruct d as [s|s| |s m e]; try contradiction; unfold fmul; cbn [SFmul fscale df] in *; rewrite ?xorb_nilpotent.
  - cbn. auto.
  - cbn. auto.
  - pose proof (square_digits m (proj1 Hd)) as G. destruct (round_core (m * m)) as [mo [c [H1 [H2 H3]]]]. cbv beta in *.
    rewrite (proj2 (H3 false (e + e) ltac:(lia)) ltac:(lia)). rewrite (proj2 (H3 false (e + k + (e + k)) ltac:(lia)) ltac:(lia)). split.
    + unfold close. destruct (_ <=? _); cbn [nn]; [|reflexivity]. split; [reflexivity|]. lia.
    + intros F. replace (e + k + (e + k) + c) with (e + e + c + 2 * k) by lia. split; [|apply close_scale, F].
      unfold close in F. destruct (Z.leb_spec (e + e + c) 104); cbn [fin] in *; [lia|contradiction].
Qed.

Lemma add_scale : forall j x y, nn j x -> nn j y -> nn j (fadd x y) /\
  (fin j (fadd x y) -> fin j x /\ fin j y /\ fadd (fscale j x) (fscale j y) = fscale j (fadd x y)).
Proof.
  intros j x y Hx Hy. destruct x as [sx|sx| |sx mx ex]; try contradiction; destruct y as [sy|sy| |sy my ey]; try contradiction; unfold fadd; cbn [SFadd fscale nn] in *;
    try (subst; cbn; tauto); subst.
  - destruct Hx as [-> [Dx [Lx1 Lx2]]]. destruct Hy as [-> [Dy [Ly1 Ly2]]]. cbn [cond_Zopp].
    replace (Z.min (ex + j) (ey + j)) with (Z.min ex ey + j) by lia. rewrite !align_scale. rewrite !align_z by lia.
    set (z := Z.min ex ey). set (M := Zpos mx * 2 ^ (ex - z) + Zpos my * 2 ^ (ey - z)).
    pose proof (Z.pow_pos_nonneg 2 (ex - z) ltac:(lia) ltac:(lia)) as Px. pose proof (Z.pow_pos_nonneg 2 (ey - z) ltac:(lia) ltac:(lia)) as Py.
    pose proof (bounds_24 mx Dx) as Bx. pose proof (bounds_24 my Dy) as By.
    assert (HM : 0 < M) by (unfold M; nia). destruct (norm_close M ltac:(lia)) as [mo [c [H1 [H2 H3]]]].
    assert (Gx : 24 + (ex - z) <= Zdigits2 M).
    { destruct M as [|p|p] eqn:EM; try lia. cbn [Zdigits2]. apply digits_ge. rewrite <- EM. replace (24 + (ex - z) - 1) with (23 + (ex - z)) by lia. rewrite Z.pow_add_r by lia. unfold M. nia. }
    assert (Gy : 24 + (ey - z) <= Zdigits2 M).
    { destruct M as [|p|p] eqn:EM; try lia. cbn [Zdigits2]. apply digits_ge. rewrite <- EM. replace (24 + (ey - z) - 1) with (23 + (ey - z)) by lia. rewrite Z.pow_add_r by lia. unfold M. nia. }
    rewrite !H3 by lia. replace (M <? 0) with false by (symmetry; apply Z.ltb_ge; lia). split.
    + unfold close. destruct (_ <=? _); cbn [nn]; [|reflexivity]. split; [reflexivity|]. lia.
    + intros F. replace (z + j + c) with (z + c + j) by lia. rewrite close_scale by exact F.
      unfold close in F. destruct (Z.leb_spec (z + c) 104); cbn [fin] in *; [|contradiction]. split; [lia|]. split; [lia|reflexivity].
Qed.

Lemma norm_shift : forall m e e' z, e' <= e -> -126 <= dg m + e' ->
  binary_normalize prec emax (Zpos m * 2 ^ (e - e')) e' z = binary_round prec emax false m e.
Proof.
  intros m e e' z H H'. pose proof (Z.pow_pos_nonneg 2 (e - e') ltac:(lia) ltac:(lia)) as P. destruct (Zpos m * 2 ^ (e - e')) as [|p|p] eqn:E; try nia. cbn [binary_normalize].
  rewrite (round_shift (Z.to_nat (e - e')) false m e' H') by (rewrite Z2Nat.id by lia; auto). rewrite Z2Nat.id by lia. f_equal. lia.
Qed.

Lemma fma_scale : forall k d z, df k d -> nn (2 * k) z -> nn (2 * k) (ffma d d z) /\
  (fin (2 * k) (ffma d d z) -> fin k d /\ fin (2 * k) z /\ ffma (fscale k d) (fscale k d) (fscale (2 * k) z) = fscale (2 * k) (ffma d d z)).
Proof.
  intros k d z Hd Hz. destruct d as [s|s| |s m e]; try contradiction.
  - (* the difference is zero *)
    destruct z as [sz|sz| |sz mz ez]; try contradiction; unfold ffma; cbn [fscale f_int f_neg nn] in *; rewrite ?xorb_nilpotent.
    + subst sz. cbn. auto.
    + cbn. subst. tauto.
    + destruct Hz as [-> [Dz [Lz1 Lz2]]]. cbn [cond_Zopp]. change (0 * 0) with 0. rewrite !Z.mul_0_l, !Z.add_0_l.
      rewrite !norm_shift by (cbv beta in *; lia). destruct (round_core mz) as [mo [c [H1 [H2 H3]]]]. cbv beta in *.
      rewrite (proj1 (H3 false ez ltac:(lia))). rewrite (proj1 (H3 false (ez + 2 * k) ltac:(lia))). split.
      * unfold close. destruct (_ <=? _); cbn [nn]; [|reflexivity]. split; [reflexivity|]. lia.
      * intros F. replace (ez + 2 * k + c) with (ez + c + 2 * k) by lia. rewrite close_scale by exact F. unfold close in F. destruct (Z.leb_spec (ez + c) 104); cbn [fin] in *; [|contradiction]. split; [auto|]. split; [lia|reflexivity].
  - (* infinite *)
    unfold ffma. cbn [fscale f_int]. unfold fmul. cbn [SFmul]. rewrite xorb_nilpotent. destruct z as [sz|sz| |sz mz ez]; try contradiction; cbn [nn] in Hz; subst; cbn; tauto.
  - cbn [df] in Hd. destruct Hd as [Dm [Le1 Le2]]. pose proof (square_digits m Dm) as G. cbv beta in G.
    assert (Sq : forall s', cond_Zopp s' (Zpos m) * cond_Zopp s' (Zpos m) = Zpos (m * m)) by (intros []; cbn [cond_Zopp]; rewrite Pos2Z.inj_mul; lia).
    assert (P0 : 2 ^ 46 <= Zpos (m * m)) by (apply bounds_24 in Dm; rewrite Pos2Z.inj_mul; change (2 ^ 46) with (2 ^ 23 * 2 ^ 23); nia).
    destruct z as [sz|sz| |sz mz ez]; try contradiction; unfold ffma; cbn [fscale f_int f_neg nn] in *; rewrite ?xorb_nilpotent, ?Sq.
    + rewrite !Z.mul_0_l, !Z.add_0_r. rewrite !norm_shift by (cbv beta in *; lia). destruct (round_core (m * m)) as [mo [c [H1 [H2 H3]]]]. cbv beta in *.
      rewrite (proj1 (H3 false (e + e) ltac:(lia))). rewrite (proj1 (H3 false (e + k + (e + k)) ltac:(lia))). split.
      * unfold close. destruct (_ <=? _); cbn [nn]; [|reflexivity]. split; [reflexivity|]. lia.
      * intros F. replace (e + k + (e + k) + c) with (e + e + c + 2 * k) by lia. rewrite close_scale by exact F. unfold close in F. destruct (Z.leb_spec (e + e + c) 104); cbn [fin] in *; [|contradiction]. split; [lia|]. split; [auto|reflexivity].
    + subst. cbn. tauto.
    + destruct Hz as [-> [Dz [Lz1 Lz2]]]. cbn [cond_Zopp].
      replace (Z.min (e + k + (e + k)) (ez + 2 * k)) with (Z.min (e + e) ez + 2 * k) by lia.
      replace (e + k + (e + k) - (Z.min (e + e) ez + 2 * k)) with (e + e - Z.min (e + e) ez) by lia. replace (ez + 2 * k - (Z.min (e + e) ez + 2 * k)) with (ez - Z.min (e + e) ez) by lia.
      set (w := Z.min (e + e) ez). set (M := Zpos (m * m) * 2 ^ (e + e - w) + Zpos mz * 2 ^ (ez - w)).
      pose proof (Z.pow_pos_nonneg 2 (e + e - w) ltac:(lia) ltac:(lia)) as Px. pose proof (Z.pow_pos_nonneg 2 (ez - w) ltac:(lia) ltac:(lia)) as Py.
      pose proof (bounds_24 mz Dz) as By.
      assert (HM : 0 < M) by (unfold M; nia). destruct (norm_close M ltac:(lia)) as [mo [c [H1 [H2 H3]]]].
      assert (Gx : 47 + (e + e - w) <= Zdigits2 M).
      { destruct M as [|p|p] eqn:EM; try lia. cbn [Zdigits2]. apply digits_ge. rewrite <- EM. replace (47 + (e + e - w) - 1) with (46 + (e + e - w)) by lia. rewrite Z.pow_add_r by lia. unfold M. nia. }
      assert (Gy : 24 + (ez - w) <= Zdigits2 M).
      { destruct M as [|p|p] eqn:EM; try lia. cbn [Zdigits2]. apply digits_ge. rewrite <- EM. replace (24 + (ez - w) - 1) with (23 + (ez - w)) by lia. rewrite Z.pow_add_r by lia. unfold M. nia. }
      rewrite !H3 by lia. replace (M <? 0) with false by (symmetry; apply Z.ltb_ge; lia). split.
      * unfold close. destruct (_ <=? _); cbn [nn]; [|reflexivity]. split; [reflexivity|]. lia.
      * intros F. replace (w + 2 * k + c) with (w + c + 2 * k) by lia. rewrite close_scale by exact F.
        unfold close in F. destruct (Z.leb_spec (w + c) 104); cbn [fin] in *; [|contradiction]. split; [lia|]. split; [lia|reflexivity].
Qed.

(** ** The whole sum *)
Lemma rd_map : forall (A B : Type) (f : A -> B) (l : list A) i, rd (map f l) i = do x <- rd l i; Ok (f x).
Proof. intros A B f l i. unfold rd. rewrite nth_error_map. destruct (nth_error l i); reflexivity. Qed.

Lemma rd_in : forall (A : Type) (P : A -> Prop) l i (x : A), Forall P l -> rd l i = Ok x -> P x.
Proof. intros A P l i x H E. unfold rd in E. destruct (nth_error l i) as [y|] eqn:Y; [|discriminate]. injection E as <-. rewrite Forall_forall in H. eapply H, nth_error_In, Y. Qed.

Lemma l2_scale_fin : forall k t a b, Forall (ordinary k) a -> Forall (ordinary k) b -> forall r, l2_fused t a b = Ok r ->
  nn (2 * k) r /\ (fin (2 * k) r -> l2_fused t (map (fscale k) a) (map (fscale k) b) = Ok (fscale (2 * k) r)).
Proof.
  intros k t a b Ha Hb. unfold l2_fused. set (fac := fun i => do x <- rd a i; do y <- rd b i; Ok (fsub x y, fsub x y)).
  set (fac' := fun i => do x <- rd (map (fscale k) a) i; do y <- rd (map (fscale k) b) i; Ok (fsub x y, fsub x y)).
  assert (Fac : forall i p, fac i = Ok p -> fst p = snd p /\ df k (fst p) /\ (fin k (fst p) -> fac' i = Ok (fscale k (fst p), fscale k (fst p)))).
  { intros i p H. unfold fac in H. unfold fac'. rewrite !rd_map. destruct (rd a i) as [x| | | |] eqn:Ex; try discriminate H. destruct (rd b i) as [y| | | |] eqn:Ey; try discriminate H. cbn [bind] in *.
    injection H as <-. cbn [fst snd]. destruct (sub_scale k x y (rd_in _ _ _ _ _ Ha Ex) (rd_in _ _ _ _ _ Hb Ey)) as [S1 S2]. split; [reflexivity|]. split; [exact S1|]. intros F. now rewrite S2. }
  clearbody fac fac'. induction t as [|i|l IHl r IHr|i r IHr]; intros v Hv; cbn [fred_eval] in *.
  - injection Hv as <-. cbn. auto.
  - destruct (fac i) as [[x y]| | | |] eqn:Ei; try discriminate Hv. cbn [bind fst snd] in Hv. injection Hv as <-. destruct (Fac i _ Ei) as [Exy [D S]]. cbn [fst snd] in *. subst y.
    destruct (sq_scale k x D) as [N Q]. split; [exact N|]. intros F. destruct (Q F) as [Fx E]. rewrite (S Fx). cbn [bind fst snd]. now rewrite E.
  - destruct (fred_eval fac l) as [x| | | |]; try discriminate Hv. cbn [bind] in Hv. destruct (fred_eval fac r) as [y| | | |]; try discriminate Hv. cbn [bind] in Hv. injection Hv as <-.
    destruct (IHl _ eq_refl) as [Nx Sx]. destruct (IHr _ eq_refl) as [Ny Sy]. destruct (add_scale _ x y Nx Ny) as [N Q]. split; [exact N|]. intros F. destruct (Q F) as [Fx [Fy E]].
    rewrite (Sx Fx), (Sy Fy). cbn [bind]. now rewrite E.
  - destruct (fac i) as [[x y]| | | |] eqn:Ei; try discriminate Hv. cbn [bind fst snd] in Hv. destruct (fred_eval fac r) as [z| | | |]; try discriminate Hv. cbn [bind] in Hv. injection Hv as <-. destruct (Fac i _ Ei) as [Exy [D S]]. cbn [fst snd] in *. subst y.
    destruct (IHr _ eq_refl) as [Nz Sz]. destruct (fma_scale k x z D Nz) as [N Q]. split; [exact N|]. intros F. destruct (Q F) as [Fx [Fz E]]. rewrite (S Fx), (Sz Fz). cbn [bind fst snd]. now rewrite E.
Qed.

Lemma l2_scale : forall k t a b r, Forall (ordinary k) a -> Forall (ordinary k) b -> l2_fused t a b = Ok r -> fits (2 * k) r ->
  l2_fused t (map (fscale k) a) (map (fscale k) b) = Ok (fscale (2 * k) r).
Proof.
  intros k t a b r Ha Hb H F. apply (l2_scale_fin k t a b Ha Hb r H). destruct r; cbn in *; auto. lia.
Qed.
