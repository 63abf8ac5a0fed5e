(** * Lemmas for C123: lists pruned from all points. *)
From Coq Require Import ZArith Reals Lra String List Arith Lia Bool Sorting.Permutation Floats.SpecFloat.
From Flocq Require Import Core.
From Flocq Require BinarySingleNaN.
From Verif Require Import Base Float32 PoolModel SortSpec GraphSpec FilterSpec DivFacts DistSpec RealSpec FloatReal L2ErrorProofs RealDistProofs NormProofs MeanProofs3
  PruneModel PruneSpec PruneProofs RngProofs ApproxSpec.
Import ListNotations.
Local Open Scope R_scope.

(** A computed quotient above alpha: the exact quotient is. *)
Lemma quotient_above : forall alpha x y, f32_valid alpha = true -> finite alpha -> f32_valid x = true -> f32_valid y = true -> finite x -> finite y ->
  0 <= real alpha -> 0 <= real x -> 0 <= real y -> flt alpha (fdiv x y) = true -> real alpha * real y < real x.
Proof.
  intros alpha x y Va Fa Vx Vy Fx Fy Pa Px Py H. destruct (Req_dec (real y) 0) as [Z|N].
  - rewrite Z, Rmult_0_r. destruct (Req_dec (real x) 0) as [Zx|Nx]; [exfalso|lra].
    assert (zero : forall z, finite z -> real z = 0 -> exists s, z = S754_zero s).
    { intros [s|s| |s m e] Fz Hz; cbn in Fz; try contradiction; [exists s; reflexivity|]. exfalso. cbn in Hz.
      assert (0 < powerRZ 2 e) by (apply powerRZ_lt; lra). assert (0 < IZR (Z.pos m)) by (apply IZR_lt; lia). destruct s; nra. }
    destruct (zero x Fx Zx) as [sx ->]. destruct (zero y Fy Z) as [sy ->]. cbn in H. destruct alpha; discriminate.
  - destruct (Rlt_or_le (real alpha * real y) (real x)) as [|C]; [auto|exfalso].
    assert (Py' : 0 < real y) by lra. set (q := real x / real y).
    assert (Q : 0 <= q <= real alpha).
    { unfold q. split; [apply Rmult_le_pos; [exact Px|left; apply Rinv_0_lt_compat, Py']|].
      apply Rmult_le_reg_r with (real y); [exact Py'|]. unfold Rdiv. rewrite Rmult_assoc, Rinv_l by lra. lra. }
    assert (R1 : rnd q <= real alpha).
    { rewrite <- (round_generic radix2 (FLT_exp (-149) 24) ZnearestE (real alpha)) by (apply real_format, Va).
      apply round_le; [auto with typeclass_instances|auto with typeclass_instances|lra]. }
    assert (R0 : 0 <= rnd q).
    { rewrite <- (round_0 radix2 (FLT_exp (-149) 24) ZnearestE). apply round_le; [auto with typeclass_instances|auto with typeclass_instances|lra]. }
    assert (A : real alpha < bpow radix2 128).
    { eapply Rle_lt_trans; [apply Rle_abs|]. destruct (to_B alpha Va) as [b <-]. rewrite real_B2R. apply (BinarySingleNaN.abs_B2R_lt_emax 24 128). }
    assert (F : finite (fdiv x y)). { apply fdiv_fin; auto. fold q. rewrite Rabs_pos_eq by exact R0. lra. }
    destruct (fdiv_rnd x y Vx Vy N F) as [V R]. apply flt_real in H; auto. rewrite R in H. fold q in H. lra.
Qed.

Lemma squares_lt : forall al w x, 1 <= al -> 0 <= w -> 0 <= x -> al * (w * w) < x * x -> sqrt al * w <= x /\ w < x.
Proof.
  intros al w x Ha Hw Hx H. split.
  - apply Rsqr_incr_0_var; [|exact Hx]. unfold Rsqr. replace (sqrt al * w * (sqrt al * w)) with ((sqrt al * sqrt al) * (w * w)) by ring. rewrite sqrt_sqrt by lra. lra.
  - assert (w * w < x * x) by nra. nra.
Qed.

(** One list. *)
Lemma full_prune : forall sortf sp prm x cands apart, sorts sortf -> (x < sp_n sp)%nat -> all_others sp x cands -> exact_squares sp apart ->
  (sp_filtered sp = true -> length (pts_to_labels (sp_labels sp)) = sp_n sp) ->
  (sp_n sp <= bp_R prm)%nat -> (sp_n sp <= bp_C prm)%nat -> f32_valid (bp_alpha prm) = true -> finite (bp_alpha prm) -> 1 <= real (bp_alpha prm) ->
  exists out, prune_alpha sortf sp prm x cands [] = Ok out /\
    forall y, (y < sp_n sp)%nat -> y <> x -> In y out \/
      exists w, In w out /\ (w < sp_n sp)%nat /\ sqrt (real (bp_alpha prm)) * apart w y <= apart x y /\ apart w y < apart x y /\
        (sp_filtered sp = true -> forall l, In l (labels_of sp y) -> In l (labels_of sp w)).
Proof.
  intros sortf sp prm x cands apart Hs Hx [Hc1 [Hc2 Hc3]] Hsq Hl HR HC Va Fa Pa.
  assert (Hin : prune_input_ok sp cands).
  { split; [|exact Hl]. intros z Hz. destruct (Hc1 z Hz) as [A B]. split; [exact A|]. rewrite B. apply finite_nan. apply (Hsq _ _ A Hx). }
  assert (Hal : fgt f32_zero (bp_alpha prm) = false).
  { unfold fgt. destruct (flt (bp_alpha prm) f32_zero) eqn:E; [|exact E]. apply flt_real in E; auto; [|exact I]. change (real f32_zero) with 0 in E. lra. }
  destruct (prune_alpha_exact sortf sp prm x cands Hs Hin Hal) as [keep [[Hlen HK] E]].
  destruct (Hs cands) as [P _]; [intros z Hz; apply Hin; auto|].
  assert (Hfn : firstn (bp_C prm) (sortf cands) = sortf cands). { apply firstn_all2. rewrite <- (Permutation_length P). lia. }
  rewrite Hfn in *. exists (map nid (select keep (sortf cands))). split; [exact E|]. intros y Hy Hne.
  specialize (Hc2 y Hy Hne). apply in_map_iff in Hc2. destruct Hc2 as [c [Ec Hc]]. destruct (Hc1 c Hc) as [_ Dc]. rewrite Ec in Dc.
  apply (Permutation_in _ P) in Hc. apply In_nth_error in Hc. destruct Hc as [i Hi]. specialize (HK i c Hi). destruct (nth i keep false) eqn:Ek.
  - left. apply in_map_iff. exists c. split; [exact Ec|]. eapply select_nth_In; eauto.
  - right. assert (Hlt : (i < length (sortf cands))%nat) by (apply nth_error_Some; congruence).
    assert (Hdec : (exists k, In k (select (firstn i keep) (sortf cands)) /\ occludes sp (bp_alpha prm) k c) \/
      (forall k, In k (select (firstn i keep) (sortf cands)) -> ~ occludes sp (bp_alpha prm) k c)).
    { generalize (select (firstn i keep) (sortf cands)). intros l. induction l as [|k l IH]; [right; intros k []|].
      destruct IH as [[k' [H1 H2]]|IH]; [left; exists k'; split; [right|]; auto|].
      assert (D : occludes sp (bp_alpha prm) k c \/ ~ occludes sp (bp_alpha prm) k c).
      { unfold occludes. destruct (may_occlude_dec sp k c) as [M|M]; [|right; intros [C _]; auto].
        destruct (flt (bp_alpha prm) (fdiv (ndist c) (sp_pd sp (nid c) (nid k)))); [left; auto|right; intros [_ C]; discriminate]. }
      destruct D as [D|D]; [left; exists k; split; [left|]; auto|]. right. intros k' [<-|H]; auto. }
    destruct Hdec as [[k [Hk [Ho1 Ho2]]]|Hno].
    + assert (Hk' : In k (sortf cands)) by (eapply select_In, Hk).
      apply (Permutation_in _ (Permutation_sym P)) in Hk'. destruct (Hc1 k Hk') as [Kn _].
      exists (nid k). split; [apply in_map; eapply select_firstn_In; eauto|]. split; [exact Kn|].
      rewrite Ec, Dc in Ho2. destruct (Hsq y x Hy Hx) as [F1 [V1 [P1 [S1 R1]]]]. destruct (Hsq y (nid k) Hy Kn) as [F2 [V2 [P2 [S2 R2]]]].
      apply quotient_above in Ho2; auto; try (rewrite ?R1, ?R2; nra). rewrite R1, R2 in Ho2. rewrite <- S1, <- S2.
      destruct (squares_lt (real (bp_alpha prm)) (apart y (nid k)) (apart y x)) as [A B]; auto. split; [exact A|]. split; [exact B|].
      intros Hf l Hll. destruct Ho1 as [C|C]; [congruence|]. apply C. rewrite Ec. exact Hll.
    + exfalso. assert (false = true); [|discriminate]. apply HK. split; [congruence|]. split; [|exact Hno].
      pose proof (select_lt _ keep _ i Hlt). pose proof (Permutation_length P). lia.
Qed.

(** A graph of such lists. *)
Lemma full_prune_shortcuts : forall sortf sp prm apart g, sorts sortf -> exact_squares sp apart ->
  (sp_filtered sp = true -> length (pts_to_labels (sp_labels sp)) = sp_n sp) ->
  (sp_n sp <= bp_R prm)%nat -> (sp_n sp <= bp_C prm)%nat -> f32_valid (bp_alpha prm) = true -> finite (bp_alpha prm) -> 1 <= real (bp_alpha prm) ->
  (forall x, (x < sp_n sp)%nat -> exists cands l, all_others sp x cands /\ prune_alpha sortf sp prm x cands [] = Ok l /\ nth_error g x = Some l) ->
  shortcuts (fun _ => true) (sp_n sp) apart (sqrt (real (bp_alpha prm))) g.
Proof.
  intros sortf sp prm apart g Hs Hsq Hl HR HC Va Fa Pa Hg x y Hx Hy _ _ Hne. destruct (Hg x Hx) as [cands [l [Hc [E En]]]].
  destruct (full_prune sortf sp prm x cands apart) as [out [E' H]]; auto. assert (out = l) by congruence. subst out.
  destruct (H y Hy ltac:(auto)) as [In1|[w [W1 [_ [W2 [W3 _]]]]]].
  - exists y. split; [exists l; auto|left; reflexivity].
  - exists w. split; [exists l; auto|right; auto].
Qed.

(** Of a filtered index: also for the points a filter accepts. *)
Lemma full_prune_filtered : forall sortf sp prm apart g filters acc, sorts sortf -> exact_squares sp apart -> sp_filtered sp = true ->
  length (pts_to_labels (sp_labels sp)) = sp_n sp -> sorted_labels filters -> (forall ls, In ls (pts_to_labels (sp_labels sp)) -> sorted_labels ls) ->
  filter_test (universal_of (sp_labels sp)) (pts_to_labels (sp_labels sp)) filters acc ->
  (sp_n sp <= bp_R prm)%nat -> (sp_n sp <= bp_C prm)%nat -> f32_valid (bp_alpha prm) = true -> finite (bp_alpha prm) -> 1 <= real (bp_alpha prm) ->
  (forall x, (x < sp_n sp)%nat -> exists cands l, all_others sp x cands /\ prune_alpha sortf sp prm x cands [] = Ok l /\ nth_error g x = Some l) ->
  shortcuts acc (sp_n sp) apart (sqrt (real (bp_alpha prm))) g.
Proof.
  intros sortf sp prm apart g fs acc Hs Hsq Hf Hl Sf Sl [T1 T2] HR HC Va Fa Pa Hg x y Hx Hy Ax Ay Hne. destruct (Hg x Hx) as [cands [l [Hc [E En]]]].
  destruct (full_prune sortf sp prm x cands apart) as [out [E' H]]; auto. assert (out = l) by congruence. subst out.
  destruct (H y Hy ltac:(auto)) as [In1|[w [W1 [Wn [W2 [W3 W4]]]]]].
  - exists y. split; [exists l; auto|left; reflexivity].
  - exists w. split; [exists l; split; [exact En|]; split; [exact W1|]|right; auto].
    destruct fs as [|f0 fs0]; [apply T1; reflexivity|].
    assert (G : forall i, (i < sp_n sp)%nat -> nth_error (pts_to_labels (sp_labels sp)) i = Some (labels_of sp i)).
    { intros i Hi. unfold labels_of. apply nth_error_nth'. rewrite Hl. exact Hi. }
    destruct (T2 y _ (G y Hy)) as [M _]. destruct (T2 w _ (G w Wn)) as [_ M'].
    apply M'; [exact Sf|apply Sl; eapply nth_error_In; exact (G w Wn)|].
    destruct (M Ay) as [C|[[z [Z1 Z2]]|[u [U1 U2]]]]; [discriminate| |].
    + right. left. exists z. split; [exact Z1|]. apply W4; auto.
    + right. right. exists u. split; [exact U1|]. destruct U2 as [U2|U2]; [left; exact U2|right; apply W4; auto].
Qed.
