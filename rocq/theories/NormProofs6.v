(** tests/utils/vector_analysis.cpp: the maximum, and the files. *)
From Coq Require Import NArith ZArith Reals Lra Lia List Arith Bool Permutation Floats.SpecFloat.
From Verif Require Import Base Bytes Float32 FloatBits DivFacts DistSpec DistModel StreamModel BinModel BinSpec BinProofs ClosestModel ConvertModel ConvertProofs FusedModel RealSpec L2ErrorProofs RealDistProofs NormModel NormSpec NormProofs NormProofs2 NormProofs3 NormProofs4 NormProofs5.
Import ListNotations.

(** ** The shared maximum *)
Lemma wr_some : forall (A : Type) (l : list A) i x, i < length l -> exists l', wr l i x = Ok l' /\ length l' = length l /\ nth_error l' i = Some x /\ forall j, j <> i -> nth_error l' j = nth_error l j.
Proof.
  intros A l i x H. destruct (wr_nth A l i x H) as [b [E [L N]]]. exists b. split; [exact E|]. split; [exact L|]. split; [rewrite N; destruct (Nat.eq_dec i i); congruence|]. intros j Hj. rewrite N. destruct (Nat.eq_dec j i); congruence.
Qed.

Lemma race_ok : forall norms sched m regs, length regs = length norms ->
  (forall i, In (MLoad i) sched \/ In (MStore i) sched -> i < length norms) ->
  (forall b i, nth_error sched b = Some (MStore i) -> (exists r, nth_error regs i = Some (Some r)) \/ exists a, a < b /\ nth_error sched a = Some (MLoad i)) ->
  exists m', race_max norms sched m regs = Ok m'.
Proof.
  intros norms. induction sched as [|[i|i] sched IH]; intros m regs L B W; cbn [race_max]; [eauto|..].
  - destruct (wr_some _ regs i (Some m)) as [r' [E [L' [Sx O]]]]; [rewrite L; apply B; left; left; auto|]. rewrite E. cbn [bind]. apply IH; [congruence|intros j [Hj|Hj]; apply B; [left|right]; right; auto|].
    intros b j Hb. destruct (Nat.eq_dec j i) as [->|Nj]; [left; eauto|]. destruct (W (S b) j Hb) as [[r Hr]|[[|a] [Ha Ea]]].
    + left. exists r. rewrite O by auto. exact Hr. + cbn in Ea. congruence. + right. exists a. split; [lia|exact Ea].
  - assert (Hi : i < length norms) by (apply B; right; left; auto). destruct (W 0 i eq_refl) as [[r Hr]|[a [Ha _]]]; [|lia].
    unfold rd at 1. rewrite Hr. cbn [bind]. destruct (nth_error norms i) as [x|] eqn:Ex; [|apply nth_error_None in Ex; lia]. unfold rd. rewrite Ex. cbn [bind].
    apply IH; auto; [intros j [Hj|Hj]; apply B; [left|right]; right; auto|].
    intros b j Hb. destruct (W (S b) j Hb) as [H|[[|a] [Ha Ea]]]; [left; auto|cbn in Ea; discriminate|right; exists a; split; [lia|exact Ea]].
Qed.

Lemma interleaving_ok : forall norms sched, interleaving (length norms) sched -> exists m, race_max norms sched f32_zero (repeat None (length norms)) = Ok m.
Proof.
  intros norms sched [C1 [C2 O]]. apply race_ok; [apply repeat_length|..].
  - intros i [H|H]; apply (count_occ_In mstep_dec) in H; [rewrite C1 in H|rewrite C2 in H]; destruct (i <? length norms) eqn:E; try lia; apply Nat.ltb_lt; auto.
  - intros b i Hb. right. pose proof (nth_error_In _ _ Hb) as H. apply (count_occ_In mstep_dec) in H. rewrite C2 in H. destruct (i <? length norms) eqn:E; [|lia].
    assert (Hl : In (MLoad i) sched) by (apply (count_occ_In mstep_dec); rewrite C1, E; lia). destruct (In_nth_error _ _ Hl) as [a Ha]. exists a. split; [eapply O; eauto|exact Ha].
Qed.

(** One by one, the result is the maximum. *)
Lemma race_seq : forall norms order m regs, length regs = length norms -> (forall i, In i order -> i < length norms) ->
  race_max norms (flat_map (fun i => [MLoad i; MStore i]) order) m regs = Ok (fold_left (fun m x => if fgt x m then x else m) (map (fun i => nth i norms f32_zero) order) m).
Proof.
  intros norms. induction order as [|i order IH]; intros m regs L B; [reflexivity|]. cbn [flat_map app race_max map fold_left].
  assert (Hi : i < length norms) by (apply B; left; auto). destruct (wr_some _ regs i (Some m)) as [r' [E [L' [Sx _]]]]; [lia|]. rewrite E. cbn [bind]. unfold rd at 1. rewrite Sx. cbn [bind].
  unfold rd. rewrite (nth_error_nth' norms f32_zero Hi). cbn [bind]. apply IH; [congruence|]. intros j Hj. apply B. right. auto.
Qed.

Lemma fold_gt : forall ns m, finite m -> f32_valid m = true -> Forall (fun x => finite x /\ f32_valid x = true /\ (0 <= real x)%R) ns ->
  let r := fold_left (fun m x => if fgt x m then x else m) ns m in (r = m \/ In r ns) /\ (real m <= real r)%R /\ forall x, In x ns -> (real x <= real r)%R.
Proof.
  induction ns as [|x ns IH]; intros m F V H; cbn [fold_left].
  - split; [auto|]. split; [lra|]. intros x [].
  - inversion H as [|? ? [Fx [Vx Px]] Hr]; subst. destruct (fgt x m) eqn:C.
    + apply (flt_real m x) in C; auto. destruct (IH x Fx Vx Hr) as [A [B D]]. split; [right; destruct A as [->|A]; [left|right]; auto|]. split; [lra|]. intros y [->|Hy]; auto.
    + assert (real x <= real m)%R. { destruct (Rle_or_lt (real x) (real m)) as [|Q]; auto. apply (flt_real m x) in Q; auto. change (fgt x m) with (flt m x) in C. congruence. }
      destruct (IH m F V Hr) as [A [B D]]. split; [destruct A; auto; right; right; auto|]. split; [auto|]. intros y [->|Hy]; [lra|auto].
Qed.

Lemma one_by_one_max : forall norms sched, one_by_one (length norms) sched -> Forall (fun x => finite x /\ f32_valid x = true /\ (0 <= real x)%R) norms -> (exists x, In x norms /\ (0 < real x)%R) ->
  exists m, race_max norms sched f32_zero (repeat None (length norms)) = Ok m /\ In m norms /\ forall x, In x norms -> (real x <= real m)%R.
Proof.
  intros norms sched [order [P ->]] H [x0 [I0 P0]]. rewrite race_seq; [|apply repeat_length|intros i Hi; apply (Permutation_in _ P) in Hi; apply in_seq in Hi; lia].
  eexists. split; [reflexivity|]. assert (Pm : Permutation (map (fun i => nth i norms f32_zero) order) norms).
  { rewrite P. replace (map (fun i => nth i norms f32_zero) (seq 0 (length norms))) with norms; [reflexivity|]. symmetry. clear. induction norms as [|x l IH]; [reflexivity|]. cbn [length seq map nth]. f_equal. rewrite <- seq_shift, map_map. exact IH. }
  assert (H' : Forall (fun x => finite x /\ f32_valid x = true /\ (0 <= real x)%R) (map (fun i => nth i norms f32_zero) order)) by (rewrite Pm; exact H).
  destruct (fold_gt _ f32_zero I eq_refl H') as [A [_ D]]. set (r := fold_left _ _ _) in *.
  assert (D' : forall x, In x norms -> (real x <= real r)%R) by (intros x Hx; apply D; apply (Permutation_in _ (Permutation_sym Pm)); auto).
  split; [|exact D']. destruct A as [A|A]; [|apply (Permutation_in _ Pm); exact A]. exfalso. specialize (D' x0 I0). rewrite A in D'. cbn [real f32_zero] in D'. lra.
Qed.

(** ** The files *)
Lemma rows_loaded : forall k g1 g2 n d vs, length g1 = 4 -> length g2 = 4 -> length vs = n -> (N.of_nat n < 2 ^ 32)%N -> (Z.of_nat d <= 2 ^ 20)%Z ->
  (forall v, In v vs -> length v = d /\ Forall (elem_ok k) v) ->
  load_bin (kwidth k) g1 g2 (Some (bin_file (kwidth k) (N.of_nat n) (N.of_nat d) (concat vs))) = Ok (N.of_nat n, N.of_nat d, concat vs) /\
  map (fun i => map (kval k) (firstn d (skipn (i * d) (concat vs)))) (seq 0 n) = map (fvec k) vs.
Proof.
  intros k g1 g2 n d vs L1 L2 Ln Rn Hd Hv. assert (Ir := elems_range k d vs Hv). split.
  - apply (bin_round_trip (kwidth k)); auto.
    + unfold u32_range. lia. + rewrite (concat_length _ vs d) by (intros v Iv; apply Hv; auto). lia.
    + assert (N.of_nat (kwidth k) <= 4)%N by (destruct k; cbn; lia). assert (N.of_nat d <= 2 ^ 20)%N by lia. 
      apply N.le_lt_trans with (2 ^ 32 * 2 ^ 20 * 4)%N; [|reflexivity]. apply N.mul_le_mono; [apply N.mul_le_mono|]; lia.
    + intros x Hx. apply in_concat in Hx. destruct Hx as [v [Iv Hx]]. exact (proj2 (Ir v Iv) x Hx).
  - rewrite <- Ln. apply rows_split. intros v Iv. apply Hv; auto.
Qed.

Lemma concat_map_bits : forall o, concat (map (map bits_of_f32) o) = map bits_of_f32 (concat o).
Proof. intros o. symmetry. apply concat_map. Qed.

Lemma augment_ok : forall f sched g1 g2 n d vs, length g1 = 4 -> length g2 = 4 -> length vs = n -> 1 <= n -> (N.of_nat n < 2 ^ 32)%N -> (Z.of_nat d <= 2 ^ 20)%Z ->
  Permutation (fred_items f) (seq 0 d) ->
  (forall v, In v vs -> length v = d /\ Forall (elem_ok KFloat) v /\ (elem_sq KFloat v <= powerRZ 2 125)%R) -> (exists v, In v vs /\ (powerRZ 2 (-99) <= elem_sq KFloat v)%R) ->
  one_by_one n sched ->
  exists M out, augment_base KFloat f sched true g1 g2 (Some (bin_file 4 (N.of_nat n) (N.of_nat d) (concat vs))) = Ok (bin_file 4 (N.of_nat n) (N.of_nat (d + 1)) (map bits_of_f32 (concat out))) /\
    finite M /\ (0 < real M)%R /\
    (exists m, In m vs /\ (forall v, In v vs -> elem_sq KFloat v <= elem_sq KFloat m)%R /\ (Rabs (real M ^ 2 - elem_sq KFloat m) <= (INR d + 4) * powerRZ 2 (-22) * elem_sq KFloat m)%R) /\
    Forall2 (unit_scaled KFloat M) vs out.
Proof.
  intros f sched g1 g2 n d vs L1 L2 Ln Hn Rn Hd Hf Hv Hb Ho.
  assert (Ne : vs <> []) by (intros ->; cbn in Ln; lia). destruct (rows_ok_any KFloat d f vs Hd Ne Hf Hv Hb) as [norms [E [Lno [Fn [_ [Hp H]]]]]].
  assert (Lnn : length norms = n) by (rewrite Lno; exact Ln). rewrite <- Lnn in Ho. destruct (one_by_one_max norms sched Ho Fn Hp) as [m [Em [Im Mm]]]. destruct (H m Im Mm) as [FM [PM [HM F2]]].
  exists (fsqrt m), (map (fun p => prep_row (fsqrt m) (fst p) (fvec KFloat (snd p))) (combine norms vs)). split; [|auto].
  destruct (rows_loaded KFloat g1 g2 n d vs L1 L2 Ln Rn Hd) as [El Er]; [intros v Iv; destruct (Hv v Iv) as [A [B _]]; auto|].
  unfold augment_base. change (kwidth KFloat) with 4 in *. rewrite El. cbn [bind]. rewrite !Nat2N.id, Er. rewrite map_res_map, E. cbn [bind]. rewrite <- Lnn at 1. rewrite Em. cbn [bind].
  rewrite (map_res_pure _ _ _ (fun p => map bits_of_f32 (prep_row (fsqrt m) (fst p) (snd p)))) by (intros x _; apply kstore_float). cbn [bind].
  assert (Ec : map (fun p => map bits_of_f32 (prep_row (fsqrt m) (fst p) (snd p))) (combine norms (map (fvec KFloat) vs)) = map (map bits_of_f32) (map (fun p => prep_row (fsqrt m) (fst p) (fvec KFloat (snd p))) (combine norms vs))).
  { clear. revert norms. induction vs as [|v vs IH]; intros [|x norms]; cbn [map combine]; try reflexivity. cbn [fst snd]. f_equal. apply IH. }
  rewrite Ec, concat_map_bits. replace (N.of_nat d + 1)%N with (N.of_nat (d + 1)) by lia. apply save_bin_ok. rewrite map_length.
  rewrite (concat_length _ _ (d + 1)).
  - replace (length (map (fun p => prep_row (fsqrt m) (fst p) (fvec KFloat (snd p))) (combine norms vs))) with n; [lia|]. rewrite map_length, combine_length. rewrite Lnn, Ln. lia.
  - intros o Ho'. apply in_map_iff in Ho'. destruct Ho' as [[x v] [<- Hxv]]. unfold prep_row, fvec. rewrite app_length, !map_length. cbn [fst snd length]. apply in_combine_r in Hxv. destruct (Hv v Hxv) as [-> _]. reflexivity.
Qed.

Lemma normals_ok : forall d f vs, dim_ok d -> Permutation (fred_items f) (seq 0 d) -> (forall v, In v vs -> length v = d /\ Forall (elem_ok KFloat) v /\ (powerRZ 2 (-99) <= elem_sq KFloat v <= powerRZ 2 125)%R) ->
  exists norms, map_res (fun v => sum_sq f (fvec KFloat v)) vs = Ok norms /\ length norms = length vs /\ Forall2 (normalised KFloat) vs (map (fun p => map (fun c => fdiv c (fsqrt (fst p))) (fvec KFloat (snd p))) (combine norms vs)).
Proof.
  intros d f vs Hd Hf. induction vs as [|v vs IH]; intros H; [exists []; repeat split; constructor|]. destruct (H v (or_introl eq_refl)) as [Lv [Ev Bv]].
  destruct (normal_ok KFloat d f v Hd Lv Ev Hf Bv) as [N [E [_ Hn]]]. destruct IH as [ns [Es [Ls Fs]]]; [intros w Hw; apply H; right; auto|].
  exists (N :: ns). cbn [map_res]. rewrite E. cbn [bind]. rewrite Es. cbn [bind]. split; [reflexivity|]. split; [cbn; congruence|]. cbn [combine map fst snd]. constructor; auto.
Qed.

Lemma query_ok : forall f sched g1 g2 n d vs, length g1 = 4 -> length g2 = 4 -> length vs = n -> (N.of_nat n < 2 ^ 32)%N -> (Z.of_nat d <= 2 ^ 20)%Z ->
  Permutation (fred_items f) (seq 0 d) ->
  (forall v, In v vs -> length v = d /\ Forall (elem_ok KFloat) v /\ (powerRZ 2 (-99) <= elem_sq KFloat v <= powerRZ 2 125)%R) -> interleaving n sched ->
  exists out, augment_base KFloat f sched false g1 g2 (Some (bin_file 4 (N.of_nat n) (N.of_nat d) (concat vs))) =
    Ok (bin_file 4 (N.of_nat n) (N.of_nat (d + 1)) (map bits_of_f32 (concat (map (fun o => o ++ [S754_zero false]) out)))) /\ Forall2 (normalised KFloat) vs out.
Proof.
  intros f sched g1 g2 n d vs L1 L2 Ln Rn Hd Hf Hv Hi. destruct (normals_ok d f vs Hd Hf Hv) as [norms [E [Lno F2]]].
  assert (Lnn : length norms = n) by (rewrite Lno; exact Ln). rewrite <- Lnn in Hi. destruct (interleaving_ok norms sched Hi) as [m Em].
  eexists. split; [|exact F2]. destruct (rows_loaded KFloat g1 g2 n d vs L1 L2 Ln Rn Hd) as [El Er]; [intros v Iv; destruct (Hv v Iv) as [A [B _]]; auto|].
  unfold augment_base. change (kwidth KFloat) with 4 in *. rewrite El. cbn [bind]. rewrite !Nat2N.id, Er. rewrite map_res_map, E. cbn [bind]. rewrite <- Lnn at 1. rewrite Em. cbn [bind].
  rewrite (map_res_pure _ _ _ (fun p => map bits_of_f32 (query_row (fst p) (snd p)))) by (intros x _; apply kstore_float). cbn [bind].
  assert (Ec : map (fun p => map bits_of_f32 (query_row (fst p) (snd p))) (combine norms (map (fvec KFloat) vs)) =
    map (map bits_of_f32) (map (fun o => o ++ [S754_zero false]) (map (fun p => map (fun c => fdiv c (fsqrt (fst p))) (fvec KFloat (snd p))) (combine norms vs)))).
  { clear. revert norms. induction vs as [|v vs IH]; intros [|x norms]; cbn [map combine]; try reflexivity. cbn [fst snd]. f_equal. apply IH. }
  rewrite Ec, concat_map_bits. replace (N.of_nat d + 1)%N with (N.of_nat (d + 1)) by lia. apply save_bin_ok. rewrite map_length.
  rewrite (concat_length _ _ (d + 1)).
  - rewrite !map_length, combine_length, Lnn, Ln. lia.
  - intros o Ho'. apply in_map_iff in Ho'. destruct Ho' as [o' [<- Ho']]. apply in_map_iff in Ho'. destruct Ho' as [[x v] [<- Hxv]]. unfold fvec. rewrite app_length, !map_length. cbn [fst snd length]. apply in_combine_r in Hxv. destruct (Hv v Hxv) as [-> _]. reflexivity.
Qed.

Lemma normalize_ok : forall f g1 g2 n d vs, length g1 = 4 -> length g2 = 4 -> length vs = n -> (N.of_nat n < 2 ^ 32)%N -> (Z.of_nat d <= 2 ^ 20)%Z ->
  Permutation (fred_items f) (seq 0 d) ->
  (forall v, In v vs -> length v = d /\ Forall (elem_ok KFloat) v /\ (powerRZ 2 (-99) <= elem_sq KFloat v <= powerRZ 2 125)%R) ->
  exists out, normalize_base KFloat f g1 g2 (Some (bin_file 4 (N.of_nat n) (N.of_nat d) (concat vs))) = Ok (bin_file 4 (N.of_nat n) (N.of_nat d) (map bits_of_f32 (concat out))) /\
    Forall2 (normalised KFloat) vs out.
Proof.
  intros f g1 g2 n d vs L1 L2 Ln Rn Hd Hf Hv. destruct (rows_loaded KFloat g1 g2 n d vs L1 L2 Ln Rn Hd) as [El Er]; [intros v Iv; destruct (Hv v Iv) as [A [B _]]; auto|].
  assert (G : exists out, map_res (fun x => do y <- normal_row f x; map_res (kstore KFloat) y) (map (fvec KFloat) vs) = Ok (map (map bits_of_f32) out) /\ Forall2 (normalised KFloat) vs out).
  { clear Ln El Er. induction vs as [|v vs IH]; [exists []; split; [reflexivity|constructor]|]. destruct (Hv v (or_introl eq_refl)) as [Lv [Ev Bv]].
    destruct (normal_ok KFloat d f v Hd Lv Ev Hf Bv) as [N [E [_ Hn]]]. destruct IH as [o [Es Fs]]; [intros w Hw; apply Hv; right; auto|].
    exists (map (fun c => fdiv c (fsqrt N)) (fvec KFloat v) :: o). cbn [map map_res]. unfold normal_row at 1. rewrite E. cbn [bind]. rewrite kstore_float. cbn [bind]. rewrite Es. cbn [bind]. split; [reflexivity|]. constructor; auto. }
  destruct G as [out [Eo Fo]]. exists out. split; [|exact Fo]. unfold normalize_base. change (kwidth KFloat) with 4 in *. rewrite El. cbn [bind]. rewrite !Nat2N.id, Er, Eo. cbn [bind]. rewrite concat_map_bits. apply save_bin_ok. rewrite map_length.
  assert (Lo : length out = n /\ forall o, In o out -> length o = d).
  { rewrite <- Ln. clear - Fo Hv. induction Fo as [|v o vs out H Fo IH]; [split; [reflexivity|intros ? []]|]. destruct IH as [A B]; [intros w Hw; apply Hv; right; auto|]. split; [cbn; congruence|].
    intros o' [<-|Ho]; [|auto]. destruct H as [Hl _]. refine (eq_trans Hl _). apply Hv. left. auto. }
  destruct Lo as [Lo Ld]. rewrite (concat_length _ out d Ld), Lo. lia.
Qed.
