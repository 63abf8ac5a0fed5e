(** Clusters and all points: new centres against any others, the closest centres. *)
From Coq Require Import ZArith Reals Lra Lia List Arith Bool Sorting.Permutation Floats.SpecFloat.
From Verif Require Import Base Float32 DivFacts DistSpec ListLemmas RealSpec FloatReal RealDistProofs L2ErrorProofs BlasModel BlasSpec BlasProofs BlasProofs3 BlasProofs7 PqFileProofs LloydModel LloydSpec MeanSpec MeanProofs2 MeanProofs3 MeanProofs5 KmeansSpec KmeansProofs.
Import ListNotations.
Local Open Scope R_scope.

Lemma sum_sq_isum : forall v : list f32, sum_sq v = isum (fun j => real (nth j v f32_zero) ^ 2) (seq 0 (length v)).
Proof. intros v. rewrite sq_sum. unfold sq. apply isum_ext. intros i _. unfold BlasProofs3.at_. ring. Qed.
Lemma sum_sq_pos : forall v : list f32, 0 <= sum_sq v.
Proof. intros v. rewrite sum_sq_isum. apply isum_nonneg. intros. apply pow2_ge_0. Qed.
Lemma l2_isum : forall (a b : list f32) dim, length a = dim -> length b = dim -> exact_l2 a b = isum (fun j => (real (nth j a f32_zero) - real (nth j b f32_zero)) ^ 2) (seq 0 dim).
Proof. intros a b dim La Lb. rewrite sqs_isum by congruence. rewrite La. reflexivity. Qed.
Lemma l2_nonneg : forall a b : list f32, 0 <= exact_l2 a b.
Proof. intros a b. unfold exact_l2. apply real_sum_pos. intros x Hx. apply in_map_iff in Hx as [y [<- _]]. apply pow2_ge_0. Qed.
Lemma coord_small : forall (v : list f32) x, In x v -> sum_sq v <= powerRZ 2 100 -> Rabs (real x) <= powerRZ 2 126.
Proof.
  intros v x Hx B. apply In_nth with (d := f32_zero) in Hx. destruct Hx as [j [Hj <-]]. rewrite sum_sq_isum in B.
  assert (G : real (nth j v f32_zero) ^ 2 <= isum (fun j => real (nth j v f32_zero) ^ 2) (seq 0 (length v))).
  { apply (isum_ge (fun j => real (nth j v f32_zero) ^ 2)); [intros; apply pow2_ge_0|apply in_seq; lia]. }
  rewrite <- pow2_abs in G. set (u := Rabs (real (nth j v f32_zero))) in *. assert (Pu : 0 <= u) by apply Rabs_pos.
  assert (E : powerRZ 2 100 <= powerRZ 2 126). { replace 126%Z with (26 + 100)%Z by reflexivity. rewrite powerRZ_add by lra. assert (0 < powerRZ 2 100) by (apply powerRZ_lt; lra). assert (1 <= powerRZ 2 26) by (change (powerRZ 2 26) with (2 ^ 26); apply pow_R1_Rle; lra). nra. }
  assert (1 <= powerRZ 2 126) by (change (powerRZ 2 126) with (2 ^ 126); apply pow_R1_Rle; lra).
  destruct (Rle_lt_dec u 1) as [|H1]; [lra|]. assert (u <= u ^ 2) by nra. lra.
Qed.

(** One cluster. *)
Lemma centroid_length : forall dim data docs, length (centroid_of dim data docs) = dim.
Proof. intros dim data [|d docs]; cbn [centroid_of]; [apply repeat_length|]. now rewrite map_length, seq_length. Qed.
Lemma centroid_at : forall dim data docs j, docs <> [] -> (j < dim)%nat -> nth j (centroid_of dim data docs) f32_zero = mean_of (map (fun p => nth j (nth p data []) f32_zero) docs).
Proof.
  intros dim data [|d docs] j H Hj; [congruence|]. unfold centroid_of. set (g := fun i => mean_of (map (fun p => nth i (nth p data []) f32_zero) (d :: docs))).
  rewrite (nth_indep _ f32_zero (g 0%nat)) by (rewrite map_length, seq_length; exact Hj). rewrite map_nth, seq_nth by exact Hj. reflexivity.
Qed.
Definition row_good (dim : nat) (B : R) (r : list f32) : Prop := length r = dim /\ (forall x, In x r -> finite x /\ f32_valid x = true) /\ sum_sq r <= B.
Lemma coord_good : forall dim (data : list (list f32)) p j, row_good dim (powerRZ 2 100) (nth p data []) -> (j < dim)%nat ->
  let x := nth j (nth p data []) f32_zero in finite x /\ f32_valid x = true /\ Rabs (real x) <= powerRZ 2 126.
Proof.
  intros dim data p j [L [G B]] Hj x. assert (I : In x (nth p data [])) by (apply nth_In; lia). destruct (G x I) as [F V]. split; [exact F|]. split; [exact V|]. eapply coord_small; eauto.
Qed.
Lemma cluster_optimal : forall dim data docs D, (Z.of_nat (length docs) <= 2 ^ 28)%Z -> (forall p, In p docs -> row_good dim (powerRZ 2 100) (nth p data [])) -> length D = dim ->
  isum (fun p => exact_l2 (nth p data []) (centroid_of dim data docs)) docs <= isum (fun p => exact_l2 (nth p data []) D) docs + powerRZ 2 (-43) * isum (fun p => sum_sq (nth p data [])) docs + INR (length docs) * (INR dim * powerRZ 2 (-297)).
Proof.
  intros dim data docs D L G LD. destruct docs as [|d0 docs'] eqn:Ed; [cbn; lra|]. rewrite <- Ed in *. assert (Hd : docs <> []) by (rewrite Ed; discriminate). clear Ed d0 docs'.
  rewrite (isum_ext _ (fun p => isum (fun j => (real (nth j (nth p data []) f32_zero) - real (nth j (centroid_of dim data docs) f32_zero)) ^ 2) (seq 0 dim))) by (intros p Hp; apply l2_isum; [apply (G p Hp)|apply centroid_length]).
  rewrite (isum_ext (fun p => exact_l2 (nth p data []) D) (fun p => isum (fun j => (real (nth j (nth p data []) f32_zero) - real (nth j D f32_zero)) ^ 2) (seq 0 dim))) by (intros p Hp; apply l2_isum; [apply (G p Hp)|exact LD]).
  rewrite (isum_ext (fun p => sum_sq (nth p data [])) (fun p => isum (fun j => real (nth j (nth p data []) f32_zero) ^ 2) (seq 0 dim))) by (intros p Hp; rewrite sum_sq_isum; destruct (G p Hp) as [-> _]; reflexivity).
  rewrite !(isum_swap (fun p j => _) docs). rewrite <- isum_scale.
  assert (C : INR (length docs) * (INR dim * powerRZ 2 (-297)) = isum (fun _ : nat => INR (length docs) * powerRZ 2 (-297)) (seq 0 dim)) by (rewrite isum_const, seq_length; ring). rewrite C.
  rewrite <- !isum_plus. apply isum_mono. intros j Hj. apply in_seq in Hj. rewrite centroid_at by (auto; lia).
  apply (coordinate_optimal (fun p => nth j (nth p data []) f32_zero) docs (real (nth j D f32_zero)) Hd L). intros p Hp. apply (coord_good dim); [auto|lia].
Qed.

(** New centres stay where the points are. *)
Lemma centroid_good : forall dim data docs B, (Z.of_nat (length docs) <= 2 ^ 28)%Z -> 0 <= B -> B <= powerRZ 2 100 -> (forall p, In p docs -> row_good dim B (nth p data [])) ->
  row_good dim (3 * B + INR dim * powerRZ 2 (-297)) (centroid_of dim data docs).
Proof.
  intros dim data docs B L PB HB G. pose proof (pos_INR dim) as Pd. assert (P297 : 0 < powerRZ 2 (-297)) by (apply powerRZ_lt; lra).
  destruct docs as [|d0 docs'] eqn:Ed.
  { split; [apply centroid_length|]. cbn [centroid_of]. split; [intros x Hx; apply repeat_spec in Hx; subst x; split; [exact I|reflexivity]|].
    rewrite sum_sq_isum. rewrite (isum_ext _ (fun _ => 0)); [rewrite isum_zero; nra|]. intros j _. replace (nth j (repeat f32_zero dim) f32_zero) with f32_zero; [cbn; ring|]. symmetry. destruct (Nat.lt_ge_cases j dim) as [Hj|Hj]; [apply (repeat_spec dim); apply nth_In; rewrite repeat_length; exact Hj|apply nth_overflow; rewrite repeat_length; exact Hj]. }
  rewrite <- Ed in *. assert (Hd : docs <> []) by (rewrite Ed; discriminate). clear Ed d0 docs'.
  assert (GG : forall p, In p docs -> row_good dim (powerRZ 2 100) (nth p data [])) by (intros p Hp; destruct (G p Hp) as [A1 [A2 A3]]; repeat split; auto; try apply A2; auto; lra).
  assert (Me : forall j, (j < dim)%nat -> finite (nth j (centroid_of dim data docs) f32_zero) /\ f32_valid (nth j (centroid_of dim data docs) f32_zero) = true /\
    INR (length docs) * real (nth j (centroid_of dim data docs) f32_zero) ^ 2 <= 3 * isum (fun p => real (nth j (nth p data []) f32_zero) ^ 2) docs + INR (length docs) * powerRZ 2 (-297)).
  { intros j Hj. rewrite centroid_at by auto. set (xs := map (fun p => nth j (nth p data []) f32_zero) docs).
    destruct (mean_square_error xs) as [F E]; [unfold xs; rewrite map_length; destruct docs; [congruence|cbn; lia] | unfold xs; now rewrite map_length | intros y Hy; unfold xs in Hy; apply in_map_iff in Hy as [p [<- Hp]]; apply (coord_good dim); auto |].
    split; [exact F|]. split; [apply f32_of_f64_valid|]. unfold xs in E. rewrite map_map in E. fold xs in E. set (f := fun p => real (nth j (nth p data []) f32_zero)) in *.
    pose proof (square_mean f docs Hd) as S. change (map (fun p => real (nth j (nth p data []) f32_zero)) docs) with (map f docs) in E. change (isum (fun p => real (nth j (nth p data []) f32_zero) ^ 2) docs) with (isum (fun p => f p ^ 2) docs).
    pose proof (mean_abs_ge (map f docs)) as Ge. pose proof (mean_abs_pos (map f docs)) as Pm. set (ma := mean_abs (map f docs)) in *. set (c := real (mean_of xs)) in *. set (m := mean (map f docs)) in *.
    set (t := powerRZ 2 (-149)) in *. set (e := powerRZ 2 (-22)) in *. assert (Pt : 0 < t) by (apply powerRZ_lt; lra). assert (Pe : 0 < e) by (apply powerRZ_lt; lra).
    assert (E01 : e <= / 16). { unfold e. rewrite <- pw. replace (/ 16) with (Raux.bpow Zaux.radix2 (-4)) by (cbn; lra). apply Raux.bpow_le. lia. }
    assert (Ac : Rabs c <= (17 / 16) * ma + t). { apply Rle_trans with (Rabs (c - m) + Rabs m); [replace c with ((c - m) + m) at 1 by ring; apply Rabs_triang|]. assert (e * ma <= / 16 * ma) by (apply Rmult_le_compat_r; assumption). lra. }
    assert (Sq : c ^ 2 <= 3 * ma ^ 2 + powerRZ 2 (-297)).
    { assert (T2 : powerRZ 2 (-297) = 2 * t ^ 2) by (unfold t; replace (powerRZ 2 (-149) ^ 2) with (powerRZ 2 (-149) * powerRZ 2 (-149)) by ring; rewrite <- powerRZ_add by lra; replace (-297)%Z with (1 + (-149 + -149))%Z by reflexivity; rewrite powerRZ_add by lra; rewrite powerRZ_1; reflexivity).
      rewrite T2, <- pow2_abs. pose proof (Rabs_pos c) as Pc. assert (Rabs c ^ 2 <= (17 / 16 * ma + t) ^ 2) by (apply pow_incr; split; [exact Pc|exact Ac]). pose proof (pow2_ge_0 (17 / 16 * ma - t)) as W. assert (0 <= ma ^ 2) by apply pow2_ge_0. lra. }
    pose proof (pos_INR (length docs)) as Pk. set (k := INR (length docs)) in *.
    assert (k * c ^ 2 <= k * (3 * ma ^ 2 + powerRZ 2 (-297))) by (apply Rmult_le_compat_l; assumption). lra. }
  split; [apply centroid_length|]. split.
  { intros x Hx. apply In_nth with (d := f32_zero) in Hx. destruct Hx as [j [Hj <-]]. rewrite centroid_length in Hj. destruct (Me j Hj) as [F [V _]]. auto. }
  rewrite sum_sq_isum, centroid_length. assert (Lk : 1 <= INR (length docs)) by (change 1 with (INR 1); apply le_INR; destruct docs; [congruence|cbn; lia]). set (k := INR (length docs)) in *.
  assert (T : k * isum (fun j => real (nth j (centroid_of dim data docs) f32_zero) ^ 2) (seq 0 dim) <= k * (3 * B + INR dim * powerRZ 2 (-297))).
  { rewrite <- isum_scale. eapply Rle_trans; [apply isum_mono; intros j Hj; apply in_seq in Hj; exact (proj2 (proj2 (Me j ltac:(lia))))|]. rewrite isum_plus, isum_const, seq_length, isum_scale.
    rewrite <- (isum_swap (fun p j => real (nth j (nth p data []) f32_zero) ^ 2) docs).
    assert (isum (fun p => isum (fun j => real (nth j (nth p data []) f32_zero) ^ 2) (seq 0 dim)) docs <= k * B).
    { unfold k. rewrite <- isum_const. apply isum_mono. intros p Hp. destruct (G p Hp) as [A1 [_ A3]]. rewrite sum_sq_isum, A1 in A3. exact A3. }
    lra. }
  apply Rmult_le_reg_l with k; [lra|exact T].
Qed.

(** ** All points *)
Lemma isum_nth : forall (f : list f32 -> R) (data : list (list f32)), real_sum (map f data) = isum (fun p => f (nth p data [])) (seq 0 (length data)).
Proof.
  intros f data. unfold isum. f_equal. induction data as [|x data IH]; [reflexivity|]. cbn [length seq map nth]. rewrite <- seq_shift, map_map. f_equal. exact IH.
Qed.
Lemma cost_isum : forall data centers (assign : nat -> nat), cost data centers (map assign (seq 0 (length data))) = isum (fun p => exact_l2 (nth p data []) (nth (assign p) centers [])) (seq 0 (length data)).
Proof.
  intros data centers assign. unfold cost, isum. f_equal. revert assign. induction data as [|x data IH]; intros assign; [reflexivity|]. cbn [length seq map combine nth]. rewrite <- !seq_shift, !map_map. f_equal. exact (IH (fun p => assign (S p))).
Qed.

Lemma filter_le_len : forall (b : nat -> bool) l, (length (filter b l) <= length l)%nat.
Proof. intros b l. induction l as [|x l IH]; [reflexivity|]. cbn [filter]. destruct (b x); cbn [length]; lia. Qed.
Lemma update_optimal : forall dim data centers nc (assign : nat -> nat) (docs : nat -> list nat) D, (Z.of_nat (length data) <= 2 ^ 28)%Z ->
  (forall r, In r data -> row_good dim (powerRZ 2 100) r) -> (forall p, (p < length data)%nat -> (assign p < nc)%nat) ->
  (forall c, (c < nc)%nat -> Permutation (docs c) (filter (fun p => (assign p =? c)%nat) (seq 0 (length data))) /\ nth c centers [] = centroid_of dim data (docs c)) -> length D = nc -> (forall d, In d D -> length d = dim) ->
  cost data centers (map assign (seq 0 (length data))) <= cost data D (map assign (seq 0 (length data))) + powerRZ 2 (-43) * real_sum (map sum_sq data) + INR (length data) * (INR dim * powerRZ 2 (-297)).
Proof.
  intros dim data centers nc assign docs D L G A P LD HD. rewrite !cost_isum, (isum_nth sum_sq). set (l := seq 0 (length data)). set (cl := fun c => filter (fun p => (assign p =? c)%nat) l).
  assert (Al : forall p, In p l -> (assign p < nc)%nat) by (intros p Hp; apply in_seq in Hp; apply A; lia).
  rewrite !(isum_partition _ assign nc l Al). rewrite <- isum_scale.
  assert (Lc : INR (length data) * (INR dim * powerRZ 2 (-297)) = isum (fun c => INR (length (cl c)) * (INR dim * powerRZ 2 (-297))) (seq 0 nc)).
  { transitivity (isum (fun _ : nat => INR dim * powerRZ 2 (-297)) l); [rewrite isum_const; unfold l; now rewrite seq_length|]. rewrite (isum_partition _ assign nc l Al). apply isum_ext. intros c _. apply isum_const. }
  rewrite Lc, <- !isum_plus. apply isum_mono. intros c Hc. apply in_seq in Hc. destruct (P c ltac:(lia)) as [Pm Ce]. fold l in Pm. fold (cl c) in Pm |- *.
  assert (Q : forall p, In p (cl c) -> (p < length data)%nat /\ assign p = c) by (intros p Hp; apply filter_In in Hp as [Hp Hq]; apply in_seq in Hp; apply Nat.eqb_eq in Hq; split; [lia|exact Hq]).
  rewrite (isum_ext (fun p => exact_l2 (nth p data []) (nth (assign p) centers [])) (fun p => exact_l2 (nth p data []) (centroid_of dim data (docs c)))) by (intros p Hp; destruct (Q p Hp) as [_ ->]; now rewrite Ce).
  rewrite (isum_ext (fun p => exact_l2 (nth p data []) (nth (assign p) D [])) (fun p => exact_l2 (nth p data []) (nth c D []))) by (intros p Hp; destruct (Q p Hp) as [_ ->]; reflexivity).
  rewrite <- !(isum_perm _ _ _ Pm), <- (Permutation_length Pm). apply cluster_optimal.
  - rewrite (Permutation_length Pm). pose proof (filter_le_len (fun p => (assign p =? c)%nat) l) as FL. fold (cl c) in FL. replace (length l) with (length data) in FL by (unfold l; now rewrite seq_length). lia.
  - intros p Hp. apply (Permutation_in _ Pm) in Hp. apply G. apply nth_In. apply (Q p Hp).
  - apply HD. apply nth_In. lia.
Qed.

(** ** The closest centres *)
Lemma fold_min_le : forall z l x, In x l -> fold_right Rmin z l <= x.
Proof. intros z l x. induction l as [|y l IH]; intros H; [destruct H|]. cbn [fold_right]. destruct H as [->|H]; [apply Rmin_l|]. eapply Rle_trans; [apply Rmin_r|auto]. Qed.
Lemma fold_min_ge : forall z l b, b <= z -> (forall x, In x l -> b <= x) -> b <= fold_right Rmin z l.
Proof. intros z l b Hz. induction l as [|y l IH]; intros H; [exact Hz|]. cbn [fold_right]. apply Rmin_glb; [apply H; now left|apply IH; intros; apply H; now right]. Qed.
Lemma to_closest_le : forall centers x c, (c < length centers)%nat -> to_closest centers x <= exact_l2 x (nth c centers []).
Proof. intros centers x c Hc. unfold to_closest. apply fold_min_le. apply in_map. now apply nth_In. Qed.
Lemma to_closest_ge : forall centers x b, centers <> [] -> (forall c, (c < length centers)%nat -> b <= exact_l2 x (nth c centers [])) -> b <= to_closest centers x.
Proof.
  intros centers x b Hc H. unfold to_closest. apply fold_min_ge.
  - destruct centers as [|y cs]; [congruence|]. apply (H 0%nat). cbn; lia.
  - intros y Hy. apply in_map_iff in Hy as [z [<- Hz]]. apply In_nth with (d := []) in Hz. destruct Hz as [c [Lc <-]]. auto.
Qed.
Lemma objective_le : forall data centers (assign : nat -> nat), (forall p, (p < length data)%nat -> (assign p < length centers)%nat) -> objective data centers <= cost data centers (map assign (seq 0 (length data))).
Proof. intros data centers assign A. rewrite cost_isum. unfold objective. rewrite isum_nth. apply isum_mono. intros p Hp. apply in_seq in Hp. apply to_closest_le. apply A. lia. Qed.
Lemma cost_near : forall data centers (assign : nat -> nat) (e : list f32 -> R), centers <> [] ->
  (forall p c, (p < length data)%nat -> (c < length centers)%nat -> exact_l2 (nth p data []) (nth (assign p) centers []) <= exact_l2 (nth p data []) (nth c centers []) + e (nth p data [])) ->
  cost data centers (map assign (seq 0 (length data))) <= objective data centers + real_sum (map e data).
Proof.
  intros data centers assign e Hc H. rewrite cost_isum. unfold objective. rewrite (isum_nth (to_closest centers)), (isum_nth e), <- isum_plus. apply isum_mono. intros p Hp. apply in_seq in Hp. cbv beta.
  match goal with |- ?a <= ?b + ?c => assert (a - c <= b); [|lra] end. apply to_closest_ge; [exact Hc|]. intros c Lc. specialize (H p c (proj2 Hp) Lc). apply Rplus_le_reg_r with (e (nth p data [])). unfold Rminus. rewrite Rplus_assoc, Rplus_opp_l, Rplus_0_r. exact H.
Qed.
