(** The ground truth computed with matrix products. *)
From Coq Require Import ZArith Reals Lra Lia List Arith Bool Sorting.Sorted Permutation Floats.SpecFloat.
From Flocq Require Import Core.
From Verif Require Import Base Float32 DivFacts DistSpec DistModel FusedModel RealSpec FloatReal L2ErrorProofs RealDistProofs NormProofs PqModel ClosestModel TopKSpec GtModel GtSpec HeapSpec GtProofs GtProofs2 GtProofs3 MeanProofs3
  BlasModel BlasSpec BlasProofs BlasProofs2 BlasProofs3 BlasProofs4 BlasProofs5 BlasProofs6.
Import ListNotations.
Local Open Scope R_scope.

Lemma sorted_real : forall (row : list (nat * f32)), (forall x, In x row -> num (snd x)) -> by_distance row -> StronglySorted (fun x y => real (snd x) <= real (snd y)) row.
Proof.
  intros row N S. induction S as [|x l S IH F]; constructor.
  - apply IH. intros; apply N; right; auto.
  - rewrite Forall_forall in *. intros y Hy. pose proof (F y Hy) as Q. unfold no_farther in Q. destruct (N x (or_introl eq_refl)) as [Fx Vx]. destruct (N y (or_intror Hy)) as [Fy Vy]. now apply fle_real in Q.
Qed.

Lemma top_within : forall n k (d : nat -> f32) (dist err : nat -> R) row, (k <= n)%nat -> (forall p, (p < n)%nat -> num (d p) /\ Rabs (real (d p) - dist p) <= err p) -> is_top_k k (score d (seq 0 n)) row ->
  nearest_within n k dist err row.
Proof.
  intros n k d dist err row Hk H [rest [P [L [S F]]]]. unfold score in *. rewrite map_length, seq_length in L.
  assert (In_row : forall x, In x (row ++ rest) -> (fst x < n)%nat /\ snd x = d (fst x)).
  { intros x Hx. apply (Permutation_in _ (Permutation_sym P)) in Hx. apply in_map_iff in Hx. destruct Hx as [i [<- Hi]]. apply in_seq in Hi. cbn. split; [lia|reflexivity]. }
  assert (Pf : Permutation (seq 0 n) (map fst row ++ map fst rest)).
  { apply (Permutation_map fst) in P. rewrite map_map, map_app in P. cbn [fst] in P. rewrite map_id in P. exact P. }
  assert (Nm : forall x, In x (row ++ rest) -> num (snd x)) by (intros x Hx; destruct (In_row x Hx) as [Lx ->]; apply H, Lx).
  split; [rewrite Nat.min_l in L by exact Hk; exact L|]. split.
  { apply nodup_l with (map fst rest). apply (Permutation_NoDup Pf), seq_NoDup. }
  split; [apply sorted_real; auto; intros; apply Nm, in_or_app; auto|]. split.
  - intros x Hx. destruct (In_row x (in_or_app _ _ _ (or_introl Hx))) as [Lx Ex]. split; [exact Lx|]. rewrite Ex. split; [apply (H _ Lx)|apply H, Lx].
  - intros x j Hx Hj Nj. assert (Ij : In j (map fst row ++ map fst rest)) by (apply (Permutation_in _ Pf), in_seq; lia). apply in_app_or in Ij. destruct Ij as [?|Ij]; [contradiction|].
    apply in_map_iff in Ij. destruct Ij as [y [Ey Hy]]. pose proof (F x y Hx Hy) as Q. unfold no_farther in Q. pose proof (in_or_app row rest x (or_introl Hx)) as Hx'. pose proof (in_or_app row rest y (or_intror Hy)) as Hy'.
    destruct (In_row x Hx') as [Lx Ex]. destruct (In_row y Hy') as [Ly Eq]. rewrite Ey in Eq.
    destruct (Nm x Hx') as [Fx Vx]. destruct (Nm y Hy') as [Fy Vy]. apply fle_real in Q; auto. rewrite Ex, Eq in Q. destruct (H _ Lx) as [_ Dx]. destruct (H _ Hj) as [_ Dj].
    apply Rabs_le_inv in Dx, Dj. lra.
Qed.

Lemma last_le : forall n ps, (1 <= n)%nat -> (1 <= ps)%nat -> (last_part n ps <= n)%nat.
Proof.
  intros n ps Hn Hp. unfold last_part. destruct (Nat.eqb_spec (n mod ps) 0) as [Q|Q]; [|apply Nat.mod_le; lia]. apply Nat.mod_divide in Q; [|lia]. apply Nat.divide_pos_le in Q; lia.
Qed.

Lemma truth_ok : forall W pushf takef sortf bs ps dim n nq k base queries orders (dist err : nat -> nat -> R), heap_ok pushf takef -> sorts_pairs sortf -> (1 <= bs)%nat -> (1 <= ps)%nat -> (1 <= n)%nat -> (1 <= k)%nat -> (forall p, batch_orders nq bs (orders p)) ->
  (forall q p, (q < nq)%nat -> (p < n)%nat -> exists v, gt_entry W bs ps dim n nq base queries q p = Ok v /\ num v /\ Rabs (real v - dist q p) <= err q p) ->
  exists out, ground_truth_on W pushf takef sortf bs ps dim n nq k base queries orders = Ok (min k (last_part n ps), out) /\ length out = (nq * k)%nat /\
    forall i, (i < nq)%nat -> nearest_within n (min k (last_part n ps)) (dist i) (err i) (row_of (min k (last_part n ps)) i out).
Proof.
  intros W pushf takef sortf bs ps dim n nq k base queries orders dist err Hh Hs Hbs Hps Hn Hk Ho H. unfold ground_truth_on.
  destruct (collect_ex _ _ (fun qp => gt_entry W bs ps dim n nq base queries (fst qp) (snd qp)) (fun _ _ => True) (list_prod (seq 0 nq) (seq 0 n))) as [ys [-> _]].
  { intros [q p] Hx. apply in_prod_iff in Hx. rewrite !in_seq in Hx. destruct (H q p) as [v [Hv _]]; [lia|lia|]. exists v. auto. }
  cbn [bind]. set (dmat := fun q p => if (q <? nq)%nat && (p <? n)%nat then match gt_entry W bs ps dim n nq base queries q p with Ok d => d | _ => S754_nan end else f32_zero).
  assert (D : forall q p, (q < nq)%nat -> (p < n)%nat -> num (dmat q p) /\ Rabs (real (dmat q p) - dist q p) <= err q p).
  { intros q p Hq Hp. unfold dmat. apply Nat.ltb_lt in Hq as Hq', Hp as Hp'. rewrite Hq', Hp'. cbn [andb]. destruct (H q p Hq Hp) as [v [-> R]]. exact R. }
  assert (NN : forall q p, is_nan (dmat q p) = false).
  { intros q p. destruct (Nat.ltb_spec q nq) as [Hq|Hq], (Nat.ltb_spec p n) as [Hp|Hp]; [apply finite_nan, D; auto| | |]; unfold dmat.
    - apply Nat.ltb_ge in Hp. rewrite Hp, andb_false_r. reflexivity.
    - apply Nat.ltb_ge in Hq. rewrite Hq. reflexivity.
    - apply Nat.ltb_ge in Hq. rewrite Hq. reflexivity. }
  destruct (ground_truth_ok pushf takef sortf bs ps n nq k dmat orders Hh Hs NN Hbs Hps Hn Hk Ho) as [out [Hout [Lo T]]].
  exists out. split; [exact Hout|]. split; [exact Lo|]. intros i Hi. apply (top_within n _ (dmat i)).
  - pose proof (last_le n ps Hn Hps). lia.
  - intros p Hp. apply D; auto.
  - apply T, Hi.
Qed.

(** ** Floats *)
Definition norm_err (dim : nat) (r : list f32) (v : f32) : Prop := num v /\ Rabs (real v - sq r) <= (E dim - 1) * sq r + INR dim * tiny * E dim.

Lemma sq_sum : forall p : list f32, sum_sq p = sq p.
Proof.
  intros p. unfold sum_sq, sq, isum. f_equal. unfold at_. induction p as [|x p IH]; [reflexivity|]. cbn [length seq map nth]. rewrite <- seq_shift, map_map. f_equal; [ring|exact IH].
Qed.

Lemma pw : forall a, bpow radix2 a = powerRZ 2 a.
Proof. intros a. rewrite bpow_powerRZ. reflexivity. Qed.

Lemma gt_float : forall W bs ps dim rows qrows, (1 <= bs)%nat -> (1 <= ps)%nat -> (Z.of_nat dim <= 2 ^ 20)%Z -> ways_ok dim W ->
  (forall r, In r rows \/ In r qrows -> length r = dim /\ (forall x, In x r -> finite x /\ valid_binary 24 128 x = true) /\ sum_sq r <= powerRZ 2 100) ->
  forall q p, (q < length qrows)%nat -> (p < length rows)%nat ->
  exists v, gt_entry W bs ps dim (length rows) (length qrows) (concat rows) (concat qrows) q p = Ok v /\ num v /\
    Rabs (real v - exact_l2 (nth p rows []) (nth q qrows [])) <= (INR dim + 8) * powerRZ 2 (-22) * (sum_sq (nth p rows []) + sum_sq (nth q qrows [])) + (INR dim + 4) * powerRZ 2 (-147).
Proof.
  intros W bs ps dim rows qrows Hbs Hps Ld HW HR q p Hq Hp.
  assert (Eq : nth_error qrows q = Some (nth q qrows [])) by (apply nth_error_nth'; exact Hq). assert (Ep : nth_error rows p = Some (nth p rows [])) by (apply nth_error_nth'; exact Hp).
  apply (gt_entry_ok W bs ps dim rows qrows (norm_err dim) (fun rp rq v => num v /\ Rabs (real v - exact_l2 rp rq) <= (INR dim + 8) * powerRZ 2 (-22) * (sum_sq rp + sum_sq rq) + (INR dim + 4) * powerRZ 2 (-147))); auto.
  - intros r Hr. apply HR. auto.
  - intros r Hr. apply HR. auto.
  - intros t r fac Hr P F. destruct (HR r Hr) as [L [G B]]. rewrite sq_sum, <- pw in B. subst dim. apply (sdot_ok t r fac P G Ld B F).
  - intros w0 w1 w2 p0 q0 x y Hp0 Hq0 [Nx Dx] [Ny Dy] W0 W1 W2 f0 g0 f1 g1 f2 g2 F0 G0 F1 G1 F2 G2.
    destruct (HR p0 (or_introl Hp0)) as [L [G B]]. destruct (HR q0 (or_intror Hq0)) as [L' [G' B']]. rewrite sq_sum, <- pw in B, B'. subst dim.
    destruct (gt_num w0 w1 w2 p0 q0 x y f0 g0 f1 g1 f2 g2) as [r0 [r1 [r2 [H0 [H1 [H2 [N D]]]]]]]; auto.
    exists r0, r1, r2. repeat (split; [assumption|]). rewrite !sq_sum. apply (gt_bound (length p0) (sq p0) (sq q0) (aip p0 q0)); auto; try apply sq_pos; try apply aip_pos. apply aip_le. auto.
Qed.

Lemma truth_float : forall W pushf takef sortf bs ps dim k rows qrows orders, heap_ok pushf takef -> sorts_pairs sortf -> (1 <= bs)%nat -> (1 <= ps)%nat -> rows <> [] -> (1 <= k)%nat -> (forall p, batch_orders (length qrows) bs (orders p)) ->
  (Z.of_nat dim <= 2 ^ 20)%Z -> ways_ok dim W ->
  (forall r, In r rows \/ In r qrows -> length r = dim /\ (forall x, In x r -> finite x /\ valid_binary 24 128 x = true) /\ sum_sq r <= powerRZ 2 100) ->
  exists out, ground_truth_on W pushf takef sortf bs ps dim (length rows) (length qrows) k (concat rows) (concat qrows) orders = Ok (min k (last_part (length rows) ps), out) /\ length out = (length qrows * k)%nat /\
    forall i, (i < length qrows)%nat -> nearest_within (length rows) (min k (last_part (length rows) ps)) (fun p => exact_l2 (nth p rows []) (nth i qrows []))
      (fun p => (INR dim + 8) * powerRZ 2 (-22) * (sum_sq (nth p rows []) + sum_sq (nth i qrows [])) + (INR dim + 4) * powerRZ 2 (-147)) (row_of (min k (last_part (length rows) ps)) i out).
Proof.
  intros W pushf takef sortf bs ps dim k rows qrows orders Hh Hs Hbs Hps Hn Hk Ho Ld HW HR.
  apply (truth_ok W pushf takef sortf bs ps dim (length rows) (length qrows) k (concat rows) (concat qrows) orders (fun q p => exact_l2 (nth p rows []) (nth q qrows []))
    (fun q p => (INR dim + 8) * powerRZ 2 (-22) * (sum_sq (nth p rows []) + sum_sq (nth q qrows [])) + (INR dim + 4) * powerRZ 2 (-147))); auto.
  - destruct rows; [congruence|cbn; lia].
  - intros q p Hq Hp. apply (gt_float W bs ps dim rows qrows); auto.
Qed.

(** ** Integers *)
Definition norm_int (r : list f32) (v : f32) : Prop := num v /\ forall z, holds_ints r z -> real v = IZR (int_sq z).

Lemma gt_exact : forall W bs ps dim rows qrows zrows zqrows, (1 <= bs)%nat -> (1 <= ps)%nat -> ways_ok dim W ->
  (forall r, In r rows \/ In r qrows -> length r = dim /\ (forall x, In x r -> finite x /\ valid_binary 24 128 x = true)) -> Forall2 holds_ints rows zrows -> Forall2 holds_ints qrows zqrows ->
  (forall z, In z zrows \/ In z zqrows -> int_sq z <= 2 ^ 24)%Z -> (forall z y, In z zrows -> In y zqrows -> sq_dist z y <= 2 ^ 24)%Z ->
  forall q p, (q < length qrows)%nat -> (p < length rows)%nat ->
  exists v, gt_entry W bs ps dim (length rows) (length qrows) (concat rows) (concat qrows) q p = Ok v /\ num v /\ Rabs (real v - IZR (sq_dist (nth p zrows []) (nth q zqrows []))) <= 0.
Proof.
  intros W bs ps dim rows qrows zrows zqrows Hbs Hps HW HR Hz Hy Bs Bd.
  assert (At : forall (l : list (list f32)) zl i, Forall2 holds_ints l zl -> (i < length l)%nat -> holds_ints (nth i l []) (nth i zl []) /\ In (nth i zl []) zl).
  { intros l zl i F. revert i. induction F as [|x z l zl Hx F IH]; intros i Hi; [cbn in Hi; lia|]. destruct i; cbn [nth]; [split; [exact Hx|left; auto]|]. destruct (IH i) as [A B]; [cbn in Hi; lia|]. split; [exact A|right; exact B]. }
  assert (Ex : forall (l : list (list f32)) zl r, Forall2 holds_ints l zl -> In r l -> exists z, In z zl /\ holds_ints r z).
  { intros l zl r F. induction F as [|x z l zl Hx F IH]; intros Hi; [destruct Hi|]. destruct Hi as [<-|Hi]; [exists z; split; [left; auto|exact Hx]|]. destruct (IH Hi) as [z' [A B]]. exists z'. split; [right; exact A|exact B]. }
  assert (Ux : forall r z z', holds_ints r z -> holds_ints r z' -> z = z').
  { intros r z z' A. revert z'. induction A as [|x k0 r z Hx A IH]; intros z' B; inversion B; subst; [reflexivity|]. f_equal; [|auto]. apply eq_IZR. destruct x; try contradiction; congruence. }
  intros q p Hq Hp.
  assert (Eq : nth_error qrows q = Some (nth q qrows [])) by (apply nth_error_nth'; exact Hq). assert (Ep : nth_error rows p = Some (nth p rows [])) by (apply nth_error_nth'; exact Hp).
  destruct (gt_entry_ok W bs ps dim rows qrows norm_int (fun rp rq v => num v /\ forall zp zq, holds_ints rp zp -> holds_ints rq zq -> real v = IZR (sq_dist zp zq))) with (q := q) (p := p) (rq := nth q qrows []) (rp := nth p rows []) as [v [Hv [Nv Rv]]]; auto.
  - intros r Hr. apply HR. auto.
  - intros r Hr. apply HR. auto.
  - intros t r fac Hr P F. destruct (HR r Hr) as [L G]. subst dim.
    assert (Z : exists z, holds_ints r z /\ (int_sq z <= 2 ^ 24)%Z) by (destruct Hr as [Hr|Hr]; [destruct (Ex _ _ r Hz Hr) as [z [I H]]|destruct (Ex _ _ r Hy Hr) as [z [I H]]]; exists z; split; auto).
    destruct Z as [z [H B]]. rewrite <- zsq_int in B. destruct (norm_exact t r z fac P G H B F) as [v [Hv [Nv Rv]]]. exists v. split; [exact Hv|]. split; [exact Nv|]. intros z' H'. rewrite (Ux r z' z H' H), Rv. now rewrite zsq_int.
  - intros w0 w1 w2 p0 q0 x y Hp0 Hq0 [Nx Dx] [Ny Dy] W0 W1 W2 f0 g0 f1 g1 f2 g2 F0 G0 F1 G1 F2 G2.
    destruct (HR p0 (or_introl Hp0)) as [L G]. destruct (HR q0 (or_intror Hq0)) as [L' G']. destruct (Ex _ _ p0 Hz Hp0) as [zp [Ip Hzp]]. destruct (Ex _ _ q0 Hy Hq0) as [zq [Iq Hzq]]. subst dim.
    pose proof (Bs zp (or_introl Ip)) as B1. pose proof (Bs zq (or_intror Iq)) as B2. specialize (Dx zp Hzp). specialize (Dy zq Hzq). rewrite <- zsq_int in B1, B2, Dx, Dy.
    destruct (gt_int w0 w1 w2 p0 q0 zp zq x y f0 g0 f1 g1 f2 g2) as [r0 [r1 [r2 [H0 [H1 [H2 [N D]]]]]]]; auto.
    exists r0, r1, r2. repeat (split; [assumption|]). intros zp' zq' A B. now rewrite (Ux p0 zp' zp A Hzp), (Ux q0 zq' zq B Hzq).
  - exists v. split; [exact Hv|]. split; [exact Nv|]. destruct (At rows zrows p Hz Hp) as [A _]. destruct (At qrows zqrows q Hy Hq) as [B _]. rewrite (Rv _ _ A B). rewrite Rminus_diag_eq by reflexivity. rewrite Rabs_R0. lra.
Qed.

Lemma truth_int : forall W pushf takef sortf bs ps dim k rows qrows zrows zqrows orders, heap_ok pushf takef -> sorts_pairs sortf -> (1 <= bs)%nat -> (1 <= ps)%nat -> rows <> [] -> (1 <= k)%nat -> (forall p, batch_orders (length qrows) bs (orders p)) ->
  ways_ok dim W -> (forall r, In r rows \/ In r qrows -> length r = dim /\ (forall x, In x r -> finite x /\ valid_binary 24 128 x = true)) -> Forall2 holds_ints rows zrows -> Forall2 holds_ints qrows zqrows ->
  (forall z, In z zrows \/ In z zqrows -> int_sq z <= 2 ^ 24)%Z -> (forall z y, In z zrows -> In y zqrows -> sq_dist z y <= 2 ^ 24)%Z ->
  exists out, ground_truth_on W pushf takef sortf bs ps dim (length rows) (length qrows) k (concat rows) (concat qrows) orders = Ok (min k (last_part (length rows) ps), out) /\ length out = (length qrows * k)%nat /\
    forall i, (i < length qrows)%nat -> nearest_within (length rows) (min k (last_part (length rows) ps)) (fun p => IZR (sq_dist (nth p zrows []) (nth i zqrows []))) (fun _ => 0) (row_of (min k (last_part (length rows) ps)) i out).
Proof.
  intros W pushf takef sortf bs ps dim k rows qrows zrows zqrows orders Hh Hs Hbs Hps Hn Hk Ho HW HR Hz Hy Bs Bd.
  apply (truth_ok W pushf takef sortf bs ps dim (length rows) (length qrows) k (concat rows) (concat qrows) orders (fun q p => IZR (sq_dist (nth p zrows []) (nth q zqrows []))) (fun _ _ => 0)); auto.
  { destruct rows; [congruence|cbn; lia]. }
  intros q p Hq Hp. apply (gt_exact W bs ps dim rows qrows zrows zqrows); auto.
Qed.

(** ** Bytes *)
Lemma int_sq_le : forall z b, (forall x, In x z -> Z.abs x <= b)%Z -> (int_sq z <= b * b * Z.of_nat (length z))%Z.
Proof.
  intros z b H. unfold int_sq. induction z as [|x z IH]; [cbn; lia|]. cbn [map fold_right length]. assert (Z.abs x <= b)%Z by (apply H; left; auto). assert (forall y, In y z -> (Z.abs y <= b)%Z) by (intros; apply H; right; auto). specialize (IH H1). assert (x * x <= b * b)%Z by nia. lia.
Qed.
Lemma sq_dist_le2 : forall a b lo hi, (forall x, In x a \/ In x b -> lo <= x <= hi)%Z -> (sq_dist a b <= (hi - lo) * (hi - lo) * Z.of_nat (length a))%Z.
Proof.
  intros a. unfold sq_dist, zsum. induction a as [|x a IH]; intros b lo hi H; [cbn; lia|]. destruct b as [|y b].
  - cbn [combine map fold_right]. assert (0 <= (hi - lo) * (hi - lo))%Z by (apply Z.square_nonneg). nia.
  - cbn [combine map fold_right fst snd length]. specialize (IH b lo hi). assert (lo <= x <= hi)%Z by (apply H; left; left; auto). assert (lo <= y <= hi)%Z by (apply H; right; left; auto).
    assert (forall z, In z a \/ In z b -> (lo <= z <= hi)%Z) by (intros z [Hz|Hz]; apply H; [left|right]; right; auto). specialize (IH H2). assert ((x - y) * (x - y) <= (hi - lo) * (hi - lo))%Z by nia. lia.
Qed.

Lemma truth_bytes : forall W pushf takef sortf bs ps dim k zrows zqrows orders, heap_ok pushf takef -> sorts_pairs sortf -> (1 <= bs)%nat -> (1 <= ps)%nat -> zrows <> [] -> (1 <= k)%nat -> (forall p, batch_orders (length zqrows) bs (orders p)) ->
  ways_ok dim W -> (dim <= 258)%nat -> (forall z, In z zrows \/ In z zqrows -> length z = dim) -> ((forall z, In z zrows \/ In z zqrows -> uint8s z) \/ (forall z, In z zrows \/ In z zqrows -> int8s z)) ->
  exists out, ground_truth_on W pushf takef sortf bs ps dim (length zrows) (length zqrows) k (concat (map (map f32_of_Z) zrows)) (concat (map (map f32_of_Z) zqrows)) orders = Ok (min k (last_part (length zrows) ps), out) /\ length out = (length zqrows * k)%nat /\
    forall i, (i < length zqrows)%nat -> nearest_within (length zrows) (min k (last_part (length zrows) ps)) (fun p => IZR (sq_dist (nth p zrows []) (nth i zqrows []))) (fun _ => 0) (row_of (min k (last_part (length zrows) ps)) i out).
Proof.
  intros W pushf takef sortf bs ps dim k zrows zqrows orders Hh Hs Hbs Hps Hn Hk Ho HW Hd Hl Hb.
  assert (Ab : forall z x, In z zrows \/ In z zqrows -> In x z -> (Z.abs x <= 255)%Z) by (intros z x Hz Hx; destruct Hb as [Hb|Hb]; specialize (Hb z Hz x Hx); lia).
  assert (Fz : forall l : list (list Z), (forall z x, In z l -> In x z -> (Z.abs x <= 255)%Z) -> Forall2 holds_ints (map (map f32_of_Z) l) l).
  { intros l Hl'. induction l as [|z l IH]; cbn [map]; constructor; [|apply IH; intros; eapply Hl'; [right|]; eauto]. apply of_Z_holds. intros x Hx. assert (Z.abs x <= 255)%Z by (apply (Hl' z); [left; auto|auto]). lia. }
  assert (Lr : forall l : list (list Z), length (map (map f32_of_Z) l) = length l) by (intros; apply map_length).
  rewrite <- (Lr zrows), <- (Lr zqrows).
  apply (truth_int W pushf takef sortf bs ps dim k (map (map f32_of_Z) zrows) (map (map f32_of_Z) zqrows) zrows zqrows orders); auto.
  - destruct zrows; [congruence|discriminate].
  - rewrite Lr. exact Ho.
  - assert (Q : forall l : list (list Z), (forall z, In z l -> In z zrows \/ In z zqrows) -> forall r, In r (map (map f32_of_Z) l) -> length r = dim /\ forall x, In x r -> finite x /\ valid_binary 24 128 x = true).
    { intros l Hi r Hr. apply in_map_iff in Hr. destruct Hr as [z [<- Hz]]. rewrite map_length. split; [apply Hl, Hi, Hz|]. intros x Hx. apply in_map_iff in Hx. destruct Hx as [y [<- Hy]].
      destruct (of_Z_int y) as [F [V _]]; [pose proof (Ab z y (Hi z Hz) Hy); lia|]. split; [exact F|exact V]. }
    intros r [Hr|Hr]; [apply (Q zrows); auto|apply (Q zqrows); auto].
  - apply Fz. intros z x Hz. apply Ab. auto.
  - apply Fz. intros z x Hz. apply Ab. auto.
  - intros z Hz. pose proof (int_sq_le z 255 (fun x Hx => Ab z x Hz Hx)). rewrite (Hl z Hz) in H. lia.
  - intros z y Hz Hy. assert (B : (sq_dist z y <= 255 * 255 * Z.of_nat (length z))%Z).
    { destruct Hb as [Hb|Hb]; [apply (sq_dist_le2 z y 0 255)|apply (sq_dist_le2 z y (-128) 127)]; intros x [Hx|Hx]; [apply (Hb z)|apply (Hb y)|apply (Hb z)|apply (Hb y)]; auto. }
    rewrite (Hl z (or_introl Hz)) in B. lia.
Qed.
