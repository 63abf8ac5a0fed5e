(** Residuals. *)
From Coq Require Import ZArith Reals Lra Lia List Arith Bool Permutation Floats.SpecFloat.
From Flocq Require Import Core.
From Verif Require Import Base Float32 DivFacts FloatBits DistSpec FusedModel RealSpec FloatReal L2ErrorProofs RealDistProofs NormProofs NormProofs6 MathModel.
Import ListNotations.
Local Open Scope nat_scope.

Definition op (sub : bool) (x c : f32) : f32 := if sub then fsub x c else fadd x c.
Lemma cell_eq : forall dim i j d e, d < dim -> e < dim -> i * dim + d = j * dim + e -> i = j /\ d = e.
Proof.
  intros dim i j d e Hd He H. assert (A : i = (i * dim + d) / dim) by (apply (Nat.div_unique _ dim i d); lia). assert (B : j = (j * dim + e) / dim) by (apply (Nat.div_unique _ dim j e); lia).
  assert (i = j) as -> by (rewrite A, H; symmetry; exact B). split; [reflexivity|lia].
Qed.
Lemma rd_nth : forall A (l : list A) i d, i < length l -> rd l i = Ok (nth i l d).
Proof. intros A l i d H. unfold rd. destruct (nth_error l i) as [x|] eqn:E; [|apply nth_error_None in E; lia]. f_equal. symmetry. now apply nth_error_nth. Qed.
Lemma cell_lt : forall dim n i d, i < n -> d < dim -> i * dim + d < n * dim.
Proof. intros. nia. Qed.

(** What the cell of row i and column d becomes. *)
Definition new_cell (dim : nat) (centers : list f32) (ids : list nat) (sub : bool) (data : list f32) (i d : nat) : f32 :=
  op sub (nth (i * dim + d) data f32_zero) (nth (nth i ids 0 * dim + d) centers f32_zero).

Definition ids_ok (n nc : nat) (ids : list nat) : Prop := length ids = n /\ forall i, i < n -> nth i ids 0 < nc.

Lemma row_ok : forall dim centers ids sub n nc i cnt d data, length centers = nc * dim -> ids_ok n nc ids -> i < n -> d + cnt = dim -> length data = n * dim ->
  exists data', residual_row dim centers ids sub i d cnt data = Ok data' /\ length data' = n * dim /\
    forall j e, j < n -> e < dim -> nth (j * dim + e) data' f32_zero = if (j =? i) && (d <=? e) then new_cell dim centers ids sub data j e else nth (j * dim + e) data f32_zero.
Proof.
  intros dim centers ids sub n nc i cnt. induction cnt as [|cnt IH]; intros d data Lc HI Hi Hd L; cbn [residual_row].
  - exists data. split; [reflexivity|]. split; [exact L|]. intros j e Hj He. destruct (d <=? e) eqn:Q; [apply Nat.leb_le in Q; lia|]. now rewrite andb_false_r.
  - assert (Hdd : d < dim) by lia. pose proof (cell_lt dim n i d Hi Hdd) as K. unfold residual_cell. rewrite (rd_nth _ data _ f32_zero) by lia. cbn [bind]. destruct HI as [LI HI]. rewrite (rd_nth _ ids _ 0) by lia. cbn [bind]. pose proof (HI i Hi) as Hid. pose proof (cell_lt dim nc _ d Hid Hdd) as K2. rewrite (rd_nth _ centers _ f32_zero) by lia. cbn [bind].
    destruct (wr_some _ data (i * dim + d) (if sub then fsub (nth (i * dim + d) data f32_zero) (nth (nth i ids 0 * dim + d) centers f32_zero) else fadd (nth (i * dim + d) data f32_zero) (nth (nth i ids 0 * dim + d) centers f32_zero)) ltac:(lia)) as [l' [E [Ll [V O]]]]. rewrite E. cbn [bind].
    destruct (IH (S d) l' Lc (conj LI HI) Hi ltac:(lia) ltac:(lia)) as [data' [E' [L' C]]]. exists data'. split; [exact E'|]. split; [exact L'|]. intros j e Hj He. rewrite C by auto.
    assert (N : forall a b, b < dim -> (a <> i \/ b <> d) -> nth (a * dim + b) l' f32_zero = nth (a * dim + b) data f32_zero).
    { intros a b Hb Hab. unfold f32 in *. rewrite !nth_default_eq || idtac. assert (Q : nth_error l' (a * dim + b) = nth_error data (a * dim + b)) by (apply O; intros Q; apply cell_eq in Q; lia). rewrite <- !nth_default_eq. unfold nth_default. now rewrite Q. }
    destruct (Nat.eq_dec j i) as [->|Ji].
    + rewrite Nat.eqb_refl. cbn [andb]. destruct (Nat.eq_dec e d) as [->|Ed].
      * rewrite Nat.leb_refl. destruct (S d <=? d) eqn:Q; [apply Nat.leb_le in Q; lia|]. now rewrite (nth_error_nth _ _ _ V).
      * unfold new_cell. rewrite !N by lia. destruct (S d <=? e) eqn:Q1, (d <=? e) eqn:Q2; try reflexivity; [apply Nat.leb_le in Q1; apply Nat.leb_gt in Q2; lia|apply Nat.leb_gt in Q1; apply Nat.leb_le in Q2; lia].
    + apply Nat.eqb_neq in Ji as Jb. rewrite Jb. cbn [andb]. apply N; auto.
Qed.

Lemma rows_ok : forall dim centers ids sub n nc order data, length centers = nc * dim -> ids_ok n nc ids -> NoDup order -> (forall i, In i order -> i < n) -> length data = n * dim ->
  exists data', process_residuals dim centers ids sub order data = Ok data' /\ length data' = n * dim /\
    forall j e, j < n -> e < dim -> (In j order -> nth (j * dim + e) data' f32_zero = new_cell dim centers ids sub data j e) /\ (~ In j order -> nth (j * dim + e) data' f32_zero = nth (j * dim + e) data f32_zero).
Proof.
  intros dim centers ids sub n nc order. induction order as [|i order IH]; intros data Lc HI ND B L; cbn [process_residuals].
  - exists data. split; [reflexivity|]. split; [exact L|]. intros j e Hj He. split; [intros []|reflexivity].
  - destruct (row_ok dim centers ids sub n nc i dim 0 data Lc HI (B i (or_introl eq_refl)) ltac:(lia) L) as [d1 [E1 [L1 C1]]]. rewrite E1. cbn [bind]. inversion ND as [|? ? Ni ND']; subst.
    destruct (IH d1 Lc HI ND' ltac:(intros; apply B; now right) L1) as [d2 [E2 [L2 C2]]]. exists d2. split; [exact E2|]. split; [exact L2|]. intros j e Hj He. destruct (C2 j e Hj He) as [A1 A2]. specialize (C1 j e Hj He). cbn [Nat.leb] in C1. rewrite andb_true_r in C1. split.
    + intros [->|Hin].
      * rewrite A2 by exact Ni. rewrite C1, Nat.eqb_refl. reflexivity.
      * rewrite A1 by exact Hin. unfold new_cell. rewrite C1. destruct (Nat.eqb_spec j i) as [->|]; [contradiction|reflexivity].
    + intros Hn. rewrite A2 by (intros Q; apply Hn; now right). rewrite C1. destruct (Nat.eqb_spec j i) as [->|]; [exfalso; apply Hn; now left|reflexivity].
Qed.

Lemma residuals : forall dim centers ids sub n nc order data, length centers = nc * dim -> length ids = n -> (forall i id, nth_error ids i = Some id -> id < nc) -> Permutation order (seq 0 n) -> length data = n * dim ->
  exists data', process_residuals dim centers ids sub order data = Ok data' /\ length data' = n * dim /\
    forall i d id x c, d < dim -> nth_error ids i = Some id -> nth_error data (i * dim + d) = Some x -> nth_error centers (id * dim + d) = Some c -> nth_error data' (i * dim + d) = Some (if sub then fsub x c else fadd x c).
Proof.
  intros dim centers ids sub n nc order data Lc LI HI P L. destruct (rows_ok dim centers ids sub n nc order data) as [data' [E [L' C]]]; auto.
  - split; [exact LI|]. intros i Hi. destruct (nth_error ids i) as [id|] eqn:Q; [|apply nth_error_None in Q; lia]. rewrite (nth_error_nth _ _ _ Q). eauto.
  - apply (Permutation_NoDup (Permutation_sym P)), seq_NoDup.
  - intros i Hi. apply (Permutation_in _ P) in Hi. apply in_seq in Hi. lia.
  - exists data'. split; [exact E|]. split; [exact L'|]. intros i d id x c Hd Hid Hx Hc. assert (Hi : i < n) by (rewrite <- LI; apply nth_error_Some; congruence). destruct (C i d Hi Hd) as [A _]. assert (In i order) as Hin by (apply (Permutation_in _ (Permutation_sym P)), in_seq; lia). specialize (A Hin).
    unfold new_cell in A. rewrite (nth_error_nth _ _ _ Hx), (nth_error_nth _ _ _ Hid), (nth_error_nth _ _ _ Hc) in A. unfold op in A. rewrite <- A. apply nth_error_nth'. rewrite L'. now apply cell_lt.
Qed.
(** A centre number out of range is undefined. *)
Lemma residuals_range : forall dim centers ids sub n nc order data i id, length centers = nc * dim -> 0 < dim -> length ids = n -> Permutation order (seq 0 n) -> length data = n * dim -> nth_error ids i = Some id -> nc <= id ->
  process_residuals dim centers ids sub order data = UB.
Proof.
  intros dim centers ids sub n nc order data i id Lc Hd LI P L Hid Hn. assert (Hi : i < n) by (rewrite <- LI; apply nth_error_Some; congruence). assert (Hin : In i order) by (apply (Permutation_in _ (Permutation_sym P)), in_seq; lia). assert (B : forall j, In j order -> j < n) by (intros j Hj; apply (Permutation_in _ P) in Hj; apply in_seq in Hj; lia).
  clear P. revert data L. induction order as [|j order IH]; intros data L; [destruct Hin|]. cbn [process_residuals].
  assert (Keep : forall cnt d dt, length dt = n * dim -> d + cnt <= dim -> match residual_row dim centers ids sub j d cnt dt with Ok d' => length d' = n * dim | r => r = UB end).
  { induction cnt as [|cnt IHc]; intros d dt Ld Hc; cbn [residual_row]; [exact Ld|]. unfold residual_cell. assert (Hj : j < n) by (apply B; now left). pose proof (cell_lt dim n j d Hj ltac:(lia)). rewrite (rd_nth _ dt _ f32_zero) by lia. cbn [bind]. rewrite (rd_nth _ ids _ 0) by lia. cbn [bind]. unfold rd. destruct (nth_error centers _) as [c|]; cbn [bind]; [|reflexivity].
    destruct (wr_some _ dt (j * dim + d) (if sub then fsub (nth (j * dim + d) dt f32_zero) c else fadd (nth (j * dim + d) dt f32_zero) c) ltac:(lia)) as [l' [E [Ll _]]]. rewrite E. cbn [bind]. apply IHc; lia. }
  specialize (Keep dim 0 data L ltac:(lia)). destruct Hin as [->|Hin].
  - destruct dim as [|dim]; [lia|]. cbn [residual_row] in *. unfold residual_cell in *. pose proof (cell_lt (S dim) n i 0 Hi ltac:(lia)). rewrite (rd_nth _ data _ f32_zero) by lia. cbn [bind]. unfold rd at 1. rewrite Hid. cbn [bind]. assert (Q : nth_error centers (id * S dim + 0) = None) by (apply nth_error_None; nia). unfold rd. rewrite Q. reflexivity.
  - destruct (residual_row _ _ _ _ j 0 dim data) as [d'| | | |]; try discriminate; [|reflexivity]. cbn [bind]. apply IH; auto. intros q Hq. apply B. now right.
Qed.

(** ** There and back *)
Local Open Scope R_scope.
Lemma add_rel : forall x y, f32_valid x = true -> f32_valid y = true -> finite x -> finite y -> Rabs (real x + real y) <= bpow radix2 127 -> finite (fadd x y) /\ f32_valid (fadd x y) = true /\ exists d, Rabs d <= ulp /\ real (fadd x y) = (real x + real y) * (1 + d).
Proof.
  intros x y Vx Vy Fx Fy B. assert (F : finite (fadd x y)) by (apply fadd_fin; auto; now apply rnd_small). destruct (fadd_rnd x y Vx Vy Fx Fy F) as [V R]. split; [exact F|]. split; [exact V|]. now apply fadd_real.
Qed.
Lemma sub_rel : forall x y, f32_valid x = true -> f32_valid y = true -> finite x -> finite y -> Rabs (real x - real y) <= bpow radix2 127 -> finite (fsub x y) /\ f32_valid (fsub x y) = true /\ exists d, Rabs d <= ulp /\ real (fsub x y) = (real x - real y) * (1 + d).
Proof.
  intros x y Vx Vy Fx Fy B. assert (F : finite (fsub x y)) by (apply fsub_fin; auto; now apply rnd_small). destruct (fsub_rnd x y Vx Vy Fx Fy F) as [V R]. split; [exact F|]. split; [exact V|]. now apply fsub_real.
Qed.
Lemma back : forall x c, f32_valid x = true -> f32_valid c = true -> finite x -> finite c -> Rabs (real x) <= powerRZ 2 125 -> Rabs (real c) <= powerRZ 2 125 ->
  let r := fadd (fsub x c) c in finite r /\ Rabs (real r - real x) <= 3 * ulp * (Rabs (real x) + Rabs (real c)).
Proof.
  intros x c Vx Vc Fx Fc Bx Bc r. assert (P : powerRZ 2 125 = bpow radix2 125) by (change 2 with (IZR radix2); now rewrite <- bpow_powerRZ). rewrite P in *. assert (P4 : 4 * bpow radix2 125 = bpow radix2 127) by (change 4 with (bpow radix2 2); rewrite <- bpow_plus; reflexivity).
  assert (A : Rabs (real x - real c) <= Rabs (real x) + Rabs (real c)) by (unfold Rminus; eapply Rle_trans; [apply Rabs_triang|]; rewrite Rabs_Ropp; apply Rle_refl).
  assert (Pb : 0 < bpow radix2 125) by apply bpow_gt_0. destruct (sub_rel x c Vx Vc Fx Fc ltac:(lra)) as [Fs [Vs [d [Hd E]]]]. pose proof ulp_val as [U1 U2]. set (s := Rabs (real x) + Rabs (real c)) in *.
  assert (D1 : Rabs ((real x - real c) * d) <= ulp * s) by (rewrite Rabs_mult, Rmult_comm; apply Rmult_le_compat; try apply Rabs_pos; auto).
  assert (Es : real (fsub x c) + real c = real x + (real x - real c) * d) by (rewrite E; ring).
  assert (Ps : 0 <= s) by (unfold s; pose proof (Rabs_pos (real x)); pose proof (Rabs_pos (real c)); lra). assert (Ss : s <= 2 * bpow radix2 125) by (unfold s; lra).
  assert (Us : ulp * s <= s * 1) by (rewrite (Rmult_comm s 1); apply Rmult_le_compat_r; lra). assert (Uu : ulp * (ulp * s) <= ulp * s) by (apply Rmult_le_compat_l; lra).
  assert (B2 : Rabs (real x + (real x - real c) * d) <= s + ulp * s). { eapply Rle_trans; [apply Rabs_triang|]. apply Rplus_le_compat; [unfold s; pose proof (Rabs_pos (real c)); lra|exact D1]. }
  assert (Fin : Rabs (real (fsub x c) + real c) <= bpow radix2 127) by (rewrite Es; eapply Rle_trans; [exact B2|]; lra).
  destruct (add_rel (fsub x c) c Vs Vc Fs Fc Fin) as [Fr [_ [d2 [H2 E2]]]]. fold r in Fr, E2. split; [exact Fr|]. rewrite E2, Es.
  replace ((real x + (real x - real c) * d) * (1 + d2) - real x) with ((real x - real c) * d + (real x + (real x - real c) * d) * d2) by ring. eapply Rle_trans; [apply Rabs_triang|]. rewrite (Rabs_mult _ d2).
  apply Rle_trans with (ulp * s + (s + ulp * s) * ulp); [apply Rplus_le_compat; [exact D1|]; apply Rmult_le_compat; try apply Rabs_pos; auto|]. lra.
Qed.
