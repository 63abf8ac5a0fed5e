(** Ranks and tables of percentiles. *)
From Coq Require Import ZArith NArith Reals Lra Lia List Arith Bool Permutation Sorting.Sorted Floats.SpecFloat.
From Flocq Require Import Core Relative.
From Verif Require Import Base Float32 DivFacts DistSpec DistModel RecallModel LloydModel ConvertModel FusedModel RealSpec FloatReal L2ErrorProofs RealDistProofs Float64Real NormModel NormProofs StatsModel StatsSpec StatsProofs.
Import ListNotations.
Local Open Scope R_scope.

(** ** The element at a position of the sorted vector *)
Lemma filter_le : forall (A : Type) (f : A -> bool) l, (length (filter f l) <= length l)%nat.
Proof. intros A f. induction l as [|x t IH]; [auto|]. cbn. destruct (f x); cbn; lia. Qed.
Lemma filter_none : forall (A : Type) (f : A -> bool) l, (forall x, In x l -> f x = false) -> filter f l = [].
Proof. intros A f. induction l as [|x t IH]; intros H; [auto|]. cbn. rewrite (H x) by now left. apply IH. intros y Hy. apply H. now right. Qed.
Lemma filter_id : forall (A : Type) (f : A -> bool) l, (forall x, In x l -> f x = true) -> filter f l = l.
Proof. intros A f. induction l as [|x t IH]; intros H; [auto|]. cbn. rewrite (H x) by now left. f_equal. apply IH. intros y Hy. apply H. now right. Qed.
Lemma filter_perm : forall (A : Type) (f : A -> bool) l l', Permutation l l' -> length (filter f l) = length (filter f l').
Proof. intros A f. induction 1; cbn; auto; repeat match goal with |- context [f ?x] => destruct (f x) end; cbn; congruence. Qed.

Lemma sorted_split : forall (A : Type) (R : A -> A -> Prop) l k v, StronglySorted R l -> nth_error l k = Some v ->
  exists l1 l2, l = l1 ++ v :: l2 /\ length l1 = k /\ (forall x, In x l1 -> R x v) /\ (forall x, In x l2 -> R v x).
Proof.
  intros A R l k v S E. apply nth_error_split in E. destruct E as [l1 [l2 [-> L]]]. exists l1, l2. repeat split; auto.
  - clear L. induction l1 as [|y t IH]; intros x [].
    + subst. cbn in S. inversion S as [|? ? _ F]; subst. rewrite Forall_forall in F. apply F, in_or_app. right. now left.
    + apply IH; auto. now inversion S.
  - clear L. induction l1 as [|y t IH]; [inversion S as [|? ? _ F]; subst; now apply Forall_forall|]. apply IH. now inversion S.
Qed.

Lemma sorted_rank : forall (A : Type) (lt : A -> A -> bool) sortf (l : list A) k v, (forall x, lt x x = false) -> sorts_as lt sortf l ->
  nth_error (sortf l) k = Some v -> ranked lt l v k.
Proof.
  intros A lt sortf l k v Irr [P S] E. unfold ranked. split.
  { apply (Permutation_in _ (Permutation_sym P)). apply nth_error_In in E. exact E. }
  rewrite !(filter_perm _ _ _ _ P). destruct (sorted_split _ _ _ _ _ S E) as [l1 [l2 [-> [L [B C]]]]]. rewrite !filter_app. cbn [filter].
  rewrite Irr. cbn [negb]. rewrite (filter_none _ _ l2) by (intros x Hx; apply C; exact Hx). rewrite app_nil_r, app_length.
  rewrite (filter_id _ (fun x => negb (lt v x)) l1) by (intros x Hx; rewrite B by exact Hx; reflexivity). cbn [length].
  pose proof (filter_le _ (fun x => lt x v) l1). lia.
Qed.

Lemma sorted_last : forall (A : Type) (lt : A -> A -> bool) sortf (l : list A) v, (forall x, lt x x = false) -> sorts_as lt sortf l ->
  nth_error (sortf l) (length l - 1) = Some v -> In v l /\ (forall x, In x l -> lt v x = false).
Proof.
  intros A lt sortf l v Irr H E. pose proof (sorted_rank A lt sortf l _ v Irr H E) as [I1 [_ R]]. split; [exact I1|].
  intros x Hx. destruct H as [P S]. destruct (sorted_split _ _ _ _ _ S E) as [l1 [l2 [Q [L [B C]]]]].
  assert (l2 = []). { pose proof (Permutation_length P) as PL. rewrite Q, app_length in PL. cbn in PL. destruct l2; [auto|cbn in PL; lia]. }
  subst l2. apply (Permutation_in _ P) in Hx. rewrite Q in Hx. apply in_app_or in Hx. destruct Hx as [Hx|[<-|[]]]; [now apply B|apply Irr].
Qed.

(** ** The index *)
Lemma c001_real : f64_valid c001 = true /\ finite c001 /\ exists d, Rabs d <= ulp64 /\ real c001 = / 100 * (1 + d).
Proof.
  split; [reflexivity|]. split; [exact Logic.I|]. exists (100 * real c001 - 1). split; [|field].
  cbn [real c001]. rewrite ulp64_bpow. change 2 with (IZR radix2). rewrite <- bpow_powerRZ.
  change (bpow radix2 (-59)) with (/ 576460752303423488). change (bpow radix2 (-53)) with (/ 9007199254740992). apply Rabs_le. lra.
Qed.

Lemma tiny64 : forall x, / 100000000000000000000 <= x -> x = 0 \/ bpow radix2 (-1000) <= Rabs x.
Proof.
  intros x H. right. rewrite Rabs_pos_eq by lra. apply Rle_trans with (bpow radix2 (-70)); [apply bpow_le; lia|]. change (bpow radix2 (-70)) with (/ 1180591620717411303424). lra.
Qed.
Lemma huge64 : forall x, 0 <= x <= 1000000000000000000 -> Rabs x <= bpow radix2 1000.
Proof.
  intros x H. rewrite Rabs_pos_eq by lra. apply Rle_trans with (bpow radix2 60); [|apply bpow_le; lia]. change (bpow radix2 60) with 1152921504606846976. lra.
Qed.

(** A product of two doubles known up to relative errors [a] and [b]. *)
Lemma dmul_close : forall x y X Y a b, f64_valid x = true -> f64_valid y = true -> finite x -> finite y ->
  real x = X * (1 + a) -> real y = Y * (1 + b) -> Rabs a <= / 1000 -> Rabs b <= / 1000 ->
  (X = 0 \/ / 10000000000000000000 <= X * Y) -> 0 <= X * Y <= 100000000000000000 ->
  finite (f64_mul x y) /\ f64_valid (f64_mul x y) = true /\ exists d, Rabs d <= ulp64 /\ real (f64_mul x y) = X * Y * (1 + a) * (1 + b) * (1 + d).
Proof.
  intros x y X Y a b Vx Vy Fx Fy Ex Ey Ha Hb Hs Hu. apply Raux.Rabs_le_inv in Ha, Hb.
  assert (AB : 998 / 1000 <= (1 + a) * (1 + b) <= 1003 / 1000) by nra.
  assert (E : real x * real y = X * Y * ((1 + a) * (1 + b))) by (rewrite Ex, Ey; ring).
  assert (U : 0 <= real x * real y <= 1000000000000000000) by (rewrite E; nra).
  assert (T : real x * real y = 0 \/ bpow radix2 (-1000) <= Rabs (real x * real y)).
  { destruct Hs as [->|Hs]; [left; rewrite Ex; ring|]. apply tiny64. rewrite E. nra. }
  assert (F : finite (f64_mul x y)) by (apply dmul_fin; auto; apply small64, huge64, U).
  split; [exact F|]. split; [apply dmul_valid; auto|]. rewrite (proj2 (dmul_rnd x y Vx Vy F)). destruct (rnd64_rel _ T) as [d [Hd ->]].
  exists d. split; [exact Hd|]. rewrite Ex, Ey. ring.
Qed.

Lemma ddiv_close : forall x y X Y, f64_valid x = true -> f64_valid y = true -> finite x -> real x = X -> real y = Y -> 0 < Y ->
  (X = 0 \/ / 100000000000000000000 <= X / Y) -> 0 <= X / Y <= 1000000000000000000 ->
  finite (f64_div x y) /\ f64_valid (f64_div x y) = true /\ exists d, Rabs d <= ulp64 /\ real (f64_div x y) = X / Y * (1 + d).
Proof.
  intros x y X Y Vx Vy Fx <- <- Py Hs Hu.
  assert (T : real x / real y = 0 \/ bpow radix2 (-1000) <= Rabs (real x / real y)).
  { destruct Hs as [->|Hs]; [left; unfold Rdiv; ring|]. now apply tiny64. }
  assert (F : finite (f64_div x y)) by (apply ddiv_fin; auto; [lra|apply small64, huge64, Hu]).
  split; [exact F|]. split; [apply ddiv_valid; auto|]. rewrite (proj2 (ddiv_rnd x y Vx Vy ltac:(lra) F)). destruct (rnd64_rel _ T) as [d [Hd ->]].
  exists d. auto.
Qed.

Lemma three_errors : forall a b c, Rabs a <= ulp64 -> Rabs b <= ulp64 -> Rabs c <= ulp64 -> Rabs ((1 + a) * (1 + b) * (1 + c) - 1) <= 4 * ulp64.
Proof.
  intros a b c Ha Hb Hc. pose proof ulp64_val as U. apply Raux.Rabs_le_inv in Ha, Hb, Hc. set (u := ulp64) in *. clearbody u. apply Rabs_le.
  assert (A : - (2 * u + u * u) <= (1 + a) * (1 + b) - 1 <= 2 * u + u * u) by nra.
  assert (Uu : 0 <= u * u <= u / 1000) by nra. set (s := (1 + a) * (1 + b) - 1) in *. replace ((1 + a) * (1 + b)) with (1 + s) by (unfold s; ring). clearbody s. nra.
Qed.

Lemma INR_pos : forall n, (1 <= n)%nat -> 1 <= INR n.
Proof. intros n H. change 1 with (INR 1). now apply le_INR. Qed.

Lemma pct_close : forall c p n, (p < 100)%nat -> (1 <= n)%nat -> (Z.of_nat n <= 2 ^ 32)%Z ->
  finite (pct_value c p n) /\ exists d, Rabs d <= 4 * ulp64 /\ real (pct_value c p n) = INR p * INR n / 100 * (1 + d).
Proof.
  intros c p n Hp Hn Hb. destruct (of_nat64 p) as [Fp [Vp Rp]]; [lia|]. destruct (of_nat64 n) as [Fn [Vn Rn]]; [lia|].
  destruct (of_nat64 100) as [Fh [Vh Rh]]; [lia|]. pose proof (INR_pos n Hn) as N1. assert (P : p = 0%nat \/ 1 <= INR p) by (destruct p; [now left|right; apply INR_pos; lia]).
  assert (P1 : 0 <= INR p <= 99) by (split; [apply pos_INR|]; change 99 with (IZR 99); replace 99%Z with (Z.of_nat 99) by reflexivity; rewrite <- INR_IZR_INZ; apply le_INR; lia).
  assert (N2 : INR n <= 4294967296) by (rewrite INR_IZR_INZ; apply IZR_le in Hb; exact Hb). assert (PN : 0 <= INR p * INR n <= 99 * 4294967296) by nra.
  replace (INR 100) with 100 in Rh by (rewrite INR_IZR_INZ; reflexivity). pose proof ulp64_val as U. 
  assert (P0 : INR p = 0 \/ 1 <= INR p * INR n) by (destruct P as [->|P]; [now left|right; nra]).
  assert (P2 : INR p = 0 \/ 1 <= INR p) by (destruct P as [->|P]; [now left|now right]).
  destruct c001_real as [Vc [Fc [e [He Re]]]]. assert (Z0 : Rabs 0 <= / 1000) by (rewrite Rabs_R0; lra). clear P.
  assert (Q : Rabs 0 <= ulp64) by (rewrite Rabs_R0; lra).
  destruct c; cbn [pct_value].
  - destruct (ddiv_close (f64_of_nat p) (f64_of_nat 100) (INR p) 100) as [F1 [V1 [d1 [D1 E1]]]]; auto; [lra|destruct P2; [now left|right; lra]|lra|].
    destruct (dmul_close _ (f64_of_nat n) (INR p / 100) (INR n) d1 0 V1 Vn F1 Fn E1) as [F2 [V2 [d2 [D2 E2]]]]; auto; [rewrite Rn; ring|lra|destruct P0 as [->|P0]; [left; lra|right; nra]|nra|].
    split; [exact F2|]. exists ((1 + d1) * (1 + 0) * (1 + d2) - 1). split; [now apply three_errors|]. rewrite E2. field.
  - destruct (dmul_close (f64_of_nat p) c001 (INR p) (/ 100) 0 e) as [F1 [V1 [d1 [D1 E1]]]]; auto; [rewrite Rp; ring|lra|destruct P2; [now left|right; lra]|lra|].
    set (a := (1 + e) * (1 + d1) - 1). assert (Ea : real (f64_mul (f64_of_nat p) c001) = INR p / 100 * (1 + a)) by (rewrite E1; unfold a; field).
    assert (Ha : Rabs a <= / 1000). { pose proof (three_errors e d1 0 He D1 Q) as T. replace ((1 + e) * (1 + d1) * (1 + 0) - 1) with a in T by (unfold a; ring). lra. }
    destruct (dmul_close _ (f64_of_nat n) (INR p / 100) (INR n) a 0 V1 Vn F1 Fn Ea) as [F2 [V2 [d2 [D2 E2]]]]; auto; [rewrite Rn; ring|destruct P0 as [->|P0]; [left; lra|right; nra]|nra|].
    split; [exact F2|]. exists ((1 + e) * (1 + d1) * (1 + d2) - 1). split; [now apply three_errors|]. rewrite E2. unfold a. field.
  - destruct (dmul_close c001 (f64_of_nat n) (/ 100) (INR n) e 0) as [F1 [V1 [d1 [D1 E1]]]]; auto; [rewrite Rn; ring|lra|right; nra|nra|].
    set (a := (1 + e) * (1 + d1) - 1). assert (Ea : real (f64_mul c001 (f64_of_nat n)) = INR n / 100 * (1 + a)) by (rewrite E1; unfold a; field).
    assert (Ha : Rabs a <= / 1000). { pose proof (three_errors e d1 0 He D1 Q) as T. replace ((1 + e) * (1 + d1) * (1 + 0) - 1) with a in T by (unfold a; ring). lra. }
    destruct (dmul_close (f64_of_nat p) _ (INR p) (INR n / 100) 0 a Vp V1 Fp F1) as [F2 [V2 [d2 [D2 E2]]]]; auto; [rewrite Rp; ring|destruct P0 as [->|P0]; [now left|right; nra]|nra|].
    split; [exact F2|]. exists ((1 + e) * (1 + d1) * (1 + d2) - 1). split; [now apply three_errors|]. rewrite E2. unfold a. field.
Qed.

Lemma pct_index_ok : forall c p n, (p < 100)%nat -> (1 <= n)%nat -> (Z.of_nat n <= 2 ^ 32)%Z ->
  exists k, pct_index c p n = Ok (N.of_nat k) /\ percentile_rank p n k /\ (k < n)%nat.
Proof.
  intros c p n Hp Hn Hb. destruct (pct_close c p n Hp Hn Hb) as [F [d [Hd E]]]. pose proof (INR_pos n Hn) as N1.
  assert (P1 : 0 <= INR p <= 99) by (split; [apply pos_INR|]; replace 99 with (INR 99) by (rewrite INR_IZR_INZ; reflexivity); apply le_INR; lia).
  assert (N2 : INR n <= 4294967296) by (rewrite INR_IZR_INZ; apply IZR_le in Hb; exact Hb).
  assert (PN : 0 <= INR p * INR n / 100 <= 99 / 100 * INR n) by nra. pose proof ulp64_val as U. apply Raux.Rabs_le_inv in Hd.
  assert (X : Rabs (real (pct_value c p n) - INR p * INR n / 100) <= / 1000).
  { rewrite E. replace (INR p * INR n / 100 * (1 + d) - INR p * INR n / 100) with (INR p * INR n / 100 * d) by ring. apply Rabs_le.
    assert (- / 10000000000000 <= d <= / 10000000000000) by lra. set (q := INR p * INR n / 100) in *. clearbody q. clear -N2 PN H.
    assert (0 <= q <= 5000000000) by lra. split; nra. }
  assert (X0 : 0 <= real (pct_value c p n)) by (rewrite E; apply Rmult_le_pos; lra).
  assert (X1 : real (pct_value c p n) < IZR (Z.of_nat n)).
  { rewrite <- INR_IZR_INZ. destruct (Rle_lt_dec 1 (INR n)); [|lra]. apply Raux.Rabs_le_inv in X. nra. }
  destruct (to_u64_real (pct_value c p n) (Z.of_nat n) F (conj X0 X1)) as [k [Ek [Lk [A B]]]]; [lia|].
  exists (N.to_nat k). unfold pct_index. rewrite Ek, N2Nat.id. split; [reflexivity|]. split; [|lia].
  apply Raux.Rabs_le_inv in X. rewrite <- (N2Nat.id k), nat_N_Z in A, B. set (m := N.to_nat k) in *.
  assert (PNz : INR p * INR n = IZR (Z.of_nat (p * n))) by (rewrite <- INR_IZR_INZ, mult_INR; reflexivity).
  assert (A' : IZR (100 * Z.of_nat m) < IZR (Z.of_nat (p * n) + 1)) by (rewrite mult_IZR, plus_IZR, <- PNz; lra).
  assert (B' : IZR (Z.of_nat (p * n)) < IZR (100 * Z.of_nat m + 100 + 1)) by (rewrite !plus_IZR, mult_IZR, <- PNz; lra).
  apply lt_IZR in A', B'. unfold percentile_rank. lia.
Qed.

(** ** Tables *)
Lemma points_5 : pct_points 5 = map (fun i => i * 5)%nat (seq 0 (100 / 5)).
Proof. vm_compute. reflexivity. Qed.
Lemma points_10 : pct_points 10 = map (fun i => i * 10)%nat (seq 0 (100 / 10)).
Proof. vm_compute. reflexivity. Qed.
Lemma points_def : forall step, pct_points step = filter (fun p => p mod step =? 0)%nat (seq 0 100).
Proof. reflexivity. Qed.
Lemma points_eq : forall step, step = 5%nat \/ step = 10%nat -> pct_points step = map (fun i => i * step)%nat (seq 0 (100 / step)) /\ (forall p, In p (pct_points step) -> (p < 100)%nat).
Proof.
  intros step H. split; [destruct H as [->| ->]; [exact points_5|exact points_10]|]. intros p Hp. rewrite points_def in Hp. apply filter_In in Hp. destruct Hp as [Hp _]. apply in_seq in Hp. lia.
Qed.

Lemma pct_table_ok : forall (A : Type) (lt : A -> A -> bool) c step sortf (l : list A), step = 5%nat \/ step = 10%nat -> (forall x, lt x x = false) -> sorts_as lt sortf l ->
  (1 <= length l)%nat -> (Z.of_nat (length l) <= 2 ^ 32)%Z -> exists tbl, pct_table c step (sortf l) = Ok tbl /\ percentile_table lt step l tbl.
Proof.
  intros A lt c step sortf l Hs Irr S L1 L2. pose proof (Permutation_length (proj1 S)) as PL. destruct (points_eq step Hs) as [Ep Bp].
  assert (R : exists rows, map_res (fun p => do k <- pct_index c p (length (sortf l)); rd (sortf l) (N.to_nat k)) (pct_points step) = Ok rows /\
            Forall2 (fun p v => exists k, percentile_rank p (length l) k /\ ranked lt l v k) (pct_points step) rows).
  { clear Ep. induction (pct_points step) as [|p ps IH]; [exists []; split; [reflexivity|constructor]|].
    destruct IH as [rows [E F]]; [intros q Hq; apply Bp; now right|]. destruct (pct_index_ok c p (length l)) as [k [Ek [Pk Lk]]]; [apply Bp; now left|lia|lia|].
    cbn [map_res]. rewrite <- PL in E |- *. rewrite Ek. cbn [bind]. rewrite Nat2N.id. destruct (rd_lt _ (sortf l) k) as [v Ev]; [lia|]. rewrite Ev. cbn [bind]. rewrite E. cbn [bind].
    exists (v :: rows). split; [reflexivity|]. constructor; [|exact F]. exists k. split; [exact Pk|]. apply (sorted_rank A lt sortf l k v Irr S). now apply rd_ok. }
  destruct R as [rows [E F]]. destruct (rd_lt _ (sortf l) (length l - 1)) as [top Et]; [lia|]. unfold pct_table. rewrite E. cbn [bind]. rewrite <- PL.
  destruct (Nat.eqb_spec (length l) 0) as [Q|_]; [lia|]. rewrite Et. cbn [bind]. eexists. split; [reflexivity|]. exists rows, top. split; [reflexivity|].
  split; [rewrite <- Ep; exact F|]. apply (sorted_last A lt sortf l top Irr S). now apply rd_ok.
Qed.

Lemma pct_table_empty : forall (A : Type) c step, pct_table (A := A) c step [] = UB.
Proof. intros A c step. unfold pct_table. destruct (map_res _ _) eqn:E; cbn [bind length Nat.eqb]; try reflexivity; exfalso; revert E; unfold pct_points; cbn [length].
  all: assert (H : forall (l : list nat), match map_res (fun p => do k <- pct_index c p 0; rd (@nil A) (N.to_nat k)) l with Ok _ | UB => True | _ => False end);
  [induction l as [|p t IH]; [exact Logic.I|]; cbn [map_res]; unfold pct_index, to_u64; destruct (trunc _) as [z|]; [|exact Logic.I]; destruct (_ && _)%bool; [|exact Logic.I]; cbn [bind]; unfold rd; destruct (N.to_nat _); exact Logic.I|].
  all: intros E; specialize (H (filter (fun p => p mod step =? 0)%nat (seq 0 100))); rewrite E in H; exact H.
Qed.
