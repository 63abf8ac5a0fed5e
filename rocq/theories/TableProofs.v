(** One row of the table of work: the columns. *)
From Coq Require Import ZArith NArith Reals Lra Lia List Arith Bool Permutation Sorting.Sorted Floats.SpecFloat.
From Flocq Require Import Core Relative.
From Verif Require Import Base Bytes Float32 DivFacts DistSpec DistModel LloydModel FusedModel RealSpec FloatReal L2ErrorProofs RealDistProofs Float64Real NormModel NormSpec NormProofs StatsModel StatsSpec StatsProofs StatsProofs2 StatsProofs3 StatsProofs4 RandProofs
  WorkModel TableModel TableSpec.
Import ListNotations.
Local Open Scope R_scope.

(** ** The loop over the queries *)
Lemma loop_slots : forall (A : Type) (search : nat -> counters -> res (A * counters)) cnt order stats,
  NoDup order -> (forall i, In i order -> nth_error stats i = Some (0, 0)%nat) -> (forall i, In i order -> exists a, search i (Some (0, 0)%nat) = Ok (a, Some (cnt i))) ->
  exists stats', stats_loop search order stats = Ok stats' /\ length stats' = length stats /\
    (forall i, In i order -> nth_error stats' i = Some (cnt i)) /\ (forall i, ~ In i order -> nth_error stats' i = nth_error stats i).
Proof.
  intros A search cnt order. induction order as [|i rest IH]; intros stats Nd Z S.
  - exists stats. repeat split; auto. intros i [].
  - inversion Nd as [|x l Hi Nd']; subst. cbn [stats_loop]. rewrite (proj2 (rd_ok _ _ _ _) (Z i (or_introl eq_refl))). cbn [bind].
    destruct (S i (or_introl eq_refl)) as [a Ea]. rewrite Ea. cbn [bind snd].
    assert (Li : (i < length stats)%nat) by (apply nth_error_Some; rewrite (Z i (or_introl eq_refl)); discriminate).
    destruct (wr_nth _ stats i (cnt i) Li) as [st' [Ew [Lw Nw]]]. rewrite Ew. cbn [bind].
    destruct (IH st' Nd') as [st2 [E2 [L2 [I2 O2]]]].
    + intros j Hj. rewrite Nw. destruct (Nat.eq_dec j i) as [->|]; [contradiction|]. apply Z; now right.
    + intros j Hj. apply S; now right.
    + exists st2. split; [exact E2|]. split; [congruence|]. split.
      * intros j [<-|Hj]; [|auto]. rewrite O2 by assumption. rewrite Nw. destruct (Nat.eq_dec i i); congruence.
      * intros j Hj. rewrite O2 by (intro; apply Hj; now right). rewrite Nw. destruct (Nat.eq_dec j i) as [->|]; [exfalso; apply Hj; now left|reflexivity].
Qed.

Lemma nth_error_all : forall (A : Type) (l m : list A), (forall i, nth_error l i = nth_error m i) -> l = m.
Proof.
  induction l as [|x l IH]; intros [|y m] H; [reflexivity|specialize (H 0%nat); discriminate|specialize (H 0%nat); discriminate|].
  pose proof (H 0%nat) as H0. cbn in H0. injection H0 as ->. f_equal. apply IH. intros i. exact (H (S i)).
Qed.

Lemma loop_all : forall (A : Type) (search : nat -> counters -> res (A * counters)) counts nq order, length counts = nq ->
  Permutation order (seq 0 nq) -> (forall i c, nth_error counts i = Some c -> exists a, search i (Some (0, 0)%nat) = Ok (a, Some c)) ->
  stats_loop search order (repeat (0, 0)%nat nq) = Ok counts.
Proof.
  intros A search counts nq order Lc P S.
  assert (Hin : forall i, In i order <-> (i < nq)%nat). { intros i. split; intros H. - apply (Permutation_in _ P) in H. apply in_seq in H. lia. - apply (Permutation_in _ (Permutation_sym P)). apply in_seq. lia. }
  destruct (loop_slots A search (fun i => nth i counts (0, 0)%nat) order (repeat (0, 0)%nat nq)) as [st [E [L [I O]]]].
  - apply (Permutation_NoDup (Permutation_sym P)). apply seq_NoDup.
  - intros i Hi. apply Hin in Hi. rewrite (nth_error_nth' _ (0, 0)%nat) by (rewrite repeat_length; exact Hi). f_equal. apply nth_repeat.
  - intros i Hi. apply Hin in Hi. apply S. apply nth_error_nth'. lia.
  - rewrite E. f_equal. rewrite repeat_length in L. apply nth_error_all. intros i. destruct (Nat.lt_ge_cases i nq) as [Hi|Hi].
    + rewrite (I i (proj2 (Hin i) Hi)). symmetry. apply nth_error_nth'. lia.
    + rewrite (proj2 (nth_error_None st i)), (proj2 (nth_error_None counts i)) by lia. reflexivity.
Qed.

(** ** Means *)
Lemma counts_held : forall ks, (forall k, In k ks -> (Z.of_nat k <= 2 ^ 53)%Z) -> holds_counts (map f64_of_nat ks) ks.
Proof.
  induction ks as [|k ks IH]; intros H; constructor; [apply of_nat64, H; now left|]. apply IH. intros x Hx. apply H; now right.
Qed.
Lemma sum_item : forall ks k, In k ks -> (k <= list_sum ks)%nat.
Proof. unfold list_sum; induction ks as [|x ks IH]; intros k []; cbn; [lia|apply IH in H; lia]. Qed.

(** The mean as the program rounds it. *)
Definition mean_value (ks : list nat) : R := rnd (rnd64 (INR (list_sum ks) / INR (length ks))).

Lemma mean_range : forall ks, (1 <= length ks)%nat -> (Z.of_nat (length ks) <= 2 ^ 32)%Z -> (Z.of_nat (list_sum ks) <= 2 ^ 53)%Z ->
  let q := INR (list_sum ks) / INR (length ks) in 0 <= q <= 9007199254740992 /\ (q = 0 \/ / 4294967296 <= q).
Proof.
  intros ks L1 L2 B q. pose proof (INR_pos _ L1) as N1. assert (N2 : INR (length ks) <= 4294967296) by (rewrite INR_IZR_INZ; apply IZR_le in L2; exact L2).
  pose proof (pos_INR (list_sum ks)) as S0. assert (S1 : INR (list_sum ks) <= 9007199254740992) by (rewrite INR_IZR_INZ; apply IZR_le in B; exact B).
  assert (D : q * INR (length ks) = INR (list_sum ks)) by (unfold q; field; lra).
  assert (Z : INR (list_sum ks) = 0 \/ 1 <= INR (list_sum ks)). { destruct (Nat.eq_dec (list_sum ks) 0) as [->|X]; [left; reflexivity|right; apply INR_pos; lia]. }
  clearbody q. set (s := INR (list_sum ks)) in *. set (n := INR (length ks)) in *. clearbody s n. clear -D N1 N2 S0 S1 Z.
  split; [split; [destruct (Rle_lt_dec 0 q); [auto|nra]|destruct (Rle_lt_dec q 9007199254740992); [auto|nra]]|].
  destruct Z as [Z|Z]; [left|right]. - assert (q * n = 0) by lra. apply Rmult_integral in H. destruct H; [auto|lra]. - destruct (Rle_lt_dec (/ 4294967296) q); [auto|nra].
Qed.

Lemma rnd64_big : forall x, 0 <= x <= 9007199254740992 -> Rabs (rnd64 x) <= 9007199254740992.
Proof.
  intros x H. rewrite Rabs_pos_eq. - rewrite <- (proj1 (int64_rnd (2 ^ 53) ltac:(lia))) at 1. apply rnd64_le. change (IZR (2 ^ 53)) with 9007199254740992. lra.
  - rewrite <- rnd64_0. apply rnd64_le. lra.
Qed.
Lemma bpow_big : 9007199254740992 <= bpow radix2 127.
Proof. change 9007199254740992 with (bpow radix2 53). apply bpow_le. lia. Qed.

Lemma mean_column : forall t ks, Permutation (red_items t) (seq 0 (length ks)) -> (1 <= length ks)%nat -> (Z.of_nat (length ks) <= 2 ^ 32)%Z -> (Z.of_nat (list_sum ks) <= 2 ^ 53)%Z ->
  exists x, get_mean_stats t (map f64_of_nat ks) = Ok x /\ finite (f32_of_f64 x) /\ real (f32_of_f64 x) = mean_value ks.
Proof.
  intros t ks P L1 L2 B. assert (H : holds_counts (map f64_of_nat ks) ks) by (apply counts_held; intros k Hk; apply sum_item in Hk; lia).
  assert (E : list_sum (map (fun i => nth i ks 0%nat) (red_items t)) = list_sum ks) by (rewrite (list_sum_perm _ _ (Permutation_map (fun i => nth i ks 0%nat) P)), map_nth_id; reflexivity).
  assert (Lm : length (map f64_of_nat ks) = length ks) by apply map_length.
  destruct (sum_exact (map f64_of_nat ks) ks t H) as [s [Es [Fs [Vs Rs]]]]; [intros i Hi; apply (Permutation_in _ P) in Hi; apply in_seq in Hi; rewrite Lm; lia|rewrite E; exact B|]. rewrite E in Rs.
  unfold get_mean_stats. rewrite Es, Lm. cbn [bind]. eexists. split; [reflexivity|]. destruct (of_nat64 (length ks)) as [Fn [Vn Rn]]; [lia|].
  destruct (mean_range ks L1 L2 B) as [Q _]. pose proof (INR_pos _ L1) as N1. pose proof bpow_big as BB.
  assert (Bq : Rabs (rnd64 (INR (list_sum ks) / INR (length ks))) <= 9007199254740992) by now apply rnd64_big.
  assert (F : finite (f64_div s (f64_of_nat (length ks)))). { apply ddiv_fin; auto; [lra|]. rewrite Rs, Rn. apply Rle_lt_trans with (1 := Bq). apply Rle_lt_trans with (1 := BB). apply bpow_lt. lia. }
  destruct (ddiv_rnd s (f64_of_nat (length ks)) Vs Vn) as [_ R]; [lra|exact F|]. rewrite Rs, Rn in R.
  destruct (f32_of_f64_real (f64_div s (f64_of_nat (length ks))) F) as [F2 [_ R2]]; [rewrite R; lra|]. split; [exact F2|]. rewrite R2, R. reflexivity.
Qed.

Lemma mean_shown : forall x ks, (1 <= length ks)%nat -> (Z.of_nat (length ks) <= 2 ^ 32)%Z -> (Z.of_nat (list_sum ks) <= 2 ^ 53)%Z ->
  finite x -> real x = mean_value ks -> shows_mean x ks.
Proof.
  intros x ks L1 L2 B F R. split; [exact F|]. rewrite R. unfold mean_value. destruct (mean_range ks L1 L2 B) as [Q Z]. set (q := INR (list_sum ks) / INR (length ks)) in *. clearbody q.
  replace (powerRZ 2 (-23)) with (2 * ulp) by (transitivity (bpow radix2 (-23)); [unfold ulp; change 2 with (IZR radix2) at 2; rewrite <- bpow_powerRZ; change (bpow radix2 (-24)) with (/ 16777216); change (bpow radix2 (-23)) with (/ 8388608); lra|rewrite bpow_powerRZ; reflexivity]).
  destruct Z as [->|Z]. - rewrite rnd64_0, rnd_0. rewrite Rminus_0_r, Rabs_R0. lra.
  - destruct (rnd64_rel q) as [d [Hd Ed]]; [right; rewrite Rabs_pos_eq by lra; apply Rle_trans with (bpow radix2 (-32)); [apply bpow_le; lia|change (bpow radix2 (-32)) with (/ 4294967296); lra]|].
    pose proof ulp64_val as U. assert (U' : ulp64 <= ulp / 1000) by (rewrite ulp64_bpow; unfold ulp; change 2 with (IZR radix2); rewrite <- bpow_powerRZ; change (bpow radix2 (-53)) with (/ 9007199254740992); change (bpow radix2 (-24)) with (/ 16777216); lra).
    pose proof ulp_val as V. apply Raux.Rabs_le_inv in Hd. rewrite Ed.
    destruct (rnd_normal (q * (1 + d))) as [e [He Ee]].
    { rewrite Rabs_pos_eq by nra. apply Rle_trans with (bpow radix2 (-40)); [apply bpow_le; lia|]. change (bpow radix2 (-40)) with (/ 1099511627776). nra. }
    rewrite Ee. apply Raux.Rabs_le_inv in He. replace (q * (1 + d) * (1 + e) - q) with (q * (d + e + d * e)) by ring. rewrite Rabs_mult, (Rabs_pos_eq q), Rmult_comm by lra.
    apply Rmult_le_compat_r; [lra|]. apply Rabs_le. nra.
Qed.

Lemma mean_le : forall ks ks', length ks = length ks' -> (1 <= length ks)%nat -> (list_sum ks <= list_sum ks')%nat -> mean_value ks <= mean_value ks'.
Proof.
  intros ks ks' L L1 H. unfold mean_value. apply rnd_le, rnd64_le. rewrite <- L. pose proof (INR_pos _ L1). apply Rmult_le_compat_r; [left; apply Rinv_0_lt_compat; lra|]. apply le_INR, H.
Qed.
Lemma list_sum_repeat : forall n v, list_sum (repeat v n) = (n * v)%nat.
Proof. unfold list_sum; induction n as [|n IH]; intros v; cbn; [reflexivity|rewrite IH; lia]. Qed.
Lemma mean_const : forall n v, (1 <= n)%nat -> (Z.of_nat v <= 2 ^ 24)%Z -> mean_value (repeat v n) = INR v.
Proof.
  intros n v Hn Hv. unfold mean_value. rewrite list_sum_repeat, repeat_length, mult_INR. pose proof (INR_pos _ Hn). replace (INR n * INR v / INR n) with (INR v) by (field; lra).
  rewrite INR_IZR_INZ. rewrite (proj1 (int64_rnd (Z.of_nat v) ltac:(lia))). apply (int_rnd (Z.of_nat v)). lia.
Qed.

(** ** Percentiles *)
Lemma ltb_counts : forall a b, (Z.of_nat a <= 2 ^ 53)%Z -> (Z.of_nat b <= 2 ^ 53)%Z -> SFltb (f64_of_nat a) (f64_of_nat b) = (a <? b)%nat.
Proof.
  intros a b Ha Hb. destruct (of_nat64 a Ha) as [Fa [Va Ra]]. destruct (of_nat64 b Hb) as [Fb [Vb Rb]]. pose proof (dlt_real _ _ Va Vb Fa Fb) as H. rewrite Ra, Rb in H.
  destruct (a <? b)%nat eqn:E. - apply H, lt_INR, Nat.ltb_lt, E. - apply Nat.ltb_ge in E. apply le_INR in E. destruct (SFltb (f64_of_nat a) (f64_of_nat b)); [|reflexivity]. destruct H as [H _]. specialize (H eq_refl). lra.
Qed.
Lemma filter_len_ext : forall (A : Type) (f g : A -> bool) l, (forall x, In x l -> f x = g x) -> length (filter f l) = length (filter g l).
Proof. intros A f g l H. f_equal. now apply filter_ext_in. Qed.

Lemma ranked_counts : forall ks x k, (forall k, In k ks -> (Z.of_nat k <= 2 ^ 53)%Z) -> ranked SFltb (map f64_of_nat ks) x k -> exists v, x = f64_of_nat v /\ ranked Nat.ltb ks v k.
Proof.
  intros ks x k B [I H]. apply in_map_iff in I. destruct I as [v [<- Iv]]. exists v. split; [reflexivity|]. split; [exact Iv|]. rewrite !filter_map_len in H.
  rewrite (filter_len_ext _ (fun y => SFltb (f64_of_nat y) (f64_of_nat v)) (fun y => (y <? v)%nat)) in H by (intros y Hy; apply ltb_counts; auto).
  rewrite (filter_len_ext _ (fun y => negb (SFltb (f64_of_nat v) (f64_of_nat y))) (fun y => negb (v <? y)%nat)) in H by (intros y Hy; f_equal; apply ltb_counts; auto). exact H.
Qed.

(** The rank depends on the number of queries only. *)
Lemma rank_999 : forall n, (1 <= n)%nat -> (Z.of_nat n <= 2 ^ 32)%Z -> exists k, (k < n)%nat /\ Rabs (INR k - 0.999 * INR n) <= 1 + powerRZ 2 (-21) * INR n /\ to_u64 (fmul p999_f32 (f32_of_Z (Z.of_nat n))) = Ok (N.of_nat k) /\
  forall sortd ks, length ks = n -> (forall k, In k ks -> (Z.of_nat k <= 2 ^ 53)%Z) -> sorts_doubles sortd ->
    exists x v, get_percentile_stats sortd p999_f32 (map f64_of_nat ks) = Ok x /\ ranked Nat.ltb ks v k /\ finite (f32_of_f64 x) /\ real (f32_of_f64 x) = rnd (INR v).
Proof.
  intros n L1 L2. destruct p999_f32_real as [V [F [P A]]]. rewrite ulp_pow in P. set (z := Z.of_nat n) in *. pose proof ulp_val as [U1 U2]. pose proof tiny_small as T.
  destruct (scaled_len p999_f32 z V F ltac:(lra) ltac:(lia)) as [Fx [Px Bx]]. assert (A1 : 1 <= IZR z) by (apply IZR_le; lia). set (x := fmul p999_f32 (f32_of_Z z)) in *.
  apply Raux.Rabs_le_inv in Bx. assert (Pn : 0 <= real p999_f32 * IZR z <= (1 - 4 * ulp) * IZR z) by (split; [apply Rmult_le_pos; lra|apply Rmult_le_compat_r; lra]).
  assert (Lt : real x < IZR z).
  { set (y := real p999_f32 * IZR z) in *. clearbody y. assert (2.1 * ulp * y <= 2.1 * ulp * IZR z) by (apply Rmult_le_compat_l; [lra|]; apply Rle_trans with (1 := proj2 Pn); nra). nra. }
  destruct (to_u64_real x z Fx (conj Px Lt)) as [k [Ek [Lk [B C]]]]; [lia|]. exists (N.to_nat k). split; [lia|].
  rewrite <- (N2Nat.id k), nat_N_Z, <- INR_IZR_INZ in B, C. split.
  - replace (INR n) with (IZR z) by (unfold z; now rewrite <- INR_IZR_INZ). change (powerRZ 2 (-24)) with ulp in A.
    replace (powerRZ 2 (-21)) with (8 * ulp). 2:{ transitivity (bpow radix2 (-21)); [unfold ulp; change 2 with (IZR radix2); rewrite <- bpow_powerRZ; change (bpow radix2 (-24)) with (/ 16777216); change (bpow radix2 (-21)) with (/ 2097152); lra|rewrite bpow_powerRZ; reflexivity]. }
    apply Raux.Rabs_le_inv in A. set (p := real p999_f32) in *. assert (Y : (0.999 - ulp) * IZR z <= p * IZR z <= (0.999 + ulp) * IZR z) by (split; apply Rmult_le_compat_r; lra).
    set (y := p * IZR z) in *. clearbody y. assert (2.1 * ulp * y <= 2.1 * ulp * IZR z) by (apply Rmult_le_compat_l; [lra|]; apply Rle_trans with (1 := proj2 Pn); nra).
    clear -B C Y H Bx T U1 U2 A1. apply Rabs_le. nra.
  - split; [fold z; fold x; rewrite N2Nat.id; exact Ek|]. intros sortd ks Lks Bk S. assert (Sd : sorts_as SFltb sortd (map f64_of_nat ks)). { apply S. intros y Hy. apply in_map_iff in Hy. destruct Hy as [m [<- Hm]]. destruct (of_nat64 m (Bk m Hm)) as [Q1 [Q2 _]]. split; [exact Q1|exact Q2]. }
    pose proof (Permutation_length (proj1 Sd)) as PL. rewrite map_length in PL. destruct (rd_lt _ (sortd (map f64_of_nat ks)) (N.to_nat k)) as [v Ev]; [unfold z in *; lia|].
    destruct (ranked_counts ks v (N.to_nat k) Bk) as [w [Ew Rw]]; [apply (sorted_rank _ SFltb sortd); [exact SFltb_irr|exact Sd|now apply rd_ok]|]. exists v, w.
    split; [unfold get_percentile_stats; rewrite map_length, Lks; fold z; fold x; rewrite Ek; cbn [bind]; exact Ev|]. split; [exact Rw|].
    assert (Bw : (Z.of_nat w <= 2 ^ 53)%Z) by (apply Bk, Rw). destruct (of_nat64 w Bw) as [Fw [Vw Rr]]. rewrite Ew.
    destruct (f32_of_f64_real (f64_of_nat w) Fw) as [F2 [_ R2]]; [|split; [exact F2|rewrite R2, Rr; reflexivity]].
    rewrite Rr, Rabs_pos_eq by apply pos_INR. apply Rle_trans with (2 := bpow_big). rewrite INR_IZR_INZ. apply IZR_le in Bw. exact Bw.
Qed.

Lemma rank_shown : forall x ks v k, (1 <= length ks)%nat -> ranked Nat.ltb ks v k -> Rabs (INR k - 0.999 * INR (length ks)) <= 1 + powerRZ 2 (-21) * INR (length ks) ->
  finite x -> real x = rnd (INR v) -> shows_999 x ks.
Proof.
  intros x ks v k L1 Rk Hk F R. split; [exact F|]. exists v, k. split; [exact Rk|]. split; [exact Hk|]. split.
  - rewrite R. change (powerRZ 2 (-24)) with ulp. destruct (Nat.eq_dec v 0) as [->|Nz]; [cbn [INR]; rewrite rnd_0, Rminus_0_r, Rabs_R0; lra|].
    assert (V : 1 <= INR v) by (apply INR_pos; lia). destruct (rnd_normal (INR v)) as [d [Hd Ed]]; [rewrite Rabs_pos_eq by lra; apply Rle_trans with (bpow radix2 0); [apply bpow_le; lia|exact V]|].
    rewrite Ed. replace (INR v * (1 + d) - INR v) with (d * INR v) by ring. rewrite Rabs_mult, (Rabs_pos_eq (INR v)) by lra. apply Rmult_le_compat_r; lra.
  - intros Hv. rewrite R, INR_IZR_INZ. apply (int_rnd (Z.of_nat v)). lia.
Qed.

(** The element of one rank grows with the elements. *)
Lemma filter_grow : forall (A B : Type) (Q : A -> B -> Prop) (f : A -> bool) (g : B -> bool) l m, Forall2 Q l m -> (forall x y, Q x y -> g y = true -> f x = true) -> (length (filter g m) <= length (filter f l))%nat.
Proof.
  intros A B Q f g l m H Hq. induction H as [|x y l m Hxy H IH]; [cbn; lia|]. cbn [filter]. destruct (g y) eqn:E. - rewrite (Hq x y Hxy E). cbn [length]. lia. - destruct (f x); cbn [length]; lia.
Qed.
Lemma ranked_grow : forall (f : nat -> nat) ks ks' v v' k, (forall x y, (x <= y -> f x <= f y)%nat) -> Forall2 (fun x y => (x <= f y)%nat) ks ks' -> ranked Nat.ltb ks v k -> ranked Nat.ltb ks' v' k -> (v <= f v')%nat.
Proof.
  intros f ks ks' v v' k M H [_ [A _]] [_ [_ B]]. destruct (le_lt_dec v (f v')) as [?|Lt]; [auto|exfalso].
  pose proof (filter_grow _ _ (fun x y => (x <= f y)%nat) (fun x => (x <? v)%nat) (fun y => negb (v' <? y)%nat) ks ks' H) as G.
  specialize (G ltac:(intros x y Hxy Hy; apply negb_true_iff, Nat.ltb_ge in Hy; apply Nat.ltb_lt; cbv beta in Hxy; specialize (M y v' Hy); lia)). lia.
Qed.
Lemma ranked_le : forall ks ks' v v' k, Forall2 le ks ks' -> ranked Nat.ltb ks v k -> ranked Nat.ltb ks' v' k -> (v <= v')%nat.
Proof.
  intros ks ks' v v' k H [_ [A _]] [_ [_ B]]. destruct (le_lt_dec v v') as [?|Lt]; [auto|exfalso].
  pose proof (filter_grow _ _ le (fun x => (x <? v)%nat) (fun y => negb (v' <? y)%nat) ks ks' H) as G.
  specialize (G ltac:(intros x y Hxy Hy; apply negb_true_iff, Nat.ltb_ge in Hy; apply Nat.ltb_lt; lia)). lia.
Qed.

(** ** The row *)
Lemma row_ok : forall n, (1 <= n)%nat -> (Z.of_nat n <= 2 ^ 32)%Z -> exists k, (k < n)%nat /\ Rabs (INR k - 0.999 * INR n) <= 1 + powerRZ 2 (-21) * INR n /\ to_u64 (fmul p999_f32 (f32_of_Z (Z.of_nat n))) = Ok (N.of_nat k) /\
  forall sortd tc th stats, sorts_doubles sortd -> length stats = n -> Permutation (red_items tc) (seq 0 n) -> Permutation (red_items th) (seq 0 n) ->
    (Z.of_nat (list_sum (map fst stats)) <= 2 ^ 53)%Z -> (Z.of_nat (list_sum (map snd stats)) <= 2 ^ 53)%Z ->
    exists r vc vh, row_of sortd tc th stats = Ok r /\
      finite (mean_cmps r) /\ real (mean_cmps r) = mean_value (map snd stats) /\ finite (mean_hops r) /\ real (mean_hops r) = mean_value (map fst stats) /\
      finite (cmps_999 r) /\ real (cmps_999 r) = rnd (INR vc) /\ ranked Nat.ltb (map snd stats) vc k /\
      finite (hops_999 r) /\ real (hops_999 r) = rnd (INR vh) /\ ranked Nat.ltb (map fst stats) vh k.
Proof.
  intros n L1 L2. destruct (rank_999 n L1 L2) as [k [Lk [Hk [Tk H]]]]. exists k. split; [exact Lk|]. split; [exact Hk|]. split; [exact Tk|].
  intros sortd tc th stats S Ls Pc Ph Bh Bc. unfold row_of.
  replace (map (fun s => f64_of_nat (snd s)) stats) with (map f64_of_nat (map snd stats)) by apply map_map. replace (map (fun s => f64_of_nat (fst s)) stats) with (map f64_of_nat (map fst stats)) by apply map_map.
  assert (Lc : length (map snd stats) = n) by (now rewrite map_length). assert (Lh : length (map fst stats) = n) by (now rewrite map_length).
  destruct (mean_column tc (map snd stats)) as [mc [Emc [Fmc Rmc]]]; [now rewrite Lc|now rewrite Lc|now rewrite Lc|exact Bc|].
  destruct (mean_column th (map fst stats)) as [mh [Emh [Fmh Rmh]]]; [now rewrite Lh|now rewrite Lh|now rewrite Lh|exact Bh|].
  destruct (H sortd (map snd stats) Lc) as [pc [vc [Epc [Kc [Fpc Rpc]]]]]; [intros x Hx; apply sum_item in Hx; lia|exact S|].
  destruct (H sortd (map fst stats) Lh) as [ph [vh [Eph [Kh [Fph Rph]]]]]; [intros x Hx; apply sum_item in Hx; lia|exact S|].
  rewrite Emc, Emh, Epc, Eph. cbn [bind]. eexists. exists vc, vh. split; [reflexivity|]. cbn [mean_cmps mean_hops cmps_999 hops_999]. auto 15.
Qed.
