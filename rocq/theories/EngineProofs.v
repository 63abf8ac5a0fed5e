(** The multiplicative generator: powers of 16807 modulo 2^31 - 1. *)
From Coq Require Import ZArith Znumtheory Zpow_facts Lia List Arith Bool.
Import ListNotations.
Local Open Scope Z_scope.

(** ** The order of a number *)
Lemma pow_mod_mult : forall a m d k, 1 < m -> 0 <= d -> 0 <= k -> a ^ d mod m = 1 -> a ^ (d * k) mod m = 1.
Proof.
  intros a m d k Hm Hd Hk H. rewrite Z.pow_mul_r by lia. rewrite Zpower_mod by lia. rewrite H, Z.pow_1_l by lia. apply Z.mod_1_l. lia.
Qed.
Lemma pow_mod_rem : forall a m d k, 1 < m -> 0 < d -> 0 <= k -> a ^ d mod m = 1 -> a ^ (k mod d) mod m = a ^ k mod m.
Proof.
  intros a m d k Hm Hd Hk H. rewrite (Z.div_mod k d) at 2 by lia. rewrite Z.pow_add_r; try (apply Z.mod_pos_bound; lia).
  - rewrite Z.mul_mod by lia. rewrite (pow_mod_mult a m d (k / d)); auto; try lia. 2: apply Z.div_pos; lia. rewrite Z.mul_1_l, Z.mod_mod by lia. reflexivity.
  - apply Z.mul_nonneg_nonneg; [lia | apply Z.div_pos; lia].
Qed.

Lemma least : forall (P : Z -> bool) k, 0 < k -> P k = true -> exists d, 0 < d <= k /\ P d = true /\ forall e, 0 < e < d -> P e = false.
Proof.
  intros P k. assert (forall n, forall k, (Z.to_nat k <= n)%nat -> 0 < k -> P k = true -> exists d, 0 < d <= k /\ P d = true /\ forall e, 0 < e < d -> P e = false) as H.
  { induction n as [|n IH]; intros j Hn Hj H; [lia|].
    destruct (existsb (fun e => P (Z.of_nat e)) (seq 1 (Z.to_nat j - 1))) eqn:X.
    - apply existsb_exists in X as (e & I & He). apply in_seq in I. destruct (IH (Z.of_nat e) ltac:(lia) ltac:(lia) He) as (d & A & B & C). exists d. split; [lia|]. auto.
    - exists j. split; [lia|]. split; [exact H|]. intros e He. destruct (P e) eqn:Pe; [|reflexivity]. exfalso.
      assert (existsb (fun e => P (Z.of_nat e)) (seq 1 (Z.to_nat j - 1)) = true) as Y; [|congruence].
      apply existsb_exists. exists (Z.to_nat e). split; [apply in_seq; lia|]. now rewrite Z2Nat.id by lia. }
  intros. eapply H; eauto.
Qed.

Lemma prime_factor : forall n, 1 < n -> exists q, prime q /\ (q | n).
Proof.
  intros n. assert (forall k n, (Z.to_nat n <= k)%nat -> 1 < n -> exists q, prime q /\ (q | n)) as H.
  { induction k as [|k IH]; intros j Hj H; [lia|]. destruct (prime_dec j) as [P|P]; [exists j; split; [exact P | apply Z.divide_refl]|].
    destruct (not_prime_divide j H P) as (e & He & D). destruct (IH e ltac:(lia) ltac:(lia)) as (q & Q & Dq). exists q. split; [exact Q | eapply Z.divide_trans; eauto]. }
  intros. eapply H; eauto.
Qed.

(** A prime that divides the product of a list divides one of its members. *)
Lemma prime_list : forall q fs, prime q -> (q | fold_right Z.mul 1 fs) -> exists f, In f fs /\ (q | f).
Proof.
  intros q fs Q. induction fs as [|f fs IH]; cbn; intros D.
  - exfalso. destruct Q as [Q _]. apply Z.divide_1_r_nonneg in D; lia.
  - apply prime_mult in D; [|exact Q]. destruct D as [D|D]; [exists f; auto|]. destruct (IH D) as (g & I & G). exists g; auto.
Qed.

(** No smaller power is 1, if no power n/q is 1 for the divisors q of the factors of n. *)
Lemma full_order : forall a m n fs, 1 < m -> 0 < n -> a ^ n mod m = 1 -> fold_right Z.mul 1 fs = n ->
  (forall f q, In f fs -> 1 < q -> (q | f) -> a ^ (n / q) mod m <> 1) ->
  forall k, 0 < k < n -> a ^ k mod m <> 1.
Proof.
  intros a m n fs Hm Hn H1 HF HQ k Hk HK.
  destruct (least (fun d => a ^ d mod m =? 1) k ltac:(lia) (proj2 (Z.eqb_eq _ _) HK)) as (d & Hd & D1 & DL). apply Z.eqb_eq in D1.
  assert (n mod d = 0) as R.
  { destruct (Z.eq_dec (n mod d) 0) as [|X]; [assumption|]. exfalso. pose proof (Z.mod_pos_bound n d ltac:(lia)) as B.
    specialize (DL (n mod d) ltac:(lia)). apply Z.eqb_neq in DL. apply DL. rewrite pow_mod_rem; auto; lia. }
  apply Z.mod_divide in R; [|lia]. destruct R as [e E].
  assert (1 < e) as He by nia. destruct (prime_factor e He) as (q & Q & Dq).
  assert (q | n) as Dn by (rewrite E; now apply Z.divide_mul_l). rewrite <- HF in Dn. destruct (prime_list q fs Q Dn) as (f & I & Df).
  assert (1 < q) as Hq by (destruct Q; lia). apply (HQ f q I Hq Df).
  destruct Dq as [r Er]. replace (n / q) with (d * r).
  - apply pow_mod_mult; auto; nia.
  - rewrite E, Er. replace (r * q * d) with (d * r * q) by ring. now rewrite Z.div_mul by lia.
Qed.

(** Then the powers reach every number from 1 to m - 1. *)
Lemma pow_inj : forall a m n i j, 1 < m -> a ^ n mod m = 1 -> (forall k, 0 < k < n -> a ^ k mod m <> 1) -> 0 <= i -> i < j -> j < n -> a ^ i mod m <> a ^ j mod m.
Proof.
  intros a m n i j Hm H1 HK Hi Hij Hj E. apply (HK (j - i) ltac:(lia)).
  (* multiply by a^(n-i) *)
  assert (a ^ (n - i) * a ^ i mod m = 1) as A by (rewrite <- Z.pow_add_r by lia; now replace (n - i + i) with n by lia).
  assert (a ^ (n - i) * a ^ j mod m = a ^ (j - i) mod m) as B.
  { rewrite <- Z.pow_add_r by lia. replace (n - i + j) with (n + (j - i)) by lia. rewrite Z.pow_add_r by lia. rewrite Z.mul_mod, H1, Z.mul_1_l, Z.mod_mod by lia. reflexivity. }
  rewrite <- B. rewrite Z.mul_mod, <- E, <- Z.mul_mod by lia. exact A.
Qed.
Lemma pow_nonzero : forall a m n i, 1 < m -> a ^ n mod m = 1 -> 0 <= i <= n -> a ^ i mod m <> 0.
Proof.
  intros a m n i Hm H1 Hi E. assert (a ^ (n - i) * a ^ i mod m = 1) as A by (rewrite <- Z.pow_add_r by lia; now replace (n - i + i) with n by lia).
  rewrite Z.mul_mod, E, Z.mul_0_r, Z.mod_0_l in A by lia. lia.
Qed.
Lemma cover : forall a m n, 1 < m -> n = m - 1 -> a ^ n mod m = 1 -> (forall k, 0 < k < n -> a ^ k mod m <> 1) ->
  forall s, 1 <= s < m -> exists j, 0 <= j < n /\ a ^ j mod m = s.
Proof.
  intros a m n Hm En H1 HK s Hs.
  set (l := map (fun i => a ^ Z.of_nat i mod m) (seq 0 (Z.to_nat n))). set (l' := map Z.of_nat (seq 1 (Z.to_nat n))).
  assert (incl l l') as I.
  { intros x Hx. apply in_map_iff in Hx as (i & Ei & Ii). apply in_seq in Ii. apply in_map_iff. exists (Z.to_nat x).
    assert (0 <= x < m) as B by (subst x; apply Z.mod_pos_bound; lia).
    assert (x <> 0) as X by (subst x; apply (pow_nonzero a m n); auto; lia).
    split; [lia|]. apply in_seq. lia. }
  assert (NoDup l) as ND.
  { assert (forall t b, (b + t <= Z.to_nat n)%nat -> NoDup (map (fun i => a ^ Z.of_nat i mod m) (seq b t))) as K.
    { induction t as [|t IH]; intros b Hb; cbn; constructor.
      - intros Hx. apply in_map_iff in Hx as (i & Ei & Ii). apply in_seq in Ii. symmetry in Ei. revert Ei. apply (pow_inj a m n); auto; lia.
      - apply IH. lia. }
    apply K. lia. }
  assert (incl l' l) as J. { apply NoDup_length_incl; auto. unfold l, l'. rewrite !map_length, !seq_length. lia. }
  assert (In s l') as Is. { apply in_map_iff. exists (Z.to_nat s). split; [lia|]. apply in_seq. lia. }
  apply J in Is. apply in_map_iff in Is as (i & Ei & Ii). apply in_seq in Ii. exists (Z.of_nat i). split; [lia | exact Ei].
Qed.

(** ** 16807 modulo 2^31 - 1 *)
Definition lcg_m : Z := 2147483647.
Definition lcg_factors : list Z := [2; 3; 3; 7; 11; 31; 151; 331].
Lemma lcg_one : 16807 ^ 2147483646 mod lcg_m = 1.
Proof. rewrite <- (Zpow_mod_correct 16807 2147483646 lcg_m ltac:(discriminate)); vm_compute; reflexivity. Qed.
Lemma lcg_check : forallb (fun q => if existsb (fun f => f mod q =? 0) lcg_factors then negb (Zpow_mod 16807 (2147483646 / q) lcg_m =? 1) else true) (map Z.of_nat (seq 2 330)) = true.
Proof. vm_compute. reflexivity. Qed.
Lemma lcg_order : forall k, 0 < k < 2147483646 -> 16807 ^ k mod lcg_m <> 1.
Proof.
  apply (full_order 16807 lcg_m 2147483646 lcg_factors eq_refl eq_refl lcg_one eq_refl).
  - intros f q I Hq D. assert (q <= 331) as B. { assert (q <= f) by (apply Z.divide_pos_le; [|exact D]; cbn in I; lia). cbn in I. lia. }
    pose proof lcg_check as C. rewrite forallb_forall in C. specialize (C q). rewrite <- (Zpow_mod_correct 16807 (2147483646 / q) lcg_m ltac:(discriminate)).
    assert (In q (map Z.of_nat (seq 2 330))) as Iq. { apply in_map_iff. exists (Z.to_nat q). split; [lia|]. apply in_seq. lia. }
    specialize (C Iq). replace (existsb (fun f => f mod q =? 0) lcg_factors) with true in C.
    + apply negb_true_iff, Z.eqb_neq in C. exact C.
    + symmetry. apply existsb_exists. exists f. split; [exact I|]. apply Z.eqb_eq. apply Z.mod_divide; [lia | exact D].
Qed.
Lemma lcg_cover : forall s, 1 <= s < lcg_m -> exists j, 0 <= j < 2147483646 /\ 16807 ^ j mod lcg_m = s.
Proof. exact (cover 16807 lcg_m 2147483646 eq_refl eq_refl lcg_one lcg_order). Qed.
