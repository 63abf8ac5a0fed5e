(** Hyperplanes from the numbers of the engine. *)
From Coq Require Import NArith ZArith Reals Lra Lia List Arith Bool Floats.SpecFloat.
From Verif Require Import Base Float32 DivFacts FloatBits DistSpec RealSpec NormModel NormSpec RandModel RandSpec RandProofs RandDistModel RandDistSpec RandDistProofs3 RandDistProofs4 LshModel EngineProofs HyperModel HyperSpec HyperProofs.
Import ListNotations.
Local Open Scope nat_scope.

(** ** The engine *)
Lemma lcg_engine : forall s k, lcg_out s k = engine s k.
Proof.
  intros s k. unfold lcg_out, engine. change (lcg_seed s) with (start s).
  assert (H : forall j, Nat.iter j lcg_next (start s) = ((16807 ^ N.of_nat j * start s) mod modulus)%N \/ j = 0).
  { induction j as [|j [IH| ->]]; [now right | |].
    - left. cbn [Nat.iter nat_rect]. change (nat_rect _ (start s) (fun _ => lcg_next) j) with (Nat.iter j lcg_next (start s)). rewrite IH. unfold lcg_next. change 2147483647%N with modulus.
      rewrite N.mul_mod_idemp_r by discriminate. f_equal. rewrite Nat2N.inj_succ, N.pow_succ_r'. now rewrite N.mul_assoc.
    - left. reflexivity. }
  destruct (H (S k)) as [E|E]; [exact E | discriminate].
Qed.

Lemma start_range : forall s, (1 <= start s < modulus)%N.
Proof. intros s. unfold start. pose proof (N.mod_lt s modulus ltac:(discriminate)) as L. destruct (N.eqb_spec (s mod modulus) 0); [split; [lia | reflexivity] | lia]. Qed.

Lemma engine_Z : forall s k, Z.of_N (engine s k) = (16807 ^ Z.of_nat (S k) * Z.of_N (start s) mod lcg_m)%Z.
Proof.
  intros s k. unfold engine. rewrite N2Z.inj_mod, N2Z.inj_mul, N2Z.inj_pow, nat_N_Z. reflexivity.
Qed.
Lemma start_power : forall s, exists j, (0 <= j < 2147483646)%Z /\ Z.of_N (start s) = (16807 ^ j mod lcg_m)%Z.
Proof.
  intros s. pose proof (start_range s) as H. change modulus with 2147483647%N in H. destruct (lcg_cover (Z.of_N (start s))) as (j & Hj & E); [unfold lcg_m; lia|]. exists j. split; [exact Hj | now symmetry].
Qed.
Lemma engine_power : forall s j, (0 <= j)%Z -> Z.of_N (start s) = (16807 ^ j mod lcg_m)%Z -> forall k, Z.of_N (engine s k) = (16807 ^ (j + Z.of_nat (S k)) mod lcg_m)%Z.
Proof.
  intros s j Hj E k. rewrite engine_Z, E, Z.mul_mod_idemp_r by discriminate. rewrite <- Z.pow_add_r by lia. now rewrite Z.add_comm.
Qed.

Lemma power_range : forall k, (0 <= k)%Z -> (1 <= 16807 ^ k mod lcg_m < lcg_m)%Z.
Proof.
  intros k Hk. pose proof (Z.mod_pos_bound (16807 ^ k) lcg_m eq_refl) as B. rewrite <- (pow_mod_rem 16807 lcg_m 2147483646 k eq_refl eq_refl Hk lcg_one) in *.
  pose proof (Z.mod_pos_bound k 2147483646 eq_refl) as R.
  pose proof (pow_nonzero 16807 lcg_m 2147483646 (k mod 2147483646) eq_refl lcg_one ltac:(lia)) as Z. set (q := (16807 ^ (k mod 2147483646) mod lcg_m)%Z) in *. clearbody q. lia.
Qed.
Lemma engine_range : forall s k, (1 <= engine s k < modulus)%N.
Proof.
  intros s k. destruct (start_power s) as (j & Hj & E). pose proof (engine_power s j ltac:(lia) E k) as P. pose proof (power_range (j + Z.of_nat (S k)) ltac:(lia)) as B. rewrite <- P in B. unfold lcg_m in B. change modulus with 2147483647%N. lia.
Qed.

Lemma power_eq : forall i j, (0 <= i)%Z -> (0 <= j)%Z -> (16807 ^ i mod lcg_m = 16807 ^ j mod lcg_m)%Z -> (i mod 2147483646 = j mod 2147483646)%Z.
Proof.
  intros i j Hi Hj E. rewrite <- (pow_mod_rem 16807 lcg_m 2147483646 i eq_refl eq_refl Hi lcg_one), <- (pow_mod_rem 16807 lcg_m 2147483646 j eq_refl eq_refl Hj lcg_one) in E.
  pose proof (Z.mod_pos_bound i 2147483646 eq_refl) as A. pose proof (Z.mod_pos_bound j 2147483646 eq_refl) as B.
  set (a := (i mod 2147483646)%Z) in *. set (b := (j mod 2147483646)%Z) in *. clearbody a b.
  destruct (Z.lt_trichotomy a b) as [L|[L|L]]; [exfalso | exact L | exfalso].
  - exact (pow_inj 16807 lcg_m 2147483646 a b eq_refl lcg_one lcg_order (proj1 A) L (proj2 B) E).
  - symmetry in E. exact (pow_inj 16807 lcg_m 2147483646 b a eq_refl lcg_one lcg_order (proj1 B) L (proj2 A) E).
Qed.

(** Two places of the sequence hold the same number exactly when they are a multiple of 2^31 - 2 apart. *)
Lemma engine_same : forall s i k, engine s i = engine s k <-> (Z.of_nat i mod 2147483646 = Z.of_nat k mod 2147483646)%Z.
Proof.
  intros s i k. destruct (start_power s) as (j & Hj & E). pose proof (engine_power s j ltac:(lia) E i) as A. pose proof (engine_power s j ltac:(lia) E k) as B. split; intros H.
  - rewrite H in A. rewrite A in B. apply power_eq in B; [|clear - Hj; lia|clear - Hj; lia].
    assert (D : ((Z.of_nat i - Z.of_nat k) mod 2147483646 = 0)%Z). { replace (Z.of_nat i - Z.of_nat k)%Z with ((j + Z.of_nat (S i)) - (j + Z.of_nat (S k)))%Z by lia. rewrite Zminus_mod, B, Z.sub_diag. reflexivity. }
    clear - D. set (a := Z.of_nat i) in *. set (b := Z.of_nat k) in *. clearbody a b. replace a with (b + (a - b))%Z at 1 by ring. rewrite Zplus_mod, D, Z.add_0_r. now rewrite Z.mod_mod.
  - apply N2Z.inj. rewrite A, B. rewrite <- (pow_mod_rem 16807 lcg_m 2147483646 (j + Z.of_nat (S i)) eq_refl eq_refl ltac:(lia) lcg_one), <- (pow_mod_rem 16807 lcg_m 2147483646 (j + Z.of_nat (S k)) eq_refl eq_refl ltac:(lia) lcg_one).
    replace ((j + Z.of_nat (S i)) mod 2147483646)%Z with ((j + Z.of_nat (S k)) mod 2147483646)%Z; [reflexivity|].
    replace (j + Z.of_nat (S i))%Z with (j + 1 + Z.of_nat i)%Z by lia. replace (j + Z.of_nat (S k))%Z with (j + 1 + Z.of_nat k)%Z by lia. rewrite Zplus_mod, <- H, <- Zplus_mod. reflexivity.
Qed.
(** Every number from 1 to 2^31 - 2 comes, again and again. *)
Lemma engine_reaches : forall s x p, (1 <= x < modulus)%N -> exists i, p <= i /\ engine s i = x.
Proof.
  intros s x p Hx. destruct (start_power s) as (j & Hj & E). change modulus with 2147483647%N in Hx. destruct (lcg_cover (Z.of_N x)) as (e & He & Ee); [unfold lcg_m; lia|].
  (* i + 1 = e - j + t (2^31 - 2) *)
  exists (Z.to_nat (e - j - 1 + (Z.of_nat p + 2) * 2147483646)). split; [clear - Hj He; lia|]. apply N2Z.inj. rewrite (engine_power s j ltac:(lia) E).
  replace (j + Z.of_nat (S (Z.to_nat (e - j - 1 + (Z.of_nat p + 2) * 2147483646))))%Z with (e + (Z.of_nat p + 2) * 2147483646)%Z by (clear - Hj He; lia).
  rewrite <- (pow_mod_rem 16807 lcg_m 2147483646 (e + (Z.of_nat p + 2) * 2147483646) eq_refl eq_refl ltac:(clear - He; lia) lcg_one). rewrite Z.mod_add by discriminate. rewrite (Z.mod_small e 2147483646) by (clear - He; lia). exact Ee.
Qed.
Lemma engine_next : forall s i, engine s (S i) = ((16807 * engine s i) mod modulus)%N.
Proof. intros s i. rewrite <- !lcg_engine. reflexivity. Qed.
Lemma engine_differs : forall s t i, start s <> start t -> engine s i <> engine t i.
Proof.
  intros s t i N E. apply N. apply N2Z.inj. destruct (start_power s) as (j & Hj & Es). destruct (start_power t) as (k & Hk & Et).
  pose proof (engine_power s j ltac:(lia) Es i) as A. pose proof (engine_power t k ltac:(lia) Et i) as B. rewrite E in A. rewrite A in B. apply power_eq in B; [|clear - Hj; lia|clear - Hk; lia].
  rewrite Es, Et. replace j with k; [reflexivity|].
  assert (D : ((j - k) mod 2147483646 = 0)%Z). { replace (j - k)%Z with ((j + Z.of_nat (S i)) - (k + Z.of_nat (S i)))%Z by (clear; lia). rewrite Zminus_mod, B, Z.sub_diag. reflexivity. }
  apply Z.mod_divide in D; [|discriminate]. destruct D as [c Ec]. clear - Hj Hk Ec. assert (c = 0%Z) by lia. subst c. lia.
Qed.

(** ** Pairs that are kept come again and again *)
Definition kept (way : sum_way) (x : N) : bool := negb (rejected (polar_r2 way (hp_coord x) (hp_coord ((16807 * x) mod 2147483647)%N))).
Lemma kept_witness : forall way, kept way 1622650073 = true /\ kept way 984943658 = true.
Proof. intros []; split; vm_compute; reflexivity. Qed.
Lemma witness_power : (16807 ^ 3 mod lcg_m = 1622650073 /\ 16807 ^ 4 mod lcg_m = 984943658)%Z.
Proof. split; vm_compute; reflexivity. Qed.

Lemma pair_comes : forall way s p, exists i, p <= i /\ kept way (engine s (2 * i)) = true.
Proof.
  intros way s p. destruct (start_power s) as (j & Hj & E). destruct witness_power as (W3 & W4). destruct (kept_witness way) as (K3 & K4).
  set (P := (Z.of_nat p + 2)%Z). assert (HP : (2 <= P)%Z) by lia.
  destruct (Z.Even_or_Odd j) as [[h Eh]|[h Eh]].
  - (* 2i + 1 + j = 3 + 2 P (2^31-2) *)
    exists (Z.to_nat (1 - h + P * 2147483646)). split; [lia|].
    replace (engine s (2 * Z.to_nat (1 - h + P * 2147483646))) with 1622650073%N; [exact K3|]. apply N2Z.inj. rewrite (engine_power s j ltac:(lia) E).
    replace (j + Z.of_nat (S (2 * Z.to_nat (1 - h + P * 2147483646))))%Z with (3 + (2 * P) * 2147483646)%Z by lia.
    rewrite <- (pow_mod_rem 16807 lcg_m 2147483646 (3 + (2 * P) * 2147483646) eq_refl eq_refl ltac:(clear - HP; lia) lcg_one). rewrite Z.mod_add by discriminate. rewrite (Z.mod_small 3 2147483646) by (clear; lia). now rewrite W3.
  - exists (Z.to_nat (1 - h + P * 2147483646)). split; [lia|].
    replace (engine s (2 * Z.to_nat (1 - h + P * 2147483646))) with 984943658%N; [exact K4|]. apply N2Z.inj. rewrite (engine_power s j ltac:(lia) E).
    replace (j + Z.of_nat (S (2 * Z.to_nat (1 - h + P * 2147483646))))%Z with (4 + (2 * P) * 2147483646)%Z by lia.
    rewrite <- (pow_mod_rem 16807 lcg_m 2147483646 (4 + (2 * P) * 2147483646) eq_refl eq_refl ltac:(clear - HP; lia) lcg_one). rewrite Z.mod_add by discriminate. rewrite (Z.mod_small 4 2147483646) by (clear; lia). now rewrite W4.
Qed.

Lemma coord_eq : forall s k, hp_coord (engine s k) = polar_coord (engine_words s k).
Proof. intros s k. unfold hp_coord, polar_coord. rewrite canonical_eq; [reflexivity|]. pose proof (engine_range s k) as H. change modulus with 2147483647%N in H. change (2 ^ 31)%N with 2147483648%N. lia. Qed.
Lemma words_small32 : forall s k, (engine_words s k < 2 ^ 32)%N.
Proof. intros s k. apply as_word_small. pose proof (engine_range s k) as H. change modulus with 2147483647%N in H. change (2 ^ 31)%N with 2147483648%N. lia. Qed.

Lemma kept_pair : forall logf way s i, kept way (engine s (2 * i)) = true -> length (pair_numbers logf way (engine_words s) i) = 2.
Proof.
  intros logf way s i K. unfold kept in K. apply negb_true_iff in K. change 2147483647%N with modulus in K. rewrite <- engine_next, !coord_eq in K. unfold pair_numbers. replace (2 * i + 1) with (S (2 * i)) by lia. rewrite K. reflexivity.
Qed.
Lemma polar_app : forall logf way s M K, polar logf way s (M + K) = polar logf way s M ++ flat_map (pair_numbers logf way (engine_words s)) (seq M K).
Proof. intros logf way s M K. unfold polar. rewrite seq_app, flat_map_app. reflexivity. Qed.
Lemma polar_long : forall logf way s n, exists M, n <= length (polar logf way s M).
Proof.
  intros logf way s. induction n as [|n [M H]]; [exists 0; cbn; lia|]. destruct (pair_comes way s M) as (i & Hi & K).
  exists (M + (i - M) + 1). rewrite polar_app, app_length. replace (M + (i - M)) with i by lia. cbn [seq flat_map]. rewrite app_nil_r, (kept_pair _ _ _ _ K).
  assert (length (polar logf way s M) <= length (polar logf way s i)); [|lia]. replace i with (M + (i - M)) by lia. rewrite polar_app, app_length. lia.
Qed.

(** ** The loops *)
Lemma gauss_normal : forall logf way s fuel pos saved, gauss logf way s fuel pos saved = normal_call logf way (engine_words s) fuel pos saved.
Proof.
  intros logf way s. induction fuel as [|fuel IH]; intros pos saved; destruct saved; try reflexivity. cbn [gauss normal_call]. rewrite !lcg_engine, !coord_eq. destruct (rejected _); [apply IH | reflexivity].
Qed.

(** The state after [cnt] calls. *)
Fixpoint fill_state (logf : f32 -> f32) (way : sum_way) (words : nat -> N) (fuel cnt pos : nat) (saved : option f32) : res (list f32 * nat * option f32) :=
  match cnt with
  | O => Ok ([], pos, saved)
  | S cnt' => do r <- normal_call logf way words fuel pos saved; let '(v, pos1, saved1) := r in do r2 <- fill_state logf way words fuel cnt' pos1 saved1; let '(rest, pos2, saved2) := r2 in Ok (v :: rest, pos2, saved2)
  end.
Lemma plane_state : forall logf way s fuel dim pos saved, make_plane logf way s fuel dim pos saved = fill_state logf way (engine_words s) fuel dim pos saved.
Proof.
  intros logf way s fuel. induction dim as [|dim IH]; intros pos saved; [reflexivity|]. cbn [make_plane fill_state]. rewrite gauss_normal. destruct (normal_call _ _ _ _ _ _) as [[[v p1] s1]| | | |]; try reflexivity. cbn [bind]. now rewrite IH.
Qed.
(** What is left to fill after a part. *)
Lemma fill_split : forall logf way words fuel a b pos saved l, normal_fill logf way words fuel (a + b) pos saved = Ok l ->
  exists pos1 saved1, fill_state logf way words fuel a pos saved = Ok (firstn a l, pos1, saved1) /\ normal_fill logf way words fuel b pos1 saved1 = Ok (skipn a l).
Proof.
  intros logf way words fuel. induction a as [|a IH]; intros b pos saved l H; [exists pos, saved; auto|]. cbn [Nat.add normal_fill fill_state] in *.
  destruct (normal_call logf way words fuel pos saved) as [[[v p1] s1]| | | |]; try discriminate. cbn [bind] in *. destruct (normal_fill logf way words fuel (a + b) p1 s1) as [rest| | | |] eqn:R; try discriminate. inversion H; subst.
  destruct (IH b p1 s1 rest R) as (pos1 & saved1 & A & B). rewrite A. cbn [bind]. exists pos1, saved1. auto.
Qed.
Fixpoint chunks (dim cnt : nat) (l : list f32) : list (list f32) := match cnt with O => [] | S c => firstn dim l :: chunks dim c (skipn dim l) end.
Lemma planes_fill : forall logf way s fuel dim cnt pos saved l, normal_fill logf way (engine_words s) fuel (cnt * dim) pos saved = Ok l -> make_planes logf way s fuel cnt dim pos saved = Ok (chunks dim cnt l).
Proof.
  intros logf way s fuel dim. induction cnt as [|cnt IH]; intros pos saved l H; [reflexivity|]. cbn [Nat.mul] in H. destruct (fill_split _ _ _ _ _ _ _ _ _ H) as (pos1 & saved1 & A & B).
  cbn [make_planes chunks]. rewrite plane_state, A. cbn [bind]. rewrite (IH _ _ _ B). reflexivity.
Qed.
Lemma chunks_ok : forall dim cnt l, length l = cnt * dim -> length (chunks dim cnt l) = cnt /\ (forall hp, In hp (chunks dim cnt l) -> length hp = dim) /\ concat (chunks dim cnt l) = l.
Proof.
  intros dim. induction cnt as [|cnt IH]; intros l H; [destruct l; [cbn; auto; tauto | discriminate]|]. cbn [Nat.mul] in H. destruct (IH (skipn dim l)) as (A & B & C); [rewrite skipn_length; lia|].
  cbn [chunks length concat]. split; [lia|]. split; [|rewrite C; apply firstn_skipn]. intros hp [<-|I]; [rewrite firstn_length; lia | auto].
Qed.

Lemma hyperplanes : forall logf way s table_size dim, exists M planes,
  (forall fuel, M <= fuel -> generate_hps logf way fuel s table_size dim = Ok planes) /\
  length planes = table_size /\ (forall hp, In hp planes -> length hp = dim) /\
  table_size * dim <= length (polar logf way s M) /\ concat planes = firstn (table_size * dim) (polar logf way s M) /\
  (log_ok logf -> forall hp v, In hp planes -> In v hp -> finite v /\ f32_valid v = true /\ (Rabs (real v) <= 64)%R).
Proof.
  intros logf way s ts dim. destruct (polar_long logf way s (ts * dim)) as (M & HM). set (l := firstn (ts * dim) (polar logf way s M)).
  assert (Ll : length l = ts * dim) by (unfold l; rewrite firstn_length; lia). destruct (chunks_ok dim ts l Ll) as (A & B & C).
  exists M, (chunks dim ts l). split; [|split; [exact A|split; [exact B|split; [exact HM|split; [exact C|]]]]].
  - intros fuel Hf. apply planes_fill. unfold l. replace (polar logf way s M) with (tail_numbers logf way (engine_words s) M 0) in * by (unfold tail_numbers, polar; now rewrite Nat.sub_0_r).
    exact (proj1 (fill_numbers logf way (engine_words s) M fuel (ts * dim) 0 Hf) HM).
  - intros HL hp v Hhp Hv. assert (In v (concat (chunks dim ts l))) as I by (apply in_concat; eauto). rewrite C in I. unfold l in I.
    assert (In v (polar logf way s M)) as J by (rewrite <- (firstn_skipn (ts * dim) (polar logf way s M)); apply in_app_iff; auto).
    unfold polar in J. apply in_flat_map in J as (i & _ & J). exact (pair_finite logf way (engine_words s) i v HL (words_small32 s) J).
Qed.

(** Equal seeds modulo 2^31 - 1 give equal hyperplanes. *)
Lemma same_planes : forall logf way fuel s t table_size dim, start s = start t -> generate_hps logf way fuel s table_size dim = generate_hps logf way fuel t table_size dim.
Proof.
  intros logf way fuel s t ts dim E. assert (W : forall k, lcg_out s k = lcg_out t k) by (intros k; rewrite !lcg_engine; unfold engine; now rewrite E).
  assert (G : forall fuel pos saved, gauss logf way s fuel pos saved = gauss logf way t fuel pos saved). { induction fuel0 as [|f IH]; intros pos saved; destruct saved; try reflexivity. cbn [gauss]. rewrite !W. destruct (rejected _); auto. }
  assert (P : forall d pos saved, make_plane logf way s fuel d pos saved = make_plane logf way t fuel d pos saved). { induction d as [|d IH]; intros pos saved; [reflexivity|]. cbn [make_plane]. rewrite G. destruct (gauss _ _ _ _ _ _) as [[[v p1] s1]| | | |]; try reflexivity. cbn [bind]. now rewrite IH. }
  unfold generate_hps. generalize 0 at 1 2. generalize (@None f32). induction ts as [|n IH]; intros saved pos; [reflexivity|]. cbn [make_planes]. rewrite P. destruct (make_plane _ _ _ _ _ _ _) as [[[v p1] s1]| | | |]; try reflexivity. cbn [bind]. now rewrite IH.
Qed.
