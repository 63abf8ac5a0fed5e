(** Building with the drawn hyperplanes. *)
From Coq Require Import NArith ZArith Reals Lra Lia List Arith Bool Floats.SpecFloat.
From Verif Require Import Base Bytes Float32 DivFacts FloatBits DistSpec RealSpec NormModel NormSpec RandModel RandSpec RandProofs RandDistModel RandDistSpec RandDistProofs3 RandDistProofs4 RandDistProofs5 LshModel LshSpec LshProofs CmdModel RealSearchSpec PqFileProofs2 EngineProofs HyperModel HyperSpec HyperProofs HyperProofs2.
Import ListNotations.
Local Open Scope nat_scope.

(** Any lists of the right lengths come from a choice of numbers. *)
Lemma seq_nth_list : forall A (d : A) l n, length l = n -> map (fun i => nth i l d) (seq 0 n) = l.
Proof.
  intros A d l n <-. apply nth_ext with d d; [now rewrite map_length, seq_length|]. intros i Hi. rewrite map_length, seq_length in Hi. rewrite nth_indep with (d' := nth 0 l d) by (now rewrite map_length, seq_length).
  change (nth 0 l d) with ((fun i => nth i l d) 0). rewrite map_nth, seq_nth by exact Hi. reflexivity.
Qed.
Lemma planes_drawn : forall planes ts dim, (forall hps, In hps planes -> length hps = ts /\ forall hp, In hp hps -> length hp = dim) ->
  planes_of (fun t i j => nth j (nth i (nth t planes []) []) 0%N) (length planes) ts dim = planes.
Proof.
  intros planes ts dim H. unfold planes_of. transitivity (map (fun t => nth t planes []) (seq 0 (length planes))); [|now apply seq_nth_list]. apply map_ext_in. intros t Ht. apply in_seq in Ht.
  destruct (H (nth t planes []) (nth_In planes [] (proj2 Ht))) as (A & B). transitivity (map (fun i => nth i (nth t planes []) []) (seq 0 ts)); [|now apply seq_nth_list]. apply map_ext_in. intros i Hi. apply in_seq in Hi.
  apply (seq_nth_list _ 0%N). apply B. apply nth_In. lia.
Qed.

Lemma sum_bound : forall l, (forall x, In x l -> (0 <= x <= 4096)%R) -> (0 <= real_sum l <= INR (length l) * 4096)%R.
Proof.
  induction l as [|x l IH]; intros H; [cbn; lra|]. cbn [length real_sum fold_right]. rewrite S_INR. pose proof (H x (or_introl eq_refl)). specialize (IH (fun y Hy => H y (or_intror Hy))). unfold real_sum in IH. lra.
Qed.

(** One table: its hyperplanes as bits. *)
Lemma table_planes : forall logf way s ts dim, exists M planes, (forall fuel, M <= fuel -> generate_hps logf way fuel s ts dim = Ok planes) /\ length planes = ts /\
  (forall hp, In hp (map (map bits_of_f32) planes) -> length hp = dim) /\ concat planes = firstn (ts * dim) (polar logf way s M) /\ ts * dim <= length (polar logf way s M) /\
  (log_ok logf -> (forall hp x, In hp (map (map bits_of_f32) planes) -> In x hp -> (x < 2 ^ 32)%N) /\
    ((Z.of_nat dim <= 2 ^ 20)%Z -> forall hp, In hp (map (map bits_of_f32) planes) -> Forall (elem_ok KFloat) hp /\ (elem_sq KFloat hp <= powerRZ 2 100)%R)).
Proof.
  intros logf way s ts dim. destruct (hyperplanes logf way s ts dim) as (M & planes & G & L & D & HM & C & F). exists M, planes. split; [exact G|]. split; [exact L|].
  split; [intros hp I; apply in_map_iff in I as (p & <- & I); rewrite map_length; auto|]. split; [exact C|]. split; [exact HM|]. intros HL. split.
  - intros hp x I J. apply in_map_iff in I as (p & <- & I). exact (words_small p (fun v Hv => proj1 (proj2 (F HL p v I Hv))) x J).
  - intros Hd hp I. apply in_map_iff in I as (p & <- & I).
    assert (Q : forall x, In x (map bits_of_f32 p) -> elem_ok KFloat x /\ (Rabs (elem_real KFloat x) <= 64)%R).
    { intros x J. pose proof (words_small p (fun v Hv => proj1 (proj2 (F HL p v I Hv))) x J) as W. apply in_map_iff in J as (v & <- & J). destruct (F HL p v I J) as (Fv & Vv & B).
      cbn [elem_ok elem_real]. rewrite (proj1 (f32_of_bits_of_f32 v Vv)). auto. }
    split; [apply Forall_forall; intros x J; apply Q; exact J|]. unfold elem_sq.
    destruct (sum_bound (map (fun e => (elem_real KFloat e ^ 2)%R) (map bits_of_f32 p))) as (_ & U).
    { intros y J. apply in_map_iff in J as (x & <- & J). destruct (Q x J) as (_ & B). assert (S : (elem_real KFloat x ^ 2 = Rabs (elem_real KFloat x) ^ 2)%R) by (now rewrite pow2_abs). rewrite S. pose proof (Rabs_pos (elem_real KFloat x)). split; nra. }
    eapply Rle_trans; [exact U|]. rewrite !map_length, (D p I). rewrite INR_IZR_INZ. apply IZR_le in Hd. change (IZR (2 ^ 20)) with 1048576%R in Hd. apply Rle_trans with (1048576 * 4096)%R; [lra|].
    change (powerRZ 2 100) with (2 ^ 100)%R. replace 100 with (32 + 68) by lia. rewrite pow_add. assert (1 <= 2 ^ 68)%R by (apply pow_R1_Rle; lra). assert (2 ^ 32 = 1048576 * 4096)%R by (cbv [pow]; lra). nra.
Qed.

Lemma drawn_tables : forall logf way seeds ts dim, exists M tables, (forall fuel, M <= fuel -> generate_all logf way fuel seeds ts dim = Ok (map (map (map bits_of_f32)) tables)) /\
  Forall2 (fun s planes => exists k, k <= M /\ ts * dim <= length (polar logf way s k) /\ concat planes = firstn (ts * dim) (polar logf way s k)) seeds tables /\
  (forall hps, In hps (map (map (map bits_of_f32)) tables) -> length hps = ts /\ (forall hp, In hp hps -> length hp = dim)) /\
  (log_ok logf -> (forall hps hp x, In hps (map (map (map bits_of_f32)) tables) -> In hp hps -> In x hp -> (x < 2 ^ 32)%N) /\ ((Z.of_nat dim <= 2 ^ 20)%Z -> planes_ok (map (map (map bits_of_f32)) tables))).
Proof.
  intros logf way seeds ts dim. induction seeds as [|s seeds (M & tables & G & P & L & F)].
  - exists 0, []. split; [reflexivity|]. split; [constructor|]. split; [intros ? []|]. intros _. split; [intros ? ? ? [] | intros _ ? ? []].
  - destruct (table_planes logf way s ts dim) as (K & planes & G1 & L1 & D1 & C1 & H1 & F1). exists (Nat.max M K), (planes :: tables). split; [|split; [|split]].
    + intros fuel Hf. cbn [generate_all]. rewrite G1 by lia. cbn [bind]. rewrite G by lia. reflexivity.
    + constructor; [exists K; split; [lia|auto]|]. eapply LshProofs.Forall2_weaken; [|exact P]. intros x y (k & Hk & E). exists k. split; [lia|exact E].
    + intros hps [<-|I]; [split; [now rewrite map_length | exact D1] | now apply L].
    + intros HL. destruct (F HL) as (A & B). destruct (F1 HL) as (A1 & B1). split.
      * intros hps hp x [<-|I]; [apply A1 | now apply A].
      * intros Hd hps hp [<-|I]; [now apply B1 | now apply B].
Qed.

(** Building draws and then builds with what was drawn. *)
Lemma seeded_build : forall logf way seeds dim dotf data ts ix, (ts <= 64)%N -> log_ok logf -> exists M tables planes draw, planes = map (map (map bits_of_f32)) tables /\
  (forall fuel, M <= fuel -> build_seeded logf way fuel seeds dim dotf data ts ix = lsh_build dotf data ts planes ix) /\
  Forall2 (fun s t => exists k, N.to_nat ts * dim <= length (polar logf way s k) /\ concat t = firstn (N.to_nat ts * dim) (polar logf way s k)) seeds tables /\
  length planes = length seeds /\ planes = planes_of draw (length seeds) (N.to_nat ts) dim /\
  (forall hps, In hps planes -> N.of_nat (length hps) = ts /\ forall hp, In hp hps -> length hp = dim /\ forall x, In x hp -> (x < 2 ^ 32)%N) /\ ((Z.of_nat dim <= 2 ^ 20)%Z -> planes_ok planes).
Proof.
  intros logf way seeds dim dotf data ts ix Ht HL. destruct (drawn_tables logf way seeds (N.to_nat ts) dim) as (M & tables & G & P & L & F). destruct (F HL) as (A & B).
  set (planes := map (map (map bits_of_f32)) tables) in *.
  assert (E : length planes = length seeds) by (unfold planes; rewrite map_length; symmetry; eapply LshProofs.Forall2_len; exact P).
  exists M, tables, planes, (fun t i j => nth j (nth i (nth t planes []) []) 0%N). split; [reflexivity|]. split; [|split; [|split; [|split; [|split]]]]; auto.
  - intros fuel Hf. unfold build_seeded. rewrite (proj2 (N.ltb_ge 64 ts) Ht). cbn [andb]. rewrite G by exact Hf. reflexivity.
  - eapply LshProofs.Forall2_weaken; [|exact P]. intros x y (k & _ & Q). exists k. exact Q.
  - rewrite <- E. symmetry. apply planes_drawn. exact L.
  - intros hps I. destruct (L hps I) as (L1 & L2). split; [lia|]. intros hp J. split; [auto|]. intros x K. exact (A hps hp x I J K).
Qed.
Lemma too_large : forall logf way fuel s seeds dim dotf data ts ix, (64 < ts)%N -> build_seeded logf way fuel (s :: seeds) dim dotf data ts ix = Exit.
Proof. intros. unfold build_seeded. rewrite (proj2 (N.ltb_lt 64 ts) H). reflexivity. Qed.

(** The fraction of a number of the engine. *)
Lemma engine_fraction : forall s k, fraction (engine_words s k) = (IZR (Z.of_N (engine s k) - 1) / powerRZ 2 31)%R.
Proof.
  intros s k. unfold fraction, engine_words. pose proof (engine_range s k) as R. rewrite N2Z.inj_mul, N2Z.inj_sub by lia. rewrite mult_IZR. change (IZR (Z.of_N 2)) with 2%R. change (Z.of_N 1) with 1%Z.
  change (powerRZ 2 31) with (2 ^ 31)%R. change (powerRZ 2 32) with (2 ^ 32)%R. assert (2 ^ 31 <> 0)%R by (apply Rfunctions.pow_nonzero; lra). replace (2 ^ 32)%R with (2 * 2 ^ 31)%R by (cbv [pow]; ring). field; auto.
Qed.
Lemma engine_polar : forall logf way s i, log_near logf -> exists x y q,
  (Rabs (x - (IZR (Z.of_N (engine s (2 * i)) - 1) / powerRZ 2 30 - 1)) <= powerRZ 2 (-22) /\ Rabs (y - (IZR (Z.of_N (engine s (2 * i + 1)) - 1) / powerRZ 2 30 - 1)) <= powerRZ 2 (-22) /\ near (powerRZ 2 (-22)) q (x ^ 2 + y ^ 2) /\
  ((q = 0 \/ 1 < q) /\ pair_numbers logf way (engine_words s) i = [] \/
   (0 < q <= 1 /\ exists a b, pair_numbers logf way (engine_words s) i = [a; b] /\ near (powerRZ 2 (-20)) (real a) (y * sqrt (-2 * ln q / q)) /\ near (powerRZ 2 (-20)) (real b) (x * sqrt (-2 * ln q / q)))))%R.
Proof.
  intros logf way s i HL. assert (T : forall k, (2 * fraction (engine_words s k) = IZR (Z.of_N (engine s k) - 1) / powerRZ 2 30)%R).
  { intros k. rewrite engine_fraction. change (powerRZ 2 31) with (2 ^ 31)%R. change (powerRZ 2 30) with (2 ^ 30)%R. assert (2 ^ 30 <> 0)%R by (apply Rfunctions.pow_nonzero; lra). replace (2 ^ 31)%R with (2 * 2 ^ 30)%R by (cbv [pow]; ring). field; auto. }
  destruct (pair_meaning logf way (engine_words s) i HL (words_small32 s)) as (x & y & q & A & B & C). exists x, y, q. rewrite !T in *. auto.
Qed.

(** 2^32 seeds give 2^31 - 2 tables at most. *)
Lemma seed_again : forall logf way fuel s table_size dim, generate_hps logf way fuel (s + modulus) table_size dim = generate_hps logf way fuel s table_size dim.
Proof.
  intros. apply same_planes. unfold start. replace ((s + modulus) mod modulus)%N with (s mod modulus)%N; [reflexivity|]. rewrite N.add_mod by discriminate. rewrite N.mod_same by discriminate. rewrite N.add_0_r. now rewrite N.mod_mod.
Qed.
Lemma seed_zero : forall logf way fuel table_size dim, generate_hps logf way fuel 0 table_size dim = generate_hps logf way fuel 1 table_size dim.
Proof. intros. apply same_planes. reflexivity. Qed.

(** The engine in one statement. *)
Lemma engine_sequence : forall s, (forall k, lcg_out s k = engine s k /\ (1 <= engine s k < modulus)%N) /\
  (forall i k, engine s i = engine s k <-> (Z.of_nat i mod (2 ^ 31 - 2) = Z.of_nat k mod (2 ^ 31 - 2))%Z) /\
  (forall x p, (1 <= x < modulus)%N -> exists i, p <= i /\ engine s i = x).
Proof.
  intros s. split; [intros k; split; [apply lcg_engine | apply engine_range]|]. split; [exact (engine_same s) | exact (engine_reaches s)].
Qed.
Lemma engine_seeds : forall s t i, engine s i = engine t i <-> start s = start t.
Proof. intros s t i. split; intros H; [|unfold engine; now rewrite H]. destruct (N.eq_dec (start s) (start t)) as [E|E]; [exact E|]. destruct (engine_differs s t i E H). Qed.

(** Seeds, build, searches, file, load: the tables come back. *)
Lemma seeded_life : forall logf way seeds dim dotf data ts ix, (ts <= 64)%N -> log_ok logf -> lsh_new ix -> (N.of_nat (length seeds) < 2 ^ 32)%N -> (N.of_nat (l_n ix) < 2 ^ 32)%N -> (forall t, In t (l_tags ix) -> (N.of_nat t < 2 ^ 32)%N) ->
  exists M, forall fuel ix1 qs outs ix2 fresh, M <= fuel -> build_seeded logf way fuel seeds dim dotf data ts ix = Ok ix1 -> lsh_answers dotf ix1 qs = Ok (outs, ix2) ->
  (forall t, In t (l_tables ix2) -> (N.of_nat (length (t_map t)) < 2 ^ 32)%N) -> exists ix3, lsh_load dim (lsh_bytes ix2) fresh = Ok ix3 /\ l_tables ix3 = l_tables ix1.
Proof.
  intros logf way seeds dim dotf data ts ix Ht HL Hnew Hs Hn Htag. destruct (seeded_build logf way seeds dim dotf data ts ix Ht HL) as (M & tables & planes & draw & _ & G & _ & E & _ & S & _).
  exists M. intros fuel ix1 qs outs ix2 fresh Hf B A Hm. rewrite (G fuel Hf) in B. rewrite <- E in Hs. destruct (lsh_life dotf data ts planes ix ix1 qs outs ix2 dim fresh B Hnew Ht S Hs Hn Htag A Hm) as (ix3 & L & T & _). eauto.
Qed.
