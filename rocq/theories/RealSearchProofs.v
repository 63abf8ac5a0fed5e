(** Distances of vectors in memory: laws and values. *)
From Coq Require Import NArith ZArith Reals Lra Lia List Arith Bool Sorting.Sorted Permutation Floats.SpecFloat.
From Flocq Require Import Core.
From Verif Require Import Base Bytes Float32 Float32Facts DivFacts FloatBits DistSpec DistModel DistProofs FusedModel FusedProofs RealSpec FloatReal L2ErrorProofs RealDistProofs ClosestModel ConvertModel BinSpec NormModel NormSpec NormProofs2 StatsProofs4 ToolSpec
  BlasProofs3 BlasProofs7 SystemModel GtToolSpec GtToolProofs3 RealSearchModel RealSearchSpec.
Import ListNotations.
Local Open Scope R_scope.

(** ** Elements *)
Lemma all_some_map : forall (A B : Type) (f : A -> option B) (g : A -> B) l, (forall x, In x l -> f x = Some (g x)) -> all_some (map f l) = Some (map g l).
Proof. intros A B f g l H. induction l as [|x l IH]; [reflexivity|]. cbn [map all_some]. rewrite (H x (or_introl eq_refl)), IH; [reflexivity|]. intros; apply H; right; auto. Qed.
Lemma all_some_length : forall (A : Type) (l : list (option A)) r, all_some l = Some r -> length r = length l.
Proof. intros A l. induction l as [|[x|] l IH]; intros r H; cbn in H; [injection H as <-; reflexivity| |discriminate]. destruct (all_some l) as [s|]; [|discriminate]. injection H as <-. cbn. now rewrite (IH s). Qed.

Lemma fine_ok : forall kt e, elem_fine kt e = true <-> elem_ok kt e.
Proof.
  intros [] e; cbn [elem_fine elem_ok]; [|apply N.ltb_lt|apply N.ltb_lt]. rewrite andb_true_iff, N.ltb_lt. change (2 ^ 32)%N with 4294967296%N.
  destruct (f32_of_bits e); cbn [DistSpec.finite]; split; intros [A B]; split; auto; try discriminate; destruct B.
Qed.
Lemma fines_ok : forall kt l, forallb (elem_fine kt) l = true <-> Forall (elem_ok kt) l.
Proof. intros kt l. rewrite forallb_forall, Forall_forall. split; intros H x Hx; apply fine_ok, H, Hx. Qed.

Lemma ints_int8 : forall v, Forall (elem_ok KInt8) v -> int8s (map int8_val v).
Proof. intros v H x Hx. apply in_map_iff in Hx. destruct Hx as [e [<- He]]. rewrite Forall_forall in H. destruct (zelem_ok KInt8 e ltac:(discriminate) (H e He)) as [_ [_ B]]. exact B. Qed.
Lemma ints_uint8 : forall v, Forall (elem_ok KUint8) v -> uint8s (map Z.of_N v).
Proof. intros v H x Hx. apply in_map_iff in Hx. destruct Hx as [e [<- He]]. rewrite Forall_forall in H. destruct (zelem_ok KUint8 e ltac:(discriminate) (H e He)) as [_ [_ B]]. exact B. Qed.
Lemma floats_good : forall v, Forall (elem_ok KFloat) v -> good (map f32_of_bits v).
Proof. intros v H. apply (vec_good KFloat v H). Qed.

Lemma simd_of : forall T F n, loops_ok T F -> (Z.of_nat n < 2 ^ 31)%Z -> simd_loop n (T n).
Proof. intros T F n H Hn. unfold simd_loop. destruct (Z.ltb_spec (Z.of_nat n) (2 ^ 31)); [|lia]. apply H, Hn. Qed.

(** ** Laws *)
Lemma code_sym : forall kt T F a b, loops_ok T F -> length a = length b -> (Z.of_nat (length a) < 2 ^ 31)%Z -> Forall (elem_ok kt) a -> Forall (elem_ok kt) b -> l2_code kt T F (length a) a b = l2_code kt T F (length a) b a.
Proof.
  intros kt T F a b HT L Hn Ha Hb. destruct kt; cbn [l2_code].
  - apply l2_fused_sym. rewrite !map_length. exact L.
  - pose proof (simd_of T F _ HT Hn) as S. rewrite (l2_int8_ok (T (length a)) (map int8_val a) (map int8_val b)), (l2_int8_ok (T (length a)) (map int8_val b) (map int8_val a)); rewrite ?map_length; auto using ints_int8; try lia; try (rewrite <- L; auto).
    rewrite (DistProofs.sq_dist_sym (map int8_val a) (map int8_val b)) by (rewrite !map_length; exact L). reflexivity.
  - pose proof (simd_of T F _ HT Hn) as S. rewrite (l2_uint8_ok (T (length a)) (map Z.of_N a) (map Z.of_N b)), (l2_uint8_ok (T (length a)) (map Z.of_N b) (map Z.of_N a)); rewrite ?map_length; auto using ints_uint8; try lia; try (rewrite <- L; auto).
    rewrite (DistProofs.sq_dist_sym (map Z.of_N a) (map Z.of_N b)) by (rewrite !map_length; exact L). reflexivity.
Qed.

Lemma of_Z_pos : forall z, (0 <= z < 2 ^ 32)%Z -> flt (f32_of_Z z) f32_zero = false /\ DistSpec.finite (f32_of_Z z) /\ f32_valid (f32_of_Z z) = true /\ Rabs (real (f32_of_Z z) - IZR z) <= powerRZ 2 (-24) * IZR z.
Proof.
  intros z H. destruct (Z.eq_dec z 0) as [->|Hz]; [split; [reflexivity|]; split; [exact I|]; split; [reflexivity|]; cbn [f32_of_Z real]; change (real (f32_of_Z 0)) with 0; rewrite Rminus_diag_eq by reflexivity; rewrite Rabs_R0; lra|].
  destruct (of_Z_big z ltac:(lia)) as [F [V [d [Hd R]]]]. assert (Pz : 1 <= IZR z) by (apply (IZR_le 1); lia).
  assert (Du : Rabs d <= / 2). { eapply Rle_trans; [exact Hd|]. unfold ulp. rewrite <- pw. apply Rle_trans with (bpow radix2 (-1)); [apply bpow_le; lia|cbn; lra]. }
  apply Rabs_le_inv in Du. split.
  - destruct (flt (f32_of_Z z) f32_zero) eqn:Q; [|reflexivity]. apply (flt_real _ f32_zero) in Q; auto; [|exact I]. change (real f32_zero) with 0 in Q. rewrite R in Q. nra.
  - split; [exact F|]. split; [exact V|]. rewrite R. replace (IZR z * (1 + d) - IZR z) with (d * IZR z) by ring. rewrite Rabs_mult, (Rabs_pos_eq (IZR z)) by lra. apply Rmult_le_compat_r; [lra|exact Hd].
Qed.

Lemma code_pos : forall kt T F a b r, loops_ok T F -> length a = length b -> (Z.of_nat (length a) < 2 ^ 31)%Z -> Forall (elem_ok kt) a -> Forall (elem_ok kt) b -> l2_code kt T F (length a) a b = Ok r ->
  flt r f32_zero = false /\ (flt r FLT_MAX = true -> DistSpec.finite r /\ f32_valid r = true).
Proof.
  intros kt T F a b r HT L Hn Ha Hb H. destruct kt; cbn [l2_code] in H.
  - pose proof (l2_fused_not_neg _ _ _ _ H) as P. split; [exact P|]. intros M. assert (Fr : DistSpec.finite r) by (destruct r as [s|[]| |s m e]; try exact I; vm_compute in M, P; discriminate). split; [exact Fr|]. apply (l2_valid _ _ _ _ (floats_good a Ha) (floats_good b Hb) H Fr).
  - pose proof (simd_of T F _ HT Hn) as S. rewrite (l2_int8_ok (T (length a)) (map int8_val a) (map int8_val b)) in H; rewrite ?map_length; auto using ints_int8. destruct (Z.ltb_spec (sq_dist (map int8_val a) (map int8_val b)) (2 ^ 31)); [|discriminate]. injection H as <-.
    destruct (of_Z_pos (sq_dist (map int8_val a) (map int8_val b))) as [A [B [C _]]]; [pose proof (BlasProofs5.sq_dist_pos (map int8_val a) (map int8_val b)); lia|]. auto.
  - pose proof (simd_of T F _ HT Hn) as S. rewrite (l2_uint8_ok (T (length a)) (map Z.of_N a) (map Z.of_N b)) in H; rewrite ?map_length; auto using ints_uint8. injection H as <-.
    destruct (of_Z_pos (sq_dist (map Z.of_N a) (map Z.of_N b) mod 2 ^ 32)) as [A [B [C _]]]; [apply Z.mod_pos_bound; lia|]. auto.
Qed.

Lemma mem_cases : forall kt T F p q, (exists a b r, mem_elems kt p = Some a /\ mem_elems kt q = Some b /\ length a = length b /\ (Z.of_nat (length a) < 2 ^ 31)%Z /\ Forall (elem_ok kt) a /\ Forall (elem_ok kt) b /\
    l2_code kt T F (length a) a b = Ok r /\ flt r FLT_MAX = true /\ mem_l2 kt T F p q = r) \/ mem_l2 kt T F p q = f32_zero.
Proof.
  intros kt T F p q. unfold mem_l2. destruct (mem_elems kt p) as [a|]; [|auto]. destruct (mem_elems kt q) as [b|]; [|auto].
  destruct ((length a =? length b)%nat && (Z.of_nat (length a) <? 2 ^ 31)%Z && forallb (elem_fine kt) a && forallb (elem_fine kt) b) eqn:G; [|auto].
  rewrite !andb_true_iff, Nat.eqb_eq, Z.ltb_lt, !fines_ok in G. destruct G as [[[L N] A] B]. destruct (l2_code kt T F (length a) a b) as [r| | | |] eqn:E; auto. destruct (flt r FLT_MAX) eqn:M; auto. left. exists a, b, r. auto 10.
Qed.

Lemma mem_num : forall kt T F p q, loops_ok T F -> flt (mem_l2 kt T F p q) f32_zero = false /\ DistSpec.finite (mem_l2 kt T F p q) /\ f32_valid (mem_l2 kt T F p q) = true /\ flt (mem_l2 kt T F p q) FLT_MAX = true.
Proof.
  intros kt T F p q HT. destruct (mem_cases kt T F p q) as [[a [b [r [_ [_ [L [N [A [B [H [M ->]]]]]]]]]]]| ->].
  - destruct (code_pos kt T F a b r HT L N A B H) as [P Q]. destruct (Q M). auto.
  - repeat split.
Qed.

Lemma mem_sym : forall kt T F p q, loops_ok T F -> mem_l2 kt T F p q = mem_l2 kt T F q p.
Proof.
  intros kt T F p q HT. unfold mem_l2. destruct (mem_elems kt p) as [a|], (mem_elems kt q) as [b|]; auto.
  destruct (Nat.eqb_spec (length a) (length b)) as [L|L]; [|destruct (Nat.eqb_spec (length b) (length a)); [congruence|reflexivity]]. rewrite <- L, Nat.eqb_refl.
  cbn [andb]. destruct (Z.ltb_spec (Z.of_nat (length a)) (2 ^ 31)) as [N|N]; [|reflexivity]. cbn [andb]. rewrite (andb_comm (forallb _ b)).
  destruct (forallb (elem_fine kt) a && forallb (elem_fine kt) b) eqn:G; [|reflexivity]. rewrite andb_true_iff, !fines_ok in G. destruct G as [A B]. rewrite (code_sym kt T F a b) by auto. reflexivity.
Qed.

Lemma mem_self : forall kt T F p, loops_ok T F -> feq (mem_l2 kt T F p p) f32_zero = true.
Proof.
  intros kt T F p HT. destruct (mem_cases kt T F p p) as [[a [b [r [Ea [Eb [L [N [A [B [H [M Er]]]]]]]]]]]| ->]; [|reflexivity]. rewrite Er. rewrite Ea in Eb. injection Eb as <-. clear Er. destruct (HT _ N) as [P C].
  destruct kt; cbn [l2_code] in H.
  - destruct (l2_fused_self (F (length a)) (map f32_of_bits a)) as [s Hs].
    + intros x Hx. apply (floats_good a A), Hx.
    + intros i Hi. rewrite map_length. apply (Permutation_in _ (contracts_items _ _ C)) in Hi. apply (Permutation_in _ P) in Hi. apply in_seq in Hi. lia.
    + rewrite Hs in H. injection H as <-. destruct s; reflexivity.
  - rewrite (l2_int8_ok (T (length a)) (map int8_val a) (map int8_val a)) in H; rewrite ?map_length; auto using ints_int8; [|eapply simd_of; eauto]. rewrite (proj2 (DistProofs.sq_dist_zero (map int8_val a) (map int8_val a) eq_refl) eq_refl) in H. injection H as <-. reflexivity.
  - rewrite (l2_uint8_ok (T (length a)) (map Z.of_N a) (map Z.of_N a)) in H; rewrite ?map_length; auto using ints_uint8; [|eapply simd_of; eauto]. rewrite (proj2 (DistProofs.sq_dist_zero (map Z.of_N a) (map Z.of_N a) eq_refl) eq_refl) in H. injection H as <-. reflexivity.
Qed.

Lemma mem_dissim : forall kt T F, loops_ok T F -> vec_dissim (mem_l2 kt T F).
Proof.
  intros kt T F HT. constructor.
  - intros p q. apply mem_sym, HT.
  - intros p q. destruct (mem_num kt T F p q HT) as [P [Q [V _]]]. destruct (fle f32_zero (mem_l2 kt T F p q)) eqn:E; [reflexivity|]. exfalso.
    apply fle_false_flt in E; [congruence|reflexivity|]. destruct (mem_l2 kt T F p q); try destruct Q; reflexivity.
  - intros p q. apply mem_num, HT.
  - intros p. apply mem_self, HT.
Qed.
Lemma mem_finite : forall kt T F p q, loops_ok T F -> ToolSpec.finite (mem_l2 kt T F p q).
Proof. intros kt T F p q HT. destruct (mem_num kt T F p q HT) as [P [Q [V M]]]. split; [destruct (mem_l2 kt T F p q); try destruct Q; reflexivity|exact M]. Qed.
