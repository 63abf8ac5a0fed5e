(** Concrete cases for PropNorm. *)
From Coq Require Import NArith ZArith Reals Lra Lia List Arith Bool Permutation Floats.SpecFloat.
From Verif Require Import Base Bytes Float32 FloatBits DivFacts DistSpec DistModel StreamModel BinModel BinSpec BinProofs FusedModel RealSpec RealDistProofs NormModel NormSpec.
Import ListNotations.

(** The floats 0, 1, 2, 3, 4, 5. *)
Definition bit (k : N) : N := bits_of_f32 (f32_of_Z (Z.of_N k)).
Lemma bit_real : forall k, (k <= 5)%N -> elem_ok KFloat (bit k) /\ elem_real KFloat (bit k) = IZR (Z.of_N k).
Proof.
  intros k H. unfold elem_ok, elem_real. assert (E : f32_of_bits (bit k) = f32_of_Z (Z.of_N k)) by (unfold bit; apply f32_of_bits_of_f32, f32_of_Z_valid). rewrite E.
  destruct (of_Z_int (Z.of_N k)) as [A [_ B]]; [lia|]. split; [split; [|exact A]|exact B].
  assert (C : (k = 0 \/ k = 1 \/ k = 2 \/ k = 3 \/ k = 4 \/ k = 5)%N) by lia. decompose [or] C; subst k; reflexivity.
Qed.
Lemma p99 : (powerRZ 2 (-99) <= 1)%R.
Proof. change 2%R with (IZR (Zaux.radix_val Zaux.radix2)). rewrite <- Raux.bpow_powerRZ. change 1%R with (Raux.bpow Zaux.radix2 0). apply Raux.bpow_le. lia. Qed.
Lemma p125 : (128 <= powerRZ 2 125)%R.
Proof. change 2%R with (IZR (Zaux.radix_val Zaux.radix2)). rewrite <- Raux.bpow_powerRZ. change 128%R with (Raux.bpow Zaux.radix2 7). apply Raux.bpow_le. lia. Qed.

Definition case_vs : list (list N) := [[bit 3; bit 4]; [bit 1; bit 0]; [bit 2; bit 2]].
Definition case_f : fred := FAdd (FFma 1 FZero) (FItem 0).
Lemma case_hyps : Permutation (fred_items case_f) (seq 0 2) /\
  (forall v, In v case_vs -> length v = 2 /\ Forall (elem_ok KFloat) v /\ (powerRZ 2 (-99) <= elem_sq KFloat v <= powerRZ 2 125)%R) /\
  map (elem_sq KFloat) case_vs = [25; 1; 8]%R.
Proof.
  split; [apply perm_swap|].
  assert (E : map (elem_sq KFloat) case_vs = [25; 1; 8]%R).
  { unfold case_vs, elem_sq, real_sum. cbn [map fold_right]. rewrite (proj2 (bit_real 0 ltac:(lia))), (proj2 (bit_real 1 ltac:(lia))), (proj2 (bit_real 2 ltac:(lia))), (proj2 (bit_real 3 ltac:(lia))), (proj2 (bit_real 4 ltac:(lia))). cbn [Z.of_N]. repeat f_equal; ring. }
  split; [|exact E]. injection E as E1 E2 E3. pose proof p99. pose proof p125.
  intros v [<-|[<-|[<-|[]]]]; (split; [reflexivity|]); (split; [repeat constructor; apply bit_real; lia|]); [rewrite E1|rewrite E2|rewrite E3]; lra.
Qed.

(** [sum_sq] is exact here: 25, 1, 8. *)
Definition fz (z : Z) : f32 := f32_of_Z z.
Lemma case_runs : forall g1 g2, length g1 = 4 -> length g2 = 4 ->
  prepare_base KFloat case_f 2 g1 g2 (Some (bin_file 4 3 2 (concat case_vs))) = Ok (bin_file 4 3 3 (map bits_of_f32
    [fdiv (fz 3) (fz 5); fdiv (fz 4) (fz 5); fz 0; fdiv (fz 1) (fz 5); fz 0; fsqrt (fsub (fz 1) (fdiv (fz 1) (fz 25))); fdiv (fz 2) (fz 5); fdiv (fz 2) (fz 5); fsqrt (fsub (fz 1) (fdiv (fz 8) (fz 25)))]), fz 5).
Proof.
  intros [|a [|b [|c [|d [|e g1]]]]] [|a' [|b' [|c' [|d' [|e' g2]]]]] H1 H2; try discriminate. vm_compute. reflexivity.
Qed.

Lemma case_sched : interleaving 3 [MLoad 1; MLoad 0; MStore 1; MLoad 2; MStore 2; MStore 0] /\ one_by_one 3 [MLoad 1; MStore 1; MLoad 0; MStore 0; MLoad 2; MStore 2].
Proof.
  split.
  - split; [intros [|[|[|i]]]; reflexivity|]. split; [intros [|[|[|i]]]; reflexivity|].
    intros i a b Ha Hb. destruct a as [|[|[|[|[|[|a]]]]]]; cbn in Ha; try discriminate Ha; try (rewrite ?nth_error_nil in Ha; destruct a; discriminate Ha); injection Ha as <-; destruct b as [|[|[|[|[|[|b]]]]]]; cbn in Hb; try discriminate Hb; try lia; destruct b; discriminate Hb.
  - exists [1; 0; 2]. split; [apply perm_swap|reflexivity].
Qed.

(** ** Outside the hypotheses *)
Lemma empty_ub : forall k f bs g1 g2 d, length g1 = 4 -> length g2 = 4 -> u32_range d -> prepare_base k f bs g1 g2 (Some (bin_file (kwidth k) 0 d [])) = UB.
Proof.
  intros k f bs g1 g2 d L1 L2 Hd. unfold prepare_base, bin_file. cbn [open_file]. rewrite BinProofs.read_header_app by (auto; reflexivity). reflexivity.
Qed.

(** A zero vector, 2^-80 and 2^64. *)
Lemma not_unit : forall g1 g2, length g1 = 4 -> length g2 = 4 -> forall e, In e [0; (47 * 2 ^ 23)%N; (191 * 2 ^ 23)%N]%N ->
  elem_ok KFloat e /\ exists out M c, prepare_base KFloat (FItem 0) 100 g1 g2 (Some (bin_file 4 1 1 [e])) = Ok (bin_file 4 1 2 out, M) /\ In c out /\ ~ finite (f32_of_bits c).
Proof.
  intros [|a [|b [|c [|d [|e g1]]]]] [|a' [|b' [|c' [|d' [|e' g2]]]]] H1 H2; try discriminate.
  intros x [<-|[<-|[<-|[]]]]; (split; [split; [reflexivity|vm_compute; exact I]|]).
  - exists [2143289344; 2143289344]%N, f32_zero, 2143289344%N. split; [vm_compute; reflexivity|]. split; [left; reflexivity|]. vm_compute. auto.
  - exists [2139095040; 2143289344]%N, f32_zero, 2139095040%N. split; [vm_compute; reflexivity|]. split; [left; reflexivity|]. vm_compute. auto.
  - exists [0; 2143289344]%N, (S754_infinity false), 2143289344%N. split; [vm_compute; reflexivity|]. split; [right; left; reflexivity|]. vm_compute. auto.
Qed.

(** Two vectors of norm 2 and 1: the store of the smaller norm comes last. *)
Definition race_sched : list mstep := [MLoad 0; MLoad 1; MStore 0; MStore 1].
Lemma race_loses : interleaving 2 race_sched /\ forall g1 g2, length g1 = 4 -> length g2 = 4 ->
  augment_base KFloat (FItem 0) race_sched true g1 g2 (Some (bin_file 4 2 1 [bit 2; bit 1])) = Ok (bin_file 4 2 2 (map bits_of_f32 [f32_of_Z 2; f32_zero; f32_of_Z 1; f32_zero])) /\
  float_sq [f32_of_Z 2; f32_zero] = 4%R.
Proof.
  split.
  - split; [intros [|[|i]]; reflexivity|]. split; [intros [|[|i]]; reflexivity|].
    intros i a b Ha Hb. destruct a as [|[|[|[|a]]]]; cbn in Ha; try discriminate Ha; try (rewrite ?nth_error_nil in Ha; destruct a; discriminate Ha); injection Ha as <-; destruct b as [|[|[|[|b]]]]; cbn in Hb; try discriminate Hb; try lia; destruct b; discriminate Hb.
  - intros [|a [|b [|c [|d [|e g1]]]]] [|a' [|b' [|c' [|d' [|e' g2]]]]] H1 H2; try discriminate. split; [vm_compute; reflexivity|].
    unfold float_sq, real_sum. cbn [map fold_right]. destruct (of_Z_int 2) as [_ [_ ->]]; [lia|]. cbn [real f32_zero]. ring.
Qed.

(** Signed bytes (1,0), (0,1) and (2,0): the first two become the same vector. *)
Lemma bytes_lost : forall g1 g2, length g1 = 4 -> length g2 = 4 -> forall k, k = KInt8 \/ k = KUint8 ->
  augment_base k (FAdd (FItem 0) (FItem 1)) [MLoad 0; MStore 0; MLoad 1; MStore 1; MLoad 2; MStore 2] true g1 g2 (Some (bin_file 1 3 2 [1; 0; 0; 1; 2; 0]%N)) = Ok (bin_file 1 3 3 [0; 0; 0; 0; 0; 0; 1; 0; 0]%N).
Proof.
  intros [|a [|b [|c [|d [|e g1]]]]] [|a' [|b' [|c' [|d' [|e' g2]]]]] H1 H2; try discriminate. intros k [->| ->]; vm_compute; reflexivity.
Qed.

Lemma zero_nan : forall g1 g2, length g1 = 4 -> length g2 = 4 ->
  normalize_base KFloat (FItem 0) g1 g2 (Some (bin_file 4 1 1 [0%N])) = Ok (bin_file 4 1 1 [2143289344%N]) /\ f32_of_bits 2143289344 = S754_nan.
Proof.
  intros [|a [|b [|c [|d [|e g1]]]]] [|a' [|b' [|c' [|d' [|e' g2]]]]] H1 H2; try discriminate. split; vm_compute; reflexivity.
Qed.
