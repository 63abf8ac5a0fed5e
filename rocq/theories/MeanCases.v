(** Concrete data for the theorems about means. *)
From Coq Require Import NArith ZArith Reals Lra Lia List Arith Bool Permutation Floats.SpecFloat.
From Verif Require Import Base Float32 DivFacts DistSpec DistModel FusedModel RealSpec RealDistProofs LloydModel NormModel NormSpec MeanModel MeanSpec MeanProofs2 MeanProofs4 MeanProofs6.
Import ListNotations.
Local Open Scope R_scope.

Definition case_rows : list (list N) := [[10; 20]; [30; 40]; [90; 60]; [35; 45]]%N.
Definition case_fs (i : nat) : fred := FFma 1 (FItem 0).
Definition case_data : list (list f32) := map (map (kval KUint8)) case_rows.

Lemma case_bytes : KUint8 <> KFloat /\ (1 <= length case_rows)%nat /\ (Z.of_nat (length case_rows) < 2 ^ 22)%Z /\
  rows_ok KUint8 2 (powerRZ 2 50) case_rows /\ (forall j, (j < 2)%nat -> real_sum (map Rabs (column KUint8 case_rows j)) <= powerRZ 2 24) /\
  (forall j, (j < 2)%nat -> Permutation (red_items (in_order 4)) (seq 0 (length case_rows))) /\ (forall i, (i < length case_rows)%nat -> Permutation (fred_items (case_fs i)) (seq 0 2)) /\
  medoid_of_data Divides (fun _ => in_order 4) case_fs KUint8 2 case_rows = Ok 3%nat /\ medoid_of_data Reciprocates (fun _ => in_order 4) case_fs KUint8 2 case_rows = Ok 3%nat /\
  mean (column KUint8 case_rows 0) = 41.25 /\ mean (column KUint8 case_rows 1) = 41.25.
Proof.
  assert (O : forall row, In row case_rows -> length row = 2%nat /\ forall e, In e row -> elem_ok KUint8 e).
  { intros row Hr. cbn in Hr. repeat (destruct Hr as [<-|Hr]; [split; [reflexivity|]; intros e He; cbn in He; repeat (destruct He as [<-|He]; [cbn; lia|]); destruct He|]). destruct Hr. }
  split; [discriminate|]. split; [cbn; lia|]. split; [cbn; lia|].
  split; [intros row Hr; destruct (O row Hr) as [A B]; split; [exact A|]; intros e He; split; [auto|apply byte_small; auto; discriminate]|].
  assert (S : forall j, (j < 2)%nat -> j = 0%nat \/ j = 1%nat) by lia. assert (P : powerRZ 2 24 = 16777216) by (change (powerRZ 2 24) with (2 ^ 24); ring).
  split; [intros j Hj; rewrite P; destruct (S j Hj) as [-> | ->]; cbn [column case_rows map coord nth real_sum fold_right elem_real Z.of_N]; unfold coord; cbn [nth elem_real Z.of_N]; rewrite !Rabs_pos_eq by lra; lra|].
  split; [intros; apply Permutation_refl|]. split; [intros i _; cbn; apply perm_swap|].
  split; [vm_compute; reflexivity|]. split; [vm_compute; reflexivity|].
  split; unfold mean, column; cbn [case_rows map coord nth real_sum fold_right elem_real Z.of_N length]; unfold coord; cbn [nth elem_real Z.of_N]; change (INR 4) with (1 + 1 + 1 + 1); lra.
Qed.

Lemma case_good : forall row, In row case_data -> length row = 2%nat /\ forall x, In x row -> finite x /\ f32_valid x = true /\ Rabs (real x) <= powerRZ 2 50.
Proof.
  intros row Hr. destruct case_bytes as [_ [_ [_ [R _]]]]. destruct (rows_good KUint8 2 _ _ R row Hr) as [A [B C]]. split; [exact A|]. intros x Hx. destruct (B x Hx). split; [auto|]. split; auto.
Qed.

Lemma case_floats : (1 <= length case_data)%nat /\ (Z.of_nat (length case_data) < 2 ^ 22)%Z /\ (forall row, In row case_data -> length row = 2%nat /\ forall x, In x row -> finite x /\ f32_valid x = true) /\
  (forall j, (j < 2)%nat -> Permutation (red_items (in_order 4)) (seq 0 (length case_data))) /\
  (forall j, (j < 2)%nat -> real_sum (map (fun row => Rabs (real (nth j row f32_zero))) case_data) <= powerRZ 2 125) /\
  pq_centroid true Divides (fun _ => in_order 4) 2 case_data = Ok [S754_finite false 10813440 (-18); S754_finite false 10813440 (-18)].
Proof.
  split; [cbn; lia|]. split; [cbn; lia|]. split; [intros row Hr; destruct (case_good row Hr) as [A B]; split; [exact A|]; intros x Hx; destruct (B x Hx) as [C [D _]]; auto|].
  split; [intros; apply Permutation_refl|]. split; [|vm_compute; reflexivity].
  intros j Hj. destruct case_bytes as [_ [_ [L [R _]]]]. pose proof (column_sum_le KUint8 2 case_rows j R Hj L) as Q. rewrite <- (rcol_column KUint8 2 _ case_rows j R Hj) in Q. unfold rcol in Q. rewrite map_map in Q.
  rewrite Raux.bpow_powerRZ in Q. exact Q.
Qed.

Lemma case_lloyd : [0; 2; 3]%nat <> [] /\ (Z.of_nat (length [0; 2; 3]%nat) <= 2 ^ 28)%Z /\
  (forall p, In p [0; 2; 3]%nat -> exists row, nth_error case_data p = Some row /\ length row = 2%nat /\ forall x, In x row -> finite x /\ f32_valid x = true /\ Rabs (real x) <= powerRZ 2 126) /\
  new_center 2 case_data [0; 2; 3]%nat = Ok [S754_finite false 11796480 (-18); S754_finite false 10922667 (-18)].
Proof.
  split; [discriminate|]. split; [cbn; lia|]. split; [|vm_compute; reflexivity].
  intros p Hp. assert (Hl : (p < length case_data)%nat) by (cbn in *; lia). destruct (nth_error case_data p) as [row|] eqn:E; [|apply nth_error_None in E; lia]. exists row. split; [reflexivity|].
  destruct (case_good row (nth_error_In _ _ E)) as [A B]. split; [exact A|]. intros x Hx. destruct (B x Hx) as [C [D F]]. split; [exact C|]. split; [exact D|]. apply Rle_trans with (1 := F).
  replace (powerRZ 2 50) with (Raux.bpow Zaux.radix2 50) by (rewrite Raux.bpow_powerRZ; reflexivity). replace (powerRZ 2 126) with (Raux.bpow Zaux.radix2 126) by (rewrite Raux.bpow_powerRZ; reflexivity). apply Raux.bpow_le. lia.
Qed.
