(** * Conversions from integers never give NaN. *)
From Coq Require Import ZArith SpecFloat Lia Bool.
From Verif Require Import Float32.

Lemma shr_1_nonneg : forall m, (0 <= shr_m m)%Z -> (0 <= shr_m (shr_1 m))%Z.
Proof.
  intros [m r s] H. cbn in H. destruct m as [|p|p]; [cbn; lia| |lia].
  destruct p; cbn; lia.
Qed.

Lemma iter_shr_nonneg : forall p m, (0 <= shr_m m)%Z -> (0 <= shr_m (iter_pos shr_1 p m))%Z.
Proof.
  induction p as [p IH|p IH|]; intros m H; cbn [iter_pos].
  - apply IH, IH, shr_1_nonneg, H.
  - apply IH, IH, H.
  - apply shr_1_nonneg, H.
Qed.

Lemma shr_nonneg : forall m e n, (0 <= shr_m m)%Z -> (0 <= shr_m (fst (shr m e n)))%Z.
Proof.
  intros m e n H. unfold shr. destruct n; cbn [fst]; auto. apply iter_shr_nonneg. auto.
Qed.

Lemma shr_record_of_loc_m : forall m l, shr_m (shr_record_of_loc m l) = m.
Proof. intros m [|[| |]]; reflexivity. Qed.

Lemma shr_fexp_nonneg : forall m e l, (0 <= m)%Z -> (0 <= shr_m (fst (shr_fexp prec emax m e l)))%Z.
Proof.
  intros m e l H. unfold shr_fexp. apply shr_nonneg. rewrite shr_record_of_loc_m. auto.
Qed.

Lemma round_nearest_even_nonneg : forall m l, (0 <= m)%Z -> (0 <= round_nearest_even m l)%Z.
Proof. intros m [|[| |]] H; cbn; try lia. destruct (Z.even m); lia. Qed.

Lemma binary_round_aux_not_nan : forall s m e l, (0 <= m)%Z -> is_nan (binary_round_aux prec emax s m e l) = false.
Proof.
  intros s m e l H. unfold binary_round_aux.
  pose proof (shr_fexp_nonneg m e l H) as H1. destruct (shr_fexp prec emax m e l) as [m1 e1]. cbn [fst] in H1.
  pose proof (shr_fexp_nonneg (round_nearest_even (shr_m m1) (loc_of_shr_record m1)) e1 loc_Exact
    (round_nearest_even_nonneg _ _ H1)) as H2.
  destruct (shr_fexp prec emax (round_nearest_even (shr_m m1) (loc_of_shr_record m1)) e1 loc_Exact) as [m2 e2].
  cbn [fst] in H2. destruct (shr_m m2) as [|p|p]; [reflexivity| |lia]. destruct (e2 <=? emax - prec)%Z; reflexivity.
Qed.

Lemma binary_round_not_nan : forall s m e, is_nan (binary_round prec emax s m e) = false.
Proof.
  intros s m e. unfold binary_round. destruct (shl_align m e (fexp prec emax (Zpos (digits2_pos m) + e))) as [mz ez].
  apply binary_round_aux_not_nan. lia.
Qed.

Lemma f32_of_Z_not_nan : forall z, is_nan (f32_of_Z z) = false.
Proof.
  intros z. unfold f32_of_Z, binary_normalize. destruct z; [reflexivity|apply binary_round_not_nan|apply binary_round_not_nan].
Qed.
