(** Concrete sessions for the search tools on vector files: ten points on a line, one byte each. *)
From Coq Require Import ZArith NArith Reals Lra Lia String List Arith Bool Permutation Sorting.Sorted Floats.SpecFloat.
From Verif Require Import Base Float32 Float32Facts DivFacts Bytes StreamModel BinModel BinSpec TextModel PoolModel FilterSpec SortSpec SortInst GreedyModel SearchModel PruneModel
  BuildModel BuildWitness HnswModel HnswSpec ClosestModel ClosestSpec IvfModel LshModel IndexFileModel IndexFileSpec SystemModel SystemSpec SystemWitness ToolModel ToolSpec ToolWitness
  DistSpec DistModel FusedModel FusedProofs RealSpec RealDistProofs NormModel NormSpec MeanSpec MeanProofs6 GtToolSpec RealSearchModel RealSearchSpec RealSearchProofs.
Import ListNotations.
Local Open Scope string_scope.

Definition r_T (n : nat) : red := in_order n.
Definition r_F (n : nat) : fred := embed (in_order n).
Lemma r_loops : loops_ok r_T r_F.
Proof. intros n _. unfold r_T, r_F. rewrite in_order_items. split; [apply Permutation_refl|]. apply uncontracted_ip. Qed.

Definition r_rows (n : nat) : list (list N) := map (fun i => [N.of_nat i]) (seq 0 n).
Lemma r_data : t_fs "data.bin" = vector_file KUint8 1 (r_rows 10).
Proof. vm_compute. reflexivity. Qed.
Lemma r_big : t_fs "big.bin" = vector_file KUint8 1 (r_rows 12).
Proof. vm_compute. reflexivity. Qed.
Lemma r_query : t_fs "query.bin" = vector_file KUint8 1 [[7]; [0]]%N.
Proof. vm_compute. reflexivity. Qed.
Lemma r_ok : forall rows, rows <> [] -> (N.of_nat (length rows) < 2 ^ 32)%N -> (forall r, In r rows -> exists x, r = [x] /\ (x < 256)%N) -> vectors_ok KUint8 1 rows.
Proof. intros rows H1 H2 H3. split; [exact H1|]. split; [exact H2|]. split; [|lia]. intros r Hr. destruct (H3 r Hr) as [x [-> Hx]]. split; [reflexivity|]. constructor; [exact Hx|constructor]. Qed.
Lemma r_rows_ok : forall n, 1 <= n <= 20 -> vectors_ok KUint8 1 (r_rows n).
Proof.
  intros n Hn. apply r_ok.
  - unfold r_rows. destruct n; [lia|discriminate].
  - unfold r_rows. rewrite map_length, seq_length. lia.
  - intros r Hr. apply in_map_iff in Hr. destruct Hr as [i [<- Hi]]. apply in_seq in Hi. exists (N.of_nat i). split; [reflexivity|lia].
Qed.
Lemma r_query_ok : vectors_ok KUint8 1 [[7]; [0]]%N.
Proof. apply r_ok; [discriminate|reflexivity|]. intros r [<-|[<-|[]]]; eexists; (split; [reflexivity|reflexivity]). Qed.

(** One table with one hyperplane: the sign of the coordinate. *)
Definition r_planes : list (list (list N)) := [[[1065353216; 0; 0; 0; 0; 0; 0; 0]]]%N.
Lemma r_lsh : lsh_session_ok 1 s_g "data.bin" [] "labels.txt" 1 r_planes t_fs (made "data.bin" "labels.txt").
Proof.
  constructor.
  - exact t_files_lab.
  - discriminate.
  - reflexivity.
  - intros hps [<-|[]]. split; [reflexivity|]. intros hp [<-|[]]. split; [reflexivity|]. intros x Hx. cbn in Hx. repeat (destruct Hx as [<-|Hx]; [reflexivity|]). destruct Hx.
Qed.
Lemma r_planes_ok : planes_ok r_planes.
Proof.
  intros hps hp [<-|[]] [<-|[]]. split.
  - repeat constructor.
  - unfold elem_sq, real_sum. cbn [map fold_right elem_real]. replace (real (f32_of_bits 1065353216)) with 1%R.
    + replace (real (f32_of_bits 0)) with 0%R by (vm_compute; reflexivity). apply Rle_trans with 1%R; [lra|]. change (powerRZ 2 100) with (2 ^ 100)%R. apply pow_R1_Rle. lra.
    + change (f32_of_bits 1065353216) with (S754_finite false 8388608 (-23)). cbn [real]. change (powerRZ 2 (-23)) with (/ 2 ^ 23)%R. rewrite (pow_IZR 2 23). change (2 ^ Z.of_nat 23)%Z with 8388608%Z. lra.
Qed.
Lemma r_above : forall i, 1 <= i <= 20 -> clearly_above KUint8 [1065353216; 0; 0; 0; 0; 0; 0; 0]%N [N.of_nat i].
Proof.
  intros i Hi. unfold clearly_above, plane_err, plane_dot. cbn [combine map real_sum fold_right fst snd elem_real length]. replace (real (f32_of_bits 1065353216)) with 1%R.
  - set (x := IZR (Z.of_N (N.of_nat i))). assert (Hx : (1 <= x <= 20)%R) by (split; apply IZR_le; lia). rewrite Rmult_1_l, Rabs_pos_eq by lra. cbn [INR]. 
    assert (A : (powerRZ 2 (-23) <= / 32)%R). { change (powerRZ 2 (-23)) with (/ 2 ^ 23)%R. apply Rinv_le_contravar; [lra|]. replace 32%R with (2 ^ 5)%R by ring. apply Rle_pow; [lra|lia]. }
    assert (B : (powerRZ 2 (-149) <= / 32)%R). { change (powerRZ 2 (-149)) with (/ 2 ^ 149)%R. apply Rinv_le_contravar; [lra|]. replace 32%R with (2 ^ 5)%R by ring. apply Rle_pow; [lra|lia]. }
    assert (A0 : (0 <= powerRZ 2 (-23))%R) by (apply powerRZ_le; lra). nra.
  - change (f32_of_bits 1065353216) with (S754_finite false 8388608 (-23)). cbn [real]. change (powerRZ 2 (-23)) with (/ 2 ^ 23)%R. rewrite (pow_IZR 2 23). change (2 ^ Z.of_nat 23)%Z with 8388608%Z. lra.
Qed.

Lemma r_vamana : session_ok 1 s_g (mem_l2 KUint8 r_T r_F) "data.bin" [] "labels.txt" s_prm s_cent s_work s_sched (seq 0 10) "ix" s_fs s_ann.
Proof. destruct s_session. constructor; auto. intros p q. apply (mem_finite KUint8 r_T r_F p q r_loops). Qed.
Lemma r_cent_nan : forall c, In c s_cent -> is_nan c = false.
Proof. intros c Hc. unfold s_cent in Hc. apply in_map_iff in Hc. destruct Hc as [i [<- _]]. apply f32_of_Z_not_nan. Qed.
