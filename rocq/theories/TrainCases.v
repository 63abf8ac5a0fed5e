(** Instances: builds on six points. *)
From Coq Require Import NArith ZArith Reals Lra Lia String List Arith Bool Sorting.Permutation Floats.SpecFloat.
From Verif Require Import Base Float32 PoolModel TopKSpec FilterSpec SearchSpec SearchModel ClosestModel ClosestSpec FlatModel FlatSpec IvfModel PqModel DivFacts DistSpec RealSpec LloydModel RandModel BlasModel BlasSpec BlasCases PopInst KmeansModel KmeansSpec KmeansCases TrainModel TrainSpec TrainProofs TrainProofs2.
Import ListNotations.
Local Open Scope R_scope.

Definition tr_conv (b : N) : f32 := f32_of_Z (Z.of_N b).
Definition tr_rows : list (list N) := [[0; 0]; [2; 0]; [10; 0]; [12; 0]; [11; 3]; [1; 3]]%N.
Definition tr_orders (n b : nat) : list (nat * nat) := list_prod (seq (b * min n 2) (min (min n 2) (n - b * min n 2))) [0%nat].
Definition tr_machine : machine := mkM exact_nrm2 pop_all (fun _ => case_ws) (fun t _ => tr_orders t) (fun t => repeat 0%nat t) case_ws (tr_orders 6).
(** The words leave the last point out at the rate one half. *)
Definition tr_draws : draws := mkDraws (fun i => if (i =? 5)%nat then 4000000000%N else 7%N) (fun t => (t - 1)%nat) (fun i => (1000000000 * N.of_nat (i mod 4))%N) (fun _ i => i).
Definition tr_half : f32 := S754_finite false 8388608 (-24).

Lemma tr_data : map (map tr_conv) tr_rows = km_data.
Proof. reflexivity. Qed.

Lemma tr_machine_ok : machine_ok 2 (length tr_rows) 2 (4 * 1000) tr_machine.
Proof.
  destruct km_hyps as [H1 [_ [H3 [_ [_ [_ [_ H8]]]]]]]. constructor; auto; intros; try (intros b; apply Permutation_refl). apply repeat_length.
Qed.
Lemma tr_draws_ok : draws_ok tr_draws.
Proof.
  split; [intros i; cbn; destruct (i =? 5)%nat; reflexivity|]. split.
  - intros i. cbn [tr_draws dr_darts]. pose proof (Nat.mod_upper_bound i 4 ltac:(lia)). change (2 ^ 32)%N with 4294967296%N. lia.
  - intros t Ht. cbn. lia.
Qed.
Lemma tr_hyps : machine_ok 2 (length tr_rows) 2 (4 * 1000) tr_machine /\ draws_ok tr_draws /\ vectors 2 1000 (map (map tr_conv) tr_rows) /\ 1 <= 1000 <= powerRZ 2 98 /\
  length (sample_of tr_half tr_draws (map (map tr_conv) tr_rows)) = 5%nat /\ few_or_distinct tr_draws 5 2 /\
  exists centers, ivf_train_build tr_machine tr_draws 1 2 3 tr_conv 2 6 2 tr_half (concat tr_rows) [] = Ok (centers, [[2; 3; 4]; [0; 1; 5]]%nat) /\
    centers = map ints [[11; 1]; [1; 0]]%Z.
Proof.
  destruct km_hyps as [_ [_ [_ [H4 [_ [H6 _]]]]]]. split; [exact tr_machine_ok|]. split; [exact tr_draws_ok|]. split; [rewrite tr_data; exact H4|]. split; [exact H6|].
  split; [vm_compute; reflexivity|]. split; [left; lia|]. eexists. split; vm_compute; reflexivity.
Qed.

Lemma tr_all : SFltb (f64_of_f32 f32_one) f64_one = false /\ exists centers, ivf_train_build tr_machine tr_draws 1 2 3 tr_conv 2 6 2 f32_one (concat tr_rows) [] = Ok (centers, [[0; 1; 5]; [2; 3; 4]]%nat) /\
    centers = map ints [[1; 1]; [11; 1]]%Z.
Proof. split; [vm_compute; reflexivity|]. eexists. split; vm_compute; reflexivity. Qed.

(** A query between the two centres, nearer to the first; one list probed. *)
Definition tr_query : list f32 := ints [7; 0]%Z.
Definition tr_dist (id : nat) : f32 := calc_distance tr_query (nth id (map (map tr_conv) tr_rows) []).
Definition tr_labels : label_ctx := mkL [] false EmptyString.
Lemma tr_search : block_ways_ok 2 case_ws /\ vectors 2 1000 [tr_query] /\ finite_distances 6 tr_dist /\ room 2 [0; 0]%nat (Some [f32_zero; f32_zero]) /\
  ivf_search_from exact_nrm2 case_ws pop_all 2 2 (mkIvf 6 [] 2 [[2; 3; 4]; [0; 1; 5]]%nat tr_labels) (map ints [[11; 1]; [1; 0]]%Z) tr_query tr_dist 1 2 [] [0; 0]%nat (Some [f32_zero; f32_zero])
    = Ok ([2; 3]%nat, Some [f32_of_Z 9; f32_of_Z 25], 2%nat, 3%nat).
Proof.
  split; [exact case_ws_ok|]. split; [apply KmeansProofs4.good_vectors; intros r [<-|[]]; apply ints_good; [reflexivity|intros x [<-|[<-|[]]]; lia|apply IZR_le; vm_compute; discriminate]|].
  split.
  { split; [intros i; do 6 (destruct i as [|i]; [vm_compute; reflexivity|]); destruct i; vm_compute; reflexivity|intros i Hi; do 6 (destruct i as [|i]; [vm_compute; reflexivity|]); lia]. }
  split; [|vm_compute; reflexivity]. split; [cbn; lia|]. intros d E. injection E as <-. cbn. lia.
Qed.

(** More than 2^23 points, the first of which is drawn twice. *)
Lemma tr_repeated : exists (rows : list (list N)) dr, draws_ok dr /\ (forall r, In r rows -> length r = 1%nat) /\ let t := length (sample_of f32_one dr (map (map tr_conv) rows)) in
  (2 ^ 23 < Z.of_nat t)%Z /\ (forall i, (i < 2)%nat -> (dr_points dr t i < t)%nat) /\ dr_points dr t 0 = dr_points dr t 1.
Proof.
  exists (repeat [5%N] (N.to_nat 8388610)), (mkDraws (fun _ => 0%N) (fun _ => 0%nat) (fun _ => 0%N) (fun _ _ => 0%nat)).
  assert (D : draws_ok (mkDraws (fun _ => 0%N) (fun _ => 0%nat) (fun _ => 0%N) (fun _ _ => 0%nat))) by (split; [intros i; reflexivity|]; split; [intros i; reflexivity|]; intros t Ht; cbn; lia).
  split; [exact D|]. split; [intros r Hr; apply repeat_spec in Hr; now subst|]. cbv zeta. rewrite sample_all by (auto; vm_compute; reflexivity). rewrite map_length, repeat_length. split; [lia|]. split; [intros i _; cbn [dr_points]; lia|reflexivity].
Qed.
