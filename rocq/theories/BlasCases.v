(** Concrete runs for PropBlas. *)
From Coq Require Import ZArith Reals Lra Lia List Arith Bool Sorting.Sorted Permutation Floats.SpecFloat.
From Verif Require Import Base Float32 DivFacts DistSpec FusedModel RealSpec RealDistProofs FloatReal L2ErrorProofs NormModel ClosestModel ClosestSpec PopInst HeapSpec HeapInst GtModel GtSpec IvfModel MeanProofs3 BlasModel BlasSpec BlasProofs BlasProofs7 BlasProofs8.
Import ListNotations.

(** Bytes of two dimensions, five points in parts of two, three queries in batches of two. *)
Definition case_W : gt_ways :=
  mkWays (fun _ i => if Nat.even i then FFma 0 (FItem 1) else FAdd (FItem 1) (FItem 0)) (fun _ _ => FAdd (FItem 0) (FItem 1))
    (fun _ _ s x => match s with 0 => if Nat.even x then Inside (FFma 1 (FItem 0)) else Outside (FFma 0 (FAdd FZero (FItem 1))) true
                               | 1 => if Nat.even x then Inside (FFma 1 (FItem 0)) else Outside (FItem 0) true
                               | _ => Outside (FItem 0) false end).
Definition case_rows : list (list Z) := [[0; 255]; [7; 3]; [255; 255]; [10; 12]; [7; 3]]%Z.
Definition case_queries : list (list Z) := [[10; 10]; [255; 0]; [0; 250]]%Z.
Definition case_orders (b : nat) : list nat := rev (seq (b * 2) (min 2 (3 - b * 2))).

Lemma case_ways : ways_ok 2 case_W.
Proof.
  assert (S : Permutation [1; 0] (seq 0 2)) by (cbn; apply perm_swap). split; [|split].
  - intros a i. cbn. destruct (Nat.even i); cbn; [reflexivity|exact S].
  - intros a i. reflexivity.
  - intros a b x. cbn. destruct (Nat.even x); cbn; repeat split; auto; try reflexivity.
Qed.
Lemma case_hyps : ways_ok 2 case_W /\ (forall p : nat, batch_orders 3 2 case_orders) /\ (forall z, In z case_rows \/ In z case_queries -> length z = 2 /\ uint8s z) /\ heap_ok heap_push heap_take /\ sorts_pairs sort_pairs.
Proof.
  split; [exact case_ways|]. split; [intros _ b; unfold case_orders; apply Permutation_sym, Permutation_rev|]. split; [|split; [exact heap_inst|exact sort_inst]].
  intros z Hz. cbn in Hz. repeat (destruct Hz as [Hz|Hz]); try contradiction; subst z; (split; [reflexivity|]); intros x Hx; cbn in Hx; repeat (destruct Hx as [<-|Hx]; [lia|]); contradiction.
Qed.
Lemma case_runs : ground_truth_on case_W heap_push heap_take sort_pairs 2 3 2 5 3 2 (concat (map (map f32_of_Z) case_rows)) (concat (map (map f32_of_Z) case_queries)) (fun _ => case_orders) =
  Ok (2, [(3, f32_of_Z 4); (4, f32_of_Z 58); (3, f32_of_Z 60169); (4, f32_of_Z 61513); (0, f32_of_Z 25); (3, f32_of_Z 56744)]).
Proof. vm_compute. reflexivity. Qed.

(** One dimension: the query 5795, and the points 5795 and 5794. *)
Definition far_W : gt_ways := mkWays (fun _ _ => FItem 0) (fun _ _ => FItem 0) (fun _ _ s _ => match s with 0 => Outside (FItem 0) true | _ => Inside (FFma 1 (FItem 0)) end).
Lemma far_runs : ways_ok 1 far_W /\ ground_truth_on far_W heap_push heap_take sort_pairs 512 1000 1 2 1 1 [f32_of_Z 5795; f32_of_Z 5794] [f32_of_Z 5795] (fun _ b => seq b (1 - b)) = Ok (1, [(1, f32_of_Z (-4))]).
Proof.
  split; [|vm_compute; reflexivity]. assert (S : Permutation [1; 0] (seq 0 2)) by (cbn; apply perm_swap). split; [|split]; [reflexivity|reflexivity|]. intros a b x. cbn. auto.
Qed.

(** Centres. *)
Definition plain_nrm2 (v : list f32) : f32 := fsqrt (fold_left (fun s x => fadd s (fmul x x)) v f32_zero).
Definition case_ws (b s x : nat) : way := match s with 0 => Outside (FItem 0) true | 1 => Inside (FFma 1 (FItem 0)) | _ => if Nat.even x then Inside (FFma 2 (FAdd (FItem 1) (FItem 0))) else Outside (FFma 1 (FItem 0)) true end.
Lemma case_ws_ok : block_ways_ok 2 case_ws.
Proof.
  intros b x. cbn. split; [reflexivity|]. split; [apply perm_swap|]. destruct (Nat.even x); cbn; [|apply perm_swap]. apply perm_trans with [1; 2; 0]; [apply perm_swap|]. apply perm_trans with [1; 0; 2]; [apply perm_skip, perm_swap|apply perm_swap].
Qed.
Definition ints (l : list Z) : list f32 := map f32_of_Z l.
Definition cpoints : list (list f32) := map ints [[3; 4]; [0; 1]; [-6; 8]]%Z.
Definition ccentres : list (list f32) := map ints [[0; 2]; [4; 3]]%Z.
Lemma near_int : forall z r, (forall x, In x z -> Z.abs x <= 2 ^ 24)%Z -> (0 <= r)%Z -> int_sq z = (r * r)%Z -> f32_valid (plain_nrm2 (ints z)) = true -> finite (plain_nrm2 (ints z)) -> real (plain_nrm2 (ints z)) = IZR r -> norm_near (ints z) (plain_nrm2 (ints z)).
Proof.
  intros z r H Hr Hs V F R. split; [exact V|]. split; [destruct (plain_nrm2 (ints z)); auto|].
  assert (S : sum_sq (ints z) = IZR (int_sq z)).
  { unfold sum_sq, int_sq, ints. rewrite map_map. clear Hs V F R. induction z as [|x z IH]; [reflexivity|]. cbn [map fold_right]. unfold real_sum in *. cbn [fold_right]. rewrite IH by (intros; apply H; right; auto). destruct (of_Z_int x) as [_ [_ ->]]; [apply H; left; auto|]. rewrite plus_IZR, mult_IZR. ring. }
  rewrite S, Hs, mult_IZR, sqrt_square by (apply IZR_le; exact Hr). rewrite R, Rminus_diag_eq by reflexivity. rewrite Rabs_R0.
  assert (0 <= IZR r)%R by (apply IZR_le; exact Hr). assert (0 < powerRZ 2 (-23))%R by (apply powerRZ_lt; lra). assert (0 < powerRZ 2 (-149))%R by (apply powerRZ_lt; lra). set (m := INR _). assert (0 <= m)%R by apply pos_INR.
  assert (0 <= (m + 4) * powerRZ 2 (-23) * IZR r)%R by (apply Rmult_le_pos; [apply Rmult_le_pos; lra|auto]). lra.
Qed.
Lemma centre_hyps : block_ways_ok 2 case_ws /\ block_orders 3 1 (min 3 2) (fun b => rev (list_prod (seq (b * 2) (min 2 (3 - b * 2))) [0])) /\
  forall r, In r cpoints \/ In r ccentres -> length r = 2 /\ (forall x, In x r -> finite x /\ valid_binary 24 128 x = true) /\ (sum_sq r <= powerRZ 2 100)%R /\ norm_near r (plain_nrm2 r).
Proof.
  split; [exact case_ws_ok|]. split; [intros b; apply Permutation_sym, Permutation_rev|].
  assert (K : forall z r, (forall x, In x z -> Z.abs x <= 2 ^ 24)%Z -> (0 <= r <= 100)%Z -> int_sq z = (r * r)%Z -> f32_valid (plain_nrm2 (ints z)) = true -> finite (plain_nrm2 (ints z)) -> plain_nrm2 (ints z) = f32_of_Z r -> length z = 2 ->
    length (ints z) = 2 /\ (forall x, In x (ints z) -> finite x /\ valid_binary 24 128 x = true) /\ (sum_sq (ints z) <= powerRZ 2 100)%R /\ norm_near (ints z) (plain_nrm2 (ints z))).
  { intros z r H Hr Hs V F R L. assert (Rr : real (plain_nrm2 (ints z)) = IZR r) by (rewrite R; apply of_Z_int; lia). assert (N : norm_near (ints z) (plain_nrm2 (ints z))) by (apply (near_int z r); auto; lia).
    split; [unfold ints; now rewrite map_length|]. split; [intros x Hx; unfold ints in Hx; apply in_map_iff in Hx; destruct Hx as [y [<- Hy]]; destruct (of_Z_int y (H y Hy)) as [A [B _]]; split; auto|]. split; [|exact N].
    assert (S : sum_sq (ints z) = IZR (int_sq z)).
    { unfold sum_sq, int_sq, ints. rewrite map_map. clear - H. induction z as [|x z IH]; [reflexivity|]. cbn [map fold_right]. unfold real_sum in *. cbn [fold_right]. rewrite IH by (intros; apply H; right; auto). destruct (of_Z_int x) as [_ [_ ->]]; [apply H; left; auto|]. rewrite plus_IZR, mult_IZR. ring. }
    rewrite S, Hs. apply Rle_trans with (IZR (2 ^ 100)); [apply IZR_le; nia|]. rewrite <- pw, (Raux.IZR_Zpower Zaux.radix2) by lia. right. reflexivity. }
  intros r Hr. cbn [cpoints ccentres map In] in Hr.
  repeat (destruct Hr as [Hr|Hr]); try contradiction; subst r.
  - apply (K [3; 4]%Z 5%Z); [intros x [<-|[<-|[]]]; lia|lia|reflexivity|vm_compute; reflexivity|vm_compute; exact I|vm_compute; reflexivity|reflexivity].
  - apply (K [0; 1]%Z 1%Z); [intros x [<-|[<-|[]]]; lia|lia|reflexivity|vm_compute; reflexivity|vm_compute; exact I|vm_compute; reflexivity|reflexivity].
  - apply (K [-6; 8]%Z 10%Z); [intros x [<-|[<-|[]]]; lia|lia|reflexivity|vm_compute; reflexivity|vm_compute; exact I|vm_compute; reflexivity|reflexivity].
  - apply (K [0; 2]%Z 2%Z); [intros x [<-|[<-|[]]]; lia|lia|reflexivity|vm_compute; reflexivity|vm_compute; exact I|vm_compute; reflexivity|reflexivity].
  - apply (K [4; 3]%Z 5%Z); [intros x [<-|[<-|[]]]; lia|lia|reflexivity|vm_compute; reflexivity|vm_compute; exact I|vm_compute; reflexivity|reflexivity].
Qed.
Lemma centre_runs : ivf_build_on plain_nrm2 case_ws pop_all 2 2 3 2 (concat cpoints) (concat ccentres) (fun b => rev (list_prod (seq (b * 2) (min 2 (3 - b * 2))) [0])) [] = Ok [[1; 2]; [0]].
Proof. vm_compute. reflexivity. Qed.

(** The distance of (1, 1) to itself as a centre. *)
Lemma unit_runs : exists d, closest_entry plain_nrm2 case_ws 2 2 1 1 (ints [1; 1]%Z) (ints [1; 1]%Z) 0 0 = Ok d /\ real d = (- powerRZ 2 (-22))%R /\ exact_l2 (ints [1; 1]%Z) (ints [1; 1]%Z) = 0%R.
Proof.
  eexists. split; [vm_compute; reflexivity|]. split.
  - cbn [real]. replace (powerRZ 2 (-22))%R with (powerRZ 2 23 * powerRZ 2 (-45))%R by (rewrite <- powerRZ_add by lra; reflexivity). change (powerRZ 2 23) with (2 ^ 23)%R. rewrite (pow_IZR 2 23). change (2 ^ Z.of_nat 23)%Z with 8388608%Z. ring.
  - unfold exact_l2, ints. cbn [map combine fst snd real_sum fold_right]. unfold real_sum. cbn [fold_right]. ring.
Qed.
