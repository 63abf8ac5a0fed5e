(** The statements of C114. *)
From Coq Require Import ZArith Reals Lra Lia List Arith Bool Sorting.Permutation Floats.SpecFloat.
From Verif Require Import Base Float32 DivFacts DistSpec RealSpec BlasModel BlasSpec ClosestModel ClosestSpec IvfProofs PqModel PqSpec FusedModel RandModel
  LloydModel LloydSpec PopInst BlasCases KmeansModel KmeansSpec KmeansProofs3 KmeansProofs4 KmeansProofs5 KmeansCases.
Import ListNotations.
Local Open Scope R_scope.

Lemma kmeans_run : forall nrm2 ws popf mbs csz rdist dim (data : list (list f32)) orders (centers : list (list f32)) assign docs B max_reps, pops popf -> (1 <= mbs)%nat -> (1 <= csz)%nat -> data <> [] -> centers <> [] ->
  (forall i, block_orders (length data) 1 (min (length data) mbs) (orders i)) -> (Z.of_nat dim <= 2 ^ 20)%Z -> (Z.of_nat (length data) <= 2 ^ 28)%Z -> (forall i, block_ways_ok dim (ws i)) ->
  vectors dim B data -> vectors dim (4 * B) centers -> 1 <= B <= powerRZ 2 98 -> (forall r, vectors dim (4 * B) [r] -> norm_near r (nrm2 r)) -> length assign = length data ->
  exists st, run_lloyds_on nrm2 ws popf mbs csz rdist (length data) dim (length centers) max_reps data orders centers assign docs = Ok st /\
    length (ll_centers st) = length centers /\ vectors dim (4 * B) (ll_centers st) /\
    objective data (ll_centers st) <= objective data centers + INR max_reps * (INR (length data) * ((INR dim + 4) * powerRZ 2 (-16) * B)) /\
    ((1 <= max_reps)%nat -> length (ll_assign st) = length data /\ (forall c, In c (ll_assign st) -> (c < length centers)%nat) /\
      cost data (ll_centers st) (ll_assign st) <= objective data centers + INR max_reps * (INR (length data) * ((INR dim + 4) * powerRZ 2 (-16) * B))).
Proof.
  intros nrm2 ws popf mbs csz rdist dim data orders centers assign docs B max_reps Hp Hm Hcs Hn Hnc Ho Ld LN HW VD VC PB HN La. unfold run_lloyds_on.
  assert (Lc : (1 <= length centers)%nat) by (destruct centers; [congruence|cbn; lia]).
  destruct (loop_ok nrm2 ws popf mbs csz rdist dim data orders (length centers) B Hp Hm Hcs Hn Lc Ho Ld LN HW VD PB HN max_reps 0%nat (mkLl assign docs centers FLT_MAX) La eq_refl VC) as [st [E [L1 [L2 [V [O F]]]]]].
  exists st. split; [exact E|]. split; [exact L2|]. split; [exact V|]. split; [exact O|]. intros H. destruct (F H) as [G1 G2]. auto.
Qed.

Lemma kmeans_up : exists nrm2 ws popf orders data centers assign st, pops popf /\ block_orders 2 1 (min 2 2) orders /\ block_ways_ok 1 ws /\ vectors 1 (powerRZ 2 26) data /\ vectors 1 (powerRZ 2 26) centers /\ (forall r, vectors 1 (powerRZ 2 26) [r] -> norm_near r (nrm2 r)) /\
  lloyd_iter_on nrm2 ws popf 2 3 calc_distance 2 1 2 data orders centers assign = Ok st /\ objective data centers = 0 /\ objective data (ll_centers st) = / 2.
Proof.
  exists exact_nrm2, up_ws, pop_all, (km_orders 2), up_data, up_data, [0; 0]%nat. destruct up_runs as [st [E [O1 O2]]]. exists st. split; [exact pop_all_pops|]. split; [intros b; apply Permutation_refl|]. split; [exact up_ways|].
  assert (V : vectors 1 (powerRZ 2 26) up_data).
  { apply good_vectors; intros r Hr; cbn [up_data map In] in Hr; repeat (destruct Hr as [Hr|Hr]); try contradiction; subst r; apply ints_good; try reflexivity; try (intros x [<-|[]]; lia); change (powerRZ 2 26) with (2 ^ 26); rewrite (pow_IZR 2 26); apply IZR_le; vm_compute; discriminate. }
  split; [exact V|]. split; [exact V|]. split; [|split; [exact E|split; [exact O1|exact O2]]].
  intros r Hr. apply (exact_near 1 (powerRZ 2 26)); [exact Hr|]. change (powerRZ 2 26) with (2 ^ 26). change (powerRZ 2 100) with (2 ^ 100). apply Rle_pow; [lra|lia].
Qed.
