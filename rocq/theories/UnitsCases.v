(** * C121: concrete cases, and factors that do change the answers. *)
From Coq Require Import ZArith String List Arith Lia Bool Sorting.Permutation Floats.SpecFloat.
From Verif Require Import Base Float32 Float32Facts PoolModel SortSpec SortInst GraphSpec GreedyModel SearchSpec SearchModel PruneModel BuildModel VamanaModel BuildWitness LongerBuilt
  HnswModel RngModel FlatSpec FusedModel OrderSpec OrderProofs3 UnitsSpec UnitsProofs.
Import ListNotations.

Definition ordinary_b (k : Z) (x : f32) : bool :=
  match x with
  | S754_zero _ => true
  | S754_finite _ m e => ((2 ^ 23 <=? Zpos m) && (Zpos m <? 2 ^ 24) && (-63 <=? e) && (e <=? 104) && (-63 <=? e + k) && (e + k <=? 104))%Z
  | _ => false
  end.

Definition fits_b (j : Z) (x : f32) : bool :=
  match x with S754_zero _ => true | S754_finite _ _ e => ((e <=? 103) && (e + j <=? 103))%Z | _ => false end.

Lemma ordinary_b_ok : forall k l, forallb (ordinary_b k) l = true -> Forall (ordinary k) l.
Proof.
  intros k l H. apply Forall_forall. intros x Hx. rewrite forallb_forall in H. specialize (H x Hx). destruct x as [s|s| |s m e]; cbn in *; try discriminate; auto.
  rewrite !andb_true_iff, !Z.leb_le, Z.ltb_lt in H. lia.
Qed.

Lemma fits_b_ok : forall j x, fits_b j x = true -> fits j x.
Proof. intros j x H. destruct x as [s|s| |s m e]; cbn in *; try discriminate; auto. rewrite andb_true_iff, !Z.leb_le in H. exact H. Qed.

(** The sixteen points of LongerBuilt.v as float vectors; two of the three products contracted. *)
Definition three : fred := FFma 2 (FFma 1 (FItem 0)).
Definition vec (p : place) : list f32 := let '(a, b, c) := p in [f32_of_Z a; f32_of_Z b; f32_of_Z c].
Definition vecs : list (list f32) := map vec places.
Definition asked : list f32 := vec (6, 7, 0)%Z.

Definition vecs_input (k : Z) : vinput :=
  mkV isort (mkSp 16 (among three (map (in_unit k) vecs)) false (mkL [] true "0"%string)) (mkB 10 2 750 f12 0) (seq 100 16)
    (map (fscale (2 * k)) place_centroid) [] (one_thread 16 40) (seq 0 16).

Lemma far_index : forall (A : Type) (d : A) l a n, length l = n -> a < n \/ nth a l d = d.
Proof. intros A d l a n H. destruct (Nat.lt_ge_cases a n) as [L|L]; [auto|]. right. apply nth_overflow. lia. Qed.

Lemma l2_nil_l : forall v, l2_of three [] v = f32_zero.
Proof. intros. reflexivity. Qed.
Lemma l2_nil_r : forall v, l2_of three v [] = f32_zero.
Proof. intros [|x [|y [|z v]]]; reflexivity. Qed.

Lemma vecs_fit : forall a b, fits (2 * 10) (among three vecs a b) /\ fits (2 * -30) (among three vecs a b).
Proof.
  intros a b. assert (K : forallb (fun a => forallb (fun b => fits_b 20 (among three vecs a b) && fits_b (-60) (among three vecs a b)) (seq 0 16)) (seq 0 16) = true) by (vm_compute; reflexivity).
  destruct (far_index _ [] vecs a 16 eq_refl) as [Ha|Ha]; [|unfold among; rewrite Ha, l2_nil_l; split; exact I].
  destruct (far_index _ [] vecs b 16 eq_refl) as [Hb|Hb]; [|unfold among; rewrite Hb, l2_nil_r; split; exact I].
  rewrite forallb_forall in K. specialize (K a ltac:(apply in_seq; lia)). rewrite forallb_forall in K. specialize (K b ltac:(apply in_seq; lia)). apply andb_true_iff in K.
  split; apply fits_b_ok; apply K.
Qed.

Lemma asked_fit : forall a, fits (2 * 10) (from three vecs asked a).
Proof.
  intros a. assert (K : forallb (fun a => fits_b 20 (from three vecs asked a)) (seq 0 16) = true) by (vm_compute; reflexivity).
  destruct (far_index _ [] vecs a 16 eq_refl) as [Ha|Ha]; [|unfold from; rewrite Ha, l2_nil_l; exact I].
  rewrite forallb_forall in K. apply fits_b_ok. apply (K a). apply in_seq. lia.
Qed.

Lemma vecs_ordinary : Forall (Forall (ordinary 10)) vecs.
Proof.
  assert (K : forallb (forallb (ordinary_b 10)) vecs = true) by (vm_compute; reflexivity).
  apply Forall_forall. intros v Hv. rewrite forallb_forall in K. apply ordinary_b_ok, K, Hv.
Qed.

Lemma in_unit_0 : forall v, in_unit 0 v = v.
Proof. intros v. unfold in_unit. induction v as [|x v IH]; cbn; [reflexivity|]. rewrite ScaleProofs.scale_0. congruence. Qed.

Lemma map_unit_0 : forall l, map (in_unit 0) l = l.
Proof. induction l as [|x l IH]; cbn; [reflexivity|]. rewrite in_unit_0. congruence. Qed.

Lemma vecs_input_ok : vinput_ok (vecs_input 0).
Proof.
  unfold vecs_input. rewrite map_unit_0. pose proof place_input_ok as [P1 P2 P3 P4 P5 P6 P7 P8 P9 P10 P11].
  constructor; cbn [vi_sort vi_sp vi_prm vi_tags vi_centroid vi_work vi_sched vi_order sp_n sp_pd sp_filtered sp_labels pts_to_labels bp_L].
  - exact isort_sorts.
  - lia.
  - lia.
  - intros a b. eapply fits_not_nan. apply (proj1 (vecs_fit a b)).
  - reflexivity.
  - reflexivity.
  - intros d Hd. apply P7. cbn [place_input vi_centroid]. replace (2 * 0)%Z with 0%Z in Hd by reflexivity. rewrite (map_ext _ (fun x => x) ScaleProofs.scale_0), map_id in Hd. exact Hd.
  - discriminate.
  - intros x r [].
  - exact P10.
  - exact P11.
Qed.

Lemma centroid_scaled : all_scaled (2 * 10) (vi_centroid (vecs_input 0)) (vi_centroid (vecs_input 10)).
Proof.
  split.
  - assert (K : forallb (fits_b 20) (vi_centroid (vecs_input 0)) = true) by (vm_compute; reflexivity).
    apply Forall_forall. intros x Hx. rewrite forallb_forall in K. apply fits_b_ok, K, Hx.
  - cbn [vecs_input vi_centroid]. rewrite map_map. apply map_ext. intros x. rewrite ScaleProofs.scale_add. reflexivity.
Qed.

Lemma vectors_case : Forall (Forall (ordinary 10)) vecs /\ Forall (ordinary 10) asked /\
  (forall a b, fits (2 * 10) (among three vecs a b)) /\ (forall id, fits (2 * 10) (from three vecs asked id)) /\
  by_comparisons (vi_sort (vecs_input 0)) /\ vinput_ok (vecs_input 0) /\ vectors_input 10 three vecs (vecs_input 0) (vecs_input 10) /\
  vamana_build (vecs_input 0) = Ok (place_index, 2) /\ vamana_build (vecs_input 10) = Ok (place_index, 2) /\
  vamana_search isort place_index (from three vecs asked) 10 2 [] [0; 0] [f32_zero; f32_zero] = Ok ([108; 105], [f32_of_Z 14; f32_of_Z 20], 2) /\
  vamana_search isort place_index (from three (map (in_unit 10) vecs) (in_unit 10 asked)) 10 2 [] [0; 0] [f32_zero; f32_zero] =
    Ok ([108; 105], [f32_of_Z 14680064; f32_of_Z 20971520], 2).
Proof.
  split; [exact vecs_ordinary|]. split; [apply ordinary_b_ok; vm_compute; reflexivity|]. split; [intros a b; apply vecs_fit|]. split; [exact asked_fit|].
  split; [exact isort_by_comparisons|]. split; [exact vecs_input_ok|]. split.
  - split; [intros a b; cbn [vecs_input vi_sp sp_pd]; rewrite map_unit_0; reflexivity|]. split; [intros a b; reflexivity|]. split; [exact centroid_scaled|]. repeat split.
  - split; [vm_compute; reflexivity|]. split; [vm_compute; reflexivity|]. split; vm_compute; reflexivity.
Qed.

(** The relative neighbourhood graph and HNSW on the same vectors, coordinates times 2^-30. *)
Definition vecs_space (k : Z) : space := mkSp 16 (among three (map (in_unit k) vecs)) false (mkL [] true "0"%string).
Definition vecs_choice (k : Z) : hchoice := mkHC [] (map (fscale (2 * k)) place_centroid) (one_thread 16 80) (seq 0 16).

Lemma vecs_rescaled : rescaled (2 * -30) (vecs_space 0) (vecs_space (-30)).
Proof.
  assert (O : Forall (Forall (ordinary (-30))) vecs).
  { assert (K : forallb (forallb (ordinary_b (-30))) vecs = true) by (vm_compute; reflexivity).
    apply Forall_forall. intros v Hv. rewrite forallb_forall in K. apply ordinary_b_ok, K, Hv. }
  repeat split; cbn [vecs_space sp_pd]; rewrite map_unit_0; [apply vecs_fit|]. apply among_scale; [exact O|apply vecs_fit].
Qed.

Lemma centroid_scaled_down : all_scaled (2 * -30) (hc_centroid (vecs_choice 0)) (hc_centroid (vecs_choice (-30))).
Proof.
  split.
  - assert (K : forallb (fits_b (-60)) (hc_centroid (vecs_choice 0)) = true) by (vm_compute; reflexivity).
    apply Forall_forall. intros x Hx. rewrite forallb_forall in K. apply fits_b_ok, K, Hx.
  - cbn [vecs_choice hc_centroid]. rewrite map_map. apply map_ext. intros x. rewrite ScaleProofs.scale_add. reflexivity.
Qed.

Lemma vecs_roomy : forall a b, roomy f12 (sp_pd (vecs_space 0) a b) /\ roomy f12 (sp_pd (vecs_space (-30)) a b).
Proof.
  intros a b. unfold roomy. cbn [vecs_space sp_pd].
  assert (K : forallb (fun a => forallb (fun b => flt f12 (fdiv FLT_MAX (among three (map (in_unit 0) vecs) a b)) && flt f12 (fdiv FLT_MAX (among three (map (in_unit (-30)) vecs) a b))) (seq 0 16)) (seq 0 16) = true) by (vm_compute; reflexivity).
  destruct (far_index _ [] (map (in_unit 0) vecs) a 16 eq_refl) as [Ha|Ha].
  2:{ assert (Ha' : nth a (map (in_unit (-30)) vecs) [] = []) by (rewrite nth_unit in *; destruct (nth a vecs []); [reflexivity|discriminate Ha]).
      unfold among. rewrite Ha, Ha', !l2_nil_l. split; reflexivity. }
  destruct (far_index _ [] (map (in_unit 0) vecs) b 16 eq_refl) as [Hb|Hb].
  2:{ assert (Hb' : nth b (map (in_unit (-30)) vecs) [] = []) by (rewrite nth_unit in *; destruct (nth b vecs []); [reflexivity|discriminate Hb]).
      unfold among. rewrite Hb, Hb', !l2_nil_r. split; reflexivity. }
  rewrite forallb_forall in K. specialize (K a ltac:(apply in_seq; lia)). rewrite forallb_forall in K. specialize (K b ltac:(apply in_seq; lia)). apply andb_true_iff in K. exact K.
Qed.

Lemma graphs_case : by_comparisons isort /\ rescaled (2 * -30) (vecs_space 0) (vecs_space (-30)) /\
  Forall2 (rescaled_choice (2 * -30)) [vecs_choice 0] [vecs_choice (-30)] /\
  (forall a b, roomy f12 (sp_pd (vecs_space 0) a b) /\ roomy f12 (sp_pd (vecs_space (-30)) a b)) /\
  (forall x, In x (hc_centroid (vecs_choice 0)) -> roomy f12 x /\ roomy f12 (fscale (2 * -30) x)) /\
  (do r <- rng_build isort (vecs_space (-30)) (seq 100 16) (hc_centroid (vecs_choice (-30))) (seq 0 16); Ok (length (ix_graph (fst r)), snd r)) = Ok (16, 4) /\
  (do r <- hnsw_build isort (mkB 10 4 750 f12 0) (vecs_space (-30)) (seq 100 16) [vecs_choice (-30)]; Ok (map (fun ix => firstn 3 (ix_graph ix)) r)) = Ok [[[2; 10; 11]; [3; 8; 13; 2]; [0; 4; 1; 7]]].
Proof.
  split; [exact isort_by_comparisons|]. split; [exact vecs_rescaled|]. split; [constructor; [|constructor]; repeat split; apply centroid_scaled_down|]. split; [exact vecs_roomy|]. split.
  - assert (K : forallb (fun x => flt f12 (fdiv FLT_MAX x) && flt f12 (fdiv FLT_MAX (fscale (2 * -30) x))) (hc_centroid (vecs_choice 0)) = true) by (vm_compute; reflexivity).
    intros x Hx. rewrite forallb_forall in K. specialize (K x Hx). apply andb_true_iff in K. exact K.
  - split; [vm_compute; reflexivity|]. vm_compute. reflexivity.
Qed.

(** Two measures that order ten points on a line alike: the square of the distance to 3 and its fourth power. *)
Definition fourth (a : nat) : f32 := f32_of_Z (((Z.of_nat a - 3) ^ 4)%Z).

Lemma fourth_case : same_order 10 (fun a => line_pd a 3) fourth /\ finite_distances 10 (fun a => line_pd a 3) /\ finite_distances 10 fourth.
Proof.
  split; [|split].
  - intros a b Ha Hb. do 10 (destruct a as [|a]; [do 10 (destruct b as [|b]; [vm_compute; reflexivity|]); lia|]). lia.
  - split; [intros; apply f32_of_Z_not_nan|]. intros a Ha. do 10 (destruct a as [|a]; [vm_compute; reflexivity|]). lia.
  - split; [intros; apply f32_of_Z_not_nan|]. intros a Ha. do 10 (destruct a as [|a]; [vm_compute; reflexivity|]). lia.
Qed.

(** ** Factors that change the answers *)
Definition pair_index : gindex := mkI 2 [100; 101] (mkL [] true "0"%string) [] 0 [[1]; [0]].

Lemma pair_ok : index_ok pair_index.
Proof.
  split; [cbn; lia|]. split; [|split; [reflexivity|split; [cbn; lia|intros x id []]]].
  split; [reflexivity|]. intros x l y Hx Hy. cbn [ix_n pair_index]. unfold ix_graph, pair_index in Hx.
  do 2 (destruct x as [|x]; [cbn in Hx; injection Hx as <-; cbn in Hy; lia|]). destruct x; discriminate.
Qed.

Definition two : fred := FAdd (FItem 0) (FItem 1).
Definition near_tie : list (list f32) := [[f32_of_Z 3243; f32_of_Z 3855]; [f32_of_Z 5025; f32_of_Z 357]].
Definition tripled (v : list f32) : list f32 := map (fmul (f32_of_Z 3)) v.
Definition origin : list f32 := [f32_zero; f32_zero].

Lemma factor_three : exists ix t data q, index_ok ix /\ contracts (DistModel.RAdd (DistModel.RItem 0) (DistModel.RItem 1)) t /\
  vamana_search isort ix (from t data q) 2 1 [] [0] [f32_zero] = Ok ([101], [f32_of_Z 25378072], 1) /\
  vamana_search isort ix (from t (map tripled data) (tripled q)) 2 1 [] [0] [f32_zero] = Ok ([100], [f32_of_Z 228402656], 1) /\
  from t data q 0 = f32_of_Z 25378074 /\ from t (map tripled data) (tripled q) 1 = f32_of_Z 228402672.
Proof.
  exists pair_index, two, near_tie, origin. split; [exact pair_ok|]. split; [apply CAdd; constructor|].
  split; [vm_compute; reflexivity|]. split; [vm_compute; reflexivity|]. split; vm_compute; reflexivity.
Qed.

(** Coordinates 1 and 2, multiplied by 2^-80: still exact floats, but the squares are too small for a float. *)
Lemma too_small : exists ix t data q k, index_ok ix /\ contracts (DistModel.RItem 0) t /\
  Forall (Forall (fun x => x = f32_of_Z 1 \/ x = f32_of_Z 2)) data /\ (forall v x, In v data -> In x v -> valid_binary prec emax (fscale k x) = true) /\
  vamana_search isort ix (from t data q) 2 1 [] [0] [f32_zero] = Ok ([100], [f32_of_Z 1], 1) /\
  vamana_search isort ix (from t (map (in_unit k) data) (in_unit k q)) 2 1 [] [0] [f32_zero] = Ok ([101], [f32_zero], 1).
Proof.
  exists pair_index, (FItem 0), [[f32_of_Z 1]; [f32_of_Z 2]], [f32_zero], (-80)%Z. split; [exact pair_ok|]. split; [constructor|].
  split; [apply Forall_forall; intros v [<-|[<-|[]]]; (constructor; [auto|constructor])|]. split; [intros v x [<-|[<-|[]]] [<-|[]]; vm_compute; reflexivity|]. split; vm_compute; reflexivity.
Qed.
