(** * C124: twelve points in two orders. *)
From Coq Require Import ZArith String List Arith Lia Bool Sorting.Sorted Sorting.Permutation.
From Verif Require Import Base Float32 Float32Facts PoolModel SortSpec SortInst TopKSpec GraphSpec GreedyModel SearchSpec SearchModel PruneModel BuildModel VamanaModel RngModel HnswModel HnswSpec BuildWitness FlatSpec IvfModel IvfProofs ClosestSpec PopInst
  LshModel LshProofs LongerSpec LongerBuilt LongerCases RenameSpec RenameProofs.
Import ListNotations.

Lemma ins_map : forall f x l, (forall y, ndist (f y) = ndist y) -> ins_nb (f x) (map f l) = map f (ins_nb x l).
Proof. intros f x l H. induction l as [|y l IH]; cbn; [reflexivity|]. rewrite !H. destruct (flt (ndist y) (ndist x)); cbn; [rewrite IH|]; reflexivity. Qed.

Lemma isort_distances : by_distances_only isort.
Proof. intros f l H. induction l as [|x l IH]; cbn; [reflexivity|]. rewrite IH. apply ins_map. exact H. Qed.

(** The points, as a data file could list them, and in the opposite order. *)
Definition spots : list place :=
  [(28, 29, 28); (12, 11, 30); (11, 6, 28); (19, 9, 5); (2, 25, 28); (10, 0, 4); (3, 2, 12); (15, 1, 29); (20, 28, 12); (14, 18, 31); (0, 5, 29); (17, 26, 5)]%Z.
Definition spots' : list place := rev spots.
Definition back (x : nat) : nat := 11 - x.
Definition spot_space (l : list place) : space := mkSp 12 (fun a b => apart2 (nth a l (0, 0, 0)%Z) (nth b l (0, 0, 0)%Z)) false (mkL [] true "0"%string).
(** Squared distances to the centroid (151, 160, 241) / 12. *)
Definition spot_centre : list f32 :=
  map (fun z => fdiv (f32_of_Z z) (f32_of_Z 144)) [78594; 14994; 17130; 41394; 44754; 63810; 41130; 34194; 48306; 20586; 44250; 58674]%Z.
Definition spot_from (l : list place) (q : place) (x : nat) : f32 := apart2 (nth x l (0, 0, 0)%Z) q.

Lemma back_ok : forall n, n = 12 -> renumbering n back.
Proof. intros n ->. unfold back. split; intros; lia. Qed.

Lemma rev_moved : forall (A : Type) (l : list A), length l = 12 -> moved 12 back l (rev l).
Proof.
  intros A l H. split; [exact H|]. split; [rewrite rev_length; exact H|]. intros x Hx. do 12 (destruct l as [|? l]; [discriminate|]). destruct l; [|discriminate].
  do 12 (destruct x as [|x]; [reflexivity|]). lia.
Qed.

Lemma spots_at : forall x, x < 12 -> nth (back x) spots' (0, 0, 0)%Z = nth x spots (0, 0, 0)%Z.
Proof. intros x Hx. do 12 (destruct x as [|x]; [reflexivity|]). lia. Qed.

Lemma spots_reordered : reordered back (spot_space spots) (spot_space spots').
Proof.
  constructor; cbn [spot_space sp_n sp_pd sp_filtered sp_labels pts_to_labels]; auto.
  - apply back_ok. reflexivity.
  - intros a b Ha Hb. rewrite !spots_at by assumption. reflexivity.
  - discriminate.
Qed.

Definition no_ties_b (n : nat) (pd : nat -> nat -> f32) : bool := forallb (fun x => all_apart n (fun j => pd j x)) (seq 0 n).
Lemma no_ties_b_ok : forall n pd, no_ties_b n pd = true -> forall x, x < n -> no_ties n (fun j => pd j x).
Proof. intros n pd H x Hx. apply all_apart_ok. unfold no_ties_b in H. rewrite forallb_forall in H. apply (H x). apply in_seq. lia. Qed.

Lemma spots_no_ties : forall x, x < 12 -> no_ties 12 (fun j => sp_pd (spot_space spots) j x).
Proof. apply no_ties_b_ok. vm_compute. reflexivity. Qed.

Lemma spot_centre_differ : values_differ spot_centre.
Proof.
  assert (T : no_ties 12 (fun i => nth i spot_centre f32_zero)) by (apply all_apart_ok; vm_compute; reflexivity).
  intros i j d e Hi Hj E. apply T.
  - apply (proj1 (nth_error_Some spot_centre i)). rewrite Hi. discriminate.
  - apply (proj1 (nth_error_Some spot_centre j)). rewrite Hj. discriminate.
  - rewrite (nth_error_nth _ _ f32_zero Hi), (nth_error_nth _ _ f32_zero Hj). exact E.
Qed.

Lemma spot_centre_num : forall l, (forall d, In d l -> In d spot_centre) -> forall d, In d l -> is_nan d = false.
Proof.
  intros l H d Hd. assert (K : forallb (fun d => negb (is_nan d)) spot_centre = true) by (vm_compute; reflexivity).
  rewrite forallb_forall in K. apply negb_true_iff. apply K. apply H. exact Hd.
Qed.

Lemma spots_rng_ok : rng_input_ok isort (spot_space spots) (seq 100 12) spot_centre (seq 0 12).
Proof.
  constructor; try reflexivity; cbn [spot_space sp_n sp_pd sp_filtered]; try discriminate; try lia.
  - exact isort_sorts.
  - intros a b. apply apart2_not_nan.
  - apply spot_centre_num. auto.
Qed.

Lemma spots_rng_ok' : rng_input_ok isort (spot_space spots') (rev (seq 100 12)) (rev spot_centre) (seq 0 12).
Proof.
  constructor; try reflexivity; cbn [spot_space sp_n sp_pd sp_filtered]; try discriminate; try lia.
  - exact isort_sorts.
  - intros a b. apply apart2_not_nan.
  - apply spot_centre_num. intros d Hd. apply in_rev. exact Hd.
Qed.

Definition rng_of (r : res (gindex * nat)) : gindex := match r with Ok (ix, _) => ix | _ => mkI 0 [] (mkL [] true "0"%string) [] 0 [] end.
Definition spot_rng : gindex := rng_of (rng_build isort (spot_space spots) (seq 100 12) spot_centre (seq 0 12)).
Definition spot_rng' : gindex := rng_of (rng_build isort (spot_space spots') (rev (seq 100 12)) (rev spot_centre) (seq 0 12)).

Lemma spots_rng_case : rng_input_ok isort (spot_space spots) (seq 100 12) spot_centre (seq 0 12) /\
  rng_input_ok isort (spot_space spots') (rev (seq 100 12)) (rev spot_centre) (seq 0 12) /\ reordered back (spot_space spots) (spot_space spots') /\
  moved 12 back (seq 100 12) (rev (seq 100 12)) /\ moved 12 back spot_centre (rev spot_centre) /\
  (forall x, x < 12 -> no_ties 12 (fun j => sp_pd (spot_space spots) j x)) /\ values_differ spot_centre /\
  nth_error (ix_graph spot_rng) 0 = Some [8; 9] /\ nth_error (ix_graph spot_rng') 11 = Some [3; 2] /\
  seen (rng_search isort spot_rng (spot_from spots (18, 1, 4)%Z) 4 2 [] [0; 0] [f32_zero; f32_zero]) = Ok ([105; 103], 2) /\
  seen (rng_search isort spot_rng' (spot_from spots' (18, 1, 4)%Z) 4 2 [] [0; 0] [f32_zero; f32_zero]) = Ok ([105; 103], 2).
Proof.
  split; [exact spots_rng_ok|]. split; [exact spots_rng_ok'|]. split; [exact spots_reordered|]. split; [apply rev_moved; reflexivity|]. split; [apply rev_moved; reflexivity|].
  split; [exact spots_no_ties|]. split; [exact spot_centre_differ|]. split; [vm_compute; reflexivity|]. split; [vm_compute; reflexivity|]. split; vm_compute; reflexivity.
Qed.

(** ** Searches in renumbered objects *)
Lemma finite_b_ok : forall n dist, (forall x, is_nan (dist x) = false) -> forallb (fun x => flt (dist x) FLT_MAX) (seq 0 n) = true -> finite_distances n dist.
Proof. intros n dist H1 H2. split; [exact H1|]. intros x Hx. rewrite forallb_forall in H2. apply H2. apply in_seq. lia. Qed.

(** Five points with labels and entry points for them; [flip] counts them from the other end. *)
Definition flip (x : nat) : nat := 4 - x.
Definition gate : gindex :=
  mkI 5 (seq 100 5) (mkL [["a"]; ["b"]; ["a"]; ["b"]; ["a"; "b"]]%string false "0"%string) [("a"%string, 0); ("b"%string, 1)] 0 [[2]; [3; 4]; [1; 4]; []; []].
Definition gate' : gindex :=
  mkI 5 (rev (seq 100 5)) (mkL [["a"; "b"]; ["b"]; ["a"]; ["b"]; ["a"]]%string false "0"%string) [("a"%string, 4); ("b"%string, 3)] 4 [[]; []; [3; 0]; [1; 0]; [2]].
Definition gate_far (x : nat) : f32 := far_table [9; 7; 5; 3; 4]%Z x.
Definition gate_far' (x : nat) : f32 := far_table [4; 3; 5; 7; 9]%Z x.

Lemma gate_ok : index_ok gate.
Proof.
  split; [cbn; lia|]. split; [|split; [reflexivity|split; [cbn; lia|]]].
  - split; [reflexivity|]. intros x l y Hx Hy. cbn [ix_n gate]. unfold ix_graph, gate in Hx.
    do 5 (destruct x as [|x]; [cbn in Hx; injection Hx as <-; cbn in Hy; lia|]). destruct x; discriminate.
  - intros x id [E|[E|[]]]; injection E as _ <-; cbn; lia.
Qed.

Lemma gate_renumbered : renumbered flip gate gate'.
Proof.
  constructor; cbn [gate gate' ix_n ix_tags ix_graph ix_start ix_medoids ix_labels universal_label use_universal_label]; auto.
  - unfold flip. split; intros; lia.
  - split; [reflexivity|]. split; [reflexivity|]. intros x Hx. do 5 (destruct x as [|x]; [reflexivity|]). lia.
  - split; [reflexivity|]. split; [reflexivity|]. intros x l Hx. do 5 (destruct x as [|x]; [cbn in Hx; injection Hx as <-; reflexivity|]). destruct x; discriminate.
Qed.

Lemma gate_case : index_ok gate /\ renumbered flip gate gate' /\ by_distances_only isort /\
  moved (ix_n gate) flip (pts_to_labels (ix_labels gate)) (pts_to_labels (ix_labels gate')) /\
  finite_distances (ix_n gate) gate_far /\ finite_distances (ix_n gate) gate_far' /\ (forall x, x < ix_n gate -> gate_far' (flip x) = gate_far x) /\
  seen (vamana_search isort gate gate_far 3 2 ["b"%string] [0; 0] [f32_zero; f32_zero]) = Ok ([103; 104], 2) /\
  seen (vamana_search isort gate' gate_far' 3 2 ["b"%string] [0; 0] [f32_zero; f32_zero]) = Ok ([103; 104], 2).
Proof.
  split; [exact gate_ok|]. split; [exact gate_renumbered|]. split; [exact isort_distances|]. split.
  - split; [reflexivity|]. split; [reflexivity|]. intros x Hx. cbn [ix_n gate] in Hx. do 5 (destruct x as [|x]; [reflexivity|]). lia.
  - split; [apply finite_b_ok; [apply far_table_nan|reflexivity]|]. split; [apply finite_b_ok; [apply far_table_nan|reflexivity]|].
    split; [intros x Hx; cbn [ix_n gate] in Hx; do 5 (destruct x as [|x]; [reflexivity|]); lia|]. split; vm_compute; reflexivity.
Qed.

(** Two levels: the five points above, and below them points 0, 2 and 4.  Counted from the other end below as well. *)
Definition cellar : gindex := mkI 3 [0; 2; 4] (mkL [] true "0"%string) [] 0 [[1]; [0; 2]; [1]].
Definition cellar' : gindex := mkI 3 [0; 2; 4] (mkL [] true "0"%string) [] 2 [[1]; [2; 0]; [1]].
Definition flip3 (x : nat) : nat := 2 - x.

Lemma cellar_case : levels_ok [gate; cellar] /\ levels_renumbered (fun t => t) [flip; flip3] [gate; cellar] [gate'; cellar'] /\
  seen (hnsw_search isort [gate; cellar] gate_far 2 2 [] [0; 0] [f32_zero; f32_zero]) = Ok ([104; 102], 2) /\
  seen (hnsw_search isort [gate'; cellar'] gate_far' 2 2 [] [0; 0] [f32_zero; f32_zero]) = Ok ([104; 102], 2).
Proof.
  split.
  - split; [exact gate_ok|]. split; [intros t [<-|[<-|[<-|[]]]]; cbn; lia|]. split; [|exact I].
    split; [cbn; lia|]. split; [|split; [reflexivity|split; [cbn; lia|intros x id []]]].
    split; [reflexivity|]. intros x l y Hx Hy. cbn [ix_n cellar]. unfold ix_graph, cellar in Hx.
    do 3 (destruct x as [|x]; [cbn in Hx; injection Hx as <-; cbn in Hy; lia|]). destruct x; discriminate.
  - split; [|split; vm_compute; reflexivity]. destruct gate_renumbered as [G1 G2 G3 G4 G5 _ _].
    split; [exact G1|]. split; [exact G2|]. split; [rewrite map_id; exact G3|]. split; [exact G4|]. split; [exact G5|].
    split; [reflexivity|]. split; [unfold flip3; split; cbn [ix_n cellar]; intros; lia|]. split; [|split; [|split; [reflexivity|exact I]]].
    + split; [reflexivity|]. split; [reflexivity|]. cbn [ix_n cellar]. intros x Hx. do 3 (destruct x as [|x]; [reflexivity|]). lia.
    + split; [reflexivity|]. split; [reflexivity|]. intros x l Hx. do 3 (destruct x as [|x]; [cbn in Hx; injection Hx as <-; reflexivity|]). destruct x; discriminate.
Qed.

(** Inverted lists. *)
Definition bins : ivf_index := mkIvf 5 (seq 100 5) 2 [[0; 1]; [2; 3; 4]] (mkL [] true "0"%string).
Definition bins' : ivf_index := mkIvf 5 (rev (seq 100 5)) 2 [[3; 4]; [0; 1; 2]] (mkL [] true "0"%string).
Definition bin_far : nat -> f32 := far_table [8; 2]%Z.

Lemma bins_case : ivf_ok bins /\ renumbering (ivf_n bins) flip /\
  Forall2 (fun l l' => forall y, In y l' <-> exists x, In x l /\ flip x = y) (ivf_inv bins) (ivf_inv bins') /\
  no_ties (ivf_nc bins) bin_far /\ (exists c, c < ivf_nc bins /\ flt (bin_far c) FLT_MAX = true) /\ no_ties (ivf_n bins) gate_far /\ pops pop_all /\
  (do r <- ivf_search pop_all 10 bins bin_far gate_far 1 2 [] [9; 9] None; Ok (fst (fst (fst r)))) = Ok [3; 4] /\
  (do r <- ivf_search pop_all 10 bins' bin_far gate_far' 1 2 [] [9; 9] None; Ok (fst (fst (fst r)))) = Ok [1; 0].
Proof.
  split. { split; [reflexivity|]. intros l id [<-|[<-|[]]] H; cbn in *; lia. }
  split; [unfold flip; split; cbn [ivf_n bins]; intros; lia|]. split.
  - constructor; [|constructor; [|constructor]]; intros y; split.
    + intros [<-|[<-|[]]]; [exists 1|exists 0]; split; try reflexivity; cbn; auto.
    + intros [x [[<-|[<-|[]]] <-]]; cbn; auto.
    + intros [<-|[<-|[<-|[]]]]; [exists 4|exists 3|exists 2]; split; try reflexivity; cbn; auto.
    + intros [x [[<-|[<-|[<-|[]]]] <-]]; cbn; auto.
  - split; [apply all_apart_ok; reflexivity|]. split; [exists 0; split; [cbn; lia|reflexivity]|]. split; [apply all_apart_ok; reflexivity|]. split; [exact pop_all_pops|].
    split; vm_compute; reflexivity.
Qed.

(** Hash tables: four points, two tables of two planes. *)
Definition wall_planes : list (list (list N)) :=
  [[[1065353216; 1065353216]; [1065353216; 3212836864]]; [[1065353216; 0]; [0; 1065353216]]]%N.
Definition wall_points : list (list f32) := [[f32_of_Z 1; f32_of_Z 2]; [f32_of_Z 2; f32_of_Z 1]; [f32_of_Z (-3); f32_of_Z 1]; [f32_of_Z (-1); f32_of_Z (-4)]].
Definition wall : lsh_index := mkLsh 4 (seq 0 4) (mkL [] true "0"%string) 0%N 0%N [].
Definition turn (x : nat) : nat := 3 - x.
Definition wall_far : nat -> f32 := far_table [4; 2; 7; 9]%Z.
Definition wall_far' : nat -> f32 := far_table [9; 7; 2; 4]%Z.

Lemma wall_case : lsh_new wall /\ renumbering (l_n wall) turn /\ (forall x, x < l_n wall -> nth (turn x) (rev wall_points) [] = nth x wall_points []) /\
  finite_distances (l_n wall) wall_far /\ finite_distances (l_n wall) wall_far' /\ (forall x, x < l_n wall -> wall_far' (turn x) = wall_far x) /\ no_ties (l_n wall) wall_far /\
  (do a <- lsh_build seq_dot (fun x => nth x wall_points []) 2 wall_planes wall; do r <- lsh_search seq_dot a [f32_of_Z 1; f32_of_Z 3] wall_far 2 [] [9; 9] None; Ok (fst (fst (fst (fst r))))) = Ok [1; 0] /\
  (do a <- lsh_build seq_dot (fun x => nth x (rev wall_points) []) 2 wall_planes wall; do r <- lsh_search seq_dot a [f32_of_Z 1; f32_of_Z 3] wall_far' 2 [] [9; 9] None; Ok (fst (fst (fst (fst r))))) = Ok [2; 3].
Proof.
  split; [reflexivity|]. split; [unfold turn; split; cbn [l_n wall]; intros; lia|]. split; [intros x Hx; cbn [l_n wall] in Hx; do 4 (destruct x as [|x]; [reflexivity|]); lia|].
  split; [apply finite_b_ok; [apply far_table_nan|reflexivity]|]. split; [apply finite_b_ok; [apply far_table_nan|reflexivity]|].
  split; [intros x Hx; cbn [l_n wall] in Hx; do 4 (destruct x as [|x]; [reflexivity|]); lia|]. split; [apply all_apart_ok; reflexivity|].
  split; vm_compute; reflexivity.
Qed.

(** ** The build of a Vamana index *)
Definition spot_input (l : list place) (tags : list nat) (centre : list f32) : vinput :=
  mkV isort (spot_space l) (mkB 10 2 750 f12 0) tags centre [] (one_thread 12 40) (seq 0 12).

Lemma spot_input_ok : forall l tags centre, length tags = 12 -> length centre = 12 -> (forall d, In d centre -> In d spot_centre) -> vinput_ok (spot_input l tags centre).
Proof.
  intros l tags centre Ht Hc Hd.
  constructor; cbn [spot_input spot_space vi_sort vi_sp vi_prm vi_tags vi_centroid vi_work vi_sched vi_order sp_n sp_pd sp_filtered sp_labels pts_to_labels bp_L]; auto; try lia; try discriminate.
  - exact isort_sorts.
  - intros a b. apply apart2_not_nan.
  - apply spot_centre_num. exact Hd.
  - intros x r [].
  - intros i Hi. unfold one_thread in Hi. apply in_concat in Hi. destruct Hi as [k [Hk Hi]]. apply in_map_iff in Hk.
    destruct Hk as [j [<- Hj]]. apply repeat_spec in Hi. subst. apply in_seq in Hj. lia.
Qed.

(** The data in the opposite order, no two distances equal, one thread, the same parameters and the same query: another answer. *)
Lemma vamana_order_matters : exists p v v' ix ix' md md' q,
  vinput_ok v /\ vinput_ok v' /\ reordered p (vi_sp v) (vi_sp v') /\ moved (sp_n (vi_sp v)) p (vi_tags v) (vi_tags v') /\ moved (sp_n (vi_sp v)) p (vi_centroid v) (vi_centroid v') /\
  vi_prm v' = vi_prm v /\ vi_sort v' = vi_sort v /\ vi_work v = [] /\ vi_work v' = [] /\ vi_sched v' = vi_sched v /\ vi_order v' = vi_order v /\
  (forall x, x < sp_n (vi_sp v) -> no_ties (sp_n (vi_sp v)) (fun j => sp_pd (vi_sp v) j x)) /\ values_differ (vi_centroid v) /\
  no_ties (sp_n (vi_sp v)) (spot_from spots q) /\ (forall x, x < sp_n (vi_sp v) -> spot_from spots' q (p x) = spot_from spots q x) /\
  vamana_build v = Ok (ix, md) /\ vamana_build v' = Ok (ix', md') /\
  vamana_search (vi_sort v) ix (spot_from spots q) 2 1 [] [0] [f32_zero] = Ok ([105], [f32_of_Z 65], 1) /\
  vamana_search (vi_sort v) ix' (spot_from spots' q) 2 1 [] [0] [f32_zero] = Ok ([107], [f32_of_Z 634], 1).
Proof.
  exists back, (spot_input spots (seq 100 12) spot_centre), (spot_input spots' (rev (seq 100 12)) (rev spot_centre)),
    (rng_of (vamana_build (spot_input spots (seq 100 12) spot_centre))), (rng_of (vamana_build (spot_input spots' (rev (seq 100 12)) (rev spot_centre)))), 2, 2, (18, 1, 4)%Z.
  split; [apply spot_input_ok; auto|]. split; [apply spot_input_ok; try reflexivity; intros d Hd; apply in_rev; exact Hd|].
  split; [exact spots_reordered|]. split; [apply rev_moved; reflexivity|]. split; [apply rev_moved; reflexivity|].
  do 6 (split; [reflexivity|]). split; [exact spots_no_ties|]. split; [exact spot_centre_differ|].
  split; [apply all_apart_ok; vm_compute; reflexivity|]. split; [intros x Hx; unfold spot_from; f_equal; apply spots_at; exact Hx|].
  split; [vm_compute; reflexivity|]. split; [vm_compute; reflexivity|]. split; vm_compute; reflexivity.
Qed.

(** ** Ties *)
(** Twelve points on a line, one apart. *)
Definition row : list place := map (fun i => (Z.of_nat i, 0, 0)%Z) (seq 0 12).
Definition row_centre (l : list place) : list f32 := map (fun p => apart2 p (4, 0, 0)%Z) l.

Lemma row_at : forall x, x < 12 -> nth (back x) (rev row) (0, 0, 0)%Z = nth x row (0, 0, 0)%Z.
Proof. intros x Hx. do 12 (destruct x as [|x]; [reflexivity|]). lia. Qed.

Lemma ties_matter : exists p sp sp' tags tags' c c' order ix ix' md q,
  rng_input_ok isort sp tags c order /\ rng_input_ok isort sp' tags' c' order /\ reordered p sp sp' /\ moved (sp_n sp) p tags tags' /\ moved (sp_n sp) p c c' /\
  (forall x, x < sp_n sp -> spot_from (rev row) q (p x) = spot_from row q x) /\
  rng_build isort sp tags c order = Ok (ix, md) /\ rng_build isort sp' tags' c' order = Ok (ix', md) /\
  rng_search isort ix (spot_from row q) 3 2 [] [0; 0] [f32_zero; f32_zero] = Ok ([104; 105], [f32_zero; f32_one], 2) /\
  rng_search isort ix' (spot_from (rev row) q) 3 2 [] [0; 0] [f32_zero; f32_zero] = Ok ([104; 103], [f32_zero; f32_one], 2).
Proof.
  assert (K : forall l tags, length l = 12 -> length tags = 12 -> rng_input_ok isort (spot_space l) tags (row_centre l) (seq 0 12)).
  { intros l tags Hl Ht. constructor; try reflexivity; cbn [spot_space sp_n sp_pd sp_filtered]; try discriminate; try lia.
    - exact isort_sorts.
    - intros a b. apply apart2_not_nan.
    - unfold row_centre. rewrite map_length. exact Hl.
    - intros d Hd. apply in_map_iff in Hd. destruct Hd as [x [<- _]]. apply apart2_not_nan. }
  exists back, (spot_space row), (spot_space (rev row)), (seq 100 12), (rev (seq 100 12)), (row_centre row), (row_centre (rev row)), (seq 0 12),
    (rng_of (rng_build isort (spot_space row) (seq 100 12) (row_centre row) (seq 0 12))),
    (rng_of (rng_build isort (spot_space (rev row)) (rev (seq 100 12)) (row_centre (rev row)) (seq 0 12))), 2, (4, 0, 0)%Z.
  split; [apply K; reflexivity|]. split; [apply K; reflexivity|]. split.
  { constructor; cbn [spot_space sp_n sp_pd sp_filtered sp_labels pts_to_labels]; auto; [apply back_ok; reflexivity| |discriminate].
    intros a b Ha Hb. rewrite !row_at by assumption. reflexivity. }
  split; [apply rev_moved; reflexivity|]. split; [unfold row_centre; rewrite map_rev; apply rev_moved; reflexivity|].
  split; [intros x Hx; unfold spot_from; f_equal; apply row_at; exact Hx|].
  split; [vm_compute; reflexivity|]. split; [vm_compute; reflexivity|]. split; vm_compute; reflexivity.
Qed.
