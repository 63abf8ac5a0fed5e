(** * C123: concrete cases, and builds whose searches miss by a factor of a thousand. *)
From Coq Require Import ZArith Reals Lra String List Arith Lia Bool Sorting.Permutation Floats.SpecFloat.
From Verif Require Import Base Float32 Float32Facts PoolModel SortSpec SortInst GraphSpec GreedyModel SearchSpec SearchModel PruneModel BuildModel VamanaModel BuildWitness LongerBuilt RngModel RngProofs FilterSpec DistSpec DistModel FusedModel
  DivFacts RealSpec RealDistProofs MeanProofs3 UnitsSpec UnitsCases ApproxSpec ApproxProofs ApproxProofs2 ApproxProofs3.
Import ListNotations.

(** ** Vectors of three small integers *)
Definition ints3 (p : place) : list Z := let '(a, b, c) := p in [a; b; c].
Definition small3 (p : place) : Prop := let '(a, b, c) := p in (Z.abs a <= 2 ^ 24 /\ Z.abs b <= 2 ^ 24 /\ Z.abs c <= 2 ^ 24)%Z.
Definition small3_b (p : place) : bool := let '(a, b, c) := p in ((Z.abs a <=? 2 ^ 24) && (Z.abs b <=? 2 ^ 24) && (Z.abs c <=? 2 ^ 24))%Z.
Definition sq3 (p q : place) : Z := sq_dist (ints3 p) (ints3 q).

Lemma small3_ok : forall l, forallb small3_b l = true -> forall p, In p l -> small3 p.
Proof. intros l H p Hp. rewrite forallb_forall in H. specialize (H p Hp). destruct p as [[a b] c]. cbn in *. rewrite !andb_true_iff, !Z.leb_le in H. tauto. Qed.

Lemma small_int : forall z, (Z.abs z <= 2 ^ 24)%Z -> finite (f32_of_Z z) /\ f32_valid (f32_of_Z z) = true /\ real (f32_of_Z z) = IZR z.
Proof. intros z H. apply of_Z_int. exact H. Qed.

Lemma vec_ints : forall p, small3 p -> holds_ints (vec p) (ints3 p) /\ (forall x, In x (vec p) -> finite x /\ f32_valid x = true).
Proof.
  intros [[a b] c] [Ha [Hb Hc]]. destruct (small_int a Ha) as [Fa [Va Ra]]. destruct (small_int b Hb) as [Fb [Vb Rb]]. destruct (small_int c Hc) as [Fc [Vc Rc]].
  assert (G : forall x k, finite x -> real x = IZR k -> match x with S754_infinity _ | S754_nan => False | _ => real x = IZR k end) by (intros [s|s| |s m e] k F R; cbn in F; auto).
  split; [repeat constructor; apply G; auto|]. intros x [<-|[<-|[<-|[]]]]; auto.
Qed.

Lemma vec_dist : forall p q, small3 p -> small3 q -> l2_dist (vec p) (vec q) = sqrt (IZR (sq3 p q)).
Proof.
  intros p q Hp Hq. unfold l2_dist. f_equal. apply exact_l2_ints; [apply vec_ints, Hp|apply vec_ints, Hq|]. destruct p as [[a b] c], q as [[x y] z]. reflexivity.
Qed.

Lemma sq3_nonneg : forall p q, (0 <= sq3 p q)%Z.
Proof. intros [[a b] c] [[x y] z]. pose proof (Z.square_nonneg (a - x)). pose proof (Z.square_nonneg (b - y)). pose proof (Z.square_nonneg (c - z)). unfold sq3, ints3, sq_dist, zsum. cbn [combine map fst snd fold_right fold_left]. lia. Qed.

Definition nowhere : place := (0, 0, 0)%Z.

(** Shortcuts, decided on the squared distances. *)
Definition shortcuts_b (alpha : Z) (pts : list place) (g : list (list nat)) : bool :=
  forallb (fun x => forallb (fun y => (x =? y) || existsb (fun w => (w =? y) ||
    ((alpha * alpha * sq3 (nth w pts nowhere) (nth y pts nowhere) <=? sq3 (nth x pts nowhere) (nth y pts nowhere))%Z &&
     (sq3 (nth w pts nowhere) (nth y pts nowhere) <? sq3 (nth x pts nowhere) (nth y pts nowhere))%Z)) (nth x g [])) (seq 0 (length pts))) (seq 0 (length pts)).

Lemma nth_vec : forall pts x, x < length pts -> nth x (map vec pts) [] = vec (nth x pts nowhere).
Proof. intros pts x Hx. rewrite (nth_indep _ [] (vec nowhere)) by (rewrite map_length; exact Hx). apply map_nth. Qed.

Lemma shortcuts_ok : forall alpha pts g, (0 <= alpha)%Z -> forallb small3_b pts = true -> graph_ok (length pts) g -> shortcuts_b alpha pts g = true ->
  shortcuts (fun _ => true) (length pts) (fun x y => l2_dist (nth x (map vec pts) []) (nth y (map vec pts) [])) (IZR alpha) g.
Proof.
  intros alpha pts g Ha Hsm [Gl Gv] H x y Hx Hy _ _ Hne. unfold shortcuts_b in H. rewrite forallb_forall in H. specialize (H x ltac:(apply in_seq; lia)).
  rewrite forallb_forall in H. specialize (H y ltac:(apply in_seq; lia)). apply orb_true_iff in H. destruct H as [H|H]; [apply Nat.eqb_eq in H; contradiction|].
  apply existsb_exists in H. destruct H as [w [Hw H]].
  assert (En : nth_error g x = Some (nth x g [])) by (apply nth_error_nth'; lia).
  exists w. split; [exists (nth x g []); auto|]. apply orb_true_iff in H. destruct H as [H|H]; [left; apply Nat.eqb_eq, H|right].
  assert (Wn : w < length pts) by (eapply Gv; eauto). apply andb_true_iff in H. destruct H as [H1 H2]. apply Z.leb_le in H1. apply Z.ltb_lt in H2.
  pose proof (small3_ok pts Hsm) as S. rewrite !nth_vec by assumption. rewrite !vec_dist by (apply S, nth_In; assumption).
  pose proof (sq3_nonneg (nth w pts nowhere) (nth y pts nowhere)) as N. set (a := sq3 (nth w pts nowhere) (nth y pts nowhere)) in *. set (b := sq3 (nth x pts nowhere) (nth y pts nowhere)) in *.
  split.
  - rewrite <- (sqrt_square (IZR alpha)) by (apply IZR_le; exact Ha). rewrite <- mult_IZR, <- sqrt_mult_alt by (apply IZR_le; nia). rewrite <- mult_IZR. apply sqrt_le_1_alt, IZR_le. exact H1.
  - apply sqrt_lt_1_alt. split; apply IZR_le || apply IZR_lt; assumption.
Qed.

Lemma three_ok : exists t, Permutation (red_items t) (seq 0 3) /\ contracts t three.
Proof. exists (unc three). split; [|apply unc_contracts]. cbn. change (Permutation [2; 1; 0] [0; 1; 2]). eapply perm_trans; [apply perm_swap|]. eapply perm_trans; [apply perm_skip, perm_swap|]. apply perm_swap. Qed.

(** ** Twelve points on a grid *)
Definition spots : list place := map (fun i => (Z.of_nat (i mod 4), Z.of_nat (i / 4), 0)%Z) (seq 0 12).
Definition spot_vecs : list (list f32) := map vec spots.
(** The centroid is (1.5, 1, 0). *)
Definition spot_centroid : list f32 :=
  map (fun p => let '(a, b, c) := p in fdiv (f32_of_Z ((2 * a - 3) * (2 * a - 3) + (2 * b - 2) * (2 * b - 2) + 4 * c * c)) (f32_of_Z 4)) spots.
Definition spot_input : vinput :=
  mkV isort (mkSp 12 (among three spot_vecs) false (mkL [] true "0"%string)) (mkB 20 40 750 (f32_of_Z 4) 0) (seq 100 12) spot_centroid [] (one_thread 12 60) (seq 0 12).
Definition spot_index : gindex :=
  mkI 12 (seq 100 12) (mkL [] true "0"%string) [] 5
    [[5; 1; 2; 4; 8; 10]; [5; 0; 2; 3; 4; 6; 9; 11]; [1; 5; 0; 3; 6; 7; 8; 10]; [2; 1; 4; 6; 7; 9; 11]; [5; 0; 1; 3; 6; 8; 9];
     [0; 1; 2; 4; 1; 4; 2; 0; 6; 7; 8; 9; 10]; [5; 2; 1; 3; 4; 7; 9; 10; 11]; [6; 3; 2; 5; 10; 11]; [4; 5; 0; 2; 9; 10]; [5; 8; 4; 6; 1; 3; 10; 11];
     [6; 9; 5; 7; 2; 8; 0; 11]; [7; 10; 6; 9; 3; 1]].
Definition spot_query : list f32 := vec (9, 7, 5)%Z.

Lemma table_not_nan : forall data n, length data = n -> forallb (fun a => forallb (fun b => negb (is_nan (among three data a b))) (seq 0 n)) (seq 0 n) = true ->
  forall a b, is_nan (among three data a b) = false.
Proof.
  intros data n Hl K a b. destruct (far_index _ [] data a n Hl) as [Ha|Ha]; [|unfold among; rewrite Ha, l2_nil_l; reflexivity].
  destruct (far_index _ [] data b n Hl) as [Hb|Hb]; [|unfold among; rewrite Hb, l2_nil_r; reflexivity].
  rewrite forallb_forall in K. specialize (K a ltac:(apply in_seq; lia)). rewrite forallb_forall in K. specialize (K b ltac:(apply in_seq; lia)). apply negb_true_iff, K.
Qed.

Lemma row_not_nan : forall data q n, length data = n -> forallb (fun a => negb (is_nan (from three data q a))) (seq 0 n) = true ->
  forall a, is_nan (from three data q a) = false.
Proof.
  intros data q n Hl K a. destruct (far_index _ [] data a n Hl) as [Ha|Ha]; [|unfold from; rewrite Ha, l2_nil_l; reflexivity].
  rewrite forallb_forall in K. specialize (K a ltac:(apply in_seq; lia)). apply negb_true_iff, K.
Qed.

Lemma one_thread_lt : forall n k i, In i (one_thread n k) -> i < n.
Proof.
  intros n k i Hi. unfold one_thread in Hi. apply in_concat in Hi. destruct Hi as [l [Hl' Hi]]. apply in_map_iff in Hl'.
  destruct Hl' as [j [<- Hj]]. apply repeat_spec in Hi. subst. apply in_seq in Hj. lia.
Qed.

Lemma vectors_input_ok : forall data n cent L R al k, length data = n -> 10 <= n -> 1 <= L ->
  forallb (fun a => forallb (fun b => negb (is_nan (among three data a b))) (seq 0 n)) (seq 0 n) = true ->
  length cent = n -> forallb (fun d => negb (is_nan d)) cent = true ->
  vinput_ok (mkV isort (mkSp n (among three data) false (mkL [] true "0"%string)) (mkB L R 750 al 0) (seq 100 n) cent [] (one_thread n k) (seq 0 n)).
Proof.
  intros data n cent L R al k Hl Hn HL K Hc Kc.
  constructor; cbn [vi_sort vi_sp vi_prm vi_tags vi_centroid vi_work vi_sched vi_order sp_n sp_pd sp_filtered sp_labels pts_to_labels bp_L]; auto.
  - exact isort_sorts.
  - apply (table_not_nan data n Hl K).
  - apply seq_length.
  - intros d Hd. rewrite forallb_forall in Kc. apply negb_true_iff, Kc, Hd.
  - discriminate.
  - intros x r [].
  - apply one_thread_lt.
Qed.

Lemma spot_case : vinput_ok spot_input /\ of_vectors three spot_vecs (vi_sp spot_input) /\ vamana_build spot_input = Ok (spot_index, 13) /\ index_ok spot_index /\
  metric 12 (fun x y => l2_dist (nth x spot_vecs []) (nth y spot_vecs [])) (fun x => l2_dist (nth x spot_vecs []) spot_query) /\
  shortcuts (fun _ => true) 12 (fun x y => l2_dist (nth x spot_vecs []) (nth y spot_vecs [])) 2 (ix_graph spot_index) /\
  ordered_within 1 12 (fun x => l2_dist (nth x spot_vecs []) spot_query) (from three spot_vecs spot_query) /\
  (forall id, is_nan (from three spot_vecs spot_query id) = false) /\ guarantee 1 2 = 3%R.
Proof.
  assert (Sm : forallb small3_b ((9, 7, 5)%Z :: spots) = true) by (vm_compute; reflexivity).
  assert (Sp : forallb small3_b spots = true) by (vm_compute; reflexivity).
  assert (Gk : graph_ok 12 (ix_graph spot_index)).
  { split; [reflexivity|]. intros x nb y Hx Hy. assert (K : forallb (fun l => forallb (fun y => y <? 12) l) (ix_graph spot_index) = true) by (vm_compute; reflexivity).
    rewrite forallb_forall in K. specialize (K nb (nth_error_In _ _ Hx)). rewrite forallb_forall in K. apply Nat.ltb_lt, K, Hy. }
  assert (Qs : small3 (9, 7, 5)%Z) by (apply (small3_ok _ Sm); left; reflexivity).
  assert (Vs : forall v, In v spot_vecs -> exists p, In p spots /\ v = vec p) by (intros v Hv; apply in_map_iff in Hv; destruct Hv as [p [<- Hp]]; eauto).
  assert (Lv : forall p, length (vec p) = 3) by (intros [[a b] c]; reflexivity).
  destruct three_ok as [t [Ht1 Ht2]].
  split; [apply (vectors_input_ok spot_vecs 12); [reflexivity|lia|lia|vm_compute; reflexivity|reflexivity|vm_compute; reflexivity]|].
  split; [intros a b; reflexivity|]. split; [vm_compute; reflexivity|].
  split; [split; [cbn; lia|]; split; [exact Gk|]; split; [reflexivity|]; split; [cbn; lia|]; intros x id []|].
  split. { apply (l2_metric 3); [reflexivity|]. intros x Hx. destruct (Vs (nth x spot_vecs [])) as [p [_ ->]]; [apply nth_In; exact Hx|apply Lv]. }
  split. { apply (shortcuts_ok 2 spots); [lia|exact Sp|exact Gk|vm_compute; reflexivity]. }
  split. { apply (l2_ordered_ints t 3 three spot_vecs spot_query (map ints3 spots) (ints3 (9, 7, 5)%Z)); auto.
    - apply vec_ints, Qs.
    - intros x Hx. apply (vec_ints _ Qs). exact Hx.
    - unfold spot_vecs. pose proof (small3_ok _ Sp) as S. clear - S. induction spots as [|p l IH]; constructor; [apply vec_ints, S; left; reflexivity|apply IH; intros q Hq; apply S; right; exact Hq].
    - intros v Hv. destruct (Vs v Hv) as [p [Hp ->]]. split; [apply Lv|]. intros x Hx. apply (vec_ints p); auto. apply (small3_ok _ Sp), Hp.
    - assert (K : forallb (fun z => (sq_dist z (ints3 (9, 7, 5)%Z) <=? 2 ^ 24)%Z) (map ints3 spots) = true) by (vm_compute; reflexivity).
      intros z Hz. rewrite forallb_forall in K. apply Z.leb_le, K, Hz. }
  split; [apply (row_not_nan spot_vecs spot_query 12); [reflexivity|vm_compute; reflexivity]|]. unfold guarantee. lra.
Qed.

(** With a list of one, the answer to (9, 7, 5) is (3, 2, 0), the nearest. *)
Lemma spot_found : vamana_search isort spot_index (from three spot_vecs spot_query) 1 1 [] [0] [f32_zero] = Ok ([111], [f32_of_Z 86], 1).
Proof. vm_compute. reflexivity. Qed.

(** The same vectors meet the conditions of the theorem with roundings. *)
Lemma spot_clear : clear_vectors 3 three spot_vecs spot_query /\ (rounding 3 < 2)%R.
Proof.
  assert (Sm : forallb small3_b ((9, 7, 5)%Z :: spots) = true) by (vm_compute; reflexivity).
  assert (Vs : forall v, v = spot_query \/ In v spot_vecs -> exists p, In p ((9, 7, 5)%Z :: spots) /\ v = vec p).
  { intros v [->|Hv]; [exists (9, 7, 5)%Z; split; [left; reflexivity|reflexivity]|]. apply in_map_iff in Hv. destruct Hv as [p [<- Hp]]. exists p. split; [right; exact Hp|reflexivity]. }
  assert (Lv : forall p, length (vec p) = 3) by (intros [[a b] c]; reflexivity).
  split; [split; [vm_compute; discriminate|]; split|].
  - intros v Hv. destruct (Vs v Hv) as [p [Hp ->]]. split; [apply Lv|]. apply vec_ints. apply (small3_ok _ Sm), Hp.
  - intros v Hv. apply in_map_iff in Hv. destruct Hv as [p [<- Hq]]. destruct three_ok as [t [Ht1 Ht2]].
    pose proof (small3_ok _ Sm p (or_intror Hq)) as S. assert (Qs : small3 (9, 7, 5)%Z) by (apply (small3_ok _ Sm); left; reflexivity).
    assert (K : forallb (fun p => (1 <=? sq3 p (9, 7, 5))%Z && (sq3 p (9, 7, 5) <=? 2 ^ 24)%Z) spots = true) by (vm_compute; reflexivity).
    rewrite forallb_forall in K. specialize (K p Hq). apply andb_true_iff in K. destruct K as [K1 K2]. apply Z.leb_le in K1, K2. split.
    + destruct (vec_ints p S) as [I1 V1]. destruct (vec_ints _ Qs) as [I2 V2].
      destruct (l2_exact t three (vec p) spot_query (ints3 p) (ints3 (9, 7, 5)%Z)) as [r [E1 [E2 _]]]; auto; [exact (eq_ind_r (fun d => Permutation (red_items t) (seq 0 d)) Ht1 (Lv p))|intros x Hx; exact (proj2 (V1 x Hx))|intros x Hx; exact (proj2 (V2 x Hx))|].
      exists r. split; [exact E1|exact E2].
    + right. assert (E : exact_l2 (vec p) spot_query = IZR (sq3 p (9, 7, 5)%Z)) by (apply exact_l2_ints; [apply vec_ints, S|apply vec_ints, Qs|apply Lv]). rewrite E.
      apply Rle_trans with 1%R; [|apply IZR_le; exact K1]. apply Rle_trans with (powerRZ 2 0); [|cbn; lra].
      rewrite !powerRZ_Rpower by lra. apply Rle_Rpower; lra.
  - unfold rounding. assert (powerRZ 2 (-23) <= / 100)%R; [|cbn [INR]; lra].
    apply Rle_trans with (powerRZ 2 (-7)); [rewrite !powerRZ_Rpower by lra; apply Rle_Rpower; lra|]. change (powerRZ 2 (-7)) with (/ 2 ^ 7)%R. replace (2 ^ 7)%R with 128%R by ring. lra.
Qed.

(** ** Ten points on which list after list is full of far points *)
Definition deep : list place := map (fun i => (0, 1000, - Z.of_nat i)%Z) (seq 0 8) ++ [(64, 998, 0); (1, 0, 0)]%Z.
Definition deep_vecs : list (list f32) := map vec deep.
(** The centroid is (6.5, 899.8, -2.8). *)
Definition deep_centroid : list f32 :=
  map (fun p => let '(a, b, c) := p in fdiv (f32_of_Z ((10 * a - 65) * (10 * a - 65) + (10 * b - 8998) * (10 * b - 8998) + (10 * c + 28) * (10 * c + 28))) (f32_of_Z 100)) deep.
Definition deep_space : space := mkSp 10 (among three deep_vecs) false (mkL [] true "0"%string).
Definition deep_query : list f32 := vec (0, 0, 0)%Z.

Lemma deep_dist : l2_dist (nth 0 deep_vecs []) deep_query = 1000%R /\ l2_dist (nth 9 deep_vecs []) deep_query = 1%R.
Proof.
  assert (S : forall p, In p ((0, 0, 0)%Z :: deep) -> small3 p) by (apply small3_ok; vm_compute; reflexivity).
  change (nth 0 deep_vecs []) with (vec (0, 1000, 0)%Z). change (nth 9 deep_vecs []) with (vec (1, 0, 0)%Z). unfold deep_query.
  rewrite !vec_dist by (apply S; cbn; auto 20). split.
  - replace (sq3 (0, 1000, 0)%Z (0, 0, 0)%Z) with (1000 * 1000)%Z by reflexivity. rewrite mult_IZR. apply sqrt_square. lra.
  - replace (sq3 (1, 0, 0)%Z (0, 0, 0)%Z) with (1 * 1)%Z by reflexivity. rewrite mult_IZR. apply sqrt_square. lra.
Qed.

Lemma rng_far : exists data q sp cent ix md, length data = 10 /\ of_vectors three data sp /\ rng_input_ok isort sp (seq 100 10) cent (seq 0 10) /\
  rng_build isort sp (seq 100 10) cent (seq 0 10) = Ok (ix, md) /\
  rng_search isort ix (from three data q) 8 1 [] [0] [f32_zero] = Ok ([100], [f32_of_Z 1000000], 1) /\
  l2_dist (nth 0 data []) q = 1000%R /\ l2_dist (nth 9 data []) q = 1%R.
Proof.
  exists deep_vecs, deep_query, deep_space, deep_centroid. eexists. eexists. split; [reflexivity|]. split; [intros a b; reflexivity|]. split.
  - constructor.
    + exact isort_sorts.
    + cbn. lia.
    + apply (table_not_nan deep_vecs 10); [reflexivity|vm_compute; reflexivity].
    + reflexivity.
    + reflexivity.
    + assert (K : forallb (fun d => negb (is_nan d)) deep_centroid = true) by (vm_compute; reflexivity).
      intros d Hd. rewrite forallb_forall in K. apply negb_true_iff, K, Hd.
    + discriminate.
    + apply Permutation_refl.
  - split; [vm_compute; reflexivity|]. split; [vm_compute; reflexivity|]. exact deep_dist.
Qed.

Lemma vamana_far : exists data q v ix md, length data = 10 /\ of_vectors three data (vi_sp v) /\ vinput_ok v /\ bp_L (vi_prm v) = 20 /\ bp_R (vi_prm v) = 40 /\ bp_C (vi_prm v) = 750 /\ bp_alpha (vi_prm v) = f32_of_Z 4 /\
  vamana_build v = Ok (ix, md) /\ vamana_search (vi_sort v) ix (from three data q) 8 1 [] [0] [f32_zero] = Ok ([100], [f32_of_Z 1000000], 1) /\
  l2_dist (nth 0 data []) q = 1000%R /\ l2_dist (nth 9 data []) q = 1%R.
Proof.
  exists deep_vecs, deep_query, (mkV isort deep_space (mkB 20 40 750 (f32_of_Z 4) 0) (seq 100 10) deep_centroid [] (one_thread 10 60) (seq 0 10)). eexists. eexists.
  split; [reflexivity|]. split; [intros a b; reflexivity|].
  split; [apply (vectors_input_ok deep_vecs 10); [reflexivity|lia|lia|vm_compute; reflexivity|reflexivity|vm_compute; reflexivity]|].
  split; [reflexivity|]. split; [reflexivity|]. split; [reflexivity|]. split; [reflexivity|].
  split; [vm_compute; reflexivity|]. split; [vm_compute; reflexivity|]. exact deep_dist.
Qed.

(** ** The lists of the grid, each pruned from all the points *)
Definition spot_labels : list (list string) := map (fun i => nth (i mod 3) [["a"%string]; ["a"%string; "b"%string]; ["b"%string]] []) (seq 0 12).
Definition spot_space : space := mkSp 12 (among three spot_vecs) true (mkL spot_labels false ""%string).
Definition spot_prm : bparams := mkB 20 40 750 (f32_of_Z 4) 0.
Definition spot_list (x : nat) : list nat := match prune_alpha isort spot_space spot_prm x (rng_pool spot_space x) [] with Ok l => l | _ => [] end.
Definition spot_lists : list (list nat) :=
  map spot_list (seq 0 12).

Lemma spot_squares : exact_squares spot_space (fun x y => l2_dist (nth x spot_vecs []) (nth y spot_vecs [])).
Proof.
  assert (Sp : forallb small3_b spots = true) by (vm_compute; reflexivity). pose proof (small3_ok _ Sp) as S.
  assert (K : forallb (fun p => forallb (fun q => (sq3 p q <=? 2 ^ 24)%Z) spots) spots = true) by (vm_compute; reflexivity).
  intros a b Ha Hb. cbn [spot_space sp_n] in Ha, Hb. assert (La : a < length spots) by exact Ha. assert (Lb : b < length spots) by exact Hb.
  change (sp_pd spot_space a b) with (l2_of three (nth a (map vec spots) []) (nth b (map vec spots) [])). unfold spot_vecs. rewrite !(nth_vec spots) by assumption.
  set (p := nth a spots nowhere). set (q := nth b spots nowhere). assert (Ip : In p spots) by (apply nth_In, La). assert (Iq : In q spots) by (apply nth_In, Lb).
  rewrite forallb_forall in K. specialize (K p Ip). rewrite forallb_forall in K. specialize (K q Iq). apply Z.leb_le in K.
  destruct (vec_ints p (S p Ip)) as [I1 V1]. destruct (vec_ints q (S q Iq)) as [I2 V2]. destruct three_ok as [t [Ht1 Ht2]].
  assert (Lv : forall p, length (vec p) = 3) by (intros [[x y] z]; reflexivity).
  destruct (l2_exact t three (vec p) (vec q) (ints3 p) (ints3 q)) as [r [E1 [E2 [E3 E4]]]]; auto;
    [exact (eq_ind_r (fun d => Permutation (red_items t) (seq 0 d)) Ht1 (Lv p))|exact (eq_trans (Lv p) (eq_sym (Lv q)))|intros x Hx; exact (proj2 (V1 x Hx))|intros x Hx; exact (proj2 (V2 x Hx))|].
  assert (Er : l2_of three (vec p) (vec q) = r) by (unfold l2_of; match goal with |- match ?a with _ => _ end = _ => replace a with (Ok r) by (symmetry; exact E1) end; reflexivity).
  rewrite Er. split; [exact E2|]. split; [exact E3|]. rewrite !vec_dist by auto. split; [apply sqrt_pos|]. split.
  - do 2 f_equal. destruct p as [[x y] z], q as [[x' y'] z']. unfold sq3, sq_dist, ints3, zsum. cbn [combine map fst snd fold_left fold_right]. lia.
  - rewrite sqrt_sqrt; [exact E4|]. apply IZR_le. apply (sq3_nonneg p q).
Qed.

Lemma spot_lists_ok : forall x, x < 12 -> exists cands l, all_others spot_space x cands /\ prune_alpha isort spot_space spot_prm x cands [] = Ok l /\ nth_error spot_lists x = Some l.
Proof.
  intros x Hx.
  assert (K : forallb (fun x => match prune_alpha isort spot_space spot_prm x (rng_pool spot_space x) [] with Ok l => true | _ => false end) (seq 0 12) = true) by (vm_compute; reflexivity).
  rewrite forallb_forall in K. specialize (K x ltac:(apply in_seq; lia)).
  exists (rng_pool spot_space x), (nth x spot_lists []). split.
  - split; [|split].
    + intros z Hz. apply rng_pool_In in Hz. destruct Hz as [j [H1 [H2 ->]]]. split; [exact H1|reflexivity].
    + intros y Hy Hne. apply in_map_iff. exists (mkN y (sp_pd spot_space y x) true). split; [reflexivity|]. apply rng_pool_In. exists y. auto.
    + apply rng_pool_len.
  - assert (E : nth_error spot_lists x = Some (spot_list x)).
    { unfold spot_lists. apply (map_nth_error spot_list x (seq 0 12)). rewrite (nth_error_nth' _ 0) by (rewrite seq_length; exact Hx). rewrite seq_nth by exact Hx. reflexivity. }
    assert (E' : nth_error spot_lists x = Some (nth x spot_lists [])) by (apply nth_error_nth'; exact Hx).
    split; [|exact E']. assert (E2 : spot_list x = nth x spot_lists []) by congruence. rewrite <- E2. unfold spot_list. clear E E' E2. revert K.
    generalize (prune_alpha isort spot_space spot_prm x (rng_pool spot_space x) []). intros [l| | | |] K; try discriminate. reflexivity.
Qed.

Lemma spot_prune_case : exact_squares spot_space (fun x y => l2_dist (nth x spot_vecs []) (nth y spot_vecs [])) /\ sp_filtered spot_space = true /\
  length (pts_to_labels (sp_labels spot_space)) = 12 /\ (forall ls, In ls (pts_to_labels (sp_labels spot_space)) -> sorted_labels ls) /\ sorted_labels ["a"%string] /\
  (forall x, x < 12 -> exists cands l, all_others spot_space x cands /\ prune_alpha isort spot_space spot_prm x cands [] = Ok l /\ nth_error spot_lists x = Some l) /\
  sp_n spot_space <= bp_R spot_prm /\ sp_n spot_space <= bp_C spot_prm /\ valid_binary 24 128 (bp_alpha spot_prm) = true /\ finite (bp_alpha spot_prm) /\ (1 <= real (bp_alpha spot_prm))%R /\
  sqrt (real (bp_alpha spot_prm)) = 2%R /\ map (@length nat) spot_lists = [8; 9; 8; 7; 7; 9; 9; 7; 7; 8; 9; 8].
Proof.
  destruct (small_int 4 ltac:(lia)) as [F4 [V4 R4]].
  split; [exact spot_squares|]. split; [reflexivity|]. split; [reflexivity|]. split.
  { intros ls Hls. apply in_map_iff in Hls. destruct Hls as [i [<- Hi]]. destruct (i mod 3) as [|[|[|k]]]; cbn.
    - repeat constructor.
    - repeat constructor; unfold label_le; cbn; discriminate.
    - repeat constructor.
    - destruct k; constructor. }
  split; [repeat constructor|]. split; [exact spot_lists_ok|]. split; [cbn; lia|]. split; [cbn; lia|]. cbn [spot_prm bp_alpha].
  split; [exact V4|]. split; [exact F4|]. rewrite R4. split; [lra|]. split; [|vm_compute; reflexivity].
  replace 4%R with (2 * 2)%R by lra. apply sqrt_square. lra.
Qed.
