(** Concrete cases for PropQuant. *)
From Coq Require Import NArith ZArith Reals Lra Lia List Arith Bool Permutation Floats.SpecFloat.
From Verif Require Import Base Bytes Float32 DivFacts DistSpec FusedModel RealSpec ClosestModel ClosestSpec PopInst PqModel PqSpec BlasModel BlasSpec BlasCases ApproxProofs2 ApproxCases QuantSpec QuantProofs.
Import ListNotations.
Open Scope nat_scope.

(** Three points of three dimensions, two chunks, pivots (-1, -1, -1), (4, 4, 4), (8, 8, 8)
    and perhaps (3, 5, 8). *)
Definition qt_rows : list (list f32) := [ints [5; 1; 9]; ints [0; 0; 0]; ints [4; 6; 9]]%Z.
Definition qt_pivots : list (list f32) := [ints [-1; -1; -1]; ints [4; 4; 4]; ints [8; 8; 8]]%Z.
Definition qt_more : list (list f32) := [ints [3; 5; 8]]%Z.
Definition qt_centroid : list f32 := ints [1; 1; 1]%Z.
Definition qt_dist (p : nat) (x y : list f32) : f32 := fold_left fadd (map (fun q => fmul (fsub (fst q) (snd q)) (fsub (fst q) (snd q))) (combine x y)) f32_zero.
Definition qt_orders (b i k : nat) : list (nat * nat) := rev (list_prod (seq (k * min (min (S b * 2) 3 - b * 2) 3) (min (min (min (S b * 2) 3 - b * 2) 3) (min (S b * 2) 3 - b * 2 - k * min (min (S b * 2) 3 - b * 2) 3))) (seq 0 1)).

Definition qt_zx (p i : nat) : list Z := nth i (nth p [[[4; 0]; [8]]; [[-1; -1]; [-1]]; [[3; 5]; [8]]]%Z []) [].
Definition qt_zy (c i : nat) : list Z := nth i (nth c [[[-1; -1]; [-1]]; [[4; 4]; [4]]; [[8; 8]; [8]]; [[3; 5]; [8]]]%Z []) [].

Lemma ints_held : forall z, Forall (fun x => (Z.abs x <= 2 ^ 24)%Z) z -> holds_ints (ints z) z.
Proof. intros z H. unfold holds_ints, ints. induction H as [|x z Hx H IH]; cbn [map]; [constructor|]. constructor; [|exact IH]. destruct (small_int x Hx) as [F [_ E]]. unfold finite in F. destruct (f32_of_Z x); auto. Qed.

Lemma qt_near : forall v x y zx zy, x = ints zx -> y = ints zy -> Forall (fun x => (Z.abs x <= 2 ^ 24)%Z) zx -> Forall (fun x => (Z.abs x <= 2 ^ 24)%Z) zy -> length zx = length zy ->
  v = f32_of_Z (sq_dist zx zy) -> (Z.abs (sq_dist zx zy) <= 2 ^ 24)%Z -> finite v /\ f32_valid v = true /\ (Rabs (real v - exact_l2 x y) <= 0)%R.
Proof.
  intros v x y zx zy -> -> Hx Hy L -> H. destruct (small_int _ H) as [F [V E]]. split; [exact F|]. split; [exact V|].
  rewrite (exact_l2_ints (ints zx) (ints zy) zx zy (ints_held zx Hx) (ints_held zy Hy)) by (unfold ints; now rewrite !map_length).
  eapply eq_ind_r with (P := fun r => (Rabs (r - IZR (sq_dist zx zy)) <= 0)%R); [|exact E]. unfold Rminus. rewrite Rplus_opp_r, Rabs_R0. lra.
Qed.

Definition all_small (z : list Z) : bool := forallb (fun x => (Z.abs x <=? 2 ^ 24)%Z) z.
Lemma all_small_ok : forall z, all_small z = true -> Forall (fun x => (Z.abs x <= 2 ^ 24)%Z) z.
Proof. intros z H. apply Forall_forall. intros x Hx. unfold all_small in H. rewrite forallb_forall in H. apply Z.leb_le. exact (H x Hx). Qed.

Definition qt_pairs : list (nat * nat * nat) := list_prod (list_prod (seq 0 3) (seq 0 2)) (seq 0 4).
Definition qt_x (t : nat * nat * nat) : list f32 := piece 3 2 [0; 2; 3] (snd (fst t)) (nth (fst (fst t)) (map (centred qt_centroid) qt_rows) []).
Definition qt_y (t : nat * nat * nat) : list f32 := piece 3 2 [0; 2; 3] (snd (fst t)) (nth (snd t) (qt_pivots ++ qt_more) []).
Definition qt_zs (t : nat * nat * nat) : list Z * list Z := (qt_zx (fst (fst t)) (snd (fst t)), qt_zy (snd t) (snd (fst t))).

Lemma map_eq_in : forall {A B} (f g : A -> B) l x, map f l = map g l -> In x l -> f x = g x.
Proof. intros A B f g l x E H. induction l as [|y l IH]; [destruct H|]. cbn in E. injection E as E1 E2. destruct H as [<-|H]; [exact E1|exact (IH E2 H)]. Qed.

Lemma qt_xs : map qt_x qt_pairs = map (fun t => ints (fst (qt_zs t))) qt_pairs.
Proof. vm_compute. reflexivity. Qed.
Lemma qt_ys : map qt_y qt_pairs = map (fun t => ints (snd (qt_zs t))) qt_pairs.
Proof. vm_compute. reflexivity. Qed.
Lemma qt_ds : map (fun t => qt_dist 0 (qt_x t) (qt_y t)) qt_pairs = map (fun t => f32_of_Z (sq_dist (fst (qt_zs t)) (snd (qt_zs t)))) qt_pairs.
Proof. vm_compute. reflexivity. Qed.
Lemma qt_smalls : map (fun t => all_small (fst (qt_zs t)) && all_small (snd (qt_zs t)) && (length (fst (qt_zs t)) =? length (snd (qt_zs t))) && (Z.abs (sq_dist (fst (qt_zs t)) (snd (qt_zs t))) <=? 2 ^ 24)%Z) qt_pairs = map (fun _ => true) qt_pairs.
Proof. vm_compute. reflexivity. Qed.

Lemma qt_within : pieces_within qt_dist 3 2 4 [0; 2; 3] (qt_pivots ++ qt_more) (map (centred qt_centroid) qt_rows) (fun _ _ _ => 0%R).
Proof.
  intros p i c Hp Hi Hc. rewrite map_length in Hp. change (length qt_rows) with 3 in Hp.
  assert (Ht : In (p, i, c) qt_pairs) by (unfold qt_pairs; repeat apply in_prod; apply in_seq; lia).
  pose proof (map_eq_in _ _ _ _ qt_smalls Ht) as S. cbv beta in S. rewrite !andb_true_iff in S. destruct S as [[[S1 S2] S3] S4].
  exact (qt_near _ _ _ (fst (qt_zs (p, i, c))) (snd (qt_zs (p, i, c))) (map_eq_in _ _ _ _ qt_xs Ht) (map_eq_in _ _ _ _ qt_ys Ht) (all_small_ok _ S1) (all_small_ok _ S2)
    (proj1 (Nat.eqb_eq _ _) S3) (map_eq_in _ _ _ _ qt_ds Ht) (proj1 (Z.leb_le _ _) S4)).
Qed.
Lemma qt_within_few : pieces_within qt_dist 3 2 3 [0; 2; 3] qt_pivots (map (centred qt_centroid) qt_rows) (fun _ _ _ => 0%R).
Proof.
  intros p i c Hp Hi Hc. pose proof (qt_within p i c Hp Hi (Nat.lt_lt_succ_r _ _ Hc)) as H. rewrite app_nth1 in H by exact Hc. exact H.
Qed.

Lemma qt_usable : forall k, k = 3 \/ k = 4 -> forall p i a, p < 3 -> i < 2 -> nth_error [0; 2; 3] i = Some a ->
  usable (pivot_dist qt_dist qt_centroid (qt_pivots ++ qt_more) qt_rows a (chunk_size 3 2 i) p) k.
Proof.
  intros k Hk p i a Hp Hi Ha. assert (Ea : a = 2 * i) by (destruct i as [|[|i]]; [injection Ha as <-; auto|injection Ha as <-; auto|lia]). subst a. split.
  - intros c Hc. assert (Hc' : c < 4) by lia. clear Ha Hc Hk. destruct p as [|[|[|p]]]; try lia; destruct i as [|[|i]]; try lia; destruct c as [|[|[|[|c]]]]; try lia; vm_compute; reflexivity.
  - exists 0. split; [lia|]. clear Ha Hk. destruct p as [|[|[|p]]]; try lia; destruct i as [|[|i]]; try lia; vm_compute; reflexivity.
Qed.
Lemma qt_usable_few : forall p i a, p < 3 -> i < 2 -> nth_error [0; 2; 3] i = Some a -> usable (pivot_dist qt_dist qt_centroid qt_pivots qt_rows a (chunk_size 3 2 i) p) 3.
Proof.
  intros p i a Hp Hi Ha. destruct (qt_usable 3 (or_introl eq_refl) p i a Hp Hi Ha) as [A [c [Hc B]]]. unfold pivot_dist in *. split.
  - intros c' Hc'. specialize (A c' Hc'). rewrite app_nth1 in A by exact Hc'. exact A.
  - exists c. split; [exact Hc|]. rewrite app_nth1 in B by exact Hc. exact B.
Qed.

Lemma qt_case : pops pop_all /\ boundaries 3 2 [0; 2; 3] /\ rows_of 3 3 qt_pivots /\ rows_of 3 3 qt_rows /\ pq_orders 3 (min 3 2) 3 qt_orders /\
  (forall p i a, p < 3 -> i < 2 -> nth_error [0; 2; 3] i = Some a -> usable (pivot_dist qt_dist qt_centroid qt_pivots qt_rows a (chunk_size 3 2 i) p) 3) /\
  pieces_within qt_dist 3 2 3 [0; 2; 3] qt_pivots (map (centred qt_centroid) qt_rows) (fun _ _ _ => 0%R) /\
  (forall p i a, p < 3 -> i < 2 -> nth_error [0; 2; 3] i = Some a -> usable (pivot_dist qt_dist qt_centroid (qt_pivots ++ qt_more) qt_rows a (chunk_size 3 2 i) p) 4) /\
  pieces_within qt_dist 3 2 4 [0; 2; 3] (qt_pivots ++ qt_more) (map (centred qt_centroid) qt_rows) (fun _ _ _ => 0%R) /\
  pq_encode pop_all 3 2 qt_dist 3 3 3 2 qt_centroid (seq 0 3) [0; 2; 3] qt_pivots qt_rows qt_orders = Ok (u32 3 ++ u32 2 ++ [1; 2; 0; 0; 1; 2]%N) /\
  pq_encode pop_all 3 2 qt_dist 3 3 4 2 qt_centroid (seq 0 3) [0; 2; 3] (qt_pivots ++ qt_more) qt_rows qt_orders = Ok (u32 3 ++ u32 2 ++ [1; 2; 0; 0; 3; 2]%N) /\
  centred qt_centroid (nth 2 qt_rows []) = rebuilt 3 2 [0; 2; 3] (qt_pivots ++ qt_more) [3; 2].
Proof.
  split; [exact pop_all_pops|]. split; [|split; [|split; [|split; [|split; [|split; [|split; [|split; [|split; [|split]]]]]]]]].
  - split; [reflexivity|]. split; [reflexivity|]. split; [reflexivity|]. intros [|[|i]] Hi; [exists 0|exists 2|lia]; split; reflexivity.
  - split; [reflexivity|]. intros x [<-|[<-|[<-|[]]]]; reflexivity.
  - split; [reflexivity|]. intros x [<-|[<-|[<-|[]]]]; reflexivity.
  - intros b i size k. apply Permutation_sym, Permutation_rev.
  - exact qt_usable_few.
  - exact qt_within_few.
  - exact (qt_usable 4 (or_intror eq_refl)).
  - exact qt_within.
  - vm_compute. reflexivity.
  - vm_compute. reflexivity.
  - vm_compute. reflexivity.
Qed.

(** One dimension, one chunk, distances by matrix products: the vector 5794 is itself a
    pivot, but is coded by the pivot 5793. *)
Definition qt_ws (b s x : nat) : way := match s with 0 => Outside (FItem 0) true | 1 => Inside (FFma 1 (FItem 0)) | _ => Inside (FFma 0 (FItem 1)) end.
Definition qt_blas (p : nat) (x y : list f32) : f32 := match closest_entry plain_nrm2 qt_ws 1 1 1 1 x y 0 0 with Ok v => v | _ => S754_nan end.

Lemma qt_loss : block_ways_ok 1 qt_ws /\
  pq_encode pop_all 1 1 qt_blas 1 1 2 1 [f32_zero] (seq 0 1) [0; 1] [ints [5794]; ints [5793]]%Z [ints [5794]]%Z (fun _ _ k => list_prod (seq k (1 - k)) [0]) = Ok (u32 1 ++ u32 1 ++ [1]%N) /\
  centred [f32_zero] (ints [5794]%Z) = rebuilt 1 1 [0; 1] [ints [5794]; ints [5793]]%Z [0] /\
  exact_l2 (centred [f32_zero] (ints [5794]%Z)) (rebuilt 1 1 [0; 1] [ints [5794]; ints [5793]]%Z [1]) = 1%R.
Proof.
  split; [|split; [|split]].
  - intros b x. split; [|split]; cbn; first [apply Permutation_refl|apply perm_swap].
  - vm_compute. reflexivity.
  - vm_compute. reflexivity.
  - replace (centred [f32_zero] (ints [5794]%Z)) with (ints [5794]%Z) by (vm_compute; reflexivity). replace (rebuilt 1 1 [0; 1] [ints [5794]; ints [5793]]%Z [1]) with (ints [5793]%Z) by (vm_compute; reflexivity).
    rewrite (exact_l2_ints _ _ [5794]%Z [5793]%Z); [reflexivity|apply ints_held; repeat constructor; vm_compute; discriminate|apply ints_held; repeat constructor; vm_compute; discriminate|reflexivity].
Qed.
