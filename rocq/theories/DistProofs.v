(** * Proofs about distance functions. *)
From Coq Require Import ZArith List Arith Lia Bool Floats.SpecFloat Sorting.Permutation.
From Verif Require Import Base Float32 Float32Facts ConvProofs DistModel DistSpec.
Import ListNotations.

(** ** Integer distances *)
Definition sq_at (a b : list Z) (i : nat) : Z := ((nth i a 0 - nth i b 0) * (nth i a 0 - nth i b 0))%Z.

Lemma zsum_app : forall l m, zsum (l ++ m) = (zsum l + zsum m)%Z.
Proof. induction l as [|x l IH]; intros m; cbn; [reflexivity|]. unfold zsum in *. rewrite IH. lia. Qed.

Lemma zsum_perm : forall l m, Permutation l m -> zsum l = zsum m.
Proof. intros l m H. induction H; cbn in *; unfold zsum in *; cbn; lia. Qed.

Lemma zsum_nonneg : forall l, (forall x, In x l -> 0 <= x)%Z -> (0 <= zsum l)%Z.
Proof. induction l as [|x l IH]; intros H; cbn; [lia|]. pose proof (H x (or_introl eq_refl)). assert (0 <= zsum l)%Z by (apply IH; intros; apply H; now right). unfold zsum in *. lia. Qed.

Lemma map_sq_at : forall a b, length a = length b ->
  map (sq_at a b) (seq 0 (length a)) = map (fun p => ((fst p - snd p) * (fst p - snd p))%Z) (combine a b).
Proof.
  induction a as [|x a IH]; intros [|y b] H; try discriminate; [reflexivity|]. cbn [length seq map combine]. f_equal.
  rewrite <- seq_shift, map_map. rewrite <- IH by (cbn in H; lia). reflexivity.
Qed.

Lemma sq_dist_at : forall a b, length a = length b -> sq_dist a b = zsum (map (sq_at a b) (seq 0 (length a))).
Proof. intros a b H. unfold sq_dist. now rewrite map_sq_at. Qed.

Lemma sq_at_nonneg : forall a b i, (0 <= sq_at a b i)%Z.
Proof. intros. unfold sq_at. apply Z.square_nonneg. Qed.

Lemma sq_item_ok : forall a b i, length a = length b -> i < length a -> sq_item a b i = Ok (sq_at a b i).
Proof.
  intros a b i H Hi. unfold sq_item, rd, sq_at. rewrite (nth_error_nth' a 0%Z Hi), (nth_error_nth' b 0%Z) by lia. reflexivity.
Qed.

Definition tree_sum (a b : list Z) (t : red) : Z := zsum (map (sq_at a b) (red_items t)).

Lemma tree_sum_nonneg : forall a b t, (0 <= tree_sum a b t)%Z.
Proof. intros. apply zsum_nonneg. intros x H. apply in_map_iff in H. destruct H as [i [<- _]]. apply sq_at_nonneg. Qed.

Lemma tree_sum_add : forall a b l r, tree_sum a b (RAdd l r) = (tree_sum a b l + tree_sum a b r)%Z.
Proof. intros. unfold tree_sum. cbn [red_items]. rewrite map_app, zsum_app. reflexivity. Qed.

Lemma eval_i32 : forall a b t, length a = length b -> (forall i, In i (red_items t) -> i < length a) ->
  red_eval 0%Z add_i32 (sq_item a b) t = if (tree_sum a b t <? 2 ^ 31)%Z then Ok (tree_sum a b t) else
    match t with RItem _ => Ok (tree_sum a b t) | _ => UB end.
Proof.
  intros a b t H. induction t as [|i|l IHl r IHr]; intros Hi.
  - reflexivity.
  - cbn [red_eval]. rewrite sq_item_ok by (auto; apply Hi; now left). unfold tree_sum. cbn [red_items map]. unfold zsum. cbn [fold_right]. rewrite Z.add_0_r. destruct (_ <? _)%Z; reflexivity.
  - cbn [red_eval]. rewrite IHl, IHr by (intros; apply Hi; cbn [red_items]; apply in_or_app; auto).
    pose proof (tree_sum_nonneg a b l). pose proof (tree_sum_nonneg a b r). rewrite tree_sum_add.
    set (x := tree_sum a b l) in *. set (y := tree_sum a b r) in *. clearbody x y. unfold add_i32.
    destruct (Z.ltb_spec (x + y) (2 ^ 31)) as [L|G].
    + rewrite (proj2 (Z.ltb_lt x _)), (proj2 (Z.ltb_lt y _)) by lia. cbn [bind]. rewrite (proj2 (Z.leb_le _ _)), (proj2 (Z.ltb_lt _ _)) by lia. reflexivity.
    + assert (F : forall p q, (p = x -> q = y -> (if ((- 2 ^ 31 <=? p + q) && (p + q <? 2 ^ 31))%Z then Ok (p + q)%Z else UB) = UB)).
      { intros p q -> ->. rewrite (proj2 (Z.ltb_ge _ _)) by lia. now rewrite andb_false_r. }
      destruct (x <? 2 ^ 31)%Z; [|destruct l; try reflexivity]; cbn [bind]; (destruct (y <? 2 ^ 31)%Z; [|destruct r; try reflexivity]; cbn [bind]; apply F; reflexivity).
Qed.

Lemma eval_u32 : forall a b t, length a = length b -> (forall i, In i (red_items t) -> i < length a) -> (forall i, i < length a -> (sq_at a b i < 2 ^ 32)%Z) ->
  red_eval 0%Z add_u32 (sq_item a b) t = Ok (tree_sum a b t mod 2 ^ 32)%Z.
Proof.
  intros a b t H. induction t as [|i|l IHl r IHr]; intros Hi Hb.
  - reflexivity.
  - cbn [red_eval]. assert (i < length a) by (apply Hi; now left). rewrite sq_item_ok by auto. unfold tree_sum. cbn [red_items map]. unfold zsum. cbn [fold_right]. rewrite Z.add_0_r, Z.mod_small; [reflexivity|]. split; [apply sq_at_nonneg|auto].
  - cbn [red_eval]. rewrite IHl, IHr by (auto; intros; apply Hi; cbn [red_items]; apply in_or_app; auto). cbn [bind]. unfold add_u32. rewrite tree_sum_add, <- Z.add_mod by lia. reflexivity.
Qed.

Lemma loop_items : forall size t, simd_loop size t -> (Z.of_nat size < 2 ^ 31)%Z -> Permutation (red_items t) (seq 0 size).
Proof. intros size t H Hs. unfold simd_loop in H. rewrite (proj2 (Z.ltb_lt _ _)) in H by auto. exact H. Qed.

Lemma loop_sum : forall t a b, length a = length b -> Permutation (red_items t) (seq 0 (length a)) -> tree_sum a b t = sq_dist a b.
Proof. intros t a b H P. unfold tree_sum. rewrite sq_dist_at by auto. apply zsum_perm, Permutation_map, P. Qed.

Lemma perm_lt : forall l n, Permutation l (seq 0 n) -> forall i, In i l -> i < n.
Proof. intros l n P i Hi. apply (Permutation_in _ P), in_seq in Hi. lia. Qed.

Lemma in_range_diff : forall lo hi a b, (forall x, In x a -> lo <= x <= hi)%Z -> (forall x, In x b -> lo <= x <= hi)%Z -> length a = length b -> (hi - lo = 255)%Z ->
  forall i, i < length a -> (sq_at a b i <= 65025)%Z.
Proof.
  intros lo hi a b Ha Hb H E i Hi. unfold sq_at. pose proof (Ha _ (nth_In a 0%Z Hi)). assert (Hi2 : i < length b) by lia. pose proof (Hb _ (nth_In b 0%Z Hi2)).
  set (x := nth i a 0%Z) in *. set (y := nth i b 0%Z) in *. clearbody x y. nia.
Qed.

Lemma zsum_bound : forall c l, (forall x, In x l -> x <= c)%Z -> (zsum l <= c * Z.of_nat (length l))%Z.
Proof.
  intros c. induction l as [|x l IH]; intros H; [cbn; lia|]. pose proof (H x (or_introl eq_refl)). assert (zsum l <= c * Z.of_nat (length l))%Z by (apply IH; intros; apply H; now right).
  change (zsum (x :: l)) with (x + zsum l)%Z. cbn [length]. lia.
Qed.

Lemma sq_dist_bound : forall lo hi a b, (forall x, In x a -> lo <= x <= hi)%Z -> (forall x, In x b -> lo <= x <= hi)%Z -> length a = length b -> (hi - lo = 255)%Z ->
  (0 <= sq_dist a b <= 65025 * Z.of_nat (length a))%Z.
Proof.
  intros lo hi a b Ha Hb H E. rewrite sq_dist_at by auto. split.
  - apply zsum_nonneg. intros x Hx. apply in_map_iff in Hx. destruct Hx as [i [<- _]]. apply sq_at_nonneg.
  - assert (B : (zsum (map (sq_at a b) (seq 0 (length a))) <= 65025 * Z.of_nat (length (map (sq_at a b) (seq 0 (length a)))))%Z).
    { apply zsum_bound. intros x Hx. apply in_map_iff in Hx. destruct Hx as [i [<- Hi]]. apply in_seq in Hi. apply (in_range_diff lo hi); auto. lia. }
    rewrite map_length, seq_length in B. exact B.
Qed.

Lemma l2_int8_ok : forall t a b, int8s a -> int8s b -> length a = length b -> (Z.of_nat (length a) < 2 ^ 31)%Z -> simd_loop (length a) t ->
  l2_int8 t a b = if (sq_dist a b <? 2 ^ 31)%Z then Ok (f32_of_Z (sq_dist a b)) else UB.
Proof.
  intros t a b Ha Hb H Hs Ht. apply loop_items in Ht; [|auto]. unfold l2_int8. rewrite eval_i32; [|auto|eapply perm_lt; eauto]. rewrite loop_sum by auto.
  destruct (Z.ltb_spec (sq_dist a b) (2 ^ 31)); [reflexivity|]. destruct t as [|i|l r]; try reflexivity. cbn [red_items] in Ht.
  assert (L : length a = 1). { apply Permutation_length in Ht. rewrite seq_length in Ht. cbn in Ht. lia. }
  pose proof (sq_dist_bound (-128) 127 a b Ha Hb H ltac:(lia)). rewrite L in *. lia.
Qed.

Lemma l2_uint8_ok : forall t a b, uint8s a -> uint8s b -> length a = length b -> (Z.of_nat (length a) < 2 ^ 31)%Z -> simd_loop (length a) t ->
  l2_uint8 t a b = Ok (f32_of_Z (sq_dist a b mod 2 ^ 32)).
Proof.
  intros t a b Ha Hb H Hs Ht. apply loop_items in Ht; [|auto]. unfold l2_uint8. rewrite eval_u32; [now rewrite loop_sum by auto|auto|eapply perm_lt; eauto|].
  intros i Hi. pose proof (in_range_diff 0 255 a b Ha Hb H ltac:(lia) i Hi). lia.
Qed.

Lemma sq_dist_cons : forall x y a b, sq_dist (x :: a) (y :: b) = ((x - y) * (x - y) + sq_dist a b)%Z.
Proof. reflexivity. Qed.

Lemma sq_dist_nonneg : forall a b, (0 <= sq_dist a b)%Z.
Proof. intros. apply zsum_nonneg. intros z Hz. apply in_map_iff in Hz. destruct Hz as [p [<- _]]. apply Z.square_nonneg. Qed.

Lemma sq_dist_sym : forall a b, length a = length b -> sq_dist a b = sq_dist b a.
Proof. induction a as [|x a IH]; intros [|y b] H; try discriminate; [reflexivity|]. rewrite !sq_dist_cons, IH by (cbn in H; lia). lia. Qed.

Lemma sq_dist_zero : forall a b, length a = length b -> (sq_dist a b = 0%Z <-> a = b).
Proof.
  induction a as [|x a IH]; intros [|y b] H; try discriminate; [split; reflexivity|]. rewrite sq_dist_cons. cbn [length] in H. pose proof (sq_dist_nonneg a b). pose proof (Z.square_nonneg (x - y)).
  split; intros E.
  - assert (E1 : ((x - y) * (x - y) = 0)%Z) by lia. assert (E2 : a = b) by (apply IH; lia). apply Z.mul_eq_0 in E1. subst. f_equal. lia.
  - injection E as -> ->. rewrite Z.sub_diag. cbn. apply IH; auto.
Qed.

Lemma sq_dist_pad : forall a b k, length a = length b -> sq_dist (a ++ repeat 0%Z k) (b ++ repeat 0%Z k) = sq_dist a b.
Proof.
  induction a as [|x a IH]; intros [|y b] k H; try discriminate; cbn [app].
  - apply sq_dist_zero; reflexivity.
  - rewrite !sq_dist_cons, IH by (cbn in H; lia). reflexivity.
Qed.

Lemma sq_dist_repeat : forall x y n, sq_dist (repeat x n) (repeat y n) = (Z.of_nat n * ((x - y) * (x - y)))%Z.
Proof. induction n as [|n IH]; [reflexivity|]. cbn [repeat]. rewrite sq_dist_cons, IH. lia. Qed.

Lemma l2_int8_exact : forall t a b, int8s a -> int8s b -> length a = length b -> (Z.of_nat (length a) <= 33025)%Z -> simd_loop (length a) t ->
  (sq_dist a b < 2 ^ 31)%Z /\ l2_int8 t a b = Ok (f32_of_Z (sq_dist a b)).
Proof.
  intros t a b Ha Hb H Hs Ht. pose proof (sq_dist_bound (-128) 127 a b Ha Hb H ltac:(lia)). rewrite l2_int8_ok by (auto; lia).
  rewrite (proj2 (Z.ltb_lt _ _)) by lia. split; [lia|reflexivity].
Qed.

Lemma l2_uint8_exact : forall t a b, uint8s a -> uint8s b -> length a = length b -> (Z.of_nat (length a) <= 66051)%Z -> simd_loop (length a) t ->
  (sq_dist a b < 2 ^ 32)%Z /\ l2_uint8 t a b = Ok (f32_of_Z (sq_dist a b)).
Proof.
  intros t a b Ha Hb H Hs Ht. pose proof (sq_dist_bound 0 255 a b Ha Hb H ltac:(lia)). rewrite l2_uint8_ok by (auto; lia).
  rewrite Z.mod_small by lia. split; [lia|reflexivity].
Qed.

Lemma in_repeat : forall (A : Type) (x y : A) n, In y (repeat x n) -> y = x.
Proof. intros A x y n H. eapply repeat_spec; eauto. Qed.

Lemma l2_int8_overflow : forall n t, (33026 <= Z.of_nat n < 2 ^ 31)%Z -> simd_loop n t ->
  int8s (repeat (-128)%Z n) /\ int8s (repeat 127%Z n) /\ l2_int8 t (repeat (-128)%Z n) (repeat 127%Z n) = UB.
Proof.
  intros n t Hn Ht. assert (A : int8s (repeat (-128)%Z n)) by (intros x Hx; apply in_repeat in Hx; lia). assert (B : int8s (repeat 127%Z n)) by (intros x Hx; apply in_repeat in Hx; lia).
  split; [auto|]. split; [auto|]. rewrite l2_int8_ok; rewrite ?repeat_length; auto; [|lia]. rewrite sq_dist_repeat. rewrite (proj2 (Z.ltb_ge _ _)) by lia. reflexivity.
Qed.

Lemma l2_uint8_wrap : forall n t, (Z.of_nat n = 2 ^ 28)%Z -> simd_loop n t ->
  uint8s (repeat 4%Z n) /\ uint8s (repeat 0%Z n) /\ l2_uint8 t (repeat 4%Z n) (repeat 0%Z n) = Ok f32_zero.
Proof.
  intros n t Hn Ht. assert (A : uint8s (repeat 4%Z n)) by (intros x Hx; apply in_repeat in Hx; lia). assert (B : uint8s (repeat 0%Z n)) by (intros x Hx; apply in_repeat in Hx; lia).
  split; [auto|]. split; [auto|]. rewrite l2_uint8_ok; rewrite ?repeat_length; auto; [|lia]. rewrite sq_dist_repeat, Hn. reflexivity.
Qed.

(** The floats: equal only for equal vectors, ordered as the true distances. *)
Lemma l2_float_zero_iff : forall a b, length a = length b -> (sq_dist a b < 2 ^ 32)%Z -> (feq (f32_of_Z (sq_dist a b)) f32_zero = true <-> a = b).
Proof.
  intros a b H Hb. rewrite <- sq_dist_zero by auto. pose proof (sq_dist_nonneg a b). split; intros E; [|now rewrite E].
  destruct (Z.eq_dec (sq_dist a b) 0) as [|N]; [auto|]. exfalso. assert (P : flt f32_zero (f32_of_Z (sq_dist a b)) = true) by (apply conv_pos; lia).
  destruct (f32_of_Z (sq_dist a b)) as [s|s| |s m e]; try discriminate; try (destruct s; discriminate).
Qed.

(** ** The order of additions does not matter to which coordinates are used *)
Lemma dot_at : forall a b, length a = length b -> dot a b = zsum (map (fun i => nth i a 0 * nth i b 0)%Z (seq 0 (length a))).
Proof.
  intros a b H. unfold dot. f_equal. revert b H. induction a as [|x a IH]; intros [|y b] H; try discriminate; [reflexivity|].
  cbn [combine map length seq]. f_equal. rewrite <- seq_shift, map_map. rewrite IH by (cbn in H; lia). reflexivity.
Qed.
