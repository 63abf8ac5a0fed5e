(** * Proofs about the AVX inner product and the float L2 distance. *)
From Coq Require Import ZArith List Arith Lia Bool Floats.SpecFloat Sorting.Permutation.
From Verif Require Import Base Float32 Float32Facts DistModel DistSpec DistProofs.
Import ListNotations.

(** ** Evaluation of an order of additions when no step can fail *)
Fixpoint red_val {A : Type} (zero : A) (add : A -> A -> A) (val : nat -> A) (t : red) : A :=
  match t with RZero => zero | RItem i => val i | RAdd l r => add (red_val zero add val l) (red_val zero add val r) end.

Lemma red_eval_val : forall (A : Type) (zero : A) add item val t, (forall i, In i (red_items t) -> item i = Ok (val i)) ->
  red_eval zero (fun x y => Ok (add x y)) item t = Ok (red_val zero add val t).
Proof.
  intros A zero add item val. induction t as [|i|l IHl r IHr]; intros H; cbn [red_eval red_val]; [reflexivity|apply H; now left|].
  rewrite IHl, IHr by (intros; apply H; cbn [red_items]; apply in_or_app; auto). reflexivity.
Qed.

(** The summand of one iteration of an inner product. *)
Definition mul_item {A : Type} (mul : A -> A -> A) (a b : list A) (i : nat) : res A := do x <- rd a i; do y <- rd b i; Ok (mul x y).

Lemma mul_item_ok : forall (A : Type) (mul : A -> A -> A) d a b i, i < length a -> i < length b -> mul_item mul a b i = Ok (mul (nth i a d) (nth i b d)).
Proof. intros A mul d a b i Ha Hb. unfold mul_item, rd. rewrite (nth_error_nth' a d Ha), (nth_error_nth' b d Hb). reflexivity. Qed.

(** ** The lanes *)
Definition lane (offs : list nat) (j : nat) : red := fold_left (fun t o => RAdd t (RItem (o + j))) offs RZero.

Lemma lane_snoc : forall offs o j, lane (offs ++ [o]) j = RAdd (lane offs j) (RItem (o + j)).
Proof. intros. unfold lane. now rewrite fold_left_app. Qed.

Lemma lane_items : forall offs j, red_items (lane offs j) = map (fun o => o + j) offs.
Proof. intros offs j. induction offs as [|o offs IH] using rev_ind; [reflexivity|]. rewrite lane_snoc, map_app. cbn [red_items]. now rewrite IH. Qed.

Lemma load8_ok : forall (A : Type) (d : A) a o, o + 8 <= length a -> load8 a o = Ok (map (fun j => nth (o + j) a d) (seq 0 8)).
Proof.
  intros A d a o H. unfold load8. assert (G : forall l, (forall j, In j l -> j < 8) ->
    fold_right (fun j r => do x <- rd a (o + j); do l <- r; Ok (x :: l)) (Ok []) l = Ok (map (fun j => nth (o + j) a d) l)).
  { induction l as [|j l IH]; intros Hl; [reflexivity|]. cbn [fold_right map]. rewrite IH by (intros; apply Hl; now right). unfold rd. rewrite (nth_error_nth' a d) by (specialize (Hl j (or_introl eq_refl)); lia). reflexivity. }
  apply G. intros j Hj. apply in_seq in Hj. lia.
Qed.

Lemma load8_short : forall (A : Type) (a : list A) o, length a < o + 8 -> load8 a o = UB.
Proof.
  intros A a o H. unfold load8. assert (G : forall n s, s <= 8 -> n = 8 - s -> s + n = 8 -> 0 < n -> 
    fold_right (fun j r => do x <- rd a (o + j); do l <- r; Ok (x :: l)) (Ok []) (seq s n) = UB).
  { induction n as [|n IH]; intros s H1 H2 H3 H4; [lia|]. cbn [seq fold_right]. unfold rd at 1. destruct (nth_error a (o + s)) eqn:E; [|reflexivity]. cbn [bind].
    destruct n as [|n]; [|rewrite IH by lia; reflexivity]. exfalso. assert (o + s < length a) by (apply nth_error_Some; congruence). lia. }
  apply (G 8 0); lia.
Qed.

Lemma zip8_map : forall (A B : Type) (f : A -> A -> A) g h (l : list B), zip8 f (map g l) (map h l) = map (fun j => f (g j) (h j)) l.
Proof. intros A B f g h l. unfold zip8. induction l as [|x l IH]; [reflexivity|]. cbn. now rewrite IH. Qed.

Definition lanes {A : Type} (zero : A) (add mul : A -> A -> A) (a b : list A) (offs : list nat) : list A :=
  map (fun j => red_val zero add (fun i => mul (nth i a zero) (nth i b zero)) (lane offs j)) (seq 0 8).

Lemma avx_dot_lanes : forall (A : Type) (zero : A) add mul a b offs o, o + 8 <= length a -> o + 8 <= length b ->
  avx_dot add mul a b o (lanes zero add mul a b offs) = Ok (lanes zero add mul a b (offs ++ [o])).
Proof.
  intros A zero add mul a b offs o Ha Hb. unfold avx_dot. rewrite (load8_ok A zero a o Ha), (load8_ok A zero b o Hb). cbn [bind]. f_equal.
  unfold lanes. rewrite !zip8_map. apply map_ext. intros j. rewrite lane_snoc. reflexivity.
Qed.

Lemma avx_dot_short : forall (A : Type) (add mul : A -> A -> A) a b o sum, length a < o + 8 \/ length b < o + 8 -> avx_dot add mul a b o sum = UB.
Proof.
  intros A add mul a b o sum H. unfold avx_dot. destruct (le_lt_dec (o + 8) (length a)) as [La|La].
  - destruct a as [|d a]; [cbn in La; lia|]. rewrite (load8_ok A d) by auto. cbn [bind]. rewrite load8_short by lia. reflexivity.
  - rewrite load8_short by lia. reflexivity.
Qed.

Definition round_offs (k i : nat) : list nat := flat_map (fun i => [16 * i; 16 * i + 8]) (seq i k).

Lemma avx_rounds_lanes : forall (A : Type) (zero : A) add mul a b k i offs, 16 * (i + k) <= length a -> 16 * (i + k) <= length b ->
  avx_rounds add mul a b k i (lanes zero add mul a b offs) = Ok (lanes zero add mul a b (offs ++ round_offs k i)).
Proof.
  intros A zero add mul a b. induction k as [|k IH]; intros i offs Ha Hb.
  - cbn. now rewrite app_nil_r.
  - cbn [avx_rounds]. rewrite avx_dot_lanes by lia. cbn [bind]. rewrite avx_dot_lanes by lia. cbn [bind]. rewrite IH by lia.
    unfold round_offs. cbn [seq flat_map]. f_equal. f_equal. rewrite <- !app_assoc. reflexivity.
Qed.

Lemma avx_rounds_short : forall (A : Type) (zero : A) add mul a b k i offs, 0 < k -> length a < 16 * (i + k) \/ length b < 16 * (i + k) ->
  avx_rounds add mul a b k i (lanes zero add mul a b offs) = UB.
Proof.
  intros A zero add mul a b. induction k as [|k IH]; intros i offs Hk H; [lia|]. cbn [avx_rounds].
  destruct (le_lt_dec (16 * i + 8) (length a)) as [A1|A1]; [|rewrite avx_dot_short by lia; reflexivity].
  destruct (le_lt_dec (16 * i + 8) (length b)) as [B1|B1]; [|rewrite avx_dot_short by lia; reflexivity].
  rewrite avx_dot_lanes by lia. cbn [bind].
  destruct (le_lt_dec (16 * i + 8 + 8) (length a)) as [A2|A2]; [|rewrite avx_dot_short by lia; reflexivity].
  destruct (le_lt_dec (16 * i + 8 + 8) (length b)) as [B2|B2]; [|rewrite avx_dot_short by lia; reflexivity].
  rewrite avx_dot_lanes by lia. cbn [bind]. apply IH; lia.
Qed.

(** ** The whole inner product *)
Definition avx_offs (size : nat) : list nat :=
  let D := avx_D size in let DR := D mod 16 in let DD := D - DR in (if DR =? 0 then [] else [DD]) ++ round_offs (DD / 16) 0.

Definition avx_tree (size : nat) : red := fold_left RAdd (map (lane (avx_offs size)) (seq 1 7)) (lane (avx_offs size) 0).

Lemma sum8_lanes : forall (A : Type) (zero : A) add mul a b offs, sum8 add zero (lanes zero add mul a b offs) =
  red_val zero add (fun i => mul (nth i a zero) (nth i b zero)) (fold_left RAdd (map (lane offs) (seq 1 7)) (lane offs 0)).
Proof. reflexivity. Qed.

Lemma avx_D_split : forall size, exists q, avx_D size = 8 * q /\ size <= 8 * q < size + 8 /\
  avx_D size - avx_D size mod 16 = 16 * (q / 2) /\ avx_D size mod 16 = 8 * (q mod 2).
Proof.
  intros size. exists ((size + 7) / 8). unfold avx_D. set (q := (size + 7) / 8).
  assert (E : 8 * q mod 16 = 8 * (q mod 2)). { change 16 with (8 * 2). now rewrite Nat.mul_mod_distr_l by lia. }
  pose proof (Nat.div_mod (size + 7) 8 ltac:(lia)) as M. fold q in M. pose proof (Nat.mod_upper_bound (size + 7) 8 ltac:(lia)).
  pose proof (Nat.div_mod q 2 ltac:(lia)). repeat split; try lia.
Qed.

Lemma avx_ip_ok : forall (A : Type) (zero : A) add mul size a b, avx_D size <= length a -> avx_D size <= length b ->
  avx_ip zero add mul size a b = red_eval zero (fun x y => Ok (add x y)) (mul_item mul a b) (avx_tree size).
Proof.
  intros A zero add mul size a b Ha Hb. unfold avx_ip. destruct (avx_D_split size) as [q [ED [Es [EDD EDR]]]].
  assert (I : repeat zero 8 = lanes zero add mul a b []) by reflexivity. rewrite I.
  set (pre := if avx_D size mod 16 =? 0 then [] else [avx_D size - avx_D size mod 16]).
  assert (E1 : (if avx_D size mod 16 =? 0 then Ok (lanes zero add mul a b []) else avx_dot add mul a b (avx_D size - avx_D size mod 16) (lanes zero add mul a b [])) = Ok (lanes zero add mul a b pre)).
  { unfold pre. destruct (Nat.eqb_spec (avx_D size mod 16) 0) as [E|E]; [reflexivity|]. rewrite avx_dot_lanes; [reflexivity| |]; rewrite EDR in E; pose proof (Nat.mod_upper_bound q 2 ltac:(lia)); pose proof (Nat.div_mod q 2 ltac:(lia)); lia. }
  rewrite E1. cbn [bind]. assert (HD : (avx_D size - avx_D size mod 16) / 16 = q / 2) by (rewrite EDD, Nat.mul_comm, Nat.div_mul by lia; reflexivity). rewrite HD.
  assert (16 * (0 + q / 2) <= avx_D size) by lia. rewrite avx_rounds_lanes by lia. cbn [bind]. rewrite sum8_lanes. unfold avx_tree, avx_offs. fold pre. rewrite HD. symmetry. apply red_eval_val.
  intros i Hi. assert (i < avx_D size).
  { revert Hi. assert (G : forall offs, (forall o, In o offs -> o + 8 <= avx_D size) -> In i (red_items (fold_left RAdd (map (lane offs) (seq 1 7)) (lane offs 0))) -> i < avx_D size).
    { intros offs Ho Hi. cbn [seq map fold_left red_items] in Hi. rewrite !lane_items in Hi. repeat rewrite in_app_iff in Hi.
      repeat (destruct Hi as [Hi|Hi]); apply in_map_iff in Hi; destruct Hi as [o [<- Ho']]; specialize (Ho o Ho'); lia. }
    apply G. intros o Ho. apply in_app_or in Ho. destruct Ho as [Ho|Ho].
    - unfold pre in Ho. destruct (Nat.eqb_spec (avx_D size mod 16) 0) as [E|E]; [destruct Ho|]. destruct Ho as [<-|[]]. rewrite EDR in E. pose proof (Nat.mod_upper_bound q 2 ltac:(lia)); pose proof (Nat.div_mod q 2 ltac:(lia)). lia.
    - unfold round_offs in Ho. apply in_flat_map in Ho. destruct Ho as [k [Hk Ho]]. apply in_seq in Hk. destruct Ho as [<-|[<-|[]]]; lia. }
  apply mul_item_ok; lia.
Qed.

Lemma avx_ip_short : forall (A : Type) (zero : A) add mul size a b, length a < avx_D size \/ length b < avx_D size -> avx_ip zero add mul size a b = UB.
Proof.
  intros A zero add mul size a b H. unfold avx_ip. destruct (avx_D_split size) as [q [ED [Es [EDD EDR]]]].
  assert (I : repeat zero 8 = lanes zero add mul a b []) by reflexivity. rewrite I. pose proof (Nat.mod_upper_bound q 2 ltac:(lia)); pose proof (Nat.div_mod q 2 ltac:(lia)).
  assert (HD : (avx_D size - avx_D size mod 16) / 16 = q / 2) by (rewrite EDD, Nat.mul_comm, Nat.div_mul by lia; reflexivity).
  destruct (Nat.eqb_spec (avx_D size mod 16) 0) as [E|E].
  - cbn [bind]. rewrite HD. rewrite avx_rounds_short; [reflexivity| |]; lia.
  - rewrite avx_dot_short; [reflexivity|]. rewrite EDD, EDR in *. lia.
Qed.

Lemma perm_flat_map_app : forall (A B : Type) (g h : A -> list B) l, Permutation (flat_map (fun j => g j ++ h j) l) (flat_map g l ++ flat_map h l).
Proof.
  intros A B g h. induction l as [|x l IH]; [apply Permutation_refl|]. cbn [flat_map]. rewrite <- !app_assoc. apply Permutation_app_head.
  rewrite IH. rewrite !app_assoc. apply Permutation_app_tail, Permutation_app_comm.
Qed.

Lemma perm_grid : forall offs l, Permutation (flat_map (fun j => map (fun o => o + j) offs) l) (flat_map (fun o => map (fun j => o + j) l) offs).
Proof.
  induction offs as [|o offs IH]; intros l.
  - cbn. induction l as [|x l IHl]; [constructor|exact IHl].
  - cbn [map flat_map]. change (fun j => o + j :: map (fun o0 => o0 + j) offs) with (fun j => [o + j] ++ map (fun o0 => o0 + j) offs).
    rewrite perm_flat_map_app. apply Permutation_app; [|apply IH]. clear. induction l as [|x l IHl]; [constructor|]. cbn. now constructor.
Qed.

Lemma round_offs_map : forall k, round_offs k 0 = map (fun i => 8 * i) (seq 0 (2 * k)).
Proof.
  induction k as [|k IH]; [reflexivity|]. unfold round_offs in *. rewrite (seq_S k 0), flat_map_app, IH.
  replace (2 * S k) with (2 * k + 2) by lia. rewrite (seq_app (2 * k) 2 0), map_app. f_equal. cbn [flat_map seq map app]. f_equal; [lia|]. f_equal. lia.
Qed.

Lemma seq_blocks : forall q, flat_map (fun o => map (fun j => o + j) (seq 0 8)) (map (fun i => 8 * i) (seq 0 q)) = seq 0 (8 * q).
Proof.
  induction q as [|q IH]; [reflexivity|]. rewrite (seq_S q 0), map_app, flat_map_app, IH. replace (8 * S q) with (8 * q + 8) by lia. rewrite (seq_app (8 * q) 8 0). f_equal.
  cbn [map flat_map]. rewrite app_nil_r. cbn [plus]. set (x := 8 * q). clearbody x. cbn [seq map]. repeat (apply (f_equal2 (@cons nat)); [lia|]). reflexivity.
Qed.

Lemma avx_tree_items : forall size, Permutation (red_items (avx_tree size)) (seq 0 (avx_D size)).
Proof.
  intros size. unfold avx_tree. set (offs := avx_offs size).
  assert (E : red_items (fold_left RAdd (map (lane offs) (seq 1 7)) (lane offs 0)) = flat_map (fun j => map (fun o => o + j) offs) (seq 0 8)).
  { cbn [seq map fold_left red_items flat_map]. rewrite !lane_items, app_nil_r, <- !app_assoc. reflexivity. }
  rewrite E, perm_grid. destruct (avx_D_split size) as [q [ED [_ [EDD EDR]]]]. rewrite ED, <- (seq_blocks q). apply Permutation_flat_map.
  unfold offs, avx_offs. rewrite EDD, EDR. replace (16 * (q / 2) / 16) with (q / 2) by (rewrite Nat.mul_comm, Nat.div_mul; lia). rewrite round_offs_map.
  pose proof (Nat.div_mod q 2 ltac:(lia)) as M. pose proof (Nat.mod_upper_bound q 2 ltac:(lia)); pose proof (Nat.div_mod q 2 ltac:(lia)). destruct (Nat.eqb_spec (8 * (q mod 2)) 0) as [Z0|Z0].
  - replace (2 * (q / 2)) with q by lia. apply Permutation_refl.
  - replace (seq 0 q) with (seq 0 (2 * (q / 2) + 1)) by (f_equal; lia). rewrite seq_app, map_app. cbn [seq map plus]. replace (8 * (2 * (q / 2))) with (16 * (q / 2)) by lia. apply Permutation_app_comm.
Qed.

(** What the theorems state. *)
Lemma avx_covers : forall size, exists t, (forall D, D mod 8 = 0 -> size <= D < size + 8 -> Permutation (red_items t) (seq 0 D)) /\
  forall (A : Type) (zero : A) (add mul : A -> A -> A) D (a b : list A), D mod 8 = 0 -> size <= D < size + 8 ->
    (D <= length a -> D <= length b -> avx_ip zero add mul size a b =
       red_eval zero (fun x y => Ok (add x y)) (fun i => do x <- rd a i; do y <- rd b i; Ok (mul x y)) t) /\
    (length a < D \/ length b < D -> avx_ip zero add mul size a b = UB).
Proof.
  intros size. exists (avx_tree size). assert (U : forall D, D mod 8 = 0 -> size <= D < size + 8 -> D = avx_D size).
  { intros D HD Hs. destruct (avx_D_split size) as [q [E [H _]]]. rewrite E. apply Nat.mod_divides in HD; [|lia]. destruct HD as [c ->]. lia. }
  split; [intros D HD Hs; rewrite (U D HD Hs); apply avx_tree_items|]. intros A zero add mul D a b HD Hs. rewrite (U D HD Hs). split; intros.
  - apply avx_ip_ok; auto.
  - apply avx_ip_short; auto.
Qed.

(** Over the integers the sum does not depend on the order. *)
Lemma red_val_Z : forall val t, red_val 0%Z Z.add val t = zsum (map val (red_items t)).
Proof. intros val. induction t as [|i|l IHl r IHr]; cbn [red_val red_items map]; [reflexivity|unfold zsum; cbn; lia|]. now rewrite map_app, zsum_app, IHl, IHr. Qed.

Lemma avx_dot_exact : forall size a b, size mod 8 = 0 -> length a = size -> length b = size -> avx_ip 0%Z Z.add Z.mul size a b = Ok (dot a b).
Proof.
  intros size a b H8 Ha Hb. assert (E : avx_D size = size). { destruct (avx_D_split size) as [q [E [H _]]]. apply Nat.mod_divides in H8; [|lia]. destruct H8 as [c ->]. lia. }
  rewrite avx_ip_ok by lia. pose proof (avx_tree_items size) as P. rewrite E in P.
  rewrite (red_eval_val Z 0%Z Z.add _ (fun i => nth i a 0 * nth i b 0)%Z).
  - f_equal. rewrite red_val_Z, dot_at by lia. rewrite Ha. apply zsum_perm, Permutation_map, P.
  - intros i Hi. apply (Permutation_in _ P), in_seq in Hi. apply mul_item_ok; lia.
Qed.

Lemma avx_norm_ip : forall (A : Type) (zero : A) add mul size a, avx_norm zero add mul size a = avx_ip zero add mul size a a.
Proof.
  intros A zero add mul size a. assert (S1 : forall o sum, avx_sq add mul a o sum = avx_dot add mul a a o sum).
  { intros o sum. unfold avx_sq, avx_dot. destruct (load8 a o); reflexivity. }
  assert (S2 : forall k i sum, avx_sq_rounds add mul a k i sum = avx_rounds add mul a a k i sum).
  { induction k as [|k IH]; intros i sum; [reflexivity|]. cbn [avx_sq_rounds avx_rounds]. rewrite S1. destruct (avx_dot add mul a a (16 * i) sum); cbn [bind]; try reflexivity. rewrite S1. destruct (avx_dot _ _ _ _ _ _); cbn [bind]; try reflexivity. apply IH. }
  unfold avx_norm, avx_ip. rewrite S1. destruct (avx_D size mod 16 =? 0); cbn [bind]; [now rewrite S2|]. destruct (avx_dot _ _ _ _ _ _); cbn [bind]; try reflexivity. now rewrite S2.
Qed.

(** ** Float L2 *)
Definition opp_to (x y : spec_float) : Prop := y = SFopp x \/ (exists s s', x = S754_zero s /\ y = S754_zero s').

Lemma bra_opp : forall m e l, binary_round_aux 24 128 true m e l = SFopp (binary_round_aux 24 128 false m e l).
Proof.
  intros m e l. unfold binary_round_aux. destruct (shr_fexp 24 128 m e l) as [r e']. destruct (shr_fexp 24 128 _ e' loc_Exact) as [r' e''].
  destruct (shr_m r'); try reflexivity. destruct (e'' <=? 128 - 24)%Z; reflexivity.
Qed.

Lemma bnorm_opp : forall z e s, z <> 0%Z -> binary_normalize 24 128 (- z) e s = SFopp (binary_normalize 24 128 z e s).
Proof.
  intros z e s Hz. unfold binary_normalize. destruct z as [|p|p]; [congruence| |]; cbn [Z.opp]; unfold binary_round; destruct (shl_align p e _) as [m e']; rewrite bra_opp; [reflexivity|].
  destruct (binary_round_aux 24 128 false _ e' loc_Exact) as [b|b| |b ? ?]; cbn; try reflexivity; destruct b; reflexivity.
Qed.

Lemma fsub_opp : forall x y, opp_to (fsub x y) (fsub y x).
Proof.
  intros x y. unfold fsub, opp_to, prec, emax. destruct x as [sx|sx| |sx mx ex], y as [sy|sy| |sy my ey]; cbn [SFsub]; try (left; reflexivity); try (left; destruct sx; reflexivity); try (left; destruct sy; reflexivity).
  - right. destruct sx, sy; cbn; eauto.
  - left. destruct sx, sy; reflexivity.
  - rewrite (Z.min_comm ey ex). set (e := Z.min ex ey). set (p := cond_Zopp sx _). set (q := cond_Zopp sy _).
    destruct (Z.eq_dec (p - q) 0) as [E|E].
    + right. rewrite E. replace (q - p)%Z with 0%Z by lia. cbn. eauto.
    + left. replace (q - p)%Z with (- (p - q))%Z by lia. apply bnorm_opp. exact E.
Qed.

Lemma fmul_self : forall x y, opp_to x y -> fmul y y = fmul x x.
Proof.
  intros x y [->|[s [s' [-> ->]]]].
  - unfold fmul. destruct x as [s|s| |s m e]; cbn; try reflexivity; destruct s; reflexivity.
  - destruct s, s'; reflexivity.
Qed.

Lemma fsub_sq_sym : forall x y, fmul (fsub x y) (fsub x y) = fmul (fsub y x) (fsub y x).
Proof. intros x y. symmetry. apply fmul_self, fsub_opp. Qed.

Lemma l2_float_sym : forall t a b, length a = length b -> l2_float t a b = l2_float t b a.
Proof.
  intros t a b H. unfold l2_float. induction t as [|i|l IHl r IHr]; cbn [red_eval]; [reflexivity| |now rewrite IHl, IHr].
  unfold rd. destruct (nth_error a i) as [x|] eqn:Ea; destruct (nth_error b i) as [y|] eqn:Eb; cbn [bind]; try reflexivity. now rewrite fsub_sq_sym.
Qed.

(** Not negative: zero, positive, infinite or NaN. *)
Definition not_neg (x : f32) : Prop := match x with S754_infinity true | S754_finite true _ _ => False | _ => True end.

Lemma not_neg_flt : forall x, not_neg x -> flt x f32_zero = false.
Proof. intros [s|[]| |[] m e] H; try reflexivity; destruct H. Qed.

Lemma bra_not_neg : forall m e l, not_neg (binary_round_aux 24 128 false m e l).
Proof.
  intros m e l. unfold binary_round_aux. destruct (shr_fexp 24 128 m e l) as [r e']. destruct (shr_fexp 24 128 _ e' loc_Exact) as [r' e''].
  destruct (shr_m r'); [exact I| |exact I]. destruct (_ <=? _)%Z; exact I.
Qed.

Lemma square_not_neg : forall x, not_neg (fmul x x).
Proof. intros [s|s| |s m e]; unfold fmul, prec, emax; cbn [SFmul]; try (destruct s; exact I); try exact I. rewrite xorb_nilpotent. apply bra_not_neg. Qed.

Lemma fadd_not_neg : forall x y, not_neg x -> not_neg y -> not_neg (fadd x y).
Proof.
  intros x y Hx Hy. unfold fadd, prec, emax. destruct x as [sx|[]| |[] mx ex]; try contradiction; destruct y as [sy|[]| |[] my ey]; try contradiction; cbn [SFadd]; try exact I.
  - destruct sx, sy; exact I.
  - set (e := Z.min ex ey). destruct (shl_align mx ex e) as [p ?]. destruct (shl_align my ey e) as [q ?]. cbn [fst cond_Zopp]. change (Zpos p + Zpos q)%Z with (Zpos (p + q)). unfold binary_normalize, binary_round. destruct (shl_align _ _ _). apply bra_not_neg.
Qed.

Lemma l2_float_not_neg : forall t a b r, l2_float t a b = Ok r -> flt r f32_zero = false.
Proof.
  intros t a b. assert (G : forall r, l2_float t a b = Ok r -> not_neg r).
  { unfold l2_float. induction t as [|i|l IHl r IHr]; cbn [red_eval]; intros z H.
    - injection H as <-. exact I.
    - apply bind_ok in H. destruct H as [x [_ H]]. apply bind_ok in H. destruct H as [y [_ H]]. injection H as <-. apply square_not_neg.
    - apply bind_ok in H. destruct H as [x [Hx H]]. apply bind_ok in H. destruct H as [y [Hy H]]. injection H as <-. apply fadd_not_neg; eauto. }
  intros r H. apply not_neg_flt, G, H.
Qed.

Lemma fsub_self : forall x, finite x -> exists s, fsub x x = S754_zero s.
Proof.
  intros [s|s| |s m e] H; try contradiction; unfold fsub; cbn [SFsub].
  - destruct s; cbn; eauto.
  - rewrite Z.sub_diag. cbn. eauto.
Qed.

Lemma l2_float_self : forall t a, (forall x, In x a -> finite x) -> (forall i, In i (red_items t) -> i < length a) -> exists s, l2_float t a a = Ok (S754_zero s).
Proof.
  intros t a Hf. unfold l2_float. induction t as [|i|l IHl r IHr]; cbn [red_eval]; intros Hi.
  - exists false. reflexivity.
  - destruct (rd_lt _ a i) as [x Hx]; [apply Hi; now left|]. rewrite Hx. cbn [bind]. apply rd_ok, nth_error_In in Hx. destruct (fsub_self x (Hf x Hx)) as [s E]. rewrite E. exists (xorb s s). reflexivity.
  - destruct IHl as [s El]; [intros; apply Hi; cbn; apply in_or_app; auto|]. destruct IHr as [s' Er]; [intros; apply Hi; cbn; apply in_or_app; auto|]. rewrite El, Er. cbn [bind]. unfold fadd. cbn [SFadd].
    destruct s, s'; cbn; eauto.
Qed.
