(** * Chains of command lines of the utility tools. *)
From Coq Require Import NArith ZArith Reals Lra String List Arith Bool Lia Permutation Sorting.Sorted Floats.SpecFloat.
From Verif Require Import Base Bytes Float32 FloatBits DistSpec RealSpec BinSpec StreamModel BinModel BinProofs RecallSpec ClosestModel ClosestProofs ConvertModel ConvertProofs TsvModel TsvSpec TsvProofs3 LloydModel NormModel NormSpec FusedModel StatsModel TruthModel
  HeapSpec GtModel GtSpec BlasModel BlasSpec GtToolModel GtToolSpec GtToolProofs GtToolProofs4 PipelineProofs PipelineProofs2 IndexFileModel CmdModel CmdSpec CmdProofs CmdProofs2 UtilCmdModel UtilCmdSpec UtilCmdProofs.
Import ListNotations.
Local Open Scope string_scope.

Lemma set_same : forall (d : fs) a x, fs_set d a x a = x.
Proof. intros. unfold fs_set. now rewrite String.eqb_refl. Qed.
Lemma set_other : forall (d : fs) a b x, b <> a -> fs_set d a x b = d b.
Proof. intros d a b x H. unfold fs_set. destruct (String.eqb_spec a b); [congruence|]. destruct (String.eqb_spec b a); congruence. Qed.

(** ** Bytes made floats *)
Definition to_float (kt : ktype) : N -> N := match kt with KInt8 => int8_to_float | _ => uint8_to_float end.

Lemma to_float_val : forall kt b, kt <> KFloat -> (b < 256)%N -> kval KFloat (to_float kt b) = kval kt b.
Proof. intros [| |] b K H; [congruence|now apply int8_to_float_val|now apply uint8_to_float_val]. Qed.
Lemma to_float_small : forall kt b, (b < 256)%N -> (to_float kt b < 2 ^ 32)%N.
Proof.
  intros kt b H. assert (G : forallb (fun k => (int8_to_float (N.of_nat k) <? 2 ^ 32)%N && (uint8_to_float (N.of_nat k) <? 2 ^ 32)%N) (seq 0 256) = true) by (vm_compute; reflexivity).
  rewrite forallb_forall in G. specialize (G (N.to_nat b) ltac:(apply in_seq; lia)). cbn beta in G. rewrite N2Nat.id in G. apply andb_prop in G. rewrite !N.ltb_lt in G. destruct kt; tauto.
Qed.

Lemma loads_same : forall kt g1 g2 ps part dim rows, kt <> KFloat -> length g1 = 4%nat -> length g2 = 4%nat -> file_vectors 1 dim rows -> (part * ps <= length rows)%nat ->
  load_part KFloat g1 g2 (vector_file KFloat dim (map (map (to_float kt)) rows)) ps part = load_part kt g1 g2 (vector_file kt dim rows) ps part.
Proof.
  intros kt g1 g2 ps part dim rows K G1 G2 [Hn [Hd HR]] Hp. change (2 ^ 31)%N with 2147483648%N in Hn. change (2 ^ 32)%N with 4294967296%N in Hd.
  assert (W : kwidth kt = 1%nat) by (destruct kt; [congruence|reflexivity|reflexivity]).
  pose proof (load_part_ok KFloat g1 g2 ps part dim (map (map (to_float kt)) rows)) as A. unfold file_of in A. fold (vector_file KFloat dim (map (map (to_float kt)) rows)) in A.
  rewrite map_length in A. rewrite A; auto.
  - pose proof (load_part_ok kt g1 g2 ps part dim rows) as B. unfold file_of in B. fold (vector_file kt dim rows) in B. rewrite B; auto; [|rewrite W; exact HR].
    f_equal. f_equal. f_equal. unfold part_rows. rewrite map_length, skipn_map, firstn_map, !map_map. apply map_ext_in. intros r Hr. apply in_part in Hr. rewrite map_map. apply map_ext_in. intros x Hx. apply to_float_val; [exact K|]. apply (proj2 (HR r Hr) x Hx).
  - intros r Hr. apply in_map_iff in Hr. destruct Hr as [e [<- He]]. rewrite map_length. split; [apply HR, He|]. intros x Hx. apply in_map_iff in Hx. destruct Hx as [y [<- Hy]].
    change (256 ^ N.of_nat (kwidth KFloat))%N with (2 ^ 32)%N. apply to_float_small. apply (proj2 (HR e He) y Hy).
Qed.

Lemma parts_same : forall W mips pushf takef kt g1 g2 bs ps k nq queries orders dim rows, kt <> KFloat -> length g1 = 4%nat -> length g2 = 4%nat -> file_vectors 1 dim rows ->
  forall cnt p results, (cnt = 0 \/ (p + cnt - 1) * ps <= length rows)%nat ->
  tool_parts W mips pushf takef KFloat g1 g2 (vector_file KFloat dim (map (map (to_float kt)) rows)) bs ps k nq queries orders p cnt results =
  tool_parts W mips pushf takef kt g1 g2 (vector_file kt dim rows) bs ps k nq queries orders p cnt results.
Proof.
  intros W mips pushf takef kt g1 g2 bs ps k nq queries orders dim rows K G1 G2 HR. induction cnt as [|cnt IH]; intros p results Hp; [reflexivity|]. cbn [tool_parts].
  rewrite loads_same; auto; [|destruct Hp; [discriminate|nia]]. destruct (load_part kt g1 g2 _ ps p) as [[[np dm] pts]| | | |]; try reflexivity. cbn [bind].
  destruct (part_matrix _ _ _ _ _ _ _ _ _) as [dm'| | | |]; try reflexivity. cbn [bind]. destruct (exact_knn _ _ _ _ _ _ _ _ _) as [part| | | |]; try reflexivity. cbn [bind].
  apply IH. destruct cnt; [now left|right]. destruct Hp as [Hp|Hp]; [discriminate|]. replace (S p + S cnt - 1)%nat with (p + S (S cnt) - 1)%nat by lia. exact Hp.
Qed.

Lemma blocks_reach : forall n ps, (1 <= ps)%nat -> (n_blocks n ps = 0 \/ (0 + n_blocks n ps - 1) * ps <= n)%nat.
Proof.
  intros n ps H. destruct (n_blocks_bounds n ps H) as [_ B]. destruct (n_blocks n ps) as [|b]; [now left|right]. nia.
Qed.

Lemma truths_same : forall W mips pushf takef sortf bs ps kt gb1 gb2 gq1 gq2 dim rows qrows k orders, kt <> KFloat -> length gb1 = 4%nat -> length gb2 = 4%nat -> length gq1 = 4%nat -> length gq2 = 4%nat ->
  (1 <= ps)%nat -> file_vectors 1 dim rows -> file_vectors 1 dim qrows ->
  gt_tool W mips pushf takef sortf bs ps KFloat gb1 gb2 gq1 gq2 (vector_file KFloat dim (map (map (to_float kt)) rows)) (vector_file KFloat dim (map (map (to_float kt)) qrows)) k orders =
  gt_tool W mips pushf takef sortf bs ps kt gb1 gb2 gq1 gq2 (vector_file kt dim rows) (vector_file kt dim qrows) k orders.
Proof.
  intros W mips pushf takef sortf bs ps kt gb1 gb2 gq1 gq2 dim rows qrows k orders K B1 B2 Q1 Q2 Hps HR HQ. unfold gt_tool. pose proof HR as [Hn [Hd _]]. change (2 ^ 31)%N with 2147483648%N in Hn. change (2 ^ 32)%N with 4294967296%N in Hd.
  assert (H : forall kt' rs, length rs = length rows -> exists s, read_header gb1 gb2 (open_file (vector_file kt' dim rs)) = (N.of_nat (length rows), N.of_nat dim, s)).
  { intros kt' rs L. unfold vector_file, open_file, bin_file. rewrite L, read_header_app by (try assumption; unfold u32_range; lia). eexists. reflexivity. }
  destruct (H KFloat (map (map (to_float kt)) rows) (map_length _ _)) as [s1 ->]. destruct (H kt rows eq_refl) as [s2 ->]. cbn zeta.
  rewrite (loads_same kt gq1 gq2 ps 0 dim qrows) by (auto; lia). destruct (load_part kt gq1 gq2 _ ps 0) as [[[nq dm] queries]| | | |]; try reflexivity. cbn [bind].
  rewrite parts_same; auto. rewrite num_parts_ok by assumption. now apply blocks_reach.
Qed.

Definition to_float_main (kt : ktype) : (nat -> list N) -> list nat -> list string -> fs -> res (Z * fs) := match kt with KInt8 => int8_to_float_main | _ => uint8_to_float_main end.

Lemma concat_vectors : forall w dim rows, file_vectors w dim rows -> N.of_nat (length (concat rows)) = (N.of_nat (length rows) * N.of_nat dim)%N /\ (forall x, In x (concat rows) -> (x < 256 ^ N.of_nat w)%N) /\ u32_range (N.of_nat (length rows)) /\ u32_range (N.of_nat dim).
Proof.
  intros w dim rows [Hn [Hd HR]]. change (2 ^ 31)%N with 2147483648%N in Hn. change (2 ^ 32)%N with 4294967296%N in Hd. split; [|split; [|unfold u32_range; lia]].
  - rewrite (GtToolProofs.concat_len _ dim) by (intros; now apply HR). lia.
  - intros x Hx. apply in_concat in Hx. destruct Hx as [r [Hr Hx]]. apply (proj2 (HR r Hr) x Hx).
Qed.

Lemma to_float_ok : forall kt g order dim rows prog src dst d, kt <> KFloat -> length (g 0%nat) = 4%nat -> length (g 1%nat) = 4%nat -> file_vectors 1 dim rows -> Permutation order (seq 0 (length rows)) -> d src = vector_file kt dim rows ->
  to_float_main kt g order [prog; src; dst] d = Ok (0%Z, fs_set d dst (vector_file KFloat dim (map (map (to_float kt)) rows))).
Proof.
  intros kt g order dim rows prog src dst d K G0 G1 HR Ho E. destruct (concat_vectors 1 dim rows HR) as [L [B [U1 U2]]].
  assert (X : forall conv, convert_main 1 4 conv g order [prog; src; dst] d = Ok (0%Z, fs_set d dst (vector_file KFloat dim (map (map conv) rows)))).
  { intros conv. rewrite convert_ok, E. unfold vector_file. replace (kwidth kt) with 1%nat by (destruct kt; [congruence|reflexivity|reflexivity]). unfold writes. rewrite convert_file_ok; auto.
    - cbn [bind]. rewrite map_length, concat_map. reflexivity.
    - destruct HR as [Hn [Hd _]]. change (2 ^ 31)%N with 2147483648%N in Hn. change (2 ^ 32)%N with 4294967296%N in Hd. change (2 ^ 63)%N with 9223372036854775808%N. nia.
    - now rewrite Nat2N.id. }
  destruct kt; [congruence|apply X|apply X].
Qed.

Lemma convert_then_truth : forall W pushf takef sortf bs ps kt, kt <> KFloat -> forall g orders g' order g'' order' dim rows qrows base query fbase fquery prog prog' ks out m d,
  file_vectors 1 dim rows -> file_vectors 1 dim qrows -> d base = vector_file kt dim rows -> d query = vector_file kt dim qrows ->
  ~ In fbase [base; query] -> ~ In fquery [base; query; fbase] -> (1 <= ps)%nat -> (forall i, length (g i) = 4%nat) -> (forall i, length (g' i) = 4%nat) -> (forall i, length (g'' i) = 4%nat) -> Permutation order (seq 0 (length rows)) -> Permutation order' (seq 0 (length qrows)) ->
  exists d1 d2, to_float_main kt g' order [prog; base; fbase] d = Ok (0%Z, d1) /\ to_float_main kt g'' order' [prog; query; fquery] d1 = Ok (0%Z, d2) /\
    compute_groundtruth_main W pushf takef sortf bs ps g orders [prog'; "float"; fbase; fquery; ks; out; m] d2 = compute_groundtruth_main W pushf takef sortf bs ps g orders [prog'; type_word kt; base; query; ks; out; m] d2.
Proof.
  intros W pushf takef sortf bs ps kt K g orders g' order g'' order' dim rows qrows base query fbase fquery prog prog' ks out m d HR HQ Eb Eq Nb Nq Hps G G' G'' O1 O2.
  assert (N1 : base <> fbase /\ query <> fbase /\ base <> fquery /\ query <> fquery /\ fbase <> fquery) by (cbn in *; intuition congruence).
  eexists. eexists. split; [apply (to_float_ok kt g' order dim rows); auto|]. split; [apply (to_float_ok kt g'' order' dim qrows); auto; now rewrite set_other by tauto|].
  unfold compute_groundtruth_main, arg. cbn [length Nat.eqb negb nth_error bind]. rewrite kind_word. change (kind_of "float") with (Some KFloat). cbn [bind].
  set (A := vector_file KFloat dim (map (map (to_float kt)) rows)). set (B := vector_file KFloat dim (map (map (to_float kt)) qrows)). set (D := fs_set (fs_set d fbase A) fquery B).
  assert (E1 : D fbase = A) by (unfold D; rewrite set_other by tauto; apply set_same). assert (E2 : D fquery = B) by apply set_same.
  assert (E3 : D base = vector_file kt dim rows) by (unfold D; rewrite !set_other by tauto; exact Eb). assert (E4 : D query = vector_file kt dim qrows) by (unfold D; rewrite !set_other by tauto; exact Eq).
  rewrite E1, E2, E3, E4. clearbody D. subst A B.
  unfold int_arg, arg. cbn [nth_error bind]. destruct (atoi _) as [z| | | |]; try reflexivity. cbn [bind]. now rewrite truths_same.
Qed.

Lemma int8_then_truth : forall W pushf takef sortf bs ps g orders g' order g'' order' dim rows qrows base query fbase fquery prog prog' ks out m d,
  file_vectors 1 dim rows -> file_vectors 1 dim qrows -> d base = vector_file KInt8 dim rows -> d query = vector_file KInt8 dim qrows ->
  ~ In fbase [base; query] -> ~ In fquery [base; query; fbase] -> (1 <= ps)%nat -> (forall i, length (g i) = 4%nat) -> (forall i, length (g' i) = 4%nat) -> (forall i, length (g'' i) = 4%nat) -> Permutation order (seq 0 (length rows)) -> Permutation order' (seq 0 (length qrows)) ->
  exists d1 d2, int8_to_float_main g' order [prog; base; fbase] d = Ok (0%Z, d1) /\ int8_to_float_main g'' order' [prog; query; fquery] d1 = Ok (0%Z, d2) /\
    compute_groundtruth_main W pushf takef sortf bs ps g orders [prog'; "float"; fbase; fquery; ks; out; m] d2 = compute_groundtruth_main W pushf takef sortf bs ps g orders [prog'; "int8"; base; query; ks; out; m] d2.
Proof. intros W pushf takef sortf bs ps. apply (convert_then_truth W pushf takef sortf bs ps KInt8). discriminate. Qed.

Lemma uint8_then_truth : forall W pushf takef sortf bs ps g orders g' order g'' order' dim rows qrows base query fbase fquery prog prog' ks out m d,
  file_vectors 1 dim rows -> file_vectors 1 dim qrows -> d base = vector_file KUint8 dim rows -> d query = vector_file KUint8 dim qrows ->
  ~ In fbase [base; query] -> ~ In fquery [base; query; fbase] -> (1 <= ps)%nat -> (forall i, length (g i) = 4%nat) -> (forall i, length (g' i) = 4%nat) -> (forall i, length (g'' i) = 4%nat) -> Permutation order (seq 0 (length rows)) -> Permutation order' (seq 0 (length qrows)) ->
  exists d1 d2, uint8_to_float_main g' order [prog; base; fbase] d = Ok (0%Z, d1) /\ uint8_to_float_main g'' order' [prog; query; fquery] d1 = Ok (0%Z, d2) /\
    compute_groundtruth_main W pushf takef sortf bs ps g orders [prog'; "float"; fbase; fquery; ks; out; m] d2 = compute_groundtruth_main W pushf takef sortf bs ps g orders [prog'; "uint8"; base; query; ks; out; m] d2.
Proof. intros W pushf takef sortf bs ps. apply (convert_then_truth W pushf takef sortf bs ps KUint8). discriminate. Qed.

(** ** Text and back *)
Lemma tsv_bytes : forall bs g kt dim tb src txt dst prog prog' ds ns d, kt <> KFloat -> (1 <= bs)%nat -> (1 <= dim)%nat -> (length tb <= bs)%nat -> length (g 0%nat) = 4%nat -> length (g 1%nat) = 4%nat -> number_arg ds (N.of_nat dim) -> number_arg ns (N.of_nat (length tb)) ->
  table dim tb -> elements (fun x => (x < 256)%N /\ ~ white x) tb -> d src = Some (table_file 1 dim tb) -> src <> txt -> txt <> dst ->
  exists d1 d2, bin_to_tsv_main bs g [prog; type_word kt; src; txt] d = Ok (0%Z, d1) /\ tsv_to_bin_main bs [prog'; type_word kt; txt; dst; ds; ns] d1 = Ok (0%Z, d2) /\ d2 dst = d src.
Proof.
  intros bs g kt dim tb src txt dst prog prog' ds ns d K Hb Hd Hl G0 G1 Nd Nn T E Ed N1 N2. assert (Tx : text_type kt = Byte) by (destruct kt; [congruence|reflexivity|reflexivity]).
  pose proof (small32 _ (small31 _ _ Nd)) as U1. pose proof (small32 _ (small31 _ _ Nn)) as U2.
  destruct (byte_round_trip bs (g 0%nat) (g 1%nat) dim tb) as [t [A B]]; auto.
  eexists. eexists. rewrite to_tsv_ok, Ed, Tx by exact N1. unfold writes at 1. rewrite A. cbn [bind]. split; [reflexivity|].
  rewrite (to_bin_ok bs prog' kt txt dst ds (N.of_nat dim) ns (N.of_nat (length tb))), Tx, set_same by auto. rewrite !Nat2N.id, B. unfold writes. cbn [bind]. split; [reflexivity|]. apply set_same.
Qed.

Lemma tsv_floats : forall bs g dim tb src txt dst prog prog' ds ns d, (1 <= bs)%nat -> (1 <= dim)%nat -> length (g 0%nat) = 4%nat -> length (g 1%nat) = 4%nat -> number_arg ds (N.of_nat dim) -> number_arg ns (N.of_nat (length tb)) ->
  table dim tb -> elements (fun x => (x < 2 ^ 32)%N /\ TsvSpec.finite (f32_of_bits x)) tb -> d src = Some (table_file 4 dim tb) -> src <> txt -> txt <> dst ->
  exists d1 d2 tc, bin_to_tsv_main bs g [prog; "float"; src; txt] d = Ok (0%Z, d1) /\ tsv_to_bin_main bs [prog'; "float"; txt; dst; ds; ns] d1 = Ok (0%Z, d2) /\ d2 dst = Some (table_file 4 dim tc) /\ table dim tc /\
    entrywise (fun x y => by_six_digits (f32_of_bits x) (f32_of_bits y)) tb tc.
Proof.
  intros bs g dim tb src txt dst prog prog' ds ns d Hb Hd G0 G1 Nd Nn T E Ed N1 N2.
  pose proof (small32 _ (small31 _ _ Nd)) as U1. pose proof (small32 _ (small31 _ _ Nn)) as U2.
  destruct (float_round_trip bs (g 0%nat) (g 1%nat) dim tb) as [t [tc [A [B [C [D [F _]]]]]]]; auto.
  eexists. eexists. exists tc. change "float" with (type_word KFloat). rewrite to_tsv_ok, Ed by exact N1. unfold writes at 1. cbn [text_type]. rewrite A. cbn [bind]. split; [reflexivity|].
  rewrite (to_bin_ok bs prog' KFloat txt dst ds (N.of_nat dim) ns (N.of_nat (length tb))), set_same by auto. cbn [text_type]. rewrite !Nat2N.id, B. unfold writes. cbn [bind]. split; [reflexivity|]. split; [apply set_same|]. split; [exact C|exact F].
Qed.

(** ** A truth file against itself *)
Lemma self_loaded : forall h h' b nq k ids dists r, (forall g, load_truthset g (Some b) = Ok (N.of_nat nq, N.of_nat k, ids, Some dists)) -> (1 <= nq)%nat -> (N.of_nat nq < 2 ^ 32)%N -> (N.of_nat k < 2 ^ 32)%N -> (1 <= r <= k)%nat -> (N.of_nat nq * N.of_nat r <= 2 ^ 53)%N ->
  (forall i, (i < nq)%nat -> length (truth_row k i ids dists) = k /\ NoDup (map fst (truth_row k i ids dists)) /\ forall x, In x (truth_row k i ids dists) -> DistSpec.finite (snd x)) ->
  exists v, recall_tool h h' (Some b) (Some b) (N.of_nat r) = Ok (Some v) /\ DistSpec.finite v /\ real v = 100%R.
Proof.
  intros h h' b nq k ids dists r HL Hn1 Hn Hk Hr Hp Hrow. destruct (loaded_lengths _ _ _ _ _ _ (HL h)) as [L1 L2]. assert (L1' : length ids = (nq * k)%nat) by lia. assert (L2' : length dists = (nq * k)%nat) by lia.
  assert (D1 : (1 <= k)%nat) by lia.
  apply (recall_full h h' (Some b) (Some b) (N.of_nat nq) (N.of_nat k) ids dists (N.of_nat k) ids (Some dists)); auto; try lia.
  - intros y Hy. apply (In_nth _ _ 0%N) in Hy. destruct Hy as [p [Hpp <-]]. rewrite L2' in Hpp. assert (Dp : (k <> 0)%nat) by lia.
    assert (Pq : (p / k < nq)%nat) by (apply Nat.div_lt_upper_bound; lia). pose proof (Nat.mod_upper_bound p k Dp) as Pm. pose proof (Nat.div_mod p k Dp) as Pd.
    destruct (Hrow (p / k)%nat Pq) as [Lr [_ A]]. pose proof (row_at k (p / k) (p mod k) nq ids dists L1' L2' Pq Pm) as E.
    specialize (A (nth (p mod k) (truth_row k (p / k) ids dists) (0%nat, f32_zero)) ltac:(apply nth_In; lia)). rewrite E in A. cbn [snd] in A. replace (p / k * k + p mod k)%nat with p in A by lia. destruct (f32_of_bits (nth p dists 0%N)); try reflexivity. destruct A.
  - intros j tb Hj [Ht _] x Hx. unfold prefix in *. set (m := skipn _ ids) in *. rewrite <- (firstn_skipn (N.to_nat (N.of_nat r)) (firstn (N.to_nat tb) m)). apply in_or_app. left. rewrite firstn_firstn, Nat.min_l by lia. exact Hx.
  - intros j Hj. rewrite Nat2N.id in Hj. destruct (Hrow j Hj) as [Lr [Nd _]]. unfold prefix. replace (N.to_nat (N.of_nat k * N.of_nat j)) with (j * k)%nat by lia. rewrite !Nat2N.id. split.
    + apply (NoDup_map_inv N.to_nat). rewrite <- (row_fst k j nq r ids dists) by (auto; lia). rewrite <- firstn_map. now apply nodup_first.
    + rewrite firstn_length, skipn_length. nia.
Qed.
