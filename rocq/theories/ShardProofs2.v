(** * Lemmas about sharding: the files, and retrieving from ids. *)
From Coq Require Import List Arith NArith Bool Lia.
From Verif Require Import Base Bytes Float32 ListLemmas TopKSpec StreamModel BinModel BinSpec BinProofs CacheModel CacheProofs ClosestModel ClosestSpec ClosestProofs
  TruthModel TruthProofs PqModel PqProofs PqProofs2 ShardModel ShardSpec ShardProofs.
Import ListNotations.

Lemma vector_header : forall g n rl dim rows, rows_ok n rl dim rows -> exists c1 c2,
  take g 4 (copen (Some (vector_file dim rows)) blk) = Ok (u32 (N.of_nat n), c1) /\ take g 4 c1 = Ok (u32 (N.of_nat dim), c2) /\ rinv (vector_file dim rows) 8 c2.
Proof.
  intros g n rl dim rows [HL [HR [Hn [Hd Hf]]]].
  assert (R0 : rinv (vector_file dim rows) 0 (copen (Some (vector_file dim rows)) blk)). { apply copen_inv. rewrite (vector_file_length dim rows rl HR), HL. lia. }
  set (c := copen _ _) in *. clearbody c. unfold vector_file in *. rewrite HL in *.
  destruct (take_piece g 4 [] (u32 (N.of_nat n)) (u32 (N.of_nat dim) ++ concat rows) c R0 eq_refl eq_refl) as [c1 [E1 R2]].
  destruct (take_piece g 4 (u32 (N.of_nat n)) (u32 (N.of_nat dim)) (concat rows) c1 R2 eq_refl eq_refl) as [c2 [E2 R3]].
  exists c1, c2. auto.
Qed.

Lemma id_file_eq : forall l, u32 (N.of_nat (length l)) ++ u32 1 ++ enc_all 4 (map N.of_nat l) = id_file l.
Proof. intros l. unfold id_file, vector_file. rewrite map_length. do 2 f_equal. unfold enc_all. rewrite flat_map_concat_map, map_map. reflexivity. Qed.

Definition shard_result (wd : bool) (dim : nat) (rows : list (list N)) (n nc : nat) (assign : nat -> list nat) : list (option (list N) * list N) :=
  map (fun i => (if wd then Some (shard_file dim rows (members assign n i)) else None, id_file (members assign n i))) (seq 0 nc).

Lemma shard_data_eq : forall g popf mbs maxb wd dmat n w nc dim k orders rows, pops popf -> 1 <= mbs -> 1 <= maxb -> 1 <= nc -> 1 <= n ->
  rows_ok n (dim * w) dim rows -> usable_dists dmat n nc k -> shard_orders n k (min n maxb) mbs orders ->
  shard_data g popf mbs maxb wd dmat w nc dim k orders (Some (vector_file dim rows)) = Ok (Some (shard_result wd dim rows n nc (assigned popf dmat nc k))).
Proof.
  intros g popf mbs maxb wd dmat n w nc dim k orders rows Hp Hm Hx Hnc Hn HR HU Ho. unfold shard_data.
  destruct (vector_header g n _ dim rows HR) as [c1 [c2 [E1 [E2 R]]]]. rewrite E1. cbn [bind fst snd]. rewrite E2. cbn [bind fst snd].
  pose proof HR as [HL [HR1 [Hn32 [Hd32 Hf]]]]. rewrite !dec_u32 by auto. rewrite N.eqb_refl, Nat2N.id. cbn [negb].
  assert (Ebs : (if n <=? maxb then n else maxb) = min n maxb) by (destruct (Nat.leb_spec n maxb); lia). rewrite Ebs. clear Ebs.
  set (bs := min n maxb) in *. assert (Hbs : 1 <= bs) by (unfold bs; lia). rewrite (proj2 (Nat.eqb_neq bs 0)) by lia. rewrite div_round_up_eq.
  destruct (n_blocks_bounds n bs Hbs) as [B1 B2].
  assert (E0 : repeat (mkSh [] [] 0) nc = shards_of wd rows nc (members (assigned popf dmat nc k) (min (0 * bs) n))).
  { apply nth_error_ext_lt; [unfold shards_of; now rewrite repeat_length, map_length, seq_length|]. intros i Hi. rewrite repeat_length in Hi. rewrite nth_error_repeat, shards_nth by auto. now destruct wd. }
  rewrite E0. rewrite (shard_blocks_ok g popf mbs wd dmat n dim rows (dim * w) nc k bs orders); auto; [|apply repeat_length].
  cbn [bind]. do 2 f_equal. unfold shards_of, shard_result. rewrite map_map. apply map_ext. intros i. unfold shard_of. cbn [sh_count sh_data sh_ids]. rewrite id_file_eq. f_equal.
  destruct wd; [|auto]. unfold shard_file, vector_file. now rewrite map_length.
Qed.

(** ** The members *)
Lemma filter_seq_in : forall (A : Type) (f g : nat -> bool) l, (forall x, In x l -> f x = g x) -> filter f l = filter g l.
Proof. intros A f g l H. apply filter_ext_in. auto. Qed.

Lemma members_filter : forall assign n i, (forall p, p < n -> NoDup (assign p)) ->
  members assign n i = filter (fun p => if in_dec Nat.eq_dec i (assign p) then true else false) (seq 0 n).
Proof.
  intros assign n i H. unfold members. assert (H' : forall p, In p (seq 0 n) -> NoDup (assign p)) by (intros p Hp; apply in_seq in Hp; apply H; lia). clear H.
  induction (seq 0 n) as [|p l IH]; [reflexivity|]. cbn [flat_map filter]. rewrite IH by (intros; apply H'; now right).
  destruct (in_dec Nat.eq_dec i (assign p)) as [Hi|Hi].
  - rewrite (proj1 (NoDup_count_occ' Nat.eq_dec (assign p)) (H' p ltac:(now left)) i Hi). reflexivity.
  - rewrite (proj1 (count_occ_not_In Nat.eq_dec (assign p) i) Hi). reflexivity.
Qed.

Fixpoint sum (l : list nat) : nat := match l with [] => 0 | x :: t => x + sum t end.

Lemma sum_app : forall a b, sum (a ++ b) = sum a + sum b.
Proof. induction a; intros b; cbn; [auto|rewrite IHa; lia]. Qed.

Lemma sum_zero : forall (A : Type) (l : list A), sum (map (fun _ => 0) l) = 0.
Proof. induction l; cbn; auto. Qed.

Lemma sum_plus : forall (A : Type) (f h : A -> nat) l, sum (map (fun x => f x + h x) l) = sum (map f l) + sum (map h l).
Proof. induction l; cbn; [auto|lia]. Qed.

Lemma sum_one : forall nc s, s < nc -> sum (map (fun i => if Nat.eq_dec s i then 1 else 0) (seq 0 nc)) = 1.
Proof.
  intros nc s H. replace nc with (s + S (nc - S s)) by lia. rewrite seq_app, map_app, sum_app. cbn [seq map sum plus].
  destruct (Nat.eq_dec s s); [|congruence].
  rewrite (map_ext_in _ (fun _ => 0)), sum_zero; [|intros i Hi; apply in_seq in Hi; destruct (Nat.eq_dec s i); lia].
  rewrite (map_ext_in _ (fun _ => 0)), sum_zero; [reflexivity|intros i Hi; apply in_seq in Hi; destruct (Nat.eq_dec s i); lia].
Qed.

Lemma count_total : forall nc l, (forall s, In s l -> s < nc) -> sum (map (count_occ Nat.eq_dec l) (seq 0 nc)) = length l.
Proof.
  intros nc. induction l as [|s l IH]; intros H; [cbn; apply sum_zero|]. cbn [count_occ length].
  rewrite (map_ext _ (fun i => (if Nat.eq_dec s i then 1 else 0) + count_occ Nat.eq_dec l i)) by (intros i; destruct (Nat.eq_dec s i); lia).
  rewrite sum_plus, sum_one by (apply H; now left). rewrite IH by (intros; apply H; now right). lia.
Qed.

Lemma members_total : forall assign nc k n, (forall p, p < n -> length (assign p) = k /\ forall s, In s (assign p) -> s < nc) ->
  sum (map (fun i => length (members assign n i)) (seq 0 nc)) = n * k.
Proof.
  intros assign nc k. induction n as [|n IH]; intros H; [cbn; apply sum_zero|].
  rewrite (map_ext _ (fun i => length (members assign n i) + count_occ Nat.eq_dec (assign n) i)).
  - rewrite sum_plus, IH by (intros; apply H; lia). destruct (H n ltac:(lia)) as [H1 H2]. rewrite count_total, H1 by auto. lia.
  - intros i. rewrite <- members_snoc, app_length, repeat_length. auto.
Qed.

Lemma assigned_nearest : forall popf dmat n nc k, pops popf -> usable_dists dmat n nc k -> k <= nc -> nearest_shards dmat n nc k (assigned popf dmat nc k).
Proof.
  intros popf dmat n nc k Hp HU Hk p Hn. unfold assigned. rewrite (proj2 (Nat.ltb_ge nc k)) by auto. destruct (HU p Hn) as [U1 U2]. apply nearest_ids_ok; [auto|]. split; [auto|split; auto].
Qed.

Lemma shard_nearest : forall g popf mbs maxb wd dmat n w nc dim k orders rows, pops popf -> 1 <= mbs -> 1 <= maxb -> 1 <= nc -> 1 <= n ->
  rows_ok n (dim * w) dim rows -> usable_dists dmat n nc k -> shard_orders n k (min n maxb) mbs orders -> k <= nc ->
  exists assign, nearest_shards dmat n nc k assign /\
    (exists out, shard_data g popf mbs maxb wd dmat w nc dim k orders (Some (vector_file dim rows)) = Ok (Some out) /\ length out = nc /\
      forall i, i < nc -> let ids := filter (fun p => if in_dec Nat.eq_dec i (assign p) then true else false) (seq 0 n) in
        nth_error out i = Some (if wd then Some (shard_file dim rows ids) else None, id_file ids)) /\
    sum (map (fun i => length (filter (fun p => if in_dec Nat.eq_dec i (assign p) then true else false) (seq 0 n))) (seq 0 nc)) = k * n.
Proof.
  intros g popf mbs maxb wd dmat n w nc dim k orders rows Hp Hm Hx Hnc Hn HR HU Ho Hk. exists (assigned popf dmat nc k).
  pose proof (assigned_nearest popf dmat n nc k Hp HU Hk) as HA. split; [exact HA|].
  assert (HF : forall i, filter (fun p => if in_dec Nat.eq_dec i (assigned popf dmat nc k p) then true else false) (seq 0 n) = members (assigned popf dmat nc k) n i).
  { intros i. symmetry. apply members_filter. intros p Hp'. apply (HA p Hp'). }
  split.
  - exists (shard_result wd dim rows n nc (assigned popf dmat nc k)). split; [apply shard_data_eq; auto|]. split; [unfold shard_result; now rewrite map_length, seq_length|].
    intros i Hi ids. unfold ids. rewrite HF. unfold shard_result. rewrite nth_error_map, nth_error_seq_lt by auto. reflexivity.
  - rewrite (map_ext _ (fun i => length (members (assigned popf dmat nc k) n i))) by (intros; now rewrite HF). rewrite (members_total _ nc k); [lia|].
    intros p Hp'. apply (assigned_ok popf dmat n); auto.
Qed.

Lemma members_const : forall k n i, members (fun _ => repeat 0 k) n i = if i =? 0 then flat_map (fun p => repeat p k) (seq 0 n) else [].
Proof.
  intros k n i. unfold members. destruct (Nat.eqb_spec i 0) as [->|H].
  - apply flat_map_ext. intros p. f_equal. induction k; cbn; congruence.
  - induction (seq 0 n) as [|p l IH]; [reflexivity|]. cbn [flat_map]. rewrite IH. replace (count_occ Nat.eq_dec (repeat 0 k) i) with 0; [reflexivity|].
    symmetry. apply count_occ_not_In. intros X. apply repeat_spec in X. auto.
Qed.

Lemma shard_too_many : forall g popf mbs maxb wd dmat n w nc dim k orders rows, pops popf -> 1 <= mbs -> 1 <= maxb -> 1 <= nc -> 1 <= n ->
  rows_ok n (dim * w) dim rows -> usable_dists dmat n nc k -> shard_orders n k (min n maxb) mbs orders -> nc < k ->
  exists out, shard_data g popf mbs maxb wd dmat w nc dim k orders (Some (vector_file dim rows)) = Ok (Some out) /\ length out = nc /\
    forall i, i < nc -> let ids := if i =? 0 then flat_map (fun p => repeat p k) (seq 0 n) else [] in
      nth_error out i = Some (if wd then Some (shard_file dim rows ids) else None, id_file ids).
Proof.
  intros g popf mbs maxb wd dmat n w nc dim k orders rows Hp Hm Hx Hnc Hn HR HU Ho Hk. exists (shard_result wd dim rows n nc (assigned popf dmat nc k)).
  split; [apply shard_data_eq; auto|]. split; [unfold shard_result; now rewrite map_length, seq_length|].
  intros i Hi ids. unfold ids. rewrite <- members_const. unfold shard_result. rewrite nth_error_map, nth_error_seq_lt by auto. cbn [option_map plus].
  replace (members (assigned popf dmat nc k) n i) with (members (fun _ => repeat 0 k) n i); [reflexivity|].
  unfold members. apply flat_map_ext. intros p. unfold assigned. now rewrite (proj2 (Nat.ltb_lt nc k)) by auto.
Qed.

Lemma shard_dim_mismatch : forall g popf mbs maxb wd dmat n w nc dim dim' rl k orders rows, rows_ok n rl dim' rows -> dim <> dim' ->
  shard_data g popf mbs maxb wd dmat w nc dim k orders (Some (vector_file dim' rows)) = Ok None.
Proof.
  intros g popf mbs maxb wd dmat n w nc dim dim' rl k orders rows HR Hd. unfold shard_data.
  destruct (vector_header g n _ dim' rows HR) as [c1 [c2 [E1 [E2 R]]]]. rewrite E1. cbn [bind fst snd]. rewrite E2. cbn [bind fst snd].
  pose proof HR as [HL [HR1 [Hn32 [Hd32 Hf]]]]. rewrite !dec_u32 by auto. rewrite (proj2 (N.eqb_neq _ _)) by lia. reflexivity.
Qed.

Lemma shard_no_points : forall g popf mbs maxb wd dmat w nc dim k orders, (N.of_nat dim < 2 ^ 32)%N ->
  shard_data g popf mbs maxb wd dmat w nc dim k orders (Some (vector_file dim [])) = UB.
Proof.
  intros g popf mbs maxb wd dmat w nc dim k orders Hd. unfold shard_data.
  assert (HR : rows_ok 0 0 dim []). { split; [reflexivity|]. split; [intros r []|]. split; [reflexivity|]. split; [auto|reflexivity]. }
  destruct (vector_header g 0 _ dim [] HR) as [c1 [c2 [E1 [E2 R]]]]. rewrite E1. cbn [bind fst snd]. rewrite E2. cbn [bind fst snd].
  rewrite !dec_u32 by (auto; reflexivity). rewrite N.eqb_refl. reflexivity.
Qed.

(** ** Retrieving from ids *)
Lemma filter_len : forall (f : nat -> bool) l, length (filter f l) <= length l.
Proof. induction l as [|x l IH]; [auto|]. cbn. destruct (f x); cbn; lia. Qed.

Lemma filter_split : forall (m : nat -> bool) q n, q <= n -> filter m (seq 0 n) = filter m (seq 0 q) ++ filter m (seq q (n - q)).
Proof. intros m q n H. replace n with (q + (n - q)) at 1 by lia. now rewrite seq_app, filter_app. Qed.

Lemma retrieve_points_ok : forall (rows : list (list N)) rl start bl (m : nat -> bool) n cnt p,
  start + p + cnt <= n -> (forall j, p <= j -> j < p + cnt -> row_bytes rl j bl = nth (start + j) rows []) ->
  retrieve_points rl start bl (map N.of_nat (filter m (seq 0 n))) (N.of_nat (length (filter m (seq 0 n)))) p cnt (length (filter m (seq 0 (start + p)))) =
    Ok (length (filter m (seq 0 (start + p + cnt))), concat (map (fun q => nth q rows []) (filter m (seq (start + p) cnt)))).
Proof.
  intros rows rl start bl m n. induction cnt as [|cnt IH]; intros p Hn Hr; cbn [retrieve_points]; [now rewrite Nat.add_0_r|].
  set (q := start + p) in *. pose proof (filter_split m q n ltac:(lia)) as ES. pose proof (f_equal (@length nat) ES) as EL. rewrite app_length in EL.
  destruct (N.eqb_spec (N.of_nat (length (filter m (seq 0 q)))) (N.of_nat (length (filter m (seq 0 n))))) as [E|E].
  - assert (Ez : filter m (seq q (n - q)) = []) by (apply length_zero_iff_nil; lia).
    replace (n - q) with (S cnt + (n - q - S cnt)) in Ez by lia. rewrite seq_app, filter_app in Ez. apply app_eq_nil in Ez. destruct Ez as [Ez _].
    rewrite (filter_split m q (q + S cnt)) by lia. replace (q + S cnt - q) with (S cnt) by lia. rewrite Ez, app_nil_r. reflexivity.
  - assert (En : n - q = S (n - S q)) by lia. rewrite En in ES. cbn [seq filter] in ES.
    assert (H := IH (S p) ltac:(lia) ltac:(intros; apply Hr; lia)). replace (start + S p) with (S q) in H by (unfold q; lia).
    replace (q + S cnt) with (S q + cnt) by lia. cbn [seq filter].
    destruct (m q) eqn:Em.
    + assert (Erd : rd (map N.of_nat (filter m (seq 0 n))) (length (filter m (seq 0 q))) = Ok (N.of_nat q)).
      { apply rd_ok. rewrite nth_error_map, ES, nth_error_app2, Nat.sub_diag by lia. reflexivity. }
      rewrite Erd. cbn [bind]. rewrite N.eqb_refl.
      assert (EP : length (filter m (seq 0 (S q))) = S (length (filter m (seq 0 q)))). { rewrite seq_S, filter_app, app_length. cbn [filter plus]. rewrite Em. cbn. lia. }
      rewrite <- EP. rewrite H. cbn [bind fst snd map concat]. rewrite (Hr p) by lia. reflexivity.
    + assert (Hne : filter m (seq (S q) (n - S q)) <> []) by (intros X; rewrite X, app_nil_r in ES; apply E; now rewrite ES).
      destruct (filter m (seq (S q) (n - S q))) as [|x t] eqn:Ex; [congruence|].
      assert (Hx : S q <= x). { assert (In x (filter m (seq (S q) (n - S q)))) by (rewrite Ex; now left). apply filter_In in H0. destruct H0 as [H0 _]. apply in_seq in H0. lia. }
      assert (Erd : rd (map N.of_nat (filter m (seq 0 n))) (length (filter m (seq 0 q))) = Ok (N.of_nat x)).
      { apply rd_ok. rewrite nth_error_map, ES, nth_error_app2, Nat.sub_diag by lia. reflexivity. }
      rewrite Erd. cbn [bind]. rewrite (proj2 (N.eqb_neq _ _)) by lia.
      assert (EP : length (filter m (seq 0 (S q))) = length (filter m (seq 0 q))). { rewrite seq_S, filter_app, app_length. cbn [filter plus]. rewrite Em. cbn. lia. }
      rewrite <- EP. exact H.
Qed.

Lemma retrieve_blocks_ok : forall g n dim rows rl bs (m : nat -> bool), 1 <= bs -> rows_ok n rl dim rows ->
  forall cnt b c, n <= (b + cnt) * bs -> ((b + cnt) * bs < n + bs \/ cnt = 0) -> (cnt <> 0 -> rinv (vector_file dim rows) (8 + b * bs * rl) c) ->
    retrieve_blocks g n rl bs (map N.of_nat (filter m (seq 0 n))) (N.of_nat (length (filter m (seq 0 n)))) c b cnt (length (filter m (seq 0 (min (b * bs) n)))) =
      Ok (length (filter m (seq 0 n)), concat (map (fun q => nth q rows []) (filter m (seq (min (b * bs) n) (n - b * bs))))).
Proof.
  intros g n dim rows rl bs m Hbs HR. induction cnt as [|cnt IH]; intros b c H1 H2 HRv; cbn [retrieve_blocks].
  - rewrite Nat.add_0_r in H1. rewrite Nat.min_r by lia. replace (n - b * bs) with 0 by lia. reflexivity.
  - assert (Hlt : b * bs < n). { destruct H2 as [H2|H2]; [|lia]. assert (S b * bs <= (b + S cnt) * bs) by (apply Nat.mul_le_mono_r; lia). lia. }
    rewrite (Nat.min_l (b * bs) n) by lia. set (start := b * bs) in *. set (size := min (S b * bs) n - start).
    assert (ES : S b * bs = start + bs) by (unfold start; lia). assert (Hsz : 1 <= size <= bs /\ start + size <= n /\ start + size = min (S b * bs) n) by (unfold size; lia).
    destruct Hsz as [Hsz [Hsn Hse]]. clearbody size.
    destruct (take_block g n dim rows rl start size c HR Hsn (HRv ltac:(lia))) as [c' [Et R']]. rewrite Et. cbn [bind fst snd].
    destruct HR as [HR1 [HR2 HR3]].
    pose proof (retrieve_points_ok rows rl start (firstn (size * rl) (skipn (8 + start * rl) (vector_file dim rows))) m n size 0) as RP. rewrite !Nat.add_0_r in RP.
    rewrite RP; [|lia|intros j _ Hj; apply row_of_block; auto; lia]. cbn [bind fst snd].
    assert (EN : seq start (n - start) = seq start size ++ seq (start + size) (n - (start + size))) by (rewrite <- seq_app; f_equal; lia).
    destruct (N.eqb_spec (N.of_nat (length (filter m (seq 0 (start + size))))) (N.of_nat (length (filter m (seq 0 n))))) as [E|E].
    + rewrite EN, filter_app. pose proof (f_equal (@length nat) (filter_split m (start + size) n Hsn)) as EL. rewrite app_length in EL.
      assert (Ez : filter m (seq (start + size) (n - (start + size))) = []) by (apply length_zero_iff_nil; lia). rewrite Ez, app_nil_r. do 2 f_equal. lia.
    + replace (b + S cnt) with (S b + cnt) in H1, H2 by lia. rewrite Hse. rewrite IH; auto; [|left; lia|].
      * cbn [bind fst snd]. rewrite EN, filter_app, map_app, concat_app, Hse. now replace (n - min (S b * bs) n) with (n - S b * bs) by lia.
      * intros Hc. assert (S b * bs < n). { assert (S (S b) * bs <= (S b + cnt) * bs) by (apply Nat.mul_le_mono_r; lia). lia. }
        replace (S b * bs * rl) with ((start + size) * rl); [exact R'|]. f_equal. lia.
Qed.

Lemma u32_forall : forall n (m : nat -> bool) x, (N.of_nat n < 2 ^ 32)%N -> In x (map N.of_nat (filter m (seq 0 n))) -> (x < 256 ^ N.of_nat 4)%N.
Proof. intros n m x Hn Hx. apply in_map_iff in Hx. destruct Hx as [p [<- Hp]]. apply filter_In in Hp. destruct Hp as [Hp _]. apply in_seq in Hp. change (256 ^ N.of_nat 4)%N with (2 ^ 32)%N. lia. Qed.

Lemma retrieve_eq : forall g g1 g2 maxb n w dim rows (m : nat -> bool), 1 <= maxb -> 1 <= n -> rows_ok n (dim * w) dim rows -> length g1 = 4 -> length g2 = 4 ->
  let ids := filter m (seq 0 n) in retrieve g g1 g2 maxb w (Some (vector_file dim rows)) (Some (id_file ids)) = Ok (shard_file dim rows ids).
Proof.
  intros g g1 g2 maxb n w dim rows m Hx Hn HR Hg1 Hg2 ids. unfold retrieve.
  destruct (vector_header g n _ dim rows HR) as [c1 [c2 [E1 [E2 R]]]]. rewrite E1. cbn [bind fst snd]. rewrite E2. cbn [bind fst snd].
  pose proof HR as [HL [HR1 [Hn32 [Hd32 Hf]]]]. rewrite !dec_u32 by auto. rewrite !Nat2N.id.
  assert (Hlen : length ids <= n). { unfold ids. rewrite <- (seq_length n 0) at 2. apply filter_len. }
  rewrite <- id_file_eq. rewrite load_bin_right; auto; [|unfold u32_range; lia|reflexivity|change (2 ^ 63)%N with 9223372036854775808%N; change (2 ^ 32)%N with 4294967296%N in Hn32; cbn [N.of_nat]; lia|].
  2: { rewrite enc_all_length, map_length. lia. }
  cbn [bind fst snd]. rewrite N.mul_1_r, Nat2N.id.
  replace (dec_all 4 (length ids) (enc_all 4 (map N.of_nat ids))) with (map N.of_nat ids).
  2: { symmetry. rewrite <- (map_length N.of_nat ids). rewrite <- (app_nil_r (enc_all _ _)). apply dec_all_enc. intros x Hx'. exact (u32_forall n m x Hn32 Hx'). }
  assert (Ebs : (if n <=? maxb then n else maxb) = min n maxb) by (destruct (Nat.leb_spec n maxb); lia). rewrite Ebs. clear Ebs.
  set (bs := min n maxb) in *. assert (Hbs : 1 <= bs) by (unfold bs; lia). rewrite (proj2 (Nat.eqb_neq bs 0)) by lia. rewrite div_round_up_eq.
  destruct (n_blocks_bounds n bs Hbs) as [B1 B2].
  pose proof (retrieve_blocks_ok g n dim rows (dim * w) bs m Hbs HR (n_blocks n bs) 0 c2 B1 (or_introl B2) (fun _ => R)) as RB.
  cbn [Nat.mul Nat.min seq filter length] in RB. fold ids in RB. unfold bs in *. rewrite RB. cbn [bind fst snd]. rewrite Nat.sub_0_r. fold ids.
  unfold shard_file, vector_file. now rewrite map_length.
Qed.

(** Two phases give the files of the direct sharding. *)
Lemma two_phase : forall g g' g'' g1 g2 popf mbs mbs' maxb maxb' maxb'' dmat n w nc dim k orders orders' rows, pops popf -> 1 <= mbs -> 1 <= mbs' ->
  1 <= maxb -> 1 <= maxb' -> 1 <= maxb'' -> 1 <= nc -> 1 <= n -> rows_ok n (dim * w) dim rows -> usable_dists dmat n nc k ->
  shard_orders n k (min n maxb) mbs orders -> shard_orders n k (min n maxb') mbs' orders' -> k <= nc -> length g1 = 4 -> length g2 = 4 ->
  exists out out', shard_data g popf mbs maxb true dmat w nc dim k orders (Some (vector_file dim rows)) = Ok (Some out) /\
    shard_data g' popf mbs' maxb' false dmat w nc dim k orders' (Some (vector_file dim rows)) = Ok (Some out') /\ length out = nc /\ length out' = nc /\
    forall i, i < nc -> exists df idf, nth_error out i = Some (Some df, idf) /\ nth_error out' i = Some (None, idf) /\
      retrieve g'' g1 g2 maxb'' w (Some (vector_file dim rows)) (Some idf) = Ok df.
Proof.
  intros g g' g'' g1 g2 popf mbs mbs' maxb maxb' maxb'' dmat n w nc dim k orders orders' rows Hp Hm Hm' Hx Hx' Hx'' Hnc Hn HR HU Ho Ho' Hk Hg1 Hg2.
  exists (shard_result true dim rows n nc (assigned popf dmat nc k)), (shard_result false dim rows n nc (assigned popf dmat nc k)).
  split; [apply shard_data_eq; auto|]. split; [apply shard_data_eq; auto|]. split; [unfold shard_result; now rewrite map_length, seq_length|].
  split; [unfold shard_result; now rewrite map_length, seq_length|]. intros i Hi.
  pose proof (assigned_nearest popf dmat n nc k Hp HU Hk) as HA.
  exists (shard_file dim rows (members (assigned popf dmat nc k) n i)), (id_file (members (assigned popf dmat nc k) n i)).
  unfold shard_result. rewrite !nth_error_map, nth_error_seq_lt by auto. split; [reflexivity|]. split; [reflexivity|].
  rewrite members_filter by (intros p Hp'; apply (HA p Hp')). apply retrieve_eq; auto.
Qed.

(** The result does not depend on block sizes, orders or what lies outside the file. *)
Lemma shard_block_free : forall g g' popf mbs mbs' maxb maxb' wd dmat n w nc dim k orders orders' rows, pops popf -> 1 <= mbs -> 1 <= mbs' -> 1 <= maxb -> 1 <= maxb' -> 1 <= nc -> 1 <= n ->
  rows_ok n (dim * w) dim rows -> usable_dists dmat n nc k -> shard_orders n k (min n maxb) mbs orders -> shard_orders n k (min n maxb') mbs' orders' ->
  shard_data g popf mbs maxb wd dmat w nc dim k orders (Some (vector_file dim rows)) = shard_data g' popf mbs' maxb' wd dmat w nc dim k orders' (Some (vector_file dim rows)).
Proof. intros. now rewrite !shard_data_eq with (n := n) by auto. Qed.
