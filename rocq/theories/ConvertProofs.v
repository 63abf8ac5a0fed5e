(** * Proofs about the file converters. *)
From Coq Require Import NArith ZArith SpecFloat List Arith Bool Lia Sorting.Permutation.
From Verif Require Import Base Bytes Float32 StreamModel BinModel BinSpec BinProofs BinProofs2 ClosestModel ClosestProofs LloydModel ConvertModel ConvertSpec.
Import ListNotations.
Local Open Scope nat_scope.

(** ** fvecs and ivecs *)

Lemma copy_rows_ok : forall nd buf cnt i, (i + cnt) * (nd * 4 + 4) <= length buf -> copy_rows nd buf i cnt = Ok (rows_at nd buf i cnt).
Proof.
  intros nd buf. induction cnt as [|cnt IH]; intros i H; [reflexivity|]. cbn [copy_rows]. unfold copy_row.
  replace (i + S cnt) with (S i + cnt) in H by lia. assert (H2 : S i * (nd * 4 + 4) <= (S i + cnt) * (nd * 4 + 4)) by (apply Nat.mul_le_mono_r; lia).
  rewrite (proj2 (Nat.leb_le _ _)) by lia. cbn [bind]. rewrite IH by auto. cbn [bind]. reflexivity.
Qed.

Lemma slice_slice : forall (b : list N) off K o l, o + l <= K -> firstn l (skipn o (firstn K (skipn off b))) = firstn l (skipn (off + o) b).
Proof.
  intros b off K o l H. rewrite skipn_firstn_comm, firstn_firstn, Nat.min_l by lia. rewrite skipn_skipn. f_equal. f_equal. lia.
Qed.

Lemma rows_at_block : forall nd b off0 c i, rows_at nd (firstn (c * (nd * 4 + 4)) (skipn (off0 * (nd * 4 + 4)) b)) i (c - i) = rows_at nd b (off0 + i) (c - i).
Proof.
  intros nd b off0 c i. unfold rows_at. f_equal. assert (G : forall n i, i + n <= c -> map (row_at nd (firstn (c * (nd * 4 + 4)) (skipn (off0 * (nd * 4 + 4)) b))) (seq i n) = map (row_at nd b) (seq (off0 + i) n)).
  { induction n as [|n IH]; intros j Hj; [reflexivity|]. cbn [seq map]. rewrite IH by lia. replace (off0 + S j) with (S (off0 + j)) by lia. f_equal. unfold row_at. rewrite slice_slice.
    - f_equal. f_equal. lia.
    - assert (S j * (nd * 4 + 4) <= c * (nd * 4 + 4)) by (apply Nat.mul_le_mono_r; lia). lia. }
  destruct (le_lt_dec i c); [apply G; lia|]. replace (c - i) with 0 by lia. reflexivity.
Qed.

Lemma rows_at_app : forall nd b i n m, rows_at nd b i (n + m) = rows_at nd b i n ++ rows_at nd b (i + n) m.
Proof. intros. unfold rows_at. rewrite seq_app, map_app, concat_app. reflexivity. Qed.

Lemma vecs_blocks_ok : forall bs npts nd b, npts * (nd * 4 + 4) <= length b -> forall cnt i, npts <= (i + cnt) * bs -> i * bs <= npts + bs ->
  vecs_blocks bs npts nd i cnt (mkS (skipn (min (i * bs) npts * (nd * 4 + 4)) b) true false) = Ok (rows_at nd b (min (i * bs) npts) (npts - i * bs)).
Proof.
  intros bs npts nd b Hb. induction cnt as [|cnt IH]; intros i H1 H2.
  - cbn [vecs_blocks]. replace (npts - i * bs) with 0 by lia. reflexivity.
  - cbn [vecs_blocks]. unfold vecs_block. set (c := min (npts - i * bs) bs).
    assert (L : c * (nd * 4 + 4) <= length (skipn (min (i * bs) npts * (nd * 4 + 4)) b)).
    { rewrite skipn_length. assert ((min (i * bs) npts + c) * (nd * 4 + 4) <= npts * (nd * 4 + 4)) by (apply Nat.mul_le_mono_r; unfold c; lia). lia. }
    rewrite sread_split by lia. rewrite Nat2N.id. cbn [bind].
    rewrite copy_rows_ok by (rewrite firstn_length, Nat.min_l by lia; lia).
    replace (rows_at nd (firstn (c * (nd * 4 + 4)) (skipn (min (i * bs) npts * (nd * 4 + 4)) b)) 0 c) with (rows_at nd b (min (i * bs) npts) c).
    2:{ pose proof (rows_at_block nd b (min (i * bs) npts) c 0) as R. rewrite Nat.sub_0_r, Nat.add_0_r in R. now rewrite R. }
    cbn [bind fst snd]. rewrite skipn_skipn.
    assert (E : c * (nd * 4 + 4) + min (i * bs) npts * (nd * 4 + 4) = min (S i * bs) npts * (nd * 4 + 4)) by (rewrite <- Nat.mul_add_distr_r; f_equal; unfold c; cbn; lia).
    rewrite E. destruct (le_lt_dec (S i * bs) (npts + bs)) as [Hle|Hgt].
    + rewrite IH by (replace (S i + cnt) with (i + S cnt) by lia; auto). cbn [bind]. f_equal.
      replace (npts - i * bs) with (c + (npts - S i * bs)) by (unfold c; cbn; lia). rewrite rows_at_app. f_equal. f_equal. unfold c; cbn; lia.
    + cbn in Hgt. assert (C0 : c = 0) by (unfold c; lia). assert (Z1 : npts - i * bs = 0) by lia. rewrite Z1, C0. cbn [rows_at seq map concat app].
      clear IH. assert (G : forall cnt j s, npts <= j * bs -> vecs_blocks bs npts nd j cnt (mkS s true false) = Ok []).
      { induction cnt0 as [|cnt0 IH]; intros j s Hj; [reflexivity|]. cbn [vecs_blocks]. unfold vecs_block. replace (min (npts - j * bs) bs) with 0 by lia. change (N.of_nat (0 * (nd * 4 + 4))) with 0%N. rewrite sread_split by lia. cbn [bind copy_rows fst snd]. change (skipn (N.to_nat 0) s) with s. rewrite IH by (cbn; lia). reflexivity. }
      rewrite G by (cbn; lia). reflexivity.
Qed.

Lemma vecs_to_bin_ok : forall bs b, 1 <= bs -> 4 <= length b ->
  let nd := N.to_nat (dec (firstn 4 b)) in let npts := length b / ((nd + 1) * 4) in
  vecs_to_bin bs (Some b) = Ok (u32 (N.of_nat npts) ++ u32 (N.of_nat nd) ++ rows_at nd b 0 npts).
Proof.
  intros bs b Hbs Hb nd npts. unfold vecs_to_bin. cbn [open_file tell_end]. rewrite sread_split by lia. change (N.to_nat 4) with 4.
  rewrite firstn_length, Nat.min_l by lia. cbn [Nat.ltb Nat.leb]. rewrite Nat2N.id. fold nd. fold npts.
  assert (D : npts * (nd * 4 + 4) <= length b). { unfold npts. pose proof (Nat.mul_div_le (length b) ((nd + 1) * 4) ltac:(lia)). lia. }
  destruct (n_blocks_bounds npts bs Hbs) as [B1 B2]. pose proof (vecs_blocks_ok bs npts nd b D (n_blocks npts bs) 0 ltac:(lia) ltac:(lia)) as E.
  cbn [Nat.mul Nat.min] in E. rewrite skipn_O, Nat.sub_0_r in E. rewrite E. reflexivity.
Qed.

Lemma vecs_short : forall bs f, (match f with Some b => length b < 4 | None => True end) -> vecs_to_bin bs f = UB.
Proof.
  intros bs [b|] H; [|reflexivity]. unfold vecs_to_bin. cbn [open_file]. unfold sread. cbn [s_good s_left].
  destruct (N.leb_spec 4 (N.of_nat (length b))); [lia|]. rewrite (proj2 (Nat.ltb_lt _ _)) by auto. reflexivity.
Qed.


Lemma rows_at_shift : forall nd r rest n, length (fst r) = 4 -> length (snd r) = 4 * nd ->
  rows_at nd (record r ++ rest) 0 (S n) = snd r ++ rows_at nd rest 0 n.
Proof.
  intros nd [h v] rest n Hh Hv. cbn [fst snd] in *. unfold rows_at, record. cbn [seq map concat fst snd]. f_equal.
  - unfold row_at. cbn [Nat.mul Nat.add]. rewrite <- app_assoc, skipn_len_app by auto. apply firstn_len_app. auto.
  - f_equal. rewrite <- seq_shift, map_map. apply map_ext. intros k. unfold row_at. f_equal. replace (4 * (S k * (nd + 1) + 1)) with ((4 * (k * (nd + 1) + 1)) + length (h ++ v)) by (rewrite app_length; lia).
    rewrite <- skipn_skipn. f_equal. apply skipn_len_app. reflexivity.
Qed.

Lemma rows_at_records : forall nd recs tail, (forall r, In r recs -> length (fst r) = 4 /\ length (snd r) = 4 * nd) ->
  rows_at nd (flat_map record recs ++ tail) 0 (length recs) = flat_map snd recs.
Proof.
  intros nd. induction recs as [|r recs IH]; intros tail H; [reflexivity|]. cbn [flat_map length]. destruct (H r (or_introl eq_refl)) as [H1 H2].
  rewrite <- app_assoc, rows_at_shift by auto. f_equal. apply IH. intros; apply H; now right.
Qed.

Lemma records_length : forall nd recs, (forall r, In r recs -> length (fst r) = 4 /\ length (snd r) = 4 * nd) -> length (flat_map record recs) = length recs * ((nd + 1) * 4).
Proof.
  intros nd. induction recs as [|r recs IH]; intros H; [reflexivity|]. cbn [flat_map length]. destruct (H r (or_introl eq_refl)) as [H1 H2].
  rewrite app_length, IH by (intros; apply H; now right). unfold record. rewrite app_length, H1, H2. lia.
Qed.

Lemma vecs_records : forall bs nd recs tail v r0, 1 <= bs -> u32_range (N.of_nat nd) ->
  (forall r, In r recs -> length (fst r) = 4 /\ length (snd r) = 4 * nd) -> length tail < (nd + 1) * 4 -> recs = (u32 (N.of_nat nd), v) :: r0 ->
  vecs_to_bin bs (Some (flat_map record recs ++ tail)) = Ok (u32 (N.of_nat (length recs)) ++ u32 (N.of_nat nd) ++ flat_map snd recs).
Proof.
  intros bs nd recs tail v r0 Hbs Hnd Hr Ht E. pose proof (records_length nd recs Hr) as L. set (b := flat_map record recs ++ tail).
  assert (Lb : length b = length recs * ((nd + 1) * 4) + length tail) by (unfold b; rewrite app_length; lia).
  assert (F : firstn 4 b = u32 (N.of_nat nd)). { unfold b. rewrite E. cbn [flat_map]. unfold record at 1. cbn [fst snd]. rewrite <- !app_assoc. apply firstn_len_app, u32_length. }
  assert (L1 : 1 <= length recs) by (rewrite E; cbn; lia). assert ((nd + 1) * 4 <= length recs * ((nd + 1) * 4)) by (rewrite <- (Nat.mul_1_l ((nd + 1) * 4)) at 1; apply Nat.mul_le_mono_r; auto).
  rewrite vecs_to_bin_ok by (auto; lia). rewrite F, dec_u32 by auto. rewrite Nat2N.id, Lb.
  replace ((length recs * ((nd + 1) * 4) + length tail) / ((nd + 1) * 4)) with (length recs) by (rewrite Nat.div_add_l by lia; rewrite (Nat.div_small (length tail)) by auto; lia).
  unfold b. rewrite rows_at_records by auto. reflexivity.
Qed.

Lemma flat_snd_length : forall nd (recs : list (list N * list N)), (forall r, In r recs -> length (fst r) = 4 /\ length (snd r) = 4 * nd) -> length (flat_map snd recs) = length recs * (4 * nd).
Proof.
  intros nd. induction recs as [|r recs IH]; intros H; [reflexivity|]. cbn [flat_map length]. rewrite app_length, IH by (intros; apply H; now right).
  destruct (H r (or_introl eq_refl)) as [_ H2]. lia.
Qed.

(** The vectors the converted file holds. *)
Lemma vecs_loads : forall bs nd recs v r0 g1 g2, 1 <= bs -> length g1 = 4 -> length g2 = 4 -> u32_range (N.of_nat nd) -> u32_range (N.of_nat (length recs)) ->
  (N.of_nat (length recs) * N.of_nat nd * 4 < 2 ^ 63)%N -> (forall r, In r recs -> length (fst r) = 4 /\ length (snd r) = 4 * nd) -> recs = (u32 (N.of_nat nd), v) :: r0 ->
  exists out, vecs_to_bin bs (Some (flat_map record recs)) = Ok out /\
    load_bin 4 g1 g2 (Some out) = Ok (N.of_nat (length recs), N.of_nat nd, dec_all 4 (length recs * nd) (flat_map snd recs)).
Proof.
  intros bs nd recs v r0 g1 g2 Hbs H1 H2 Hnd Hn Hs Hr E. eexists. split.
  - rewrite <- (app_nil_r (flat_map record recs)). apply (vecs_records bs nd recs [] v r0); auto. cbn [length]. lia.
  - replace (length recs * nd)%nat with (N.to_nat (N.of_nat (length recs) * N.of_nat nd)) by lia. apply load_bin_right; auto. rewrite (flat_snd_length nd) by auto. lia.
Qed.

(** ** convert_types *)
Lemma conv_elems_ok : forall conv src cnt o dst, length dst = length src -> o + cnt <= length src ->
  exists dst', conv_elems conv o cnt src dst = Ok dst' /\ length dst' = length dst /\
    forall k, nth_error dst' k = if (o <=? k) && (k <? o + cnt) then nth_error (map (fun x => Some (conv x)) src) k else nth_error dst k.
Proof.
  intros conv src. induction cnt as [|cnt IH]; intros o dst Hl Ho.
  - exists dst. split; [reflexivity|]. split; [reflexivity|]. intros k. rewrite Nat.add_0_r. destruct (Nat.leb_spec o k), (Nat.ltb_spec k o); try reflexivity; lia.
  - cbn [conv_elems]. destruct (rd_lt _ src o ltac:(lia)) as [x Hx]. rewrite Hx. cbn [bind].
    destruct (wr_nth _ dst o (Some (conv x)) ltac:(lia)) as [d1 [E [L N]]]. rewrite E. cbn [bind].
    destruct (IH (S o) d1 ltac:(lia) ltac:(lia)) as [d2 [E2 [L2 N2]]]. exists d2. split; [exact E2|]. split; [lia|]. intros k. rewrite N2, N.
    apply rd_ok in Hx. destruct (Nat.leb_spec (S o) k), (Nat.ltb_spec k (S o + cnt)), (Nat.leb_spec o k), (Nat.ltb_spec k (o + S cnt)), (Nat.eq_dec k o); cbn [andb]; try lia; try reflexivity.
    all: subst k; rewrite nth_error_map, Hx; reflexivity.
Qed.

Lemma conv_rows_ok : forall conv dim src order dst n, length dst = length src -> length src = n * dim -> (forall i, In i order -> i < n) ->
  exists dst', conv_rows conv dim order src dst = Ok dst' /\ length dst' = length dst /\
    forall i j, j < dim -> i < n -> nth_error dst' (i * dim + j) = if in_dec Nat.eq_dec i order then nth_error (map (fun x => Some (conv x)) src) (i * dim + j) else nth_error dst (i * dim + j).
Proof.
  intros conv dim src. induction order as [|r order IH]; intros dst n Hl Hs Ho.
  - exists dst. split; [reflexivity|]. split; [reflexivity|]. intros i j Hj Hi. destruct (in_dec Nat.eq_dec i []) as [[]|]; reflexivity.
  - cbn [conv_rows]. assert (Hr : r < n) by (apply Ho; now left). assert (Hb : r * dim + dim <= length src). { rewrite Hs. assert (S r * dim <= n * dim) by (apply Nat.mul_le_mono_r; lia). lia. }
    destruct (conv_elems_ok conv src dim (r * dim) dst Hl Hb) as [d1 [E [L N]]]. rewrite E. cbn [bind].
    destruct (IH d1 n ltac:(lia) Hs ltac:(intros; apply Ho; now right)) as [d2 [E2 [L2 N2]]]. exists d2. split; [exact E2|]. split; [lia|].
    intros i j Hj Hi. rewrite N2, N by auto. destruct (in_dec Nat.eq_dec i order) as [I1|I1], (in_dec Nat.eq_dec i (r :: order)) as [I2|I2]; try reflexivity.
    + destruct I2. now right.
    + destruct I2 as [->|I2]; [|contradiction]. rewrite (proj2 (Nat.leb_le _ _)), (proj2 (Nat.ltb_lt _ _)) by lia. reflexivity.
    + assert (i <> r) by (intros ->; apply I2; now left). destruct (Nat.leb_spec (r * dim) (i * dim + j)), (Nat.ltb_spec (i * dim + j) (r * dim + dim)); cbn [andb]; try reflexivity.
      exfalso. destruct (Nat.lt_total i r) as [Hlt|[Heq|Hgt]]; [|lia|].
      * assert (S i * dim <= r * dim) by (apply Nat.mul_le_mono_r; lia). lia.
      * assert (S r * dim <= i * dim) by (apply Nat.mul_le_mono_r; lia). lia.
Qed.

Lemma nth_error_ext_all : forall (A : Type) (a b : list A), length a = length b -> (forall k, k < length a -> nth_error a k = nth_error b k) -> a = b.
Proof.
  intros A. induction a as [|x a IH]; intros [|y b] L H; try discriminate; [reflexivity|]. f_equal.
  - specialize (H 0 ltac:(cbn; lia)). cbn in H. congruence.
  - apply IH; [cbn in L; lia|]. intros k Hk. apply (H (S k)). cbn. lia.
Qed.

Lemma conv_all : forall conv dim src order n dst, length dst = length src -> length src = n * dim -> Permutation order (seq 0 n) ->
  conv_rows conv dim order src dst = Ok (map (fun x => Some (conv x)) src).
Proof.
  intros conv dim src order n dst Hd Hs Hp. destruct (conv_rows_ok conv dim src order dst n Hd Hs) as [d [E [L N]]].
  - intros i Hi. apply (Permutation_in _ Hp), in_seq in Hi. lia.
  - rewrite E. f_equal. apply nth_error_ext_all; [rewrite map_length; lia|]. intros k Hk. assert (Hdim : dim <> 0) by (intros ->; rewrite Nat.mul_0_r in Hs; lia).
    pose proof (Nat.div_mod k dim Hdim) as D. pose proof (Nat.mod_upper_bound k dim Hdim) as M. assert (Hi : k / dim < n) by (apply Nat.div_lt_upper_bound; lia).
    replace k with (k / dim * dim + k mod dim) by lia. rewrite N by auto. destruct (in_dec Nat.eq_dec (k / dim) order) as [|I]; [reflexivity|]. destruct I. apply (Permutation_in _ (Permutation_sym Hp)), in_seq. split; [apply Nat.le_0_l|exact Hi].
Qed.

Lemma convert_file_ok : forall w1 w2 conv g1 g2 order n d data, length g1 = 4 -> length g2 = 4 -> u32_range n -> u32_range d ->
  N.of_nat (length data) = (n * d)%N -> (n * d * N.of_nat w1 < 2 ^ 63)%N -> (forall x, In x data -> (x < 256 ^ N.of_nat w1)%N) -> Permutation order (seq 0 (N.to_nat n)) ->
  convert_file w1 w2 conv g1 g2 order (Some (bin_file w1 n d data)) = Ok (bin_file w2 n d (map conv data)).
Proof.
  intros w1 w2 conv g1 g2 order n d data H1 H2 Hn Hd Hl Hs Hr Hp. unfold convert_file.
  destruct (bin_round_trip w1 g1 g2 data n d H1 H2 Hn Hd Hl Hs Hr) as [_ E]. rewrite E. cbn [bind].
  rewrite (conv_all conv (N.to_nat d) data order (N.to_nat n)); [|rewrite repeat_length; lia|lia|auto]. cbn [bind].
  replace (map (fun x => Some (conv x)) data) with (map Some (map conv data)) by (rewrite map_map; reflexivity). rewrite initialised_map. cbn [bind].
  apply save_bin_ok. rewrite map_length. exact Hl.
Qed.

(** ** Values *)
Lemma int8_to_float_val : forall b, (b < 256)%N -> f32_of_bits (int8_to_float b) = f32_of_Z (int8_val b).
Proof.
  intros b H. assert (G : forallb (fun k => let b := N.of_nat k in match SFcompare (f32_of_bits (int8_to_float b)) (f32_of_Z (int8_val b)) with Some Eq => true | _ => false end &&
    match f32_of_bits (int8_to_float b), f32_of_Z (int8_val b) with S754_finite s m e, S754_finite s' m' e' => Bool.eqb s s' && Pos.eqb m m' && Z.eqb e e' | S754_zero s, S754_zero s' => Bool.eqb s s' | _, _ => false end) (seq 0 256) = true) by (vm_compute; reflexivity).
  rewrite forallb_forall in G. specialize (G (N.to_nat b) ltac:(apply in_seq; lia)). cbn zeta in G. rewrite N2Nat.id in G. apply andb_prop in G. destruct G as [_ G].
  destruct (f32_of_bits (int8_to_float b)), (f32_of_Z (int8_val b)); try discriminate.
  - apply eqb_prop in G. now subst.
  - apply andb_prop in G. destruct G as [G G3]. apply andb_prop in G. destruct G as [G1 G2]. apply eqb_prop in G1. apply Pos.eqb_eq in G2. apply Z.eqb_eq in G3. now subst.
Qed.

Lemma uint8_to_float_val : forall b, (b < 256)%N -> f32_of_bits (uint8_to_float b) = f32_of_Z (Z.of_N b).
Proof.
  intros b H. assert (G : forallb (fun k => let b := N.of_nat k in 
    match f32_of_bits (uint8_to_float b), f32_of_Z (Z.of_N b) with S754_finite s m e, S754_finite s' m' e' => Bool.eqb s s' && Pos.eqb m m' && Z.eqb e e' | S754_zero s, S754_zero s' => Bool.eqb s s' | _, _ => false end) (seq 0 256) = true) by (vm_compute; reflexivity).
  rewrite forallb_forall in G. specialize (G (N.to_nat b) ltac:(apply in_seq; lia)). cbn zeta in G. rewrite N2Nat.id in G.
  destruct (f32_of_bits (uint8_to_float b)), (f32_of_Z (Z.of_N b)); try discriminate.
  - apply eqb_prop in G. now subst.
  - apply andb_prop in G. destruct G as [G G3]. apply andb_prop in G. destruct G as [G1 G2]. apply eqb_prop in G1. apply Pos.eqb_eq in G2. apply Z.eqb_eq in G3. now subst.
Qed.

(** ** Quantisation to int8 *)
Lemma map_res_app : forall (A B : Type) (f : A -> res B) l m, map_res f (l ++ m) = (do x <- map_res f l; do y <- map_res f m; Ok (x ++ y)).
Proof.
  intros A B f. induction l as [|x l IH]; intros m; cbn [app map_res bind]; [destruct (map_res f m); reflexivity|].
  destruct (f x); cbn [bind]; try reflexivity. rewrite IH. destruct (map_res f l); cbn [bind]; try reflexivity. destruct (map_res f m); reflexivity.
Qed.

Lemma map_res_ok : forall (A B : Type) (f : A -> res B) l, (forall x, In x l -> f x = UB \/ exists y, f x = Ok y) ->
  (map_res f l = UB /\ exists x, In x l /\ f x = UB) \/ (exists r, map_res f l = Ok r /\ Forall2 (fun x y => f x = Ok y) l r).
Proof.
  intros A B f. induction l as [|x l IH]; intros H; [right; exists []; split; [reflexivity|constructor]|]. cbn [map_res].
  destruct (H x (or_introl eq_refl)) as [E|[y E]]; rewrite E; cbn [bind]; [left; split; [reflexivity|exists x; split; [now left|auto]]|].
  destruct IH as [[E2 [z [Hz E3]]]|[r [E2 F]]]; [intros; apply H; now right| |]; rewrite E2; cbn [bind].
  - left. split; [reflexivity|]. exists z. split; [now right|auto].
  - right. exists (y :: r). split; [reflexivity|]. constructor; auto.
Qed.

Lemma quantise_cases : forall bias scale x, quantise bias scale x = UB \/ exists y, quantise bias scale x = Ok y.
Proof. intros. unfold quantise, int8_of_double. destruct (trunc _); [destruct (_ && _)|]; eauto. Qed.

Lemma dec_all_app : forall w n m b c, length b = w * n -> dec_all w (n + m) (b ++ c) = dec_all w n b ++ dec_all w m c.
Proof.
  intros w. induction n as [|n IH]; intros m b c H.
  - assert (b = []) by (destruct b; [auto|cbn in H; lia]). subst. reflexivity.
  - cbn [Nat.add dec_all app]. f_equal.
    + f_equal. rewrite firstn_app. replace (w - length b) with 0 by lia. cbn. now rewrite app_nil_r.
    + rewrite skipn_app. replace (w - length b) with 0 by lia. rewrite skipn_O. apply IH. rewrite skipn_length. lia.
Qed.

Lemma quant_blocks_ok : forall bias scale bs npts nd, let f := fun b => quantise bias scale (f32_of_bits b) in forall cnt i b, npts <= (i + cnt) * bs -> length b = 4 * ((npts - i * bs) * nd) ->
  quant_blocks bias scale bs npts nd i cnt (mkS b true false) = map_res f (dec_all 4 ((npts - i * bs) * nd) b).
Proof.
  intros bias scale bs npts nd f. induction cnt as [|cnt IH]; intros i b H Hb.
  - cbn [quant_blocks]. replace (npts - i * bs) with 0 by lia. reflexivity.
  - cbn [quant_blocks]. unfold quant_block. set (c := min (npts - i * bs) bs). assert (Ec : npts - i * bs = c + (npts - S i * bs)) by (unfold c; cbn; lia).
    assert (Lc : c * nd * 4 <= length b). { rewrite Hb, Ec, Nat.mul_add_distr_r. generalize (c * nd), ((npts - S i * bs) * nd). intros; lia. }
    rewrite sread_split by lia. rewrite Nat2N.id. rewrite firstn_length, Nat.min_l by lia. rewrite Nat.ltb_irrefl.
    rewrite Ec, Nat.mul_add_distr_r. assert (Eb : dec_all 4 (c * nd + (npts - S i * bs) * nd) b = dec_all 4 (c * nd + (npts - S i * bs) * nd) (firstn (c * nd * 4) b ++ skipn (c * nd * 4) b)) by (now rewrite firstn_skipn).
    rewrite Eb, dec_all_app by (rewrite firstn_length, Nat.min_l by lia; lia). rewrite map_res_app.
    fold f. destruct (map_res f (dec_all 4 (c * nd) (firstn (c * nd * 4) b))) as [o| | | |]; cbn [bind]; try reflexivity. cbn [fst snd].
    rewrite IH; [reflexivity|replace (S i + cnt) with (i + S cnt) by lia; auto|rewrite skipn_length; rewrite Hb, Ec, Nat.mul_add_distr_r; lia].
Qed.

Lemma float_bin_to_int8_ok : forall bias scale bs g1 g2 n d data, 1 <= bs -> length g1 = 4 -> length g2 = 4 -> u32_range n -> u32_range d ->
  N.of_nat (length data) = (n * d)%N -> (forall x, In x data -> (x < 2 ^ 32)%N) ->
  (float_bin_to_int8 bias scale bs g1 g2 (Some (bin_file 4 n d data)) = UB /\ exists x, In x data /\ quantise bias scale (f32_of_bits x) = UB) \/
  (exists out, float_bin_to_int8 bias scale bs g1 g2 (Some (bin_file 4 n d data)) = Ok (u32 n ++ u32 d ++ out) /\ Forall2 (fun x y => quantise bias scale (f32_of_bits x) = Ok y) data out).
Proof.
  intros bias scale bs g1 g2 n d data Hbs H1 H2 Hn Hd Hl Hr. unfold float_bin_to_int8, bin_file. cbn [open_file]. rewrite read_header_app by auto.
  destruct (n_blocks_bounds (N.to_nat n) bs Hbs) as [B1 B2].
  rewrite (quant_blocks_ok bias scale bs (N.to_nat n) (N.to_nat d) (n_blocks (N.to_nat n) bs) 0 (enc_all 4 data)) by (rewrite ?enc_all_length; lia).
  cbn [Nat.mul]. rewrite Nat.sub_0_r. replace (N.to_nat n * N.to_nat d)%nat with (length data) by lia. rewrite <- (app_nil_r (enc_all 4 data)), dec_all_enc by auto.
  destruct (map_res_ok _ _ (fun b => quantise bias scale (f32_of_bits b)) data) as [[E X]|[r [E F]]].
  - intros x _. apply quantise_cases.
  - left. rewrite E. auto.
  - right. rewrite E. cbn [bind]. eauto.
Qed.

Lemma integer_part_trunc : forall v z, integer_part v z <-> trunc v = Some z.
Proof.
  intros [s|s| |s m e] z; cbn [integer_part trunc]; try (split; [tauto|discriminate]).
  - split; [intros ->; reflexivity|congruence].
  - destruct (0 <=? e)%Z eqn:E.
    + apply Z.leb_le in E. assert (P : (0 < Zpos m * 2 ^ e)%Z) by (apply Z.mul_pos_pos; [lia|apply Z.pow_pos_nonneg; lia]).
      split.
      * intros [H1 H2]. f_equal. destruct s; cbn [cond_Zopp]; lia.
      * intros H. assert (H' : cond_Zopp s (Zpos m * 2 ^ e) = z) by congruence. destruct s; cbn [cond_Zopp] in H'; split; lia.
    + apply Z.leb_gt in E. assert (P : (0 < 2 ^ (- e))%Z) by (apply Z.pow_pos_nonneg; lia). set (k := (2 ^ (- e))%Z) in *.
      pose proof (Z.div_mod (Zpos m) k ltac:(lia)) as D. pose proof (Z.mod_pos_bound (Zpos m) k P) as B.
      assert (Q : (0 <= Zpos m / k)%Z) by (apply Z.div_pos; lia). set (q := (Zpos m / k)%Z) in *.
      split.
      * intros [H1 [H2 H3]]. f_equal. assert (Ea : Z.abs z = q) by nia. destruct s; cbn [cond_Zopp]; lia.
      * intros H. assert (H' : cond_Zopp s q = z) by congruence. assert (Ea : Z.abs z = q) by (destruct s; cbn [cond_Zopp] in H'; lia).
        rewrite Ea. split; [destruct s; cbn [cond_Zopp] in H'; lia|]. nia.
Qed.

Lemma quantise_quantised : forall bias scale x y, quantise bias scale x = Ok y <-> quantised bias scale x y.
Proof.
  intros bias scale x y. unfold quantise, quantised, int8_of_double. set (v := f64_mul _ _). split.
  - destruct (trunc v) as [z|] eqn:E; [|discriminate]. destruct ((-128 <=? z) && (z <=? 127))%Z eqn:C; [|discriminate]. intros H.
    apply andb_true_iff in C. rewrite !Z.leb_le in C. exists z. split; [apply integer_part_trunc; auto|]. split; [lia|congruence].
  - intros [z [H1 [H2 ->]]]. apply integer_part_trunc in H1. rewrite H1.
    assert (C : ((-128 <=? z) && (z <=? 127))%Z = true) by (apply andb_true_iff; rewrite !Z.leb_le; lia). rewrite C. reflexivity.
Qed.

Lemma float_bin_to_int8_spec : forall bias scale bs g1 g2 n d data, 1 <= bs -> length g1 = 4 -> length g2 = 4 -> u32_range n -> u32_range d ->
  N.of_nat (length data) = (n * d)%N -> (forall x, In x data -> (x < 2 ^ 32)%N) ->
  (float_bin_to_int8 bias scale bs g1 g2 (Some (bin_file 4 n d data)) = UB /\ exists x, In x data /\ forall y, ~ quantised bias scale (f32_of_bits x) y) \/
  (exists out, float_bin_to_int8 bias scale bs g1 g2 (Some (bin_file 4 n d data)) = Ok (u32 n ++ u32 d ++ out) /\
     Forall2 (fun x y => quantised bias scale (f32_of_bits x) y) data out).
Proof.
  intros bias scale bs g1 g2 n d data H1 H2 H3 H4 H5 H6 H7.
  destruct (float_bin_to_int8_ok bias scale bs g1 g2 n d data H1 H2 H3 H4 H5 H6 H7) as [[E [x [Hx Hq]]]|[out [E F]]].
  - left. split; [exact E|]. exists x. split; [auto|]. intros y Hy. apply quantise_quantised in Hy. congruence.
  - right. exists out. split; [exact E|]. clear - F. induction F; constructor; auto. apply quantise_quantised. auto.
Qed.

Lemma Forall2_map_in : forall (A B : Type) (P : A -> B -> Prop) (f : A -> B) l, (forall x, In x l -> P x (f x)) -> Forall2 P l (map f l).
Proof. intros A B P f. induction l as [|x l IH]; intros H; constructor; [apply H; now left|apply IH; intros; apply H; now right]. Qed.

Lemma int8_file : forall g1 g2 order n d data, length g1 = 4 -> length g2 = 4 -> u32_range n -> u32_range d ->
  N.of_nat (length data) = (n * d)%N -> (n * d < 2 ^ 63)%N -> (forall x, In x data -> (x < 256)%N) -> Permutation order (seq 0 (N.to_nat n)) ->
  exists out, convert_file 1 4 int8_to_float g1 g2 order (Some (bin_file 1 n d data)) = Ok (bin_file 4 n d out) /\
    Forall2 (fun b y => f32_of_bits y = f32_of_Z (if (b <? 128)%N then Z.of_N b else Z.of_N b - 256)) data out.
Proof.
  intros g1 g2 order n d data H1 H2 Hn Hd Hl Hs Hb Hp. exists (map int8_to_float data). split.
  - apply convert_file_ok; auto. cbn. lia.
  - apply Forall2_map_in. intros x Hx. apply int8_to_float_val. auto.
Qed.

Lemma uint8_file : forall g1 g2 order n d data, length g1 = 4 -> length g2 = 4 -> u32_range n -> u32_range d ->
  N.of_nat (length data) = (n * d)%N -> (n * d < 2 ^ 63)%N -> (forall x, In x data -> (x < 256)%N) -> Permutation order (seq 0 (N.to_nat n)) ->
  exists out, convert_file 1 4 uint8_to_float g1 g2 order (Some (bin_file 1 n d data)) = Ok (bin_file 4 n d out) /\
    Forall2 (fun b y => f32_of_bits y = f32_of_Z (Z.of_N b)) data out.
Proof.
  intros g1 g2 order n d data H1 H2 Hn Hd Hl Hs Hb Hp. exists (map uint8_to_float data). split.
  - apply convert_file_ok; auto. cbn. lia.
  - apply Forall2_map_in. intros x Hx. apply uint8_to_float_val. auto.
Qed.

Lemma uint32_file : forall g1 g2 order n d data, length g1 = 4 -> length g2 = 4 -> u32_range n -> u32_range d ->
  N.of_nat (length data) = (n * d)%N -> (n * d * 4 < 2 ^ 63)%N -> (forall x, In x data -> (x < 2 ^ 32)%N) -> Permutation order (seq 0 (N.to_nat n)) ->
  exists out, convert_file 4 1 uint32_to_uint8 g1 g2 order (Some (bin_file 4 n d data)) = Ok (bin_file 1 n d out) /\
    Forall2 (fun x y => y = (x mod 256)%N) data out.
Proof.
  intros g1 g2 order n d data H1 H2 Hn Hd Hl Hs Hb Hp. exists (map uint32_to_uint8 data). split.
  - apply convert_file_ok; auto.
  - apply Forall2_map_in. reflexivity.
Qed.
