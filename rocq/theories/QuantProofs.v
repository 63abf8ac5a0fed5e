(** * The codes of a vector are the best ones together. *)
From Flocq Require Import Core.Raux.
From Coq Require Import NArith ZArith Reals String List Arith Lia Lra Bool Sorting.Permutation Floats.SpecFloat.
From Verif Require Import Base Bytes Float32 DivFacts FloatBits StreamModel BinModel BinSpec IndexFileModel CacheModel ClosestModel ClosestSpec PqModel PqSpec PqProofs PqProofs2 PqProofs3 DistSpec RealSpec MeanProofs3 TrainProofs KmeansProofs3
  ShardModel ShardSpec PqFileModel PqFileSpec PqFileProofs PqFileProofs2 PqFileProofs3 QuantSpec.
Import ListNotations.
Open Scope nat_scope.

Lemma firstn_split : forall {A} (l : list A) a b, firstn (a + b) l = firstn a l ++ firstn b (skipn a l).
Proof. intros A l a. revert l. induction a as [|a IH]; intros [|x l] b; cbn; [reflexivity..|now rewrite firstn_nil|]. now rewrite IH. Qed.

Lemma pieces_upto : forall dim chunks offs v k, boundaries dim chunks offs -> k <= chunks ->
  flat_map (fun i => piece dim chunks offs i v) (seq 0 k) = firstn (nth k offs 0) v.
Proof.
  intros dim chunks offs v k [_ [H0 [_ Hs]]]. induction k as [|k IH]; intros Hk.
  - cbn. now rewrite (nth_error_nth _ _ 0 H0).
  - rewrite seq_S, flat_map_app, IH by lia. cbn. rewrite app_nil_r. destruct (Hs k) as [a [A B]]; [lia|].
    rewrite (nth_error_nth _ _ 0 B). unfold piece, coords. rewrite (nth_error_nth _ _ 0 A). now rewrite firstn_split.
Qed.
Lemma pieces_all : forall dim chunks offs v, boundaries dim chunks offs -> length v = dim ->
  flat_map (fun i => piece dim chunks offs i v) (seq 0 chunks) = v.
Proof. intros dim chunks offs v B L. rewrite (pieces_upto dim chunks offs v chunks B (le_n _)). destruct B as [_ [_ [E _]]]. rewrite (nth_error_nth _ _ 0 E), <- L. apply firstn_all. Qed.

Lemma bounds_mono : forall dim chunks offs i j, boundaries dim chunks offs -> i <= j -> j <= chunks -> nth i offs 0 <= nth j offs 0.
Proof.
  intros dim chunks offs i j [_ [_ [_ Hs]]] L Hj. induction L as [|j L IH]; [lia|]. destruct (Hs j) as [a [A B]]; [lia|].
  rewrite (nth_error_nth _ _ 0 A) in IH. rewrite (nth_error_nth _ _ 0 B). specialize (IH ltac:(lia)). lia.
Qed.
Lemma piece_length : forall dim chunks offs i v, boundaries dim chunks offs -> i < chunks -> length v = dim -> length (piece dim chunks offs i v) = chunk_size dim chunks i.
Proof.
  intros dim chunks offs i v B Hi L. unfold piece, coords. rewrite firstn_length, skipn_length, L.
  pose proof (bounds_mono dim chunks offs (S i) chunks B ltac:(lia) ltac:(lia)) as M. destruct B as [_ [_ [E Hs]]]. destruct (Hs i Hi) as [a [A C]].
  rewrite (nth_error_nth _ _ 0 A). rewrite (nth_error_nth _ _ 0 C), (nth_error_nth _ _ 0 E) in M. lia.
Qed.

Lemma l2_app : forall a b c d, length a = length c -> exact_l2 (a ++ b) (c ++ d) = (exact_l2 a c + exact_l2 b d)%R.
Proof.
  intros a b c d. revert c. induction a as [|x a IH]; intros [|y c] L; try discriminate; cbn -[exact_l2].
  - unfold exact_l2 at 2. cbn. ring.
  - unfold exact_l2 in *. cbn [combine map]. unfold real_sum in *. cbn [fold_right fst snd]. rewrite IH by (cbn in L; lia). ring.
Qed.
Lemma l2_pieces : forall (f g : nat -> list f32) l, (forall i, In i l -> length (f i) = length (g i)) ->
  exact_l2 (flat_map f l) (flat_map g l) = real_sum (map (fun i => exact_l2 (f i) (g i)) l).
Proof.
  intros f g l. induction l as [|i l IH]; intros H; [reflexivity|]. cbn [flat_map map]. rewrite l2_app by (apply H; now left).
  rewrite IH by (intros; apply H; now right). reflexivity.
Qed.
Lemma real_sum_le : forall (f g : nat -> R) l, (forall i, In i l -> (f i <= g i)%R) -> (real_sum (map f l) <= real_sum (map g l))%R.
Proof.
  intros f g l. induction l as [|i l IH]; intros H; cbn; [lra|]. pose proof (H i (or_introl eq_refl)).
  specialize (IH (fun j Hj => H j (or_intror Hj))). unfold real_sum in IH. lra.
Qed.
Lemma real_sum_plus : forall (f g : nat -> R) l, real_sum (map (fun i => (f i + g i)%R) l) = (real_sum (map f l) + real_sum (map g l))%R.
Proof. intros f g l. induction l as [|i l IH]; cbn; [lra|]. unfold real_sum in IH. rewrite IH. ring. Qed.

(** The distance to the rebuilt vector is the sum over the chunks. *)
Lemma rebuilt_dist : forall dim chunks nc offs pivots cs x, boundaries dim chunks offs -> rows_of nc dim pivots -> length x = dim -> names_pivots chunks nc cs ->
  exact_l2 x (rebuilt dim chunks offs pivots cs) = real_sum (map (fun i => exact_l2 (piece dim chunks offs i x) (piece dim chunks offs i (nth (nth i cs 0) pivots []))) (seq 0 chunks)).
Proof.
  intros dim chunks nc offs pivots cs x B [Np Lp] Lx [Lc Nc]. unfold rebuilt. rewrite <- (pieces_all dim chunks offs x B Lx) at 1.
  apply l2_pieces. intros i Hi. apply in_seq in Hi. rewrite !piece_length; auto; [lia| |lia].
  apply Lp, nth_In. rewrite Np. apply Nc, nth_In. lia.
Qed.

Lemma centred_len : forall c x : list f32, length c = length x -> length (centred c x) = length x.
Proof. intros c x L. unfold centred. rewrite map_length, combine_length. lia. Qed.

Lemma codes_at_nth : forall chunks p i codes c, i < chunks -> nth_error codes (p * chunks + i) = Some c -> nth i (codes_at chunks p codes) 0 = c.
Proof.
  intros chunks p i codes c Hi H. unfold codes_at. apply nth_error_nth. rewrite <- H. clear H.
  revert i Hi. generalize (p * chunks) as k. intros k i Hi.
  transitivity (nth_error (skipn k codes) i).
  - revert i Hi. generalize (skipn k codes) as l. induction chunks as [|n IH]; intros l i Hi; [lia|]. destruct l as [|y l]; cbn; [now destruct i|]. destruct i as [|i]; cbn; [reflexivity|]. apply IH. lia.
  - clear. revert k. induction codes as [|x l IH]; intros k; [rewrite skipn_nil; now destruct i, k|]. destruct k as [|k]; cbn; [reflexivity|]. apply IH.
Qed.
Lemma codes_at_names : forall chunks n nc p codes, length codes = n * chunks -> p < n ->
  (forall i, i < chunks -> exists c, nth_error codes (p * chunks + i) = Some c /\ c < nc) -> names_pivots chunks nc (codes_at chunks p codes).
Proof.
  intros chunks n nc p codes L Hp H. assert (Lc : length (codes_at chunks p codes) = chunks) by (unfold codes_at; rewrite firstn_length, skipn_length; nia).
  split; [exact Lc|]. intros c Hc. apply (In_nth _ _ 0) in Hc. destruct Hc as [i [Hi <-]]. rewrite Lc in Hi. destruct (H i Hi) as [c [E Q]].
  now rewrite (codes_at_nth chunks p i codes c Hi E).
Qed.

(** What the encoder promises about its codes. *)
Definition first_codes (cdist : nat -> list f32 -> list f32 -> f32) (n dim nc chunks : nat) (centroid : list f32) (offs : list nat) (pivots rows : list (list f32)) (codes : list nat) : Prop :=
  length codes = n * chunks /\ forall p i a, p < n -> i < chunks -> nth_error offs i = Some a ->
      exists c, nth_error codes (p * chunks + i) = Some c /\ first_nearest (pivot_dist cdist centroid pivots rows a (chunk_size dim chunks i) p) nc c.

Lemma first_codes_names : forall cdist n dim nc chunks centroid offs pivots rows codes p, boundaries dim chunks offs ->
  first_codes cdist n dim nc chunks centroid offs pivots rows codes -> p < n -> names_pivots chunks nc (codes_at chunks p codes).
Proof.
  intros cdist n dim nc chunks centroid offs pivots rows codes p B [L H] Hp. apply (codes_at_names chunks n nc p codes L Hp). intros i Hi.
  destruct B as [_ [_ [_ Hs]]]. destruct (Hs i Hi) as [a [A _]]. destruct (H p i a Hp Hi A) as [c [E [Q _]]]. now exists c.
Qed.

Lemma first_codes_best : forall cdist n dim nc chunks centroid offs pivots rows codes err, boundaries dim chunks offs -> length centroid = dim -> rows_of nc dim pivots -> rows_of n dim rows ->
  first_codes cdist n dim nc chunks centroid offs pivots rows codes -> pieces_within cdist dim chunks nc offs pivots (map (centred centroid) rows) err ->
  forall p cs, p < n -> names_pivots chunks nc cs ->
    (exact_l2 (centred centroid (nth p rows [])) (rebuilt dim chunks offs pivots (codes_at chunks p codes)) <=
     exact_l2 (centred centroid (nth p rows [])) (rebuilt dim chunks offs pivots cs) + code_err chunks err p (codes_at chunks p codes) + code_err chunks err p cs)%R.
Proof.
  intros cdist n dim nc chunks centroid offs pivots rows codes err B Lc Rp [Nr Lr] FC W p cs Hp Hcs.
  assert (Lx : length (centred centroid (nth p rows [])) = dim). { rewrite centred_len; [apply Lr, nth_In; lia|]. rewrite Lc. symmetry. apply Lr, nth_In. lia. }
  pose proof (first_codes_names cdist n dim nc chunks centroid offs pivots rows codes p B FC Hp) as Hn.
  rewrite (rebuilt_dist dim chunks nc offs pivots (codes_at chunks p codes) _ B Rp Lx Hn), (rebuilt_dist dim chunks nc offs pivots cs _ B Rp Lx Hcs).
  unfold code_err. rewrite Rplus_assoc, <- !real_sum_plus. apply real_sum_le. intros i Hi. apply in_seq in Hi.
  destruct FC as [L H]. destruct B as [_ [_ [_ Hs]]]. destruct (Hs i ltac:(lia)) as [a [A _]]. destruct (H p i a Hp ltac:(lia) A) as [c [E [Qc [Qm _]]]].
  rewrite (codes_at_nth chunks p i codes c ltac:(lia) E). destruct Hcs as [Lcs Ncs]. assert (Qn : nth i cs 0 < nc) by (apply Ncs, nth_In; lia).
  specialize (Qm _ Qn). set (x := centred centroid (nth p rows [])) in *.
  assert (Ex : nth p (map (centred centroid) rows) [] = x). { rewrite (nth_indep _ [] (centred centroid [])) by (rewrite map_length; lia). now rewrite map_nth. }
  pose proof (W p i c) as Wc. pose proof (W p i (nth i cs 0)) as Wd. rewrite map_length, Ex in Wc, Wd. specialize (Wc ltac:(lia) ltac:(lia) Qc). specialize (Wd ltac:(lia) ltac:(lia) Qn).
  cbv zeta in Wc, Wd. unfold pivot_dist in Qm. fold x in Qm. unfold piece in *. rewrite (nth_error_nth _ _ 0 A) in *.
  destruct Wc as [Fc [Vc Bc]]. destruct Wd as [Fd [Vd Bd]]. pose proof (fle_real _ _ Vc Vd Fc Fd Qm) as LE. apply Raux.Rabs_le_inv in Bc, Bd. lra.
Qed.

(** The encoder. *)
Lemma encode_first : forall popf mbs maxb cdist n dim nc chunks centroid offs pivots rows orders,
  pops popf -> 1 <= mbs -> 1 <= maxb -> 1 <= n -> 1 <= chunks -> chunks <= dim -> boundaries dim chunks offs ->
  length centroid = dim -> rows_of nc dim pivots -> rows_of n dim rows -> pq_orders n (min n maxb) mbs orders -> (N.of_nat nc <= 2 ^ 32)%N ->
  (forall p i a, p < n -> i < chunks -> nth_error offs i = Some a -> usable (pivot_dist cdist centroid pivots rows a (chunk_size dim chunks i) p) nc) ->
  exists codes body, pq_encode popf mbs maxb cdist n dim nc chunks centroid (seq 0 dim) offs pivots rows orders = Ok (u32 (N.of_nat n) ++ u32 (N.of_nat chunks) ++ body) /\
    dec_all (code_width nc) (n * chunks) body = map N.of_nat codes /\ first_codes cdist n dim nc chunks centroid offs pivots rows codes.
Proof.
  intros popf mbs maxb cdist n dim nc chunks centroid offs pivots rows orders H1 H2 H3 H4 H5 H6 H7 H8 H9 H10 H11 H12 H13.
  destruct (pq_encode_codes popf mbs maxb cdist n dim nc chunks centroid offs pivots rows orders H1 H2 H3 H4 H5 H6 H7 H8 H9 H10 H11 H12 H13) as [codes [body [E [L [_ [D H]]]]]].
  exists codes, body. repeat split; auto.
Qed.

(** No other codes stand for a nearer vector, by more than the errors of the distances. *)
Lemma encode_best : forall popf mbs maxb cdist n dim nc chunks centroid offs pivots rows orders err,
  pops popf -> 1 <= mbs -> 1 <= maxb -> 1 <= n -> 1 <= chunks -> chunks <= dim -> boundaries dim chunks offs ->
  length centroid = dim -> rows_of nc dim pivots -> rows_of n dim rows -> pq_orders n (min n maxb) mbs orders -> (N.of_nat nc <= 2 ^ 32)%N ->
  (forall p i a, p < n -> i < chunks -> nth_error offs i = Some a -> usable (pivot_dist cdist centroid pivots rows a (chunk_size dim chunks i) p) nc) ->
  pieces_within cdist dim chunks nc offs pivots (map (centred centroid) rows) err ->
  exists codes body, pq_encode popf mbs maxb cdist n dim nc chunks centroid (seq 0 dim) offs pivots rows orders = Ok (u32 (N.of_nat n) ++ u32 (N.of_nat chunks) ++ body) /\
    dec_all (code_width nc) (n * chunks) body = map N.of_nat codes /\
    forall p, p < n -> names_pivots chunks nc (codes_at chunks p codes) /\ forall cs, names_pivots chunks nc cs ->
      (exact_l2 (centred centroid (nth p rows [])) (rebuilt dim chunks offs pivots (codes_at chunks p codes)) <=
       exact_l2 (centred centroid (nth p rows [])) (rebuilt dim chunks offs pivots cs) + code_err chunks err p (codes_at chunks p codes) + code_err chunks err p cs)%R.
Proof.
  intros popf mbs maxb cdist n dim nc chunks centroid offs pivots rows orders err H1 H2 H3 H4 H5 H6 H7 H8 H9 H10 H11 H12 H13 W.
  destruct (encode_first popf mbs maxb cdist n dim nc chunks centroid offs pivots rows orders H1 H2 H3 H4 H5 H6 H7 H8 H9 H10 H11 H12 H13) as [codes [body [E [D F]]]].
  exists codes, body. split; [exact E|]. split; [exact D|]. intros p Hp. split.
  - exact (first_codes_names cdist n dim nc chunks centroid offs pivots rows codes p H7 F Hp).
  - intros cs Hcs. exact (first_codes_best cdist n dim nc chunks centroid offs pivots rows codes err H7 H8 H9 H10 F W p cs Hp Hcs).
Qed.

(** From files to file. *)
Lemma file_best : forall g gl popf mbs maxb cdist w conv orders data n dim nc chunks base path out d centroid offs pivots err,
  pops popf -> 1 <= mbs -> 1 <= maxb -> four_bytes gl -> (N.of_nat dim + 1 < 2 ^ 32)%N -> 1 <= chunks -> chunks <= dim -> (N.of_nat nc * N.of_nat dim < 2 ^ 32)%N ->
  boundaries dim chunks offs -> length centroid = dim -> (forall v, In v centroid -> f32_valid v = true) -> rows_of nc dim pivots -> floats_ok pivots ->
  pivot_files path nc dim centroid offs pivots d -> d data = Some (vector_file dim base) -> rows_ok n (dim * w) dim base -> 1 <= n ->
  pq_orders n (min n maxb) mbs orders ->
  (forall p i a, p < n -> i < chunks -> nth_error offs i = Some a -> usable (pivot_dist cdist centroid pivots (float_rows w conv dim base) a (chunk_size dim chunks i) p) nc) ->
  pieces_within cdist dim chunks nc offs pivots (map (centred centroid) (float_rows w conv dim base)) err ->
  exists codes body, pq_data g gl popf mbs maxb cdist w conv orders data nc chunks path out d = Ok (fs_set d out (Some (u32 (N.of_nat n) ++ u32 (N.of_nat chunks) ++ body))) /\
    dec_all (code_width nc) (n * chunks) body = map N.of_nat codes /\
    forall p, p < n -> names_pivots chunks nc (codes_at chunks p codes) /\ forall cs, names_pivots chunks nc cs ->
      let x := centred centroid (nth p (float_rows w conv dim base) []) in
      (exact_l2 x (rebuilt dim chunks offs pivots (codes_at chunks p codes)) <=
       exact_l2 x (rebuilt dim chunks offs pivots cs) + code_err chunks err p (codes_at chunks p codes) + code_err chunks err p cs)%R.
Proof.
  intros g gl popf mbs maxb cdist w conv orders data n dim nc chunks base path out d centroid offs pivots err H1 H2 H3 H4 H5 H6 H7 H8 H9 H10 H11 H12 H13 H14 H15 H16 H17 H18 H19 W. pose proof (float_rows_shape w conv n dim base (proj1 H16)) as HR.
  destruct (pq_data_ok g gl popf mbs maxb cdist w conv orders data n dim nc chunks base path out d centroid offs pivots H1 H2 H3 H4 H5 H6 H7 H8 H9 H10 H11 H12 H13 H14 H15 H16 H17 H18 H19)
    as [codes [body [E [L [_ [D F]]]]]].
  exists codes, body. split; [exact E|]. split; [exact D|]. intros p Hp.
  assert (FC : first_codes cdist n dim nc chunks centroid offs pivots (float_rows w conv dim base) codes) by (split; assumption).
  split.
  - exact (first_codes_names cdist n dim nc chunks centroid offs pivots _ codes p H9 FC Hp).
  - intros cs Hcs x. exact (first_codes_best cdist n dim nc chunks centroid offs pivots _ codes err H9 H10 H12 HR FC W p cs Hp Hcs).
Qed.

(** With exact distances: the best codes. *)
Lemma code_err_none : forall chunks p cs, code_err chunks (fun _ _ _ => 0%R) p cs = 0%R.
Proof. intros chunks p cs. unfold code_err. generalize (seq 0 chunks) as l. induction l as [|i l IH]; cbn; [reflexivity|]. unfold real_sum in IH. rewrite IH. ring. Qed.

Lemma code_err_bound : forall chunks err e p cs nc, names_pivots chunks nc cs -> (forall i c, i < chunks -> c < nc -> (err p i c <= e)%R) -> (code_err chunks err p cs <= INR chunks * e)%R.
Proof.
  intros chunks err e p cs nc [L N] H. unfold code_err.
  assert (Q : forall l, (forall i, In i l -> i < chunks) -> (real_sum (map (fun i => err p i (nth i cs 0%nat)) l) <= INR (length l) * e)%R).
  { induction l as [|i l IH]; intros Hl; [cbn; lra|]. cbn [map length]. rewrite S_INR. unfold real_sum in *. cbn [fold_right].
    pose proof (H i (nth i cs 0) (Hl i (or_introl eq_refl)) ltac:(apply N, nth_In; rewrite L; apply Hl; now left)). specialize (IH (fun j Hj => Hl j (or_intror Hj))). lra. }
  specialize (Q (seq 0 chunks)). rewrite seq_length in Q. apply Q. intros i Hi. apply in_seq in Hi. lia.
Qed.

(** Pivots added at the end. *)
Lemma rebuilt_more : forall dim chunks nc offs pivots more cs, length pivots = nc -> names_pivots chunks nc cs -> rebuilt dim chunks offs (pivots ++ more) cs = rebuilt dim chunks offs pivots cs.
Proof.
  intros dim chunks nc offs pivots more cs Lp [L N]. unfold rebuilt. rewrite !flat_map_concat_map. f_equal. apply map_ext_in. intros i Hi. apply in_seq in Hi.
  rewrite app_nth1; [reflexivity|]. rewrite Lp. apply N, nth_In. lia.
Qed.

Lemma encode_more : forall popf mbs maxb cdist n dim nc chunks centroid offs pivots more rows orders popf' mbs' maxb' cdist' orders' err',
  pops popf -> 1 <= mbs -> 1 <= maxb -> pops popf' -> 1 <= mbs' -> 1 <= maxb' -> 1 <= n -> 1 <= chunks -> chunks <= dim -> boundaries dim chunks offs ->
  length centroid = dim -> rows_of nc dim pivots -> (forall x, In x more -> length x = dim) -> rows_of n dim rows ->
  pq_orders n (min n maxb) mbs orders -> pq_orders n (min n maxb') mbs' orders' -> (N.of_nat (nc + length more) <= 2 ^ 32)%N ->
  (forall p i a, p < n -> i < chunks -> nth_error offs i = Some a -> usable (pivot_dist cdist centroid pivots rows a (chunk_size dim chunks i) p) nc) ->
  (forall p i a, p < n -> i < chunks -> nth_error offs i = Some a -> usable (pivot_dist cdist' centroid (pivots ++ more) rows a (chunk_size dim chunks i) p) (nc + length more)) ->
  pieces_within cdist' dim chunks (nc + length more) offs (pivots ++ more) (map (centred centroid) rows) err' ->
  exists codes body codes' body',
    pq_encode popf mbs maxb cdist n dim nc chunks centroid (seq 0 dim) offs pivots rows orders = Ok (u32 (N.of_nat n) ++ u32 (N.of_nat chunks) ++ body) /\
    dec_all (code_width nc) (n * chunks) body = map N.of_nat codes /\
    pq_encode popf' mbs' maxb' cdist' n dim (nc + length more) chunks centroid (seq 0 dim) offs (pivots ++ more) rows orders' = Ok (u32 (N.of_nat n) ++ u32 (N.of_nat chunks) ++ body') /\
    dec_all (code_width (nc + length more)) (n * chunks) body' = map N.of_nat codes' /\
    forall p, p < n ->
      (exact_l2 (centred centroid (nth p rows [])) (rebuilt dim chunks offs (pivots ++ more) (codes_at chunks p codes')) <=
       exact_l2 (centred centroid (nth p rows [])) (rebuilt dim chunks offs pivots (codes_at chunks p codes)) + code_err chunks err' p (codes_at chunks p codes') + code_err chunks err' p (codes_at chunks p codes))%R.
Proof.
  intros popf mbs maxb cdist n dim nc chunks centroid offs pivots more rows orders popf' mbs' maxb' cdist' orders' err' H1 H2 H3 K1 K2 K3 H4 H5 H6 H7 H8 H9 HM H10 H11 K11 H12 H13 K13 W.
  destruct (encode_first popf mbs maxb cdist n dim nc chunks centroid offs pivots rows orders H1 H2 H3 H4 H5 H6 H7 H8 H9 H10 H11 ltac:(lia) H13) as [codes [body [E [D F]]]].
  assert (R' : rows_of (nc + length more) dim (pivots ++ more)). { destruct H9 as [A B]. split; [rewrite app_length; lia|]. intros x Hx. apply in_app_or in Hx. destruct Hx; auto. }
  destruct (encode_best popf' mbs' maxb' cdist' n dim (nc + length more) chunks centroid offs (pivots ++ more) rows orders' err' K1 K2 K3 H4 H5 H6 H7 H8 R' H10 K11 H12 K13 W) as [codes' [body' [E' [D' F']]]].
  exists codes, body, codes', body'. split; [exact E|]. split; [exact D|]. split; [exact E'|]. split; [exact D'|]. intros p Hp.
  pose proof (first_codes_names cdist n dim nc chunks centroid offs pivots rows codes p H7 F Hp) as N1.
  destruct (F' p Hp) as [_ Q]. specialize (Q (codes_at chunks p codes)).
  assert (N2 : names_pivots chunks (nc + length more) (codes_at chunks p codes)). { destruct N1 as [A B]. split; [exact A|]. intros c Hc. specialize (B c Hc). lia. }
  specialize (Q N2). rewrite (rebuilt_more dim chunks nc offs pivots more _ (proj1 H9) N1) in Q. exact Q.
Qed.

(** A vector put together from pieces of pivots is coded without loss. *)
Lemma l2_zero : forall a b : list f32, length a = length b -> exact_l2 a b = 0%R -> map real a = map real b.
Proof.
  induction a as [|x a IH]; intros [|y b] L H; try discriminate; [reflexivity|]. unfold exact_l2 in H. cbn [combine map] in H. unfold real_sum in H. cbn [fold_right fst snd] in H.
  pose proof (KmeansProofs3.l2_nonneg a b) as P. unfold exact_l2, real_sum in P. pose proof (pow2_ge_0 (real x - real y)) as Q.
  assert (Z : ((real x - real y) ^ 2)%R = 0%R) by lra. assert (Z' : (real x - real y)%R = 0%R) by nra. cbn [map]. f_equal; [lra|]. apply IH; [cbn in L; lia|]. unfold exact_l2, real_sum. lra.
Qed.
Lemma l2_self : forall a : list f32, exact_l2 a a = 0%R.
Proof. induction a as [|x a IH]; [reflexivity|]. unfold exact_l2 in *. cbn [combine map]. unfold real_sum in *. cbn [fold_right fst snd]. rewrite IH. ring. Qed.

Lemma encode_lossless : forall popf mbs maxb cdist n dim nc chunks centroid offs pivots rows orders,
  pops popf -> 1 <= mbs -> 1 <= maxb -> 1 <= n -> 1 <= chunks -> chunks <= dim -> boundaries dim chunks offs ->
  length centroid = dim -> rows_of nc dim pivots -> rows_of n dim rows -> pq_orders n (min n maxb) mbs orders -> (N.of_nat nc <= 2 ^ 32)%N ->
  (forall p i a, p < n -> i < chunks -> nth_error offs i = Some a -> usable (pivot_dist cdist centroid pivots rows a (chunk_size dim chunks i) p) nc) ->
  pieces_within cdist dim chunks nc offs pivots (map (centred centroid) rows) (fun _ _ _ => 0%R) ->
  exists codes body, pq_encode popf mbs maxb cdist n dim nc chunks centroid (seq 0 dim) offs pivots rows orders = Ok (u32 (N.of_nat n) ++ u32 (N.of_nat chunks) ++ body) /\
    dec_all (code_width nc) (n * chunks) body = map N.of_nat codes /\
    (forall p cs, p < n -> names_pivots chunks nc cs ->
      (exact_l2 (centred centroid (nth p rows [])) (rebuilt dim chunks offs pivots (codes_at chunks p codes)) <= exact_l2 (centred centroid (nth p rows [])) (rebuilt dim chunks offs pivots cs))%R) /\
    forall p cs, p < n -> names_pivots chunks nc cs -> centred centroid (nth p rows []) = rebuilt dim chunks offs pivots cs ->
      map real (rebuilt dim chunks offs pivots (codes_at chunks p codes)) = map real (centred centroid (nth p rows [])).
Proof.
  intros popf mbs maxb cdist n dim nc chunks centroid offs pivots rows orders H1 H2 H3 H4 H5 H6 H7 H8 H9 H10 H11 H12 H13 W.
  destruct (encode_best popf mbs maxb cdist n dim nc chunks centroid offs pivots rows orders (fun _ _ _ => 0%R) H1 H2 H3 H4 H5 H6 H7 H8 H9 H10 H11 H12 H13 W) as [codes [body [E [D F]]]].
  assert (G : forall p cs, p < n -> names_pivots chunks nc cs ->
      (exact_l2 (centred centroid (nth p rows [])) (rebuilt dim chunks offs pivots (codes_at chunks p codes)) <= exact_l2 (centred centroid (nth p rows [])) (rebuilt dim chunks offs pivots cs))%R).
  { intros p cs Hp Hcs. destruct (F p Hp) as [_ Q]. specialize (Q cs Hcs). rewrite !code_err_none in Q. lra. }
  exists codes, body. split; [exact E|]. split; [exact D|]. split; [exact G|]. intros p cs Hp Hcs Ex. specialize (G p cs Hp Hcs). rewrite <- Ex, l2_self in G.
  symmetry. apply l2_zero; [|pose proof (KmeansProofs3.l2_nonneg (centred centroid (nth p rows [])) (rebuilt dim chunks offs pivots (codes_at chunks p codes))); lra].
  destruct H10 as [Nr Lr]. assert (Lx : length (nth p rows []) = dim) by (apply Lr, nth_In; lia). rewrite centred_len by congruence. rewrite Lx.
  destruct (F p Hp) as [Nm _]. unfold rebuilt. rewrite flat_map_concat_map.
  assert (Q : forall f g : nat -> list f32, (forall i, i < chunks -> length (f i) = length (g i)) -> length (concat (map f (seq 0 chunks))) = length (concat (map g (seq 0 chunks)))).
  { intros f g Hfg. assert (Z : forall l, (forall i, In i l -> i < chunks) -> length (concat (map f l)) = length (concat (map g l))).
    { induction l as [|i l IH]; intros Hl; [reflexivity|]. cbn [map concat]. rewrite !app_length, IH by (intros; apply Hl; now right). rewrite (Hfg i) by (apply Hl; now left). reflexivity. }
    apply Z. intros i Hi. apply in_seq in Hi. lia. }
  rewrite (Q _ (fun i => piece dim chunks offs i (nth p rows []))).
  - rewrite <- flat_map_concat_map, (pieces_all dim chunks offs _ H7 Lx). now rewrite Lx.
  - intros i Hi. rewrite !piece_length; auto. destruct H9 as [Np Lp]. apply Lp, nth_In. rewrite Np. destruct Nm as [A B]. apply B, nth_In. lia.
Qed.
