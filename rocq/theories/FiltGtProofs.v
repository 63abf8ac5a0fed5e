(** * Proofs about filtered ground truth. *)
From Coq Require Import NArith Ascii String List Arith Bool Lia Sorting.Permutation Sorting.Sorted.
From Verif Require Import Base Bytes Float32 StreamModel BinModel BinSpec BinProofs BinProofs2 TextModel IndexFileModel ClosestModel TopKSpec HeapSpec HeapInst GtModel GtSpec GtProofs2 TruthModel FiltGtModel FiltGtSpec.
Import ListNotations.
Local Open Scope nat_scope.

Lemma existsb_eqb : forall x l, existsb (String.eqb x) l = true <-> In x l.
Proof.
  intros x l. rewrite existsb_exists. split.
  - intros [y [H E]]. apply String.eqb_eq in E. now subst.
  - intros H. exists x. split; [auto|apply String.eqb_refl].
Qed.

Lemma line_match_spec : forall filters univ toks, line_match filters univ toks = true <-> has_label filters univ toks.
Proof.
  intros filters univ toks. unfold line_match, has_label. rewrite existsb_exists. split; intros [t [H E]]; exists t; (split; [auto|]).
  - apply orb_prop in E. destruct E as [E|E]; [left; now apply existsb_eqb|right]. destruct univ as [u|]; [|discriminate]. apply String.eqb_eq in E. now subst.
  - apply orb_true_intro. destruct E as [E|E]; [left; now apply existsb_eqb|right]. subst univ. apply String.eqb_refl.
Qed.

Lemma filter_map_comm : forall (A B : Type) (f : B -> bool) (g : A -> B) l, filter f (map g l) = map g (filter (fun x => f (g x)) l).
Proof. intros A B f g. induction l as [|x l IH]; [reflexivity|]. cbn. rewrite IH. destruct (f (g x)); reflexivity. Qed.

Definition matching (filters : list string) (univ : option string) (lines : list string) : list nat :=
  filter (fun i => line_match filters univ (line_tokens (nth i lines EmptyString))) (seq 0 (length lines)).

Lemma matching_cons : forall filters univ line lines, matching filters univ (line :: lines) =
  (if line_match filters univ (line_tokens line) then [0] else []) ++ map S (matching filters univ lines).
Proof.
  intros. unfold matching. cbn [length seq filter nth]. rewrite <- seq_shift, filter_map_comm. destruct (line_match filters univ (line_tokens line)); reflexivity.
Qed.

Lemma extract_ok : forall size filters univ lines rows cnt pt rest, length rows = length lines -> (forall r, In r rows -> length r = size) -> length pt = size ->
  extract size filters univ lines cnt (mkS (concat rows ++ rest) true false) pt =
  (map (fun i => i + cnt) (matching filters univ lines), map (fun i => nth i rows []) (matching filters univ lines)).
Proof.
  intros size filters univ. induction lines as [|line lines IH]; intros [|row rows] cnt pt rest L Hr Hp; try discriminate; [reflexivity|].
  cbn [extract concat]. rewrite <- app_assoc, (sread_app _ row) by (rewrite (Hr row (or_introl eq_refl)); reflexivity).
  rewrite overlay_full by (rewrite (Hr row (or_introl eq_refl)); auto). rewrite IH; [|cbn in L; lia|intros; apply Hr; now right|apply Hr; now left].
  rewrite matching_cons. cbn [fst snd]. assert (E1 : map (fun i => i + cnt) (map S (matching filters univ lines)) = map (fun i => i + S cnt) (matching filters univ lines)) by (rewrite map_map; apply map_ext; intros; lia).
  assert (E2 : map (fun i => nth i (row :: rows) []) (map S (matching filters univ lines)) = map (fun i => nth i rows []) (matching filters univ lines)) by (rewrite map_map; reflexivity).
  destruct (line_match filters univ (line_tokens line)); cbn [app map]; rewrite E1, E2; reflexivity.
Qed.

Lemma seq_sorted : forall n s, StronglySorted lt (seq s n).
Proof. induction n as [|n IH]; intros s; cbn; [constructor|]. constructor; [apply IH|]. apply Forall_forall. intros x Hx. apply in_seq in Hx. lia. Qed.

Lemma filter_sorted : forall f l, StronglySorted lt l -> StronglySorted lt (filter f l).
Proof.
  intros f. induction l as [|x l IH]; intros H; [constructor|]. inversion H as [|? ? H1 H2]. subst. cbn. destruct (f x); [|auto]. constructor; [auto|].
  rewrite Forall_forall in *. intros y Hy. apply filter_In in Hy. apply H2, Hy.
Qed.

Lemma matching_spec : forall filters univ lines,
  lists_all (length lines) (fun i => has_label filters univ (line_tokens (nth i lines EmptyString))) (matching filters univ lines).
Proof.
  intros. split; [apply filter_sorted, seq_sorted|]. intros i. unfold matching. rewrite filter_In, in_seq, line_match_spec. split; intros [H1 H2]; split; auto; lia.
Qed.

(** Two increasing lists with the same members are equal. *)
Lemma sorted_unique : forall l m, StronglySorted lt l -> StronglySorted lt m -> (forall x, In x l <-> In x m) -> l = m.
Proof.
  induction l as [|x l IH]; intros [|y m] Hl Hm H; [reflexivity| | |].
  - destruct (proj2 (H y) (or_introl eq_refl)).
  - destruct (proj1 (H x) (or_introl eq_refl)).
  - inversion Hl as [|? ? Hl1 Hl2]. inversion Hm as [|? ? Hm1 Hm2]. subst. rewrite Forall_forall in *.
    assert (E : x = y). { destruct (proj1 (H x) (or_introl eq_refl)) as [E|E]; [auto|]. destruct (proj2 (H y) (or_introl eq_refl)) as [E'|E']; [auto|]. specialize (Hl2 _ E'). specialize (Hm2 _ E). lia. }
    subst y. f_equal. apply IH; auto. intros z. split; intros Hz.
    + destruct (proj1 (H z) (or_intror Hz)) as [<-|]; [|auto]. specialize (Hl2 _ Hz). lia.
    + destruct (proj2 (H z) (or_intror Hz)) as [<-|]; [|auto]. specialize (Hm2 _ Hz). lia.
Qed.

Lemma lists_all_unique : forall n P l m, lists_all n P l -> lists_all n P m -> l = m.
Proof. intros n P l m [Hl1 Hl2] [Hm1 Hm2]. apply sorted_unique; auto. intros x. rewrite Hl2, Hm2. reflexivity. Qed.

Lemma top_k_map : forall f k c o, (forall x : scored, snd (f x) = snd x) -> is_top_k k c o -> is_top_k k (map f c) (map f o).
Proof.
  intros f k c o Hf [rest [P [L [S1 S2]]]]. exists (map f rest). split; [rewrite <- map_app; now apply Permutation_map|]. split; [rewrite !map_length; exact L|]. split.
  - clear -Hf S1. unfold by_distance in *. induction S1 as [|x l H1 IH H2]; cbn; constructor; auto. rewrite Forall_forall in *. intros y Hy. apply in_map_iff in Hy. destruct Hy as [z [<- Hz]]. unfold no_farther. rewrite !Hf. apply H2, Hz.
  - intros x y Hx Hy. apply in_map_iff in Hx. destruct Hx as [x' [<- Hx]]. apply in_map_iff in Hy. destruct Hy as [y' [<- Hy]]. unfold no_farther. rewrite !Hf. apply S2; auto.
Qed.

(** ** Mapping the ids back *)
Definition back (idx : list nat) (x : N) : N := N.of_nat (nth (N.to_nat x) idx 0).

Lemma lookup_ok : forall idx ids, (forall x, In x ids -> N.to_nat x < length idx) ->
  fold_right (fun x r => do t <- r; do y <- rd idx (N.to_nat x); Ok (N.of_nat y :: t)) (Ok []) ids = Ok (map (back idx) ids).
Proof.
  intros idx. induction ids as [|x ids IH]; intros H; [reflexivity|]. cbn [fold_right map]. rewrite IH by (intros; apply H; now right). cbn [bind].
  unfold rd, back. rewrite (nth_error_nth' idx 0) by (apply H; now left). reflexivity.
Qed.

Lemma enc_all_app : forall k a b, enc_all k (a ++ b) = enc_all k a ++ enc_all k b.
Proof. intros. unfold enc_all. apply flat_map_app. Qed.

Lemma remap_ids_ok : forall idx k cnt ids rest old, length ids = cnt * k -> (forall x, In x ids -> N.to_nat x < length idx /\ (x < 2 ^ 32)%N) -> length old = k ->
  remap_ids idx k cnt (mkS (enc_all 4 ids ++ rest) true false) old = Ok (enc_all 4 (map (back idx) ids), mkS rest true false).
Proof.
  intros idx k. induction cnt as [|cnt IH]; intros ids rest old L H Ho.
  - assert (ids = []) by (destruct ids; [auto|discriminate]). subst. reflexivity.
  - cbn [remap_ids]. assert (Lf : length (firstn k ids) = k) by (rewrite firstn_length; lia).
    rewrite <- (firstn_skipn k ids) at 1. rewrite enc_all_app, <- app_assoc. rewrite (sread_app _ (enc_all 4 (firstn k ids))) by (rewrite enc_all_length; lia).
    rewrite overlay_full by (rewrite !enc_all_length; lia).
    assert (D : dec_all 4 k (enc_all 4 (firstn k ids)) = firstn k ids).
    { rewrite <- (app_nil_r (enc_all 4 (firstn k ids))). rewrite <- Lf at 1. apply dec_all_enc. intros x Hx. apply H. rewrite <- (firstn_skipn k ids). apply in_or_app. auto. }
    rewrite D. rewrite lookup_ok by (intros x Hx; apply H; rewrite <- (firstn_skipn k ids); apply in_or_app; auto). cbn [bind].
    rewrite IH; [|rewrite skipn_length; lia|intros x Hx; apply H; rewrite <- (firstn_skipn k ids); apply in_or_app; auto|rewrite map_length; auto]. cbn [bind fst snd].
    rewrite <- enc_all_app, <- map_app, firstn_skipn. reflexivity.
Qed.

Lemma copy_dists_ok : forall w k cnt d old, 4 <= w -> length d = cnt * (4 * k) -> length old = w * k -> copy_dists w k cnt (mkS d true false) old = Ok d.
Proof.
  intros w k. induction cnt as [|cnt IH]; intros d old Hw L Ho.
  - assert (d = []) by (destruct d; [auto|discriminate]). subst. reflexivity.
  - cbn [copy_dists]. assert (Hk : 4 * k <= w * k) by (apply Nat.mul_le_mono_r; auto). rewrite (proj2 (Nat.ltb_ge _ _)) by auto.
    assert (Lf : length (firstn (4 * k) d) = 4 * k) by (rewrite firstn_length, L; cbn; lia).
    rewrite <- (firstn_skipn (4 * k) d) at 1. rewrite (sread_app _ (firstn (4 * k) d)) by (rewrite Lf; reflexivity).
    assert (F : firstn (4 * k) (overlay (firstn (4 * k) d) old) = firstn (4 * k) d) by (unfold overlay; apply firstn_len_app; auto).
    rewrite IH; [| |rewrite skipn_length, L; cbn; lia|unfold overlay; rewrite app_length, skipn_length, Lf; lia]; [|auto]. cbn [bind]. rewrite F, firstn_skipn. reflexivity.
Qed.

Lemma copy_dists_narrow : forall w k cnt s old, w < 4 -> 1 <= k -> 1 <= cnt -> copy_dists w k cnt s old = UB.
Proof.
  intros w k [|cnt] s old Hw Hk Hc; [lia|]. cbn [copy_dists]. rewrite (proj2 (Nat.ltb_lt _ _)); [reflexivity|]. apply Nat.mul_lt_mono_pos_r; lia.
Qed.

(** ** The whole computation *)
Lemma top_k_ids : forall k dist n out x, is_top_k k (score dist (seq 0 n)) out -> In x out -> fst x < n.
Proof.
  intros k dist n out x [rest [P _]] Hx. assert (H : In x (score dist (seq 0 n))) by (apply (Permutation_in _ (Permutation_sym P)); apply in_or_app; auto).
  unfold score in H. apply in_map_iff in H. destruct H as [i [<- Hi]]. apply in_seq in Hi. cbn. lia.
Qed.

Lemma in_row : forall (k nq : nat) (out : list (nat * f32)) x, 1 <= k -> length out = nq * k -> In x out -> exists i, i < nq /\ In x (row_of k i out).
Proof.
  intros k nq out x Hk L Hx. destruct (In_nth_error _ _ Hx) as [p Hp]. assert (Hlt : p < length out) by (apply nth_error_Some; congruence).
  exists (p / k). assert (Hi : p / k < nq) by (apply Nat.div_lt_upper_bound; lia). split; [auto|]. unfold row_of.
  pose proof (Nat.div_mod p k ltac:(lia)) as D. pose proof (Nat.mod_upper_bound p k ltac:(lia)) as M.
  assert (E : nth_error (firstn k (skipn (p / k * k) out)) (p mod k) = Some x); [|eapply nth_error_In; eauto].
  rewrite ListLemmas.nth_error_firstn_lt by auto. rewrite <- Hp. rewrite D at 3. clear. rewrite (Nat.mul_comm k (p / k)). generalize (p / k * k) (p mod k). intros a b. revert out. induction a as [|a IH]; intros out; [reflexivity|]. destruct out; [destruct b; reflexivity|]. apply IH.
Qed.

Lemma map_nth_seq : forall (l : list nat), map (fun j => nth j l 0) (seq 0 (length l)) = l.
Proof. induction l as [|x l IH]; [reflexivity|]. cbn [length seq map nth]. f_equal. rewrite <- seq_shift, map_map. exact IH. Qed.

Lemma row_of_map : forall (f : scored -> scored) k i out, row_of k i (map f out) = map f (row_of k i out).
Proof. intros. unfold row_of. now rewrite skipn_map, firstn_map. Qed.

Lemma row_of_firstn : forall k i nq (out : list scored), i < nq -> row_of k i (firstn (nq * k) out) = row_of k i out.
Proof.
  intros k i nq out H. unfold row_of. rewrite skipn_firstn_comm, firstn_firstn. f_equal. assert (S i * k <= nq * k) by (apply Nat.mul_le_mono_r; lia). cbn in *. lia.
Qed.

Lemma filtered_gt_ok : forall pushf takef sortf bs ps g1 g2 d rows text filter_string univ nq k dist bits orders ids,
  heap_ok pushf takef -> sorts_pairs sortf -> (forall q v, is_nan (dist q v) = false) -> (forall x, bits x < 2 ^ 32)%N -> 1 <= bs -> 1 <= ps -> 1 <= k ->
  length g1 = 4 -> length g2 = 4 -> u32_range (N.of_nat (length rows)) -> u32_range d -> u32_range (N.of_nat nq) -> u32_range (N.of_nat k) -> (N.of_nat (length rows) * d * 4 < 2 ^ 63)%N ->
  (forall r, In r rows -> length r = 4 * N.to_nat d) -> (forall p, batch_orders nq bs (orders p)) ->
  length (getlines LF (text_of text)) = length rows ->
  lists_all (length rows) (fun i => has_label (line_tokens filter_string) univ (line_tokens (nth i (getlines LF (text_of text)) EmptyString))) ids -> ids <> [] ->
  exists found, filtered_gt pushf takef sortf bs ps 4 g1 g2 (Some (rows_file (N.of_nat (length rows)) d rows)) (Some text) filter_string univ nq k dist bits orders =
      Ok (u32 (N.of_nat nq) ++ u32 (N.of_nat (min k (last_part (length ids) ps))) ++ enc_all 4 (map (fun x => N.of_nat (fst x)) found) ++ enc_all 4 (map (fun x => bits (snd x)) found)) /\
    length found = nq * min k (last_part (length ids) ps) /\
    forall i, i < nq -> is_top_k (min k (last_part (length ids) ps)) (score (fun id => dist i (nth id rows [])) ids) (row_of (min k (last_part (length ids) ps)) i found).
Proof.
  intros pushf takef sortf bs ps g1 g2 d rows text fstr univ nq k dist bits orders ids Hh Hso Hnan Hbits Hbs Hps Hk Hg1 Hg2 Hn Hd Hnq Hku Hsize Hrows Hord Hlines Hids Hne.
  set (lines := getlines LF (text_of text)) in *. set (m := length ids).
  assert (Em : ids = matching (line_tokens fstr) univ lines). { eapply lists_all_unique; [exact Hids|]. rewrite <- Hlines. apply matching_spec. }
  assert (Hm : 1 <= m) by (unfold m; destruct ids; [congruence|cbn; lia]).
  unfold filtered_gt, rows_file. cbn [open_file]. rewrite read_header_app by auto. fold lines.
  pose proof (extract_ok (4 * N.to_nat d) (line_tokens fstr) univ lines rows 0 (repeat 0%N (4 * N.to_nat d)) [] (eq_sym Hlines) Hrows (repeat_length _ _)) as X.
  rewrite app_nil_r, <- Em in X. replace (map (fun i => i + 0) ids) with ids in X by (rewrite <- (map_id ids) at 1; apply map_ext; intros; lia). rewrite X. clear X.
  assert (Hc : N.of_nat (length (concat rows)) = (N.of_nat (length rows) * d * N.of_nat 4)%N).
  { assert (G : forall l : list (list N), (forall r, In r l -> length r = 4 * N.to_nat d) -> length (concat l) = length l * (4 * N.to_nat d)).
    { induction l as [|r l IH]; intros Hl; [reflexivity|]. cbn [concat length]. rewrite app_length, IH by (intros; apply Hl; now right). rewrite (Hl r (or_introl eq_refl)). lia. }
    rewrite G by auto. lia. }
  rewrite load_bin_right by (auto; cbn; lia). cbn [bind]. rewrite map_length. fold m.
  set (k' := min k (last_part m ps)).
  assert (Hk' : 1 <= k'). { unfold k', last_part. destruct (Nat.eqb_spec (m mod ps) 0); lia. }
  assert (Hk'k : k' <= k) by (unfold k'; lia).
  destruct (ground_truth_ok pushf takef sortf bs ps m nq k (fun q j => dist q (nth j (map (fun i => nth i rows []) ids) [])) orders) as [out [E [Lo T]]]; auto.
  rewrite E. fold k' in T. fold k'. cbn [bind fst snd]. unfold save_truthset.
  assert (Hle : nq * k' <= length out) by (rewrite Lo; apply Nat.mul_le_mono_l; auto).
  rewrite !map_length. rewrite (proj2 (N.ltb_ge _ _)) by lia. cbn [bind].
  replace (N.to_nat (N.of_nat nq * N.of_nat k')) with (nq * k') by lia. rewrite !firstn_map. set (top := firstn (nq * k') out).
  assert (Lt : length top = nq * k') by (unfold top; rewrite firstn_length; lia).
  assert (Hin : forall x, In x top -> fst x < m).
  { intros x Hx. destruct (in_row k' nq top x Hk' Lt Hx) as [i [Hi Hr]]. unfold top in Hr. rewrite row_of_firstn in Hr by auto. eapply top_k_ids; [apply T; eauto|exact Hr]. }
  assert (Hm32 : (N.of_nat m < 2 ^ 32)%N).
  { assert (m <= length rows). { unfold m. rewrite Em, <- Hlines. unfold matching. clear. rewrite <- (seq_length (length lines) 0) at 2. induction (seq 0 (length lines)) as [|x l IH]; [cbn; lia|]. cbn. destruct (line_match _ _ _); cbn; lia. }
    unfold u32_range in Hn. lia. }
  unfold remap_truth. cbn [open_file]. assert (Hk32 : u32_range (N.of_nat k')) by (unfold u32_range in *; lia). rewrite read_header_app by auto.
  rewrite !Nat2N.id. rewrite remap_ids_ok.
  2:{ now rewrite map_length. }
  2:{ intros x Hx. apply in_map_iff in Hx. destruct Hx as [p [<- Hp]]. specialize (Hin p Hp). fold m. lia. }
  2:{ apply repeat_length. }
  cbn [bind fst snd]. rewrite copy_dists_ok; [|lia|rewrite enc_all_length, map_length, Lt; lia|apply repeat_length]. cbn [bind].
  exists (map (fun x => (nth (fst x) ids 0, snd x)) top). split.
  - rewrite !map_map. cbn [fst snd]. unfold back. f_equal. f_equal. f_equal. f_equal. f_equal. apply map_ext. intros x. now rewrite Nat2N.id.
  - split; [rewrite map_length; auto|]. intros i Hi. rewrite row_of_map. unfold top. rewrite row_of_firstn by auto.
    replace (score (fun id => dist i (nth id rows [])) ids) with (map (fun x : scored => (nth (fst x) ids 0, snd x)) (score (fun j => dist i (nth j (map (fun i0 => nth i0 rows []) ids) [])) (seq 0 m))).
    + apply top_k_map; [reflexivity|]. apply T. auto.
    + unfold score. rewrite map_map. cbn [fst snd]. unfold m. transitivity (map (fun j => (nth j ids 0, dist i (nth (nth j ids 0) rows []))) (seq 0 (length ids))).
      * apply map_ext_in. intros j Hj. apply in_seq in Hj. f_equal. f_equal. rewrite (nth_indep _ [] (nth 0 rows [])) by (rewrite map_length; lia). exact (map_nth (fun i0 => nth i0 rows []) ids 0 j).
      * transitivity (map (fun id => (id, dist i (nth id rows []))) (map (fun j => nth j ids 0) (seq 0 (length ids)))); [rewrite map_map; reflexivity|now rewrite map_nth_seq].
Qed.

Lemma filtered_gt_narrow : forall pushf takef sortf bs ps w g1 g2 d rows text filter_string univ nq k dist bits orders ids,
  heap_ok pushf takef -> sorts_pairs sortf -> (forall q v, is_nan (dist q v) = false) -> (forall x, bits x < 2 ^ 32)%N -> 1 <= bs -> 1 <= ps -> 1 <= k -> 1 <= nq -> 1 <= w < 4 ->
  length g1 = 4 -> length g2 = 4 -> u32_range (N.of_nat (length rows)) -> u32_range d -> u32_range (N.of_nat nq) -> u32_range (N.of_nat k) -> (N.of_nat (length rows) * d * N.of_nat w < 2 ^ 63)%N ->
  (forall r, In r rows -> length r = w * N.to_nat d) -> (forall p, batch_orders nq bs (orders p)) ->
  length (getlines LF (text_of text)) = length rows ->
  lists_all (length rows) (fun i => has_label (line_tokens filter_string) univ (line_tokens (nth i (getlines LF (text_of text)) EmptyString))) ids -> ids <> [] ->
  filtered_gt pushf takef sortf bs ps w g1 g2 (Some (rows_file (N.of_nat (length rows)) d rows)) (Some text) filter_string univ nq k dist bits orders = UB.
Proof.
  intros pushf takef sortf bs ps w g1 g2 d rows text fstr univ nq k dist bits orders ids Hh Hso Hnan Hbits Hbs Hps Hk Hnq1 Hw Hg1 Hg2 Hn Hd Hnq Hku Hsize Hrows Hord Hlines Hids Hne.
  set (lines := getlines LF (text_of text)) in *. set (m := length ids).
  assert (Em : ids = matching (line_tokens fstr) univ lines). { eapply lists_all_unique; [exact Hids|]. rewrite <- Hlines. apply matching_spec. }
  assert (Hm : 1 <= m) by (unfold m; destruct ids; [congruence|cbn; lia]).
  unfold filtered_gt, rows_file. cbn [open_file]. rewrite read_header_app by auto. fold lines.
  pose proof (extract_ok (w * N.to_nat d) (line_tokens fstr) univ lines rows 0 (repeat 0%N (w * N.to_nat d)) [] (eq_sym Hlines) Hrows (repeat_length _ _)) as X.
  rewrite app_nil_r, <- Em in X. replace (map (fun i => i + 0) ids) with ids in X by (rewrite <- (map_id ids) at 1; apply map_ext; intros; lia). rewrite X. clear X.
  assert (Hc : N.of_nat (length (concat rows)) = (N.of_nat (length rows) * d * N.of_nat w)%N).
  { assert (G : forall l : list (list N), (forall r, In r l -> length r = w * N.to_nat d) -> length (concat l) = length l * (w * N.to_nat d)).
    { induction l as [|r l IH]; intros Hl; [reflexivity|]. cbn [concat length]. rewrite app_length, IH by (intros; apply Hl; now right). rewrite (Hl r (or_introl eq_refl)). lia. }
    rewrite G by auto. lia. }
  rewrite load_bin_right by (auto; lia). cbn [bind]. rewrite map_length. fold m.
  set (k' := min k (last_part m ps)).
  assert (Hk' : 1 <= k'). { unfold k', last_part. destruct (Nat.eqb_spec (m mod ps) 0); lia. }
  assert (Hk'k : k' <= k) by (unfold k'; lia).
  destruct (ground_truth_ok pushf takef sortf bs ps m nq k (fun q j => dist q (nth j (map (fun i => nth i rows []) ids) [])) orders) as [out [E [Lo T]]]; auto.
  rewrite E. fold k' in T. fold k'. cbn [bind fst snd]. unfold save_truthset.
  assert (Hle : nq * k' <= length out) by (rewrite Lo; apply Nat.mul_le_mono_l; auto).
  rewrite !map_length. rewrite (proj2 (N.ltb_ge _ _)) by lia. cbn [bind].
  replace (N.to_nat (N.of_nat nq * N.of_nat k')) with (nq * k') by lia. rewrite !firstn_map. set (top := firstn (nq * k') out).
  assert (Lt : length top = nq * k') by (unfold top; rewrite firstn_length; lia).
  assert (Hin : forall x, In x top -> fst x < m).
  { intros x Hx. destruct (in_row k' nq top x Hk' Lt Hx) as [i [Hi Hr]]. unfold top in Hr. rewrite row_of_firstn in Hr by auto. eapply top_k_ids; [apply T; eauto|exact Hr]. }
  assert (Hm32 : (N.of_nat m < 2 ^ 32)%N).
  { assert (m <= length rows). { unfold m. rewrite Em, <- Hlines. unfold matching. clear. rewrite <- (seq_length (length lines) 0) at 2. induction (seq 0 (length lines)) as [|x l IH]; [cbn; lia|]. cbn. destruct (line_match _ _ _); cbn; lia. }
    unfold u32_range in Hn. lia. }
  unfold remap_truth. cbn [open_file]. assert (Hk32 : u32_range (N.of_nat k')) by (unfold u32_range in *; lia). rewrite read_header_app by auto.
  rewrite !Nat2N.id. rewrite remap_ids_ok.
  2:{ now rewrite map_length. }
  2:{ intros x Hx. apply in_map_iff in Hx. destruct Hx as [p [<- Hp]]. specialize (Hin p Hp). fold m. lia. }
  2:{ apply repeat_length. }
  cbn [bind fst snd]. rewrite copy_dists_narrow by lia. reflexivity.
Qed.
