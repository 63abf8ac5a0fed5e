(** * Lemmas about product quantisation. *)
From Coq Require Import List Arith Bool Lia.
From Verif Require Import Base Float32 ListLemmas PqModel PqSpec.
Import ListNotations.

Lemma nth_error_seq_lt : forall n a i, i < n -> nth_error (seq a n) i = Some (a + i).
Proof. induction n as [|n IH]; intros a [|i] H; cbn; try lia; [f_equal; lia|]. rewrite IH by lia. f_equal. lia. Qed.

(** ** First fit *)
Lemma best_bin_none : forall thr bins loads b best load, (forall l, In l loads -> flt l load = false) ->
  best_bin thr bins loads b best load = best.
Proof.
  intros thr. induction bins as [|x bins IH]; intros loads b best load H; destruct loads as [|l loads]; cbn; auto.
  rewrite (H l (or_introl eq_refl)). cbn [andb]. apply IH. intros l' H'. apply H. now right.
Qed.

Lemma best_bin_first : forall thr bins k b i x, nth_error bins i = Some x -> length x < thr -> i < k ->
  (forall j y, j < i -> nth_error bins j = Some y -> thr <= length y) ->
  best_bin thr bins (repeat f32_zero k) b None FLT_MAX = Some (b + i).
Proof.
  intros thr. induction bins as [|y bins IH]; intros k b i x Hi Hx Hk Hb; [destruct i; discriminate|].
  destruct k as [|k]; [lia|]. cbn [repeat best_bin]. change (flt f32_zero FLT_MAX) with true. cbn [andb]. destruct i as [|i].
  - cbn in Hi. injection Hi as ->. rewrite (proj2 (Nat.ltb_lt _ _)) by auto. rewrite best_bin_none; [f_equal; lia|].
    intros l Hl. apply repeat_spec in Hl. subst l. reflexivity.
  - rewrite (proj2 (Nat.ltb_ge _ _)) by (apply (Hb 0 y); [lia|reflexivity]). cbn in Hi. rewrite (IH k (S b) i x); auto; [f_equal; lia|lia|].
    intros j z Hj Hz. apply (Hb (S j) z); [lia|exact Hz].
Qed.

(** ** The bins after d dimensions *)
Definition off (dim chunks i : nat) : nat := i * (dim / chunks) + min i (dim mod chunks).

Lemma off_S : forall dim chunks i, off dim chunks (S i) = off dim chunks i + chunk_size dim chunks i.
Proof. intros dim chunks i. unfold off, chunk_size. destruct (Nat.ltb_spec i (dim mod chunks)); lia. Qed.

Lemma off_end : forall dim chunks, 1 <= chunks -> off dim chunks chunks = dim.
Proof. intros dim chunks H. unfold off. pose proof (Nat.div_mod dim chunks ltac:(lia)). pose proof (Nat.mod_upper_bound dim chunks ltac:(lia)). rewrite Nat.min_r by lia. nia. Qed.

Lemma off_mono : forall dim chunks i j, i <= j -> off dim chunks i <= off dim chunks j.
Proof. intros dim chunks i j H. induction H; [lia|]. rewrite off_S. lia. Qed.

Definition bin_at (dim chunks d i : nat) : list nat := seq (off dim chunks i) (min (chunk_size dim chunks i) (d - off dim chunks i)).
Definition bins_at (dim chunks d : nat) : list (list nat) := map (bin_at dim chunks d) (seq 0 chunks).

Lemma bins_at_nth : forall dim chunks d i, i < chunks -> nth_error (bins_at dim chunks d) i = Some (bin_at dim chunks d i).
Proof. intros dim chunks d i H. unfold bins_at. rewrite nth_error_map, nth_error_seq_lt by auto. reflexivity. Qed.

Lemma find_bin : forall dim chunks d, 1 <= chunks -> d < dim -> exists i, i < chunks /\ off dim chunks i <= d /\ d < off dim chunks (S i).
Proof.
  intros dim chunks d Hc Hd. assert (X : forall k, off dim chunks k <= d \/ exists i, i < k /\ off dim chunks i <= d /\ d < off dim chunks (S i)).
  { induction k as [|k IH]; [left; unfold off; lia|]. destruct IH as [IH|[i [H1 H2]]]; [|right; exists i; split; [lia|auto]].
    destruct (Nat.le_gt_cases (off dim chunks (S k)) d); [left; auto|right; exists k; auto]. }
  destruct (X chunks) as [H|H]; [rewrite off_end in H by auto; lia|exact H].
Qed.

Lemma nth_error_ext_lt : forall (A : Type) (a b : list A), length a = length b -> (forall i, i < length a -> nth_error a i = nth_error b i) -> a = b.
Proof.
  intros A. induction a as [|x a IH]; intros [|y b] HL H; cbn in HL; try lia; [reflexivity|].
  pose proof (H 0 ltac:(cbn; lia)) as H0. cbn in H0. injection H0 as ->. f_equal. apply IH; [lia|]. intros i Hi. apply (H (S i)). cbn. lia.
Qed.

Lemma bin_step : forall dim chunks d i, i < chunks -> off dim chunks i <= d -> d < off dim chunks (S i) ->
  bin_at dim chunks d i ++ [d] = bin_at dim chunks (S d) i /\ length (bin_at dim chunks d i) = d - off dim chunks i.
Proof.
  intros dim chunks d i Hi H1 H2. rewrite off_S in H2. unfold bin_at. rewrite seq_length. rewrite !Nat.min_r by lia. split; [|lia].
  replace (S d - off dim chunks i) with (d - off dim chunks i + 1) by lia. rewrite seq_app. f_equal. cbn. f_equal. lia.
Qed.

Lemma bin_other : forall dim chunks d i j, j <> i -> off dim chunks i <= d -> d < off dim chunks (S i) -> bin_at dim chunks (S d) j = bin_at dim chunks d j.
Proof.
  intros dim chunks d i j Hj H1 H2. unfold bin_at. f_equal. destruct (Nat.lt_trichotomy j i) as [L|[|L]]; [| lia |].
  - pose proof (off_mono dim chunks (S j) i L) as M. rewrite off_S in M. lia.
  - pose proof (off_mono dim chunks (S i) j L). lia.
Qed.

Lemma fill_bins_ok : forall dim chunks, 1 <= chunks -> chunks <= dim ->
  let low := dim / chunks in let r := dim mod chunks in let high := if r =? 0 then low else S low in
  forall cnt d num_high thr, d + cnt = dim ->
    (r = 0 -> thr = high) ->
    (r <> 0 -> (d < r * high -> thr = high /\ num_high = d / high) /\ (r * high <= d -> thr = low)) ->
    fill_bins high low (dim - low * chunks) (repeat f32_zero chunks) d cnt (bins_at dim chunks d) num_high thr = Ok (bins_at dim chunks dim).
Proof.
  intros dim chunks Hc Hcd low r high. pose proof (Nat.div_mod dim chunks ltac:(lia)) as DM. fold low r in DM. pose proof (Nat.mod_upper_bound dim chunks ltac:(lia)) as Hr. fold r in Hr.
  assert (Hlow : 1 <= low) by (unfold low; apply Nat.div_le_lower_bound; lia).
  assert (Emax : dim - low * chunks = r) by nia. rewrite Emax.
  induction cnt as [|cnt IH]; intros d nh thr Hd T0 T1; [cbn; replace d with dim by lia; reflexivity|].
  destruct (find_bin dim chunks d Hc ltac:(lia)) as [i [Hi [Ho1 Ho2]]]. cbn [fill_bins].
  assert (CS : forall j, chunk_size dim chunks j = if j <? r then S low else low).
  { intros j. unfold chunk_size. fold low r. destruct (j <? r); lia. }
  pose proof Ho2 as Ho2'. rewrite off_S, CS in Ho2'.
  assert (OF : forall j, off dim chunks j = j * low + min j r) by reflexivity.
  assert (Hir : r <> 0 -> (d < r * high <-> i < r)).
  { intros Hr0. unfold high. rewrite (proj2 (Nat.eqb_neq _ _) Hr0). rewrite OF in Ho1, Ho2'. destruct (Nat.ltb_spec i r); split; intros; try lia; nia. }
  assert (Hthr_lo : forall j, j < i -> thr <= chunk_size dim chunks j).
  { intros j Hj. rewrite CS. destruct (Nat.eq_dec r 0) as [Hr0|Hr0].
    - rewrite (T0 Hr0). unfold high. rewrite Hr0. cbn. lia.
    - destruct (T1 Hr0) as [Ta Tb]. destruct (Nat.lt_ge_cases d (r * high)) as [L|L].
      + destruct (Ta L) as [-> _]. apply (Hir Hr0) in L. rewrite (proj2 (Nat.ltb_lt _ _)) by lia. unfold high. destruct (r =? 0); lia.
      + rewrite (Tb L). destruct (j <? r); lia. }
  assert (Hthr_i : chunk_size dim chunks i <= thr).
  { rewrite CS. destruct (Nat.eq_dec r 0) as [Hr0|Hr0].
    - rewrite (T0 Hr0). unfold high. rewrite Hr0. cbn. lia.
    - destruct (T1 Hr0) as [Ta Tb]. destruct (Nat.lt_ge_cases d (r * high)) as [L|L].
      + destruct (Ta L) as [-> _]. apply (Hir Hr0) in L. rewrite (proj2 (Nat.ltb_lt _ _)) by lia. unfold high. rewrite (proj2 (Nat.eqb_neq _ _) Hr0). lia.
      + rewrite (Tb L). rewrite (proj2 (Nat.ltb_ge _ _)); [lia|]. destruct (Nat.lt_ge_cases i r) as [X|X]; [|auto]. apply (Hir Hr0) in X. lia. }
  destruct (bin_step dim chunks d i Hi Ho1 Ho2) as [Estep Elen].
  rewrite (best_bin_first thr (bins_at dim chunks d) chunks 0 i (bin_at dim chunks d i)); auto using bins_at_nth.
  2:{ rewrite Elen. rewrite <- CS in Ho2'. lia. }
  2:{ intros j y Hj Hy. rewrite bins_at_nth in Hy by lia. injection Hy as <-. unfold bin_at. rewrite seq_length.
      pose proof (off_mono dim chunks (S j) i ltac:(lia)) as M. rewrite off_S in M. rewrite Nat.min_l by lia. apply Hthr_lo. auto. }
  cbn [plus]. assert (Erd : rd (bins_at dim chunks d) i = Ok (bin_at dim chunks d i)) by (apply rd_ok, bins_at_nth; auto). rewrite Erd. cbn [bind].
  rewrite Estep. destruct (wr_nth _ (bins_at dim chunks d) i (bin_at dim chunks (S d) i)) as [bs [Ew [Lw Nw]]]; [unfold bins_at; rewrite map_length, seq_length; auto|].
  rewrite Ew. cbn [bind]. assert (Ebs : bs = bins_at dim chunks (S d)).
  { apply nth_error_ext_lt; [unfold bins_at in *; rewrite !map_length, seq_length in *; lia|]. intros j Hj. rewrite Nw. assert (j < chunks) by (unfold bins_at in *; rewrite Lw, map_length, seq_length in Hj; auto).
    rewrite !bins_at_nth by auto. destruct (Nat.eq_dec j i) as [->|Hne]; [auto|]. f_equal. symmetry. eapply bin_other; eauto. }
  subst bs. rewrite <- Estep, app_length, Elen. cbn [length].
  destruct (d - off dim chunks i + 1 =? high) eqn:Eh.
  - apply Nat.eqb_eq in Eh. apply IH; [lia| |].
    + intros Hr0. rewrite Hr0. cbn [Nat.eqb]. auto.
    + intros Hr0. destruct (T1 Hr0) as [Ta Tb]. assert (Eq : high = S low) by (unfold high; now rewrite (proj2 (Nat.eqb_neq _ _) Hr0)).
      assert (Hilt : i < r) by (destruct (Nat.ltb_spec i r); [auto|lia]).
      assert (Hdl : d < r * high) by (apply (Hir Hr0); auto). destruct (Ta Hdl) as [Et En].
      assert (Ed : S d = S i * high) by (rewrite OF in Eh; rewrite Nat.min_l in Eh by lia; nia).
      assert (Edd : d / high = i) by (symmetry; apply (Nat.div_unique d high i low); nia).
      rewrite En, Edd, Ed. split.
      * intros L. split; [|rewrite Nat.div_mul by lia; auto]. rewrite (proj2 (Nat.eqb_neq _ _)); [auto|nia].
      * intros L. assert (S i = r) by nia. rewrite (proj2 (Nat.eqb_eq _ _)) by auto. reflexivity.
  - apply Nat.eqb_neq in Eh. apply IH; [lia|auto|]. intros Hr0. destruct (T1 Hr0) as [Ta Tb]. assert (Eq : high = S low) by (unfold high; now rewrite (proj2 (Nat.eqb_neq _ _) Hr0)).
    split.
    + intros L. destruct (Ta ltac:(lia)) as [Et En]. split; [auto|]. rewrite En. assert (Hilt : i < r) by (apply (Hir Hr0); lia).
      rewrite OF in Eh, Ho1, Ho2'. rewrite Nat.min_l in Eh, Ho1, Ho2' by lia. rewrite (proj2 (Nat.ltb_lt _ _)) in Ho2' by auto.
      assert (E1 : d / high = i) by (symmetry; apply (Nat.div_unique d high i (d - i * high)); nia).
      rewrite E1. apply (Nat.div_unique (S d) high i (S d - i * high)); nia.
    + intros L. destruct (Nat.le_gt_cases (r * high) d) as [L'|L']; [auto|exfalso].
      assert (Hilt : i < r) by (apply (Hir Hr0); auto). rewrite OF in Eh, Ho2'. rewrite Nat.min_l in Eh, Ho2' by lia. rewrite (proj2 (Nat.ltb_lt _ _)) in Ho2' by auto. nia.
Qed.

Lemma bins_at_0 : forall dim chunks, bins_at dim chunks 0 = repeat [] chunks.
Proof.
  intros dim chunks. apply nth_error_ext_lt; [unfold bins_at; now rewrite map_length, seq_length, repeat_length|]. intros i Hi. unfold bins_at in Hi. rewrite map_length, seq_length in Hi.
  rewrite bins_at_nth by auto. unfold bin_at. rewrite Nat.min_r by lia. cbn. symmetry. apply nth_error_repeat. auto.
Qed.

Lemma bins_concat : forall dim chunks k j, concat (map (bin_at dim chunks dim) (seq j k)) = seq (off dim chunks j) (off dim chunks (j + k) - off dim chunks j) \/ dim < off dim chunks (j + k).
Proof.
  intros dim chunks. induction k as [|k IH]; intros j; [left; cbn; now rewrite Nat.add_0_r, Nat.sub_diag|].
  destruct (Nat.lt_ge_cases dim (off dim chunks (j + S k))) as [L|L]; [right; auto|left]. destruct (IH (S j)) as [E|E]; [|replace (S j + k) with (j + S k) in E by lia; lia].
  cbn [seq map concat]. rewrite E. pose proof (off_mono dim chunks (S j) (j + S k) ltac:(lia)) as M. replace (S j + k) with (j + S k) by lia.
  rewrite off_S in *. unfold bin_at. rewrite Nat.min_l by lia. rewrite <- seq_app. f_equal. lia.
Qed.

Lemma offsets_ok : forall dim chunks k j, 1 <= k -> off dim chunks (j + k) <= dim ->
  offsets_from (off dim chunks j) (map (bin_at dim chunks dim) (seq j k)) = map (off dim chunks) (seq (S j) (k - 1)).
Proof.
  intros dim chunks. induction k as [|k IH]; intros j Hk H; [lia|]. destruct k as [|k]; [reflexivity|].
  change (seq j (S (S k))) with (j :: seq (S j) (S k)). cbn [map].
  assert (El : length (bin_at dim chunks dim j) = chunk_size dim chunks j).
  { unfold bin_at. rewrite seq_length. pose proof (off_mono dim chunks (S j) (j + S (S k)) ltac:(lia)) as M. rewrite off_S in M. lia. }
  change (offsets_from (off dim chunks j) (bin_at dim chunks dim j :: map (bin_at dim chunks dim) (seq (S j) (S k))))
    with ((off dim chunks j + length (bin_at dim chunks dim j)) :: offsets_from (off dim chunks j + length (bin_at dim chunks dim j)) (map (bin_at dim chunks dim) (seq (S j) (S k)))).
  rewrite El, <- off_S. rewrite IH by (try lia; now replace (S j + S k) with (j + S (S k)) by lia).
  replace (S (S k) - 1) with (S k) by lia. cbn [seq map]. replace (S k - 1) with k by lia. reflexivity.
Qed.

Lemma pq_chunks_ok : forall dim chunks, 1 <= chunks -> chunks <= dim ->
  exists offs, pq_chunks dim chunks = Ok (Some (seq 0 dim, offs)) /\ boundaries dim chunks offs.
Proof.
  intros dim chunks Hc Hd. unfold pq_chunks. rewrite (proj2 (Nat.ltb_ge _ _)) by auto. rewrite (proj2 (Nat.eqb_neq chunks 0)) by lia. cbn zeta.
  rewrite <- (bins_at_0 dim chunks). rewrite fill_bins_ok; auto.
  2:{ intros Hr. split; [|intros H]. - intros _. split; [auto|]. symmetry. apply Nat.div_small. rewrite (proj2 (Nat.eqb_neq _ _)) by auto. lia.
      - rewrite (proj2 (Nat.eqb_neq _ _)) in H by auto. nia. }
  cbn [bind]. eexists. split.
  - unfold bins_at. destruct (bins_concat dim chunks chunks 0) as [E|E]; [|cbn [plus] in E; rewrite off_end in E by auto; lia].
    rewrite E. cbn [plus]. rewrite off_end by auto. change (off dim chunks 0) with 0. rewrite Nat.sub_0_r. reflexivity.
  - change 0 with (off dim chunks 0) at 2. unfold bins_at. rewrite offsets_ok; [|lia|cbn [plus]; rewrite off_end by auto; lia].
    assert (E : 0 :: map (off dim chunks) (seq 1 (chunks - 1)) ++ [dim] = map (off dim chunks) (seq 0 (S chunks))).
    { replace (S chunks) with (1 + (chunks - 1 + 1)) by lia. rewrite !seq_app, !map_app. cbn [seq map app]. rewrite Nat.add_0_l. replace (1 + (chunks - 1)) with chunks by lia.
      rewrite off_end by auto. reflexivity. }
    rewrite E. assert (Nt : forall i, i <= chunks -> nth_error (map (off dim chunks) (seq 0 (S chunks))) i = Some (off dim chunks i)).
    { intros i Hi. rewrite nth_error_map, nth_error_seq_lt by lia. reflexivity. }
    unfold boundaries. rewrite map_length, seq_length. split; [auto|]. rewrite !Nt by lia. rewrite off_end by auto. split; [auto|]. split; [auto|].
    intros i Hi. exists (off dim chunks i). rewrite !Nt by lia. rewrite off_S. auto.
Qed.

Lemma pq_chunks_too_many : forall dim chunks, dim < chunks -> pq_chunks dim chunks = Ok None.
Proof. intros dim chunks H. unfold pq_chunks. now rewrite (proj2 (Nat.ltb_lt _ _)). Qed.
