(** * Lemmas about interrupted saves. *)
From Coq Require Import NArith ZArith Ascii String List Bool Arith Lia.
From Verif Require Import Base Bytes StreamModel BinModel BinSpec BinProofs BinProofs2 GraphFileModel GraphFileSpec GraphFileProofs
  TextModel TextProofs IndexFileModel IndexFileSpec IndexFileProofs IndexFileProofs2 IndexFileProofs3 LshModel LshProofs ToolModel
  CrashModel CrashSpec.
Import ListNotations.
Local Open Scope string_scope.

(** ** The operations are those of the save functions *)
Lemma run_app : forall s t d, run_steps (s ++ t)%list d = run_steps t (run_steps s d).
Proof. intros s t d. unfold run_steps. apply fold_left_app. Qed.

Lemma ann_steps_save : forall w name a d, save_ann w name a d = (do ws <- ann_steps w name a; Ok (run_steps ws d)).
Proof.
  intros w name a d. unfold save_ann, ann_steps. destruct (save_orig _ _ _ _) as [data| | | |]; cbn [bind]; auto.
  destruct (save_bin _ _ _ _) as [tags| | | |]; cbn [bind]; auto.
  destruct (a_filtered a).
  - destruct (save_labels (a_pts a)) as [txt| | | |]; cbn [bind]; auto. destruct (a_use_univ a); cbn [bind]; rewrite !run_app; destruct data; reflexivity.
  - cbn [bind]. rewrite !run_app. destruct data; reflexivity.
Qed.

Lemma rng_steps_save : forall w name x d, save_rng w name x d = (do ws <- rng_steps w name x; Ok (run_steps ws d)).
Proof.
  intros w name x d. unfold save_rng, rng_steps. rewrite ann_steps_save. destruct (ann_steps w name (g_ann x)) as [s| | | |]; cbn [bind]; auto.
  destruct (save_graph _ _ _ _) as [b| | | |]; cbn [bind]; auto. rewrite run_app. reflexivity.
Qed.

Lemma vamana_steps_save : forall w name x d, save_vamana w name x d = (do ws <- vamana_steps w name x; Ok (run_steps ws d)).
Proof.
  intros w name x d. unfold save_vamana, vamana_steps. rewrite ann_steps_save. destruct (ann_steps w name (g_ann x)) as [s| | | |]; cbn [bind]; auto.
  destruct (save_graph _ _ _ _) as [b| | | |]; cbn [bind]; auto. rewrite !run_app. destruct (a_filtered (g_ann x)); [|reflexivity].
  destruct (g_medoids x); reflexivity.
Qed.

Lemma hnsw_steps_save : forall w name levels k d, save_hnsw w name k levels d = (do ws <- hnsw_steps w name k levels; Ok (run_steps ws d)).
Proof.
  intros w name levels. induction levels as [|x levels IH]; intros k d; cbn [save_hnsw hnsw_steps]; [reflexivity|].
  rewrite rng_steps_save. destruct (rng_steps w (level_name name k) x) as [s| | | |]; cbn [bind]; auto. rewrite IH.
  destruct (hnsw_steps w name (k + 1) levels) as [t| | | |]; cbn [bind]; auto. rewrite run_app. reflexivity.
Qed.

Lemma ivf_steps_save : forall w name x d, save_ivf w name x d = (do ws <- ivf_steps w name x; Ok (run_steps ws d)).
Proof.
  intros w name x d. unfold save_ivf, ivf_steps. rewrite ann_steps_save. destruct (ann_steps w name (i_ann x)) as [s| | | |]; cbn [bind]; auto.
  destruct (save_bin _ _ _ _) as [c| | | |]; cbn [bind]; auto.
  destruct (write_lists _ _ _) as [b| | | |]; cbn [bind]; auto. rewrite run_app. reflexivity.
Qed.

Lemma lsh_steps_save : forall w name x d, save_lsh w name x d = (do ws <- lsh_steps w name x; Ok (run_steps ws d)).
Proof.
  intros w name x d. unfold save_lsh, lsh_steps. rewrite ann_steps_save. destruct (ann_steps w name (sh_ann x)) as [s| | | |]; cbn [bind]; auto.
  rewrite run_app. reflexivity.
Qed.

(** ** Interrupted runs *)
Lemma interrupted_app : forall s t d d', interrupted (s ++ t)%list d d' -> interrupted s d d' \/ interrupted t (run_steps s d) d'.
Proof.
  intros s. induction s as [|a s IH]; intros t d d' H; [right; exact H|]. cbn [app] in H.
  inversion H as [ws d0|a' ws d0 c Hp|a' ws d0 d1 Hi]; subst.
  - left. constructor.
  - left. constructor. auto.
  - destruct (IH _ _ _ Hi) as [Hl|Hr]; [left; constructor; auto|right; exact Hr].
Qed.

Lemma interrupted_frame : forall ws d d', interrupted ws d d' -> forall m, (forall s, In s ws -> String.eqb m (target s) = false) -> d' m = d m.
Proof.
  intros ws d d' H. induction H as [ws d|s ws d c Hp|s ws d d' H IH]; intros m Hm; [auto| |].
  - apply fs_set_other. apply Hm. left. auto.
  - rewrite IH by (intros; apply Hm; right; auto). apply fs_set_other. apply Hm. left. auto.
Qed.

Lemma run_frame : forall ws d m, (forall s, In s ws -> String.eqb m (target s) = false) -> run_steps ws d m = d m.
Proof.
  induction ws as [|s ws IH]; intros d m Hm; [reflexivity|]. change (run_steps (s :: ws) d) with (run_steps ws (run_step s d)).
  rewrite IH by (intros; apply Hm; right; auto). apply fs_set_other. apply Hm. left. auto.
Qed.

Lemma interrupted_all : forall ws d, interrupted ws d (run_steps ws d).
Proof. induction ws as [|s ws IH]; intros d; [constructor|]. apply stopped_later. apply IH. Qed.

(** Running the operations depends on the earlier files only where they write nothing. *)
Lemma run_ext : forall ws d1 d2 m, (d1 m = d2 m \/ exists s, In s ws /\ String.eqb m (target s) = true) -> run_steps ws d1 m = run_steps ws d2 m.
Proof.
  induction ws as [|s ws IH]; intros d1 d2 m H.
  - destruct H as [H|[s [[] _]]]. exact H.
  - change (run_steps ws (run_step s d1) m = run_steps ws (run_step s d2) m). apply IH. unfold run_step, fs_set.
    destruct (String.eqb m (target s)) eqn:E; [left; auto|]. destruct H as [H|[s' [[<-|Hs] E']]]; [left; auto|congruence|right; eauto].
Qed.

Lemma redo : forall ws d d', interrupted ws d d' -> forall m, run_steps ws d' m = run_steps ws d m.
Proof.
  intros ws d d' H m. apply run_ext. destruct (existsb (fun s => String.eqb m (target s)) ws) eqn:E.
  - right. apply existsb_exists in E. exact E.
  - left. eapply interrupted_frame; [exact H|]. intros s Hs. destruct (String.eqb m (target s)) eqn:Em; [|auto].
    assert (existsb (fun s => String.eqb m (target s)) ws = true) by (apply existsb_exists; eauto). congruence.
Qed.

(** ** Targets *)
Lemma ann_targets : forall w name a ws, ann_steps w name a = Ok ws -> forall s, In s ws -> family ann_suffixes name (target s).
Proof.
  intros w name a ws H s Hs. unfold ann_steps in H. apply bind_ok in H. destruct H as [data [_ H]]. apply bind_ok in H. destruct H as [tags [_ H]].
  assert (F : forall x, In x ann_suffixes -> family ann_suffixes name (name ++ x)) by (intros x Hx; exists x; auto).
  assert (F1 := F "_data.bin" ltac:(cbn; tauto)). assert (F2 := F "_tags.bin" ltac:(cbn; tauto)).
  assert (F3 := F "_labels.txt" ltac:(cbn; tauto)). assert (F4 := F "_universal_label.txt" ltac:(cbn; tauto)).
  destruct (a_filtered a).
  - apply bind_ok in H. destruct H as [txt [_ H]].
    destruct (a_use_univ a); assert (E : ws = _) by (symmetry; injection H; intros E; exact E); rewrite E in Hs; clear - Hs F1 F2 F3 F4; destruct data; cbn in Hs;
      repeat (destruct Hs as [<-|Hs]; [cbn; assumption|]); destruct Hs.
  - assert (E : ws = _) by (symmetry; injection H; intros E; exact E); rewrite E in Hs; clear - Hs F1 F2 F3 F4; destruct data; cbn in Hs;
      repeat (destruct Hs as [<-|Hs]; [cbn; assumption|]); destruct Hs.
Qed.

Lemma family_not_base : forall name m, family ann_suffixes name m -> String.eqb name m = false.
Proof. intros name m [s [Hs ->]]. rewrite eqb_app_l. cbn in Hs. intuition (subst; reflexivity). Qed.

(** ** The graph file *)
Local Open Scope list_scope.
Lemma cut_lists_length : forall lists k, (length (cut_lists k lists) <= length lists)%nat.
Proof.
  induction lists as [|l lists IH]; intros k; cbn [cut_lists length]; [lia|].
  destruct (Nat.ltb k 4); [cbn; lia|]. destruct (Nat.ltb k _); cbn [length]; [lia|]. specialize (IH (k - (4 + 4 * length l))%nat). lia.
Qed.

Lemma cut_lists_tail : forall lists k, lists_ok lists -> lists <> [] -> length (cut_lists k lists) = length lists -> cut_tail lists (cut_lists k lists).
Proof.
  induction lists as [|l lists IH]; intros k Hok Hne Hl; [congruence|]. cbn [cut_lists length] in *.
  destruct (Nat.ltb k 4); [discriminate|]. destruct (Nat.ltb k (4 + 4 * length l)).
  - cbn [length] in Hl. destruct lists; [|discriminate]. exists [], l, (k - 4)%nat. auto.
  - cbn [length] in Hl. destruct lists as [|l2 lists].
    + exists [], l, (4 * length l)%nat. cbn [cut_lists app]. rewrite zero_fill_all; auto. destruct (Hok l (or_introl eq_refl)). auto.
    + destruct (IH (k - (4 + 4 * length l))%nat) as [pre [l' [p [E1 E2]]]]; [intros y Hy; apply Hok; right; auto|discriminate|lia|].
      exists (l :: pre), l', p. rewrite E2. split; [cbn [app]; f_equal; exact E1|reflexivity].
Qed.

(** What is in the file while it is being written. *)
Lemma partial_graph : forall name md st lists c, partial (WriteSized name (graph_file md st lists)) c ->
  exists h k, length h = 8%nat /\ c = firstn k (h ++ skipn 8 (graph_file md st lists)).
Proof.
  intros name md st lists c H. unfold partial in H.
  assert (L : (8 <= length (graph_file md st lists))%nat) by (rewrite graph_file_length; lia).
  destruct H as [[k ->]|[j [Hj ->]]].
  - exists (repeat 0%N 8), k. auto.
  - set (u := graph_file md st lists) in *. set (r := skipn 8 u) in *.
    exists (firstn j u ++ skipn j (repeat 0%N 8))%list, (8 + length r)%nat. split.
    + rewrite app_length, firstn_length, skipn_length, repeat_length. lia.
    + rewrite (firstn_all2 (n := (8 + length r)%nat)); [rewrite app_assoc; reflexivity|].
      rewrite !app_length, firstn_length, skipn_length, repeat_length. lia.
Qed.

Lemma load_graph_short : forall npts md0 st0 b, (length b < 16)%nat ->
  exists md st, load_graph npts md0 st0 [] (Some b) = Ok (md, st, [], Nat.eqb 0 npts).
Proof.
  intros npts md0 st0 b Hb. unfold load_graph. cbn [open_file].
  destruct (sread 8 (mkS b true false)) as [b1 s1] eqn:E1. destruct (sread 4 s1) as [b2 s2] eqn:E2. destruct (sread 4 s2) as [b3 s3] eqn:E3.
  assert (He : s_eof s3 = true).
  { unfold sread in E1. cbn [s_good s_left] in E1. destruct (8 <=? N.of_nat (length b))%N eqn:C1.
    - assert (s1 = mkS (skipn (N.to_nat 8) b) true false) by congruence. subst s1. unfold sread in E2. cbn [s_good s_left] in E2.
      destruct (4 <=? N.of_nat (length (skipn (N.to_nat 8) b)))%N eqn:C2.
      + assert (s2 = mkS (skipn (N.to_nat 4) (skipn (N.to_nat 8) b)) true false) by congruence. subst s2. unfold sread in E3. cbn [s_good s_left] in E3.
        destruct (4 <=? N.of_nat (length (skipn (N.to_nat 4) (skipn (N.to_nat 8) b))))%N eqn:C3.
        * apply N.leb_le in C3. rewrite !skipn_length in C3. lia.
        * assert (s3 = mkS [] false true) by congruence. subst s3. reflexivity.
      + assert (s2 = mkS [] false true) by congruence. subst s2. unfold sread in E3. cbn [s_good] in E3. assert (s3 = mkS [] false true) by congruence. subst s3. reflexivity.
    - assert (s1 = mkS [] false true) by congruence. subst s1. unfold sread in E2. cbn [s_good] in E2. assert (s2 = mkS [] false true) by congruence. subst s2.
      unfold sread in E3. cbn [s_good] in E3. assert (s3 = mkS [] false true) by congruence. subst s3. reflexivity. }
  cbn [load_lists]. rewrite He. cbn [bind length]. eauto.
Qed.

Lemma load_graph_partial : forall w x name c n md0 st0 r, gann_ok w x -> (1 <= a_n (g_ann x))%N ->
  (partial (WriteSized name (graph_file (g_max x) (g_start x) (g_lists x))) c \/ c = graph_file (g_max x) (g_start x) (g_lists x)) ->
  n = a_n (g_ann x) -> load_graph (N.to_nat n) md0 st0 [] (Some c) = Ok r ->
  let '(md, st, lists, f) := r in
  (f = true -> md = g_max x /\ st = g_start x /\ cut_tail (g_lists x) lists) /\ (f = false -> (length lists < length (g_lists x))%nat).
Proof.
  intros w x name c n md0 st0 r Hx Hn Hc -> H. pose proof Hx as [_ [Hl [Hok [R1 R2]]]].
  assert (Hc' : exists h k, length h = 8%nat /\ c = firstn k (h ++ skipn 8 (graph_file (g_max x) (g_start x) (g_lists x)))).
  { destruct Hc as [Hc| ->]; [apply partial_graph with name; auto|]. set (u := graph_file _ _ _).
    exists (firstn 8 u), (length u). rewrite firstn_skipn, firstn_all. split; [|reflexivity]. rewrite firstn_length. unfold u. rewrite graph_file_length. lia. }
  destruct Hc' as [h [k [Lh ->]]].
  destruct (Nat.le_gt_cases 16 k) as [Hk|Hk].
  - rewrite load_graph_cut in H by auto. cbn [app] in H.
    assert (E : r = (g_max x, g_start x, cut_lists (k - 16) (g_lists x), Nat.eqb (length (cut_lists (k - 16) (g_lists x))) (N.to_nat (a_n (g_ann x))))) by congruence.
    rewrite E. pose proof (cut_lists_length (g_lists x) (k - 16)). split.
    + intros Hf. apply Nat.eqb_eq in Hf. split; [auto|]. split; [auto|]. apply cut_lists_tail; auto; [|congruence].
      intros E0. rewrite E0 in Hl. cbn in Hl. lia.
    + intros Hf. apply Nat.eqb_neq in Hf. lia.
  - assert (L : (length (firstn k (h ++ skipn 8 (graph_file (g_max x) (g_start x) (g_lists x)))) < 16)%nat) by (rewrite firstn_length; lia).
    set (b := firstn k _) in *.
    destruct (load_graph_short (N.to_nat (a_n (g_ann x))) md0 st0 b L) as [md [st E]]. rewrite E in H.
    assert (Er : r = (md, st, [], Nat.eqb 0 (N.to_nat (a_n (g_ann x))))) by congruence. rewrite Er. split.
    + intros Hf. apply Nat.eqb_eq in Hf. lia.
    + intros _. cbn. lia.
Qed.
