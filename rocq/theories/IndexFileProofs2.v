(** * Lemmas about whole index files. *)
From Coq Require Import NArith ZArith Ascii String List Bool Arith Lia Sorting.Sorted Sorting.Permutation.
From Verif Require Import Base Bytes StreamModel BinModel BinSpec BinProofs BinProofs2 GraphFileModel GraphFileSpec GraphFileProofs
  TextModel TextProofs IndexFileModel IndexFileSpec IndexFileProofs.
Import ListNotations.
Local Open Scope string_scope.

(** ** Names *)
Lemma eqb_app : forall n a b, String.eqb (n ++ a) (n ++ b) = String.eqb a b.
Proof. induction n as [|x n IH]; intros a b; cbn; [auto|]. rewrite Ascii.eqb_refl. auto. Qed.

Lemma eqb_app_l : forall n a, String.eqb n (n ++ a) = String.eqb "" a.
Proof. intros n a. rewrite <- (sapp_nil n) at 1. apply eqb_app. Qed.

Lemma eqb_app_r : forall n a, String.eqb (n ++ a) n = String.eqb a "".
Proof. intros n a. rewrite <- (sapp_nil n) at 2. apply eqb_app. Qed.

Lemma fs_set_same : forall d n v, fs_set d n v n = v.
Proof. intros. unfold fs_set. rewrite String.eqb_refl. reflexivity. Qed.

Lemma fs_set_other : forall d n v m, String.eqb m n = false -> fs_set d n v m = d m.
Proof. intros d n v m H. unfold fs_set. rewrite H. reflexivity. Qed.

Lemma not_family : forall sufs name m s, ~ family sufs name m -> In s sufs -> String.eqb m (name ++ s) = false.
Proof. intros sufs name m s H Hs. apply String.eqb_neq. intros ->. apply H. exists s. auto. Qed.

(** ** The shared part *)
Definition ann_on (w : nat) (a : ann) (name : string) (d : fs) : Prop :=
  (forall g1 g2, length g1 = 4 -> length g2 = 4 -> load_aligned_bin w g1 g2 (d (name ++ "_data.bin")) = Ok (a_n a, a_dim a, a_adim a, a_data a)) /\
  (forall g1 g2, length g1 = 4 -> length g2 = 4 -> load_bin 4 g1 g2 (d (name ++ "_tags.bin")) = Ok (a_n a, 1%N, a_tags a)) /\
  (if a_filtered a then
     (exists txt, save_labels (a_pts a) = Ok txt /\ d (name ++ "_labels.txt") = Some (bytes_of txt)) /\
     d (name ++ "_universal_label.txt") = Some (bytes_of (a_univ a ++ String LF ""))
   else d (name ++ "_labels.txt") = None /\ d (name ++ "_universal_label.txt") = None).

Lemma data_loaded_file : forall w a, data_loaded w a -> u32_range (a_n a) /\ exists b, save_orig w (a_data a) (a_adim a) (a_dim a) = Ok (Some b) /\
  forall g1 g2, length g1 = 4 -> length g2 = 4 -> load_aligned_bin w g1 g2 (Some b) = Ok (a_n a, a_dim a, a_adim a, a_data a).
Proof.
  intros w a [Hw [[g1 [g2 [b [L1 [L2 [B1 [B2 [Hb H]]]]]]]] Hs]].
  assert (Hs1 : (a_n a * a_dim a * N.of_nat w + 8 < 2 ^ 64)%N).
  { eapply N.le_lt_trans; [|exact Hs]. apply N.add_le_mono_r, N.mul_le_mono_r, N.mul_le_mono_l. lia. }
  assert (Hs2 : (a_n a * round_up (a_dim a) 8 * N.of_nat w + 8 < 2 ^ 64)%N).
  { eapply N.le_lt_trans; [|exact Hs]. apply N.add_le_mono_r, N.mul_le_mono_r, N.mul_le_mono_l. destruct (round_up_8 (a_dim a)). lia. }
  assert (Hbs : forall b0, Some b = Some b0 -> is_bytes b0) by (intros b0 E; assert (b0 = b) by congruence; subst; auto).
  destruct (aligned_cases w g1 g2 (Some b) _ _ _ _ Hw L1 L2 B1 B2 Hbs H Hs1) as [rest [E Hl]].
  assert (b = u32 (a_n a) ++ u32 (a_dim a) ++ rest)%list by congruence. subst b.
  destruct (header_bound g1 g2 (Some (u32 (a_n a) ++ u32 (a_dim a) ++ rest)%list) (dec (u32 (a_n a))) (dec (u32 (a_dim a))) (mkS rest true false) L1 L2 B1 B2 Hbs) as [Rn Rd].
  { cbn [open_file]. unfold read_header. rewrite (sread_app 4 (u32 _)) by reflexivity. rewrite (sread_app 4 (u32 _)) by reflexivity.
    rewrite !overlay_full by (rewrite u32_length; auto). reflexivity. }
  assert (Hr : u32_range (a_n a) /\ u32_range (a_dim a)).
  { unfold load_aligned_bin in H. destruct (read_header g1 g2 (open_file (Some (u32 (a_n a) ++ u32 (a_dim a) ++ rest)%list))) as [[n' d'] s] eqn:Eh.
    destruct (header_bound _ _ _ _ _ _ L1 L2 B1 B2 Hbs Eh) as [R1 R2].
    destruct (tell_end _ =? _)%N; [|discriminate]. apply bind_ok in H. destruct H as [rows [_ H]].
    assert (n' = a_n a) by congruence. assert (d' = a_dim a) by congruence. subst. auto. }
  destruct Hr as [R1 R2]. split; [auto|].
  destruct (aligned_resave w g1 g2 (a_n a) (a_dim a) rest L1 L2 R1 R2 Hl Hs2) as [rd [rows [E1 E2]]].
  rewrite H in E1. assert (rd = a_adim a) by congruence. assert (rows = a_data a) by congruence. subst rd rows.
  eexists. split; [exact E2|]. intros h1 h2 K1 K2. rewrite <- H. rewrite !load_aligned_ok; auto.
Qed.

Lemma save_ann_ok : forall w name a d, ann_ok w a -> exists d', save_ann w name a d = Ok d' /\ ann_on w a name d' /\
  (forall m, ~ family ann_suffixes name m -> d' m = d m).
Proof.
  intros w name a d [Hd [Ht [Ht2 [Hu Hl]]]]. destruct (data_loaded_file w a Hd) as [Rn [b [E1 E2]]].
  unfold save_ann. rewrite E1. cbn [bind].
  assert (Rt : u32_range (a_n a)) by exact Rn.
  assert (Es : forall g1 g2, length g1 = 4 -> length g2 = 4 ->
    save_bin 4 (a_tags a) (a_n a) 1 = Ok (bin_file 4 (a_n a) 1 (a_tags a)) /\ load_bin 4 g1 g2 (Some (bin_file 4 (a_n a) 1 (a_tags a))) = Ok (a_n a, 1%N, a_tags a)).
  { intros g1 g2 L1 L2. apply bin_round_trip; auto.
    - reflexivity.
    - rewrite Ht. lia.
    - unfold u32_range in Rn. change (2 ^ 32)%N with 4294967296%N in Rn. change (2 ^ 63)%N with 9223372036854775808%N. lia. }
  destruct (Es [0;0;0;0]%N [0;0;0;0]%N eq_refl eq_refl) as [E3 _]. rewrite E3. cbn [bind].
  assert (Hneq : forall a b, String.eqb a b = false -> String.eqb (name ++ a) (name ++ b) = false) by (intros; rewrite eqb_app; auto).
  assert (Hfam : forall m, ~ family ann_suffixes name m -> forall s, In s ann_suffixes -> String.eqb m (name ++ s) = false) by (intros; eapply not_family; eauto).
  destruct (a_filtered a) eqn:Ef.
  - destruct Hl as [Hl1 [Hl2 Hl3]]. destruct (parse_saved (a_pts a) [] [] Hl2) as [txt [labs [E4 _]]]. rewrite E4. cbn [bind]. rewrite Hu.
    eexists. split; [reflexivity|]. split.
    + unfold ann_on. rewrite Ef. split; [|split; [|split]].
      * intros g1 g2 L1 L2. rewrite !fs_set_other by (apply Hneq; reflexivity). rewrite fs_set_same. auto.
      * intros g1 g2 L1 L2. rewrite !fs_set_other by (apply Hneq; reflexivity). rewrite fs_set_same. apply Es; auto.
      * exists txt. split; [auto|]. rewrite !fs_set_other by (apply Hneq; reflexivity). apply fs_set_same.
      * apply fs_set_same.
    + intros m Hm. rewrite !fs_set_other by (apply Hfam; [exact Hm|cbn; tauto]). reflexivity.
  - eexists. split; [reflexivity|]. split.
    + unfold ann_on. rewrite Ef. split; [|split; [|split]].
      * intros g1 g2 L1 L2. rewrite !fs_set_other by (apply Hneq; reflexivity). rewrite fs_set_same. auto.
      * intros g1 g2 L1 L2. rewrite !fs_set_other by (apply Hneq; reflexivity). rewrite fs_set_same. apply Es; auto.
      * rewrite !fs_set_other by (apply Hneq; reflexivity). apply fs_set_same.
      * apply fs_set_same.
    + intros m Hm. rewrite !fs_set_other by (apply Hfam; [exact Hm|cbn; tauto]). reflexivity.
Qed.

Lemma ann_on_ext : forall w a name d d', (forall s, In s ann_suffixes -> d' (name ++ s) = d (name ++ s)) -> ann_on w a name d -> ann_on w a name d'.
Proof.
  intros w a name d d' H Hon. unfold ann_on in *.
  rewrite (H "_data.bin"), (H "_tags.bin"), (H "_labels.txt"), (H "_universal_label.txt") by (cbn; tauto). exact Hon.
Qed.

Lemma is_space_word : forall c, N_of_ascii c <> 32%N -> ~ (9 <= N_of_ascii c <= 13)%N -> is_space c = false.
Proof.
  intros c H1 H2. unfold is_space. apply orb_false_iff. split; [apply N.eqb_neq; auto|]. apply andb_false_iff.
  destruct (9 <=? N_of_ascii c)%N eqn:E; [right; apply N.leb_le in E; apply N.leb_gt; lia|left; auto].
Qed.

Lemma read_word_ok : forall u, a_word u -> read_word (u ++ String LF "") = Some u.
Proof.
  intros u [Hne H]. unfold read_word. destruct u as [|c u]; [congruence|]. cbn [append skip_space].
  rewrite is_space_word by (apply (H c); left; auto).
  assert (Ht : forall v, (forall c, In c (list_ascii_of_string v) -> N_of_ascii c <> 32%N /\ ~ (9 <= N_of_ascii c <= 13)%N) -> take_word (v ++ String LF "") = v).
  { induction v as [|x v IH]; intros Hv; cbn [append take_word]; [reflexivity|].
    rewrite is_space_word by (apply (Hv x); left; auto). rewrite IH; [reflexivity|]. intros y Hy. apply Hv. right. auto. }
  f_equal. exact (Ht (String c u) H).
Qed.

Lemma load_ann_ok : forall w g name a d dim adim, garbage_ok g -> ann_ok w a -> ann_on w a name d ->
  exists a', load_ann w g name (new_ann dim adim) d = Ok a' /\ same_ann a a'.
Proof.
  intros w g name a d dim adim Hg [Hd [Ht [Ht2 [Hu Hl]]]] [H1 [H2 H3]]. unfold load_ann.
  rewrite H1 by apply Hg. cbn [bind]. rewrite H2 by apply Hg. cbn [bind]. rewrite N.eqb_refl. cbn [negb new_ann a_filtered a_pts a_labels a_use_univ a_univ].
  destruct (a_filtered a) eqn:Ef.
  - destruct H3 as [[txt [E1 E2]] E3]. destruct Hl as [Hl1 [Hl2 Hl3]]. rewrite E2, E3.
    destruct (label_round_trip (a_pts a) (mkA (a_n a) (a_dim a) (a_adim a) (a_data a) (a_tags a) false [] [] true "0") Hl2 eq_refl) as [txt' [a' [F1 [F2 [F3 [F4 F5]]]]]].
    { cbn [a_n]. rewrite Hl1. lia. }
    assert (txt' = txt) by congruence. subst txt'. rewrite F2. cbn [bind]. rewrite text_of_bytes_of, read_word_ok by auto.
    unfold parse_label_file in F2. apply bind_ok in F2. destruct F2 as [[pts labs] [_ F2]]. cbn [a_n a_dim a_adim a_data a_tags a_use_univ a_univ] in F2.
    destruct (N.eqb (N.of_nat (length pts)) (a_n a)); [|discriminate].
    assert (Ea : a' = mkA (a_n a) (a_dim a) (a_adim a) (a_data a) (a_tags a) true pts labs true "0") by congruence. subst a'.
    eexists. split; [reflexivity|]. unfold same_ann. cbn [a_n a_dim a_adim a_data a_tags a_filtered a_pts a_use_univ a_univ a_labels] in *.
    repeat (split; [solve [auto]|]). intros x. rewrite F5. cbn. tauto.
  - destruct H3 as [E1 E2]. destruct Hl as [Hl1 Hl2]. rewrite E1. cbn [bind]. rewrite E2.
    eexists. split; [reflexivity|]. unfold same_ann. cbn [a_n a_dim a_adim a_data a_tags a_filtered a_pts a_use_univ a_univ a_labels].
    rewrite Hl1. repeat (split; [solve [auto]|]). intros x. cbn. split; [tauto|]. intros [l [[] _]].
Qed.

(** ** Graph indexes *)
Definition gann_on (w : nat) (x : gann) (name : string) (d : fs) : Prop :=
  ann_on w (g_ann x) name d /\ d name = Some (graph_file (g_max x) (g_start x) (g_lists x)).

Lemma save_graph_gann : forall w x, gann_ok w x ->
  save_graph (N.to_nat (a_n (g_ann x))) (g_max x) (g_start x) (g_lists x) = Ok (graph_file (g_max x) (g_start x) (g_lists x)).
Proof. intros w x [_ [Hl [Hok _]]]. rewrite <- Hl. apply save_graph_ok. auto. Qed.

Lemma save_rng_ok : forall w name x d, gann_ok w x -> exists d', save_rng w name x d = Ok d' /\ gann_on w x name d' /\
  (forall m, ~ family rng_suffixes name m -> d' m = d m).
Proof.
  intros w name x d Hx. destruct (save_ann_ok w name (g_ann x) d) as [d1 [E1 [H1 F1]]]; [apply Hx|].
  unfold save_rng. rewrite E1. cbn [bind]. rewrite (save_graph_gann w) by auto. cbn [bind].
  eexists. split; [reflexivity|]. split; [split|].
  - apply (ann_on_ext _ _ _ d1); auto. intros s Hs. apply fs_set_other. rewrite eqb_app_r.
    cbn in Hs. intuition (subst; reflexivity).
  - apply fs_set_same.
  - intros m Hm. assert (Hm0 : String.eqb m name = false).
    { rewrite <- (sapp_nil name). eapply not_family; [exact Hm|]. left. auto. }
    rewrite fs_set_other by auto. apply F1. intros [s [Hs ->]]. apply Hm. exists s. split; [right; auto|auto].
Qed.

Lemma load_graph_gann : forall w x, gann_ok w x -> forall n md0 st0, n = a_n (g_ann x) ->
  load_graph (N.to_nat n) md0 st0 [] (Some (graph_file (g_max x) (g_start x) (g_lists x))) = Ok (g_max x, g_start x, g_lists x, true).
Proof.
  intros w x [_ [Hl [Hok [R1 R2]]]] n md0 st0 ->. rewrite load_graph_saved by auto. cbn [app]. rewrite Hl, Nat.eqb_refl. reflexivity.
Qed.

Lemma load_rng_ok : forall w g name x d dim adim st0, garbage_ok g -> gann_ok w x -> gann_on w x name d ->
  exists x', load_rng w g name (new_gann dim adim st0) d = Ok (x', true) /\ same_graph x x' /\ g_medoids x' = [].
Proof.
  intros w g name x d dim adim st0 Hg Hx [H1 H2]. destruct (load_ann_ok w g name (g_ann x) d dim adim Hg (proj1 Hx) H1) as [a' [E1 E2]].
  unfold load_rng. cbn [new_gann g_ann g_max g_start g_lists g_medoids]. rewrite E1. cbn [bind]. rewrite H2.
  rewrite (load_graph_gann w x) by (auto; apply E2). cbn [bind].
  eexists. split; [reflexivity|]. split; [|reflexivity]. split; [exact E2|]. cbn. auto.
Qed.

Lemma rng_round_trip : forall w g name x d dim adim st0, garbage_ok g -> gann_ok w x ->
  exists d' x', save_rng w name x d = Ok d' /\ load_rng w g name (new_gann dim adim st0) d' = Ok (x', true) /\ same_graph x x' /\
    (forall m, ~ family rng_suffixes name m -> d' m = d m).
Proof.
  intros w g name x d dim adim st0 Hg Hx. destruct (save_rng_ok w name x d Hx) as [d' [E1 [H1 F1]]].
  destruct (load_rng_ok w g name x d' dim adim st0 Hg Hx H1) as [x' [E2 [E3 _]]]. exists d', x'. auto.
Qed.

(** ** Vamana *)
Lemma save_vamana_ok : forall w name x d, gann_ok w x -> exists d', save_vamana w name x d = Ok d' /\ gann_on w x name d' /\
  (d' (name ++ "_labels_to_medoids.txt") =
     if a_filtered (g_ann x) then match g_medoids x with [] => d (name ++ "_labels_to_medoids.txt") | m => Some (bytes_of (medoid_text m)) end
     else d (name ++ "_labels_to_medoids.txt")) /\
  (forall m, ~ family vamana_suffixes name m -> d' m = d m).
Proof.
  intros w name x d Hx. destruct (save_ann_ok w name (g_ann x) d) as [d1 [E1 [H1 F1]]]; [apply Hx|].
  unfold save_vamana. rewrite E1. cbn [bind]. rewrite (save_graph_gann w) by auto. cbn [bind].
  eexists. split; [reflexivity|].
  set (d2 := if a_filtered (g_ann x) then _ else _).
  assert (Hd2 : forall m, String.eqb m (name ++ "_labels_to_medoids.txt") = false -> d2 m = d1 m).
  { intros m Hm. unfold d2. destruct (a_filtered (g_ann x)); [|auto]. destruct (g_medoids x); [auto|]. apply fs_set_other. auto. }
  assert (Hself : d1 (name ++ "_labels_to_medoids.txt") = d (name ++ "_labels_to_medoids.txt")).
  { apply F1. intros [s [Hs E]]. apply sapp_inj_l in E. subst s. cbn in Hs. intuition discriminate. }
  split; [split|split].
  - apply (ann_on_ext _ _ _ d1); auto. intros s Hs. rewrite fs_set_other.
    + apply Hd2. rewrite eqb_app. cbn in Hs. intuition (subst; reflexivity).
    + rewrite eqb_app_r. cbn in Hs. intuition (subst; reflexivity).
  - apply fs_set_same.
  - rewrite fs_set_other by (rewrite eqb_app_r; reflexivity). unfold d2. destruct (a_filtered (g_ann x)); [|auto].
    destruct (g_medoids x); [auto|]. apply fs_set_same.
  - intros m Hm. assert (Hm0 : String.eqb m name = false).
    { rewrite <- (sapp_nil name). eapply not_family; [exact Hm|]. right. left. auto. }
    rewrite fs_set_other by auto. rewrite Hd2 by (eapply not_family; [exact Hm|left; auto]).
    apply F1. intros [s [Hs ->]]. apply Hm. exists s. split; [right; right; auto|auto].
Qed.

Lemma load_vamana_ok : forall w g name x d dim adim st0 m, garbage_ok g -> gann_ok w x -> gann_on w x name d ->
  (d (name ++ "_labels_to_medoids.txt") = None /\ m = [] \/
   exists txt, d (name ++ "_labels_to_medoids.txt") = Some (bytes_of txt) /\ parse_medoids (getlines LF txt) [] = Ok m) ->
  exists x', load_vamana w g name (new_gann dim adim st0) d = Ok (x', true) /\ same_graph x x' /\ g_medoids x' = m.
Proof.
  intros w g name x d dim adim st0 m Hg Hx [H1 H2] Hm. destruct (load_ann_ok w g name (g_ann x) d dim adim Hg (proj1 Hx) H1) as [a' [E1 E2]].
  unfold load_vamana. cbn [new_gann g_ann g_max g_start g_lists g_medoids]. rewrite E1. cbn [bind]. rewrite H2.
  assert (Em : match d (name ++ "_labels_to_medoids.txt") with Some b => parse_medoids (getlines LF (text_of b)) [] | None => Ok [] end = Ok m).
  { destruct Hm as [[-> ->]|[txt [-> E]]]; [reflexivity|]. rewrite text_of_bytes_of. auto. }
  rewrite Em. cbn [bind]. rewrite (load_graph_gann w x) by (auto; apply E2). cbn [bind].
  eexists. split; [reflexivity|]. split; [|reflexivity]. split; [exact E2|]. cbn. auto.
Qed.

Lemma vamana_round_trip : forall w g name x d dim adim st0, garbage_ok g -> gann_ok w x ->
  (if a_filtered (g_ann x) then medoids_ok (g_medoids x) /\ (g_medoids x = [] -> d (name ++ "_labels_to_medoids.txt") = None)
   else g_medoids x = [] /\ d (name ++ "_labels_to_medoids.txt") = None) ->
  exists d' x', save_vamana w name x d = Ok d' /\ load_vamana w g name (new_gann dim adim st0) d' = Ok (x', true) /\ same_graph x x' /\
    g_medoids x' = g_medoids x /\ (forall m, ~ family vamana_suffixes name m -> d' m = d m).
Proof.
  intros w g name x d dim adim st0 Hg Hx Hm. destruct (save_vamana_ok w name x d Hx) as [d' [E1 [H1 [H2 F1]]]].
  destruct (load_vamana_ok w g name x d' dim adim st0 (g_medoids x) Hg Hx H1) as [x' [E2 [E3 E4]]].
  - rewrite H2. destruct (a_filtered (g_ann x)).
    + destruct Hm as [Hm1 Hm2]. destruct (g_medoids x) as [|p m] eqn:Em; [left; auto|]. right. exists (medoid_text (p :: m)). split; [auto|].
      rewrite <- (text_of_bytes_of (medoid_text (p :: m))). apply medoid_round_trip. auto.
    + destruct Hm as [Hm1 Hm2]. left. auto.
  - exists d', x'. auto.
Qed.

(** An old entry point file survives saving an unfiltered index. *)
Lemma vamana_stale : forall w g name x d dim adim st0 m, garbage_ok g -> gann_ok w x -> a_filtered (g_ann x) = false -> medoids_ok m ->
  d (name ++ "_labels_to_medoids.txt") = Some (bytes_of (medoid_text m)) ->
  exists d' x', save_vamana w name x d = Ok d' /\ load_vamana w g name (new_gann dim adim st0) d' = Ok (x', true) /\ g_medoids x' = m.
Proof.
  intros w g name x d dim adim st0 m Hg Hx Hf Hm Hd. destruct (save_vamana_ok w name x d Hx) as [d' [E1 [H1 [H2 F1]]]]. rewrite Hf in H2.
  destruct (load_vamana_ok w g name x d' dim adim st0 m Hg Hx H1) as [x' [E2 [E3 E4]]].
  - right. exists (medoid_text m). rewrite H2. split; [auto|]. rewrite <- (text_of_bytes_of (medoid_text m)). apply medoid_round_trip. auto.
  - exists d', x'. auto.
Qed.

(** ** HNSW *)
Lemma digits_prefix : forall a b s t, all_digits a = true -> all_digits b = true ->
  (s = "" \/ exists c s', s = String c s' /\ is_digit c = false) -> (t = "" \/ exists c t', t = String c t' /\ is_digit c = false) ->
  a ++ s = b ++ t -> a = b /\ s = t.
Proof.
  induction a as [|x a IH]; intros b s t Ha Hb Hs Ht E.
  - destruct b as [|y b]; [auto|]. cbn [append] in E. cbn [all_digits] in Hb. apply andb_true_iff in Hb. destruct Hb as [Hb _].
    destruct Hs as [->|[c [s' [-> Hc]]]]; [discriminate|]. assert (c = y) by congruence. congruence.
  - cbn [all_digits] in Ha. apply andb_true_iff in Ha. destruct Ha as [Hx Ha]. destruct b as [|y b].
    + cbn [append] in E. destruct Ht as [->|[c [t' [-> Hc]]]]; [discriminate|]. assert (c = x) by congruence. congruence.
    + cbn [append all_digits] in *. apply andb_true_iff in Hb. destruct Hb as [_ Hb]. assert (x = y) by congruence. subst y.
      destruct (IH b s t Ha Hb Hs Ht) as [-> ->]; [congruence|auto].
Qed.

Lemma rng_suffix_form : forall s, In s rng_suffixes -> s = "" \/ exists c s', s = String c s' /\ is_digit c = false.
Proof. intros s H. cbn in H. destruct H as [<-|[<-|[<-|[<-|[<-|[]]]]]]; [left; auto| | | |]; right; do 2 eexists; (split; [reflexivity|reflexivity]). Qed.

(** Families of different levels share no name. *)
Lemma level_disjoint : forall name i j m, family rng_suffixes (level_name name i) m -> family rng_suffixes (level_name name j) m -> i = j.
Proof.
  intros name i j m [s [Hs E1]] [t [Ht E2]]. subst m. unfold level_name in E2. rewrite !sapp_assoc in E2. apply sapp_inj_l in E2.
  cbn [append] in E2. assert (E3 : show i ++ s = show j ++ t) by congruence.
  apply digits_prefix in E3; [apply show_inj; tauto|apply show_digits|apply show_digits|apply rng_suffix_form; auto|apply rng_suffix_form; auto].
Qed.

(** No name of an HNSW level is one of an index saved under the same name. *)
Lemma level_not_base : forall name i m, family rng_suffixes (level_name name i) m ->
  ~ family vamana_suffixes name m /\ ~ family ivf_suffixes name m.
Proof.
  intros name i m [s [Hs E1]]. subst m. assert (Hd : forall c r, show i = String c r -> is_digit c = true).
  { intros c r E. assert (H := show_digits i). rewrite E in H. cbn in H. apply andb_true_iff in H. tauto. }
  assert (Hne := show_nonempty i). destruct (show i) as [|c r] eqn:E; [congruence|]. specialize (Hd c r eq_refl).
  unfold level_name. rewrite E.
  split; intros [t [Ht E2]]; rewrite !sapp_assoc in E2; apply sapp_inj_l in E2; cbn [append] in E2; cbn in Ht;
    repeat (destruct Ht as [<-|Ht]; [try discriminate; assert (Ec : c = "d"%char \/ c = "t"%char \/ c = "l"%char \/ c = "u"%char \/ c = "c"%char) by (inversion E2; auto); intuition (subst c; discriminate)|]); destruct Ht.
Qed.

Lemma save_hnsw_ok : forall w name levels k d, (forall x, In x levels -> gann_ok w x) ->
  exists d', save_hnsw w name k levels d = Ok d' /\
    (forall i x, nth_error levels i = Some x -> gann_on w x (level_name name (k + N.of_nat i)) d') /\
    (forall m, (forall i, (i < length levels)%nat -> ~ family rng_suffixes (level_name name (k + N.of_nat i)) m) -> d' m = d m).
Proof.
  intros w name levels. induction levels as [|x levels IH]; intros k d H; cbn [save_hnsw].
  - exists d. split; [auto|]. split; [intros [|i] x E; discriminate|auto].
  - destruct (save_rng_ok w (level_name name k) x d) as [d1 [E1 [H1 F1]]]; [apply H; left; auto|]. rewrite E1. cbn [bind].
    destruct (IH (k + 1)%N d1) as [d' [E2 [H2 F2]]]; [intros y Hy; apply H; right; auto|].
    exists d'. split; [exact E2|]. split.
    + intros [|i] y E; cbn [nth_error] in E.
      * assert (y = x) by congruence. subst y. cbn [N.of_nat]. rewrite N.add_0_r.
        assert (Hk : forall s, In s rng_suffixes -> d' (level_name name k ++ s) = d1 (level_name name k ++ s)).
        { intros s Hs. apply F2. intros i Hi Hf. assert (k = k + 1 + N.of_nat i)%N; [|lia].
          eapply level_disjoint; [|exact Hf]. exists s. auto. }
        destruct H1 as [H1 H1b]. split.
        -- apply (ann_on_ext _ _ _ d1); auto. intros s Hs. apply Hk. right. auto.
        -- rewrite <- H1b. specialize (Hk "" (or_introl eq_refl)). rewrite sapp_nil in Hk. exact Hk.
      * replace (k + N.of_nat (S i))%N with (k + 1 + N.of_nat i)%N by lia. apply H2. auto.
    + intros m Hm. rewrite F2.
      * apply F1. specialize (Hm 0%nat). cbn [N.of_nat] in Hm. rewrite N.add_0_r in Hm. apply Hm. cbn. lia.
      * intros i Hi. replace (k + 1 + N.of_nat i)%N with (k + N.of_nat (S i))%N by lia. apply Hm. cbn. lia.
Qed.

Lemma load_hnsw_ok : forall w g name levels k d dim adim st0, garbage_ok g -> (forall x, In x levels -> gann_ok w x) ->
  (forall i x, nth_error levels i = Some x -> gann_on w x (level_name name (k + N.of_nat i)) d) ->
  exists rs, load_hnsw w g name k (fresh_levels dim adim st0 levels) d = Ok rs /\ length rs = length levels /\
    forall i x, nth_error levels i = Some x -> exists x', nth_error rs i = Some (x', true) /\ same_graph x x'.
Proof.
  intros w g name levels. induction levels as [|x levels IH]; intros k d dim adim st0 Hg H Hon; cbn [fresh_levels map load_hnsw].
  - exists []. split; [auto|]. split; [auto|]. intros [|i] x E; discriminate.
  - destruct (load_rng_ok w g (level_name name k) x d dim adim st0 Hg) as [x' [E1 [S1 _]]]; [apply H; left; auto| |].
    { specialize (Hon 0%nat x eq_refl). cbn [N.of_nat] in Hon. rewrite N.add_0_r in Hon. exact Hon. }
    rewrite E1. cbn [bind]. destruct (IH (k + 1)%N d dim adim st0 Hg) as [rs [E2 [L2 S2]]]; [intros y Hy; apply H; right; auto| |].
    { intros i y Ey. replace (k + 1 + N.of_nat i)%N with (k + N.of_nat (S i))%N by lia. apply Hon. auto. }
    unfold fresh_levels in E2. rewrite E2. cbn [bind]. exists ((x', true) :: rs). split; [auto|]. split; [cbn; auto|].
    intros [|i] y Ey; cbn [nth_error] in *; [|auto]. assert (y = x) by congruence. subst. eauto.
Qed.

Lemma hnsw_round_trip : forall w g name levels d dim adim st0, garbage_ok g -> (forall x, In x levels -> gann_ok w x) ->
  exists d' rs, save_hnsw w name 0 levels d = Ok d' /\ load_hnsw w g name 0 (fresh_levels dim adim st0 levels) d' = Ok rs /\
    length rs = length levels /\
    (forall i x, nth_error levels i = Some x -> exists x', nth_error rs i = Some (x', true) /\ same_graph x x') /\
    (forall m, (forall i, (i < length levels)%nat -> ~ family rng_suffixes (level_name name (N.of_nat i)) m) -> d' m = d m).
Proof.
  intros w g name levels d dim adim st0 Hg H. destruct (save_hnsw_ok w name levels 0 d H) as [d' [E1 [H1 F1]]].
  destruct (load_hnsw_ok w g name levels 0 d' dim adim st0 Hg H H1) as [rs [E2 [L2 S2]]]. exists d', rs. auto.
Qed.
