(** * Saving a loaded index again. *)
From Coq Require Import NArith Ascii String List Lia Arith.
From Verif Require Import Base Bytes StreamModel BinModel BinSpec GraphFileModel GraphFileSpec TextModel IndexFileModel IndexFileSpec IndexFileProofs IndexFileProofs2 IndexFileProofs3 ResaveSpec.
Import ListNotations.
Local Open Scope string_scope.

(** ** A save sets some files and leaves the others alone *)
Definition puts (ws : list (string * option (list N))) (d : fs) : fs := fold_left (fun d p => fs_set d (fst p) (snd p)) ws d.
Fixpoint final (ws : list (string * option (list N))) (m : string) (old : option (list N)) : option (list N) :=
  match ws with [] => old | (x, v) :: t => final t m (if String.eqb m x then v else old) end.
Lemma puts_final : forall ws d m, puts ws d m = final ws m (d m).
Proof. induction ws as [|[x v] ws IH]; intros d m; [reflexivity|]. unfold puts in *. cbn [fold_left fst snd final]. rewrite IH. reflexivity. Qed.
Lemma final_set : forall ws m old, (forall o, final ws m o = final ws m old) \/ (forall o, final ws m o = o).
Proof.
  induction ws as [|[x v] ws IH]; intros m old; [right; reflexivity|]. cbn [final]. destruct (String.eqb m x); [left; reflexivity|]. exact (IH m old).
Qed.
Lemma puts_twice : forall ws d m, puts ws (puts ws d) m = puts ws d m.
Proof. intros ws d m. rewrite !puts_final. destruct (final_set ws m (d m)) as [H|H]; [apply H|now rewrite !H]. Qed.
Lemma puts_app : forall ws ws' d, puts (ws ++ ws') d = puts ws' (puts ws d).
Proof. intros. unfold puts. apply fold_left_app. Qed.

Definition sets_files (save : fs -> res fs) : Prop := forall d d', save d = Ok d' -> exists ws, d' = puts ws d /\ forall d2, save d2 = Ok (puts ws d2).

Lemma sets_ret : sets_files Ok.
Proof. intros d d' E. injection E as <-. exists []. split; reflexivity. Qed.
Lemma sets_set : forall save name v, sets_files save -> sets_files (fun d => do d1 <- save d; Ok (fs_set d1 name v)).
Proof.
  intros save name v H d d' E. cbv beta in E. destruct (save d) as [d1| | | |] eqn:S; try discriminate. cbn [bind] in E. injection E as <-. destruct (H d d1 S) as [ws [-> K]].
  exists (ws ++ [(name, v)])%list. split; [now rewrite puts_app|]. intros d2. cbv beta. rewrite K. cbn [bind]. now rewrite puts_app.
Qed.
Lemma sets_seq : forall s t, sets_files s -> sets_files t -> sets_files (fun d => do d1 <- s d; t d1).
Proof.
  intros s t H K d d' E. cbv beta in E. destruct (s d) as [d1| | | |] eqn:S; try discriminate. cbn [bind] in E. destruct (H d d1 S) as [ws [-> H2]]. destruct (K _ _ E) as [ws' [-> K2]].
  exists (ws ++ ws')%list. split; [now rewrite puts_app|]. intros d2. cbv beta. rewrite H2. cbn [bind]. now rewrite K2, puts_app.
Qed.
Lemma sets_ext : forall s t, (forall d, s d = t d) -> sets_files s -> sets_files t.
Proof. intros s t E H d d' K. rewrite <- E in K. destruct (H d d' K) as [ws [A B]]. exists ws. split; [exact A|]. intros d2. rewrite <- E. apply B. Qed.
Lemma sets_bind : forall {A} (a : res A) (f : A -> fs -> res fs), (forall v, sets_files (f v)) -> sets_files (fun d => do v <- a; f v d).
Proof. intros A a f H. destruct a as [v| | | |]; cbn [bind]; [apply H|intros d d' E; discriminate..]. Qed.
Lemma sets_twice : forall save d d', sets_files save -> save d = Ok d' -> exists d'', save d' = Ok d'' /\ forall m, d'' m = d' m.
Proof. intros save d d' H E. destruct (H d d' E) as [ws [-> K]]. exists (puts ws (puts ws d)). split; [apply K|]. apply puts_twice. Qed.
Lemma sets_one : forall name v, sets_files (fun d => Ok (fs_set d name v)).
Proof. intros name v d d' E. injection E as <-. exists [(name, v)]. split; reflexivity. Qed.

Lemma save_ann_sets : forall w name a, sets_files (save_ann w name a).
Proof.
  intros w name a. unfold save_ann. apply sets_bind. intros data.
  apply (sets_ext (fun d => do d1 <- (match data with Some b => Ok (fs_set d (name ++ "_data.bin") (Some b)) | None => Ok d end);
    do tags <- save_bin 4 (a_tags a) (a_n a) 1; let d2 := fs_set d1 (name ++ "_tags.bin") (Some tags) in
    if a_filtered a then
      do txt <- save_labels (a_pts a);
      let d3 := fs_set d2 (name ++ "_labels.txt") (Some (bytes_of txt)) in
      if a_use_univ a
      then Ok (fs_set d3 (name ++ "_universal_label.txt") (Some (bytes_of (a_univ a ++ String LF ""))))
      else Ok (fs_set d3 (name ++ "_universal_label.txt") None)
    else Ok (fs_set (fs_set d2 (name ++ "_labels.txt") None) (name ++ "_universal_label.txt") None))).
  { intros d. destruct data; reflexivity. }
  apply sets_seq; [destruct data; [apply sets_one|apply sets_ret]|]. apply sets_bind. intros tags. cbv zeta. destruct (a_filtered a).
  - apply sets_bind. intros txt. destruct (a_use_univ a).
    + intros d d' E. injection E as <-. exists [(name ++ "_tags.bin", Some tags); (name ++ "_labels.txt", Some (bytes_of txt)); (name ++ "_universal_label.txt", Some (bytes_of (a_univ a ++ String LF "")))]. split; reflexivity.
    + intros d d' E. injection E as <-. exists [(name ++ "_tags.bin", Some tags); (name ++ "_labels.txt", Some (bytes_of txt)); (name ++ "_universal_label.txt", None)]. split; reflexivity.
  - intros d d' E. injection E as <-. exists [(name ++ "_tags.bin", Some tags); (name ++ "_labels.txt", None); (name ++ "_universal_label.txt", None)]. split; reflexivity.
Qed.
Lemma save_rng_sets : forall w name x, sets_files (save_rng w name x).
Proof. intros w name x. unfold save_rng. apply sets_seq; [apply save_ann_sets|]. apply sets_bind. intros b. apply sets_one. Qed.
Lemma save_vamana_sets : forall w name x, sets_files (save_vamana w name x).
Proof.
  intros w name x. unfold save_vamana. apply sets_seq; [apply save_ann_sets|].
  apply (sets_ext (fun d1 => do d2 <- (if a_filtered (g_ann x) then match g_medoids x with [] => Ok d1 | m => Ok (fs_set d1 (name ++ "_labels_to_medoids.txt") (Some (bytes_of (medoid_text m)))) end else Ok d1);
    do b <- save_graph (N.to_nat (a_n (g_ann x))) (g_max x) (g_start x) (g_lists x); Ok (fs_set d2 name (Some b)))).
  { intros d. destruct (a_filtered (g_ann x)); [destruct (g_medoids x)|]; reflexivity. }
  apply sets_seq; [destruct (a_filtered (g_ann x)); [destruct (g_medoids x); [apply sets_ret|apply sets_one]|apply sets_ret]|]. apply sets_bind. intros b. apply sets_one.
Qed.
Lemma save_hnsw_sets : forall w name levels k, sets_files (save_hnsw w name k levels).
Proof.
  intros w name levels. induction levels as [|x levels IH]; intros k; cbn [save_hnsw]; [apply sets_ret|]. apply (sets_ext (fun d => do d1 <- save_rng w (level_name name k) x d; save_hnsw w name (k + 1) levels d1)); [reflexivity|].
  apply sets_seq; [apply save_rng_sets|apply IH].
Qed.
Lemma save_ivf_sets : forall w name x, sets_files (save_ivf w name x).
Proof.
  intros w name x. unfold save_ivf. apply sets_seq; [apply save_ann_sets|]. apply sets_bind. intros c. cbv zeta. apply sets_bind. intros b d d' E. injection E as <-.
  exists [(name ++ "_centers.bin", Some c); (name, Some b)]. split; reflexivity.
Qed.

(** ** The same contents *)
Lemma same_save_ann : forall w name a a' d, same_ann a a' -> save_ann w name a' d = save_ann w name a d.
Proof. intros w name a a' d [E1 [E2 [E3 [E4 [E5 [E6 [E7 [E8 [E9 _]]]]]]]]]. unfold save_ann. rewrite E1, E2, E3, E4, E5, E6, E7, E8, E9. reflexivity. Qed.
Lemma same_save_rng : forall w name x x' d, same_graph x x' -> save_rng w name x' d = save_rng w name x d.
Proof. intros w name x x' d [A [E1 [E2 E3]]]. unfold save_rng. rewrite (same_save_ann w name _ _ d A), E1, E2, E3. destruct A as [-> _]. reflexivity. Qed.
Lemma same_save_vamana : forall w name x x' d, same_graph x x' -> g_medoids x' = g_medoids x -> save_vamana w name x' d = save_vamana w name x d.
Proof. intros w name x x' d [A [E1 [E2 E3]]] M. unfold save_vamana. rewrite (same_save_ann w name _ _ d A), E1, E2, E3, M. destruct A as [-> [_ [_ [_ [_ [-> _]]]]]]. reflexivity. Qed.
Lemma same_save_hnsw : forall w name levels rs k d, length rs = length levels -> (forall i x, nth_error levels i = Some x -> exists x', nth_error rs i = Some (x', true) /\ same_graph x x') ->
  save_hnsw w name k (map fst rs) d = save_hnsw w name k levels d.
Proof.
  intros w name levels. induction levels as [|x levels IH]; intros [|[y b] rs] k d L H; try discriminate; [reflexivity|]. cbn [map fst save_hnsw].
  destruct (H 0 x eq_refl) as [x' [E Sg]]. cbn in E. injection E as -> ->. rewrite (same_save_rng w _ x x' d Sg). destruct (save_rng w (level_name name k) x d) as [d1| | | |]; cbn [bind]; try reflexivity.
  apply IH; [cbn in L; lia|]. intros i z Hz. exact (H (S i) z Hz).
Qed.

(** ** Theorems *)
Lemma vamana_resave : forall w g name x d dim adim st0, garbage_ok g -> gann_ok w x ->
  (if a_filtered (g_ann x) then medoids_ok (g_medoids x) /\ (g_medoids x = [] -> d (name ++ "_labels_to_medoids.txt") = None)
   else g_medoids x = [] /\ d (name ++ "_labels_to_medoids.txt") = None) ->
  exists d' x', save_vamana w name x d = Ok d' /\ load_vamana w g name (new_gann dim adim st0) d' = Ok (x', true) /\
    (forall name2 d2, save_vamana w name2 x' d2 = save_vamana w name2 x d2) /\ exists d'', save_vamana w name x' d' = Ok d'' /\ forall m, d'' m = d' m.
Proof.
  intros w g name x d dim adim st0 Hg Hx Hm. destruct (vamana_round_trip w g name x d dim adim st0 Hg Hx Hm) as [d' [x' [E1 [E2 [S [M _]]]]]]. exists d', x'. split; [exact E1|]. split; [exact E2|].
  assert (K : forall name2 d2, save_vamana w name2 x' d2 = save_vamana w name2 x d2) by (intros; now apply same_save_vamana). split; [exact K|].
  rewrite K. exact (sets_twice (save_vamana w name x) d d' (save_vamana_sets w name x) E1).
Qed.
Lemma rng_resave : forall w g name x d dim adim st0, garbage_ok g -> gann_ok w x ->
  exists d' x', save_rng w name x d = Ok d' /\ load_rng w g name (new_gann dim adim st0) d' = Ok (x', true) /\
    (forall name2 d2, save_rng w name2 x' d2 = save_rng w name2 x d2) /\ exists d'', save_rng w name x' d' = Ok d'' /\ forall m, d'' m = d' m.
Proof.
  intros w g name x d dim adim st0 Hg Hx. destruct (rng_round_trip w g name x d dim adim st0 Hg Hx) as [d' [x' [E1 [E2 [S _]]]]]. exists d', x'. split; [exact E1|]. split; [exact E2|].
  assert (K : forall name2 d2, save_rng w name2 x' d2 = save_rng w name2 x d2) by (intros; now apply same_save_rng). split; [exact K|].
  rewrite K. exact (sets_twice (save_rng w name x) d d' (save_rng_sets w name x) E1).
Qed.
Lemma hnsw_resave : forall w g name levels d dim adim st0, garbage_ok g -> (forall x, In x levels -> gann_ok w x) ->
  exists d' rs, save_hnsw w name 0 levels d = Ok d' /\ load_hnsw w g name 0 (fresh_levels dim adim st0 levels) d' = Ok rs /\
    (forall name2 d2, save_hnsw w name2 0 (map fst rs) d2 = save_hnsw w name2 0 levels d2) /\ exists d'', save_hnsw w name 0 (map fst rs) d' = Ok d'' /\ forall m, d'' m = d' m.
Proof.
  intros w g name levels d dim adim st0 Hg Hx. destruct (hnsw_round_trip w g name levels d dim adim st0 Hg Hx) as [d' [rs [E1 [E2 [L [S _]]]]]]. exists d', rs. split; [exact E1|]. split; [exact E2|].
  assert (K : forall name2 d2, save_hnsw w name2 0 (map fst rs) d2 = save_hnsw w name2 0 levels d2) by (intros; now apply same_save_hnsw). split; [exact K|].
  rewrite K. exact (sets_twice (save_hnsw w name 0 levels) d d' (save_hnsw_sets w name levels 0) E1).
Qed.

Lemma ivf_resave : forall w g name x d dim adim k0 c0, garbage_ok g -> ivf_ok w x ->
  exists d' a' rows, save_ivf w name x d = Ok d' /\ load_ivf w g name (mkIA (new_ann dim adim) k0 c0 []) d' = Ok (a', i_k x, rows, i_lists x) /\
    holds_rows (N.to_nat (a_adim a')) rows (i_centers x) /\ forall c, holds_rows (N.to_nat (a_adim a')) rows c ->
      (forall name2 d2, save_ivf w name2 (mkIA a' (i_k x) c (i_lists x)) d2 = save_ivf w name2 x d2) /\ exists d'', save_ivf w name (mkIA a' (i_k x) c (i_lists x)) d' = Ok d'' /\ forall m, d'' m = d' m.
Proof.
  intros w g name x d dim adim k0 c0 Hg Hx.
  assert (HL : length (i_centers x) = N.to_nat (i_k x) * N.to_nat (a_adim (i_ann x))) by (destruct Hx as [_ [_ [Q _]]]; rewrite <- N2Nat.inj_mul, <- Q; now rewrite Nat2N.id).
  destruct (ivf_round_trip w g name x d dim adim k0 c0 Hg Hx) as [d' [a' [rows [E1 [E2 [S [L [C _]]]]]]]]. exists d', a', rows. split; [exact E1|]. split; [exact E2|].
  pose proof S as S'. destruct S' as [_ [_ [Ea _]]]. rewrite Ea in *.
  split; [split; [rewrite L; exact HL|intros i row j R J; destruct (C i row R) as [_ Cj]; symmetry; exact (Cj j J)]|]. intros c [Lc Hc]. set (q := N.to_nat (a_adim (i_ann x))) in *.
  assert (Ec : c = i_centers x).
  { apply nth_ext with (d := 0%N) (d' := 0%N); [lia|]. intros t Ht. rewrite Lc in Ht. assert (Hq : q <> 0) by (intros Z; rewrite Z in Ht; lia).
    pose proof (Nat.div_mod t q Hq) as Dm. pose proof (Nat.mod_upper_bound t q Hq) as Mb. assert (Hi : t / q < length rows) by (apply Nat.div_lt_upper_bound; nia).
    destruct (nth_error rows (t / q)) as [row|] eqn:R; [|apply nth_error_None in R; lia]. destruct (C (t / q) row R) as [_ Cj]. pose proof (Cj (t mod q) Mb) as A. pose proof (Hc (t / q) row (t mod q) R Mb) as B.
    replace (t / q * q + t mod q) with t in A, B by lia. rewrite A in B.
    rewrite (nth_error_nth' c 0%N) in B by lia. symmetry in B. apply (nth_error_nth _ _ 0%N) in B. symmetry. exact B. }
  subst c. assert (K : forall name2 d2, save_ivf w name2 (mkIA a' (i_k x) (i_centers x) (i_lists x)) d2 = save_ivf w name2 x d2).
  { intros name2 d2. unfold save_ivf. cbn [i_ann i_k i_centers i_lists]. rewrite (same_save_ann w name2 _ _ d2 S). destruct S as [_ [_ [-> _]]]. reflexivity. }
  split; [exact K|]. rewrite K. exact (sets_twice (save_ivf w name x) d d' (save_ivf_sets w name x) E1).
Qed.
