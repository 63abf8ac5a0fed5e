(** * What can be loaded after an interrupted save. *)
From Coq Require Import NArith ZArith Ascii String List Bool Arith Lia.
From Verif Require Import Base Bytes StreamModel BinModel BinSpec BinProofs BinProofs2 GraphFileModel GraphFileSpec GraphFileProofs
  TextModel TextProofs IndexFileModel IndexFileSpec IndexFileProofs IndexFileProofs2 IndexFileProofs3 LshModel LshProofs ToolModel
  CrashModel CrashSpec CrashProofs.
Import ListNotations.
Local Open Scope string_scope.

Lemma ann_steps_ok : forall w name a, ann_ok w a -> exists s, ann_steps w name a = Ok s /\
  (forall x, In x s -> family ann_suffixes name (target x)) /\ forall d, ann_on w a name (run_steps s d).
Proof.
  intros w name a Ha. destruct (save_ann_ok w name a (fun _ => None) Ha) as [d1 [E1 _]]. rewrite ann_steps_save in E1.
  apply bind_ok in E1. destruct E1 as [s [Es _]]. exists s. split; [auto|]. split; [apply (ann_targets w name a); auto|].
  intros d. destruct (save_ann_ok w name a d Ha) as [d2 [E2 [H2 _]]]. rewrite ann_steps_save, Es in E2. cbn [bind] in E2.
  assert (d2 = run_steps s d) by congruence. subst. auto.
Qed.

(** The ways a last operation can be in: not begun, begun, done. *)
Lemma interrupted_one : forall s d d', interrupted [s] d d' ->
  d' = d \/ (exists c, partial s c /\ d' = fs_set d (target s) (Some c)) \/ d' = run_step s d.
Proof.
  intros s d d' H. inversion H as [ws d0|a' ws d0 c Hp|a' ws d0 d1 Hi]; subst; auto.
  - right. left. eauto.
  - inversion Hi; subst. auto.
Qed.

(** Before the graph file is opened it does not exist. *)
Lemma load_graph_none : forall n md st r, load_graph n md st [] None <> Ok r.
Proof. intros n md st r. rewrite load_graph_missing. discriminate. Qed.

(** RelativeNG; [more] are operations on other files between the shared part and the
    graph file. *)
Lemma graph_interrupted : forall w name x s more b d d', gann_ok w x ->
  ann_steps w name (g_ann x) = Ok s -> (forall y, In y more -> target y = name ++ "_labels_to_medoids.txt") ->
  save_graph (N.to_nat (a_n (g_ann x))) (g_max x) (g_start x) (g_lists x) = Ok b -> d name = None ->
  interrupted (s ++ more ++ [WriteSized name b])%list d d' ->
  d' name = None \/
  (ann_on w (g_ann x) name d' /\
   d' (name ++ "_labels_to_medoids.txt") = run_steps more d (name ++ "_labels_to_medoids.txt") /\
   exists c, d' name = Some c /\
     (partial (WriteSized name (graph_file (g_max x) (g_start x) (g_lists x))) c \/ c = graph_file (g_max x) (g_start x) (g_lists x))).
Proof.
  intros w name x s more b d d' Hx Es Hmore Eb Hd H. rewrite (save_graph_gann w) in Eb by auto. assert (Eb' : b = graph_file (g_max x) (g_start x) (g_lists x)) by congruence. subst b. clear Eb.
  destruct (ann_steps_ok w name (g_ann x) (proj1 Hx)) as [s' [Es' [Ft Hon]]]. assert (s' = s) by congruence. subst s'.
  assert (Hs : forall y, In y s -> String.eqb name (target y) = false) by (intros y Hy; apply family_not_base; auto).
  assert (Hm : forall y, In y more -> String.eqb name (target y) = false).
  { intros y Hy. rewrite (Hmore y Hy). rewrite eqb_app_l. reflexivity. }
  assert (Hms : forall y, In y s -> String.eqb (name ++ "_labels_to_medoids.txt") (target y) = false).
  { intros y Hy. destruct (Ft y Hy) as [f [Hf ->]]. rewrite eqb_app. cbn in Hf. intuition (subst; reflexivity). }
  assert (N1 : run_steps (s ++ more)%list d name = None).
  { rewrite run_app, run_frame, run_frame; auto. }
  rewrite app_assoc in H. apply interrupted_app in H. destruct H as [H|H].
  - left. rewrite (interrupted_frame _ _ _ H); auto. intros y Hy. apply in_app_or in Hy. destruct Hy; auto.
  - assert (On : forall v, ann_on w (g_ann x) name (fs_set (run_steps (s ++ more)%list d) name v)).
    { intros v. apply (ann_on_ext _ _ _ (run_steps s d)); [|apply Hon]. intros f Hf. rewrite fs_set_other, run_app, run_frame; auto.
      - intros y Hy. rewrite (Hmore y Hy). rewrite eqb_app. cbn in Hf. intuition (subst; reflexivity).
      - rewrite eqb_app_r. cbn in Hf. intuition (subst; reflexivity). }
    assert (Md : forall v, fs_set (run_steps (s ++ more)%list d) name v (name ++ "_labels_to_medoids.txt") = run_steps more d (name ++ "_labels_to_medoids.txt")).
    { intros v. rewrite fs_set_other by (rewrite eqb_app_r; reflexivity). rewrite run_app. apply run_ext. left. apply run_frame. auto. }
    apply interrupted_one in H. destruct H as [->|[[c [Hc ->]]| ->]]; [left; auto| |]; right; cbn [target].
    + split; [apply On|]. split; [apply Md|]. exists c. split; [apply fs_set_same|auto].
    + unfold run_step. cbn [target final]. split; [apply On|]. split; [apply Md|]. eexists. split; [apply fs_set_same|auto].
Qed.

Lemma rng_interrupted : forall w g name x d ws d' dim adim st0 x' f, garbage_ok g -> gann_ok w x -> (1 <= a_n (g_ann x))%N -> d name = None ->
  rng_steps w name x = Ok ws -> interrupted ws d d' -> load_rng w g name (new_gann dim adim st0) d' = Ok (x', f) ->
  same_ann (g_ann x) (g_ann x') /\
  (f = true -> g_max x' = g_max x /\ g_start x' = g_start x /\ cut_tail (g_lists x) (g_lists x')) /\
  (f = false -> (length (g_lists x') < length (g_lists x))%nat).
Proof.
  intros w g name x d ws d' dim adim st0 x' f Hg Hx Hn Hd Ew Hi Hl. unfold rng_steps in Ew.
  apply bind_ok in Ew. destruct Ew as [s [Es Ew]]. apply bind_ok in Ew. destruct Ew as [b [Eb Ew]].
  assert (Ew' : ws = (s ++ [] ++ [WriteSized name b])%list) by (cbn [app]; congruence). subst ws.
  unfold load_rng in Hl. apply bind_ok in Hl. destruct Hl as [a' [La Hl]]. apply bind_ok in Hl. destruct Hl as [r [Lg Hl]].
  cbn [new_gann g_ann g_max g_start g_lists g_medoids] in *.
  destruct (graph_interrupted w name x s [] b d d' Hx Es (fun y (H : In y []) => match H with end) Eb Hd Hi) as [E|[On [_ [c [Ec Hc]]]]].
  - rewrite E in Lg. exfalso. eapply load_graph_none; eauto.
  - destruct (load_ann_ok w g name (g_ann x) d' dim adim Hg (proj1 Hx) On) as [a2 [E2 S2]]. assert (a2 = a') by congruence. subst a2.
    rewrite Ec in Lg. assert (P := load_graph_partial w x name c (a_n a') 0 st0 r Hx Hn Hc (proj1 S2) Lg).
    destruct r as [[[md st] lists] ok]. assert (x' = mkGA a' md st lists []) by congruence. assert (ok = f) by congruence. subst x' ok.
    cbn [g_ann g_max g_start g_lists]. split; [exact S2|exact P].
Qed.

Lemma vamana_interrupted : forall w g name x d ws d' dim adim st0 x' f, garbage_ok g -> gann_ok w x -> (1 <= a_n (g_ann x))%N -> d name = None ->
  (if a_filtered (g_ann x) then medoids_ok (g_medoids x) /\ (g_medoids x = [] -> d (name ++ "_labels_to_medoids.txt") = None)
   else g_medoids x = [] /\ d (name ++ "_labels_to_medoids.txt") = None) ->
  vamana_steps w name x = Ok ws -> interrupted ws d d' -> load_vamana w g name (new_gann dim adim st0) d' = Ok (x', f) ->
  same_ann (g_ann x) (g_ann x') /\ g_medoids x' = g_medoids x /\
  (f = true -> g_max x' = g_max x /\ g_start x' = g_start x /\ cut_tail (g_lists x) (g_lists x')) /\
  (f = false -> (length (g_lists x') < length (g_lists x))%nat).
Proof.
  intros w g name x d ws d' dim adim st0 x' f Hg Hx Hn Hd Hmd Ew Hi Hl. unfold vamana_steps in Ew.
  apply bind_ok in Ew. destruct Ew as [s [Es Ew]]. apply bind_ok in Ew. destruct Ew as [b [Eb Ew]].
  set (sm := if a_filtered (g_ann x) then _ else _) in Ew.
  assert (Hsm : forall y, In y sm -> target y = name ++ "_labels_to_medoids.txt").
  { intros y Hy. unfold sm in Hy. destruct (a_filtered (g_ann x)); [|destruct Hy]. destruct (g_medoids x); [destruct Hy|].
    destruct Hy as [<-|[]]. reflexivity. }
  assert (Ew' : ws = (s ++ sm ++ [WriteSized name b])%list) by congruence. subst ws.
  unfold load_vamana in Hl. apply bind_ok in Hl. destruct Hl as [a' [La Hl]]. apply bind_ok in Hl. destruct Hl as [m [Lm Hl]].
  apply bind_ok in Hl. destruct Hl as [r [Lg Hl]].
  cbn [new_gann g_ann g_max g_start g_lists g_medoids] in *.
  destruct (graph_interrupted w name x s sm b d d' Hx Es Hsm Eb Hd Hi) as [E|[On [Em [c [Ec Hc]]]]].
  - rewrite E in Lg. exfalso. eapply load_graph_none; eauto.
  - destruct (load_ann_ok w g name (g_ann x) d' dim adim Hg (proj1 Hx) On) as [a2 [E2 S2]]. assert (a2 = a') by congruence. subst a2.
    rewrite Ec in Lg. assert (P := load_graph_partial w x name c (a_n a') 0 st0 r Hx Hn Hc (proj1 S2) Lg).
    destruct r as [[[md st] lists] ok]. assert (x' = mkGA a' md st lists m) by congruence. assert (ok = f) by congruence. subst x' ok.
    cbn [g_ann g_max g_start g_lists g_medoids]. split; [exact S2|]. split; [|exact P].
    rewrite Em in Lm. clear - Lm Hmd. unfold sm in Lm. destruct (a_filtered (g_ann x)).
    + destruct Hmd as [M1 M2]. destruct (g_medoids x) as [|p q] eqn:Eq.
      * cbn [run_steps fold_left] in Lm. rewrite M2 in Lm by auto. congruence.
      * change (run_steps [Write (name ++ "_labels_to_medoids.txt") (bytes_of (medoid_text (p :: q)))] d (name ++ "_labels_to_medoids.txt"))
          with (fs_set d (name ++ "_labels_to_medoids.txt") (Some (bytes_of (medoid_text (p :: q)))) (name ++ "_labels_to_medoids.txt")) in Lm.
        rewrite fs_set_same in Lm. rewrite medoid_round_trip in Lm by auto. congruence.
    + destruct Hmd as [M1 M2]. cbn [run_steps fold_left] in Lm. rewrite M2 in Lm. congruence.
Qed.

(** ** HNSW *)
Lemma rng_targets : forall w name x ws, rng_steps w name x = Ok ws -> forall s, In s ws -> family rng_suffixes name (target s).
Proof.
  intros w name x ws H s Hs. unfold rng_steps in H. apply bind_ok in H. destruct H as [s1 [E1 H]]. apply bind_ok in H. destruct H as [b [_ H]].
  assert (ws = s1 ++ [WriteSized name b])%list by congruence. subst ws. apply in_app_or in Hs. destruct Hs as [Hs|[<-|[]]].
  - destruct (ann_targets w name (g_ann x) s1 E1 s Hs) as [f [Hf ->]]. exists f. split; [right; auto|auto].
  - exists "". split; [left; auto|]. cbn [target]. rewrite sapp_nil. reflexivity.
Qed.

Lemma hnsw_targets : forall w name levels k ws, hnsw_steps w name k levels = Ok ws -> forall s, In s ws ->
  exists i, (i < length levels)%nat /\ family rng_suffixes (level_name name (k + N.of_nat i)) (target s).
Proof.
  intros w name levels. induction levels as [|x levels IH]; intros k ws H s Hs; cbn [hnsw_steps] in H.
  - assert (ws = []) by congruence. subst. destruct Hs.
  - apply bind_ok in H. destruct H as [s1 [E1 H]]. apply bind_ok in H. destruct H as [t [E2 H]].
    assert (ws = s1 ++ t)%list by congruence. subst ws. apply in_app_or in Hs. destruct Hs as [Hs|Hs].
    + exists 0%nat. split; [cbn; lia|]. cbn [N.of_nat]. rewrite N.add_0_r. eapply rng_targets; eauto.
    + destruct (IH _ _ E2 s Hs) as [i [Hi F]]. exists (S i). split; [cbn; lia|]. replace (k + N.of_nat (S i))%N with (k + 1 + N.of_nat i)%N by lia. auto.
Qed.

Lemma family_ne : forall sufs name m t, family sufs name t -> ~ family sufs name m -> String.eqb m t = false.
Proof. intros sufs name m t F Hn. apply String.eqb_neq. intros ->. auto. Qed.

Lemma hnsw_interrupted : forall w g name levels k d ws d' dim adim st0 rs, garbage_ok g ->
  (forall x, In x levels -> gann_ok w x /\ (1 <= a_n (g_ann x))%N) ->
  (forall i, (i < length levels)%nat -> d (level_name name (k + N.of_nat i)) = None) ->
  hnsw_steps w name k levels = Ok ws -> interrupted ws d d' ->
  load_hnsw w g name k (fresh_levels dim adim st0 levels) d' = Ok rs ->
  length rs = length levels /\
  forall i x, nth_error levels i = Some x -> exists x' f, nth_error rs i = Some (x', f) /\
    same_ann (g_ann x) (g_ann x') /\
    ((S i < length levels)%nat -> f = true /\ g_max x' = g_max x /\ g_start x' = g_start x /\ g_lists x' = g_lists x) /\
    (f = true -> g_max x' = g_max x /\ g_start x' = g_start x /\ cut_tail (g_lists x) (g_lists x')) /\
    (f = false -> (length (g_lists x') < length (g_lists x))%nat).
Proof.
  intros w g name levels. induction levels as [|x levels IH]; intros k d ws d' dim adim st0 rs Hg H Hd Ew Hi Hl; cbn [fresh_levels map load_hnsw hnsw_steps] in *.
  - assert (rs = []) by congruence. subst. split; [auto|]. intros [|i] y Ey; discriminate.
  - apply bind_ok in Ew. destruct Ew as [s [Es Ew]]. apply bind_ok in Ew. destruct Ew as [t [Et Ew]].
    assert (ws = s ++ t)%list by congruence. subst ws. clear Ew.
    apply bind_ok in Hl. destruct Hl as [[x' f] [Lx Hl]]. apply bind_ok in Hl. destruct Hl as [rs' [Lr Hl]].
    assert (rs = (x', f) :: rs') by congruence. subst rs. clear Hl.
    destruct (H x (or_introl eq_refl)) as [Hx Hn].
    assert (Hd0 : d (level_name name k) = None).
    { specialize (Hd 0%nat ltac:(cbn; lia)). cbn [N.of_nat] in Hd. rewrite N.add_0_r in Hd. auto. }
    assert (Base : forall i, family rng_suffixes (level_name name i) (level_name name i)).
    { intros i. exists "". split; [left; auto|]. rewrite sapp_nil. auto. }
    apply interrupted_app in Hi. destruct Hi as [Hi|Hi].
    + (* within this level: there are no further ones *)
      destruct levels as [|y levels].
      * cbn [fresh_levels map load_hnsw] in Lr. assert (rs' = []) by congruence. subst rs'. split; [auto|].
        intros [|i] z Ez; [|destruct i; discriminate]. cbn [nth_error] in Ez. assert (z = x) by congruence. subst z.
        exists x', f. split; [auto|]. destruct (rng_interrupted w g (level_name name k) x d s d' dim adim st0 x' f Hg Hx Hn Hd0 Es Hi Lx) as [P1 P2].
        split; [exact P1|]. split; [cbn; lia|exact P2].
      * exfalso. cbn [fresh_levels map load_hnsw] in Lr. apply bind_ok in Lr. destruct Lr as [[y' fy] [Ly _]].
        unfold load_rng in Ly. apply bind_ok in Ly. destruct Ly as [a' [_ Ly]]. apply bind_ok in Ly. destruct Ly as [r [Lg _]].
        cbn [new_gann g_lists] in Lg.
        assert (E : d' (level_name name (k + 1)) = None).
        { rewrite (interrupted_frame _ _ _ Hi).
          - specialize (Hd 1%nat ltac:(cbn; lia)). exact Hd.
          - intros z Hz. apply (family_ne rng_suffixes (level_name name k)); [eapply rng_targets; eauto|].
            intros F. assert (k = k + 1)%N; [|lia]. eapply level_disjoint; [exact F|apply Base]. }
        rewrite E in Lg. eapply load_graph_none; eauto.
    + (* this level is complete *)
      assert (On : gann_on w x (level_name name k) d').
      { destruct (save_rng_ok w (level_name name k) x d Hx) as [d1 [E1 [[O1 O2] _]]]. rewrite rng_steps_save, Es in E1. cbn [bind] in E1.
        assert (d1 = run_steps s d) by congruence. subst d1.
        assert (Fr : forall m, family rng_suffixes (level_name name k) m -> d' m = run_steps s d m).
        { intros m Fm. apply (interrupted_frame _ _ _ Hi). intros z Hz. destruct (hnsw_targets w name levels (k + 1) t Et z Hz) as [i [_ Fz]].
          apply (family_ne rng_suffixes (level_name name (k + 1 + N.of_nat i))); auto. intros F2. assert (k = k + 1 + N.of_nat i)%N; [|lia].
          eapply level_disjoint; eauto. }
        split; [apply (ann_on_ext _ _ _ (run_steps s d)); auto; intros u Hu; apply Fr; exists u; split; [right; auto|auto]|].
        rewrite Fr; auto. }
      destruct (load_rng_ok w g (level_name name k) x d' dim adim st0 Hg Hx On) as [x2 [E2 [S2 _]]].
      assert (x2 = x') by congruence. assert (Hf : f = true) by congruence. subst x2 f.
      destruct (IH (k + 1)%N (run_steps s d) t d' dim adim st0 rs' Hg) as [L2 P2]; auto.
      { intros z Hz. apply H. right. auto. }
      { intros i Hi2. rewrite run_frame.
        - replace (k + 1 + N.of_nat i)%N with (k + N.of_nat (S i))%N by lia. apply Hd. cbn. lia.
        - intros z Hz. apply (family_ne rng_suffixes (level_name name k)); [eapply rng_targets; eauto|].
          intros F. assert (k = k + 1 + N.of_nat i)%N; [|lia]. eapply level_disjoint; [exact F|apply Base]. }
      split; [cbn; lia|]. intros [|i] z Ez; cbn [nth_error] in *.
      * assert (z = x) by congruence. subst z. exists x', true. split; [auto|]. destruct S2 as [S2 [S3 [S4 S5]]].
        split; [exact S2|]. split; [auto|]. split; [|discriminate]. intros _. split; [auto|]. split; [auto|]. rewrite S5.
        destruct Hx as [_ [Hl [Hok _]]]. assert (Hne : g_lists x <> []) by (intros E0; rewrite E0 in Hl; cbn in Hl; lia).
        assert (E := cut_lists_all (g_lists x) (length (lists_bytes (g_lists x))) (le_n _)). rewrite <- E at 2.
        apply cut_lists_tail; auto. rewrite E. auto.
      * destruct (P2 i z Ez) as [z' [f' [Q1 [Q2 [Q3 Q4]]]]]. exists z', f'. split; [auto|]. split; [auto|]. split; [|auto].
        intros Hlt. apply Q3. cbn in Hlt. lia.
Qed.

(** ** IVF *)
Lemma load_inverted_bad : forall cnt s old ls, s_good s = false -> load_inverted cnt s old = Ok ls -> cnt = 0%nat /\ ls = [].
Proof.
  intros [|cnt] s old ls Hs H; cbn [load_inverted] in H; [split; [auto|congruence]|]. unfold sread in H. rewrite Hs in H. discriminate.
Qed.

Lemma enc_zeros : forall n, enc_all 4 (repeat 0%N n) = repeat 0%N (4 * n).
Proof.
  induction n as [|n IH]; [reflexivity|]. cbn [repeat]. unfold enc_all in *. cbn [flat_map]. rewrite IH.
  replace (4 * S n) with (4 + 4 * n) by lia. reflexivity.
Qed.

Lemma load_inverted_cut : forall lists k cnt ls, lists_ok lists -> lists <> [] -> cnt = length lists ->
  load_inverted cnt (mkS (firstn k (lists_bytes lists)) true false) (repeat [] cnt) = Ok ls -> cut_tail lists ls.
Proof.
  induction lists as [|l lists IH]; intros k cnt ls Hok Hne -> H; [congruence|]. destruct (Hok l (or_introl eq_refl)) as [Hl Hx].
  cbn [length load_inverted lists_bytes flat_map repeat hd tl] in H. fold (lists_bytes lists) in H.
  destruct (Nat.le_gt_cases 4 k) as [Hk|Hk].
  - assert (Ef : firstn k (list_bytes l ++ lists_bytes lists)%list = (u32 (N.of_nat (length l)) ++ firstn (k - 4) (enc_all 4 l ++ lists_bytes lists))%list).
    { unfold list_bytes. rewrite <- app_assoc, firstn_app, u32_length. rewrite firstn_all2 by (rewrite u32_length; auto). reflexivity. }
    rewrite Ef in H. rewrite sread_app in H by (rewrite u32_length; auto). rewrite u32_length in H. cbn [Nat.eqb negb] in H.
    rewrite dec_u32 in H by exact Hl. rewrite Nat2N.id in H.
    assert (Ev : enc_all 4 (vresize (length l) 0%N []) = repeat 0%N (4 * length l)).
    { unfold vresize. rewrite firstn_nil. cbn [app length]. rewrite Nat.sub_0_r. apply enc_zeros. }
    rewrite Ev in H.
    destruct (Nat.ltb k (4 + 4 * length l)) eqn:E5; [apply Nat.ltb_lt in E5|apply Nat.ltb_ge in E5].
    + rewrite firstn_app, enc_all_length in H. replace (k - 4 - 4 * length l) with 0 in H by lia. cbn [firstn] in H. rewrite app_nil_r in H.
      rewrite sread_short in H by (rewrite firstn_length, enc_all_length; lia).
      apply bind_ok in H. destruct H as [rest [E1 H]].
      apply load_inverted_bad in E1; [|reflexivity]. destruct E1 as [E0 ->]. apply length_zero_iff_nil in E0. subst lists.
      rewrite dec_all_fill in H by lia. exists [], l, (k - 4). split; [reflexivity|]. cbn [app]. congruence.
    + rewrite firstn_app, enc_all_length in H. rewrite firstn_all2 in H by (rewrite enc_all_length; lia).
      rewrite sread_app in H by (rewrite enc_all_length; lia). apply bind_ok in H. destruct H as [rest [E1 H]].
      assert (Ed := dec_all_fill l (4 * length l)%nat (le_n _)). rewrite firstn_all2 in Ed by (rewrite enc_all_length; lia).
      rewrite Ed in H. rewrite zero_fill_all in H by auto. assert (El : ls = l :: rest) by congruence. subst ls.
      destruct lists as [|l2 lists].
      * cbn [length load_inverted] in E1. assert (rest = []) by congruence. subst rest. exists [], l, (4 * length l).
        split; [reflexivity|]. cbn [app]. rewrite zero_fill_all by auto. reflexivity.
      * destruct (IH _ _ rest (fun y Hy => Hok y (or_intror Hy)) ltac:(discriminate) eq_refl E1) as [pre [l' [p [P1 P2]]]].
        exists (l :: pre), l', p. rewrite P2. split; [cbn [app]; f_equal; exact P1|reflexivity].
  - exfalso. rewrite sread_short in H by (rewrite firstn_length; lia). rewrite firstn_length in H.
    replace (Nat.eqb (min k (length (list_bytes l ++ lists_bytes lists)%list)) 4) with false in H; [discriminate|]. symmetry. apply Nat.eqb_neq. lia.
Qed.
