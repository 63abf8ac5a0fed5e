(** * Interrupted saves of IVF and LSH, and saves over an older index. *)
From Coq Require Import NArith ZArith Ascii String List Bool Arith Lia.
From Verif Require Import Base Bytes StreamModel BinModel BinSpec BinProofs BinProofs2 GraphFileModel GraphFileSpec GraphFileProofs
  TextModel TextProofs IndexFileModel IndexFileSpec IndexFileProofs IndexFileProofs2 IndexFileProofs3 LshModel LshProofs ToolModel ToolSpec
  CrashModel CrashSpec CrashProofs CrashProofs2.
Import ListNotations.
Local Open Scope string_scope.

Lemma u32_inj : forall a b s t, u32_range a -> u32_range b -> (u32 a ++ s = u32 b ++ t)%list -> a = b.
Proof.
  intros a b s t Ha Hb E. assert (E4 := f_equal (firstn 4) E). rewrite !(firstn_len_app _ 4) in E4 by apply u32_length.
  rewrite <- (dec_u32 a) by auto. rewrite E4. apply dec_u32. auto.
Qed.

Lemma ivf_interrupted : forall w g name x d ws d' dim adim k0 c0 a' k' rows lists', garbage_ok g -> ivf_ok w x -> (1 <= i_k x)%N ->
  d name = None -> d (name ++ "_centers.bin") = None ->
  ivf_steps w name x = Ok ws -> interrupted ws d d' ->
  load_ivf w g name (mkIA (new_ann dim adim) k0 c0 []) d' = Ok (a', k', rows, lists') ->
  same_ann (i_ann x) a' /\ k' = i_k x /\ cut_tail (i_lists x) lists' /\
  exists a2, load_ivf w g name (mkIA (new_ann dim adim) k0 c0 []) (run_steps ws d) = Ok (a2, k', rows, i_lists x).
Proof.
  intros w g name x d ws d' dim adim k0 c0 a' k' rows lists' Hg Hx Hk Hd Hdc Ew Hi Hl.
  destruct (ivf_round_trip w g name x d dim adim k0 c0 Hg Hx) as [d2 [a2 [rows2 [R1 [R2 _]]]]]. rewrite ivf_steps_save, Ew in R1. cbn [bind] in R1.
  assert (d2 = run_steps ws d) by congruence. subst d2. clear R1.
  pose proof Hx as [Ha [Rk [Hc [Hc2 [Hs [Rd [Hlen Hok]]]]]]].
  unfold ivf_steps in Ew. apply bind_ok in Ew. destruct Ew as [s [Es Ew]]. apply bind_ok in Ew. destruct Ew as [c [Ec Ew]].
  apply bind_ok in Ew. destruct Ew as [b [Eb Ew]].
  assert (Ew' : ws = (s ++ [Write (name ++ "_centers.bin") c] ++ [Write name b])%list) by (cbn [app]; congruence). subst ws. clear Ew.
  rewrite save_bin_ok in Ec by auto. assert (Ec' : c = bin_file 4 (i_k x) (a_adim (i_ann x)) (i_centers x)) by congruence.
  assert (Ew := write_lists_ok (i_lists x) [] Hok). cbn [length app] in Ew. rewrite Hlen in Ew. assert (b = lists_bytes (i_lists x)) by congruence. subst b. clear Ew Eb.
  destruct (ann_steps_ok w name (i_ann x) Ha) as [s' [Es' [Ft Hon]]]. assert (s' = s) by congruence. subst s'.
  assert (Hs1 : forall y, In y s -> String.eqb name (target y) = false) by (intros y Hy; apply family_not_base; auto).
  assert (Hs2 : forall y, In y s -> String.eqb (name ++ "_centers.bin") (target y) = false).
  { intros y Hy. destruct (Ft y Hy) as [f [Hf ->]]. rewrite eqb_app. cbn in Hf. intuition (subst; reflexivity). }
  assert (Hcn : String.eqb (name ++ "_centers.bin") name = false) by (rewrite eqb_app_r; reflexivity).
  assert (Hnc : String.eqb name (name ++ "_centers.bin") = false) by (rewrite eqb_app_l; reflexivity).
  unfold load_ivf in Hl. apply bind_ok in Hl. destruct Hl as [a1 [La Hl]]. apply bind_ok in Hl. destruct Hl as [[[[k1 dm1] ad1] rows1] [Lc Hl]].
  apply bind_ok in Hl. destruct Hl as [ls [Li Hl]]. cbn [i_ann i_lists] in *.
  assert (a1 = a') by congruence. assert (k1 = k') by congruence. assert (rows1 = rows) by congruence. assert (ls = lists') by congruence. subst a1 k1 rows1 ls. clear Hl.
  set (d1 := run_steps (s ++ [Write (name ++ "_centers.bin") c])%list d) in *.
  assert (E1 : d1 name = None).
  { unfold d1. rewrite run_frame; auto. intros y Hy. apply in_app_or in Hy. destruct Hy as [Hy|[<-|[]]]; auto. }
  assert (E2 : d1 (name ++ "_centers.bin") = Some c).
  { unfold d1. rewrite run_app. apply fs_set_same. }
  assert (Early : d' name = None -> (d' (name ++ "_centers.bin") = None \/ exists k, d' (name ++ "_centers.bin") = Some (firstn k c)) -> False).
  { intros N1 N2. rewrite N1 in Li. apply load_inverted_bad in Li; [|reflexivity]. destruct Li as [Li _].
    assert (Hk0 : k' = 0%N) by lia. subst k'.
    assert (Hb : is_bytes c).
    { rewrite Ec'. unfold bin_file. apply Forall_app. split; [apply enc_bytes|]. apply Forall_app. split; [apply enc_bytes|]. apply enc_all_bytes. }
    assert (Hbs : forall b0, d' (name ++ "_centers.bin") = Some b0 -> is_bytes b0).
    { intros b0 E0. destruct N2 as [N2|[k N2]]; [congruence|]. assert (b0 = firstn k c) by congruence. subst b0.
      unfold is_bytes in *. apply Forall_forall. intros y Hy. apply (proj1 (Forall_forall _ _) Hb). rewrite <- (firstn_skipn k c). apply in_or_app. auto. }
    destruct (aligned_cases 4 (g 4) (g 5) (d' (name ++ "_centers.bin")) 0%N dm1 ad1 rows ltac:(unfold width; cbn; tauto)
      (proj1 (Hg 4)) (proj1 (Hg 5)) (proj2 (Hg 4)) (proj2 (Hg 5)) Hbs Lc ltac:(reflexivity)) as [rest [E0 _]].
    destruct N2 as [N2|[k N2]]; [congruence|]. rewrite N2 in E0. assert (E3 : firstn k c = (u32 0 ++ u32 dm1 ++ rest)%list) by congruence.
    assert (E4 : c = (u32 0 ++ (u32 dm1 ++ rest) ++ skipn k c)%list).
    { rewrite <- (firstn_skipn k c) at 1. rewrite E3. rewrite <- !app_assoc. reflexivity. }
    rewrite Ec' in E4 at 1. unfold bin_file in E4. apply u32_inj in E4; auto; [lia|reflexivity]. }
  rewrite app_assoc in Hi. apply interrupted_app in Hi. destruct Hi as [Hi|Hi].
  { exfalso. apply Early.
    - rewrite (interrupted_frame _ _ _ Hi); auto. intros y Hy. apply in_app_or in Hy. destruct Hy as [Hy|[<-|[]]]; auto.
    - apply interrupted_app in Hi. destruct Hi as [Hi|Hi].
      + left. rewrite (interrupted_frame _ _ _ Hi); auto.
      + apply interrupted_one in Hi. destruct Hi as [->|[[c1 [[k Hc1] ->]]| ->]].
        * left. rewrite run_frame; auto.
        * right. exists k. cbn [target]. rewrite fs_set_same. congruence.
        * right. exists (length c). unfold run_step. cbn [target final]. rewrite fs_set_same, firstn_all. reflexivity. }
  fold d1 in Hi. apply interrupted_one in Hi.
  assert (Hc' : d' = d1 \/ exists k, d' = fs_set d1 name (Some (firstn k (lists_bytes (i_lists x))))).
  { destruct Hi as [->|[[c1 [[k ->] ->]]| ->]]; [left; auto|right; exists k; reflexivity|].
    right. exists (length (lists_bytes (i_lists x))). rewrite firstn_all. reflexivity. }
  destruct Hc' as [->|[k ->]].
  { exfalso. apply Early; [auto|]. right. exists (length c). rewrite firstn_all. auto. }
  assert (On : ann_on w (i_ann x) name (fs_set d1 name (Some (firstn k (lists_bytes (i_lists x)))))).
  { apply (ann_on_ext _ _ _ (run_steps s d)); [|apply Hon]. intros f Hf. rewrite fs_set_other.
    - unfold d1. rewrite run_app. apply run_frame. intros y [<-|[]]. cbn [target]. rewrite eqb_app. cbn in Hf. intuition (subst; reflexivity).
    - rewrite eqb_app_r. cbn in Hf. intuition (subst; reflexivity). }
  destruct (load_ann_ok w g name (i_ann x) _ dim adim Hg Ha On) as [a3 [E3 S3]]. assert (a3 = a') by congruence. subst a3.
  rewrite fs_set_other in Lc by auto. rewrite E2 in Lc. rewrite fs_set_same in Li. cbn [open_file] in Li.
  rewrite app_assoc, run_app in R2. fold d1 in R2.
  change (run_steps [Write name (lists_bytes (i_lists x))] d1) with (fs_set d1 name (Some (lists_bytes (i_lists x)))) in *.
  pose proof R2 as R3. unfold load_ivf in R3. apply bind_ok in R3. destruct R3 as [a4 [_ R3]]. apply bind_ok in R3. destruct R3 as [[[[k4 dm4] ad4] rows4] [Lc4 R3]].
  rewrite fs_set_other in Lc4 by auto. rewrite E2 in Lc4. rewrite Lc in Lc4. assert (k4 = k') by congruence. assert (rows4 = rows) by congruence. subst k4 rows4.
  apply bind_ok in R3. destruct R3 as [ls4 [_ R3]]. assert (k' = i_k x) by congruence. assert (rows = rows2) by congruence. subst k' rows2.
  split; [exact S3|]. split; [auto|]. split.
  - assert (Ev : vresize (N.to_nat (i_k x)) (@nil N) [] = repeat [] (N.to_nat (i_k x))).
    { unfold vresize. rewrite firstn_nil. cbn [app length]. rewrite Nat.sub_0_r. reflexivity. }
    rewrite Ev in Li. apply (load_inverted_cut (i_lists x) k (N.to_nat (i_k x))); auto. intros E0. rewrite E0 in Hlen. cbn in Hlen. lia.
  - exists a2. rewrite app_assoc, run_app. fold d1. exact R2.
Qed.

(** ** LSH: reading never needs what follows. *)
Definition reads {A : Type} (p : list N -> res (A * list N)) : Prop :=
  forall s v r, p s = Ok (v, r) -> forall t, p (s ++ t)%list = Ok (v, (r ++ t)%list).

Lemma get_int_reads : forall k, reads (get_int k).
Proof.
  intros k s v r H t. unfold get_int in *. destruct (k <=? length s)%nat eqn:E; [|discriminate]. apply Nat.leb_le in E.
  assert (E2 : (k <=? length (s ++ t)%list)%nat = true) by (apply Nat.leb_le; rewrite app_length; lia). rewrite E2.
  rewrite firstn_app, skipn_app. replace (k - length s) with 0 by lia. cbn [firstn skipn]. rewrite app_nil_r.
  assert (v = dec (firstn k s)) by congruence. assert (r = skipn k s) by congruence. subst. reflexivity.
Qed.

Lemma expect_reads : forall c s r, expect c s = Ok r -> forall t, expect c (s ++ t)%list = Ok (r ++ t)%list.
Proof.
  intros c [|x s] r H t; cbn [expect app] in *; [discriminate|]. destruct (N.eqb x c); [|discriminate]. assert (r = s) by congruence. subst. reflexivity.
Qed.

Lemma get_u32s_reads : forall cnt, reads (get_u32s cnt).
Proof.
  induction cnt as [|cnt IH]; intros s v r H t; cbn [get_u32s] in *.
  - assert (v = []) by congruence. assert (r = s) by congruence. subst. reflexivity.
  - apply bind_ok in H. destruct H as [[v1 r1] [E1 H]]. apply bind_ok in H. destruct H as [[v2 r2] [E2 H]]. cbn [fst snd] in *.
    rewrite (get_int_reads 4 s v1 r1 E1 t). cbn [bind fst snd]. rewrite (IH _ _ _ E2 t). cbn [bind fst snd].
    assert (v = v1 :: v2) by congruence. assert (r = r2) by congruence. subst. reflexivity.
Qed.

Lemma get_planes_reads : forall dim cnt, reads (get_planes dim cnt).
Proof.
  intros dim. induction cnt as [|cnt IH]; intros s v r H t; cbn [get_planes] in *.
  - assert (v = []) by congruence. assert (r = s) by congruence. subst. reflexivity.
  - apply bind_ok in H. destruct H as [[v1 r1] [E1 H]]. apply bind_ok in H. destruct H as [[v2 r2] [E2 H]]. cbn [fst snd] in *.
    rewrite (get_u32s_reads dim s v1 r1 E1 t). cbn [bind fst snd]. rewrite (IH _ _ _ E2 t). cbn [bind fst snd].
    assert (v = v1 :: v2) by congruence. assert (r = r2) by congruence. subst. reflexivity.
Qed.

Lemma get_buckets_reads : forall cnt tb, reads (get_buckets cnt tb).
Proof.
  induction cnt as [|cnt IH]; intros tb s v r H t; cbn [get_buckets] in *.
  - assert (v = tb) by congruence. assert (r = s) by congruence. subst. reflexivity.
  - apply bind_ok in H. destruct H as [[v1 r1] [E1 H]]. apply bind_ok in H. destruct H as [[v2 r2] [E2 H]].
    apply bind_ok in H. destruct H as [[v3 r3] [E3 H]]. cbn [fst snd] in *.
    rewrite (get_int_reads 8 s v1 r1 E1 t). cbn [bind fst snd]. rewrite (get_int_reads 4 r1 v2 r2 E2 t). cbn [bind fst snd].
    rewrite (get_u32s_reads _ r2 v3 r3 E3 t). cbn [bind fst snd]. apply (IH _ _ _ _ H).
Qed.

(** [get_tables] with what is left. *)
Fixpoint get_tables' (dim table_size cnt : nat) (s : list N) : res (list table * list N) :=
  match cnt with
  | O => Ok ([], s)
  | S cnt' =>
      do s1 <- expect 64 s;
      if (64 <? table_size)%nat then Exit else
      do hps <- get_planes dim table_size s1;
      do s2 <- expect 37 (snd hps);
      do nb <- get_int 4 s2;
      do t <- get_buckets (N.to_nat (fst nb)) (mkT (fst hps) []) (snd nb);
      do s3 <- expect 36 (snd t);
      do rest <- get_tables' dim table_size cnt' s3;
      Ok (fst t :: fst rest, snd rest)
  end.

Lemma get_tables_left : forall dim ts cnt s, get_tables dim ts cnt s = (do r <- get_tables' dim ts cnt s; Ok (fst r)).
Proof.
  intros dim ts. induction cnt as [|cnt IH]; intros s; cbn [get_tables get_tables']; [reflexivity|].
  destruct (expect 64 s) as [s1| | | |]; cbn [bind]; auto. destruct (64 <? ts)%nat; [reflexivity|].
  destruct (get_planes dim ts s1) as [hps| | | |]; cbn [bind]; auto. destruct (expect 37 (snd hps)) as [s2| | | |]; cbn [bind]; auto.
  destruct (get_int 4 s2) as [nb| | | |]; cbn [bind]; auto. destruct (get_buckets _ _ _) as [t| | | |]; cbn [bind]; auto.
  destruct (expect 36 (snd t)) as [s3| | | |]; cbn [bind]; auto. rewrite IH. destruct (get_tables' dim ts cnt s3) as [r| | | |]; reflexivity.
Qed.

Lemma get_tables_reads : forall dim ts cnt, reads (get_tables' dim ts cnt).
Proof.
  intros dim ts. induction cnt as [|cnt IH]; intros s v r H t; cbn [get_tables'] in *.
  - assert (v = []) by congruence. assert (r = s) by congruence. subst. reflexivity.
  - apply bind_ok in H. destruct H as [s1 [E1 H]]. rewrite (expect_reads _ _ _ E1 t). cbn [bind]. destruct (64 <? ts)%nat; [discriminate|].
    apply bind_ok in H. destruct H as [[hps r1] [E2 H]]. rewrite (get_planes_reads _ _ _ _ _ E2 t). cbn [bind fst snd] in *.
    apply bind_ok in H. destruct H as [s2 [E3 H]]. rewrite (expect_reads _ _ _ E3 t). cbn [bind].
    apply bind_ok in H. destruct H as [[nb r2] [E4 H]]. rewrite (get_int_reads _ _ _ _ E4 t). cbn [bind fst snd] in *.
    apply bind_ok in H. destruct H as [[tb r3] [E5 H]]. rewrite (get_buckets_reads _ _ _ _ _ E5 t). cbn [bind fst snd] in *.
    apply bind_ok in H. destruct H as [s3 [E6 H]]. rewrite (expect_reads _ _ _ E6 t). cbn [bind].
    apply bind_ok in H. destruct H as [[rest r4] [E7 H]]. rewrite (IH _ _ _ E7 t). cbn [bind fst snd] in *.
    assert (v = tb :: rest) by congruence. assert (r = r4) by congruence. subst. reflexivity.
Qed.

Lemma get_tables_enc' : forall dim tsize ts, tsize <= 64 -> (forall t, In t ts -> table_writable dim tsize t) ->
  forall tail, get_tables' dim tsize (length ts) (flat_map table_bytes ts ++ tail)%list = Ok (map drop_empty ts, tail).
Proof.
  intros dim tsize ts Ht. induction ts as [|t ts IH]; intros H tail; [reflexivity|]. cbn [length get_tables' flat_map].
  destruct (H t (or_introl eq_refl)) as [W1 [W2 [W3 [W4 W5]]]]. unfold table_bytes at 1. rewrite <- !app_assoc. cbn [app expect]. rewrite N.eqb_refl. cbn [bind].
  replace (64 <? tsize)%nat with false by (symmetry; apply Nat.ltb_ge; auto).
  rewrite <- W1. rewrite get_planes_enc by auto. cbn [bind fst snd expect]. rewrite N.eqb_refl. cbn [bind].
  unfold u32. rewrite get_int_enc by (exact W4). cbn [bind fst snd]. rewrite Nat2N.id.
  rewrite get_buckets_enc; auto. 2: { intros p q []. } cbn [bind fst snd app expect]. rewrite N.eqb_refl. cbn [bind].
  rewrite W1, IH by (intros x Hx; apply H; right; auto). reflexivity.
Qed.

Lemma lsh_load_prefix : forall dim ix fresh k r, lsh_writable dim ix -> lsh_load dim (firstn k (lsh_bytes ix)) fresh = Ok r ->
  firstn k (lsh_bytes ix) = lsh_bytes ix.
Proof.
  intros dim ix fresh k r [H1 [H2 [H3 H4]]] H. rewrite <- (firstn_skipn k (lsh_bytes ix)) at 2.
  set (p := firstn k (lsh_bytes ix)) in *. set (t := skipn k (lsh_bytes ix)).
  assert (Ept : (p ++ t)%list = lsh_bytes ix) by apply firstn_skipn.
  unfold lsh_load in H. apply bind_ok in H. destruct H as [s1 [E1 H]]. apply bind_ok in H. destruct H as [[nt s2] [E2 H]]. cbn [fst snd] in *.
  apply bind_ok in H. destruct H as [[tsz s3] [E3 H]]. cbn [fst snd] in *. apply bind_ok in H. destruct H as [ts [E4 H]].
  rewrite get_tables_left in E4. apply bind_ok in E4. destruct E4 as [[ts' s4] [E4 _]].
  assert (F1 := expect_reads _ _ _ E1 t). assert (F2 := get_int_reads _ _ _ _ E2 t). assert (F3 := get_int_reads _ _ _ _ E3 t).
  assert (F4 := get_tables_reads _ _ _ _ _ _ E4 t).
  rewrite Ept in F1. unfold lsh_bytes in F1. cbn [app expect] in F1. rewrite N.eqb_refl in F1.
  assert (G1 : (s1 ++ t = u32 (l_num_tables ix) ++ u32 (l_table_size ix) ++ flat_map table_bytes (l_tables ix))%list) by congruence.
  rewrite G1 in F2. unfold u32 at 1 in F2. rewrite get_int_enc in F2 by (exact H2).
  assert (G2 : nt = l_num_tables ix) by congruence.
  assert (G3 : (s2 ++ t = u32 (l_table_size ix) ++ flat_map table_bytes (l_tables ix))%list) by congruence.
  rewrite G3 in F3. unfold u32 in F3. rewrite get_int_enc in F3 by (change (256 ^ N.of_nat 4)%N with (2 ^ 32)%N; lia).
  assert (G4 : tsz = l_table_size ix) by congruence.
  assert (G5 : (s3 ++ t = flat_map table_bytes (l_tables ix))%list) by congruence.
  rewrite G5, G4, G2, H1, Nat2N.id in F4. rewrite <- (app_nil_r (flat_map table_bytes (l_tables ix))) in F4.
  rewrite get_tables_enc' in F4 by (auto; lia). assert (G6 : (s4 ++ t = [])%list) by congruence.
  apply app_eq_nil in G6. destruct G6 as [_ ->]. rewrite app_nil_r. reflexivity.
Qed.

Lemma lsh_load_nothing : forall dim fresh r, lsh_load dim [] fresh <> Ok r.
Proof. intros dim fresh r. discriminate. Qed.

Lemma lsh_interrupted : forall w g name x d ws d' fresh x', ann_ok w (sh_ann x) -> lsh_writable (N.to_nat (a_adim (sh_ann x))) (lsh_view x) ->
  garbage_ok g -> sh_ann fresh = new_ann 0 0 -> d (name ++ "_index.bin") = None ->
  lsh_steps w name x = Ok ws -> interrupted ws d d' -> load_lsh w g name fresh d' = Ok x' ->
  same_ann (sh_ann x) (sh_ann x') /\ (forall m, d' m = run_steps ws d m).
Proof.
  intros w g name x d ws d' fresh x' Ha Hw Hg Hf Hd Ew Hi Hl. unfold lsh_steps in Ew. apply bind_ok in Ew. destruct Ew as [s [Es Ew]].
  assert (Ew' : ws = (s ++ [Write (name ++ "_index.bin") (lsh_bytes (lsh_view x))])%list) by congruence. subst ws. clear Ew.
  destruct (ann_steps_ok w name (sh_ann x) Ha) as [s' [Es' [Ft Hon]]]. assert (s' = s) by congruence. subst s'.
  assert (Hs2 : forall y, In y s -> String.eqb (name ++ "_index.bin") (target y) = false).
  { intros y Hy. destruct (Ft y Hy) as [f [Hff ->]]. rewrite eqb_app. cbn in Hff. intuition (subst; reflexivity). }
  unfold load_lsh in Hl. apply bind_ok in Hl. destruct Hl as [a1 [La Hl]]. apply bind_ok in Hl. destruct Hl as [ix [Li Hl]].
  assert (Early : d' (name ++ "_index.bin") = None -> False).
  { intros E0. rewrite E0 in Li. exact (lsh_load_nothing _ _ _ Li). }
  apply interrupted_app in Hi. destruct Hi as [Hi|Hi].
  { exfalso. apply Early. rewrite (interrupted_frame _ _ _ Hi); auto. }
  assert (E1 : run_steps s d (name ++ "_index.bin") = None) by (rewrite run_frame; auto).
  apply interrupted_one in Hi.
  assert (Hc : exists k, d' = fs_set (run_steps s d) (name ++ "_index.bin") (Some (firstn k (lsh_bytes (lsh_view x))))).
  { destruct Hi as [->|[[c1 [[k ->] ->]]| ->]]; [exfalso; auto|exists k; reflexivity|].
    exists (length (lsh_bytes (lsh_view x))). rewrite firstn_all. reflexivity. }
  destruct Hc as [k ->]. rewrite fs_set_same in Li.
  assert (On : ann_on w (sh_ann x) name (fs_set (run_steps s d) (name ++ "_index.bin") (Some (firstn k (lsh_bytes (lsh_view x)))))).
  { apply (ann_on_ext _ _ _ (run_steps s d)); [|apply Hon]. intros f Hff. rewrite fs_set_other; [auto|].
    rewrite eqb_app. cbn in Hff. intuition (subst; reflexivity). }
  destruct (load_ann_ok w g name (sh_ann x) _ 0%N 0%N Hg Ha On) as [a3 [E3 S3]]. rewrite Hf in La. assert (a3 = a1) by congruence. subst a3.
  assert (x' = mkLA a1 (l_num_tables ix) (l_table_size ix) (l_tables ix)) by congruence. subst x'. cbn [sh_ann]. split; [exact S3|].
  destruct S3 as [_ [_ [Ead _]]]. rewrite Ead in Li. rewrite (lsh_load_prefix _ _ _ _ _ Hw Li).
  intros m. rewrite run_app. reflexivity.
Qed.

(** ** Saving over an older index of the same name: the process stops before the graph
    file is opened. *)
Lemma overwrite_mixes : forall w g name x y d d1 ws dim adim st0, garbage_ok g -> gann_ok w x -> gann_ok w y ->
  a_n (g_ann x) = a_n (g_ann y) -> save_rng w name x d = Ok d1 -> rng_steps w name y = Ok ws ->
  exists d' z, interrupted ws d1 d' /\ load_rng w g name (new_gann dim adim st0) d' = Ok (z, true) /\
    same_ann (g_ann y) (g_ann z) /\ g_lists z = g_lists x /\ g_start z = g_start x /\ g_max z = g_max x.
Proof.
  intros w g name x y d d1 ws dim adim st0 Hg Hx Hy Hn Hs Ew. destruct (save_rng_ok w name x d Hx) as [d2 [E2 [[_ G2] _]]].
  assert (d2 = d1) by congruence. subst d2.
  unfold rng_steps in Ew. apply bind_ok in Ew. destruct Ew as [s [Es Ew]]. apply bind_ok in Ew. destruct Ew as [b [Eb Ew]].
  assert (ws = (s ++ [WriteSized name b])%list) by congruence. subst ws.
  destruct (ann_steps_ok w name (g_ann y) (proj1 Hy)) as [s' [Es' [Ft Hon]]]. assert (s' = s) by congruence. subst s'.
  assert (Hin : forall s t d, interrupted (s ++ t)%list d (run_steps s d)).
  { clear. intros s t. induction s as [|a s IH]; intros d; [constructor|]. cbn [app]. apply stopped_later. apply IH. }
  destruct (load_ann_ok w g name (g_ann y) _ dim adim Hg (proj1 Hy) (Hon d1)) as [a' [E3 S3]].
  assert (E4 : run_steps s d1 name = Some (graph_file (g_max x) (g_start x) (g_lists x))).
  { rewrite run_frame; [auto|]. intros z Hz. apply family_not_base. auto. }
  exists (run_steps s d1), (mkGA a' (g_max x) (g_start x) (g_lists x) []). split; [apply Hin|]. split; [|cbn; auto].
  unfold load_rng. cbn [new_gann g_ann g_max g_start g_lists g_medoids]. rewrite E3. cbn [bind]. rewrite E4.
  rewrite (load_graph_gann w x) by (auto; destruct S3; congruence). reflexivity.
Qed.

(** ** The rest *)
Lemma all_steps : forall w name d,
  (forall x, save_rng w name x d = (do ws <- rng_steps w name x; Ok (run_steps ws d))) /\
  (forall x, save_vamana w name x d = (do ws <- vamana_steps w name x; Ok (run_steps ws d))) /\
  (forall xs, save_hnsw w name 0 xs d = (do ws <- hnsw_steps w name 0 xs; Ok (run_steps ws d))) /\
  (forall x, save_ivf w name x d = (do ws <- ivf_steps w name x; Ok (run_steps ws d))) /\
  (forall x, save_lsh w name x d = (do ws <- lsh_steps w name x; Ok (run_steps ws d))).
Proof.
  intros w name d. split; [intros; apply rng_steps_save|]. split; [intros; apply vamana_steps_save|]. split; [intros; apply hnsw_steps_save|].
  split; [intros; apply ivf_steps_save|intros; apply lsh_steps_save].
Qed.

Lemma cut_tail_safe : forall n lists lists', cut_tail lists lists' -> (forall l id, In l lists -> In id l -> (id < n)%N) -> (n < 2 ^ 32)%N ->
  map (@length N) lists' = map (@length N) lists /\ (forall l id, In l lists' -> In id l -> (id < n)%N).
Proof.
  intros n lists lists' [pre [l [p [-> ->]]]] H Hn. split.
  - rewrite !map_app. cbn [map]. rewrite zero_fill_length. reflexivity.
  - intros l' id Hl Hid. apply in_app_or in Hl. destruct Hl as [Hl|[<-|[]]]; [apply (H l'); auto; apply in_or_app; auto|].
    apply In_nth_error in Hid. destruct Hid as [j Hj].
    assert (Hjl : j < length l) by (rewrite <- (zero_fill_length l p); apply nth_error_Some; congruence).
    destruct (nth_error l j) as [y|] eqn:Ey; [|apply nth_error_None in Ey; lia].
    assert (Hy : (y < n)%N) by (apply (H l); [apply in_or_app; right; left; auto|eapply nth_error_In; eauto]).
    destruct (zero_fill_nth l p j y Ey) as [z [Ez [_ [_ Hz]]]]; [lia|]. assert (z = id) by congruence. subst z. lia.
Qed.

Lemma lsh_interrupted_new : forall w g name x d ws d' x', ann_ok w (sh_ann x) -> lsh_writable (N.to_nat (a_adim (sh_ann x))) (lsh_view x) ->
  garbage_ok g -> d (name ++ "_index.bin") = None ->
  lsh_steps w name x = Ok ws -> interrupted ws d d' -> load_lsh w g name new_lsh d' = Ok x' ->
  same_ann (sh_ann x) (sh_ann x') /\ (forall m, d' m = run_steps ws d m).
Proof. intros w g name x d ws d' x' Ha Hw Hg Hd Es Hi Hl. eapply lsh_interrupted; eauto. reflexivity. Qed.

Lemma other_files : forall w name d d' m ws,
  (exists x, rng_steps w name x = Ok ws /\ ~ family rng_suffixes name m) \/
  (exists x, vamana_steps w name x = Ok ws /\ ~ family vamana_suffixes name m) \/
  (exists xs, hnsw_steps w name 0 xs = Ok ws /\ forall i, (i < length xs)%nat -> ~ family rng_suffixes (level_name name (N.of_nat i)) m) \/
  (exists x, ivf_steps w name x = Ok ws /\ ~ family ivf_suffixes name m) \/
  (exists x, lsh_steps w name x = Ok ws /\ ~ family lsh_suffixes name m) ->
  interrupted ws d d' -> d' m = d m.
Proof.
  intros w name d d' m ws H Hi. apply (interrupted_frame _ _ _ Hi). intros s Hs.
  assert (Sub : forall sufs a s1, (forall f, In f ann_suffixes -> In f sufs) -> ~ family sufs name m -> ann_steps w name a = Ok s1 -> In s s1 ->
    String.eqb m (target s) = false).
  { intros sufs a s1 Hsub Hm Es Hs1. destruct (ann_targets w name a s1 Es s Hs1) as [f [Hf ->]]. eapply not_family; eauto. }
  destruct H as [[x [Ew Hm]]|[[x [Ew Hm]]|[[xs [Ew Hm]]|[[x [Ew Hm]]|[x [Ew Hm]]]]]].
  - apply (family_ne rng_suffixes name); auto. eapply rng_targets; eauto.
  - unfold vamana_steps in Ew. apply bind_ok in Ew. destruct Ew as [s1 [Es Ew]]. apply bind_ok in Ew. destruct Ew as [b [_ Ew]].
    set (sm := if a_filtered (g_ann x) then _ else _) in Ew. assert (ws = (s1 ++ sm ++ [WriteSized name b])%list) by congruence. subst ws.
    apply in_app_or in Hs. destruct Hs as [Hs|Hs].
    + apply (Sub vamana_suffixes (g_ann x) s1); auto. intros f Hf. right. right. auto.
    + apply in_app_or in Hs. destruct Hs as [Hs|[<-|[]]].
      * assert (E : target s = name ++ "_labels_to_medoids.txt").
        { unfold sm in Hs. destruct (a_filtered (g_ann x)); [|destruct Hs]. destruct (g_medoids x); [destruct Hs|]. destruct Hs as [<-|[]]. reflexivity. }
        rewrite E. eapply not_family; [exact Hm|left; auto].
      * cbn [target]. rewrite <- (sapp_nil name). eapply not_family; [exact Hm|right; left; auto].
  - destruct (hnsw_targets w name xs 0 ws Ew s Hs) as [i [Hlt F]]. apply (family_ne rng_suffixes (level_name name (N.of_nat i))); auto.
  - unfold ivf_steps in Ew. apply bind_ok in Ew. destruct Ew as [s1 [Es Ew]]. apply bind_ok in Ew. destruct Ew as [c [_ Ew]].
    apply bind_ok in Ew. destruct Ew as [b [_ Ew]].
    assert (ws = (s1 ++ [Write (name ++ "_centers.bin") c; Write name b])%list) by congruence. subst ws.
    apply in_app_or in Hs. destruct Hs as [Hs|[<-|[<-|[]]]].
    + apply (Sub ivf_suffixes (i_ann x) s1); auto. intros f Hf. right. right. auto.
    + eapply not_family; [exact Hm|left; auto].
    + cbn [target]. rewrite <- (sapp_nil name). eapply not_family; [exact Hm|right; left; auto].
  - unfold lsh_steps in Ew. apply bind_ok in Ew. destruct Ew as [s1 [Es Ew]].
    assert (E : ws = (s1 ++ [Write (name ++ "_index.bin") (lsh_bytes (lsh_view x))])%list) by congruence. rewrite E in Hs.
    apply in_app_or in Hs. destruct Hs as [Hs|[<-|[]]].
    + apply (Sub lsh_suffixes (sh_ann x) s1); auto. intros f Hf. right. auto.
    + eapply not_family; [exact Hm|left; auto].
Qed.
