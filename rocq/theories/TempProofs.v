(** Builds that share /tmp/temp_data: when every build comes out as if it ran alone. *)
From Coq Require Import NArith String List Arith Lia Bool.
From Verif Require Import Base Float32 Bytes StreamModel BinModel BinProofs2 PoolModel SearchModel PruneModel EntryModel BuildModel HnswModel GraphFileModel IndexFileModel SystemModel ToolModel UtilCmdSpec UtilCmdProofs3 TempModel TempSpec.
Import ListNotations.

(** ** The tool alone, step by step *)
Fixpoint h_iter (t : htool) (n : nat) (p : hstate * fs) : hstate * fs :=
  match n with O => p | S n' => h_iter t n' (h_step t (fst p) (snd p)) end.

Lemma iter_add : forall t n m p, h_iter t (n + m) p = h_iter t m (h_iter t n p).
Proof. intros t n. induction n as [|n IH]; intros m p; cbn; [reflexivity|apply IH]. Qed.
Lemma iter_last : forall t n p, h_iter t (S n) p = h_step t (fst (h_iter t n p)) (snd (h_iter t n p)).
Proof. intros t n p. replace (S n) with (n + 1) by lia. rewrite iter_add. reflexivity. Qed.
Lemma iter_failed : forall t n r d, h_iter t n (HFailed r, d) = (HFailed r, d).
Proof. intros t n. induction n as [|n IH]; intros r d; cbn; [reflexivity|apply IH]. Qed.
Lemma iter_done : forall t n l d, h_iter t n (HDone l, d) = (HDone l, d).
Proof. intros t n. induction n as [|n IH]; intros l d; cbn; [reflexivity|apply IH]. Qed.

(** The objects of all levels, outermost first. *)
Fixpoint chain (w : nat) (g : nat -> list N) (a : ann) (cs : list hchoice) (d : fs) : res (list ann * fs) :=
  match cs with
  | [] => UB
  | c :: rest =>
      match rest with
      | [] => Ok ([a], d)
      | _ :: _ =>
          do f <- save_subset w (a_data a) (a_dim a) (a_adim a) (hc_sample c);
          let d1 := match f with Some b => fs_set d temp_name (Some b) | None => d end in
          do ai <- construct w g temp_name (map N.of_nat (hc_sample c)) "" d1;
          do r <- chain w g ai rest (fs_set d1 temp_name None);
          Ok (a :: fst r, snd r)
      end
  end.

Lemma objects_split : forall w g sortf pd prm cs a d,
  hnsw_objects w g sortf pd prm a cs d = (do r <- chain w g a cs d; do l <- build_graphs sortf pd prm (fst r) cs; Ok (l, snd r)).
Proof.
  intros w g sortf pd prm cs. induction cs as [|c rest IH]; intros a d; [reflexivity|].
  cbn [hnsw_objects chain build_graphs]. destruct rest as [|c' rest].
  - cbn [bind fst snd build_graphs]. destruct (calculate_medoid _ _); cbn [bind]; try reflexivity.
    destruct (h_run _ _ _); cbn [bind]; try reflexivity. destruct (all_done _); [|reflexivity]. destruct (h_cleanup _ _ _); reflexivity.
  - destruct (save_subset _ _ _ _ _) as [f| | | |]; cbn [bind]; try reflexivity. destruct (construct _ _ _ _ _ _) as [ai| | | |]; cbn [bind]; try reflexivity.
    rewrite IH. destruct (chain _ _ _ _ _) as [[objs d']| | | |]; cbn [bind fst snd]; try reflexivity. cbn [build_graphs]. fold (build_graphs sortf pd prm).
    destruct (build_graphs sortf pd prm objs (c' :: rest)); cbn [bind fst snd]; try reflexivity.
    destruct (calculate_medoid _ _); cbn [bind]; try reflexivity.
    destruct (h_run _ _ _); cbn [bind]; try reflexivity. destruct (all_done _); [|reflexivity]. destruct (h_cleanup _ _ _); reflexivity.
Qed.

Definition failed_as {A : Type} (r : res A) (s : hstate) : Prop :=
  match r with Ok _ => False | UB => s = HFailed UB | Throw => s = HFailed Throw | Exit => s = HFailed Exit | Fuel => s = HFailed Fuel end.

Lemma chain_iter : forall t cs a made d n,
  match chain (ht_w t) (ht_g t) a cs d with
  | Ok (objs, d') => exists ai c made', h_iter t (3 * (length cs - 1)) (HLevel a cs made, d) = (HLevel ai [c] made', d') /\ (rev (ai :: made') = rev made ++ objs)%list
  | r => 3 * (length cs - 1) + 1 <= n -> failed_as r (fst (h_iter t n (HLevel a cs made, d)))
  end.
Proof.
  intros t cs. induction cs as [|c rest IH]; intros a made d n.
  - cbn [chain length]. intros H. destruct n as [|n]; [lia|]. cbn. rewrite iter_failed. reflexivity.
  - cbn [chain]. destruct rest as [|c' rest].
    + exists a, c, made. split; reflexivity.
    + assert (K : forall m p, h_iter t (3 + m) p = h_iter t m (h_iter t 3 p)) by (intros; apply iter_add).
      assert (E3 : 3 * (length (c :: c' :: rest) - 1) = 3 + 3 * (length (c' :: rest) - 1)) by (cbn [length]; lia).
      destruct (save_subset (ht_w t) (a_data a) (a_dim a) (a_adim a) (hc_sample c)) as [f| | | |] eqn:Es; cbn [bind];
        try (intros H; destruct n as [|n]; [lia|]; cbn [h_iter fst snd h_step]; rewrite Es; cbn [ended]; rewrite iter_failed; reflexivity).
      set (d1 := match f with Some b => fs_set d temp_name (Some b) | None => d end).
      destruct (construct (ht_w t) (ht_g t) temp_name (map N.of_nat (hc_sample c)) "" d1) as [ai| | | |] eqn:Ec; cbn [bind];
        try (intros H; destruct n as [|[|n]]; [lia|cbn [length] in H; lia|]; cbn [h_iter fst snd h_step]; rewrite Es; cbn [ended h_step fst snd]; fold d1; rewrite Ec; cbn [ended]; rewrite iter_failed; reflexivity).
      assert (E : h_iter t 3 (HLevel a (c :: c' :: rest) made, d) = (HLevel ai (c' :: rest) (a :: made), fs_set d1 temp_name None)).
      { cbn [h_iter fst snd h_step]. rewrite Es. cbn [ended h_step fst snd]. fold d1. rewrite Ec. reflexivity. }
      specialize (IH ai (a :: made) (fs_set d1 temp_name None) (n - 3)).
      destruct (chain (ht_w t) (ht_g t) ai (c' :: rest) (fs_set d1 temp_name None)) as [[objs d']| | | |] eqn:Eh; cbn [bind fst snd].
      * destruct IH as [ai' [cl [made' [I1 I2]]]]. exists ai', cl, made'. split; [rewrite E3, K, E; exact I1|]. rewrite I2. cbn [rev]. rewrite <- app_assoc. reflexivity.
      * intros H. replace n with (3 + (n - 3)) by lia. rewrite K, E. apply IH. lia.
      * intros H. replace n with (3 + (n - 3)) by lia. rewrite K, E. apply IH. lia.
      * intros H. replace n with (3 + (n - 3)) by lia. rewrite K, E. apply IH. lia.
      * intros H. replace n with (3 + (n - 3)) by lia. rewrite K, E. apply IH. lia.
Qed.

(** Enough steps end the tool as [alone] has it. *)
Lemma alone_iter : forall t d n, 3 * length (ht_cs t) + 2 <= n ->
  match alone t d with
  | Ok (levels, d') => h_iter t n (HStart, d) = (HDone levels, d')
  | r => failed_as r (fst (h_iter t n (HStart, d)))
  end.
Proof.
  intros t d n Hn. unfold alone, hnsw_tool. destruct n as [|n]; [lia|]. cbn [h_iter fst snd h_step].
  destruct (construct (ht_w t) (ht_g t) (ht_data t) (ht_tags t) "" d) as [a| | | |]; cbn [bind ended]; try (rewrite iter_failed; reflexivity).
  rewrite objects_split. pose proof (chain_iter t (ht_cs t) a [] d n) as C.
  destruct (chain (ht_w t) (ht_g t) a (ht_cs t) d) as [[objs d1]| | | |] eqn:Ech; cbn [bind fst snd]; try (apply C; lia).
  destruct C as [ai [c [made [C1 C2]]]]. cbn [rev app] in C2.
  assert (Hl : 1 <= length (ht_cs t)) by (destruct (ht_cs t); [discriminate|cbn; lia]).
  replace n with (3 * (length (ht_cs t) - 1) + S (S (n - 3 * (length (ht_cs t) - 1) - 2))) by lia. rewrite iter_add, C1. cbn [h_iter fst snd h_step].
  change (rev (ai :: made)) with (rev made ++ [ai])%list in C2. change (rev (ai :: made)) with (rev made ++ [ai])%list. rewrite C2.
  destruct (build_graphs (ht_sortf t) (ht_pd t) (ht_prm t) objs (ht_cs t)) as [l| | | |]; cbn [bind ended fst snd h_step]; try (rewrite iter_failed; reflexivity).
  destruct (save_hnsw (ht_w t) (ht_path t) 0 (rev l) d1) as [d2| | | |]; cbn [bind ended]; try (rewrite iter_failed; reflexivity).
  apply iter_done.
Qed.

(** ** One step on two file systems *)
Definition own (t : htool) (m : string) : Prop := m = ht_data t \/ begins (ht_path t) m.

Definition dims_ok (s : hstate) : Prop :=
  match s with HLevel a _ _ | HWritten a _ _ | HMade a _ _ => (a_dim a <= a_adim a)%N | _ => True end.

Lemma construct_dims : forall w g name tags d a, construct w g name tags "" d = Ok a -> (a_dim a <= a_adim a)%N.
Proof.
  intros w g name tags d a H. unfold construct in H. apply bind_ok in H. destruct H as [[[[n dim] adim] rows] [H1 H]]. apply bind_ok in H. destruct H as [tg [_ H]]. cbn in H. injection H as <-. cbn.
  unfold load_aligned_bin in H1. destruct (read_header _ _ _) as [[p q] s]. destruct (_ =? _)%N; [|discriminate]. apply bind_ok in H1. destruct H1 as [r [_ H1]]. injection H1 as <- <- <- <-. apply round_up_le.
Qed.
Lemma construct_reads : forall w g name tags d e, d name = e name -> construct w g name tags "" d = construct w g name tags "" e.
Proof. intros w g name tags d e H. unfold construct. rewrite H. reflexivity. Qed.

Definition alike (d e d' e' : fs) : Prop := forall m, d m = e m -> d' m = e' m.
Lemma alike_set : forall d e name v, alike d e (fs_set d name v) (fs_set e name v).
Proof. intros d e name v m H. unfold fs_set. destruct (String.eqb m name); auto. Qed.
Lemma alike_trans : forall d e d1 e1 d2 e2, alike d e d1 e1 -> alike d1 e1 d2 e2 -> alike d e d2 e2.
Proof. intros d e d1 e1 d2 e2 A B m H. apply B, A, H. Qed.
Lemma alike_refl : forall d e, alike d e d e.
Proof. intros d e m H. exact H. Qed.

(** Two runs on different file systems: the same outcome, and files that were alike stay so. *)
Definition twin (r r' : res fs) (d e : fs) : Prop :=
  match r, r' with
  | Ok d', Ok e' => alike d e d' e'
  | UB, UB | Throw, Throw | Exit, Exit | Fuel, Fuel => True
  | _, _ => False
  end.
Lemma save_ann_twin : forall w name a d e, twin (save_ann w name a d) (save_ann w name a e) d e.
Proof.
  intros w name a d e. unfold save_ann. destruct (save_orig _ _ _ _) as [f| | | |]; cbn [bind twin]; auto. destruct (save_bin _ _ _ _) as [b| | | |]; cbn [bind twin]; auto.
  assert (A1 : alike d e (match f with Some b => fs_set d (name ++ "_data.bin") (Some b) | None => d end) (match f with Some b => fs_set e (name ++ "_data.bin") (Some b) | None => e end))
    by (destruct f; [apply alike_set|apply alike_refl]).
  destruct (a_filtered a).
  - destruct (save_labels _) as [x| | | |]; cbn [bind twin]; auto. destruct (a_use_univ a); (eapply alike_trans; [|apply alike_set]; eapply alike_trans; [|apply alike_set]; eapply alike_trans; [exact A1|apply alike_set]).
  - eapply alike_trans; [|apply alike_set]; eapply alike_trans; [|apply alike_set]; eapply alike_trans; [exact A1|apply alike_set].
Qed.
Lemma save_rng_twin : forall w name x d e, twin (save_rng w name x d) (save_rng w name x e) d e.
Proof.
  intros w name x d e. unfold save_rng. pose proof (save_ann_twin w name (g_ann x) d e) as T.
  destruct (save_ann w name (g_ann x) d) as [d1| | | |]; destruct (save_ann w name (g_ann x) e) as [e1| | | |]; cbn [bind twin] in *; auto; try contradiction.
  destruct (save_graph _ _ _ _); cbn [bind twin]; auto. eapply alike_trans; [exact T|apply alike_set].
Qed.
Lemma save_hnsw_twin : forall w name levels k d e, twin (save_hnsw w name k levels d) (save_hnsw w name k levels e) d e.
Proof.
  intros w name levels. induction levels as [|x rest IH]; intros k d e; cbn [save_hnsw]; [apply alike_refl|].
  pose proof (save_rng_twin w (level_name name k) x d e) as T.
  destruct (save_rng w (level_name name k) x d) as [d1| | | |]; destruct (save_rng w (level_name name k) x e) as [e1| | | |]; cbn [bind twin] in *; auto; try contradiction.
  specialize (IH (k + 1)%N d1 e1). destruct (save_hnsw w name (k + 1) rest d1); destruct (save_hnsw w name (k + 1) rest e1); cbn [twin] in *; auto; try contradiction. eapply alike_trans; eauto.
Qed.

Lemma step_same : forall t s d e, dims_ok s -> (forall m, own t m -> d m = e m) -> (in_window s -> d temp_name = e temp_name) ->
  fst (h_step t s d) = fst (h_step t s e) /\ dims_ok (fst (h_step t s d)) /\
  (forall m, own t m -> snd (h_step t s d) m = snd (h_step t s e) m) /\
  (in_window (fst (h_step t s d)) -> snd (h_step t s d) temp_name = snd (h_step t s e) temp_name).
Proof.
  intros t s d e Hd Ho Hw. destruct s as [|a cs made|a cs made|ai cs made|levels|levels|r]; cbn [h_step].
  - rewrite (construct_reads _ _ _ _ d e) by (apply Ho; left; reflexivity). destruct (construct _ _ _ _ _ e) as [a| | | |] eqn:E; cbn; try tauto.
    split; [reflexivity|]. split; [eapply construct_dims, E|]. split; [exact Ho|tauto].
  - destruct cs as [|c [|c' rest]]; [cbn; tauto| |].
    + destruct (build_graphs _ _ _ _ _); cbn; tauto.
    + destruct (save_subset _ _ _ _ _) as [f| | | |] eqn:Es; cbn; try tauto. split; [reflexivity|]. split; [exact Hd|].
      destruct f as [b|].
      * split; [intros m Hm; apply alike_set, Ho, Hm|]. intros _. unfold fs_set. rewrite String.eqb_refl. reflexivity.
      * exfalso. unfold save_subset in Es. cbn in Hd. apply N.ltb_ge in Hd. rewrite Hd in Es. apply bind_ok in Es. destruct Es as [sel [_ Es]]. apply bind_ok in Es. destruct Es as [b [_ Es]]. discriminate.
  - destruct cs as [|c rest]; [cbn; tauto|]. cbv iota beta. rewrite (construct_reads _ _ _ _ d e) by (apply Hw; exact I). destruct (construct _ _ _ _ _ e) as [ai| | | |] eqn:E; cbn; try tauto.
    split; [reflexivity|]. split; [eapply construct_dims, E|]. split; [exact Ho|intros _; apply Hw; exact I].
  - cbn. split; [reflexivity|]. split; [exact Hd|]. split; [intros m Hm; apply alike_set, Ho, Hm|tauto].
  - pose proof (save_hnsw_twin (ht_w t) (ht_path t) (rev levels) 0 d e) as T.
    destruct (save_hnsw (ht_w t) (ht_path t) 0 (rev levels) d) as [d1| | | |]; destruct (save_hnsw (ht_w t) (ht_path t) 0 (rev levels) e) as [e1| | | |]; cbn in *; try tauto.
    split; [reflexivity|]. split; [exact I|]. split; [intros m Hm; apply T, Ho, Hm|tauto].
  - cbn. tauto.
  - cbn. tauto.
Qed.

Lemma step_frame : forall t s d, ~ begins (ht_path t) temp_name ->
  (forall m, m <> temp_name -> ~ begins (ht_path t) m -> snd (h_step t s d) m = d m) /\
  (~ in_window s -> ~ in_window (fst (h_step t s d)) -> snd (h_step t s d) temp_name = d temp_name).
Proof.
  intros t s d Ht. destruct s as [|a cs made|a cs made|ai cs made|levels|levels|r]; cbn [h_step].
  - destruct (construct _ _ _ _ _ _); cbn; auto.
  - destruct cs as [|c [|c' rest]]; [cbn; auto| |].
    + destruct (build_graphs _ _ _ _ _); cbn; auto.
    + destruct (save_subset _ _ _ _ _) as [f| | | |]; cbn; auto. split; [|tauto].
      intros m Hm _. destruct f; [|reflexivity]. unfold fs_set. apply String.eqb_neq in Hm. rewrite Hm. reflexivity.
  - destruct cs as [|c rest]; [cbn; auto|]. cbv iota beta. destruct (construct _ _ _ _ _ _); cbn; auto.
  - cbn. split; [|tauto]. intros m Hm _. unfold fs_set. apply String.eqb_neq in Hm. rewrite Hm. reflexivity.
  - destruct (save_hnsw (ht_w t) (ht_path t) 0 (rev levels) d) as [d1| | | |] eqn:E; cbn; auto.
    split; [intros m _ Hm|intros _ _]; apply (save_hnsw_keeps _ _ _ _ _ _ _ E); auto.
  - cbn. auto.
  - cbn. auto.
Qed.

(** ** All processes *)
Lemma sched_app : forall tools l l' s d, h_sched tools (l ++ l') s d = h_sched tools l' (fst (h_sched tools l s d)) (snd (h_sched tools l s d)).
Proof. intros tools l. induction l as [|i l IH]; intros l' s d; cbn [app h_sched]; [reflexivity|apply IH]. Qed.

Definition with_alone (tools : list htool) (d0 : fs) (sched : list nat) : Prop :=
  forall i t, nth_error tools i = Some t -> exists D,
    let p := h_together tools sched d0 in
    h_iter t (steps_of i sched) (HStart, d0) = (fst p i, D) /\ dims_ok (fst p i) /\
    (forall m, own t m -> snd p m = D m) /\ (in_window (fst p i) -> snd p temp_name = D temp_name).

Lemma together_alone : forall tools d0 sched, names_apart tools -> windows_apart tools sched d0 -> with_alone tools d0 sched.
Proof.
  intros tools d0 sched [Hn1 Hn2]. induction sched as [|x l IH] using rev_ind; intros Hw.
  - intros i t Hi. exists d0. cbn. repeat split; auto.
  - assert (Hw' : windows_apart tools l d0).
    { intros k i j. destruct (le_lt_dec k (length l)) as [L|L].
      - specialize (Hw k i j). rewrite firstn_app in Hw. replace (k - length l) with 0 in Hw by lia. cbn [firstn] in Hw. rewrite app_nil_r in Hw. exact Hw.
      - rewrite firstn_all2 by lia. specialize (Hw (length l) i j). rewrite firstn_app, firstn_all, Nat.sub_diag in Hw. cbn [firstn] in Hw. rewrite app_nil_r in Hw. exact Hw. }
    specialize (IH Hw'). pose proof (Hw' (length l)) as W1. pose proof (Hw (length (l ++ [x]))) as W2. rewrite firstn_all in W1, W2. cbn zeta in W1, W2.
    intros i t Hi. destruct (IH i t Hi) as [D [I1 [I2 [I3 I4]]]]. cbn zeta in *.
    unfold h_together in *. rewrite sched_app in *. set (s := fst (h_sched tools l (fun _ => HStart) d0)) in *. set (d := snd (h_sched tools l (fun _ => HStart) d0)) in *.
    cbn [h_sched] in *. unfold h_all in *. unfold steps_of. rewrite count_occ_app. cbn [count_occ].
    destruct (nth_error tools x) as [u|] eqn:Hx.
    + cbn [fst snd] in *. destruct (Nat.eq_dec x i) as [->|Ne].
      * assert (u = t) by congruence. subst u. rewrite Nat.eqb_refl in *. destruct (step_same t (s i) d D I2 I3 I4) as [S1 [S2 [S3 S4]]].
        exists (snd (h_step t (s i) D)). rewrite Nat.add_1_r, iter_last. fold (steps_of i l). rewrite I1. cbn [fst snd]. split; [rewrite S1; apply surjective_pairing|]. auto.
      * assert (Eb : Nat.eqb i x = false) by (apply Nat.eqb_neq; congruence). rewrite Eb.
        destruct (Hn1 x u Hx) as [_ Hu]. destruct (Hn1 i t Hi) as [Ht1 Ht2]. destruct (Hn2 i x t u Hi Hx (not_eq_sym Ne)) as [Na Nb].
        destruct (step_frame u (s x) d Hu) as [F1 F2]. exists D. rewrite Nat.add_0_r. split; [exact I1|]. split; [exact I2|]. split.
        -- intros m Hm. rewrite F1; [apply I3, Hm| |].
           ++ destruct Hm as [->|Hm]; [exact Ht1|]. intros ->. apply Ht2, Hm.
           ++ destruct Hm as [->|Hm]; [exact Na|apply Nb, Hm].
        -- intros Hwi. rewrite F2; [apply I4, Hwi| |].
           ++ intros Hwx. apply Ne. apply (W1 x i Hwx Hwi).
           ++ intros Hwx. apply Ne. apply (W2 x i); [rewrite Nat.eqb_refl; exact Hwx|rewrite Eb; exact Hwi].
    + exists D. destruct (Nat.eq_dec x i) as [->|Ne]; [congruence|]. rewrite Nat.add_0_r. cbn [fst snd]. auto.
Qed.

Lemma builds_apart : forall tools sched d i t, names_apart tools -> windows_apart tools sched d ->
  nth_error tools i = Some t -> 3 * length (ht_cs t) + 2 <= steps_of i sched ->
  ended_as (ht_path t) (fst (h_together tools sched d) i) (snd (h_together tools sched d)) (alone t d).
Proof.
  intros tools sched d i t Hn Hw Hi Hs. destruct (together_alone tools d sched Hn Hw i t Hi) as [D [I1 [_ [I3 _]]]]. cbn zeta in *.
  pose proof (alone_iter t d (steps_of i sched) Hs) as A. rewrite I1 in A. unfold ended_as, failed_as in *. cbn [fst] in A.
  destruct (alone t d) as [[levels d']| | | |]; auto. injection A as A1 A2. split; [exact A1|]. intros m Hm. rewrite <- A2. apply I3. right. exact Hm.
Qed.
