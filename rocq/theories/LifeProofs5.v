(** When a search or a save finds everything it reads. *)
From Coq Require Import List Arith Bool Lia.
From Verif Require Import Base LifeModel LifeSpec.
Import ListNotations.

Lemma built_length : forall level ins inners h inners' h', build_inners level inners ins h = Done (inners', h') -> length inners' = level \/ (level = 0 /\ inners' = inners).
Proof.
  induction level as [|l IH]; intros [|i ins] inners h inners' h' H; cbn [build_inners] in H; try discriminate; destruct (params_ok i); try discriminate.
  - destruct (rest_ok i); inversion H; subst; auto.
  - left. destruct (obtain FNew h) as [p h1]. destruct (base_from_file true (temp i) h1) as [[[b|] h2]|[x h2]| |]; try discriminate; try (destruct (release FNew p h2); discriminate).
    destruct (build_inners l [] ins h2) as [[rest h3]|[rest h3]| |] eqn:E; try discriminate. destruct (rest_ok i); inversion H; subst. cbn.
    destruct (IH _ _ _ _ _ E) as [G|[G ->]]; cbn; lia.
Qed.

Lemma from_file_data : forall m f h b h', base_from_file m f h = Done (Some b, h') -> set_ptr (b_data b) = true.
Proof.
  intros m f h b h' H. unfold base_from_file, obtain in H. destruct (data_ok f), m, (tags_ok f), (counts_ok f); try discriminate. inversion H. reflexivity.
Qed.

Lemma built_data : forall level ins inners h inners' h', forallb (fun p => set_ptr (b_data (snd p))) inners = true -> build_inners level inners ins h = Done (inners', h') ->
  forallb (fun p => set_ptr (b_data (snd p))) inners' = true.
Proof.
  induction level as [|l IH]; intros [|i ins] inners h inners' h' Hi H; cbn [build_inners] in H; try discriminate; destruct (params_ok i); try discriminate.
  - destruct (rest_ok i); inversion H; subst; auto.
  - destruct (obtain FNew h) as [p h1]. destruct (base_from_file true (temp i) h1) as [[[b|] h2]|[x h2]| |] eqn:Eb; try discriminate; try (destruct (release FNew p h2); discriminate).
    destruct (build_inners l [] ins h2) as [[rest h3]|[rest h3]| |] eqn:E; try discriminate. destruct (rest_ok i); inversion H; subst. cbn.
    rewrite (from_file_data _ _ _ _ _ Eb). cbn. exact (IH ins [] h2 rest _ eq_refl E).
Qed.

Lemma use_built : forall k m f h0 o h1 ins o' h2 r, make_from_file k m f h0 = Done (Some o, h1) -> step (Build ins) o h1 = Done (o', h2) ->
  step (Use r) o' h2 = if r then Done (o', h2) else Threw (o', h2).
Proof.
  intros k m f h0 o h1 ins o' h2 r Hm Hb. cut (usable o' = true); [intros U; cbn [step]; now rewrite U|].
  unfold make_from_file in Hm. destruct (base_from_file m f h0) as [[[b|] hh]|[x hh]| |] eqn:Eb; try discriminate. inversion Hm; subst; clear Hm.
  pose proof (from_file_data _ _ _ _ _ Eb) as D. destruct k as [| |level]; cbn [step call_build] in Hb; rewrite D in Hb.
  - destruct ins as [|i ins]; [discriminate|]. destruct (params_ok i && rest_ok i); inversion Hb; subst. exact D.
  - destruct ins as [|i ins]; [discriminate|]. destruct (params_ok i); [|discriminate]. unfold obtain in Hb. destruct (rest_ok i); inversion Hb; subst. cbn. now rewrite D.
  - destruct (build_inners level [] ins h1) as [[inners h3]|[inners h3]| |] eqn:E; try discriminate. inversion Hb; subst. cbn [usable]. rewrite D. cbn [andb].
    rewrite (built_data _ _ [] _ _ _ eq_refl E), andb_true_r. apply Nat.eqb_eq. destruct (built_length _ _ _ _ _ _ E) as [G|[-> ->]]; auto.
Qed.

Lemma base_load_data : forall f b h b' h', base_load f b h = Done (b', h') -> set_ptr (b_data b') = true.
Proof.
  intros f b h b' h' H. unfold base_load, obtain, finish in H. destruct (data_ok f), (tags_ok f), (counts_ok f), (f_rest f); try discriminate. inversion H. reflexivity.
Qed.

Lemma load_inners_data : forall level inners fs h inners' h', length inners = level -> load_inners level inners fs h = Done (inners', h') ->
  length inners' = level /\ forallb (fun p => set_ptr (b_data (snd p))) inners' = true.
Proof.
  induction level as [|l IH]; intros inners fs h inners' h' L H; cbn [load_inners] in H.
  - inversion H; subst. destruct inners'; [auto|discriminate].
  - destruct inners as [|[p b] rest]; [discriminate|]. destruct fs as [|f fs]; [discriminate|].
    destruct (load_inners l rest fs h) as [[r h1]|[r h1]| |] eqn:E; try discriminate. destruct (base_load f b h1) as [[b' h2]|[b' h2]| |] eqn:Eb; try discriminate. inversion H; subst.
    injection L as L. destruct (IH _ _ _ _ _ L E) as [G1 G2]. cbn. rewrite (base_load_data _ _ _ _ _ Eb), G2, G1. auto.
Qed.

Lemma empty_length : forall level h, length (fst (empty_inners level h)) = level.
Proof. induction level as [|l IH]; intros h; [reflexivity|]. cbn. destruct (empty_inners l _) as [rest h3] eqn:E. cbn. f_equal. rewrite <- (IH _ : length (fst (empty_inners l (snd (base_empty (snd (obtain FNew h)))))) = l). cbn. unfold base_empty, obtain in E. cbn in E. now rewrite E. Qed.

Lemma use_loaded : forall k m h0 o h1 fs c o' h2 r, make_empty k m h0 = Done (Some o, h1) -> step (Load fs c) o h1 = Done (o', h2) ->
  step (Use r) o' h2 = if r then Done (o', h2) else Threw (o', h2).
Proof.
  intros k m h0 o h1 fs c o' h2 r Hm Hb. cut (usable o' = true); [intros U; cbn [step]; now rewrite U|].
  unfold make_empty in Hm. destruct m; [|discriminate]. destruct (base_empty h0) as [b hb]. cbn [step call_load] in Hb. destruct fs as [|f fs]; [discriminate|].
  destruct k as [| |level].
  - inversion Hm; subst. cbn [call_load] in Hb. destruct (base_load f b h1) as [[b' h']|[b' h']| |] eqn:E; try discriminate. inversion Hb; subst. exact (base_load_data _ _ _ _ _ E).
  - inversion Hm; subst. cbn [call_load] in Hb. destruct (base_load _ b h1) as [[b' h']|[b' h']| |] eqn:E; try discriminate. destruct c; [|discriminate]. unfold obtain, finish in Hb. destruct (f_rest f); inversion Hb; subst.
    cbn. now rewrite (base_load_data _ _ _ _ _ E).
  - pose proof (empty_length level hb) as L. destruct (empty_inners level hb) as [inners hi]. injection Hm as <- <-. cbn [call_load] in Hb. cbn [fst] in L.
    destruct (load_inners level inners fs hi) as [[inn h3]|[inn h3]| |] eqn:Ei; try discriminate. destruct (base_load f b h3) as [[b' h']|[b' h']| |] eqn:E; try discriminate. injection Hb as <- <-.
    destruct (load_inners_data _ _ _ _ _ _ L Ei) as [G1 G2]. cbn [usable]. rewrite (base_load_data _ _ _ _ _ E), G2, G1, Nat.eqb_refl. reflexivity.
Qed.

(** Before anything was loaded or built. *)
Lemma use_empty : forall k m h0 o h1 r cs, make_empty k m h0 = Done (Some o, h1) -> run (Use r :: cs) o h1 = Bad.
Proof.
  intros k m h0 o h1 r cs Hm. unfold make_empty in Hm. destruct m; [|discriminate]. cbn [base_empty obtain] in Hm. unfold base_empty, obtain in Hm.
  destruct k as [| |level]; [inversion Hm; reflexivity|inversion Hm; reflexivity|]. destruct (empty_inners level _) as [inn hi]. inversion Hm; reflexivity.
Qed.

Definition needs_build (k : kind) : Prop := match k with KPlain | KHnsw O => False | KIvf | KHnsw (S _) => True end.

Lemma use_unbuilt : forall k m f h0 o h1 r cs, needs_build k -> make_from_file k m f h0 = Done (Some o, h1) -> run (Use r :: cs) o h1 = Bad.
Proof.
  intros k m f h0 o h1 r cs Hk Hm. unfold make_from_file in Hm. destruct (base_from_file m f h0) as [[[b|] hh]|[x hh]| |]; try discriminate. inversion Hm; subst; clear Hm.
  destruct k as [| |[|level]]; try contradiction; cbn [run step usable]; [now rewrite andb_false_r|]. cbn. now rewrite andb_false_r.
Qed.

(** HNSW: a build that stopped before its first inner level was made. *)
Lemma use_stopped : forall level m f h0 o h1 i ins r cs, heap_ok h0 -> make_from_file (KHnsw (S level)) m f h0 = Done (Some o, h1) ->
  params_ok i = false \/ data_ok (temp i) = false -> run (Build (i :: ins) :: Use r :: cs) o h1 = Bad.
Proof.
  intros level m f h0 o h1 i ins r cs Hh Hm Hi. unfold make_from_file in Hm. destruct (base_from_file m f h0) as [[[b|] hh]|[x hh]| |] eqn:Eb; try discriminate. inversion Hm; subst; clear Hm.
  cbn [run step call_build]. rewrite (from_file_data _ _ _ _ _ Eb). cbn [build_inners].
  destruct (params_ok i); [|cbn [usable length Nat.eqb]; now rewrite andb_false_r].
  destruct Hi as [|Hd]; [discriminate|]. unfold obtain, base_from_file. rewrite Hd. cbn [release]. cbn [h_live drop_block h_next]. rewrite Nat.eqb_refl. cbn [form_eqb]. cbv iota beta.
  cbn [usable length Nat.eqb andb]. now rewrite andb_false_r.
Qed.
