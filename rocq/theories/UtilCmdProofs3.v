(** * What the build and search tools leave alone; truth, index and search in one script. *)
From Coq Require Import NArith ZArith String List Arith Bool Lia Floats.SpecFloat.
From Verif Require Import Base Bytes Float32 BinSpec StreamModel BinModel TsvSpec TextModel ParamModel LloydModel NormModel DistModel FusedModel StatsModel TruthModel
  PoolModel GreedyModel SearchModel HnswModel PruneModel BuildModel EntryModel RngModel ClosestModel FlatModel IvfModel LshModel IndexFileModel SystemModel ToolModel
  CmdModel CmdSpec CmdProofs CmdProofs2 CmdProofs3 CmdProofs5 CmdProofs4 CmdProofs6 UtilCmdModel UtilCmdSpec UtilCmdProofs UtilCmdProofs2.
Import ListNotations.
Local Open Scope string_scope.

Lemma not_it : forall s name rest, ~ begins s name -> name <> s ++ rest.
Proof. intros s name rest H E. apply H. now exists rest. Qed.
Lemma app_nil : forall s, s = s ++ "".
Proof. induction s as [|a s IH]; [reflexivity|]. cbn. now rewrite <- IH. Qed.
Lemma not_self : forall s name, ~ begins s name -> name <> s.
Proof. intros s name H E. apply H. exists "". now rewrite <- app_nil. Qed.
Lemma app_assoc_s : forall a b c : string, (a ++ b) ++ c = a ++ (b ++ c).
Proof. induction a as [|x a IH]; intros; [reflexivity|]. cbn. now rewrite IH. Qed.

Lemma bind_inv : forall (A B : Type) (x : res A) (f : A -> res B) (y : B), bind x f = Ok y -> exists a, x = Ok a /\ f a = Ok y.
Proof. intros A B [a| | | |] f y H; try discriminate. now exists a. Qed.

Ltac binds H := repeat match type of H with bind ?x _ = Ok _ => let a := fresh "a" in let E := fresh "E" in apply bind_inv in H; destruct H as [a [E H]]; cbn beta in H | _ => progress cbn zeta in H end.

Lemma save_ann_keeps : forall w name a d d' m, save_ann w name a d = Ok d' -> ~ begins name m -> kept d d' m.
Proof.
  intros w name a d d' m H B. unfold save_ann in H. apply bind_inv in H. destruct H as [f [_ H]]. cbn zeta in H. apply bind_inv in H. destruct H as [t [_ H]]. unfold kept.
  assert (E : forall x, (match f with Some b => fs_set d (name ++ "_data.bin") (Some b) | None => d end) x = d x \/ x = name ++ "_data.bin").
  { intros x. destruct f as [b|]; [|now left]. destruct (string_dec x (name ++ "_data.bin")); [now right|left]. now apply set_other. }
  assert (E2 : (match f with Some b => fs_set d (name ++ "_data.bin") (Some b) | None => d end) m = d m) by (destruct (E m) as [Q|Q]; [exact Q|exfalso; exact (not_it _ _ _ B Q)]). clear E.
  destruct (a_filtered a).
  - apply bind_inv in H. destruct H as [x [_ H]]. destruct (a_use_univ a); injection H as <-; rewrite !set_other by (now apply not_it); exact E2.
  - injection H as <-; rewrite !set_other by (now apply not_it); exact E2.
Qed.

Lemma save_rng_keeps : forall w name x d d' m, save_rng w name x d = Ok d' -> ~ begins name m -> kept d d' m.
Proof. intros w name x d d' m H B. unfold save_rng in H. binds H. injection H as <-. unfold kept. rewrite set_other by (now apply not_self). exact (save_ann_keeps _ _ _ _ _ _ E B). Qed.
Lemma save_vamana_keeps : forall w name x d d' m, save_vamana w name x d = Ok d' -> ~ begins name m -> kept d d' m.
Proof.
  intros w name x d d' m H B. unfold save_vamana in H. binds H. injection H as <-. unfold kept. rewrite set_other by (now apply not_self). pose proof (save_ann_keeps _ _ _ _ _ _ E B) as K. unfold kept in K.
  destruct (a_filtered _); [|exact K]. destruct (g_medoids x); [exact K|]. now rewrite set_other by (now apply not_it).
Qed.
Lemma save_hnsw_keeps : forall w name levels k d d' m, save_hnsw w name k levels d = Ok d' -> ~ begins name m -> kept d d' m.
Proof.
  intros w name levels. induction levels as [|x t IH]; intros k d d' m H B; cbn [save_hnsw] in H; [now injection H as <-|]. binds H. unfold kept. rewrite (IH _ _ _ _ H B). apply (save_rng_keeps _ _ _ _ _ _ E).
  intros [rest R]. apply B. unfold level_name in R. rewrite !app_assoc_s in R. eexists. exact R.
Qed.
Lemma save_ivf_keeps : forall w name x d d' m, save_ivf w name x d = Ok d' -> ~ begins name m -> kept d d' m.
Proof. intros w name x d d' m H B. unfold save_ivf in H. binds H. injection H as <-. unfold kept. rewrite set_other by (now apply not_self). rewrite set_other by (now apply not_it). exact (save_ann_keeps _ _ _ _ _ _ E B). Qed.
Lemma save_lsh_keeps : forall w name x d d' m, save_lsh w name x d = Ok d' -> ~ begins name m -> kept d d' m.
Proof. intros w name x d d' m H B. unfold save_lsh in H. binds H. injection H as <-. unfold kept. rewrite set_other by (now apply not_it). exact (save_ann_keeps _ _ _ _ _ _ E B). Qed.

Lemma hnsw_objects_keeps : forall w g sortf pd prm cs a d r m, hnsw_objects w g sortf pd prm a cs d = Ok r -> m <> temp_name -> kept d (snd r) m.
Proof.
  intros w g sortf pd prm cs. induction cs as [|c rest IH]; intros a d r m H T; [discriminate|]. cbn [hnsw_objects] in H. apply bind_inv in H. destruct H as [inner [E H]]. binds H. destruct (all_done _); [|discriminate]. binds H. injection H as <-. cbn [snd].
  destruct rest as [|c' rest]; [now injection E as <-|]. binds E. unfold kept. rewrite (IH _ _ _ _ E T), set_other by exact T. destruct a3 as [b|]; [now rewrite set_other|reflexivity].
Qed.

Lemma finished_inv : forall (A : Type) (r : res (A * fs)) z d', finished r = Ok (z, d') -> exists x, r = Ok (x, d').
Proof. intros A r z d' H. unfold finished in H. binds H. injection H as <- <-. destruct a as [x d]. now exists x. Qed.

Lemma vamana_keeps : forall atof g sortf pd cent work sched order prog kt m data labels words save r R l L al t T d z d', supported kt m -> optional labels words -> number_arg r R -> number_arg l L -> number_arg t T -> finite (f32_of_f64 (atof al)) ->
  build_vamana_main atof g sortf pd cent work sched order ([prog; type_word kt; metric_word m; data] ++ words ++ [save; r; l; al; t]) d = Ok (z, d') -> forall name, ~ begins save name -> kept d d' name.
Proof.
  intros atof g sortf pd cent work sched order prog kt m data labels words save r R l L al t T d z d' S O HR HL HT F H name B.
  destruct (build_vamana_ok atof g sortf pd cent work sched order prog kt m data labels words save r R l L al t T d S O HR HL HT F) as [alpha [_ E]]. rewrite E in H.
  apply finished_inv in H. destruct H as [x H]. unfold vamana_tool in H. binds H. injection H as _ <-. exact (save_vamana_keeps _ _ _ _ _ _ E2 B).
Qed.
Lemma hnsw_keeps : forall atof g sortf pd choices prog kt m data save r R l L ru rule ra ls levels t T d z d', supported kt m -> number_arg r R -> number_arg l L -> number_arg ru rule -> number_arg ls levels -> (1 <= levels)%N -> number_arg t T -> finite (f32_of_f64 (atof ra)) ->
  build_hnsw_main atof g sortf pd choices [prog; type_word kt; metric_word m; data; save; r; l; ru; ra; ls; t] d = Ok (z, d') -> forall name, ~ begins save name -> name <> "/tmp/temp_data" -> kept d d' name.
Proof.
  intros atof g sortf pd choices prog kt m data save r R l L ru rule ra ls levels t T d z d' S HR HL Hr Hl H1 HT F H name B Tn.
  rewrite (build_hnsw_ok atof g sortf pd choices prog kt m data save r R l L ru rule ra ls levels t T d S HR HL Hr Hl H1 HT F) in H.
  apply finished_inv in H. destruct H as [x H]. unfold hnsw_tool in H. binds H. injection H as _ <-. unfold kept. rewrite (save_hnsw_keeps _ _ _ _ _ _ _ E1 B). exact (hnsw_objects_keeps _ _ _ _ _ _ _ _ _ _ E0 Tn).
Qed.
Lemma relng_keeps : forall g sortf pd cent order prog kt m data save t T d z d', supported kt m -> number_arg t T ->
  build_relng_main g sortf pd cent order [prog; type_word kt; metric_word m; data; save; t] d = Ok (z, d') -> forall name, ~ begins save name -> kept d d' name.
Proof.
  intros g sortf pd cent order prog kt m data save t T d z d' S HT H name B. rewrite (build_relng_ok g sortf pd cent order prog kt m data save t T d S HT) in H.
  apply finished_inv in H. destruct H as [x H]. unfold rng_tool in H. binds H. injection H as _ <-. exact (save_rng_keeps _ _ _ _ _ _ E1 B).
Qed.
Lemma ivf_keeps : forall atof g popf mbs cd centers orders prog kt data labels words save nc n ra d z d', optional labels words -> number_arg nc n -> finite (f32_of_f64 (atof ra)) ->
  build_ivf_main atof g popf mbs cd centers orders ([prog; type_word kt; data] ++ words ++ [save; nc; ra]) d = Ok (z, d') -> forall name, ~ begins save name -> kept d d' name.
Proof.
  intros atof g popf mbs cd centers orders prog kt data labels words save nc n ra d z d' O HN F H name B. rewrite (build_ivf_ok atof g popf mbs cd centers orders prog kt data labels words save nc n ra d O HN F) in H.
  apply finished_inv in H. destruct H as [x H]. unfold ivf_tool in H. binds H. injection H as _ <-. exact (save_ivf_keeps _ _ _ _ _ _ E1 B).
Qed.
Lemma lsh_keeps : forall g dotf fv draw prog kt data labels words save nt tables ts size d z d', optional labels words -> number_arg nt tables -> number_arg ts size ->
  build_lsh_main g dotf fv draw ([prog; type_word kt; data] ++ words ++ [save; nt; ts]) d = Ok (z, d') -> forall name, ~ begins save name -> kept d d' name.
Proof.
  intros g dotf fv draw prog kt data labels words save nt tables ts size d z d' O HN HS H name B. 
  rewrite (build_lsh_ok g dotf fv draw prog kt data labels words save nt tables ts size d O HN HS) in H. apply bind_inv in H. destruct H as [a [_ H]].
  apply finished_inv in H. destruct H as [x H]. unfold lsh_tool in H. binds H. injection H as _ <-. exact (save_lsh_keeps _ _ _ _ _ _ E1 B).
Qed.

Lemma save_results_keeps : forall prefix nq k rs d d' m, save_results prefix nq k rs d = Ok d' -> ~ begins prefix m -> kept d d' m.
Proof.
  intros prefix nq k rs. induction rs as [|[L ids] rs IH]; intros d d' m H B; cbn [save_results] in H; [now injection H as <-|]. binds H. unfold kept. rewrite (IH _ _ _ H B). apply set_other. now apply not_it.
Qed.
Lemma search_keeps : forall w g1 g2 h query truth prefix k least args order load d z d' t, shown (search_files w g1 g2 h query truth prefix k least args order load d) d = Ok (z, d', t) -> forall name, ~ begins prefix name -> kept d d' name.
Proof.
  intros w g1 g2 h query truth prefix k least args order load d z d' t H name B. unfold shown in H. apply bind_inv in H. destruct H as [x [E H]]. destruct x as [[d1 t1]|]; injection H as _ <- _; [|reflexivity].
  unfold search_files in E. destruct (filter _ _); [discriminate|]. apply bind_inv in E. destruct E as [[[[nq qd] qa] mem] [_ E]]. apply bind_inv in E. destruct E as [tr [_ E]]. apply bind_inv in E. destruct E as [[adim srch] [_ E]]. apply bind_inv in E. destruct E as [rs [_ E]]. apply bind_inv in E. destruct E as [d2 [E2 E]]. injection E as <- _. exact (save_results_keeps _ _ _ _ _ _ _ E2 B).
Qed.

Ltac search_main P := let H := fresh in intros H name B;
  repeat (match type of H with
   | (if _ then Exit else _) = Ok _ => destruct (_ <? _)%nat in H; [discriminate|]
   | bind (arg _ ?i) _ = _ => let x := fresh "x" in let E := fresh "E" in apply bind_inv in H; destruct H as [x [E H]]; unfold arg in E; try (rewrite P in E; injection E as <-); cbn beta zeta in H
   | bind _ _ = _ => let x := fresh "x" in let E := fresh "E" in apply bind_inv in H; destruct H as [x [E H]]; cbn beta zeta in H
   | match kind_of _ with _ => _ end = _ => destruct (kind_of _); [|injection H as _ <- _; reflexivity]
   | match metric_of _ with _ => _ end = _ => destruct (metric_of _); [|injection H as _ <- _; reflexivity]
   end); exact (search_keeps _ _ _ _ _ _ _ _ _ _ _ _ _ _ _ _ H name B).

Lemma searches_keep : forall argv d z d' table, 
  (forall g1 g2 h g sortf qd order prefix, nth_error argv 8 = Some prefix -> search_vamana_main g1 g2 h g sortf qd order argv d = Ok (z, d', table) -> forall name, ~ begins prefix name -> kept d d' name) /\
  (forall g1 g2 h g sortf qd order prefix, nth_error argv 9 = Some prefix -> search_hnsw_main g1 g2 h g sortf qd order argv d = Ok (z, d', table) -> forall name, ~ begins prefix name -> kept d d' name) /\
  (forall g1 g2 h gc g sortf qd order prefix, nth_error argv 9 = Some prefix -> search_relng_main g1 g2 h gc g sortf qd order argv d = Ok (z, d', table) -> forall name, ~ begins prefix name -> kept d d' name) /\
  (forall g1 g2 h g popf mbs qd cd order prefix, nth_error argv 7 = Some prefix -> search_ivf_main g1 g2 h g popf mbs qd cd order argv d = Ok (z, d', table) -> forall name, ~ begins prefix name -> kept d d' name) /\
  (forall g1 g2 h g dotf fv qd order prefix, nth_error argv 7 = Some prefix -> search_lsh_main g1 g2 h g dotf fv qd order argv d = Ok (z, d', table) -> forall name, ~ begins prefix name -> kept d d' name).
Proof.
  intros argv d z d' table. repeat match goal with |- _ /\ _ => split end; intros until prefix; intros P.
  - unfold search_vamana_main. search_main P.
  - unfold search_hnsw_main. search_main P.
  - unfold search_relng_main. search_main P.
  - unfold search_ivf_main. search_main P.
  - unfold search_lsh_main. search_main P.
Qed.

Lemma objects_temp : forall w g sortf pd prm cs a d r, hnsw_objects w g sortf pd prm a cs d = Ok r -> d temp_name = None \/ (2 <= length cs)%nat -> snd r temp_name = None.
Proof.
  intros w g sortf pd prm cs. induction cs as [|c rest IH]; intros a d r H T; [discriminate|]. cbn [hnsw_objects] in H. apply bind_inv in H. destruct H as [inner [E H]]. binds H. destruct (all_done _); [|discriminate]. binds H. injection H as <-. cbn [snd].
  destruct rest as [|c' rest]; [injection E as <-; destruct T as [T|T]; [exact T|cbn in T; lia]|]. binds E. apply (IH _ _ _ E). left. apply set_same.
Qed.
Lemma hnsw_temp : forall atof g sortf pd choices prog kt m data save r R l L ru rule ra ls levels t T d z d', supported kt m -> number_arg r R -> number_arg l L -> number_arg ru rule -> number_arg ls levels -> (2 <= levels)%N -> number_arg t T -> finite (f32_of_f64 (atof ra)) ->
  build_hnsw_main atof g sortf pd choices [prog; type_word kt; metric_word m; data; save; r; l; ru; ra; ls; t] d = Ok (z, d') -> ~ begins save "/tmp/temp_data" -> d' "/tmp/temp_data" = None.
Proof.
  intros atof g sortf pd choices prog kt m data save r R l L ru rule ra ls levels t T d z d' S HR HL Hr Hl H1 HT F H B.
  rewrite (build_hnsw_ok atof g sortf pd choices prog kt m data save r R l L ru rule ra ls levels t T d S HR HL Hr Hl ltac:(lia) HT F) in H.
  apply finished_inv in H. destruct H as [x H]. unfold hnsw_tool in H. binds H. injection H as _ <-. rewrite (save_hnsw_keeps _ _ _ _ _ _ _ E1 B). apply (objects_temp _ _ _ _ _ _ _ _ _ E0). right. rewrite map_length, seq_length. lia.
Qed.
