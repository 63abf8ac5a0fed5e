(** * The build tools from the command line. *)
From Coq Require Import NArith ZArith QArith Qabs Ascii String List Arith Bool Lia Floats.SpecFloat.
From Verif Require Import Base Float32 FloatBits Bytes BinSpec StreamModel BinModel TextModel TextProofs ParamModel ParamProofs ConvertModel DivFacts TsvModel TsvSpec TsvText TsvProofs LloydModel NormModel DistModel RecallModel TruthModel
  PoolModel GreedyModel SearchModel HnswModel PruneModel BuildModel EntryModel RngModel ClosestModel FlatModel IvfModel LshModel IndexFileModel SystemModel ToolModel CmdModel CmdSpec CmdProofs.
Import ListNotations.
Local Open Scope string_scope.

Lemma kind_word : forall kt, kind_of (type_word kt) = Some kt.
Proof. destruct kt; reflexivity. Qed.
Lemma metric_word_ok : forall kt m, supported kt m -> metric_of (metric_word m) = Some m /\ made_for kt m = true.
Proof. intros kt m [->|[-> ->]]; split; try reflexivity. destruct kt; reflexivity. Qed.

Lemma int_arg_ok : forall argv i s n, nth_error argv i = Some s -> number_arg s n -> int_arg argv i = Ok (Z.of_N n).
Proof. intros argv i s n E H. unfold int_arg, arg. rewrite E. cbn [bind]. now apply atoi_numeral. Qed.

Lemma opt_arg_ok : forall pre o words rest, optional o words -> opt_arg (pre ++ words ++ rest) (length pre) = Ok (o, (length pre + length words)%nat).
Proof.
  intros pre o words rest H. unfold opt_arg. destruct o as [s|].
  - destruct H as [f [n [-> [Hf Nz]]]]. rewrite (int_arg_ok _ _ f n); [|rewrite nth_error_app2, Nat.sub_diag by lia; reflexivity|exact Hf]. cbn [bind]. destruct (Z.eqb_spec (Z.of_N n) 0); [lia|].
    unfold arg. rewrite nth_error_app2 by lia. replace (S (length pre) - length pre)%nat with 1%nat by lia. cbn [nth_error app bind length]. do 2 f_equal. lia.
  - destruct H as [f [-> Hf]]. rewrite (int_arg_ok _ _ f 0%N); [|rewrite nth_error_app2, Nat.sub_diag by lia; reflexivity|exact Hf]. cbn [bind Z.of_N]. cbn [Z.eqb length]. do 2 f_equal. lia.
Qed.

Lemma opt_len : forall o words, optional o words -> length words = match o with Some _ => 2%nat | None => 1%nat end.
Proof. intros [s|] words H; [destruct H as [f [n [-> _]]]|destruct H as [f [-> _]]]; reflexivity. Qed.

Lemma nth_behind : forall (pre words rest : list string) k, nth_error (pre ++ words ++ rest) (length pre + length words + k) = nth_error rest k.
Proof. intros pre words rest k. rewrite nth_error_app2 by lia. rewrite nth_error_app2 by lia. f_equal. lia. Qed.

Lemma arg_behind : forall (pre words rest : list string) k s, nth_error rest k = Some s -> arg (pre ++ words ++ rest) (length pre + length words + k) = Ok s.
Proof. intros pre words rest k s H. unfold arg. now rewrite nth_behind, H. Qed.
Lemma int_behind : forall (pre words rest : list string) k s n, nth_error rest k = Some s -> number_arg s n -> int_arg (pre ++ words ++ rest) (length pre + length words + k) = Ok (Z.of_N n).
Proof. intros pre words rest k s n H. apply int_arg_ok. now rewrite nth_behind. Qed.
Lemma arg_before : forall (pre words rest : list string) k s, nth_error pre k = Some s -> arg (pre ++ words ++ rest) k = Ok s.
Proof. intros pre words rest k s H. unfold arg. rewrite nth_error_app1 by (apply nth_error_Some; congruence). now rewrite H. Qed.

Lemma small31 : forall s n, number_arg s n -> (n < 2 ^ 31)%N.
Proof. intros s n [_ H]. exact H. Qed.
Lemma small32 : forall n, (n < 2 ^ 31)%N -> (n < 4294967296)%N.
Proof. intros n H. change (2 ^ 31)%N with 2147483648%N in H. lia. Qed.

Lemma get_u32 : forall name v (p : params), p name = Some (show v) -> (v < 2 ^ 31)%N -> param (p_get conv_u32 name p) = Ok v.
Proof. intros name v p E H. unfold p_get. rewrite E, conv_show by (now apply small32). reflexivity. Qed.

Lemma get_f32 : forall name x y (p : params), p name = Some (text_of (show_float x)) -> conv_f32 (text_of (show_float x)) = Val y -> param (p_get conv_f32 name p) = Ok y.
Proof. intros name x y p E H. unfold p_get. rewrite E, H. reflexivity. Qed.

Lemma vamana_index : forall g sortf pd cent work sched order kt data labels m R L x y save t d, supported kt m -> (R < 2 ^ 31)%N -> (L < 2 ^ 31)%N -> conv_f32 (text_of (show_float x)) = Val y ->
  build_vamana_index g sortf pd cent work sched order kt data labels m R L x save t d =
    do r <- vamana_tool (kwidth kt) g sortf (pd kt m) data [] labels (mkB (N.to_nat L) (N.to_nat R) 750 y 0) cent work sched order save d; Ok (snd r).
Proof.
  intros g sortf pd cent work sched order kt data labels m R L x y save t d S HR HL E. unfold build_vamana_index. set (p := p_set "num_threads" _ _).
  rewrite (get_u32 "C" 750%N p eq_refl eq_refl), (get_u32 "R" R p eq_refl HR), (get_u32 "L" L p eq_refl HL), (get_f32 "alpha" x y p eq_refl E), (get_u32 "pruning_rule" 0%N p eq_refl eq_refl). cbn [bind].
  unfold with_metric. rewrite (proj2 (metric_word_ok kt m S)). reflexivity.
Qed.

Lemma finish : forall (A : Type) (r : res (A * fs)), (do d' <- (do x <- r; Ok (snd x)); Ok (0%Z, d')) = finished r.
Proof. intros A [x| | | |]; reflexivity. Qed.

Lemma build_vamana_ok : forall atof g sortf pd cent work sched order prog kt m data labels words save r R l L al t T d,
  supported kt m -> optional labels words -> number_arg r R -> number_arg l L -> number_arg t T -> finite (f32_of_f64 (atof al)) ->
  exists alpha, by_six_digits (f32_of_f64 (atof al)) alpha /\
    build_vamana_main atof g sortf pd cent work sched order ([prog; type_word kt; metric_word m; data] ++ words ++ [save; r; l; al; t]) d =
      finished (vamana_tool (kwidth kt) g sortf (pd kt m) data [] (name_or_empty labels) (mkB (N.to_nat L) (N.to_nat R) 750 alpha 0) cent work sched order save d).
Proof.
  intros atof g sortf pd cent work sched order prog kt m data labels words save r R l L al t T d S O HR HL HT F. destruct (conv_float _ F) as [y [E [B _]]]. exists y. split; [exact B|].
  set (pre := [prog; type_word kt; metric_word m; data]). set (rest := [save; r; l; al; t]).
  unfold build_vamana_main. assert (Len : length (pre ++ words ++ rest) = (9 + length words)%nat) by (rewrite !app_length; cbn; lia). rewrite Len. pose proof (opt_len _ _ O) as OL.
  replace ((9 + length words <? 10) || (11 <? 9 + length words))%nat%bool with false by (rewrite OL; destruct labels; reflexivity).
  rewrite (arg_before pre words rest 2 (metric_word m) eq_refl). cbn [bind]. rewrite (proj1 (metric_word_ok kt m S)).
  rewrite (arg_before pre words rest 3 data eq_refl). cbn [bind]. pose proof (opt_arg_ok pre labels words rest O) as OA. cbn [length pre] in OA. rewrite OA. cbn [bind fst snd].
  pose proof (arg_behind pre words rest 0 save eq_refl) as A0. rewrite Nat.add_0_r in A0. cbn [length pre] in A0. rewrite A0. cbn [bind].
  pose proof (int_behind pre words rest 1 r R eq_refl HR) as A1. cbn [length pre] in A1. rewrite A1. cbn [bind].
  pose proof (int_behind pre words rest 2 l L eq_refl HL) as A2. cbn [length pre] in A2. rewrite A2. cbn [bind].
  pose proof (arg_behind pre words rest 3 al eq_refl) as A3. cbn [length pre] in A3. rewrite A3. cbn [bind].
  pose proof (int_behind pre words rest 4 t T eq_refl HT) as A4. cbn [length pre] in A4. rewrite A4. cbn [bind].
  rewrite (arg_before pre words rest 1 (type_word kt) eq_refl). cbn [bind]. rewrite kind_word. rewrite !u32_small by (apply HR || apply HL || apply HT).
  rewrite (vamana_index g sortf pd cent work sched order kt data _ m R L _ y save T d S (proj2 HR) (proj2 HL) E). apply finish.
Qed.

Lemma int_at : forall (argv : list string) i s n, nth_error argv i = Some s -> number_arg s n -> int_arg argv i = Ok (Z.of_N n).
Proof. exact int_arg_ok. Qed.

Lemma bind_same : forall (A B : Type) (r : res A) (f : A -> res B), (do _ <- r; do a <- r; f a) = (do a <- r; f a).
Proof. intros A B [x| | | |] f; reflexivity. Qed.

Lemma one_text : conv_f32 "1" = Val f32_one.
Proof. vm_compute. reflexivity. Qed.

Lemma hnsw_index : forall g sortf pd choices kt data m R L rule x y levels save t d, supported kt m -> (R < 2 ^ 31)%N -> (L < 2 ^ 31)%N -> (rule < 2 ^ 31)%N -> (1 <= levels < 2 ^ 31)%N -> conv_f32 (text_of (show_float x)) = Val y ->
  build_hnsw_index g sortf pd choices kt data m R L rule x levels save t d =
    do r <- hnsw_tool (kwidth kt) g sortf (pd kt m) data [] (mkB (N.to_nat L) (N.to_nat R) 750 f32_one (N.to_nat rule)) (map choices (seq 0 (N.to_nat levels))) save d; Ok (snd r).
Proof.
  intros g sortf pd choices kt data m R L rule x y levels save t d S HR HL Hr Hl E. unfold build_hnsw_index. set (p := p_set "num_threads" _ _).
  rewrite (get_f32 "sampling_rate" x y p eq_refl E), (get_u32 "pruning_rule" rule p eq_refl Hr), (get_u32 "L" L p eq_refl HL), (get_u32 "R" R p eq_refl HR), (get_u32 "C" 750%N p eq_refl eq_refl).
  replace (param (p_get conv_f32 "alpha" p)) with (Ok f32_one) by (unfold p_get; change (p "alpha") with (Some "1"); cbn [param]; rewrite one_text; reflexivity). cbn [bind].
  unfold with_metric. rewrite (proj2 (metric_word_ok kt m S)).
  replace (Datatypes.S (N.to_nat (sub32 levels 1))) with (N.to_nat levels). 2:{ unfold sub32. pose proof (small32 _ (proj2 Hl)). replace (levels + 4294967296 - 1)%N with (levels - 1 + 1 * 4294967296)%N by lia. rewrite N.mod_add by lia. rewrite N.mod_small by lia. lia. }
  change (N.to_nat 750) with 750%nat. unfold hnsw_tool. destruct (construct _ _ _ _ _ _); reflexivity.
Qed.

Lemma build_hnsw_ok : forall atof g sortf pd choices prog kt m data save r R l L ru rule ra ls levels t T d,
  supported kt m -> number_arg r R -> number_arg l L -> number_arg ru rule -> number_arg ls levels -> (1 <= levels)%N -> number_arg t T -> finite (f32_of_f64 (atof ra)) ->
  build_hnsw_main atof g sortf pd choices [prog; type_word kt; metric_word m; data; save; r; l; ru; ra; ls; t] d =
    finished (hnsw_tool (kwidth kt) g sortf (pd kt m) data [] (mkB (N.to_nat L) (N.to_nat R) 750 f32_one (N.to_nat rule)) (map choices (seq 0 (N.to_nat levels))) save d).
Proof.
  intros atof g sortf pd choices prog kt m data save r R l L ru rule ra ls levels t T d S HR HL Hr Hl Pos HT F. destruct (conv_float _ F) as [y [E _]].
  set (argv := [prog; type_word kt; metric_word m; data; save; r; l; ru; ra; ls; t]). unfold build_hnsw_main. change (length argv =? 11)%nat with true. cbn [negb].
  change (arg argv 2) with (Ok (metric_word m)). cbn [bind]. rewrite (proj1 (metric_word_ok kt m S)).
  change (arg argv 3) with (Ok data). change (arg argv 4) with (Ok save). change (arg argv 8) with (Ok ra). change (arg argv 1) with (Ok (type_word kt)).
  rewrite (int_at argv 5 r R eq_refl HR), (int_at argv 6 l L eq_refl HL), (int_at argv 7 ru rule eq_refl Hr), (int_at argv 9 ls levels eq_refl Hl), (int_at argv 10 t T eq_refl HT). cbn [bind]. rewrite kind_word.
  rewrite (u32_small R), (u32_small L), (u32_small rule), (u32_small levels), (u32_small T) by (eapply small31; eassumption).
  rewrite (hnsw_index g sortf pd choices kt data m R L rule _ y levels save T d S (proj2 HR) (proj2 HL) (proj2 Hr) (conj Pos (proj2 Hl)) E). apply finish.
Qed.

Lemma build_relng_ok : forall g sortf pd cent order prog kt m data save t T d,
  supported kt m -> number_arg t T ->
  build_relng_main g sortf pd cent order [prog; type_word kt; metric_word m; data; save; t] d = finished (rng_tool (kwidth kt) g sortf (pd kt m) data [] cent order save d).
Proof.
  intros g sortf pd cent order prog kt m data save t T d S HT. set (argv := [prog; type_word kt; metric_word m; data; save; t]). unfold build_relng_main. change (length argv =? 6)%nat with true. cbn [negb].
  change (arg argv 2) with (Ok (metric_word m)). cbn [bind]. rewrite (proj1 (metric_word_ok kt m S)).
  change (arg argv 3) with (Ok data). change (arg argv 4) with (Ok save). change (arg argv 1) with (Ok (type_word kt)). rewrite (int_at argv 5 t T eq_refl HT). cbn [bind]. rewrite kind_word.
  unfold build_relng_index, with_metric. rewrite (proj2 (metric_word_ok kt m S)). apply finish.
Qed.

Lemma ivf_index : forall g popf mbs cd centers orders kt data labels nc x y save d, (nc < 2 ^ 31)%N -> conv_f32 (text_of (show_float x)) = Val y ->
  build_ivf_index g popf mbs cd centers orders kt data labels nc x save d =
    do r <- ivf_tool (kwidth kt) g popf mbs (cd kt) data [] labels nc centers orders save d; Ok (snd r).
Proof.
  intros g popf mbs cd centers orders kt data labels nc x y save d Hn E. unfold build_ivf_index. set (p := p_float "training_rate" _ _).
  rewrite (get_u32 "num_clusters" nc p eq_refl Hn), (get_f32 "training_rate" x y p eq_refl E). cbn [bind]. unfold ivf_tool. destruct (construct _ _ _ _ _ _); reflexivity.
Qed.

Lemma build_ivf_ok : forall atof g popf mbs cd centers orders prog kt data labels words save nc n ra d,
  optional labels words -> number_arg nc n -> finite (f32_of_f64 (atof ra)) ->
  build_ivf_main atof g popf mbs cd centers orders ([prog; type_word kt; data] ++ words ++ [save; nc; ra]) d =
    finished (ivf_tool (kwidth kt) g popf mbs (cd kt) data [] (name_or_empty labels) n centers orders save d).
Proof.
  intros atof g popf mbs cd centers orders prog kt data labels words save nc n ra d O HN F. destruct (conv_float _ F) as [y [E _]].
  set (pre := [prog; type_word kt; data]). set (rest := [save; nc; ra]). unfold build_ivf_main.
  assert (Len : length (pre ++ words ++ rest) = (6 + length words)%nat) by (rewrite !app_length; cbn; lia). rewrite Len. pose proof (opt_len _ _ O) as OL.
  replace ((6 + length words <? 7) || (8 <? 6 + length words))%nat%bool with false by (rewrite OL; destruct labels; reflexivity).
  rewrite (arg_before pre words rest 2 data eq_refl). cbn [bind]. pose proof (opt_arg_ok pre labels words rest O) as OA. cbn [length pre] in OA. rewrite OA. cbn [bind fst snd].
  pose proof (arg_behind pre words rest 0 save eq_refl) as A0. rewrite Nat.add_0_r in A0. cbn [length pre] in A0. rewrite A0. cbn [bind].
  pose proof (int_behind pre words rest 1 nc n eq_refl HN) as A1. cbn [length pre] in A1. rewrite A1. cbn [bind].
  pose proof (arg_behind pre words rest 2 ra eq_refl) as A2. cbn [length pre] in A2. rewrite A2. cbn [bind].
  rewrite (arg_before pre words rest 1 (type_word kt) eq_refl). cbn [bind]. rewrite kind_word. rewrite !u32_small by apply HN.
  rewrite (ivf_index g popf mbs cd centers orders kt data _ n _ y save d (proj2 HN) E). apply finish.
Qed.

Lemma build_lsh_ok : forall g dotf fv draw prog kt data labels words save nt tables ts size d,
  optional labels words -> number_arg nt tables -> number_arg ts size ->
  build_lsh_main g dotf fv draw ([prog; type_word kt; data] ++ words ++ [save; nt; ts]) d =
    do a <- construct (kwidth kt) g data [] (name_or_empty labels) d;
    finished (lsh_tool (kwidth kt) g dotf (fv kt) data [] (name_or_empty labels) size (planes_of draw (N.to_nat tables) (N.to_nat size) (N.to_nat (a_adim a))) save d).
Proof.
  intros g dotf fv draw prog kt data labels words save nt tables ts size d O HN HS.
  set (pre := [prog; type_word kt; data]). set (rest := [save; nt; ts]). unfold build_lsh_main.
  assert (Len : length (pre ++ words ++ rest) = (6 + length words)%nat) by (rewrite !app_length; cbn; lia). rewrite Len. pose proof (opt_len _ _ O) as OL.
  replace ((6 + length words <? 7) || (8 <? 6 + length words))%nat%bool with false by (rewrite OL; destruct labels; reflexivity).
  rewrite (arg_before pre words rest 2 data eq_refl). cbn [bind]. pose proof (opt_arg_ok pre labels words rest O) as OA. cbn [length pre] in OA. rewrite OA. cbn [bind fst snd].
  pose proof (arg_behind pre words rest 0 save eq_refl) as A0. rewrite Nat.add_0_r in A0. cbn [length pre] in A0. rewrite A0. cbn [bind].
  pose proof (int_behind pre words rest 1 nt tables eq_refl HN) as A1. cbn [length pre] in A1. rewrite A1. cbn [bind].
  pose proof (int_behind pre words rest 2 ts size eq_refl HS) as A2. cbn [length pre] in A2. rewrite A2. cbn [bind].
  rewrite (arg_before pre words rest 1 (type_word kt) eq_refl). cbn [bind]. rewrite kind_word. rewrite !u32_small by (apply HN || apply HS).
  unfold build_lsh_index. set (p := p_set "table_size" _ _). rewrite (get_u32 "num_tables" tables p eq_refl (proj2 HN)), (get_u32 "table_size" size p eq_refl (proj2 HS)). cbn [bind].
  unfold name_or_empty. destruct (construct _ _ _ _ _ _); try reflexivity. cbn [bind]. apply finish.
Qed.
