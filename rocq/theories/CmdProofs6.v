(** * Command lines that are not as the usage message says. *)
From Coq Require Import NArith ZArith Ascii String List Arith Bool Lia Floats.SpecFloat.
From Verif Require Import Base Float32 FloatBits Bytes BinSpec StreamModel BinModel TextModel ParamModel ConvertModel TsvModel TsvSpec LloydModel NormModel DistModel RecallModel TruthModel StatsModel
  PoolModel GreedyModel SearchModel HnswModel PruneModel BuildModel EntryModel RngModel ClosestModel FlatModel IvfModel LshModel IndexFileModel SystemModel ToolModel CmdModel CmdSpec CmdProofs CmdProofs2 CmdProofs3.
Import ListNotations.
Local Open Scope string_scope.

(** Wrong numbers of arguments. *)
Lemma wrong_counts : forall argv d,
  (~ (10 <= length argv <= 11)%nat -> forall atof g sortf pd cent work sched order, build_vamana_main atof g sortf pd cent work sched order argv d = Exit) /\
  (length argv <> 11%nat -> forall atof g sortf pd choices, build_hnsw_main atof g sortf pd choices argv d = Exit) /\
  (length argv <> 6%nat -> forall g sortf pd cent order, build_relng_main g sortf pd cent order argv d = Exit) /\
  (~ (7 <= length argv <= 8)%nat -> forall atof g popf mbs cd centers orders, build_ivf_main atof g popf mbs cd centers orders argv d = Exit) /\
  (~ (7 <= length argv <= 8)%nat -> forall g dotf fv draw, build_lsh_main g dotf fv draw argv d = Exit) /\
  ((length argv < 11)%nat -> forall g1 g2 h g sortf qd order, search_vamana_main g1 g2 h g sortf qd order argv d = Exit /\ search_hnsw_main g1 g2 h g sortf qd order argv d = Exit /\ forall gc, search_relng_main g1 g2 h gc g sortf qd order argv d = Exit) /\
  ((length argv < 10)%nat -> forall g1 g2 h g popf mbs qd cd order, search_ivf_main g1 g2 h g popf mbs qd cd order argv d = Exit) /\
  ((length argv < 9)%nat -> forall g1 g2 h g dotf fv qd order, search_lsh_main g1 g2 h g dotf fv qd order argv d = Exit).
Proof.
  intros argv d. repeat match goal with |- _ /\ _ => split end; intros H; intros; repeat match goal with |- _ /\ _ => split end; intros; unfold build_vamana_main, build_hnsw_main, build_relng_main, build_ivf_main, build_lsh_main, search_vamana_main, search_hnsw_main, search_relng_main, search_ivf_main, search_lsh_main.
  - destruct (Nat.ltb_spec (length argv) 10); [reflexivity|]. destruct (Nat.ltb_spec 11 (length argv)); [reflexivity|lia].
  - destruct (Nat.eqb_spec (length argv) 11); [lia|reflexivity].
  - destruct (Nat.eqb_spec (length argv) 6); [lia|reflexivity].
  - destruct (Nat.ltb_spec (length argv) 7); [reflexivity|]. destruct (Nat.ltb_spec 8 (length argv)); [reflexivity|lia].
  - destruct (Nat.ltb_spec (length argv) 7); [reflexivity|]. destruct (Nat.ltb_spec 8 (length argv)); [reflexivity|lia].
  - destruct (Nat.ltb_spec (length argv) 11); [reflexivity|lia].
  - destruct (Nat.ltb_spec (length argv) 11); [reflexivity|lia].
  - destruct (Nat.ltb_spec (length argv) 11); [reflexivity|lia].
  - destruct (Nat.ltb_spec (length argv) 10); [reflexivity|lia].
  - destruct (Nat.ltb_spec (length argv) 9); [reflexivity|lia].
Qed.

Lemma metric_none : forall s, s <> "l2" -> s <> "mips" -> metric_of s = None.
Proof. intros s A B. unfold metric_of. destruct (String.eqb_spec s "mips"); [congruence|]. destruct (String.eqb_spec s "l2"); [congruence|reflexivity]. Qed.
Lemma kind_none : forall s, (forall kt, s <> type_word kt) -> kind_of s = None.
Proof.
  intros s H. unfold kind_of. destruct (String.eqb_spec s "int8") as [E|]; [destruct (H KInt8 E)|]. destruct (String.eqb_spec s "uint8") as [E|]; [destruct (H KUint8 E)|]. destruct (String.eqb_spec s "float") as [E|]; [destruct (H KFloat E)|reflexivity].
Qed.

(** An unknown metric: the build tools fail, the search tools end as if all were well. *)
Lemma unknown_metric : forall argv d s, nth_error argv 2 = Some s -> s <> "l2" -> s <> "mips" ->
  ((10 <= length argv <= 11)%nat -> forall atof g sortf pd cent work sched order, build_vamana_main atof g sortf pd cent work sched order argv d = Ok ((-1)%Z, d)) /\
  (length argv = 11%nat -> forall atof g sortf pd choices, build_hnsw_main atof g sortf pd choices argv d = Ok ((-1)%Z, d)) /\
  (length argv = 6%nat -> forall g sortf pd cent order, build_relng_main g sortf pd cent order argv d = Ok ((-1)%Z, d)).
Proof.
  intros argv d s Hs A B. pose proof (metric_none s A B) as M. assert (E : arg argv 2 = Ok s) by (unfold arg; now rewrite Hs).
  repeat match goal with |- _ /\ _ => split end; intros H; intros; unfold build_vamana_main, build_hnsw_main, build_relng_main; rewrite E; cbn [bind]; rewrite M.
  - destruct (Nat.ltb_spec (length argv) 10); [lia|]. destruct (Nat.ltb_spec 11 (length argv)); [lia|reflexivity].
  - rewrite H. reflexivity.
  - rewrite H. reflexivity.
Qed.

Lemma unknown_metric_search : forall argv d s t, nth_error argv 1 = Some t -> nth_error argv 2 = Some s -> s <> "l2" -> s <> "mips" -> (11 <= length argv)%nat -> forall g1 g2 h g sortf qd order,
  search_vamana_main g1 g2 h g sortf qd order argv d = Ok (0%Z, d, []) /\ search_hnsw_main g1 g2 h g sortf qd order argv d = Ok (0%Z, d, []) /\ forall gc, search_relng_main g1 g2 h gc g sortf qd order argv d = Ok (0%Z, d, []).
Proof.
  intros argv d s t Ht Hs A B H g1 g2 h g sortf qd order. pose proof (metric_none s A B) as M. assert (E : arg argv 2 = Ok s) by (unfold arg; now rewrite Hs). assert (E1 : arg argv 1 = Ok t) by (unfold arg; now rewrite Ht).
  assert (Q : (length argv <? 11)%nat = false) by (apply Nat.ltb_ge; exact H).
  repeat match goal with |- _ /\ _ => split end; intros; unfold search_vamana_main, search_hnsw_main, search_relng_main; rewrite Q, E1; cbn [bind]; destruct (kind_of t); try reflexivity; rewrite E; cbn [bind]; now rewrite M.
Qed.

(** An unknown type: every tool ends with status 0 and does nothing. *)
Lemma unknown_type_search : forall argv d t, nth_error argv 1 = Some t -> (forall kt, t <> type_word kt) -> forall g1 g2 h g,
  ((11 <= length argv)%nat -> forall sortf qd order, search_vamana_main g1 g2 h g sortf qd order argv d = Ok (0%Z, d, []) /\ search_hnsw_main g1 g2 h g sortf qd order argv d = Ok (0%Z, d, []) /\ forall gc, search_relng_main g1 g2 h gc g sortf qd order argv d = Ok (0%Z, d, [])) /\
  ((10 <= length argv)%nat -> forall popf mbs qd cd order, search_ivf_main g1 g2 h g popf mbs qd cd order argv d = Ok (0%Z, d, [])) /\
  ((9 <= length argv)%nat -> forall dotf fv qd order, search_lsh_main g1 g2 h g dotf fv qd order argv d = Ok (0%Z, d, [])).
Proof.
  intros argv d t Ht K g1 g2 h g. pose proof (kind_none t K) as M. assert (E1 : arg argv 1 = Ok t) by (unfold arg; now rewrite Ht).
  repeat match goal with |- _ /\ _ => split end; intros; repeat match goal with |- _ /\ _ => split end; intros; unfold search_vamana_main, search_hnsw_main, search_relng_main, search_ivf_main, search_lsh_main; rewrite E1; cbn [bind]; rewrite M.
  1-3: now rewrite (proj2 (Nat.ltb_ge _ 11)). - now rewrite (proj2 (Nat.ltb_ge _ 10)). - now rewrite (proj2 (Nat.ltb_ge _ 9)).
Qed.

Lemma unknown_type_build : forall atof g sortf pd cent work sched order prog ty m data labels words save r R l L al t T d, (forall kt, ty <> type_word kt) -> m = "l2" \/ m = "mips" -> optional labels words -> number_arg r R -> number_arg l L -> number_arg t T ->
  build_vamana_main atof g sortf pd cent work sched order ([prog; ty; m; data] ++ words ++ [save; r; l; al; t]) d = Ok (0%Z, d).
Proof.
  intros atof g sortf pd cent work sched order prog ty m data labels words save r R l L al t T d K M O HR HL HT.
  set (pre := [prog; ty; m; data]). set (rest := [save; r; l; al; t]).
  unfold build_vamana_main. assert (Len : length (pre ++ words ++ rest) = (9 + length words)%nat) by (rewrite !app_length; cbn; lia). rewrite Len. pose proof (opt_len _ _ O) as OL.
  replace ((9 + length words <? 10) || (11 <? 9 + length words))%nat%bool with false by (rewrite OL; destruct labels; reflexivity).
  rewrite (arg_before pre words rest 2 m eq_refl). cbn [bind]. assert (exists mm, metric_of m = Some mm) as [mm Em] by (destruct M as [-> | ->]; eexists; reflexivity). rewrite Em.
  rewrite (arg_before pre words rest 3 data eq_refl). cbn [bind]. pose proof (opt_arg_ok pre labels words rest O) as OA. cbn [length pre] in OA. rewrite OA. cbn [bind fst snd].
  pose proof (arg_behind pre words rest 0 save eq_refl) as A0. rewrite Nat.add_0_r in A0. cbn [length pre] in A0. rewrite A0. cbn [bind].
  pose proof (int_behind pre words rest 1 r R eq_refl HR) as A1. cbn [length pre] in A1. rewrite A1. cbn [bind].
  pose proof (int_behind pre words rest 2 l L eq_refl HL) as A2. cbn [length pre] in A2. rewrite A2. cbn [bind].
  pose proof (arg_behind pre words rest 3 al eq_refl) as A3. cbn [length pre] in A3. rewrite A3. cbn [bind].
  pose proof (int_behind pre words rest 4 t T eq_refl HT) as A4. cbn [length pre] in A4. rewrite A4. cbn [bind].
  rewrite (arg_before pre words rest 1 ty eq_refl). cbn [bind]. rewrite (kind_none ty K). reflexivity.
Qed.

(** A flag that promises a name, and one word too few. *)
Lemma vamana_missing : forall atof g sortf pd cent work sched order prog ty m data f n labels save r R l L al d, m = "l2" \/ m = "mips" -> number_arg f n -> n <> 0%N -> number_arg r R -> number_arg l L ->
  build_vamana_main atof g sortf pd cent work sched order [prog; ty; m; data; f; labels; save; r; l; al] d = UB.
Proof.
  intros atof g sortf pd cent work sched order prog ty m data f n labels save r R l L al d M Hf Nz HR HL. set (argv := [prog; ty; m; data; f; labels; save; r; l; al]). unfold build_vamana_main.
  change ((length argv <? 10) || (11 <? length argv))%nat with false. change (arg argv 2) with (Ok m). cbn [bind]. assert (exists mm, metric_of m = Some mm) as [mm Em] by (destruct M as [-> | ->]; eexists; reflexivity). rewrite Em.
  change (arg argv 3) with (Ok data). cbn [bind]. unfold opt_arg. rewrite (int_at argv 4 f n eq_refl Hf). cbn [bind]. destruct (Z.eqb_spec (Z.of_N n) 0); [lia|]. change (arg argv 5) with (Ok labels). cbn [bind fst snd Nat.add].
  change (arg argv 6) with (Ok save). rewrite (int_at argv 7 r R eq_refl HR), (int_at argv 8 l L eq_refl HL). change (arg argv 9) with (Ok al). cbn [bind]. reflexivity.
Qed.
Lemma ivf_missing : forall atof g popf mbs cd centers orders prog ty data f n labels save nc k d, number_arg f n -> n <> 0%N -> number_arg nc k ->
  build_ivf_main atof g popf mbs cd centers orders [prog; ty; data; f; labels; save; nc] d = UB.
Proof.
  intros atof g popf mbs cd centers orders prog ty data f n labels save nc k d Hf Nz HN. set (argv := [prog; ty; data; f; labels; save; nc]). unfold build_ivf_main.
  change ((length argv <? 7) || (8 <? length argv))%nat with false. change (arg argv 2) with (Ok data). cbn [bind]. unfold opt_arg. rewrite (int_at argv 3 f n eq_refl Hf). cbn [bind]. destruct (Z.eqb_spec (Z.of_N n) 0); [lia|]. change (arg argv 4) with (Ok labels). cbn [bind fst snd Nat.add].
  change (arg argv 5) with (Ok save). rewrite (int_at argv 6 nc k eq_refl HN). cbn [bind]. reflexivity.
Qed.
Lemma lsh_missing : forall g dotf fv draw prog ty data f n labels save nt k d, number_arg f n -> n <> 0%N -> number_arg nt k ->
  build_lsh_main g dotf fv draw [prog; ty; data; f; labels; save; nt] d = UB.
Proof.
  intros g dotf fv draw prog ty data f n labels save nt k d Hf Nz HN. set (argv := [prog; ty; data; f; labels; save; nt]). unfold build_lsh_main.
  change ((length argv <? 7) || (8 <? length argv))%nat with false. change (arg argv 2) with (Ok data). cbn [bind]. unfold opt_arg. rewrite (int_at argv 3 f n eq_refl Hf). cbn [bind]. destruct (Z.eqb_spec (Z.of_N n) 0); [lia|]. change (arg argv 4) with (Ok labels). cbn [bind fst snd Nat.add].
  change (arg argv 5) with (Ok save). rewrite (int_at argv 6 nt k eq_refl HN). cbn [bind]. reflexivity.
Qed.
Lemma search_lsh_missing : forall g1 g2 h g dotf fv qd order prog kt file t T query truth ks k prefix f n d, number_arg t T -> number_arg ks k -> number_arg f n -> n <> 0%N ->
  search_lsh_main g1 g2 h g dotf fv qd order [prog; type_word kt; file; t; query; truth; ks; prefix; f] d = UB.
Proof.
  intros g1 g2 h g dotf fv qd order prog kt file t T query truth ks k prefix f n d HT HK Hf Nz. set (argv := [prog; type_word kt; file; t; query; truth; ks; prefix; f]). unfold search_lsh_main.
  change (length argv <? 9)%nat with false. change (arg argv 1) with (Ok (type_word kt)). cbn [bind]. rewrite kind_word. change (arg argv 2) with (Ok file). change (arg argv 4) with (Ok query). change (arg argv 5) with (Ok truth). change (arg argv 7) with (Ok prefix).
  rewrite (int_at argv 3 t T eq_refl HT), (int_at argv 6 ks k eq_refl HK). cbn [bind]. unfold opt_arg. rewrite (int_at argv 8 f n eq_refl Hf). cbn [bind]. destruct (Z.eqb_spec (Z.of_N n) 0); [lia|]. reflexivity.
Qed.

(** One word too many is not noticed. *)
Lemma vamana_surplus : forall atof g sortf pd cent work sched order prog kt m data f save r R l L al t T more d,
  supported kt m -> number_arg f 0 -> number_arg r R -> number_arg l L -> number_arg t T ->
  build_vamana_main atof g sortf pd cent work sched order [prog; type_word kt; metric_word m; data; f; save; r; l; al; t; more] d =
  build_vamana_main atof g sortf pd cent work sched order [prog; type_word kt; metric_word m; data; f; save; r; l; al; t] d.
Proof.
  intros atof g sortf pd cent work sched order prog kt m data f save r R l L al t T more d S Hf HR HL HT. unfold build_vamana_main, opt_arg.
  cbn [length Nat.ltb Nat.leb orb]. unfold int_arg, arg. cbn [nth_error bind fst snd]. rewrite (atoi_numeral f 0 Hf). cbn [bind Z.of_N Z.eqb]. reflexivity.
Qed.

(** A word that is no number counts as 0. *)
Lemma not_a_number : forall atof g sortf pd cent work sched order prog ty m data save l al t d,
  build_vamana_main atof g sortf pd cent work sched order [prog; ty; m; data; "0"; save; "ten"; l; al; t] d = build_vamana_main atof g sortf pd cent work sched order [prog; ty; m; data; "0"; save; "0"; l; al; t] d.
Proof. reflexivity. Qed.

(** Inner products of bytes, and an infinite alpha. *)
Lemma vamana_bytes_mips : forall atof g sortf pd cent work sched order prog kt data labels words save r R l L al t T d x, kt <> KFloat -> optional labels words -> number_arg r R -> number_arg l L -> number_arg t T -> finite (f32_of_f64 (atof al)) ->
  load_aligned_bin (kwidth kt) (g 0%nat) (g 1%nat) (d data) = Ok x ->
  build_vamana_main atof g sortf pd cent work sched order ([prog; type_word kt; "mips"; data] ++ words ++ [save; r; l; al; t]) d = Throw.
Proof.
  intros atof g sortf pd cent work sched order prog kt data labels words save r R l L al t T d x NF O HR HL HT F Ld. destruct (conv_float _ F) as [y [E _]].
  set (pre := [prog; type_word kt; "mips"; data]). set (rest := [save; r; l; al; t]).
  unfold build_vamana_main. assert (Len : length (pre ++ words ++ rest) = (9 + length words)%nat) by (rewrite !app_length; cbn; lia). rewrite Len. pose proof (opt_len _ _ O) as OL.
  replace ((9 + length words <? 10) || (11 <? 9 + length words))%nat%bool with false by (rewrite OL; destruct labels; reflexivity).
  rewrite (arg_before pre words rest 2 "mips" eq_refl). cbn [bind]. change (metric_of "mips") with (Some INNER_PRODUCT).
  rewrite (arg_before pre words rest 3 data eq_refl). cbn [bind]. pose proof (opt_arg_ok pre labels words rest O) as OA. cbn [length pre] in OA. rewrite OA. cbn [bind fst snd].
  pose proof (arg_behind pre words rest 0 save eq_refl) as A0. rewrite Nat.add_0_r in A0. cbn [length pre] in A0. rewrite A0. cbn [bind].
  pose proof (int_behind pre words rest 1 r R eq_refl HR) as A1. cbn [length pre] in A1. rewrite A1. cbn [bind].
  pose proof (int_behind pre words rest 2 l L eq_refl HL) as A2. cbn [length pre] in A2. rewrite A2. cbn [bind].
  pose proof (arg_behind pre words rest 3 al eq_refl) as A3. cbn [length pre] in A3. rewrite A3. cbn [bind].
  pose proof (int_behind pre words rest 4 t T eq_refl HT) as A4. cbn [length pre] in A4. rewrite A4. cbn [bind].
  rewrite (arg_before pre words rest 1 (type_word kt) eq_refl). cbn [bind]. rewrite kind_word. rewrite (u32_small R), (u32_small L), (u32_small T) by (eapply small31; eassumption).
  unfold build_vamana_index. set (p := p_set "num_threads" _ _).
  rewrite (get_u32 "C" 750%N p eq_refl eq_refl), (get_u32 "R" R p eq_refl (proj2 HR)), (get_u32 "L" L p eq_refl (proj2 HL)), (get_f32 "alpha" _ y p eq_refl E), (get_u32 "pruning_rule" 0%N p eq_refl eq_refl). cbn [bind].
  unfold with_metric. replace (made_for kt INNER_PRODUCT) with false by (destruct kt; [congruence|reflexivity..]). rewrite Ld. reflexivity.
Qed.
Lemma vamana_infinite : forall atof g sortf pd cent work sched order prog kt m data labels words save r R l L al t T d, supported kt m -> optional labels words -> number_arg r R -> number_arg l L -> number_arg t T -> (exists s, f32_of_f64 (atof al) = S754_infinity s) ->
  build_vamana_main atof g sortf pd cent work sched order ([prog; type_word kt; metric_word m; data] ++ words ++ [save; r; l; al; t]) d = Throw.
Proof.
  intros atof g sortf pd cent work sched order prog kt m data labels words save r R l L al t T d Sp O HR HL HT [sg F].
  assert (E : conv_f32 (text_of (show_float (f32_of_f64 (atof al)))) = BadText) by (rewrite F; destruct sg; vm_compute; reflexivity).
  set (pre := [prog; type_word kt; metric_word m; data]). set (rest := [save; r; l; al; t]).
  unfold build_vamana_main. assert (Len : length (pre ++ words ++ rest) = (9 + length words)%nat) by (rewrite !app_length; cbn; lia). rewrite Len. pose proof (opt_len _ _ O) as OL.
  replace ((9 + length words <? 10) || (11 <? 9 + length words))%nat%bool with false by (rewrite OL; destruct labels; reflexivity).
  rewrite (arg_before pre words rest 2 (metric_word m) eq_refl). cbn [bind]. rewrite (proj1 (metric_word_ok kt m Sp)).
  rewrite (arg_before pre words rest 3 data eq_refl). cbn [bind]. pose proof (opt_arg_ok pre labels words rest O) as OA. cbn [length pre] in OA. rewrite OA. cbn [bind fst snd].
  pose proof (arg_behind pre words rest 0 save eq_refl) as A0. rewrite Nat.add_0_r in A0. cbn [length pre] in A0. rewrite A0. cbn [bind].
  pose proof (int_behind pre words rest 1 r R eq_refl HR) as A1. cbn [length pre] in A1. rewrite A1. cbn [bind].
  pose proof (int_behind pre words rest 2 l L eq_refl HL) as A2. cbn [length pre] in A2. rewrite A2. cbn [bind].
  pose proof (arg_behind pre words rest 3 al eq_refl) as A3. cbn [length pre] in A3. rewrite A3. cbn [bind].
  pose proof (int_behind pre words rest 4 t T eq_refl HT) as A4. cbn [length pre] in A4. rewrite A4. cbn [bind].
  rewrite (arg_before pre words rest 1 (type_word kt) eq_refl). cbn [bind]. rewrite kind_word. rewrite (u32_small R), (u32_small L), (u32_small T) by (eapply small31; eassumption).
  unfold build_vamana_index. set (p := p_set "num_threads" _ _).
  rewrite (get_u32 "C" 750%N p eq_refl eq_refl), (get_u32 "R" R p eq_refl (proj2 HR)), (get_u32 "L" L p eq_refl (proj2 HL)). cbn [bind].
  assert (Ea : p_get conv_f32 "alpha" p = BadText) by (change (p_get conv_f32 "alpha" p) with (conv_f32 (text_of (show_float (f32_of_f64 (atof al))))); exact E). rewrite Ea. reflexivity.
Qed.
