(** * The search tools from the command line, without ground truth. *)
From Coq Require Import NArith ZArith QArith Qabs Ascii String List Arith Bool Lia Floats.SpecFloat.
From Verif Require Import Base Float32 FloatBits Bytes BinSpec StreamModel BinModel TextModel TextProofs ParamModel ParamProofs ConvertModel DivFacts TsvModel TsvSpec TsvText TsvProofs LloydModel NormModel DistModel RecallModel TruthModel
  PoolModel GreedyModel SearchModel HnswModel PruneModel BuildModel EntryModel RngModel ClosestModel FlatModel IvfModel LshModel IndexFileModel SystemModel ToolModel CmdModel CmdSpec CmdProofs CmdProofs2.
Import ListNotations.
Local Open Scope string_scope.

Lemma run_queries_plain : forall w adim qadim mem srch nq k order, (k * nq < 2 ^ 61)%N -> forall Ls, Forall (fun L => (L < 2 ^ 31)%N) Ls ->
  run_queries w adim qadim mem srch None nq k Ls order = do rs <- run_tests w adim qadim mem srch (N.to_nat nq) (N.to_nat k) Ls order; Ok (map (fun r => (r, f32_zero)) rs).
Proof.
  intros w adim qadim mem srch nq k order Room. change (2 ^ 61)%N with 2305843009213693952%N in Room. induction Ls as [|L Ls IH]; intros H; [reflexivity|]. inversion_clear H as [|? ? HL HLs]. cbn [run_queries run_tests].
  replace (2305843009213693952 <=? (k * nq) mod 18446744073709551616)%N with false by (symmetry; apply N.leb_gt; rewrite N.mod_small by lia; exact Room).
  rewrite (N.mod_small L) by (change (2 ^ 31)%N with 2147483648%N in HL; lia).
  destruct (run_test _ _ _ _ _ _ _ _ _) as [ids| | | |]; try reflexivity. cbn [bind recall_of]. rewrite IH by exact HLs. destruct (run_tests _ _ _ _ _ _ _ _ _); reflexivity.
Qed.

Lemma run_tests_sizes : forall w adim qadim mem srch nq k order Ls rs, run_tests w adim qadim mem srch nq k Ls order = Ok rs -> map fst rs = Ls.
Proof.
  intros w adim qadim mem srch nq k order. induction Ls as [|L Ls IH]; cbn [run_tests]; intros rs E.
  - now injection E as <-.
  - destruct (run_test _ _ _ _ _ _ _ _ _) as [ids| | | |]; try discriminate. cbn [bind] in E. destruct (run_tests _ _ _ _ _ _ _ _ _) as [t| | | |] eqn:Et; try discriminate. injection E as <-. cbn [map fst]. now rewrite (IH t eq_refl).
Qed.

Lemma search_files_plain : forall w g1 g2 h query truth prefix k least args order load d, d truth = None -> Forall (fun L => (L < 2 ^ 31)%N) args -> room_for k (load_aligned_bin w g1 g2 (d query)) ->
  shown (search_files w g1 g2 h query truth prefix k least args order load d) d = searched least args d (search_tool w g1 g2 query prefix k least args order load d).
Proof.
  intros w g1 g2 h query truth prefix k least args order load d T Small Room. unfold search_files, search_tool, searched.
  assert (Small' : Forall (fun L => (L < 2 ^ 31)%N) (filter (fun L => (least <=? L)%N) args)) by (apply Forall_forall; intros L HL; apply filter_In in HL; exact (proj1 (Forall_forall _ _) Small L (proj1 HL))).
  destruct (filter _ args) as [|L0 Ls] eqn:EL; [reflexivity|].
  destruct (load_aligned_bin w g1 g2 (d query)) as [[[[nq dim] qadim] mem]| | | |]; try reflexivity. cbn [bind]. rewrite T. cbn [bind]. destruct (load d) as [[adim srch]| | | |]; try reflexivity. cbn [bind].
  rewrite (run_queries_plain w adim qadim mem srch nq k order (Room _ _ _ _ eq_refl)) by exact Small'. destruct (run_tests w adim qadim mem srch (N.to_nat nq) (N.to_nat k) (L0 :: Ls) order) as [rs| | | |] eqn:ER; try reflexivity. cbn [bind].
  rewrite !map_map. cbn [fst snd]. rewrite map_id. destruct (save_results prefix nq k rs d) as [d'| | | |]; try reflexivity. cbn [bind shown]. do 2 f_equal.
  rewrite <- (run_tests_sizes _ _ _ _ _ _ _ _ _ _ ER), map_map. reflexivity.
Qed.

Lemma numbers_small : forall ss ns, Forall2 number_arg ss ns -> Forall (fun L => (L < 2 ^ 31)%N) ns.
Proof. intros ss ns H. induction H as [|s n ss ns Hs _ IH]; constructor; [exact (proj2 Hs)|exact IH]. Qed.

Lemma skip_behind : forall (pre words rest : list string), skipn (length pre + length words) (pre ++ words ++ rest) = rest.
Proof. intros pre words rest. rewrite app_assoc, skipn_app. rewrite app_length, Nat.sub_diag. rewrite skipn_all2 by (rewrite app_length; lia). reflexivity. Qed.

Lemma two_or_one : forall o words, optional o words -> (1 <= length words)%nat.
Proof. intros o words O. rewrite (opt_len _ _ O). destruct o; lia. Qed.

(** The lists of numbers at the end of a command line. *)
Lemma sizes_read : forall ss ns, Forall2 number_arg ss ns -> exists zs, map_res atoi ss = Ok zs /\ map int_u64 zs = ns.
Proof. intros ss ns H. exact (atoi_all ss ns H). Qed.

Lemma search_vamana_files : forall g1 g2 h g sortf qd order prog kt m file t T query truth ks k prefix filters words ss Ls d,
  supported kt m -> number_arg t T -> number_arg ks k -> optional filters words -> Forall2 number_arg ss Ls -> ss <> [] ->
  search_vamana_main g1 g2 h g sortf qd order ([prog; type_word kt; metric_word m; file; t; query; truth; ks; prefix] ++ words ++ ss) d =
    shown (search_files (kwidth kt) g1 g2 h query truth prefix k k Ls order (load_for_vamana (kwidth kt) g sortf (qd kt m) (names filters) (N.to_nat k) file) d) d.
Proof.
  intros g1 g2 h g sortf qd order prog kt m file t T query truth ks k prefix filters words ss Ls d S HT HK O HL Ne. destruct (sizes_read ss Ls HL) as [zs [EZ UZ]].
  set (pre := [prog; type_word kt; metric_word m; file; t; query; truth; ks; prefix]). unfold search_vamana_main.
  assert (Len : length (pre ++ words ++ ss) = (9 + length words + length ss)%nat) by (rewrite !app_length; cbn; lia). rewrite Len. pose proof (two_or_one _ _ O).
  replace (9 + length words + length ss <? 11)%nat with false by (symmetry; apply Nat.ltb_ge; destruct ss; [congruence|cbn [length]; lia]).
  rewrite (arg_before pre words ss 1 (type_word kt) eq_refl). cbn [bind]. rewrite kind_word. rewrite (arg_before pre words ss 2 (metric_word m) eq_refl). cbn [bind]. rewrite (proj1 (metric_word_ok kt m S)), (proj2 (metric_word_ok kt m S)).
  rewrite (arg_before pre words ss 3 file eq_refl), (arg_before pre words ss 5 query eq_refl), (arg_before pre words ss 6 truth eq_refl), (arg_before pre words ss 8 prefix eq_refl).
  rewrite (int_at _ 4 t T (eq_refl : nth_error (pre ++ words ++ ss) 4 = Some t) HT), (int_at _ 7 ks k (eq_refl : nth_error (pre ++ words ++ ss) 7 = Some ks) HK). cbn [bind].
  pose proof (opt_arg_ok pre filters words ss O) as OA. change (length pre) with 9%nat in OA. rewrite OA. cbn [bind fst snd]. pose proof (skip_behind pre words ss) as Sk. change (length pre) with 9%nat in Sk. rewrite Sk, EZ. cbn [bind].
  rewrite UZ, (u64_small k (proj2 HK)). reflexivity.
Qed.

Lemma search_hnsw_files : forall g1 g2 h g sortf qd order prog kt m file lv levels t T query truth ks k prefix ss Ls d,
  supported kt m -> number_arg lv levels -> (1 <= levels)%N -> number_arg t T -> number_arg ks k -> Forall2 number_arg ss Ls -> ss <> [] ->
  search_hnsw_main g1 g2 h g sortf qd order ([prog; type_word kt; metric_word m; file; lv; t; query; truth; ks; prefix] ++ ss) d =
    shown (search_files (kwidth kt) g1 g2 h query truth prefix k k Ls order (load_for_hnsw (kwidth kt) g sortf (qd kt m) (N.to_nat k) (N.to_nat levels) file) d) d.
Proof.
  intros g1 g2 h g sortf qd order prog kt m file lv levels t T query truth ks k prefix ss Ls d S HV Pos HT HK HL Ne. destruct (sizes_read ss Ls HL) as [zs [EZ UZ]].
  set (argv := ([prog; type_word kt; metric_word m; file; lv; t; query; truth; ks; prefix] ++ ss)%list). unfold search_hnsw_main.
  replace (length argv <? 11)%nat with false by (symmetry; apply Nat.ltb_ge; unfold argv; rewrite app_length; destruct ss; [congruence|cbn [length]; lia]).
  change (arg argv 1) with (Ok (type_word kt)). cbn [bind]. rewrite kind_word. change (arg argv 2) with (Ok (metric_word m)). cbn [bind]. rewrite (proj1 (metric_word_ok kt m S)), (proj2 (metric_word_ok kt m S)).
  change (arg argv 3) with (Ok file). change (arg argv 6) with (Ok query). change (arg argv 7) with (Ok truth). change (arg argv 9) with (Ok prefix).
  rewrite (int_at argv 4 lv levels eq_refl HV), (int_at argv 5 t T eq_refl HT), (int_at argv 8 ks k eq_refl HK). cbn [bind]. change (skipn 10 argv) with ss. rewrite EZ. cbn [bind]. rewrite UZ, (u64_small k (proj2 HK)), (u32_small levels (proj2 HV)).
  replace (Datatypes.S (N.to_nat (sub32 levels 1))) with (N.to_nat levels). 2:{ unfold sub32. pose proof (small32 _ (proj2 HV)). replace (levels + 4294967296 - 1)%N with (levels - 1 + 1 * 4294967296)%N by lia. rewrite N.mod_add by lia. rewrite N.mod_small by lia. lia. }
  reflexivity.
Qed.

Lemma construct_plain : forall w g data d a, construct w g data [] "" d = Ok a -> exists n dim adim rows tags, a = mkA n dim adim rows tags false [] [] true "0".
Proof.
  intros w g data d a E. unfold construct in E. destruct (load_aligned_bin _ _ _ _) as [[[[n dim] adim] rows]| | | |]; try discriminate. cbn [bind] in E. destruct (tag_map n []) as [tags| | | |]; try discriminate. cbn [bind] in E. injection E as <-. repeat eexists.
Qed.

Lemma load_rng_fresh : forall kt m gc g sortf qd k data file d a d0, supported kt m -> construct (kwidth kt) gc data [] "" d0 = Ok a -> d = d0 ->
  load_rng_over kt m gc g sortf qd k data file d = load_for_rng (kwidth kt) g sortf (qd kt m) k file d.
Proof.
  intros kt m gc g sortf qd k data file d a d0 S E ->. unfold load_rng_over, load_for_rng, with_metric. rewrite (proj2 (metric_word_ok kt m S)), E. cbn [bind]. destruct (construct_plain _ _ _ _ _ E) as [n [dim [adim [rows [tags ->]]]]]. reflexivity.
Qed.

Lemma search_load_ext : forall w g1 g2 h query truth prefix k least args order l1 l2 d, l1 d = l2 d ->
  search_files w g1 g2 h query truth prefix k least args order l1 d = search_files w g1 g2 h query truth prefix k least args order l2 d.
Proof. intros w g1 g2 h query truth prefix k least args order l1 l2 d E. unfold search_files. now rewrite E. Qed.

Lemma search_relng_files : forall g1 g2 h gc g sortf qd order prog kt m data file t T query truth ks k prefix ss Ls d a,
  supported kt m -> number_arg t T -> number_arg ks k -> Forall2 number_arg ss Ls -> ss <> [] -> construct (kwidth kt) gc data [] "" d = Ok a ->
  search_relng_main g1 g2 h gc g sortf qd order ([prog; type_word kt; metric_word m; data; file; t; query; truth; ks; prefix] ++ ss) d =
    shown (search_files (kwidth kt) g1 g2 h query truth prefix k k Ls order (load_for_rng (kwidth kt) g sortf (qd kt m) (N.to_nat k) file) d) d.
Proof.
  intros g1 g2 h gc g sortf qd order prog kt m data file t T query truth ks k prefix ss Ls d a S HT HK HL Ne EC. destruct (sizes_read ss Ls HL) as [zs [EZ UZ]].
  set (argv := ([prog; type_word kt; metric_word m; data; file; t; query; truth; ks; prefix] ++ ss)%list). unfold search_relng_main.
  replace (length argv <? 11)%nat with false by (symmetry; apply Nat.ltb_ge; unfold argv; rewrite app_length; destruct ss; [congruence|cbn [length]; lia]).
  change (arg argv 1) with (Ok (type_word kt)). cbn [bind]. rewrite kind_word. change (arg argv 2) with (Ok (metric_word m)). cbn [bind]. rewrite (proj1 (metric_word_ok kt m S)).
  change (arg argv 3) with (Ok data). change (arg argv 4) with (Ok file). change (arg argv 6) with (Ok query). change (arg argv 7) with (Ok truth). change (arg argv 9) with (Ok prefix).
  rewrite (int_at argv 5 t T eq_refl HT), (int_at argv 8 ks k eq_refl HK). cbn [bind]. change (skipn 10 argv) with ss. rewrite EZ. cbn [bind]. rewrite UZ, (u64_small k (proj2 HK)).
  f_equal. apply search_load_ext. exact (load_rng_fresh kt m gc g sortf qd (N.to_nat k) data file d a d S EC eq_refl).
Qed.

Lemma search_ivf_files : forall g1 g2 h g popf mbs qd cd order prog kt file t T query truth ks k prefix filters words ss Ls d,
  number_arg t T -> number_arg ks k -> optional filters words -> Forall2 number_arg ss Ls -> ss <> [] ->
  search_ivf_main g1 g2 h g popf mbs qd cd order ([prog; type_word kt; file; t; query; truth; ks; prefix] ++ words ++ ss) d =
    shown (search_files (kwidth kt) g1 g2 h query truth prefix k 1 Ls order (load_for_ivf (kwidth kt) g popf mbs (qd kt) (cd kt) (names filters) (N.to_nat k) file) d) d.
Proof.
  intros g1 g2 h g popf mbs qd cd order prog kt file t T query truth ks k prefix filters words ss Ls d HT HK O HL Ne. destruct (sizes_read ss Ls HL) as [zs [EZ UZ]].
  set (pre := [prog; type_word kt; file; t; query; truth; ks; prefix]). unfold search_ivf_main.
  assert (Len : length (pre ++ words ++ ss) = (8 + length words + length ss)%nat) by (rewrite !app_length; cbn; lia). rewrite Len. pose proof (two_or_one _ _ O).
  replace (8 + length words + length ss <? 10)%nat with false by (symmetry; apply Nat.ltb_ge; destruct ss; [congruence|cbn [length]; lia]).
  rewrite (arg_before pre words ss 1 (type_word kt) eq_refl). cbn [bind]. rewrite kind_word.
  rewrite (arg_before pre words ss 2 file eq_refl), (arg_before pre words ss 4 query eq_refl), (arg_before pre words ss 5 truth eq_refl), (arg_before pre words ss 7 prefix eq_refl).
  rewrite (int_at _ 3 t T (eq_refl : nth_error (pre ++ words ++ ss) 3 = Some t) HT), (int_at _ 6 ks k (eq_refl : nth_error (pre ++ words ++ ss) 6 = Some ks) HK). cbn [bind].
  pose proof (opt_arg_ok pre filters words ss O) as OA. change (length pre) with 8%nat in OA. rewrite OA. cbn [bind fst snd]. pose proof (skip_behind pre words ss) as Sk. change (length pre) with 8%nat in Sk. rewrite Sk, EZ. cbn [bind].
  rewrite UZ, (u64_small k (proj2 HK)). reflexivity.
Qed.

Lemma search_lsh_files : forall g1 g2 h g dotf fv qd order prog kt file t T query truth ks k prefix filters words more d,
  number_arg t T -> number_arg ks k -> optional filters words ->
  search_lsh_main g1 g2 h g dotf fv qd order ([prog; type_word kt; file; t; query; truth; ks; prefix] ++ words ++ more) d =
    shown (search_files (kwidth kt) g1 g2 h query truth prefix k 1 [1%N] order (load_for_lsh (kwidth kt) g dotf (fv kt) (qd kt) (names filters) (N.to_nat k) file) d) d.
Proof.
  intros g1 g2 h g dotf fv qd order prog kt file t T query truth ks k prefix filters words more d HT HK O.
  set (pre := [prog; type_word kt; file; t; query; truth; ks; prefix]). unfold search_lsh_main.
  assert (Len : length (pre ++ words ++ more) = (8 + length words + length more)%nat) by (rewrite !app_length; cbn; lia). rewrite Len. pose proof (two_or_one _ _ O).
  replace (8 + length words + length more <? 9)%nat with false by (symmetry; apply Nat.ltb_ge; lia).
  rewrite (arg_before pre words more 1 (type_word kt) eq_refl). cbn [bind]. rewrite kind_word.
  rewrite (arg_before pre words more 2 file eq_refl), (arg_before pre words more 4 query eq_refl), (arg_before pre words more 5 truth eq_refl), (arg_before pre words more 7 prefix eq_refl).
  rewrite (int_at _ 3 t T (eq_refl : nth_error (pre ++ words ++ more) 3 = Some t) HT), (int_at _ 6 ks k (eq_refl : nth_error (pre ++ words ++ more) 6 = Some ks) HK). cbn [bind].
  pose proof (opt_arg_ok pre filters words more O) as OA. change (length pre) with 8%nat in OA. rewrite OA. cbn [bind fst snd]. rewrite (u64_small k (proj2 HK)). reflexivity.
Qed.

(** Without ground truth. *)
Lemma search_vamana_ok : forall g1 g2 h g sortf qd order prog kt m file t T query truth ks k prefix filters words ss Ls d,
  supported kt m -> number_arg t T -> number_arg ks k -> optional filters words -> Forall2 number_arg ss Ls -> ss <> [] ->
  d truth = None -> room_for k (load_aligned_bin (kwidth kt) g1 g2 (d query)) ->
  search_vamana_main g1 g2 h g sortf qd order ([prog; type_word kt; metric_word m; file; t; query; truth; ks; prefix] ++ words ++ ss) d =
    searched k Ls d (search_tool (kwidth kt) g1 g2 query prefix k k Ls order (load_for_vamana (kwidth kt) g sortf (qd kt m) (names filters) (N.to_nat k) file) d).
Proof.
  intros g1 g2 h g sortf qd order prog kt m file t T query truth ks k prefix filters words ss Ls d S HT HK O HL Ne ND Room. rewrite (search_vamana_files g1 g2 h g sortf qd order prog kt m file t T query truth ks k prefix filters words ss Ls d S HT HK O HL Ne).
  apply search_files_plain; [exact ND|exact (numbers_small _ _ HL)|exact Room].
Qed.
Lemma search_hnsw_ok : forall g1 g2 h g sortf qd order prog kt m file lv levels t T query truth ks k prefix ss Ls d,
  supported kt m -> number_arg lv levels -> (1 <= levels)%N -> number_arg t T -> number_arg ks k -> Forall2 number_arg ss Ls -> ss <> [] ->
  d truth = None -> room_for k (load_aligned_bin (kwidth kt) g1 g2 (d query)) ->
  search_hnsw_main g1 g2 h g sortf qd order ([prog; type_word kt; metric_word m; file; lv; t; query; truth; ks; prefix] ++ ss) d =
    searched k Ls d (search_tool (kwidth kt) g1 g2 query prefix k k Ls order (load_for_hnsw (kwidth kt) g sortf (qd kt m) (N.to_nat k) (N.to_nat levels) file) d).
Proof.
  intros g1 g2 h g sortf qd order prog kt m file lv levels t T query truth ks k prefix ss Ls d S HV Pos HT HK HL Ne ND Room. rewrite (search_hnsw_files g1 g2 h g sortf qd order prog kt m file lv levels t T query truth ks k prefix ss Ls d S HV Pos HT HK HL Ne).
  apply search_files_plain; [exact ND|exact (numbers_small _ _ HL)|exact Room].
Qed.
Lemma search_relng_ok : forall g1 g2 h gc g sortf qd order prog kt m data file t T query truth ks k prefix ss Ls d a,
  supported kt m -> number_arg t T -> number_arg ks k -> Forall2 number_arg ss Ls -> ss <> [] -> construct (kwidth kt) gc data [] "" d = Ok a ->
  d truth = None -> room_for k (load_aligned_bin (kwidth kt) g1 g2 (d query)) ->
  search_relng_main g1 g2 h gc g sortf qd order ([prog; type_word kt; metric_word m; data; file; t; query; truth; ks; prefix] ++ ss) d =
    searched k Ls d (search_tool (kwidth kt) g1 g2 query prefix k k Ls order (load_for_rng (kwidth kt) g sortf (qd kt m) (N.to_nat k) file) d).
Proof.
  intros g1 g2 h gc g sortf qd order prog kt m data file t T query truth ks k prefix ss Ls d a S HT HK HL Ne EC ND Room. rewrite (search_relng_files g1 g2 h gc g sortf qd order prog kt m data file t T query truth ks k prefix ss Ls d a S HT HK HL Ne EC).
  apply search_files_plain; [exact ND|exact (numbers_small _ _ HL)|exact Room].
Qed.
Lemma search_ivf_ok : forall g1 g2 h g popf mbs qd cd order prog kt file t T query truth ks k prefix filters words ss Ls d,
  number_arg t T -> number_arg ks k -> optional filters words -> Forall2 number_arg ss Ls -> ss <> [] ->
  d truth = None -> room_for k (load_aligned_bin (kwidth kt) g1 g2 (d query)) ->
  search_ivf_main g1 g2 h g popf mbs qd cd order ([prog; type_word kt; file; t; query; truth; ks; prefix] ++ words ++ ss) d =
    searched 1 Ls d (search_tool (kwidth kt) g1 g2 query prefix k 1 Ls order (load_for_ivf (kwidth kt) g popf mbs (qd kt) (cd kt) (names filters) (N.to_nat k) file) d).
Proof.
  intros g1 g2 h g popf mbs qd cd order prog kt file t T query truth ks k prefix filters words ss Ls d HT HK O HL Ne ND Room. rewrite (search_ivf_files g1 g2 h g popf mbs qd cd order prog kt file t T query truth ks k prefix filters words ss Ls d HT HK O HL Ne).
  apply search_files_plain; [exact ND|exact (numbers_small _ _ HL)|exact Room].
Qed.
Lemma search_lsh_ok : forall g1 g2 h g dotf fv qd order prog kt file t T query truth ks k prefix filters words more d,
  number_arg t T -> number_arg ks k -> optional filters words ->
  d truth = None -> room_for k (load_aligned_bin (kwidth kt) g1 g2 (d query)) ->
  search_lsh_main g1 g2 h g dotf fv qd order ([prog; type_word kt; file; t; query; truth; ks; prefix] ++ words ++ more) d =
    searched 1 [1%N] d (search_tool (kwidth kt) g1 g2 query prefix k 1 [1%N] order (load_for_lsh (kwidth kt) g dotf (fv kt) (qd kt) (names filters) (N.to_nat k) file) d).
Proof.
  intros g1 g2 h g dotf fv qd order prog kt file t T query truth ks k prefix filters words more d HT HK O ND Room. rewrite (search_lsh_files g1 g2 h g dotf fv qd order prog kt file t T query truth ks k prefix filters words more d HT HK O).
  apply search_files_plain; [exact ND|repeat constructor|exact Room].
Qed.
