(** * The recall a search tool prints. *)
From Coq Require Import NArith ZArith Ascii String List Arith Bool Lia Floats.SpecFloat.
From Verif Require Import Base Float32 FloatBits Bytes BinSpec StreamModel BinModel BinProofs TextModel TextProofs ParamModel ParamProofs ConvertModel DivFacts TsvModel TsvSpec TsvText TsvProofs LloydModel NormModel DistModel RecallModel RecallSpec RecallProofs TruthModel TruthSpec TruthProofs StatsModel
  PoolModel GreedyModel SearchModel HnswModel PruneModel BuildModel EntryModel RngModel ClosestModel FlatModel IvfModel LshModel IndexFileModel SystemModel SystemSpec SystemProofs3 SystemProofs4 ToolModel ToolProofs3 PipelineProofs PipelineProofs2 CmdModel CmdSpec CmdProofs CmdProofs2 CmdProofs3.
Import ListNotations.
Local Open Scope string_scope.

Lemma answer_all_len : forall w adim qadim mem srch k L nq, writes_own_slots k srch -> forall order st st', (forall i, In i order -> (i < nq)%nat) -> length (fst st) = (k * nq)%nat -> length (snd st) = (k * nq)%nat ->
  answer_all w adim qadim mem srch k L order st = Ok st' -> length (fst st') = (k * nq)%nat /\ length (snd st') = (k * nq)%nat.
Proof.
  intros w adim qadim mem srch k L nq W. induction order as [|i order IH]; intros st st' Hi L1 L2 E; cbn [answer_all] in E.
  - injection E as <-. auto.
  - destruct (answer_one w adim qadim mem srch k L i st) as [s1| | | |] eqn:E1; try discriminate. cbn [bind] in E. apply (IH s1 st'); [intros j Hj; apply Hi; right; exact Hj| | |exact E].
    all: unfold answer_one in E1; destruct (query_vec w adim qadim mem i) as [q| | | |]; try discriminate; cbn [bind] in E1.
    all: assert (Bi : (i * k + k <= k * nq)%nat) by (pose proof (Hi i (or_introl eq_refl)); nia).
    all: rewrite <- (firstn_skipn k (skipn (i * k) (fst st))), <- (firstn_skipn k (skipn (i * k) (snd st))) in E1.
    all: pose proof (W q L (firstn k (skipn (i * k) (fst st))) (skipn k (skipn (i * k) (fst st))) (firstn k (skipn (i * k) (snd st))) (skipn k (skipn (i * k) (snd st)))) as S.
    all: assert (A1 : length (firstn k (skipn (i * k) (fst st))) = k) by (rewrite firstn_length, skipn_length; lia).
    all: assert (A2 : length (firstn k (skipn (i * k) (snd st))) = k) by (rewrite firstn_length, skipn_length; lia).
    all: specialize (S A1 A2); destruct (srch q L (firstn k (skipn (i * k) (fst st))) (firstn k (skipn (i * k) (snd st)))) as [[[i' d'] c]| | | |]; [|rewrite S in E1; discriminate..].
    all: destruct S as [S [B1 B2]]; rewrite S in E1; cbn [bind] in E1; injection E1 as <-; cbn [fst snd]; rewrite !app_length, firstn_length, !skipn_length; lia.
Qed.

Lemma run_test_len : forall w adim qadim mem srch nq k L order ids, writes_own_slots k srch -> (forall i, In i order -> (i < nq)%nat) ->
  run_test w adim qadim mem srch nq k L order = Ok ids -> length ids = (k * nq)%nat /\ (1 <= nq)%nat.
Proof.
  intros w adim qadim mem srch nq k L order ids W Hi E. unfold run_test in E. destruct (answer_all w adim qadim mem srch k L order _) as [st| | | |] eqn:EA; try discriminate. cbn [bind] in E.
  destruct (Nat.eqb_spec nq 0); [discriminate|]. injection E as <-. apply answer_all_len with (nq := nq) in EA; auto; cbn [fst snd]; try apply repeat_length. split; [apply EA|lia].
Qed.

Lemma run_tests_in : forall w adim qadim mem srch nq k order Ls rs, run_tests w adim qadim mem srch nq k Ls order = Ok rs ->
  forall L ids, In (L, ids) rs -> In L Ls /\ run_test w adim qadim mem srch nq k (N.to_nat L) (order L) = Ok ids.
Proof.
  intros w adim qadim mem srch nq k order. induction Ls as [|L0 Ls IH]; cbn [run_tests]; intros rs E L ids H.
  - injection E as <-. destruct H.
  - destruct (run_test w adim qadim mem srch nq k (N.to_nat L0) (order L0)) as [i0| | | |] eqn:E0; try discriminate. cbn [bind] in E. destruct (run_tests w adim qadim mem srch nq k Ls order) as [t| | | |] eqn:Et; try discriminate. injection E as <-.
    destruct H as [H|H]; [injection H as <- <-; split; [left; reflexivity|exact E0]|]. destruct (IH t eq_refl L ids H). split; [right; assumption|assumption].
Qed.

Lemma run_queries_truth : forall w adim qadim mem srch truth nq k order, (k * nq < 2 ^ 61)%N -> forall Ls rs, Forall (fun L => (L < 2 ^ 31)%N) Ls ->
  run_tests w adim qadim mem srch (N.to_nat nq) (N.to_nat k) Ls order = Ok rs -> (forall L ids, In (L, ids) rs -> exists v, recall_of truth nq k ids = Ok v) ->
  exists rs', run_queries w adim qadim mem srch truth nq k Ls order = Ok rs' /\ map fst rs' = rs /\ forall L ids v, In (L, ids, v) rs' -> recall_of truth nq k ids = Ok v.
Proof.
  intros w adim qadim mem srch truth nq k order Room. change (2 ^ 61)%N with 2305843009213693952%N in Room. induction Ls as [|L Ls IH]; intros rs H E V; cbn [run_tests run_queries] in *.
  - injection E as <-. exists []. split; [reflexivity|]. split; [reflexivity|]. intros L ids v [].
  - inversion_clear H as [|? ? HL HLs]. destruct (run_test w adim qadim mem srch (N.to_nat nq) (N.to_nat k) (N.to_nat L) (order L)) as [i0| | | |] eqn:E0; try discriminate. cbn [bind] in E.
    destruct (run_tests w adim qadim mem srch (N.to_nat nq) (N.to_nat k) Ls order) as [t| | | |] eqn:Et; try discriminate. cbn [bind] in E. injection E as <-.
    destruct (V L i0 (or_introl eq_refl)) as [v Ev]. destruct (IH t HLs eq_refl) as [rs' [R1 [R2 R3]]]; [intros L' ids' Hin; apply (V L' ids'); right; exact Hin|].
    replace (2305843009213693952 <=? (k * nq) mod 18446744073709551616)%N with false by (symmetry; apply N.leb_gt; rewrite N.mod_small by lia; exact Room).
    rewrite (N.mod_small L) by (change (2 ^ 31)%N with 2147483648%N in HL; lia). rewrite E0. cbn [bind]. rewrite Ev. cbn [bind]. rewrite R1. cbn [bind]. eexists. split; [reflexivity|]. split; [cbn [map fst]; now rewrite R2|].
    intros L' ids' v' [Hin|Hin]; [injection Hin as <- <- <-; exact Ev|apply (R3 L' ids' v' Hin)].
Qed.

Lemma enc_mod : forall k x, enc k (x mod 256 ^ N.of_nat k) = enc k x.
Proof.
  induction k as [|k IH]; intros x; cbn [enc]; [reflexivity|]. rewrite Nat2N.inj_succ, N.pow_succ_r'. assert (P : (256 ^ N.of_nat k <> 0)%N) by (apply N.pow_nonzero; lia).
  rewrite N.mod_mul_r by (assumption || lia). f_equal.
  - rewrite (N.mul_comm 256), N.mod_add by lia. apply N.mod_mod. lia.
  - rewrite <- (IH (x / 256)%N). f_equal. rewrite (N.mul_comm 256), N.div_add by lia. rewrite N.div_small by (apply N.mod_lt; lia). lia.
Qed.

Lemma bin_file_mod : forall nq k l, bin_file 4 nq k l = bin_file 4 nq k (map (fun x => (x mod 4294967296)%N) l).
Proof.
  intros nq k l. unfold bin_file. do 2 f_equal. unfold enc_all. induction l as [|x l IH]; [reflexivity|]. cbn [flat_map map]. rewrite IH. f_equal. symmetry. exact (enc_mod 4 x).
Qed.

Lemma recall_agrees : forall h h' b nq dim gold ds k ids v, load_truthset h (Some b) = Ok (nq, dim, gold, ds) -> (1 <= nq < 2 ^ 32)%N -> (nq * k < 2 ^ 60)%N -> (1 <= k)%N -> (k < 2 ^ 31)%N -> (k <= dim)%N -> N.of_nat (length ids) = (nq * k)%N ->
  recall_of (Some (nq, dim, gold, ds)) nq k ids = Ok v ->
  recall_tool h h' (Some b) (Some (bin_file 4 nq k (map N.of_nat ids))) k = Ok (Some v).
Proof.
  intros h h' b nq dim gold ds k ids v Lt Hn Room K1 K2 Kd Li E. change (2 ^ 60)%N with 1152921504606846976%N in Room. unfold recall_tool. rewrite Lt. cbn [bind]. rewrite bin_file_mod, map_map. change (2 ^ 32)%N with 4294967296%N in Hn. change (2 ^ 31)%N with 2147483648%N in K2.
  set (l := map (fun x => (N.of_nat x mod 4294967296)%N) ids).
  assert (Lr : load_truthset h' (Some (bin_file 4 nq k l)) = Ok (nq, k, l, None)).
  { replace (bin_file 4 nq k l) with (truth_file nq k l None) by (unfold truth_file, bin_file; rewrite app_nil_r; reflexivity). apply load_truthset_ok. unfold truth_ok, u32_range.
    split; [lia|]. split; [lia|]. split; [exact Room|]. split; [unfold l; rewrite map_length; exact Li|]. split; [|exact Logic.I]. intros y Hy. unfold l in Hy. apply in_map_iff in Hy. destruct Hy as [z [<- _]]. unfold u32_range. apply N.mod_lt. lia. }
  rewrite Lr. cbn [bind]. rewrite N.eqb_refl. cbn [negb]. destruct (N.ltb_spec k k); [lia|]. destruct (N.ltb_spec dim k); [lia|]. cbn [orb]. unfold recall_of in E. rewrite (N.mod_small k) in E by lia. fold l in E.
  destruct (recall_hits _ _ _ _ _ _ _ _) as [hs| | | |]; try discriminate. cbn [bind] in *. now injection E as <-.
Qed.

Lemma recall_defined : forall h b nq dim gold ds k ids, load_truthset h (Some b) = Ok (nq, dim, gold, ds) -> (1 <= k)%N -> (k < 2 ^ 31)%N -> (k <= dim)%N -> N.of_nat (length ids) = (nq * k)%N ->
  match ds with Some l => forall x, In x l -> is_nan (f32_of_bits x) = false | None => True end -> exists v, recall_of (Some (nq, dim, gold, ds)) nq k ids = Ok v.
Proof.
  intros h b nq dim gold ds k ids Lt K1 K2 Kd Li Nan. unfold recall_of. change (2 ^ 31)%N with 2147483648%N in K2. rewrite (N.mod_small k) by lia. destruct (loaded_lengths _ _ _ _ _ _ Lt) as [Lg Ld].
  destruct (recall_ok gold (option_map (map f32_of_bits) ds) dim (map (fun i => (N.of_nat i mod 4294967296)%N) ids) k k nq) as [hs [Eh _]].
  - unfold matrices_ok. split; [lia|]. split; [lia|]. split; [lia|]. split; [lia|]. split; [lia|]. split; [rewrite map_length; lia|]. destruct ds as [l|]; [|exact Logic.I]. cbn [option_map]. split; [rewrite map_length; exact Ld|].
    intros x Hx. apply in_map_iff in Hx. destruct Hx as [y [<- Hy]]. now apply Nan.
  - rewrite Eh. cbn [bind]. eauto.
Qed.

(** The table a search prints agrees with the recall tool on the result files. *)
Lemma search_files_recall : forall w g1 g2 h query truth prefix k least args order load d b nq qdim qadim mem dim gold ds adim srch d'',
  d truth = Some b -> load_truthset h (Some b) = Ok (nq, dim, gold, ds) -> (nq < 2 ^ 32)%N -> (1 <= k < 2 ^ 31)%N -> (k <= dim)%N -> match ds with Some l => forall x, In x l -> is_nan (f32_of_bits x) = false | None => True end ->
  load_aligned_bin w g1 g2 (d query) = Ok (nq, qdim, qadim, mem) -> load d = Ok (adim, srch) -> writes_own_slots (N.to_nat k) srch -> Forall (fun L => (L < 2 ^ 31)%N) args ->
  (forall L i, In L args -> (least <= L)%N -> In i (order L) -> (i < N.to_nat nq)%nat) -> (nq * k < 2 ^ 60)%N ->
  search_tool w g1 g2 query prefix k least args order load d = Ok (Some d'') ->
  exists table, shown (search_files w g1 g2 h query truth prefix k least args order load d) d = Ok (0%Z, d'', table) /\ map fst table = filter (fun L => (least <=? L)%N) args /\
    forall L v h', In (L, v) table -> recall_tool h h' (Some b) (d'' (result_name prefix L)) k = Ok (Some v).
Proof.
  intros w g1 g2 h query truth prefix k least args order load d b nq qdim qadim mem dim gold ds adim srch d'' Eb Lt Hn [K1 K2] Kd Nan Eq El W Small Ord Room Es. unfold search_tool, search_files in *.
  assert (Small' : Forall (fun L => (L < 2 ^ 31)%N) (filter (fun L => (least <=? L)%N) args)) by (apply Forall_forall; intros L HL; apply filter_In in HL; exact (proj1 (Forall_forall _ _) Small L (proj1 HL))).
  assert (Ord' : forall L i, In L (filter (fun L => (least <=? L)%N) args) -> In i (order L) -> (i < N.to_nat nq)%nat) by (intros L i HL Hi; apply filter_In in HL; destruct HL as [HL Hle]; apply N.leb_le in Hle; exact (Ord L i HL Hle Hi)).
  destruct (filter (fun L => (least <=? L)%N) args) as [|L0 Ls] eqn:EL; [discriminate|]. rewrite Eq in *. cbn [bind] in *. rewrite Eb, Lt. cbn [bind]. rewrite El in *. cbn [bind] in *.
  destruct (run_tests w adim qadim mem srch (N.to_nat nq) (N.to_nat k) (L0 :: Ls) order) as [rs| | | |] eqn:ER; try discriminate. cbn [bind] in Es.
  assert (Lens : forall L ids, In (L, ids) rs -> N.of_nat (length ids) = (nq * k)%N /\ (1 <= nq)%N).
  { intros L ids Hin. destruct (run_tests_in _ _ _ _ _ _ _ _ _ _ ER L ids Hin) as [HL Er]. apply run_test_len in Er; [|exact W|intros i; apply Ord'; exact HL]. lia. }
  assert (Same : forall L a c, In (L, a) rs -> In (L, c) rs -> a = c).
  { intros L a c Ha Hc. destruct (run_tests_in _ _ _ _ _ _ _ _ _ _ ER L a Ha) as [_ Ea]. destruct (run_tests_in _ _ _ _ _ _ _ _ _ _ ER L c Hc) as [_ Ec]. congruence. }
  destruct (save_results_ok prefix nq k rs d) as [d1 [S1 [S2 _]]]; [intros L ids Hin; apply (Lens L ids Hin)|exact Same|]. rewrite S1 in Es. cbn [bind] in Es. injection Es as <-.
  destruct (run_queries_truth w adim qadim mem srch (Some (nq, dim, gold, ds)) nq k order ltac:(change (2 ^ 60)%N with 1152921504606846976%N in Room; change (2 ^ 61)%N with 2305843009213693952%N; lia) (L0 :: Ls) rs Small' ER) as [rs' [R1 [R2 R3]]].
  { intros L ids Hin. apply (recall_defined h b nq dim gold ds k ids Lt K1 K2 Kd); [apply (Lens L ids Hin)|exact Nan]. }
  rewrite R1. cbn [bind]. rewrite R2, S1. cbn [bind shown]. eexists. split; [reflexivity|]. split.
  - rewrite <- (run_tests_sizes _ _ _ _ _ _ _ _ _ _ ER), <- R2, !map_map. reflexivity.
  - intros L v h' Hin. apply in_map_iff in Hin. destruct Hin as [[[L' ids] v'] [E Hin]]. cbn [fst snd] in E. injection E as -> ->. assert (Hrs : In (L, ids) rs) by (rewrite <- R2; change (L, ids) with (fst (L, ids, v)); apply in_map, Hin).
    rewrite (S2 L ids Hrs). destruct (Lens L ids Hrs) as [Len Pos]. apply (recall_agrees h h' b nq dim gold ds k ids v Lt (conj Pos Hn) Room K1 K2 Kd Len). apply (R3 L ids v Hin).
Qed.

(** The vamana lines of tests/benchmarks.py. *)
Lemma benchmark_build : forall atof g sortf pd cent work sched order prog ty m data save r l al t d,
  build_vamana_main atof g sortf pd cent work sched order [prog; ty; m; data; save; r; l; al; t] d = Exit.
Proof. reflexivity. Qed.
Lemma benchmark_search : forall g1 g2 h g sortf qd order prog kt m file t T query truth ks k prefix s1 L1 s2 ss Ls d,
  supported kt m -> number_arg t T -> number_arg ks k -> number_arg s1 L1 -> (1 <= L1)%N -> Forall2 number_arg ss Ls -> ss <> [] ->
  d truth = None -> room_for k (load_aligned_bin (kwidth kt) g1 g2 (d query)) ->
  search_vamana_main g1 g2 h g sortf qd order ([prog; type_word kt; metric_word m; file; t; query; truth; ks; prefix] ++ s1 :: s2 :: ss) d =
    searched k Ls d (search_tool (kwidth kt) g1 g2 query prefix k k Ls order (load_for_vamana (kwidth kt) g sortf (qd kt m) [s2] (N.to_nat k) file) d).
Proof.
  intros g1 g2 h g sortf qd order prog kt m file t T query truth ks k prefix s1 L1 s2 ss Ls d Su HT HK H1 Pos HL Ne ND Room.
  apply (search_vamana_ok g1 g2 h g sortf qd order prog kt m file t T query truth ks k prefix (Some s2) [s1; s2] ss Ls d); auto. exists s1, L1. split; [reflexivity|]. split; [exact H1|lia].
Qed.
