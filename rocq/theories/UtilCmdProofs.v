(** * The utility tools from the command line. *)
From Coq Require Import NArith ZArith String List Arith Bool Lia Floats.SpecFloat.
From Verif Require Import Base Bytes Float32 FloatBits BinSpec StreamModel BinModel BinProofs ConvertModel TsvModel LloydModel NormModel FusedModel StatsModel TruthModel GtModel BlasModel GtToolModel
  IndexFileModel PqFileModel PartitionModel CmdModel CmdSpec CmdProofs CmdProofs2 RandModel UtilCmdModel UtilCmdSpec.
Import ListNotations.
Local Open Scope string_scope.

Lemma eqb_other : forall a b, a <> b -> String.eqb a b = false.
Proof. intros a b H. now apply String.eqb_neq. Qed.

Ltac words H := unfold int_arg, arg; cbn [length Nat.eqb Nat.ltb Nat.leb negb nth_error bind]; repeat rewrite (atoi_numeral _ _ H).

Lemma recall_ok : forall g g' prog truth results r R d, number_arg r R ->
  calculate_recall_main g g' [prog; truth; results; r] d = do v <- recall_tool g g' (d truth) (d results) R; Ok (match v with Some x => (0%Z, Some x) | None => ((-1)%Z, None) end).
Proof.
  intros g g' prog truth results r R d H. unfold calculate_recall_main. words H. cbn [bind]. rewrite u32_small by (apply (small31 r), H).
  destruct (recall_tool _ _ _ _ _) as [[x|]| | | |]; reflexivity.
Qed.

Lemma groundtruth_ok : forall W pushf takef sortf bs ps g orders prog kt base query ks k out mips d, number_arg ks k ->
  compute_groundtruth_main W pushf takef sortf bs ps g orders [prog; type_word kt; base; query; ks; out; mips_word mips] d =
    writes d out (gt_tool W mips pushf takef sortf bs ps kt (g 0%nat) (g 1%nat) (g 2%nat) (g 3%nat) (d base) (d query) (N.to_nat k) orders).
Proof.
  intros W pushf takef sortf bs ps g orders prog kt base query ks k out mips d H. unfold compute_groundtruth_main. words H. rewrite kind_word. cbn [bind]. rewrite u64_small by (apply (small31 ks), H).
  replace (String.eqb (mips_word mips) "mips") with mips by (destruct mips; reflexivity). reflexivity.
Qed.
Lemma groundtruth_any_metric : forall W pushf takef sortf bs ps g orders prog ty base query ks out word d, word <> "mips" ->
  compute_groundtruth_main W pushf takef sortf bs ps g orders [prog; ty; base; query; ks; out; word] d = compute_groundtruth_main W pushf takef sortf bs ps g orders [prog; ty; base; query; ks; out; "l2"] d.
Proof. intros. unfold compute_groundtruth_main, int_arg, arg. cbn [length Nat.eqb negb nth_error bind]. now rewrite (eqb_other word) by assumption. Qed.

Lemma vecs_ok : forall bs prog src dst d, src <> dst -> vecs_main bs [prog; src; dst] d = writes d dst (vecs_to_bin bs (d src)).
Proof. intros bs prog src dst d H. unfold vecs_main, arg. cbn [length Nat.eqb negb nth_error bind]. now rewrite eqb_other. Qed.

Lemma convert_ok : forall w1 w2 conv g order prog src dst d, convert_main w1 w2 conv g order [prog; src; dst] d = writes d dst (convert_file w1 w2 conv (g 0%nat) (g 1%nat) order (d src)).
Proof. reflexivity. Qed.

Lemma quantise_ok : forall atof bs g prog src dst bias scale d, src <> dst ->
  float_bin_to_int8_main atof bs g [prog; src; dst; bias; scale] d = writes d dst (float_bin_to_int8 (f32_of_f64 (atof bias)) (f32_of_f64 (atof scale)) bs (g 0%nat) (g 1%nat) (d src)).
Proof. intros atof bs g prog src dst bias scale d H. unfold float_bin_to_int8_main, arg. cbn [length Nat.eqb negb nth_error bind]. now rewrite eqb_other. Qed.

Lemma to_tsv_ok : forall bs g prog kt src dst d, src <> dst -> bin_to_tsv_main bs g [prog; type_word kt; src; dst] d = writes d dst (bin_to_tsv (text_type kt) bs (g 0%nat) (g 1%nat) (d src)).
Proof. intros bs g prog kt src dst d H. unfold bin_to_tsv_main, arg. cbn [length Nat.eqb negb nth_error bind]. rewrite eqb_other, kind_word by assumption. destruct kt; reflexivity. Qed.

Lemma to_bin_ok : forall bs prog kt src dst ds dim ns n d, src <> dst -> number_arg ds dim -> number_arg ns n ->
  tsv_to_bin_main bs [prog; type_word kt; src; dst; ds; ns] d = writes d dst (tsv_to_bin (text_type kt) bs (d src) (N.to_nat dim) (N.to_nat n)).
Proof.
  intros bs prog kt src dst ds dim ns n d H A B. unfold tsv_to_bin_main. words A. rewrite (atoi_numeral _ _ B). cbn [bind]. rewrite eqb_other, kind_word by assumption.
  rewrite !u64_small by (eapply small31; eassumption). destruct kt; reflexivity.
Qed.

Lemma pq_ok : forall atof words g g' gl gl' env popf mbs maxb cdist orders prog kt data prefix cs chunks ra d, number_arg cs chunks ->
  generate_pq_main atof words g g' gl gl' env popf mbs maxb cdist orders [prog; type_word kt; data; prefix; cs; ra] d =
    leaves (generate_pq g g' gl gl' env popf mbs maxb cdist (kwidth kt) (kval kt) (fun i => picked_train (f64_of_f32 (f32_of_f64 (atof ra))) (words i)) orders data prefix 256 (N.to_nat chunks) d).
Proof. intros. unfold generate_pq_main. words H. cbn [bind]. rewrite kind_word, u64_small by (eapply small31; eassumption). reflexivity. Qed.

Lemma partition_ok : forall atof words g g' e a prog kt data prefix ra ps p ks k d, number_arg ps p -> number_arg ks k ->
  partition_data_main atof words g g' e a [prog; type_word kt; data; prefix; ra; ps; ks] d =
    leaves (partition g g' e a (kwidth kt) (kval kt) (fun i => picked_train (f64_of_f32 (f32_of_f64 (atof ra))) (words i)) data prefix (N.to_nat p) 15 (N.to_nat k) d).
Proof. intros. unfold partition_data_main. words H. rewrite (atoi_numeral _ _ H0). cbn [bind]. rewrite kind_word, !u64_small by (eapply small31; eassumption). reflexivity. Qed.

Lemma budget_ok : forall fuel atof words words2 g g2 g' env est garbage a prog kt data prefix ra bud ds degree ks k d, number_arg ds degree -> number_arg ks k ->
  partition_budget_main fuel atof words words2 g g2 g' env est garbage a [prog; type_word kt; data; prefix; ra; bud; ds; ks] d =
    (let rate := f64_of_f32 (f32_of_f64 (atof ra)) in
     do r <- partition_budget fuel g g2 g' env est garbage a (kwidth kt) (kval kt) (fun i => picked_train rate (words i)) (fun i => picked_train rate (words2 i)) rate (atof bud) degree data prefix (N.to_nat k) d;
     match r with Some (_, d') => Ok (0%Z, d') | None => Fuel end).
Proof. intros. unfold partition_budget_main. words H. rewrite (atoi_numeral _ _ H0). cbn [bind]. rewrite kind_word, !u64_small by (eapply small31; eassumption). reflexivity. Qed.

Lemma analysis_ok : forall c f sched sortf g prog kt src os a more dst d, number_arg os (analysis_number a) ->
  vector_analysis_main c f sched sortf g ([prog; type_word kt; src; os; dst] ++ more) d =
    match a with
    | Norms => do t <- analyze_norm c kt f sortf (g 0%nat) (g 1%nat) (d src); Ok (0%Z, d, t)
    | MipBase => do x <- writes d dst (augment_base kt f sched true (g 0%nat) (g 1%nat) (d src)); Ok (x, [])
    | MipQuery => do x <- writes d dst (augment_base kt f sched false (g 0%nat) (g 1%nat) (d src)); Ok (x, [])
    | Unit => do x <- writes d dst (normalize_base kt f (g 0%nat) (g 1%nat) (d src)); Ok (x, [])
    end.
Proof.
  intros c f sched sortf g prog kt src os a more dst d H. unfold vector_analysis_main. cbn [app]. words H. rewrite kind_word. cbn [bind]. rewrite u32_small by (eapply small31; eassumption).
  destruct a; cbn [analysis_number N.eqb Pos.eqb orb]; try reflexivity; unfold writes; [destruct (augment_base _ _ _ _ _ _ _)|destruct (augment_base _ _ _ _ _ _ _)|destruct (normalize_base _ _ _ _ _)]; reflexivity.
Qed.
Lemma analysis_norms : forall c f sched sortf g prog kt src os d, number_arg os 1 ->
  vector_analysis_main c f sched sortf g [prog; type_word kt; src; os] d = do t <- analyze_norm c kt f sortf (g 0%nat) (g 1%nat) (d src); Ok (0%Z, d, t).
Proof. intros c f sched sortf g prog kt src os d H. unfold vector_analysis_main. words H. rewrite kind_word. reflexivity. Qed.
Lemma analysis_missing : forall c f sched sortf g prog kt src os n d, number_arg os n -> (2 <= n <= 4)%N -> vector_analysis_main c f sched sortf g [prog; type_word kt; src; os] d = UB.
Proof.
  intros c f sched sortf g prog kt src os n d H R. unfold vector_analysis_main. words H. rewrite kind_word. cbn [bind]. rewrite u32_small by (eapply small31; eassumption).
  assert (C : n = 2%N \/ n = 3%N \/ n = 4%N) by lia. destruct C as [->|[->| ->]]; reflexivity.
Qed.

(** ** Wrong numbers of arguments *)
Lemma counts : forall argv d,
  (forall g g', length argv <> 4%nat -> calculate_recall_main g g' argv d = Ok ((-1)%Z, None)) /\
  (forall W pushf takef sortf bs ps g orders, length argv <> 7%nat -> compute_groundtruth_main W pushf takef sortf bs ps g orders argv d = Ok ((-1)%Z, d)) /\
  (forall bs, length argv <> 3%nat -> vecs_main bs argv d = Exit) /\
  (forall w1 w2 conv g order, length argv <> 3%nat -> convert_main w1 w2 conv g order argv d = Exit) /\
  (forall atof bs g, length argv <> 5%nat -> float_bin_to_int8_main atof bs g argv d = Exit) /\
  (forall bs g, length argv <> 4%nat -> bin_to_tsv_main bs g argv d = Exit) /\
  (forall bs, length argv <> 6%nat -> tsv_to_bin_main bs argv d = Exit) /\
  (forall atof words g g' e a, length argv <> 7%nat -> partition_data_main atof words g g' e a argv d = Exit) /\
  (forall fuel atof words words2 g g2 g' env est garbage a, length argv <> 8%nat -> partition_budget_main fuel atof words words2 g g2 g' env est garbage a argv d = Exit) /\
  (forall c f sched sortf g, (length argv < 4)%nat -> vector_analysis_main c f sched sortf g argv d = Exit).
Proof.
  intros argv d. repeat match goal with |- _ /\ _ => split end; intros;
    [unfold calculate_recall_main|unfold compute_groundtruth_main|unfold vecs_main|unfold convert_main|unfold float_bin_to_int8_main|unfold bin_to_tsv_main|unfold tsv_to_bin_main|unfold partition_data_main|unfold partition_budget_main|unfold vector_analysis_main];
    try (rewrite (proj2 (Nat.eqb_neq _ _)) by assumption; reflexivity). now rewrite (proj2 (Nat.ltb_lt _ _)) by assumption.
Qed.
Lemma pq_count : forall atof words g g' gl gl' env popf mbs maxb cdist orders argv d, length argv <> 6%nat -> generate_pq_main atof words g g' gl gl' env popf mbs maxb cdist orders argv d = Ok (0%Z, d).
Proof. intros. unfold generate_pq_main. now rewrite (proj2 (Nat.eqb_neq _ _)) by assumption. Qed.

(** ** Unknown types *)
Lemma kind_other : forall s, no_type s -> kind_of s = None.
Proof. intros s [A [B C]]. unfold kind_of. now rewrite !eqb_other by assumption. Qed.

Lemma header_only : forall w g1 g2 n dim, length g1 = 4%nat -> length g2 = 4%nat -> (n < 2 ^ 31)%N -> (dim < 2 ^ 31)%N -> (1 <= n * dim)%N -> (1 <= w <= 4)%nat -> load_bin w g1 g2 (Some (u32 n ++ u32 dim)%list) = Throw.
Proof.
  intros w g1 g2 n dim G1 G2 Hn Hd P W. unfold load_bin, open_file. change (2 ^ 31)%N with 2147483648%N in *.
  replace (u32 n ++ u32 dim)%list with (u32 n ++ u32 dim ++ [])%list by now rewrite app_nil_r. rewrite read_header_app by (try assumption; unfold u32_range; lia). cbn zeta.
  unfold tell_end. rewrite !app_length, !u32_length. cbn [length Nat.add]. assert (B : (n * dim * N.of_nat w + 8 < 18446744073709551616)%N) by nia. rewrite wrap64_small by exact B.
  destruct (N.eqb_spec (N.of_nat 8) (n * dim * N.of_nat w + 8)) as [X|X]; [|reflexivity]. exfalso. nia.
Qed.

Lemma unknown_types : forall ty d, no_type ty ->
  (forall W pushf takef sortf bs ps g orders prog base query ks out m, compute_groundtruth_main W pushf takef sortf bs ps g orders [prog; ty; base; query; ks; out; m] d = Ok (0%Z, d)) /\
  (forall bs g prog src dst, src <> dst -> bin_to_tsv_main bs g [prog; ty; src; dst] d = Ok (0%Z, fs_set d dst (Some []))) /\
  (forall bs prog src dst ds dim ns n, src <> dst -> number_arg ds dim -> number_arg ns n ->
     tsv_to_bin_main bs [prog; ty; src; dst; ds; ns] d = Ok (0%Z, fs_set d dst (Some (u32 n ++ u32 dim)%list)) /\
     forall g1 g2, length g1 = 4%nat -> length g2 = 4%nat -> (1 <= n * dim)%N -> exists d', tsv_to_bin_main bs [prog; ty; src; dst; ds; ns] d = Ok (0%Z, d') /\ load_bin 4 g1 g2 (d' dst) = Throw /\ load_bin 1 g1 g2 (d' dst) = Throw) /\
  (forall atof words g g' gl gl' env popf mbs maxb cdist orders prog data prefix cs chunks ra, number_arg cs chunks ->
     generate_pq_main atof words g g' gl gl' env popf mbs maxb cdist orders [prog; ty; data; prefix; cs; ra] d = Ok (0%Z, d)) /\
  (forall atof words g g' e a prog data prefix ra ps p ks k, number_arg ps p -> number_arg ks k -> partition_data_main atof words g g' e a [prog; ty; data; prefix; ra; ps; ks] d = Ok (0%Z, d)) /\
  (forall fuel atof words words2 g g2 g' env est garbage a prog data prefix ra bud ds degree ks k, number_arg ds degree -> number_arg ks k ->
     partition_budget_main fuel atof words words2 g g2 g' env est garbage a [prog; ty; data; prefix; ra; bud; ds; ks] d = Ok (0%Z, d)) /\
  (forall c f sched sortf g prog src os, vector_analysis_main c f sched sortf g [prog; ty; src; os] d = Ok (0%Z, d, [])).
Proof.
  intros ty d T. pose proof (kind_other ty T) as K. repeat match goal with |- _ /\ _ => split end; intros.
  - unfold compute_groundtruth_main, arg. cbn [length Nat.eqb negb nth_error bind]. now rewrite K.
  - unfold bin_to_tsv_main, arg. cbn [length Nat.eqb negb nth_error bind]. now rewrite eqb_other, K by assumption.
  - assert (E : tsv_to_bin_main bs [prog; ty; src; dst; ds; ns] d = Ok (0%Z, fs_set d dst (Some (u32 n ++ u32 dim)%list))).
    { unfold tsv_to_bin_main. words H0. rewrite (atoi_numeral _ _ H1). cbn [bind]. rewrite eqb_other, K by assumption. now rewrite !u32_small by (eapply small31; eassumption). }
    split; [exact E|]. intros g1 g2 G1 G2 P. eexists. split; [exact E|]. unfold fs_set. rewrite String.eqb_refl.
    pose proof (small31 _ _ H0) as R0. pose proof (small31 _ _ H1) as R1. split; apply header_only; try assumption; lia.
  - unfold generate_pq_main. words H. cbn [bind]. now rewrite K.
  - unfold partition_data_main. words H. rewrite (atoi_numeral _ _ H0). cbn [bind]. now rewrite K.
  - unfold partition_budget_main. words H. rewrite (atoi_numeral _ _ H0). cbn [bind]. now rewrite K.
  - unfold vector_analysis_main, arg. cbn [length Nat.ltb Nat.leb nth_error bind]. now rewrite K.
Qed.
