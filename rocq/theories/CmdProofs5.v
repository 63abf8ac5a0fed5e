(** * The recall printed by each search tool. *)
From Coq Require Import NArith ZArith Ascii String List Arith Bool Lia Floats.SpecFloat.
From Verif Require Import Base Float32 FloatBits Bytes BinSpec StreamModel BinModel TextModel ParamModel ConvertModel NormModel DistModel RecallModel TruthModel StatsModel
  PoolModel GreedyModel SearchModel HnswModel PruneModel BuildModel EntryModel RngModel ClosestModel FlatModel IvfModel LshModel IndexFileModel SystemModel SystemSpec SystemProofs3 ToolModel ToolProofs3 CmdModel CmdSpec CmdProofs CmdProofs2 CmdProofs3 CmdProofs4.
Import ListNotations.
Local Open Scope string_scope.

Lemma files_recall : forall w g1 g2 h query truth prefix k least ss args order load d b nq qdim qadim mem d'',
  Forall2 number_arg ss args -> (k < 2 ^ 31)%N -> (forall adim srch, load d = Ok (adim, srch) -> writes_own_slots (N.to_nat k) srch) ->
  d truth = Some b -> load_aligned_bin w g1 g2 (d query) = Ok (nq, qdim, qadim, mem) -> truth_for h b nq k -> (1 <= k)%N -> (nq < 2 ^ 32)%N -> (nq * k < 2 ^ 60)%N ->
  (forall L i, In L args -> (least <= L)%N -> In i (order L) -> (i < N.to_nat nq)%nat) ->
  search_tool w g1 g2 query prefix k least args order load d = Ok (Some d'') ->
  recall_shown h b prefix k (filter (fun L => (least <=? L)%N) args) d'' (shown (search_files w g1 g2 h query truth prefix k least args order load d) d).
Proof.
  intros w g1 g2 h query truth prefix k least ss args order load d b nq qdim qadim mem d'' HL K2 W Eb Eq [dim [gold [ds [Lt [Kd Nan]]]]] K1 Hn Room Ord Es.
  assert (exists adim srch, load d = Ok (adim, srch)) as [adim [srch El]].
  { unfold search_tool in Es. destruct (filter _ args); [discriminate|]. rewrite Eq in Es. cbn [bind] in Es. destruct (load d) as [[adim srch]| | | |]; try discriminate. eauto. }
  unfold recall_shown. apply (search_files_recall w g1 g2 h query truth prefix k least args order load d b nq qdim qadim mem dim gold ds adim srch d''); auto; [exact (W adim srch El)|exact (numbers_small _ _ HL)].
Qed.

Lemma one_size : Forall2 number_arg ["1"] [1%N].
Proof. constructor; [|constructor]. split; [|reflexivity]. exists [1%N]. split; [discriminate|]. split; [repeat constructor; discriminate|]. split; reflexivity. Qed.

Lemma recall_vamana : forall g1 g2 h g sortf qd order prog kt m file t T query truth ks k prefix filters words ss Ls d,
  supported kt m -> number_arg t T -> number_arg ks k -> optional filters words -> Forall2 number_arg ss Ls -> ss <> [] ->
  forall b nq qdim qadim mem d', d truth = Some b -> load_aligned_bin (kwidth kt) g1 g2 (d query) = Ok (nq, qdim, qadim, mem) -> truth_for h b nq k -> (1 <= k)%N -> (nq < 2 ^ 32)%N -> (nq * k < 2 ^ 60)%N ->
  (forall L i, In L Ls -> (k <= L)%N -> In i (order L) -> (i < N.to_nat nq)%nat) ->
  search_tool (kwidth kt) g1 g2 query prefix k k Ls order (load_for_vamana (kwidth kt) g sortf (qd kt m) (names filters) (N.to_nat k) file) d = Ok (Some d') ->
  recall_shown h b prefix k (filter (fun L => (k <=? L)%N) Ls) d' (search_vamana_main g1 g2 h g sortf qd order ([prog; type_word kt; metric_word m; file; t; query; truth; ks; prefix] ++ words ++ ss) d).
Proof.
  intros g1 g2 h g sortf qd order prog kt m file t T query truth ks k prefix filters words ss Ls d S HT HK O HL Ne b nq qdim qadim mem d' Eb Eq TF K1 Hn Room Ord Es.
  rewrite (search_vamana_files g1 g2 h g sortf qd order prog kt m file t T query truth ks k prefix filters words ss Ls d S HT HK O HL Ne).
  apply (files_recall _ _ _ _ _ _ _ _ _ ss _ _ _ _ b nq qdim qadim mem d' HL (proj2 HK)); auto.
  intros adim srch E. unfold load_for_vamana in E. destruct (load_vamana _ _ _ _ _) as [x| | | |]; try discriminate. injection E as <- <-. apply local_vamana.
Qed.

Lemma recall_hnsw : forall g1 g2 h g sortf qd order prog kt m file lv levels t T query truth ks k prefix ss Ls d,
  supported kt m -> number_arg lv levels -> (1 <= levels)%N -> number_arg t T -> number_arg ks k -> Forall2 number_arg ss Ls -> ss <> [] ->
  forall b nq qdim qadim mem d', d truth = Some b -> load_aligned_bin (kwidth kt) g1 g2 (d query) = Ok (nq, qdim, qadim, mem) -> truth_for h b nq k -> (1 <= k)%N -> (nq < 2 ^ 32)%N -> (nq * k < 2 ^ 60)%N ->
  (forall L i, In L Ls -> (k <= L)%N -> In i (order L) -> (i < N.to_nat nq)%nat) ->
  search_tool (kwidth kt) g1 g2 query prefix k k Ls order (load_for_hnsw (kwidth kt) g sortf (qd kt m) (N.to_nat k) (N.to_nat levels) file) d = Ok (Some d') ->
  recall_shown h b prefix k (filter (fun L => (k <=? L)%N) Ls) d' (search_hnsw_main g1 g2 h g sortf qd order ([prog; type_word kt; metric_word m; file; lv; t; query; truth; ks; prefix] ++ ss) d).
Proof.
  intros g1 g2 h g sortf qd order prog kt m file lv levels t T query truth ks k prefix ss Ls d S HV Pos HT HK HL Ne b nq qdim qadim mem d' Eb Eq TF K1 Hn Room Ord Es.
  rewrite (search_hnsw_files g1 g2 h g sortf qd order prog kt m file lv levels t T query truth ks k prefix ss Ls d S HV Pos HT HK HL Ne).
  apply (files_recall _ _ _ _ _ _ _ _ _ ss _ _ _ _ b nq qdim qadim mem d' HL (proj2 HK)); auto.
  intros adim srch E. unfold load_for_hnsw in E. destruct (load_hnsw _ _ _ _ _ _) as [x| | | |]; try discriminate. cbn [bind] in E. destruct (rev (map fst x)) as [|y l]; [discriminate|]. injection E as <- <-. apply local_hnsw.
Qed.

Lemma recall_relng : forall g1 g2 h gc g sortf qd order prog kt m data file t T query truth ks k prefix ss Ls d a,
  supported kt m -> number_arg t T -> number_arg ks k -> Forall2 number_arg ss Ls -> ss <> [] -> construct (kwidth kt) gc data [] "" d = Ok a ->
  forall b nq qdim qadim mem d', d truth = Some b -> load_aligned_bin (kwidth kt) g1 g2 (d query) = Ok (nq, qdim, qadim, mem) -> truth_for h b nq k -> (1 <= k)%N -> (nq < 2 ^ 32)%N -> (nq * k < 2 ^ 60)%N ->
  (forall L i, In L Ls -> (k <= L)%N -> In i (order L) -> (i < N.to_nat nq)%nat) ->
  search_tool (kwidth kt) g1 g2 query prefix k k Ls order (load_for_rng (kwidth kt) g sortf (qd kt m) (N.to_nat k) file) d = Ok (Some d') ->
  recall_shown h b prefix k (filter (fun L => (k <=? L)%N) Ls) d' (search_relng_main g1 g2 h gc g sortf qd order ([prog; type_word kt; metric_word m; data; file; t; query; truth; ks; prefix] ++ ss) d).
Proof.
  intros g1 g2 h gc g sortf qd order prog kt m data file t T query truth ks k prefix ss Ls d a S HT HK HL Ne EC b nq qdim qadim mem d' Eb Eq TF K1 Hn Room Ord Es.
  rewrite (search_relng_files g1 g2 h gc g sortf qd order prog kt m data file t T query truth ks k prefix ss Ls d a S HT HK HL Ne EC).
  apply (files_recall _ _ _ _ _ _ _ _ _ ss _ _ _ _ b nq qdim qadim mem d' HL (proj2 HK)); auto.
  intros adim srch E. unfold load_for_rng in E. destruct (load_rng _ _ _ _ _) as [x| | | |]; try discriminate. injection E as <- <-. apply local_rng.
Qed.

Lemma recall_ivf : forall g1 g2 h g popf mbs qd cd order prog kt file t T query truth ks k prefix filters words ss Ls d,
  number_arg t T -> number_arg ks k -> optional filters words -> Forall2 number_arg ss Ls -> ss <> [] ->
  forall b nq qdim qadim mem d', d truth = Some b -> load_aligned_bin (kwidth kt) g1 g2 (d query) = Ok (nq, qdim, qadim, mem) -> truth_for h b nq k -> (1 <= k)%N -> (nq < 2 ^ 32)%N -> (nq * k < 2 ^ 60)%N ->
  (forall L i, In L Ls -> (1 <= L)%N -> In i (order L) -> (i < N.to_nat nq)%nat) ->
  search_tool (kwidth kt) g1 g2 query prefix k 1 Ls order (load_for_ivf (kwidth kt) g popf mbs (qd kt) (cd kt) (names filters) (N.to_nat k) file) d = Ok (Some d') ->
  recall_shown h b prefix k (filter (fun L => (1 <=? L)%N) Ls) d' (search_ivf_main g1 g2 h g popf mbs qd cd order ([prog; type_word kt; file; t; query; truth; ks; prefix] ++ words ++ ss) d).
Proof.
  intros g1 g2 h g popf mbs qd cd order prog kt file t T query truth ks k prefix filters words ss Ls d HT HK O HL Ne b nq qdim qadim mem d' Eb Eq TF K1 Hn Room Ord Es.
  rewrite (search_ivf_files g1 g2 h g popf mbs qd cd order prog kt file t T query truth ks k prefix filters words ss Ls d HT HK O HL Ne).
  apply (files_recall _ _ _ _ _ _ _ _ _ ss _ _ _ _ b nq qdim qadim mem d' HL (proj2 HK)); auto.
  intros adim srch E. unfold load_for_ivf in E. destruct (load_ivf _ _ _ _ _) as [[[[a nc] rows] lists]| | | |]; try discriminate. cbn [bind] in E. injection E as <- <-. apply local_ivf.
Qed.

Lemma recall_lsh : forall g1 g2 h g dotf fv qd order prog kt file t T query truth ks k prefix filters words more d,
  number_arg t T -> number_arg ks k -> optional filters words ->
  forall b nq qdim qadim mem d', d truth = Some b -> load_aligned_bin (kwidth kt) g1 g2 (d query) = Ok (nq, qdim, qadim, mem) -> truth_for h b nq k -> (1 <= k)%N -> (nq < 2 ^ 32)%N -> (nq * k < 2 ^ 60)%N ->
  (forall L i, In L [1%N] -> (1 <= L)%N -> In i (order L) -> (i < N.to_nat nq)%nat) ->
  search_tool (kwidth kt) g1 g2 query prefix k 1 [1%N] order (load_for_lsh (kwidth kt) g dotf (fv kt) (qd kt) (names filters) (N.to_nat k) file) d = Ok (Some d') ->
  recall_shown h b prefix k (filter (fun L => (1 <=? L)%N) [1%N]) d' (search_lsh_main g1 g2 h g dotf fv qd order ([prog; type_word kt; file; t; query; truth; ks; prefix] ++ words ++ more) d).
Proof.
  intros g1 g2 h g dotf fv qd order prog kt file t T query truth ks k prefix filters words more d HT HK O b nq qdim qadim mem d' Eb Eq TF K1 Hn Room Ord Es.
  rewrite (search_lsh_files g1 g2 h g dotf fv qd order prog kt file t T query truth ks k prefix filters words more d HT HK O).
  apply (files_recall _ _ _ _ _ _ _ _ _ ["1"] _ _ _ _ b nq qdim qadim mem d' one_size (proj2 HK)); auto.
  intros adim srch E. unfold load_for_lsh in E. destruct (load_lsh _ _ _ _ _) as [x| | | |]; try discriminate. cbn [bind] in E. injection E as <- <-. apply local_lsh.
Qed.
