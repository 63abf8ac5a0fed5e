(** * Building and searching an IVF index by command lines. *)
From Coq Require Import NArith ZArith Reals Lra Lia String List Arith Bool Permutation Floats.SpecFloat.
From Verif Require Import Base Bytes Float32 FloatBits DistSpec DistModel FusedModel RealSpec StreamModel BinModel BinSpec RecallSpec TruthModel TsvSpec LloydModel NormModel NormSpec StatsModel
  PoolModel FilterSpec SortSpec TopKSpec ClosestModel ClosestSpec SearchSpec HeapSpec GtModel GtSpec IvfModel IndexFileModel IndexFileSpec SystemModel SystemSpec ToolModel ToolSpec
  BlasModel BlasSpec GtToolModel GtToolSpec GtToolProofs4 RealSearchModel RealSearchSpec RealSearchProofs2 RealSearchProofs3 PipelineSpec PipelineProofs PipelineProofs2 PipelineProofs3
  CmdModel CmdSpec CmdProofs CmdProofs2 CmdProofs3 CmdProofs4 CmdProofs5.
Import ListNotations.
Local Open Scope R_scope.

Lemma built_ivf : forall atof g popf mbs cd centers orders prog kt data labels words save ncs nc ra d d',
  optional labels words -> number_arg ncs nc -> TsvSpec.finite (f32_of_f64 (atof ra)) ->
  build_ivf_main atof g popf mbs cd centers orders ([prog; type_word kt; data] ++ words ++ [save; ncs; ra]) d = Ok (0%Z, d') ->
  exists x, ivf_tool (kwidth kt) g popf mbs (cd kt) data [] (name_or_empty labels) nc centers orders save d = Ok (x, d').
Proof.
  intros atof g popf mbs cd centers orders prog kt data labels words save ncs nc ra d d' O HN F E. rewrite (build_ivf_ok atof g popf mbs cd centers orders prog kt data labels words save ncs nc ra d O HN F) in E.
  unfold finished in E. destruct (ivf_tool _ _ _ _ _ _ _ _ _ _ _ _ _) as [[x d1]| | | |]; try discriminate. cbn [bind snd] in E. injection E as ->. eauto.
Qed.

Lemma cmd_ivf_nearest : forall atof kt T F dim rows qrows g popf mbs cd data labels words save ncs nc ra centers orders prog d a d', pops popf -> loops_ok T F ->
  optional labels words -> number_arg ncs nc -> TsvSpec.finite (f32_of_f64 (atof ra)) ->
  ivf_session_ok (kwidth kt) g mbs (cd kt) data [] (name_or_empty labels) nc centers orders d a -> d data = vector_file kt dim rows -> vectors_ok kt dim rows ->
  build_ivf_main atof g popf mbs cd centers orders ([prog; type_word kt; data] ++ words ++ [save; ncs; ra]) d = Ok (0%Z, d') ->
  forall g' g1 g2 h prog' t Th query truth ks k prefix filters fwords ss Ls order, garbage_ok g' -> length g1 = 4%nat /\ is_bytes g1 -> length g2 = 4%nat /\ is_bytes g2 ->
  number_arg t Th -> number_arg ks k -> optional filters fwords -> Forall2 number_arg ss Ls ->
  d' query = vector_file kt dim qrows -> vectors_ok kt dim qrows -> filter_ok (name_or_empty labels) (names filters) -> (1 <= k)%N -> (k * N.of_nat (length qrows) < 2 ^ 61)%N -> d' truth = None ->
  In nc Ls -> (forall L, In L Ls -> (L <= nc)%N) -> (forall L, In L Ls -> (1 <= L)%N -> each_once (length qrows) (order L)) ->
  exists d'' table results, search_ivf_main g1 g2 h g' popf mbs (fun kt => mem_l2 kt T F) cd order ([prog'; type_word kt; save; t; query; truth; ks; prefix] ++ fwords ++ ss) d' = Ok (0%Z, d'', table) /\
    d'' (result_name prefix nc) = Some (bin_file 4 (N.of_nat (length qrows)) k (map N.of_nat (concat results))) /\ length results = length qrows /\
    forall i row, nth_error results i = Some row -> let dist := fun id => elem_l2 kt (nth i qrows []) (nth id rows []) in
      exists found, row = (found ++ repeat 0%nat (N.to_nat k - length found))%list /\
        nearest_among (fun id => (id < length rows)%nat /\ line_matches d (name_or_empty labels) (names filters) id) (N.to_nat k) dist (fun id => dist_err kt dim (dist id)) found.
Proof.
  intros atof kt T F dim rows qrows g popf mbs cd data labels words save ncs nc ra centers orders prog d a d' HP HL O HN Fi HS Hd Hv Eb g' g1 g2 h prog' t Th query truth ks k prefix filters fwords ss Ls order Gg G1 G2 HT HK OF HLs Hq Hvq Hf K1 Room ND Inn Les Ord.
  destruct (built_ivf atof g popf mbs cd centers orders prog kt data labels words save ncs nc ra d d' O HN Fi Eb) as [x Ex].
  destruct (ivf_real kt T F dim rows qrows g popf mbs (cd kt) data [] (name_or_empty labels) nc centers orders save d a x d' HP HL HS Hd Hv Ex g' g1 g2 query prefix k Ls order (names filters) Gg G1 G2 Hq Hvq Hf K1 Inn Les Ord) as [d'' [results [Es [Ed [Lr Hr]]]]].
  exists d''. eexists. exists results. split; [|split; [exact Ed|split; [exact Lr|exact Hr]]].
  assert (Ne : ss <> []) by (intros ->; inversion HLs; subst; destruct Inn).
  rewrite (search_ivf_ok g1 g2 h g' popf mbs (fun kt => mem_l2 kt T F) cd order prog' kt save t Th query truth ks k prefix filters fwords ss Ls d' HT HK OF HLs Ne ND).
  - rewrite Es. unfold searched. cbn [bind]. reflexivity.
  - intros nq qd qa mem E. rewrite Hq in E. destruct (load_rows kt dim qrows g1 g2 Hvq (proj1 G1) (proj1 G2)) as [adim [mm [Q _]]]. rewrite Q in E. injection E as <- _ _ _. exact Room.
Qed.

Lemma cmd_ivf_recall : forall atof kt T F dim rows qrows g popf mbs cd data labels words save ncs nc ra centers orders prog d a d', pops popf -> loops_ok T F ->
  optional labels words -> number_arg ncs nc -> TsvSpec.finite (f32_of_f64 (atof ra)) ->
  ivf_session_ok (kwidth kt) g mbs (cd kt) data [] (name_or_empty labels) nc centers orders d a -> d data = vector_file kt dim rows -> vectors_ok kt dim rows ->
  build_ivf_main atof g popf mbs cd centers orders ([prog; type_word kt; data] ++ words ++ [save; ncs; ra]) d = Ok (0%Z, d') ->
  forall g' g1 g2 h prog' t Th query truth ks k prefix fwords ss Ls order, garbage_ok g' -> length g1 = 4%nat /\ is_bytes g1 -> length g2 = 4%nat /\ is_bytes g2 ->
  number_arg t Th -> number_arg ks k -> optional None fwords -> Forall2 number_arg ss Ls ->
  d' query = vector_file kt dim qrows -> vectors_ok kt dim qrows -> (1 <= k)%N -> (N.of_nat (length qrows) * k <= 2 ^ 53)%N ->
  In nc Ls -> (forall L, In L Ls -> (L <= nc)%N) -> (forall L, In L Ls -> (1 <= L)%N -> each_once (length qrows) (order L)) ->
  forall W pushf takef sortf bs ps gb1 gb2 gq1 gq2 depth torders b, heap_ok pushf takef -> sorts_pairs sortf -> length gb1 = 4%nat -> length gb2 = 4%nat -> length gq1 = 4%nat -> length gq2 = 4%nat -> (1 <= bs)%nat -> (1 <= ps)%nat ->
  (depth <= last_part (length rows) ps)%nat -> (forall p, batch_orders (length qrows) bs (torders p)) -> tool_input kt dim ps rows qrows -> ways_ok dim W -> kt <> KFloat -> (dim <= 258)%nat ->
  gt_tool W false pushf takef sortf bs ps kt gb1 gb2 gq1 gq2 (d data) (d' query) depth torders = Ok b -> d' truth = Some b -> (k <= N.of_nat depth)%N ->
  (forall i, (i < length qrows)%nat -> ties_fit (length rows) (N.to_nat k) depth (fun id => elem_l2 kt (nth i qrows []) (nth id rows []))) ->
  exists d'' table v, search_ivf_main g1 g2 h g' popf mbs (fun kt => mem_l2 kt T F) cd order ([prog'; type_word kt; save; t; query; truth; ks; prefix] ++ fwords ++ ss) d' = Ok (0%Z, d'', table) /\
    In (nc, v) table /\ (forall w, In (nc, w) table -> w = v) /\ DistSpec.finite v /\ real v = 100.
Proof.
  intros atof kt T F dim rows qrows g popf mbs cd data labels words save ncs nc ra centers orders prog d a d' HP HL O HN Fi HS Hd Hv Eb g' g1 g2 h prog' t Th query truth ks k prefix fwords ss Ls order Gg G1 G2 HT HK OF HLs Hq Hvq K1 NK Inn Les Ord
    W pushf takef sortf bs ps gb1 gb2 gq1 gq2 depth torders b Hh Hs B1 B2 B3 B4 Hbs Hps Hdl Ho TI HW Kt D258 Egt Et Kd Ties.
  destruct (built_ivf atof g popf mbs cd centers orders prog kt data labels words save ncs nc ra d d' O HN Fi Eb) as [x Ex].
  pose proof (proj2 HK) as K2. change (2 ^ 31)%N with 2147483648%N in K2.
  destruct (ivf_recall kt T F dim rows qrows g popf mbs (cd kt) data [] (name_or_empty labels) nc centers orders save d a x d' HP HL HS Hd Hv Ex g' g1 g2 query prefix k Ls order Gg G1 G2 Hq Hvq ltac:(change (2 ^ 32)%N with 4294967296%N; lia) Inn Les Ord
    W pushf takef sortf bs ps gb1 gb2 gq1 gq2 depth torders Hh Hs B1 B2 B3 B4 Hbs Hps Hdl Ho TI HW Kt D258 h (fun _ => 0%N) (N.to_nat k)) as [d'' [b' [v [Es [Egt' [Er [Fv Rv]]]]]]]; [lia|lia|lia|rewrite N2Nat.id; exact NK|exact Ties|].
  rewrite Egt in Egt'. injection Egt' as <-. rewrite N2Nat.id in Er.
  assert (Egt2 := Egt). rewrite Hd, Hq in Egt2. destruct (tool_truth_of W pushf takef sortf bs ps kt gb1 gb2 gq1 gq2 dim depth rows qrows torders b) as [[ids [dists [Lb [Li [Ldi Hrow]]]]] [Nq1 [Lq Dq]]]; auto; [lia|].
  destruct (truth_entries (length qrows) depth (length rows) _ ids dists Li Ldi ltac:(lia) Hrow) as [Nan _].
  destruct (load_rows kt dim qrows g1 g2 Hvq (proj1 G1) (proj1 G2)) as [adim [mm [Q _]]].
  assert (Ne : ss <> []) by (intros ->; inversion HLs; subst; destruct Inn).
  change (2 ^ 53)%N with 9007199254740992%N in NK.
  destruct (recall_ivf g1 g2 h g' popf mbs (fun kt => mem_l2 kt T F) cd order prog' kt save t Th query truth ks k prefix None fwords ss Ls d' HT HK OF HLs Ne b (N.of_nat (length qrows)) (N.of_nat dim) adim mm d'' Et) as [table [Em [Ms Mt]]].
  - rewrite Hq. exact Q.
  - exists (N.of_nat depth), ids, (Some dists). split; [apply Lb|]. split; [exact Kd|exact Nan].
  - exact K1.
  - change (2 ^ 32)%N with 4294967296%N. lia.
  - change (2 ^ 60)%N with 1152921504606846976%N. lia.
  - intros L i HLL L1 Hi. rewrite Nat2N.id. pose proof (Ord L HLL L1) as Perm. unfold each_once in Perm. clear -Perm Hi. eapply Permutation_in in Hi; [|exact Perm]. apply in_seq in Hi. lia.
  - exact Es.
  - exists d'', table. assert (Hin : In nc (map fst table)).
    { rewrite Ms. apply filter_In. split; [exact Inn|]. apply N.leb_le. apply (is_nc _ _ _ _ _ _ _ _ _ _ _ _ HS). }
    apply in_map_iff in Hin. destruct Hin as [[nc' v'] [E' Hin]]. cbn [fst] in E'. subst nc'. assert (v' = v) by (pose proof (Mt nc v' (fun _ => 0%N) Hin); congruence). subst v'.
    exists v. split; [exact Em|]. split; [exact Hin|]. split; [|split; assumption]. intros w Hw. pose proof (Mt nc w (fun _ => 0%N) Hw). congruence.
Qed.
