(** * A truth file against itself; truth, index and search in one script. *)
From Coq Require Import NArith ZArith Reals Lra Lia String List Arith Bool Permutation Sorting.Sorted Floats.SpecFloat.
From Verif Require Import Base Bytes Float32 FloatBits DistSpec DistModel FusedModel RealSpec StreamModel BinModel BinSpec RecallSpec TruthModel TsvSpec LloydModel NormModel NormSpec StatsModel
  PoolModel FilterSpec SortSpec TopKSpec ClosestModel ClosestSpec SearchSpec HeapSpec GtModel GtSpec IvfModel IndexFileModel IndexFileSpec SystemModel SystemSpec ToolModel ToolSpec
  BlasModel BlasSpec GtToolModel GtToolSpec GtToolProofs4 RealSearchModel RealSearchSpec PipelineSpec PipelineProofs PipelineProofs2
  CmdModel CmdSpec CmdProofs CmdProofs2 CmdProofs7 UtilCmdModel UtilCmdSpec UtilCmdProofs UtilCmdProofs2 UtilCmdProofs3.
Import ListNotations.
Local Open Scope R_scope.

Lemma truth_itself : forall W pushf takef sortf bs ps g orders kt mips dim rows qrows base query ks k out prog d,
  heap_ok pushf takef -> sorts_pairs sortf -> (forall i, length (g i) = 4%nat) -> (1 <= bs)%nat -> (1 <= ps)%nat -> number_arg ks k -> (1 <= k)%N -> (N.to_nat k <= last_part (length rows) ps)%nat -> (forall p, batch_orders (length qrows) bs (orders p)) ->
  tool_input kt dim ps rows qrows -> ways_ok dim W -> (Z.of_nat dim <= 2 ^ 20)%Z -> (forall r, In r rows \/ In r qrows -> elem_sq kt r <= powerRZ 2 100) -> d base = vector_file kt dim rows -> d query = vector_file kt dim qrows ->
  exists d', compute_groundtruth_main W pushf takef sortf bs ps g orders [prog; type_word kt; base; query; ks; out; mips_word mips]%string d = Ok (0%Z, d') /\ (forall name, name <> out -> kept d d' name) /\
    forall h h' prog' rs r, number_arg rs r -> (1 <= r <= k)%N -> (N.of_nat (length qrows) * r <= 2 ^ 53)%N ->
      exists v, calculate_recall_main h h' [prog'; out; out; rs] d' = Ok (0%Z, Some v) /\ DistSpec.finite v /\ real v = 100.
Proof.
  intros W pushf takef sortf bs ps g orders kt mips dim rows qrows base query ks k out prog d Hh Hs G Hbs Hps HK K1 Kl Ho TI HW D20 B100 Eb Eq.
  assert (X : exists b ids dists, gt_tool W mips pushf takef sortf bs ps kt (g 0%nat) (g 1%nat) (g 2%nat) (g 3%nat) (d base) (d query) (N.to_nat k) orders = Ok b /\
    (forall g, load_truthset g (Some b) = Ok (N.of_nat (length qrows), N.of_nat (N.to_nat k), ids, Some dists)) /\
    forall i, (i < length qrows)%nat -> length (truth_row (N.to_nat k) i ids dists) = N.to_nat k /\ NoDup (map fst (truth_row (N.to_nat k) i ids dists)) /\ forall x, In x (truth_row (N.to_nat k) i ids dists) -> DistSpec.finite (snd x)).
  { rewrite Eb, Eq. destruct mips.
    - destruct (tool_mips W pushf takef sortf bs ps kt (g 0%nat) (g 1%nat) (g 2%nat) (g 3%nat) dim (N.to_nat k) rows qrows orders) as [b [ids [dists [A [B C]]]]]; auto; [lia|]. exists b, ids, dists. split; [exact A|]. split; [exact B|].
      intros i Hi. destruct (C i Hi) as [C1 [C2 [_ [C3 _]]]]. split; [exact C1|]. split; [exact C2|]. intros x Hx. apply C3, Hx.
    - destruct (tool_l2 W pushf takef sortf bs ps kt (g 0%nat) (g 1%nat) (g 2%nat) (g 3%nat) dim (N.to_nat k) rows qrows orders) as [b [ids [dists [A [B C]]]]]; auto; [lia|]. exists b, ids, dists. split; [exact A|]. split; [exact B|].
      intros i Hi. destruct (C i Hi) as [C1 [C2 [_ [C3 _]]]]. split; [exact C1|]. split; [exact C2|]. intros x Hx. apply C3, Hx. }
  destruct X as [b [ids [dists [A [B C]]]]]. rewrite groundtruth_ok with (k := k) by exact HK. unfold writes. rewrite A. cbn [bind]. eexists. split; [reflexivity|]. split; [intros name Hn; now apply set_other|].
  intros h h' prog' rs r HR Hr NR. destruct TI as [_ [_ [Nq [Lq _]]]]. pose proof (small31 _ _ HK) as K31. change (2 ^ 31)%N with 2147483648%N in K31.
  destruct (self_loaded h h' b (length qrows) (N.to_nat k) ids dists (N.to_nat r)) as [v [E [F V]]].
  { exact B. } { destruct qrows; [congruence|cbn; lia]. } { change (2 ^ 32)%N with 4294967296%N; lia. } { change (2 ^ 32)%N with 4294967296%N; lia. } { lia. } { rewrite N2Nat.id. exact NR. } { exact C. }
  exists v. split; [|auto]. rewrite recall_ok with (R := r) by exact HR. rewrite set_same. rewrite N2Nat.id in E. rewrite E. reflexivity.
Qed.

Lemma script_100 : forall atof kt T F dim rows qrows, loops_ok T F -> vectors_ok kt dim rows -> vectors_ok kt dim qrows -> kt <> KFloat -> (dim <= 258)%nat ->
  forall W pushf takef sortf bs ps gt torders prog0 base query ds depth truth d,
  heap_ok pushf takef -> sorts_pairs sortf -> (forall i, length (gt i) = 4%nat) -> (1 <= bs)%nat -> (1 <= ps)%nat -> number_arg ds depth -> (1 <= depth)%N -> (N.to_nat depth <= last_part (length rows) ps)%nat -> (forall p, batch_orders (length qrows) bs (torders p)) ->
  tool_input kt dim ps rows qrows -> ways_ok dim W -> d base = vector_file kt dim rows -> d query = vector_file kt dim qrows -> truth <> base -> truth <> query ->
  exists d1, compute_groundtruth_main W pushf takef sortf bs ps gt torders [prog0; type_word kt; base; query; ds; truth; "l2"]%string d = Ok (0%Z, d1) /\
  forall g popf mbs cd labels words save ncs nc ra centers orders prog a d2, pops popf -> optional labels words -> number_arg ncs nc -> TsvSpec.finite (f32_of_f64 (atof ra)) ->
  ivf_session_ok (kwidth kt) g mbs (cd kt) base [] (name_or_empty labels) nc centers orders d1 a -> ~ begins save query -> ~ begins save truth ->
  build_ivf_main atof g popf mbs cd centers orders ([prog; type_word kt; base] ++ words ++ [save; ncs; ra]) d1 = Ok (0%Z, d2) ->
  forall g' g1 g2 h prog' t Th ks k prefix fwords ss Ls order, garbage_ok g' -> length g1 = 4%nat /\ is_bytes g1 -> length g2 = 4%nat /\ is_bytes g2 ->
  number_arg t Th -> number_arg ks k -> optional None fwords -> Forall2 number_arg ss Ls -> (1 <= k <= depth)%N -> (N.of_nat (length qrows) * k <= 2 ^ 53)%N ->
  In nc Ls -> (forall L, In L Ls -> (L <= nc)%N) -> (forall L, In L Ls -> (1 <= L)%N -> each_once (length qrows) (order L)) ->
  (forall i, (i < length qrows)%nat -> ties_fit (length rows) (N.to_nat k) (N.to_nat depth) (fun id => elem_l2 kt (nth i qrows []) (nth id rows []))) ->
  exists d3 table v, search_ivf_main g1 g2 h g' popf mbs (fun kt => mem_l2 kt T F) cd order ([prog'; type_word kt; save; t; query; truth; ks; prefix] ++ fwords ++ ss) d2 = Ok (0%Z, d3, table) /\
    In (nc, v) table /\ (forall w, In (nc, w) table -> w = v) /\ DistSpec.finite v /\ real v = 100.
Proof.
  intros atof kt T F dim rows qrows HL Hv Hvq Kt D258 W pushf takef sortf bs ps gt torders prog0 base query ds depth truth d Hh Hs G Hbs Hps HD D1 Dl Ho TI HW Eb Eq Nb Nq.
  destruct (tool_l2_bytes W pushf takef sortf bs ps kt (gt 0%nat) (gt 1%nat) (gt 2%nat) (gt 3%nat) dim (N.to_nat depth) rows qrows torders) as [b [ids [dists [A _]]]]; auto; [lia|].
  change "l2"%string with (mips_word false). rewrite groundtruth_ok with (k := depth) by exact HD. unfold writes. rewrite Eb, Eq, A. cbn [bind]. eexists. split; [reflexivity|].
  intros g popf mbs cd labels words save ncs nc ra centers orders prog a d2 HP O HN Fi HS B1 B2 Hb g' g1 g2 h prog' t Th ks k prefix fwords ss Ls order Gg G1 G2 HT HK OF HLs Hk NK Inn Les Ord Ties.
  pose proof (ivf_keeps _ _ _ _ _ _ _ _ _ _ _ _ _ _ _ _ _ _ _ O HN Fi Hb query B1) as K1. pose proof (ivf_keeps _ _ _ _ _ _ _ _ _ _ _ _ _ _ _ _ _ _ _ O HN Fi Hb truth B2) as K2. unfold kept in K1, K2. rewrite set_other in K1 by congruence. rewrite set_same in K2. rewrite Eq in K1.
  assert (Eb' : fs_set d truth (Some b) base = vector_file kt dim rows) by (rewrite set_other by congruence; exact Eb).
  apply (cmd_ivf_recall atof kt T F dim rows qrows g popf mbs cd base labels words save ncs nc ra centers orders prog (fs_set d truth (Some b)) a d2 HP HL O HN Fi HS Eb' Hv Hb g' g1 g2 h prog' t Th query truth ks k prefix fwords ss Ls order Gg G1 G2 HT HK OF HLs K1 Hvq (proj1 Hk) NK Inn Les Ord
    W pushf takef sortf bs ps (gt 0%nat) (gt 1%nat) (gt 2%nat) (gt 3%nat) (N.to_nat depth) torders b); auto; [rewrite Eb', K1; exact A|lia].
Qed.
