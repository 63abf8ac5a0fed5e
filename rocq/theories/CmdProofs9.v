(** * Building and searching the other indices by command lines. *)
From Coq Require Import NArith ZArith Reals Lra Lia String List Arith Bool Permutation Floats.SpecFloat.
From Verif Require Import Base Bytes Float32 FloatBits DistSpec DistModel FusedModel RealSpec StreamModel BinModel BinSpec RecallSpec TruthModel TsvSpec LloydModel NormModel NormSpec
  PoolModel FilterSpec SortSpec TopKSpec PruneModel BuildModel ClosestModel ClosestSpec SearchSpec HnswModel HnswSpec GtSpec IvfModel LshModel IndexFileModel IndexFileSpec SystemModel SystemSpec ToolModel ToolSpec
  GtToolSpec RealSearchModel RealSearchSpec RealSearchProofs2 RealSearchProofs3 RealSearchProofs4 RealSearchProofs5 CmdModel CmdSpec CmdProofs CmdProofs2 CmdProofs3.
Import ListNotations.
Local Open Scope R_scope.

Lemma room_rows : forall kt dim qrows g1 g2 f k, vectors_ok kt dim qrows -> length g1 = 4%nat -> length g2 = 4%nat -> f = vector_file kt dim qrows -> (k * N.of_nat (length qrows) < 2 ^ 61)%N -> room_for k (load_aligned_bin (kwidth kt) g1 g2 f).
Proof. intros kt dim qrows g1 g2 f k Hv G1 G2 -> Room nq qd qa mem E. destruct (load_rows kt dim qrows g1 g2 Hv G1 G2) as [adim [mm [Q _]]]. rewrite Q in E. injection E as <- _ _ _. exact Room. Qed.

Lemma finished_inv : forall (A : Type) (r : res (A * fs)) z d', finished r = Ok (z, d') -> exists x, r = Ok (x, d') /\ z = 0%Z.
Proof. intros A [[x d1]| | | |] z d' E; try discriminate. cbn [finished bind snd] in E. injection E as <- <-. eauto. Qed.

Lemma cmd_lsh_nearest : forall kt T F dim rows qrows g draw data labels words save nts nt tss ts prog d a d', loops_ok T F ->
  optional labels words -> number_arg nts nt -> number_arg tss ts ->
  let planes := planes_of draw (N.to_nat nt) (N.to_nat ts) (N.to_nat (a_adim a)) in
  lsh_session_ok (kwidth kt) g data [] (name_or_empty labels) ts planes d a -> planes_ok planes -> d data = vector_file kt dim rows -> vectors_ok kt dim rows ->
  build_lsh_main g (hash_dot F) (fun kt => mem_floats kt) draw ([prog; type_word kt; data] ++ words ++ [save; nts; tss]) d = Ok (0%Z, d') ->
  forall g' g1 g2 h prog' t Th query truth ks k prefix filters fwords more order, garbage_ok g' -> length g1 = 4%nat /\ is_bytes g1 -> length g2 = 4%nat /\ is_bytes g2 ->
  number_arg t Th -> number_arg ks k -> optional filters fwords ->
  d' query = vector_file kt dim qrows -> vectors_ok kt dim qrows -> filter_ok (name_or_empty labels) (names filters) -> (1 <= k)%N -> (k * N.of_nat (length qrows) < 2 ^ 61)%N -> d' truth = None -> each_once (length qrows) (order 1%N) ->
  exists d'' table results, search_lsh_main g1 g2 h g' (hash_dot F) (fun kt => mem_floats kt) (fun kt => mem_l2 kt T F) order ([prog'; type_word kt; save; t; query; truth; ks; prefix] ++ fwords ++ more) d' = Ok (0%Z, d'', table) /\
    d'' (result_name prefix 1) = Some (bin_file 4 (N.of_nat (length qrows)) k (map N.of_nat (concat results))) /\ length results = length qrows /\
    forall i row, nth_error results i = Some row -> let dist := fun id => elem_l2 kt (nth i qrows []) (nth id rows []) in
      exists found cand, row = (found ++ repeat 0%nat (N.to_nat k - length found))%list /\
        lsh_candidates kt planes rows (nth i qrows []) (fun id => (id < length rows)%nat /\ line_matches d (name_or_empty labels) (names filters) id) cand /\
        nearest_among cand (N.to_nat k) dist (fun id => dist_err kt dim (dist id)) found.
Proof.
  intros kt T F dim rows qrows g draw data labels words save nts nt tss ts prog d a d' HL O HN HT planes HS HP Hd Hv Eb g' g1 g2 h prog' t Th query truth ks k prefix filters fwords more order Gg G1 G2 HTh HK OF Hq Hvq Hf K1 Room ND Ord.
  rewrite (build_lsh_ok g (hash_dot F) (fun kt => mem_floats kt) draw prog kt data labels words save nts nt tss ts d O HN HT) in Eb.
  pose proof (fo_made _ _ _ _ _ _ _ (hs_files _ _ _ _ _ _ _ _ _ HS)) as EC. rewrite EC in Eb. cbn [bind] in Eb. apply finished_inv in Eb. destruct Eb as [x [Ex _]].
  destruct (lsh_real kt T F dim rows qrows g data (name_or_empty labels) ts planes save d a x d' HL HS HP Hd Hv Ex g' g1 g2 query prefix k [1%N] order (names filters) Gg G1 G2 Hq Hvq Hf K1) as [d'' [Es Hr]].
  - exists 1%N. split; [now left|lia].
  - intros L [<-|[]] _. exact Ord.
  - destruct (Hr 1%N) as [results R]; [now left|lia|]. exists d''. eexists. exists results. split; [|exact R].
    rewrite (search_lsh_ok g1 g2 h g' (hash_dot F) (fun kt => mem_floats kt) (fun kt => mem_l2 kt T F) order prog' kt save t Th query truth ks k prefix filters fwords more d' HTh HK OF ND).
    + rewrite Es. unfold searched. cbn [bind]. reflexivity.
    + exact (room_rows kt dim qrows g1 g2 _ k Hvq (proj1 G1) (proj1 G2) Hq Room).
Qed.

Lemma cmd_rng_itself : forall kt T F dim rows g sortf data save t Th cent order prog d a d', sorts sortf -> loops_ok T F -> number_arg t Th ->
  files_ok (kwidth kt) g data [] ""%string d a -> d data = vector_file kt dim rows -> vectors_ok kt dim rows -> (10 <= length rows)%nat ->
  length cent = length rows -> (forall c, In c cent -> is_nan c = false) -> each_once (length rows) order ->
  build_relng_main g sortf (fun kt _ => mem_l2 kt T F) cent order [prog; type_word kt; "l2"%string; data; save; t] d = Ok (0%Z, d') ->
  forall g' gc g1 g2 h prog' t' Th' truth ks k prefix ss Ls orders a', garbage_ok g' -> length g1 = 4%nat /\ is_bytes g1 -> length g2 = 4%nat /\ is_bytes g2 ->
  number_arg t' Th' -> number_arg ks k -> Forall2 number_arg ss Ls -> d' data = vector_file kt dim rows -> construct (kwidth kt) gc data [] ""%string d' = Ok a' -> d' truth = None ->
  (1 <= k)%N -> (k * N.of_nat (length rows) < 2 ^ 61)%N -> (exists L, In L Ls /\ (k <= L)%N) -> (forall L, In L Ls -> (k <= L)%N -> each_once (length rows) (orders L)) ->
  exists d'' table, search_relng_main g1 g2 h gc g' sortf (fun kt _ q p => mem_l2 kt T F p q) orders ([prog'; type_word kt; "l2"%string; data; save; t'; data; truth; ks; prefix] ++ ss) d' = Ok (0%Z, d'', table) /\
    forall L, In L Ls -> (k <= L)%N -> exists results,
      d'' (result_name prefix L) = Some (bin_file 4 (N.of_nat (length rows)) k (map N.of_nat (concat results))) /\ length results = length rows /\
      forall i row, nth_error results i = Some row -> length row = N.to_nat k /\ exists id tg, nth_error row 0 = Some (N.to_nat tg) /\ nth_error (a_tags a) id = Some tg /\ (id < length rows)%nat /\
        match kt with KFloat => elem_l2 kt (nth id rows []) (nth i rows []) <= (INR dim + 7) * powerRZ 2 (-148) | _ => nth id rows [] = nth i rows [] end.
Proof.
  intros kt T F dim rows g sortf data save t Th cent order prog d a d' HSo HL HT HF Hd Hv H10 HC HCn HO Eb g' gc g1 g2 h prog' t' Th' truth ks k prefix ss Ls orders a' Gg G1 G2 HT' HK HLs Hd' EC ND K1 Room Ex Ord.
  assert (Su : supported kt L2) by now left. pose proof (build_relng_ok g sortf (fun kt _ => mem_l2 kt T F) cent order prog kt L2 data save t Th d Su HT) as B. cbn [metric_word] in B. rewrite B in Eb. apply finished_inv in Eb. destruct Eb as [x [Er _]].
  destruct (rng_real kt T F dim rows g sortf data [] cent order save d a x d' HSo HL HF Hd Hv H10 HC HCn HO Er g' g1 g2 data prefix k Ls orders Gg G1 G2 Hd' K1 Ex Ord) as [d'' [Es Hr]].
  exists d''. eexists. split; [|exact Hr]. assert (Ne : ss <> []) by (intros ->; inversion HLs; subst; destruct Ex as [L [[] _]]).
  pose proof (search_relng_ok g1 g2 h gc g' sortf (fun kt _ q p => mem_l2 kt T F p q) orders prog' kt L2 data save t' Th' data truth ks k prefix ss Ls d' a' Su HT' HK HLs Ne EC ND (room_rows kt dim rows g1 g2 _ k Hv (proj1 G1) (proj1 G2) Hd' Room)) as Q.
  cbn [metric_word] in Q. rewrite Q, Es. unfold searched. cbn [bind]. reflexivity.
Qed.

Lemma cmd_hnsw_first : forall atof kt T F dim rows qrows g sortf choices data save r R l L ru rule ra lv levels t Th prog d a d', sorts sortf -> loops_ok T F ->
  number_arg r R -> number_arg l L -> number_arg ru rule -> number_arg lv levels -> (1 <= levels)%N -> number_arg t Th -> TsvSpec.finite (f32_of_f64 (atof ra)) ->
  files_ok (kwidth kt) g data [] ""%string d a -> (1 <= L)%N -> choices_ok (length rows) (map choices (seq 0 (N.to_nat levels))) -> d data = vector_file kt dim rows -> vectors_ok kt dim rows ->
  build_hnsw_main atof g sortf (fun kt _ => mem_l2 kt T F) choices [prog; type_word kt; "l2"%string; data; save; r; l; ru; ra; lv; t] d = Ok (0%Z, d') ->
  forall g' g1 g2 h prog' t' Th' query truth ks k prefix ss Ls orders, garbage_ok g' -> length g1 = 4%nat /\ is_bytes g1 -> length g2 = 4%nat /\ is_bytes g2 ->
  number_arg t' Th' -> number_arg ks k -> Forall2 number_arg ss Ls -> d' query = vector_file kt dim qrows -> vectors_ok kt dim qrows -> d' truth = None ->
  (1 <= k)%N -> (k * N.of_nat (length qrows) < 2 ^ 61)%N -> (exists L, In L Ls /\ (k <= L)%N) -> (forall L, In L Ls -> (k <= L)%N -> each_once (length qrows) (orders L)) ->
  exists d'' table, search_hnsw_main g1 g2 h g' sortf (fun kt _ => mem_l2 kt T F) orders ([prog'; type_word kt; "l2"%string; save; lv; t'; query; truth; ks; prefix] ++ ss) d' = Ok (0%Z, d'', table) /\
    forall L, In L Ls -> (k <= L)%N -> exists results,
      d'' (result_name prefix L) = Some (bin_file 4 (N.of_nat (length qrows)) k (map N.of_nat (concat results))) /\ length results = length qrows /\
      forall i row, nth_error results i = Some row -> length row = N.to_nat k /\ let dist := fun id => elem_l2 kt (nth i qrows []) (nth id rows []) in
        exists found, found <> [] /\ nearest_first (length rows) (ids_view (a_tags a)) dist (fun id => dist_err kt dim (dist id)) row found.
Proof.
  intros atof kt T F dim rows qrows g sortf choices data save r R l L ru rule ra lv levels t Th prog d a d' HSo HL HR HLl HRu HLv Pos HT Fi HF L1 HC Hd Hv Eb g' g1 g2 h prog' t' Th' query truth ks k prefix ss Ls orders Gg G1 G2 HT' HK HLs Hq Hvq ND K1 Room Ex Ord.
  assert (Su : supported kt L2) by now left.
  pose proof (build_hnsw_ok atof g sortf (fun kt _ => mem_l2 kt T F) choices prog kt L2 data save r R l L ru rule ra lv levels t Th d Su HR HLl HRu HLv Pos HT Fi) as B. cbn [metric_word] in B. rewrite B in Eb. apply finished_inv in Eb. destruct Eb as [x [Er _]].
  destruct (hnsw_real kt T F dim rows qrows g sortf data [] (mkB (N.to_nat L) (N.to_nat R) 750 f32_one (N.to_nat rule)) (map choices (seq 0 (N.to_nat levels))) save d a x d' HSo HL HF ltac:(cbn [bp_L]; lia)
    ltac:(cbn [bp_R]; rewrite N2Nat.id; destruct HR as [_ HR]; change (2 ^ 31)%N with 2147483648%N in HR; change (2 ^ 32)%N with 4294967296%N; lia) HC Hd Hv Er g' g1 g2 query prefix k Ls orders Gg G1 G2 Hq Hvq K1 Ex Ord) as [d'' [Es Hr]].
  exists d''. eexists. split; [|exact Hr]. assert (Ne : ss <> []) by (intros ->; inversion HLs; subst; destruct Ex as [LL [[] _]]).
  pose proof (search_hnsw_ok g1 g2 h g' sortf (fun kt _ => mem_l2 kt T F) orders prog' kt L2 save lv levels t' Th' query truth ks k prefix ss Ls d' Su HLv Pos HT' HK HLs Ne ND (room_rows kt dim qrows g1 g2 _ k Hvq (proj1 G1) (proj1 G2) Hq Room)) as Q.
  cbn [metric_word] in Q. rewrite map_length, seq_length in Es. rewrite Q, Es. unfold searched. cbn [bind]. reflexivity.
Qed.

Lemma cmd_vamana_filtered : forall atof alpha kt T F dim rows qrows g sortf data labels f n save r R l L al t Th cent work sched order prog d a d', sorts sortf -> loops_ok T F ->
  number_arg f n -> n <> 0%N -> number_arg r R -> number_arg l L -> number_arg t Th -> TsvSpec.finite (f32_of_f64 (atof al)) ->
  session_ok (kwidth kt) g (mem_l2 kt T F) data [] labels (mkB (N.to_nat L) (N.to_nat R) 750 alpha 0) cent work sched order save d a -> labels <> ""%string -> d data = vector_file kt dim rows -> vectors_ok kt dim rows ->
  build_vamana_main atof g sortf (fun kt _ => mem_l2 kt T F) cent work sched order [prog; type_word kt; "l2"%string; data; f; labels; save; r; l; al; t] d = Ok (0%Z, d') ->
  forall g' g1 g2 h prog' t' Th' query truth ks k prefix f' n' filter_name ss Ls orders, garbage_ok g' -> length g1 = 4%nat /\ is_bytes g1 -> length g2 = 4%nat /\ is_bytes g2 ->
  number_arg t' Th' -> number_arg ks k -> number_arg f' n' -> n' <> 0%N -> Forall2 number_arg ss Ls -> d' query = vector_file kt dim qrows -> vectors_ok kt dim qrows -> d' truth = None ->
  (1 <= k)%N -> (k * N.of_nat (length qrows) < 2 ^ 61)%N -> (exists L, In L Ls /\ (k <= L)%N) -> (forall L, In L Ls -> (k <= L)%N -> each_once (length qrows) (orders L)) ->
  exists d'' table, search_vamana_main g1 g2 h g' sortf (fun kt _ => mem_l2 kt T F) orders ([prog'; type_word kt; "l2"%string; save; t'; query; truth; ks; prefix; f'; filter_name] ++ ss) d' = Ok (0%Z, d'', table) /\
    forall L, In L Ls -> (k <= L)%N -> exists results,
      d'' (result_name prefix L) = Some (bin_file 4 (N.of_nat (length qrows)) k (map N.of_nat (concat results))) /\ length results = length qrows /\
      forall i row, nth_error results i = Some row -> length row = N.to_nat k /\ let dist := fun id => elem_l2 kt (nth i qrows []) (nth id rows []) in
        exists found, (forall id, In id found -> line_matches d labels [filter_name] id) /\
          nearest_first (length rows) (ids_view (a_tags a)) dist (fun id => dist_err kt dim (dist id)) row found.
Proof.
  intros atof alpha kt T F dim rows qrows g sortf data labels f n save r R l L al t Th cent work sched order prog d a d' HSo HL Hf Nz HR HLl HT Fi HSe Nl Hd Hv Eb g' g1 g2 h prog' t' Th' query truth ks k prefix f' n' filter_name ss Ls orders Gg G1 G2 HT' HK Hf' Nz' HLs Hq Hvq ND K1 Room Ex Ord.
  assert (Su : supported kt L2) by now left. assert (O : optional (Some labels) [f; labels]) by (exists f, n; auto). assert (O' : optional (Some filter_name) [f'; filter_name]) by (exists f', n'; auto).
  destruct (build_vamana_ok atof g sortf (fun kt _ => mem_l2 kt T F) cent work sched order prog kt L2 data (Some labels) [f; labels] save r R l L al t Th d Su O HR HLl HT Fi) as [alpha' [_ B]]. cbn [metric_word app name_or_empty] in B. rewrite B in Eb. apply finished_inv in Eb. destruct Eb as [x [Er _]].
  assert (HSe' : session_ok (kwidth kt) g (mem_l2 kt T F) data [] labels (mkB (N.to_nat L) (N.to_nat R) 750 alpha' 0) cent work sched order save d a) by (destruct HSe; constructor; auto).
  destruct (vamana_real kt T F dim rows qrows g sortf data [] labels (mkB (N.to_nat L) (N.to_nat R) 750 alpha' 0) cent work sched order save d a x d' HSo HL HSe' Nl Hd Hv Er g' g1 g2 query prefix k Ls orders [filter_name] Gg G1 G2 Hq Hvq ltac:(discriminate) K1 Ex Ord) as [d'' [Es Hr]].
  exists d''. eexists. split; [|exact Hr]. assert (Ne : ss <> []) by (intros ->; inversion HLs; subst; destruct Ex as [LL [[] _]]).
  pose proof (search_vamana_ok g1 g2 h g' sortf (fun kt _ => mem_l2 kt T F) orders prog' kt L2 save t' Th' query truth ks k prefix (Some filter_name) [f'; filter_name] ss Ls d' Su HT' HK O' HLs Ne ND (room_rows kt dim qrows g1 g2 _ k Hvq (proj1 G1) (proj1 G2) Hq Room)) as Q.
  cbn [metric_word app names] in Q. cbn [app]. rewrite Q, Es. unfold searched. cbn [bind]. reflexivity.
Qed.
