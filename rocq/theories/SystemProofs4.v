(** * Lemmas about the search tools: the files of results. *)
From Coq Require Import NArith String List Arith Lia Bool Permutation.
From Verif Require Import Base Float32 Bytes StreamModel BinModel BinSpec BinProofs BinProofs2 TextModel TextProofs PoolModel SortSpec
  GreedyModel SearchModel SearchSpec SearchProofs FilterSpec GraphSpec HnswModel FlatModel IvfModel EntryModel VamanaModel IndexFileModel IndexFileSpec IndexFileProofs2
  SystemModel SystemSpec SystemProofs SystemProofs2 SystemProofs3.
Import ListNotations.
Local Open Scope string_scope.

Lemma append_inj_l : forall p a b : string, p ++ a = p ++ b -> a = b.
Proof. induction p as [|c p IH]; intros a b H; cbn in H; [auto|]. apply IH. congruence. Qed.

Lemma slength_append : forall a b : string, String.length (a ++ b) = String.length a + String.length b.
Proof. induction a as [|c a IH]; intros b; cbn; [auto|]. rewrite IH. auto. Qed.

Lemma append_inj_r : forall s a b : string, a ++ s = b ++ s -> a = b.
Proof.
  intros s a. induction a as [|c a IH]; intros b H; destruct b as [|c' b]; auto.
  - pose proof (f_equal String.length H) as E. rewrite !slength_append in E. cbn in E. lia.
  - pose proof (f_equal String.length H) as E. rewrite !slength_append in E. cbn in E. lia.
  - cbn in H. f_equal; [congruence|]. apply IH. congruence.
Qed.

Lemma result_name_inj : forall prefix a b, result_name prefix a = result_name prefix b -> a = b.
Proof.
  intros prefix a b H. unfold result_name in H. apply append_inj_l in H. apply (append_inj_l "_") in H. apply append_inj_r in H. apply show_inj. auto.
Qed.

Lemma save_results_ok : forall prefix nq k rs d, (forall L ids, In (L, ids) rs -> N.of_nat (length ids) = (nq * k)%N) ->
  (forall L a b, In (L, a) rs -> In (L, b) rs -> a = b) ->
  exists d', save_results prefix nq k rs d = Ok d' /\
    (forall L ids, In (L, ids) rs -> d' (result_name prefix L) = Some (bin_file 4 nq k (map N.of_nat ids))) /\
    (forall name, (forall L ids, In (L, ids) rs -> name <> result_name prefix L) -> d' name = d name).
Proof.
  intros prefix nq k rs. induction rs as [|[L ids] rs IH]; intros d Hl Hu; cbn [save_results].
  - exists d. split; [auto|]. split; [intros L ids []|auto].
  - rewrite save_bin_ok by (rewrite map_length; eapply Hl; left; eauto). cbn [bind].
    destruct (IH (fs_set d (result_name prefix L) (Some (bin_file 4 nq k (map N.of_nat ids))))) as [d' [E [A B]]].
    { intros L' ids' H'. eapply Hl. right. eauto. } { intros L' a b H1 H2. eapply Hu; right; eauto. }
    exists d'. split; [auto|]. split.
    + intros L' ids' [H'|H']; [|eapply A; auto]. assert (L' = L) by congruence. assert (ids' = ids) by congruence. subst L' ids'.
      destruct (in_dec N.eq_dec L (map fst rs)) as [Hin|Hin].
      * apply in_map_iff in Hin. destruct Hin as [[L2 ids2] [E2 Hin]]. cbn in E2. subst L2. rewrite (A L ids2 Hin).
        rewrite (Hu L ids2 ids); [auto|right; auto|left; auto].
      * rewrite B; [apply fs_set_same|]. intros L2 ids2 H2 Hn. apply result_name_inj in Hn. subst L2. apply Hin, in_map_iff. exists (L, ids2). auto.
    + intros name Hname. rewrite B by (intros L' ids' H'; eapply Hname; right; eauto). apply fs_set_other.
      destruct (String.eqb name (result_name prefix L)) eqn:En; [|auto]. apply String.eqb_eq in En. elim (Hname L ids); [left; auto|auto].
Qed.

Lemma run_tests_ok : forall w adim qadim mem srch nq k (R : N -> nat -> list nat) order Ls, writes_own_slots k srch -> 1 <= nq ->
  (forall L, In L Ls -> each_once nq (order L)) ->
  (forall L i, In L Ls -> i < nq -> exists q ds c, query_vec w adim qadim mem i = Ok q /\ srch q (N.to_nat L) (repeat 0 k) (repeat f32_zero k) = Ok (R L i, ds, c)) ->
  run_tests w adim qadim mem srch nq k Ls order = Ok (map (fun L => (L, concat (map (R L) (seq 0 nq)))) Ls).
Proof.
  intros w adim qadim mem srch nq k R order Ls Hloc Hnq. induction Ls as [|L Ls IH]; intros Ho HR; cbn [run_tests map]; [auto|].
  destruct (run_test_ok w adim qadim mem srch k (N.to_nat L) nq (R L) (order L)) as [E _]; auto.
  - apply Ho. left. auto.
  - intros i Hi. apply HR; [left; auto|auto].
  - rewrite E. cbn [bind]. rewrite IH; [reflexivity| |].
    + intros L' H'. apply Ho. right. auto.
    + intros L' i H'. apply HR. right. auto.
Qed.

Lemma map_nth_all : forall (A : Type) (d : A) l, l = map (fun j => nth j l d) (seq 0 (length l)).
Proof.
  intros A d l. induction l as [|x l IH]; [auto|]. cbn [length seq map nth]. f_equal. rewrite <- seq_shift, map_map. exact IH.
Qed.

Lemma query_vec_ok : forall w adim qadim mem nq i, length mem = nq -> (forall r, In r mem -> length r = N.to_nat qadim * w) -> (adim <= qadim)%N -> i < nq ->
  query_vec w adim qadim mem i = Ok (firstn (N.to_nat adim * w) (nth i mem [])).
Proof.
  intros w adim qadim mem nq i Hm Hr Ha Hi. unfold query_vec.
  assert (Em : mem = map (fun j => nth j mem []) (seq 0 nq)).
  { rewrite <- Hm. apply map_nth_all. }
  assert (Hrow : forall j, j < nq -> length (nth j mem []) = N.to_nat qadim * w) by (intros j Hj; apply Hr, nth_In; lia).
  destruct (concat_split _ (N.to_nat qadim * w) (fun j => nth j mem []) nq i Hrow Hi) as [C1 C2]. rewrite <- Em in C1. rewrite C1.
  specialize (Hrow i Hi). cbn beta in *. assert (Hle : N.to_nat adim * w <= N.to_nat qadim * w) by (apply Nat.mul_le_mono_r; lia).
  rewrite skipn_exact by auto. rewrite !app_length, C2, Hrow. 
  destruct (_ <? _)%nat eqn:E; [apply Nat.ltb_lt in E; lia|]. f_equal. rewrite firstn_app, Hrow. replace (N.to_nat adim * w - N.to_nat qadim * w) with 0 by lia.
  cbn [firstn]. apply app_nil_r.
Qed.

(** The queries of a file: as many as the header says, each padded to [qadim]. *)
Lemma queries_of_file : forall w g1 g2 b nq qdim qadim mem, width w -> length g1 = 4 -> length g2 = 4 -> is_bytes g1 -> is_bytes g2 ->
  is_bytes b -> load_aligned_bin w g1 g2 (Some b) = Ok (nq, qdim, qadim, mem) -> (nq * (qdim + 8) * N.of_nat w + 8 < 2 ^ 64)%N ->
  length mem = N.to_nat nq /\ (forall r, In r mem -> length r = N.to_nat qadim * w).
Proof.
  intros w g1 g2 b nq qdim qadim mem Hw L1 L2 B1 B2 Hb H Hs.
  assert (Hs' : (nq * qdim * N.of_nat w + 8 < 2 ^ 64)%N).
  { eapply N.le_lt_trans; [|exact Hs]. apply N.add_le_mono_r, N.mul_le_mono_r, N.mul_le_mono_l. lia. }
  destruct (aligned_cases w g1 g2 (Some b) nq qdim qadim mem Hw L1 L2 B1 B2) as [rest [E Hl]]; auto; [intros b' E; congruence|].
  assert (E' : b = (u32 nq ++ u32 qdim ++ rest)%list) by congruence. subst b. clear E.
  assert (Hr : u32_range nq /\ u32_range qdim).
  { unfold load_aligned_bin in H. destruct (read_header g1 g2 (open_file (Some (u32 nq ++ u32 qdim ++ rest)%list))) as [[n' d'] s] eqn:Eh.
    assert (Hbs : forall b', Some (u32 nq ++ u32 qdim ++ rest)%list = Some b' -> is_bytes b').
    { intros b' E. assert (E2 : b' = (u32 nq ++ u32 qdim ++ rest)%list) by congruence. rewrite E2. auto. }
    destruct (header_bound _ _ _ _ _ _ L1 L2 B1 B2 Hbs Eh) as [R1 R2].
    destruct (tell_end _ =? _)%N; [|discriminate]. apply bind_ok in H. destruct H as [rows [_ H]].
    assert (n' = nq) by congruence. assert (d' = qdim) by congruence. subst. auto. }
  destruct Hr as [Rn Rd].
  destruct (aligned_spec w g1 g2 nq qdim rest L1 L2 Rn Rd Hl) as [rdim [rows [E [_ [_ [E4 E5]]]]]].
  { eapply N.le_lt_trans; [|exact Hs]. apply N.add_le_mono_r, N.mul_le_mono_r, N.mul_le_mono_l. destruct (round_up_8 qdim). lia. }
  rewrite E in H. assert (rdim = qadim) by congruence. assert (rows = mem) by congruence. subst. split; [auto|].
  intros r Hr. apply In_nth_error in Hr. destruct Hr as [i Hi]. apply (E5 i r Hi).
Qed.

Lemma tool_ok : forall w g1 g2 query_name prefix k least args order load d nq qadim mem adim srch (R : N -> nat -> list nat),
  queries_in w g1 g2 (d query_name) nq qadim mem -> (1 <= nq)%N ->
  load d = Ok (adim, srch) -> (adim <= qadim)%N -> writes_own_slots (N.to_nat k) srch ->
  (exists L, In L args /\ (least <= L)%N) ->
  (forall L, In L args -> (least <= L)%N -> each_once (N.to_nat nq) (order L)) ->
  (forall L i, In L args -> (least <= L)%N -> i < N.to_nat nq -> exists ds c,
     srch (firstn (N.to_nat adim * w) (nth i mem [])) (N.to_nat L) (repeat 0 (N.to_nat k)) (repeat f32_zero (N.to_nat k)) = Ok (R L i, ds, c)) ->
  exists d', search_tool w g1 g2 query_name prefix k least args order load d = Ok (Some d') /\
    (forall L, In L args -> (least <= L)%N ->
       d' (result_name prefix L) = Some (bin_file 4 nq k (map N.of_nat (concat (map (R L) (seq 0 (N.to_nat nq))))))) /\
    (forall name, (forall L, In L args -> (least <= L)%N -> name <> result_name prefix L) -> d' name = d name).
Proof.
  intros w g1 g2 query_name prefix k least args order load d nq qadim mem adim srch R Hq Hnq Hload Hdim Hloc Hex Ho HR.
  destruct Hq as [Hw [[G1 G1b] [[G2 G2b] [b [qdim [Eb [Hb [El Hs]]]]]]]].
  destruct (queries_of_file w g1 g2 b nq qdim qadim mem) as [Hm Hr]; auto; [rewrite <- Eb; auto|].
  set (Ls := filter (fun L => (least <=? L)%N) args).
  assert (HLs : forall L, In L Ls <-> In L args /\ (least <= L)%N) by (intros L; unfold Ls; rewrite filter_In, N.leb_le; tauto).
  assert (Hrun : run_tests w adim qadim mem srch (N.to_nat nq) (N.to_nat k) Ls order = Ok (map (fun L => (L, concat (map (R L) (seq 0 (N.to_nat nq))))) Ls)).
  { apply run_tests_ok; auto; [lia| |].
    - intros L HL. apply HLs in HL. apply Ho; tauto.
    - intros L i HL Hi. apply HLs in HL. destruct (HR L i) as [ds [c E]]; try tauto.
      eexists. exists ds, c. split; [apply (query_vec_ok w adim qadim mem (N.to_nat nq)); auto|exact E]. }
  destruct (save_results_ok prefix nq k (map (fun L => (L, concat (map (R L) (seq 0 (N.to_nat nq))))) Ls) d) as [d' [E1 [E2 E3]]].
  { intros L ids Hin. apply in_map_iff in Hin. destruct Hin as [L' [Eq Hin]]. assert (L' = L) by congruence. subst L'.
    assert (Ei : ids = concat (map (R L) (seq 0 (N.to_nat nq)))) by congruence. subst ids.
    rewrite (concat_uniform _ (N.to_nat k)); [rewrite map_length, seq_length; lia|].
    intros l Hl. apply in_map_iff in Hl. destruct Hl as [i [<- Hi]]. apply in_seq in Hi. apply HLs in Hin. destruct (HR L i) as [ds [c E]]; try tauto.
    specialize (Hloc (firstn (N.to_nat adim * w) (nth i mem [])) (N.to_nat L) (repeat 0 (N.to_nat k)) [] (repeat f32_zero (N.to_nat k)) [] (repeat_length _ _) (repeat_length _ _)).
    rewrite E in Hloc. apply Hloc. }
  { intros L x y Hx Hy. apply in_map_iff in Hx. apply in_map_iff in Hy. destruct Hx as [L1 [X1 _]]. destruct Hy as [L2 [X2 _]]. congruence. }
  exists d'. split; [|split].
  - unfold search_tool. fold Ls. destruct Ls as [|L0 Ls0] eqn:ELs.
    + destruct Hex as [L HL]. apply HLs in HL. destruct HL.
    + rewrite El. cbn [bind]. rewrite Hload. cbn [bind]. rewrite Hrun. cbn [bind]. rewrite E1. reflexivity.
  - intros L HL1 HL2. apply E2. apply in_map_iff. exists L. split; [auto|]. apply HLs. auto.
  - intros name Hname. apply E3. intros L ids Hin. apply in_map_iff in Hin. destruct Hin as [L' [Eq Hin]]. assert (L' = L) by congruence. subst L'.
    apply HLs in Hin. apply Hname; tauto.
Qed.

Lemma tool_no_list : forall w g1 g2 query_name prefix k least args order load d, (forall L, In L args -> (L < least)%N) ->
  search_tool w g1 g2 query_name prefix k least args order load d = Ok None.
Proof.
  intros w g1 g2 query_name prefix k least args order load d H. unfold search_tool.
  destruct (filter (fun L => (least <=? L)%N) args) as [|L Ls] eqn:E; [auto|].
  assert (HL : In L (filter (fun L => (least <=? L)%N) args)) by (rewrite E; left; auto). apply filter_In in HL. destruct HL as [A B]. apply N.leb_le in B.
  specialize (H L A). lia.
Qed.

Lemma tool_no_queries : forall w g1 g2 query_name prefix k least args order load d qadim mem adim srch,
  queries_in w g1 g2 (d query_name) 0 qadim mem -> load d = Ok (adim, srch) ->
  (exists L, In L args /\ (least <= L)%N) -> (forall L, In L args -> (least <= L)%N -> each_once 0 (order L)) ->
  search_tool w g1 g2 query_name prefix k least args order load d = UB.
Proof.
  intros w g1 g2 query_name prefix k least args order load d qadim mem adim srch Hq Hload Hex Ho.
  destruct Hq as [Hw [[G1 G1b] [[G2 G2b] [b [qdim [Eb [Hb [El Hs]]]]]]]]. unfold search_tool.
  destruct (filter (fun L => (least <=? L)%N) args) as [|L Ls] eqn:E.
  - destruct Hex as [L [A B]]. apply N.leb_le in B. assert (HL : In L (filter (fun L => (least <=? L)%N) args)) by (apply filter_In; auto). rewrite E in HL. destruct HL.
  - rewrite El. cbn [bind]. rewrite Hload. cbn [bind run_tests]. unfold run_test.
    assert (HL : In L (filter (fun L => (least <=? L)%N) args)) by (rewrite E; left; auto). apply filter_In in HL. destruct HL as [A B]. apply N.leb_le in B.
    pose proof (Permutation_sym (Ho L A B)) as P. cbn in P. apply Permutation_nil in P. rewrite P. reflexivity.
Qed.

Lemma query_vec_short : forall w adim qadim mem nq, width w -> length mem = nq -> (forall r, In r mem -> length r = N.to_nat qadim * w) -> 1 <= nq -> (qadim < adim)%N ->
  query_vec w adim qadim mem (nq - 1) = UB.
Proof.
  intros w adim qadim mem nq Hw Hm Hr Hn Ha. unfold query_vec. rewrite (concat_uniform _ (N.to_nat qadim * w)) by auto. rewrite Hm.
  assert (H : N.to_nat qadim * w < N.to_nat adim * w). { apply Nat.mul_lt_mono_pos_r; [unfold width in Hw; cbn in Hw; lia|lia]. }
  assert (E : nq * (N.to_nat qadim * w) = (nq - 1) * (N.to_nat qadim * w) + N.to_nat qadim * w) by (destruct nq; [lia|cbn; rewrite Nat.sub_0_r; lia]).
  destruct (_ <? _)%nat eqn:El; [auto|]. apply Nat.ltb_ge in El. lia.
Qed.

(** If every search answers, only the missing part of the last query can stop the run. *)
Lemma answer_all_short : forall w adim qadim mem srch k L last order st, query_vec w adim qadim mem last = UB -> In last order ->
  (forall q ids ds, exists r, srch q L ids ds = Ok r \/ srch q L ids ds = UB) ->
  answer_all w adim qadim mem srch k L order st = UB.
Proof.
  intros w adim qadim mem srch k L last order. induction order as [|i order IH]; intros st Hq Hin Hs; [destruct Hin|]. cbn [answer_all].
  destruct Hin as [->|Hin]; [unfold answer_one; rewrite Hq; reflexivity|].
  unfold answer_one. destruct (query_vec w adim qadim mem i) as [q| | | |] eqn:E; try (unfold query_vec in E; destruct (_ <? _)%nat; discriminate); cbn [bind]; [|auto].
  destruct (Hs q (skipn (i * k) (fst st)) (skipn (i * k) (snd st))) as [[[ids ds] c] [E1|E1]]; rewrite E1; cbn [bind]; [|auto]. apply IH; auto.
Qed.

Lemma tool_short_queries : forall w g1 g2 query_name prefix k least args order load d nq qadim mem adim srch,
  queries_in w g1 g2 (d query_name) nq qadim mem -> (1 <= nq)%N ->
  load d = Ok (adim, srch) -> (qadim < adim)%N ->
  (forall q L ids ds, exists r, srch q L ids ds = Ok r \/ srch q L ids ds = UB) ->
  (exists L, In L args /\ (least <= L)%N) -> (forall L, In L args -> (least <= L)%N -> each_once (N.to_nat nq) (order L)) ->
  search_tool w g1 g2 query_name prefix k least args order load d = UB.
Proof.
  intros w g1 g2 query_name prefix k least args order load d nq qadim mem adim srch Hq Hnq Hload Hdim Hs0 Hex Ho.
  destruct Hq as [Hw [[G1 G1b] [[G2 G2b] [b [qdim [Eb [Hb [El Hs]]]]]]]].
  destruct (queries_of_file w g1 g2 b nq qdim qadim mem) as [Hm Hr]; auto; [rewrite <- Eb; auto|]. unfold search_tool.
  destruct (filter (fun L => (least <=? L)%N) args) as [|L Ls] eqn:E.
  - destruct Hex as [L [A B]]. apply N.leb_le in B. assert (HL : In L (filter (fun L => (least <=? L)%N) args)) by (apply filter_In; auto). rewrite E in HL. destruct HL.
  - rewrite El. cbn [bind]. rewrite Hload. cbn [bind run_tests]. unfold run_test.
    assert (HL : In L (filter (fun L => (least <=? L)%N) args)) by (rewrite E; left; auto). apply filter_In in HL. destruct HL as [A B]. apply N.leb_le in B.
    rewrite (answer_all_short w adim qadim mem srch (N.to_nat k) (N.to_nat L) (N.to_nat nq - 1)); auto.
    + apply (query_vec_short w adim qadim mem (N.to_nat nq)); auto. lia.
    + apply (Permutation_in _ (Permutation_sym (Ho L A B))), in_seq. lia.
Qed.

Lemma session_search : forall w g sortf pd data_name tags labels_name prm cent work sched order path d a x d', sorts sortf ->
  session_ok w g pd data_name tags labels_name prm cent work sched order path d a ->
  vamana_tool w g sortf pd data_name tags labels_name prm cent work sched order path d = Ok (x, d') ->
  forall g' g1 g2 query_name prefix k args orders qd filters nq qadim mem, garbage_ok g' ->
  queries_in w g1 g2 (d' query_name) nq qadim mem -> (1 <= nq)%N -> (a_adim a <= qadim)%N ->
  (forall q p, is_nan (qd q p) = false) -> (filters = [] \/ labels_name <> "") -> (1 <= k)%N ->
  (exists L, In L args /\ (k <= L)%N) -> (forall L, In L args -> (k <= L)%N -> each_once (N.to_nat nq) (orders L)) ->
  exists d'', search_tool w g1 g2 query_name prefix k k args orders (load_for_vamana w g' sortf qd filters (N.to_nat k) path) d' = Ok (Some d'') /\
    forall L, In L args -> (k <= L)%N -> exists rows,
      d'' (result_name prefix L) = Some (bin_file 4 nq k (map N.of_nat (concat rows))) /\ length rows = N.to_nat nq /\
      forall i row, nth_error rows i = Some row -> length row = N.to_nat k /\
        let q := firstn (N.to_nat (a_adim a) * w) (nth i mem []) in
        exists ds found,
          vamana_searcher sortf qd filters (N.to_nat k) x q (N.to_nat L) (repeat 0 (N.to_nat k)) (repeat f32_zero (N.to_nat k)) = Ok (row, ds, length found) /\
          reports (N.to_nat (a_n a)) (ids_view (a_tags a)) (fun id => qd q (nth id (a_data a) [])) row ds found /\
          (filters = [] \/ forall id, In id found -> exists b line, d labels_name = Some b /\ nth_error (file_lines b) id = Some line /\
             matches (Some "0") filters (line_tokens line)).
Proof.
  intros w g sortf pd data_name tags labels_name prm cent work sched order path d a x d' Hs H Htool
    g' g1 g2 query_name prefix k args orders qd filters nq qadim mem Hg' Hq Hnq Hdim Hnan Hfi Hk Hex Ho.
  destruct (session_run w g sortf pd data_name tags labels_name prm cent work sched order path d a Hs H) as [E|[x1 [d1 [E [Ha [Hok [Hix [Hlb [Hmd Hld]]]]]]]]]; [congruence|].
  assert (x1 = x) by congruence. assert (d1 = d') by congruence. subst x1 d1.
  destruct (Hld g' Hg') as [x' [L1 [L2 [L3 [_ L4]]]]].
  set (z := repeat 0 (N.to_nat k)). set (zf := repeat f32_zero (N.to_nat k)).
  set (q := fun i => firstn (N.to_nat (a_adim a) * w) (nth i mem [])).
  assert (Hn0 : ix_n (graph_view x) = N.to_nat (a_n a)) by (unfold graph_view; cbn; rewrite Ha; auto).
  assert (Et : ix_tags (graph_view x) = ids_view (a_tags a)) by (unfold graph_view; cbn; rewrite Ha; auto).
  assert (Hone : forall L i, (k <= L)%N -> exists row ds found,
     vamana_searcher sortf qd filters (N.to_nat k) x (q i) (N.to_nat L) z zf = Ok (row, ds, length found) /\
     reports (N.to_nat (a_n a)) (ids_view (a_tags a)) (fun id => qd (q i) (nth id (a_data a) [])) row ds found /\
     (filters = [] \/ forall id, In id found -> exists b line, d labels_name = Some b /\ nth_error (file_lines b) id = Some line /\
             matches (Some "0") filters (line_tokens line))).
  { intros L i HL. destruct filters as [|f0 fs].
    - destruct (vamana_search_ok sortf (graph_view x) (query_dist qd (g_ann x) (q i)) (N.to_nat L) (N.to_nat k) [] z zf) as [st [ids' [ds' [_ [S2 [_ [_ [S5 _]]]]]]]]; auto.
      + lia. + intros id. apply Hnan. + lia. + unfold z. rewrite repeat_length. lia. + unfold zf. rewrite repeat_length. lia.
      + exists ids', ds', (firstn (N.to_nat k) (map nid (found st))). split; [unfold vamana_searcher; rewrite S2; rewrite firstn_length, map_length; auto|].
        split; [|left; auto]. rewrite Hn0, Et in S5. unfold query_dist in S5. rewrite Ha in S5. exact S5.
    - destruct Hfi as [Hfi|Hfi]; [discriminate|].
      destruct (session_filtered _ _ _ _ _ _ _ _ _ _ _ _ _ _ _ _ _ Hs H Htool Hfi g' Hg') as [x2 [M1 M2]]. assert (x2 = x') by congruence. subst x2.
      destruct (M2 qd (f0 :: fs) (N.to_nat k) (q i) (N.to_nat L) z zf) as [row [ds [found [S1 [S2 S3]]]]]; auto.
      + discriminate. + lia. + lia. + unfold z. rewrite repeat_length. lia. + unfold zf. rewrite repeat_length. lia.
      + exists row, ds, found. split; [rewrite <- (L4 qd (f0 :: fs) (N.to_nat k)); auto|]. split; [auto|]. right. auto. }
  set (R := fun (L : N) (i : nat) => match vamana_searcher sortf qd filters (N.to_nat k) x (q i) (N.to_nat L) z zf with Ok (ids, _, _) => ids | _ => [] end).
  destruct (tool_ok w g1 g2 query_name prefix k k args orders (load_for_vamana w g' sortf qd filters (N.to_nat k) path) d' nq qadim mem
    (a_adim a) (vamana_searcher sortf qd filters (N.to_nat k) x') R) as [d'' [T1 [T2 _]]]; auto.
  - unfold load_for_vamana. rewrite L1. cbn [bind fst]. rewrite L2. reflexivity.
  - apply local_vamana.
  - intros L i _ HL Hi. destruct (Hone L i HL) as [row [ds [found [S1 _]]]]. exists ds, (length found).
    rewrite (L4 qd filters (N.to_nat k)). unfold R. fold z zf (q i). rewrite S1. auto.
  - exists d''. split; [auto|]. intros L HL1 HL2. exists (map (R L) (seq 0 (N.to_nat nq))).
    split; [apply T2; auto|]. split; [rewrite map_length, seq_length; auto|].
    intros i row Hrow. rewrite nth_error_map in Hrow.
    assert (Hi : i < N.to_nat nq).
    { destruct (nth_error (seq 0 (N.to_nat nq)) i) eqn:Ei; [|discriminate]. assert (i < length (seq 0 (N.to_nat nq))) by (apply nth_error_Some; congruence). rewrite seq_length in H0. auto. }
    rewrite (nth_error_nth' _ 0) in Hrow by (rewrite seq_length; auto). rewrite seq_nth in Hrow by auto. cbn [option_map plus] in Hrow.
    destruct (Hone L i HL2) as [row' [ds [found [S1 [S2 S3]]]]].
    assert (Er : row' = row) by (unfold R in Hrow; rewrite S1 in Hrow; congruence). subst row'. split.
    + pose proof (local_vamana sortf qd filters (N.to_nat k) x (q i) (N.to_nat L) z [] zf [] (repeat_length _ _) (repeat_length _ _)) as Hl.
      rewrite S1 in Hl. apply Hl.
    + cbn zeta. fold (q i). exists ds, found. split; [auto|]. split; auto.
Qed.
