(** * Lemmas for C122. *)
From Coq Require Import String List Arith Lia Bool.
From Verif Require Import Base Float32 PoolModel PoolProofs SortSpec GraphSpec GreedyModel GreedyProofs SearchModel SearchSpec SearchProofs HnswModel HnswSpec HnswProofs ListLemmas PoolProofs2
  FilterSpec AcceptProofs LongerProofs WorkModel WorkSpec.
Import ListNotations.

(** ** The counter of comparisons *)
Lemma process_one_cmps : forall n dist accept m st id st', process_one n dist accept m st id = Ok st' ->
  exists new, p_ins st' = new ++ p_ins st /\ p_cmps st' = p_cmps st + length new.
Proof.
  intros n dist accept m st id st' H. unfold process_one in H.
  destruct (accept id) as [a| | | |]; cbn [bind] in H; try discriminate.
  destruct (negb a); [injection H as <-; exists []; split; [reflexivity|cbn; lia]|].
  destruct (set_mem id (p_ins st)); [injection H as <-; exists []; split; [reflexivity|cbn; lia]|].
  destruct (id <? n); cbn [bind] in H; [|discriminate].
  destruct (if 0 <? p_cur st then _ else _) as [skip| | | |] eqn:Es in H; cbn [bind] in H; try discriminate.
  destruct skip; [injection H as <-; exists [id]; split; [reflexivity|cbn; lia]|].
  destruct (insert_into_pool _ _ _) as [[a' r]| | | |]; cbn [bind] in H; try discriminate. injection H as <-.
  exists [id]. split; [reflexivity|cbn; lia].
Qed.

Lemma process_loop_cmps : forall n dist accept m l st st', process_loop n dist accept m st l = Ok st' ->
  exists new, p_ins st' = new ++ p_ins st /\ p_cmps st' = p_cmps st + length new.
Proof.
  intros n dist accept m l. induction l as [|id l IH]; intros st st' H; cbn [process_loop] in H.
  - injection H as <-. exists []. split; [reflexivity|cbn; lia].
  - destruct (process_one n dist accept m st id) as [st1| | | |] eqn:E; cbn [bind] in H; try discriminate.
    destruct (process_one_cmps _ _ _ _ _ _ _ E) as [n1 [A1 B1]]. destruct (IH _ _ H) as [n2 [A2 B2]].
    exists (n2 ++ n1). split; [rewrite A2, A1; apply app_assoc|]. rewrite B2, B1, app_length. lia.
Qed.

Lemma step_cmps : forall n dist accept L g st st', greedy_step n dist accept L g st = Ok st' ->
  exists new, p_ins (g_pool st') = new ++ p_ins (g_pool st) /\ p_cmps (g_pool st') = p_cmps (g_pool st) + length new.
Proof.
  intros n dist accept L g st st' H. unfold greedy_step in H.
  destruct (rd _ _) as [x| | | |]; cbn [bind] in H; try discriminate. destruct (nflag x).
  - destruct (wr _ _ _) as [arr1| | | |]; cbn [bind] in H; try discriminate.
    destruct (rd g (nid x)) as [nbrs| | | |]; cbn [bind] in H; try discriminate.
    destruct (process_candidates _ _ _ _ _ _) as [p'| | | |] eqn:Ep; cbn [bind] in H; try discriminate. injection H as <-.
    exact (process_loop_cmps _ _ _ _ _ _ _ Ep).
  - injection H as <-. exists []. split; [reflexivity|cbn; lia].
Qed.

Lemma loop_cmps : forall n dist accept L gs fuel i st fin, greedy_loop fuel n dist accept L gs i st = Ok fin ->
  exists new, p_ins (g_pool fin) = new ++ p_ins (g_pool st) /\ p_cmps (g_pool fin) = p_cmps (g_pool st) + length new.
Proof.
  intros n dist accept L gs. induction fuel as [|fuel IH]; intros i st fin H; cbn [greedy_loop] in H;
    destruct (greedy_running st) eqn:Er; try discriminate; try (injection H as <-; exists []; split; [reflexivity|cbn; lia]).
  destruct (greedy_step n dist accept L (gs i) st) as [st1| | | |] eqn:E; cbn [bind] in H; try discriminate.
  destruct (step_cmps _ _ _ _ _ _ _ E) as [n1 [A1 B1]]. destruct (IH _ _ _ H) as [n2 [A2 B2]].
  exists (n2 ++ n1). split; [rewrite A2, A1; apply app_assoc|]. rewrite B2, B1, app_length. lia.
Qed.

(** Everything discovered was a start or is next to an expanded point. *)
Lemma run_seen : forall acc g i st st', run acc (fun _ => g) i st st' ->
  forall x, In x (p_ins (g_pool st')) -> In x (p_ins (g_pool st)) \/ exists e, In e (exp_ids st') /\ edge acc g e x.
Proof.
  intros acc g i st st' H. induction H as [|i st st1 st2 Hr Hk Hrun IH]; intros x Hx; [left; exact Hx|].
  destruct (IH x Hx) as [H|H]; [|right; exact H]. destruct Hk as [A B C|z nz A B C D].
  - rewrite A in H. left. exact H.
  - apply D in H. destruct H as [H|[H1 H2]]; [left; exact H|]. right. exists (nid z). split; [|exists nz; auto].
    apply (run_mono _ _ _ _ _ Hrun). unfold exp_ids. rewrite A. left. reflexivity.
Qed.

Lemma NoDup_app_r : forall (A : Type) (l l' : list A), NoDup (l ++ l') -> NoDup l'.
Proof. intros A l. induction l as [|a l IH]; intros l' H; [exact H|]. inversion H. auto. Qed.

Lemma NoDup_app_sep : forall (A : Type) (l l' : list A) x, NoDup (l ++ l') -> In x l -> ~ In x l'.
Proof.
  intros A l. induction l as [|a l IH]; intros l' x H Hx; [destruct Hx|]. inversion H as [|? ? N N']; subst.
  destruct Hx as [<-|Hx]; [intros C; apply N; apply in_or_app; auto|apply IH; auto].
Qed.

Lemma greedy_work : forall sortf n dist accept acc L g ids, sorts sortf -> 1 <= L -> (forall id, is_nan (dist id) = false) ->
  (forall id, id < n -> accept id = Ok (acc id)) -> graph_ok n g -> (forall id, In id ids -> id < n) ->
  exists st starts expanded compared, greedy_search sortf n dist accept L g ids = Ok st /\
    work acc g n starts expanded compared /\ room_for L ids starts /\
    g_hops st = length expanded /\ p_cmps (g_pool st) = length compared /\ incl (map nid (found st)) expanded /\
    (n <= L -> incl (starts ++ compared) expanded).
Proof.
  intros sortf n dist accept acc L g ids Hs HL Hnan Ha Hg Hn.
  destruct (greedy_dyn_ok sortf n dist accept acc L (fun _ => g) ids Hs HL Hnan Ha (fun _ => Hg) Hn)
    as [st0 [st [E0 [E [HI [Hstop [Hrun [Hexp [Hk [Hsub [Hall HI0]]]]]]]]]]].
  destruct (greedy_init_ok sortf n dist L ids) as [st0' [E0' [_ [_ [_ [_ [_ [Hcur Hcm]]]]]]]]; auto.
  assert (st0' = st0) by congruence. subst st0'.
  assert (El : greedy_loop ((n + 1) * (L + 1)) n dist accept L (fun _ => g) 0 st0 = Ok st).
  { unfold greedy_search_dyn in E. rewrite E0 in E. exact E. }
  destruct (loop_cmps _ _ _ _ _ _ _ _ _ El) as [new [Hins Hcmps]]. rewrite Hcm in Hcmps. cbn in Hcmps.
  assert (Hnd := proj1 (gi_top _ _ _ _ _ HI)). rewrite Hins in Hnd.
  exists st, (p_ins (g_pool st0)), (exp_ids st), new. split; [exact E|]. split.
  - split; [apply (gi_nd _ _ _ _ _ HI)|]. split; [eapply NoDup_app_l; exact Hnd|]. split; [eapply NoDup_app_r; exact Hnd|]. split; [|split].
    + intros x. split.
      * intros Hx. assert (Hx' := NoDup_app_sep _ _ _ _ Hnd Hx). split; [exact Hx'|].
        destruct (run_seen _ _ _ _ _ Hrun x) as [C|C]; [rewrite Hins; apply in_or_app; auto|contradiction|exact C].
      * intros [Hx [e [He Hx']]]. assert (In x (p_ins (g_pool st))) as C.
        { apply (run_closed _ _ _ _ _ Hrun) with (x := e); auto. intros a b Hab. unfold exp_ids in Hab. rewrite Hexp in Hab. destruct Hab. }
        rewrite Hins in C. apply in_app_or in C. destruct C as [C|C]; [exact C|contradiction].
    + intros x Hx. unfold exp_ids in Hx. apply in_map_iff in Hx. destruct Hx as [z [<- Hz]].
      destruct (gi_exp _ _ _ _ _ HI z Hz) as [C _]. rewrite Hins in C. apply in_app_or in C. tauto.
    + intros x Hx. apply (gi_lt _ _ _ _ _ HI). rewrite Hins. apply in_or_app. tauto.
  - split.
    + split; [exact Hsub|]. destruct (gi_wf _ _ _ _ _ HI0) as [_ [_ [Hc _]]]. split; [rewrite <- Hcur; exact Hc|].
      intros Hl. destruct Hall as [Hall|Hall]; [|exact Hall].
      apply NoDup_length_incl; [eapply NoDup_app_r; exact Hnd|lia|exact Hsub].
    + split; [rewrite (gi_hops _ _ _ _ _ HI); unfold exp_ids; rewrite map_length; reflexivity|]. split; [exact Hcmps|].
      assert (Hall' : forall x, In x (map nid (found st)) -> In x (exp_ids st)).
      { intros x Hx. apply in_map_iff in Hx. destruct Hx as [z [<- Hz]]. apply (gi_flag _ _ _ _ _ HI z Hz).
        destruct (In_nth_error _ _ Hz) as [i Hi]. apply (gi_k _ _ _ _ _ HI i z); [|exact Hi].
        unfold greedy_running in Hstop. apply Nat.ltb_ge in Hstop.
        assert (i < length (found st)) by (apply nth_error_Some; congruence).
        unfold found in H. rewrite (pool_entries_length _ _ _ (gi_wf _ _ _ _ _ HI)) in H. lia. }
      split; [exact Hall'|]. intros HnL x Hx. apply Hall'.
      assert (Hx' : In x (p_ins (g_pool st))) by (rewrite Hins; apply in_or_app; apply in_app_or in Hx; tauto).
      destruct (ginv_discovered _ _ _ _ _ x HI Hx') as [H|[H _]]; [exact H|].
      assert (Nf : NoDup (map nid (found st))).
      { replace (map nid (found st)) with (map fst (map nkey (found st))) by (rewrite map_map; reflexivity).
        destruct (gi_top _ _ _ _ _ HI) as [T1 [_ T3]]. eapply top_k_NoDup; [|exact T3]. rewrite score_fst. exact T1. }
      assert (Hlen : length (map nid (found st)) = L) by (rewrite map_length; exact H).
      apply (NoDup_length_incl (l' := seq 0 n) Nf); [rewrite seq_length; lia| |apply in_seq; apply (gi_lt _ _ _ _ _ HI) in Hx'; lia].
      intros y Hy. apply in_map_iff in Hy. destruct Hy as [z [<- Hz]]. apply in_seq. split; [lia|].
      apply (gi_lt _ _ _ _ _ HI). destruct (gi_wf _ _ _ _ _ HI) as [_ [_ [_ [_ He]]]]. apply He. exact Hz.
Qed.

(** ** One level, with its report *)
Lemma level_work : forall sortf n dist accept acc L g ids tags rc ind dst, sorts sortf -> 1 <= L -> (forall id, is_nan (dist id) = false) ->
  (forall id, id < n -> accept id = Ok (acc id)) -> graph_ok n g -> (forall id, In id ids -> id < n) -> 1 <= n -> length tags = n ->
  rc <= L + 1 -> rc <= length ind -> rc <= length dst ->
  exists st starts expanded compared out ind' dst', greedy_search sortf n dist accept L g ids = Ok st /\
    report tags (p_arr (g_pool st)) 0 rc ind dst = Ok (ind', dst') /\ min rc (p_cur (g_pool st)) = length out /\
    reports n tags dist ind' dst' out /\ incl out expanded /\ length out <= rc /\
    work acc g n starts expanded compared /\ room_for L ids starts /\
    g_hops st = length expanded /\ p_cmps (g_pool st) = length compared /\ (n <= L -> incl (starts ++ compared) expanded).
Proof.
  intros sortf n dist accept acc L g ids tags rc ind dst Hs HL Hnan Ha Hg Hn Hn1 Ht Hrc Hi Hd.
  destruct (greedy_work sortf n dist accept acc L g ids) as [st [starts [ex [cm [E [W [Rm [Hh [Hc [Hf Hfull]]]]]]]]]]; auto.
  destruct (search_reports sortf n dist accept acc L g ids tags rc ind dst) as [st' [ind' [dst' [E' [R [Hcu [S1 [S2 [Hrep _]]]]]]]]]; auto.
  assert (st' = st) by congruence. subst st'.
  exists st, starts, ex, cm, (firstn rc (map nid (found st))), ind', dst'. split; [exact E|]. split; [exact R|].
  split; [rewrite firstn_length, map_length, Hcu; reflexivity|]. split; [exact Hrep|]. split.
  { intros x Hx. apply Hf. apply In_firstn in Hx. exact Hx. }
  split; [rewrite firstn_length; lia|]. auto.
Qed.

Lemma vamana_work : forall sortf ix dist L res_count filters indices distances hops cmps,
  sorts sortf -> index_ok ix -> 1 <= L -> (forall id, is_nan (dist id) = false) ->
  (filters = [] \/ length (pts_to_labels (ix_labels ix)) = ix_n ix) ->
  res_count <= L + 1 -> res_count <= length indices -> res_count <= length distances ->
  exists acc entries starts expanded compared ids indices' distances',
    filter_test (universal_of (ix_labels ix)) (pts_to_labels (ix_labels ix)) filters acc /\
    (filters = [] -> entries = [ix_start ix]) /\
    (filters <> [] -> length entries <= length filters /\
       forall id, In id entries <-> exists x, In x filters /\ medoid_of (ix_medoids ix) x = Some id) /\
    vamana_search_counted sortf ix dist L res_count filters indices distances (Some (hops, cmps)) =
      Ok (indices', distances', length ids, Some (hops + length expanded, cmps + length compared)) /\
    vamana_search_counted sortf ix dist L res_count filters indices distances None = Ok (indices', distances', length ids, None) /\
    vamana_search sortf ix dist L res_count filters indices distances = Ok (indices', distances', length ids) /\
    reports (ix_n ix) (ix_tags ix) dist indices' distances' ids /\ incl ids expanded /\
    room_for L entries starts /\ work acc (ix_graph ix) (ix_n ix) starts expanded compared /\
    (ix_n ix <= L -> incl (starts ++ compared) expanded).
Proof.
  intros sortf ix dist L rc fs ind dst h m Hs Hix HL Hnan Hfl Hrc Hi Hd.
  destruct (level_work sortf (ix_n ix) dist (passes_filter (ix_labels ix) fs) (acc_of (ix_labels ix) fs) L (ix_graph ix)
    (vamana_init_ids ix fs) (ix_tags ix) rc ind dst) as [st [starts [ex [cm [out [ind' [dst' [E [R [Hm [Hrep [Hin [_ [W [Rm [Hh [Hc Hfull]]]]]]]]]]]]]]]]]; auto; try apply Hix.
  { intros id Hid. eapply acc_of_ok; eauto. }
  { apply init_ids_ok. auto. }
  exists (acc_of (ix_labels ix) fs), (vamana_init_ids ix fs), starts, ex, cm, out, ind', dst'.
  split; [apply acc_filter_test|]. split; [intros ->; reflexivity|]. split.
  { intros Hne. unfold vamana_init_ids. destruct fs as [|f fs]; [congruence|]. split; [apply filter_starts_length|].
    intros id. apply filter_starts_In. }
  unfold vamana_search_counted, vamana_search, add_counts. rewrite E. cbn [bind]. cbv zeta. rewrite R. cbn [bind]. rewrite Hm, Hh, Hc.
  repeat (split; [solve [auto]|]). auto.
Qed.

Lemma rng_work : forall sortf ix dist L res_count filters indices distances hops cmps,
  sorts sortf -> index_ok ix -> 1 <= L -> (forall id, is_nan (dist id) = false) ->
  res_count <= L + 1 -> res_count <= length indices -> res_count <= length distances ->
  exists expanded compared ids indices' distances',
    rng_search_counted sortf ix dist L res_count filters indices distances (Some (hops, cmps)) =
      Ok (indices', distances', length ids, Some (hops + length expanded, cmps + length compared)) /\
    rng_search_counted sortf ix dist L res_count filters indices distances None = Ok (indices', distances', length ids, None) /\
    rng_search sortf ix dist L res_count filters indices distances = Ok (indices', distances', length ids) /\
    reports (ix_n ix) (ix_tags ix) dist indices' distances' ids /\ incl ids expanded /\
    work (fun _ => true) (ix_graph ix) (ix_n ix) [ix_start ix] expanded compared.
Proof.
  intros sortf ix dist L rc fs ind dst h m Hs Hix HL Hnan Hrc Hi Hd.
  destruct (level_work sortf (ix_n ix) dist (passes_filter (ix_labels ix) []) (fun _ => true) L (ix_graph ix)
    [ix_start ix] (ix_tags ix) rc ind dst) as [st [starts [ex [cm [out [ind' [dst' [E [R [Hm [Hrep [Hin [_ [W [Rm [Hh [Hc Hfull]]]]]]]]]]]]]]]]]; auto; try apply Hix.
  { intros id [<-|[]]. apply Hix. }
  assert (starts = [ix_start ix]) as ->.
  { destruct Rm as [R1 [_ R3]]. cbn in R3. specialize (R3 HL). destruct W as [_ [_ [N _]]].
    destruct starts as [|s [|s' t]]; [destruct (R3 (ix_start ix) (or_introl eq_refl))| |].
    - destruct (R1 s (or_introl eq_refl)) as [<-|[]]. reflexivity.
    - exfalso. assert (s = ix_start ix) by (destruct (R1 s (or_introl eq_refl)) as [<-|[]]; reflexivity).
      assert (s' = ix_start ix) by (destruct (R1 s' (or_intror (or_introl eq_refl))) as [<-|[]]; reflexivity).
      inversion N as [|? ? X _]. apply X. left. congruence. }
  exists ex, cm, out, ind', dst'.
  unfold rng_search_counted, rng_search, add_counts. rewrite E. cbn [bind]. cbv zeta. rewrite R. cbn [bind]. rewrite Hm, Hh, Hc.
  repeat (split; [solve [auto]|]). auto.
Qed.

(** ** HNSW *)
Lemma only_start : forall L s starts, 1 <= L -> NoDup starts -> room_for L [s] starts -> starts = [s].
Proof.
  intros L s starts HL N [R1 [_ R3]]. cbn in R3. specialize (R3 HL).
  destruct starts as [|a [|b t]]; [destruct (R3 s (or_introl eq_refl))| |].
  - destruct (R1 a (or_introl eq_refl)) as [<-|[]]. reflexivity.
  - exfalso. assert (a = s) by (destruct (R1 a (or_introl eq_refl)) as [<-|[]]; reflexivity).
    assert (b = s) by (destruct (R1 b (or_intror (or_introl eq_refl))) as [<-|[]]; reflexivity).
    inversion N as [|? ? X _]. apply X. left. congruence.
Qed.

Lemma reports_entries : forall n tags dist ind dst ids e, length tags = n -> reports n tags dist ind dst ids ->
  In e (firstn (length ids) ind) -> exists i, In i ids /\ nth_error tags i = Some e.
Proof.
  intros n tags dist ind dst ids e Ht [R1 [R2 [R3 R4]]] He. apply In_nth_error in He. destruct He as [i He].
  assert (Hlt : i < length ids).
  { assert (i < length (firstn (length ids) ind)) by (apply nth_error_Some; congruence). rewrite firstn_length in H. lia. }
  destruct (nth_error ids i) as [id|] eqn:Eid; [|apply nth_error_None in Eid; lia].
  rewrite firstn_nth_error in He by exact Hlt. destruct (R4 _ _ Eid) as [A _]. exists id. split; [eapply nth_error_In; eauto|congruence].
Qed.

Lemma hnsw_work : forall sortf L rc, sorts sortf -> 1 <= L -> rc <= L ->
  forall inner ix dist filters ind dst hops cmps, levels_ok (ix :: inner) -> (forall id, is_nan (dist id) = false) ->
  rc <= length ind -> rc <= length dst ->
  exists w ws ids ind' dst',
    hnsw_search_counted sortf (ix :: inner) dist L rc filters ind dst (Some (hops, cmps)) =
      Ok (ind', dst', length ids, Some (hops + total v_expanded (w :: ws), cmps + total v_compared (w :: ws))) /\
    hnsw_search_counted sortf (ix :: inner) dist L rc filters ind dst None = Ok (ind', dst', length ids, None) /\
    hnsw_search sortf (ix :: inner) dist L rc filters ind dst = Ok (ind', dst', length ids) /\
    reports (ix_n ix) (ix_tags ix) dist ind' dst' ids /\ incl ids (v_expanded w) /\ descent (ix :: inner) (w :: ws).
Proof.
  intros sortf L rc Hs HL Hrc. induction inner as [|inn inner IH]; intros ix dist filters ind dst h m Hlv Hnan Hi Hd.
  - destruct Hlv as [Hix _].
    destruct (level_work sortf (ix_n ix) dist (passes_filter (ix_labels ix) []) (fun _ => true) L (ix_graph ix)
      [ix_start ix] (ix_tags ix) rc ind dst) as [st [starts [ex [cm [out [ind' [dst' [E [R [Hm [Hrep [Hin [_ [W [Rm [Hh [Hc Hfull]]]]]]]]]]]]]]]]]; auto; try apply Hix; try lia.
    { intros id [<-|[]]. apply Hix. }
    exists (mkVisit starts ex cm), [], out, ind', dst'.
    cbn [hnsw_search_counted hnsw_search bind]. unfold add_counts, total. cbn [map list_sum fold_right v_expanded v_compared]. rewrite E. cbn [bind]. cbv zeta. rewrite R. cbn [bind].
    rewrite Hm, Hh, Hc, !Nat.add_0_r. repeat (split; [solve [auto]|]).
    split; [|exact I]. apply (only_start L); auto. apply W.
  - destruct Hlv as [Hix [Htg Hlv]].
    destruct (IH inn (inner_dist inn dist) [] (repeat 0 L) (repeat f32_zero L) h m Hlv) as
      [w' [ws' [ids' [ind0 [dst0 [E1 [E2 [E3 [Hrep0 [Hin0 HD0]]]]]]]]]].
    { intros id. apply Hnan. } { rewrite repeat_length. auto. } { rewrite repeat_length. auto. }
    assert (Hlvi : length (ix_tags inn) = ix_n inn) by (destruct Hlv as [[_ [_ [X _]]] _]; exact X).
    destruct (level_work sortf (ix_n ix) dist (passes_filter (ix_labels ix) []) (fun _ => true) L (ix_graph ix)
      (firstn (length ids') ind0) (ix_tags ix) rc ind dst) as [st [starts [ex [cm [out [ind' [dst' [E [R [Hm [Hrep [Hin [_ [W [Rm [Hh [Hc Hfull]]]]]]]]]]]]]]]]]; auto; try apply Hix; try lia.
    { intros e He. destruct (reports_entries _ _ _ _ _ _ _ Hlvi Hrep0 He) as [i [_ Hi']]. apply Htg. eapply nth_error_In; eauto. }
    exists (mkVisit starts ex cm), (w' :: ws'), out, ind', dst'.
    assert (U : forall c, hnsw_search_counted sortf (ix :: inn :: inner) dist L rc filters ind dst c =
      do ic <- (do r <- hnsw_search_counted sortf (inn :: inner) (inner_dist inn dist) L rc [] (repeat 0 L) (repeat f32_zero L) c;
                let '(ids, _, cnt, c1) := r in Ok (firstn cnt ids, c1));
      let (init, c1) := ic in
      do st <- greedy_search sortf (ix_n ix) dist (passes_filter (ix_labels ix) []) L (ix_graph ix) init;
      let c2 := add_counts c1 st in
      do bufs <- report (ix_tags ix) (p_arr (g_pool st)) 0 rc ind dst;
      Ok (bufs, min rc (p_cur (g_pool st)), c2)) by reflexivity.
    assert (U' : hnsw_search sortf (ix :: inn :: inner) dist L rc filters ind dst =
      do init <- (do r <- hnsw_search sortf (inn :: inner) (inner_dist inn dist) L rc [] (repeat 0 L) (repeat f32_zero L);
                  let '(ids, _, cnt) := r in Ok (firstn cnt ids));
      do st <- greedy_search sortf (ix_n ix) dist (passes_filter (ix_labels ix) []) L (ix_graph ix) init;
      do bufs <- report (ix_tags ix) (p_arr (g_pool st)) 0 rc ind dst;
      Ok (bufs, min rc (p_cur (g_pool st)))) by reflexivity.
    rewrite !U, U', E1, E2, E3. cbn [bind]. rewrite E. cbn [bind]. cbv zeta. rewrite R. cbn [bind]. unfold add_counts. rewrite Hm, Hh, Hc.
    split.
    { f_equal. f_equal. f_equal. unfold total. cbn [map list_sum fold_right v_expanded v_compared]. fold (list_sum). f_equal; lia. }
    repeat (split; [solve [auto]|]). 
    split; [|exact HD0]. intros x Hx. apply (proj1 Rm) in Hx.
    destruct (reports_entries _ _ _ _ _ _ _ Hlvi Hrep0 Hx) as [i [I1 I2]]. exists i. auto.
Qed.
