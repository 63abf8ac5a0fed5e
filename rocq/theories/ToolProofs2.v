(** * Lemmas about the HNSW build tool. *)
From Coq Require Import NArith String List Arith Lia Bool Permutation Sorting.Sorted.
From Verif Require Import Base Float32 Float32Facts Bytes StreamModel BinModel BinSpec BinProofs BinProofs2 TextModel TextProofs GraphFileSpec PoolModel GraphSpec
  SortSpec GreedyModel SearchModel SearchSpec SearchProofs HnswModel HnswSpec HnswProofs HnswProofs2 HnswProofs3 PruneModel BuildModel EntryModel EntrySpec
  IndexFileModel IndexFileSpec IndexFileProofs IndexFileProofs2 IndexFileProofs3 SystemModel SystemSpec SystemProofs SystemProofs2 SystemProofs3 SystemProofs4
  ToolModel ToolSpec ToolProofs.
Import ListNotations.
Local Open Scope string_scope.

Lemma sorted_NoDup : forall l, StronglySorted lt l -> NoDup l.
Proof.
  induction l as [|x l IH]; intros H; [constructor|]. inversion H as [|? ? H1 H2]. subst. constructor; [|auto].
  intros Hx. rewrite Forall_forall in H2. specialize (H2 x Hx). lia.
Qed.

(** The bytes written for a subset of loaded rows. *)
Lemma initialised_In : forall l r, initialised l = Ok r -> forall x, In x r -> In (Some x) l.
Proof.
  induction l as [|[y|] l IH]; intros r H x Hx; cbn [initialised] in H; [|apply bind_ok in H; destruct H as [r' [E H]]|discriminate].
  - assert (r = []) by congruence. subst. destruct Hx.
  - assert (r = y :: r') by congruence. subst r. destruct Hx as [->|Hx]; [left; auto|right; eapply IH; eauto].
Qed.

Lemma write_rows_In : forall w dim rows b, write_rows w dim rows = Ok b -> forall x, In x b -> exists r, In r rows /\ In (Some x) r.
Proof.
  intros w dim rows. induction rows as [|r rows IH]; intros b H x Hx; cbn [write_rows] in H.
  - assert (b = []) by congruence. subst. destruct Hx.
  - apply bind_ok in H. destruct H as [c [E H]]. apply bind_ok in H. destruct H as [e [E2 H]].
    assert (b = (c ++ e)%list) by congruence. subst b. apply in_app_or in Hx. destruct Hx as [Hx|Hx].
    + exists r. split; [left; auto|]. apply (initialised_In _ _ E) in Hx. revert Hx. generalize (N.to_nat (dim * N.of_nat w)) as k. clear. intros k.
      revert k. induction r as [|y r IH]; intros [|k] Hx; cbn in Hx; try destruct Hx; [left; auto|right; eapply IH; eauto].
    + destruct (IH _ E2 x Hx) as [r' [A B]]. exists r'. split; [right; auto|auto].
Qed.

Lemma rd_all_In : forall (A : Type) (a : list A) ids sel, rd_all a ids = Ok sel -> forall x, In x sel -> In x a.
Proof.
  intros A a ids. induction ids as [|i ids IH]; intros sel H x Hx; cbn [rd_all] in H.
  - assert (sel = []) by congruence. subst. destruct Hx.
  - apply bind_ok in H. destruct H as [y [E H]]. apply rd_ok in E. apply bind_ok in H. destruct H as [r [Er H]].
    assert (sel = y :: r) by congruence. subst sel. destruct Hx as [<-|Hx]; [eapply nth_error_In; eauto|eapply IH; eauto].
Qed.

Lemma chunks_In_bytes : forall k cnt b r x, In r (chunks k cnt b) -> In x r -> In x b.
Proof.
  intros k cnt. induction cnt as [|cnt IH]; intros b r x Hr Hx; [destruct Hr|]. cbn [chunks] in Hr. destruct Hr as [<-|Hr].
  - rewrite <- (firstn_skipn k b). apply in_or_app. auto.
  - rewrite <- (firstn_skipn k b). apply in_or_app. right. eapply IH; eauto.
Qed.

Lemma loaded_bytes : forall w g1 g2 n d rest rdim rows, length g1 = 4 -> length g2 = 4 ->
  u32_range n -> u32_range d -> N.of_nat (length rest) = (n * d * N.of_nat w)%N -> (n * round_up d 8 * N.of_nat w + 8 < 2 ^ 64)%N ->
  is_bytes rest -> load_aligned_bin w g1 g2 (Some (u32 n ++ u32 d ++ rest)%list) = Ok (n, d, rdim, rows) ->
  forall r x, In r rows -> In (Some x) r -> is_byte x.
Proof.
  intros w g1 g2 n d rest rdim rows L1 L2 Rn Rd Hl Hs Hb H r x Hr Hx. rewrite load_aligned_ok in H by auto.
  assert (Er : rows = map (fun r => padded r (N.to_nat ((round_up d 8 - d) * N.of_nat w))) (chunks (N.to_nat (d * N.of_nat w)) (N.to_nat n) rest)) by congruence.
  rewrite Er in Hr. apply in_map_iff in Hr. destruct Hr as [r0 [<- Hr]]. unfold padded in Hx.
  apply in_app_or in Hx. destruct Hx as [Hx|Hx].
  - apply in_map_iff in Hx. destruct Hx as [y [Ey Hx]]. assert (y = x) by congruence. subst y. unfold is_bytes in Hb. rewrite Forall_forall in Hb. apply Hb. eapply chunks_In_bytes; eauto.
  - apply repeat_spec in Hx. assert (x = 0%N) by congruence. subst x. unfold is_byte. lia.
Qed.

(** One inner level: from the loaded rows to the object made from the temporary file. *)
Lemma inner_object : forall w g a sample d, garbage_ok g -> ann_ok w a -> (a_n a < 2 ^ 32)%N -> 1 <= length sample ->
  StronglySorted lt sample -> (forall i, In i sample -> i < N.to_nat (a_n a)) ->
  exists b ai, save_subset w (a_data a) (a_dim a) (a_adim a) sample = Ok (Some b) /\
    construct w g temp_name (map N.of_nat sample) "" (fs_set d temp_name (Some b)) = Ok ai /\
    ann_ok w ai /\ a_n ai = N.of_nat (length sample) /\ (a_n ai < 2 ^ 32)%N /\ a_tags ai = map N.of_nat sample /\ a_filtered ai = false /\
    a_dim ai = a_dim a /\ a_adim ai = a_adim a /\ length (a_data ai) = length sample /\
    forall k i, nth_error sample k = Some i -> nth_error (a_data ai) k = nth_error (a_data a) i.
Proof.
  intros w g a sample d Hg [Hl [_ [_ [_ _]]]] Hn Hs1 Hso Hb.
  destruct Hl as [Hw [[g1 [g2 [b0 [L1 [L2 [B1 [B2 [Hb0 El]]]]]]]] Hsz]].
  assert (Hsz' : (a_n a * a_dim a * N.of_nat w + 8 < 2 ^ 64)%N).
  { eapply N.le_lt_trans; [|exact Hsz]. apply N.add_le_mono_r, N.mul_le_mono_r, N.mul_le_mono_l. lia. }
  destruct (aligned_cases w g1 g2 (Some b0) _ _ _ _ Hw L1 L2 B1 B2 ltac:(intros b' E; assert (b' = b0) by congruence; subst b'; auto) El Hsz') as [rest [E0 Hrest]].
  assert (E0' : b0 = (u32 (a_n a) ++ u32 (a_dim a) ++ rest)%list) by congruence. subst b0. clear E0.
  assert (Rd : u32_range (a_dim a)).
  { unfold load_aligned_bin in El. destruct (read_header g1 g2 _) as [[n' d'] s] eqn:Eh.
    assert (Hbs : forall b', Some (u32 (a_n a) ++ u32 (a_dim a) ++ rest)%list = Some b' -> is_bytes b').
    { intros b' E. assert (E2 : b' = (u32 (a_n a) ++ u32 (a_dim a) ++ rest)%list) by congruence. rewrite E2. auto. }
    destruct (header_bound _ _ _ _ _ _ L1 L2 B1 B2 Hbs Eh) as [R1 R2].
    destruct (tell_end _ =? _)%N; [|discriminate]. apply bind_ok in El. destruct El as [rows [_ El]].
    assert (d' = a_dim a) by congruence. subst. auto. }
  assert (Hlen : (N.of_nat (length sample) <= a_n a)%N).
  { pose proof (seq_bounded_length _ sample (sorted_NoDup _ Hso) Hb). lia. }
  assert (Hru : (round_up (a_dim a) 8 <= a_dim a + 8)%N) by (destruct (round_up_8 (a_dim a)); lia).
  assert (Hfit : (a_n a * round_up (a_dim a) 8 * N.of_nat w + 8 < 2 ^ 64)%N).
  { eapply N.le_lt_trans; [|exact Hsz]. apply N.add_le_mono_r, N.mul_le_mono_r, N.mul_le_mono_l. auto. }
  assert (Hfit2 : (N.of_nat (length sample) * (a_dim a + 8) * N.of_nat w + 8 < 2 ^ 64)%N).
  { eapply N.le_lt_trans; [|exact Hsz]. apply N.add_le_mono_r, N.mul_le_mono_r, N.mul_le_mono_r. auto. }
  destruct (Hg 0) as [G0 G0b]. destruct (Hg 1) as [G1 G1b].
  destruct (subset_ok w g1 g2 (g 0) (g 1) (a_n a) (a_dim a) rest sample) as [rdim [rows [sub [rows' [S1 [S2 [S3 [S4 S5]]]]]]]]; auto.
  - unfold u32_range. lia.
  - eapply N.le_lt_trans; [|exact Hfit2]. apply N.add_le_mono_r, N.mul_le_mono_r, N.mul_le_mono_l. auto.
  - assert (rdim = a_adim a) by congruence. assert (rows = a_data a) by congruence. subst rdim rows.
    exists sub, (mkA (N.of_nat (length sample)) (a_dim a) (a_adim a) rows' (map N.of_nat sample) false [] [] true "0").
    assert (Hsub : is_bytes sub).
    { unfold save_subset in S2. destruct (a_adim a <? a_dim a)%N; [discriminate|]. apply bind_ok in S2. destruct S2 as [sel [Es S2]].
      apply bind_ok in S2. destruct S2 as [c [Ec S2]]. assert (Esub : sub = (u32 (N.of_nat (length sample)) ++ u32 (a_dim a) ++ c)%list) by congruence.
      rewrite Esub. apply is_bytes_app. split; [apply enc_bytes|]. apply is_bytes_app. split; [apply enc_bytes|].
      apply Forall_forall. intros x Hx. destruct (write_rows_In _ _ _ _ Ec x Hx) as [r [Hr Hxr]].
      apply is_bytes_app in Hb0. destruct Hb0 as [_ Hb0]. apply is_bytes_app in Hb0. destruct Hb0 as [_ Hb0].
      eapply (loaded_bytes w g1 g2 (a_n a) (a_dim a) rest); eauto. eapply rd_all_In; eauto. }
    split; [auto|]. split.
    + unfold construct. rewrite fs_set_same, S3. cbn [bind]. unfold tag_map. rewrite map_length, N.eqb_refl. cbn [negb andb].
      destruct (Nat.eqb (length sample) 0) eqn:E0; [apply Nat.eqb_eq in E0; lia|]. reflexivity.
    + split; [|cbn; repeat (split; [solve [auto]|])].
      * split; [|cbn [a_tags a_n a_use_univ a_filtered a_pts a_univ]; split; [rewrite map_length; lia|split; [|auto]]].
        -- split; [auto|]. cbn [a_n a_dim a_adim a_data]. split; [|auto]. exists (g 0), (g 1), sub. auto 10.
        -- intros t Ht. apply in_map_iff in Ht. destruct Ht as [i [<- Hi]]. apply Hb in Hi. lia.
      * cbn. split; [lia|]. repeat (split; [solve [auto]|]). auto.
Qed.

Lemma built_gann_ok : forall w a ix md R, ann_ok w a -> (a_n a < 2 ^ 32)%N -> (N.of_nat R < 2 ^ 32)%N -> index_ok ix -> ix_n ix = N.to_nat (a_n a) ->
  (N.of_nat md < 2 ^ 32)%N -> (forall x l, nth_error (ix_graph ix) x = Some l -> length l <= R) -> gann_ok w (built a ix md).
Proof.
  intros w a ix md R Ha Hn HR [J1 [[J2 J2'] [J3 [J4 J5]]]] En Hmd Hd. rewrite En in *.
  split; [auto|]. unfold built. cbn [g_lists g_max g_start g_ann]. split; [rewrite map_length; auto|]. split; [|split; unfold u32_range; lia].
  intros l Hl'. apply in_map_iff in Hl'. destruct Hl' as [l0 [<- Hl0]]. apply In_nth_error in Hl0. destruct Hl0 as [i Hi]. split.
  - rewrite map_length. specialize (Hd i l0 Hi). lia.
  - intros y Hy. apply in_map_iff in Hy. destruct Hy as [y0 [<- Hy]]. specialize (J2' i l0 y0 Hi Hy). lia.
Qed.

Lemma hnsw_objects_ok : forall w g sortf pd prm, garbage_ok g -> sorts sortf -> 1 <= bp_L prm -> (N.of_nat (bp_R prm) < 2 ^ 32)%N ->
  (forall p q, is_nan (pd p q) = false) ->
  forall cs a d, ann_ok w a -> (a_n a < 2 ^ 32)%N -> a_filtered a = false -> choices_ok (N.to_nat (a_n a)) cs ->
  (exists xs d', hnsw_objects w g sortf pd prm a cs d = Ok (xs, d') /\
     level_data a xs /\ (forall x, In x xs -> gann_ok w x) /\ levels_ok (map graph_view xs) /\
     levels_degree (bp_R prm) (map graph_view xs) /\ built_from (N.to_nat (a_n a)) (ids_view (a_tags a)) cs (map graph_view xs) /\
     length xs = length cs /\ (forall m, m <> temp_name -> d' m = d m) /\ d' temp_name = (if (1 <? length cs)%nat then None else d temp_name)) \/
  hnsw_objects w g sortf pd prm a cs d = Fuel.
Proof.
  intros w g sortf pd prm Hg Hs HL HR Hnan cs. induction cs as [|c rest IH]; intros a d Ha Hn Hf Hcs; [destruct Hcs|].
  cbn [choices_ok] in Hcs. destruct Hcs as [Hn10 [Hc1 [Hc2 [Hc3 [Hc4 Hrest]]]]]. cbn [hnsw_objects].
  set (I := match rest with [] => Ok ([], d) | _ :: _ => _ end).
  assert (Hinner : (exists inner d1, I = Ok (inner, d1) /\
      match inner with [] => rest = [] | y :: _ => levels_ok (map graph_view inner) /\ (forall t, In t (ix_tags (graph_view y)) -> t < N.to_nat (a_n a)) /\
        (a_dim (g_ann y) = a_dim a /\ a_adim (g_ann y) = a_adim a /\ length (a_data (g_ann y)) = length (a_tags (g_ann y)) /\
           forall i t, nth_error (a_tags (g_ann y)) i = Some t -> nth_error (a_data (g_ann y)) i = nth_error (a_data a) (N.to_nat t)) /\
        level_data (g_ann y) inner end /\
      (forall x, In x inner -> gann_ok w x) /\
      levels_degree (bp_R prm) (map graph_view inner) /\
      match rest with [] => inner = [] | _ :: _ => built_from (length (hc_sample c)) (hc_sample c) rest (map graph_view inner) end /\
      length inner = length rest /\
      (forall m, m <> temp_name -> d1 m = d m) /\ d1 temp_name = (if (0 <? length rest)%nat then None else d temp_name)) \/ I = Fuel).
  { unfold I. destruct rest as [|c' rest'] eqn:Er.
    - left. exists [], d. split; [auto|]. split; [auto|]. split; [intros x []|]. split; [intros ix x l []|]. auto.
    - destruct Hrest as [Hr1 [Hr2 Hr3]]. rewrite <- Er in *.
      assert (Hlen : 10 <= length (hc_sample c)) by (rewrite Er in Hr3; exact (proj1 Hr3)).
      destruct (inner_object w g a (hc_sample c) d Hg Ha Hn ltac:(lia) Hr2 Hr1) as [b [ai [S1 [S2 [S3 [S4 [S5 [S6 [S7 [S8 [S9 [S10 S11]]]]]]]]]]]].
      rewrite S1. cbn [bind]. rewrite S2. cbn [bind].
      assert (Et : ids_view (a_tags ai) = hc_sample c) by (rewrite S6; apply map_to_of).
      destruct (IH ai (fs_set (fs_set d temp_name (Some b)) temp_name None)) as [[xs [d1 [E [Hld [Hgo [Hlv [Hdg [Hbf [Hlx [Hfr Htm]]]]]]]]]]|E]; auto.
      { rewrite S4, Nat2N.id. auto. }
      + left. exists xs, d1. split; [auto|]. rewrite S4, Nat2N.id, Et in Hbf. split; [|split; [auto|split; [auto|split; [auto|split; [auto|split]]]]].
        * destruct xs as [|y xs']; [destruct Hld|]. pose proof Hld as Hld0. cbn [level_data] in Hld. destruct Hld as [Ey _]. split; [auto|].
          split; [unfold graph_view; cbn [ix_tags]; rewrite Ey, Et; auto|]. rewrite Ey in *. split; [|auto].
          split; [auto|]. split; [auto|]. split; [rewrite S6, map_length; auto|].
          intros i t Hi. rewrite S6, nth_error_map in Hi. destruct (nth_error (hc_sample c) i) as [j|] eqn:Ej; [|discriminate].
          cbn in Hi. assert (Etj : t = N.of_nat j) by congruence. rewrite Etj, Nat2N.id. apply S11. auto.
        * intros m Hm. rewrite Hfr by auto. assert (Em : String.eqb m temp_name = false) by (apply String.eqb_neq; auto).
          rewrite !fs_set_other by auto. auto.
        * destruct (1 <? length rest)%nat; [rewrite Htm|rewrite Htm, fs_set_same]; rewrite Er; reflexivity.
      }
  destruct Hinner as [[inner [d1 [-> [Hlv [Hgo [Hdeg [Hbf [Hlx [Hfr Htm]]]]]]]]]| ->]; [|right; auto]. cbn [bind fst snd].
  pose proof Ha as [_ [Htl _]].
  destruct (level_ok sortf prm (space_view pd a) (ids_view (a_tags a)) c (map graph_view inner)) as [s [Es [Hs1 [Hfm Henv]]]]; auto.
  { intros i j. apply Hnan. }
  { unfold ids_view. rewrite map_length. auto. }
  { destruct inner as [|y inner']; [cbn; auto|]. destruct Hlv as [V1 [V2 _]]. split; auto. }
  cbn [space_view sp_n] in Es. rewrite Es. cbn [bind he_b].
  set (env := mkH (mkEnv sortf (space_view pd a) prm s []) (map graph_view inner)) in *.
  destruct (h_run_ok env Henv (hc_sched c) (build_init (he_b env)) (h_init_inv env) Hc3) as [st [E HI]].
  change (he_b env) with (mkEnv sortf (space_view pd a) prm s []) in E. rewrite E. cbn [bind].
  destruct (all_done st); [|right; auto]. left.
  destruct (h_final env (hc_sched c) st (hc_order c) Henv HI E Hc4) as [gr [Eg [Lg Hgr]]].
  rewrite Eg. cbn [bind fst snd].
  cbn [env he_b be_sp be_prm space_view sp_n] in Hgr, Lg, Hs1.
  set (ix := mkI (N.to_nat (a_n a)) (ids_view (a_tags a)) (labels_view a) [] s gr).
  assert (Hix : index_ok ix).
  { split; [cbn; lia|]. split; [|split; [|split]]; cbn [ix ix_n ix_graph ix_tags ix_start ix_medoids].
    - split; [auto|]. intros x l y Hx Hy. apply (Hgr x l Hx). auto.
    - unfold ids_view. rewrite map_length. auto.
    - auto.
    - intros x id []. }
  assert (Ev : graph_view (built a ix hnsw_max_degree) = ix) by (apply graph_view_built; auto).
  assert (Hgok : gann_ok w (built a ix hnsw_max_degree)).
  { apply (built_gann_ok w a ix hnsw_max_degree (bp_R prm)); auto; [reflexivity|]. intros x l Hx. apply (Hgr x l Hx). }
  exists (built a ix hnsw_max_degree :: inner), d1. split; [reflexivity|].
  cbn [map]. rewrite Ev. repeat match goal with |- _ /\ _ => split end.
  - cbn [level_data]. split; [reflexivity|]. destruct inner as [|y inner']; [auto|]. destruct Hlv as [_ [_ V]]. exact V.
  - intros x [<-|Hx]; auto.
  - cbn [levels_ok]. split; [auto|]. destruct inner as [|y inner']; [cbn; auto|]. destruct Hlv as [V1 [V2 _]]. cbn [map]. split; auto.
  - intros i x l [<-|Hi] Hx; [|eapply Hdeg; eauto]. cbn [ix ix_graph] in Hx. destruct (Hgr x l Hx) as [A B].
    split; auto. intros C. apply A in C. lia.
  - cbn [built_from ix ix_n ix_tags ix_start]. repeat (split; [solve [auto]|]). destruct rest; [subst inner; reflexivity|exact Hbf].
  - cbn. lia.
  - auto.
  - rewrite Htm. destruct rest; reflexivity.
Qed.

Lemma hnsw_tool_ok : forall w g sortf pd data_name tags prm cs path d a, sorts sortf ->
  files_ok w g data_name tags "" d a -> 1 <= bp_L prm -> (N.of_nat (bp_R prm) < 2 ^ 32)%N ->
  (forall p q, is_nan (pd p q) = false) -> choices_ok (N.to_nat (a_n a)) cs ->
  hnsw_tool w g sortf pd data_name tags prm cs path d = Fuel \/
  exists levels d', hnsw_tool w g sortf pd data_name tags prm cs path d = Ok (levels, d') /\
    length levels = length cs /\ level_data a levels /\
    levels_ok (map graph_view levels) /\ levels_degree (bp_R prm) (map graph_view levels) /\
    built_from (N.to_nat (a_n a)) (ids_view (a_tags a)) cs (map graph_view levels) /\
    (forall m, (forall i, i < length cs -> ~ family rng_suffixes (level_name path (N.of_nat i)) m) ->
       d' m = if (m =? temp_name) && (1 <? length cs)%nat then None else d m) /\
    forall g', garbage_ok g' -> exists rs, load_hnsw w g' path 0 (repeat (new_gann 0 0 0) (length cs)) d' = Ok rs /\
      (forall r, In r rs -> snd r = true) /\
      (exists y ys, rev (map fst rs) = y :: ys /\ a_adim (g_ann y) = a_adim a) /\
      forall qd k, same_answers (hnsw_searcher sortf qd k levels) (hnsw_searcher sortf qd k (rev (map fst rs))).
Proof.
  intros w g sortf pd data_name tags prm cs path d a Hs Hf HL HR Hnan Hcs.
  destruct (files_ann_ok _ _ _ _ _ _ _ Hf) as [Hann [Hn Hfil]].
  unfold hnsw_tool. rewrite (fo_made _ _ _ _ _ _ _ Hf). cbn [bind].
  destruct (hnsw_objects_ok w g sortf pd prm (fo_garbage _ _ _ _ _ _ _ Hf) Hs HL HR Hnan cs a d Hann Hn (Hfil eq_refl) Hcs)
    as [[xs [d1 [E [H1 [H2 [H3 [H4 [H5 [H6 [H7 H8]]]]]]]]]]|E]; [|left; rewrite E; reflexivity].
  right. rewrite E. cbn [bind fst snd].
  assert (Hgo : forall x, In x (rev xs) -> gann_ok w x) by (intros x Hx; apply H2, in_rev; auto).
  destruct (save_hnsw_ok w path (rev xs) 0 d1 Hgo) as [d' [S1 [_ S3]]]. exists xs, d'. rewrite S1. split; [reflexivity|].
  repeat (split; [solve [auto]|]). split.
  - intros m Hfam. rewrite S3. { destruct (String.eqb_spec m temp_name) as [->|Hm]; cbn [andb]; [exact H8|apply H7; exact Hm]. } intros i Hi. rewrite rev_length, H6 in Hi. rewrite N.add_0_l. auto.
  - intros g' Hg'. destruct (hnsw_reload w g' path (rev xs) d1 Hg' Hgo) as [d2 [rs [R1 [R2 [R3 R4]]]]].
    assert (d2 = d') by congruence. subst d2. destruct (hnsw_round_trip w g' path (rev xs) d1 0 0 0 Hg' Hgo) as [d3 [rs3 [Q1 [Q2 [Q3 [Q4 _]]]]]].
    assert (d3 = d') by congruence. subst d3. rewrite fresh_repeat in Q2. assert (rs3 = rs) by congruence. subst rs3.
    rewrite rev_length, H6 in R2. exists rs. split; [auto|]. split; [auto|]. split.
    { destruct xs as [|x inner]; [destruct H1|]. cbn [level_data] in H1. destruct H1 as [Ex _]. cbn [rev] in Q3, Q4. rewrite app_length in Q3. cbn [length] in Q3.
      destruct (Q4 (length (rev inner)) x) as [x' [N1 [N2 _]]]; [rewrite nth_error_app2, Nat.sub_diag by lia; reflexivity|].
      destruct (rev (map fst rs)) as [|y ys] eqn:Er.
      - apply (f_equal (@length gann)) in Er. rewrite rev_length, map_length in Er. cbn in Er. lia.
      - exists y, ys. split; [auto|]. assert (El : map fst rs = (rev ys ++ [y])%list) by (rewrite <- (rev_involutive (map fst rs)), Er; reflexivity).
        assert (Ely : length (rev ys) = length (rev inner)).
        { apply (f_equal (@length gann)) in El. rewrite map_length, app_length in El. cbn in El. lia. }
        assert (Ny : nth_error (map fst rs) (length (rev inner)) = Some x') by (rewrite nth_error_map, N1; reflexivity).
        rewrite El, nth_error_app2, Ely, Nat.sub_diag in Ny by lia. cbn in Ny. assert (y = x') by congruence. subst y.
        destruct N2 as (_ & _ & N2 & _). rewrite N2, Ex. reflexivity. }
    intros qd k. specialize (R4 sortf qd k). rewrite rev_involutive in R4. exact R4.
Qed.

(** Rows of a result file, for any index whose loaded copy answers as [srch]. *)
Lemma tool_rows : forall w g1 g2 query_name prefix k least args order load d nq qadim mem adim srch srch' (P : N -> nat -> list nat -> list f32 -> nat -> Prop),
  queries_in w g1 g2 (d query_name) nq qadim mem -> (1 <= nq)%N ->
  load d = Ok (adim, srch') -> (adim <= qadim)%N -> writes_own_slots (N.to_nat k) srch -> same_answers srch srch' ->
  (exists L, In L args /\ (least <= L)%N) ->
  (forall L, In L args -> (least <= L)%N -> each_once (N.to_nat nq) (order L)) ->
  (forall L i, In L args -> (least <= L)%N -> i < N.to_nat nq -> exists row ds c,
     srch (firstn (N.to_nat adim * w) (nth i mem [])) (N.to_nat L) (repeat 0 (N.to_nat k)) (repeat f32_zero (N.to_nat k)) = Ok (row, ds, c) /\ P L i row ds c) ->
  exists d', search_tool w g1 g2 query_name prefix k least args order load d = Ok (Some d') /\
    forall L, In L args -> (least <= L)%N -> exists rows,
      d' (result_name prefix L) = Some (bin_file 4 nq k (map N.of_nat (concat rows))) /\ length rows = N.to_nat nq /\
      forall i row, nth_error rows i = Some row -> length row = N.to_nat k /\ exists ds c, P L i row ds c.
Proof.
  intros w g1 g2 query_name prefix k least args order load d nq qadim mem adim srch srch' P Hq Hnq Hload Hdim Hloc Hsame Hex Ho Hone.
  set (z := repeat 0 (N.to_nat k)) in *. set (zf := repeat f32_zero (N.to_nat k)) in *.
  set (q := fun i => firstn (N.to_nat adim * w) (nth i mem [])).
  set (R := fun (L : N) (i : nat) => match srch (q i) (N.to_nat L) z zf with Ok (ids, _, _) => ids | _ => [] end).
  destruct (tool_ok w g1 g2 query_name prefix k least args order load d nq qadim mem adim srch' R) as [d'' [T1 [T2 _]]]; auto.
  - intros q0 L ids ids2 ds ds2 Hi Hd. specialize (Hloc q0 L ids ids2 ds ds2 Hi Hd). rewrite !(Hsame q0 L). exact Hloc.
  - intros L i HL1 HL Hi. destruct (Hone L i HL1 HL Hi) as [row [ds [c [S1 _]]]]. exists ds, c. rewrite (Hsame _ (N.to_nat L)).
    unfold R. fold z zf (q i). fold (q i) in S1. rewrite S1. auto.
  - exists d''. split; [auto|]. intros L HL1 HL2. exists (map (R L) (seq 0 (N.to_nat nq))).
    split; [apply T2; auto|]. split; [rewrite map_length, seq_length; auto|].
    intros i row Hrow. rewrite nth_error_map in Hrow.
    assert (Hi : i < N.to_nat nq).
    { destruct (nth_error (seq 0 (N.to_nat nq)) i) eqn:Ei; [|discriminate].
      assert (Hi : i < length (seq 0 (N.to_nat nq))) by (apply nth_error_Some; congruence). rewrite seq_length in Hi. auto. }
    rewrite (nth_error_nth' _ 0) in Hrow by (rewrite seq_length; auto). rewrite seq_nth in Hrow by auto. cbn [option_map plus] in Hrow.
    destruct (Hone L i HL1 HL2 Hi) as [row' [ds [c [S1 S2]]]]. fold (q i) in S1.
    assert (Er : row' = row) by (unfold R in Hrow; rewrite S1 in Hrow; congruence). subst row'. split; [|exists ds, c; auto].
    pose proof (Hloc (q i) (N.to_nat L) z [] zf [] (repeat_length _ _) (repeat_length _ _)) as Hl. rewrite S1 in Hl. apply Hl.
Qed.

Lemma hnsw_tool_search : forall w g sortf pd data_name tags prm cs path d a levels d', sorts sortf ->
  files_ok w g data_name tags "" d a -> 1 <= bp_L prm -> (N.of_nat (bp_R prm) < 2 ^ 32)%N ->
  (forall p q, is_nan (pd p q) = false) -> choices_ok (N.to_nat (a_n a)) cs ->
  hnsw_tool w g sortf pd data_name tags prm cs path d = Ok (levels, d') ->
  forall g' g1 g2 query_name prefix k args orders qd nq qadim mem, garbage_ok g' ->
  queries_in w g1 g2 (d' query_name) nq qadim mem -> (1 <= nq)%N -> (a_adim a <= qadim)%N ->
  (forall q p, is_nan (qd q p) = false) -> (1 <= k)%N ->
  (exists L, In L args /\ (k <= L)%N) -> (forall L, In L args -> (k <= L)%N -> each_once (N.to_nat nq) (orders L)) ->
  exists d'', search_tool w g1 g2 query_name prefix k k args orders (load_for_hnsw w g' sortf qd (N.to_nat k) (length cs) path) d' = Ok (Some d'') /\
    forall L, In L args -> (k <= L)%N -> exists rows,
      d'' (result_name prefix L) = Some (bin_file 4 nq k (map N.of_nat (concat rows))) /\ length rows = N.to_nat nq /\
      forall i row, nth_error rows i = Some row -> length row = N.to_nat k /\ exists ds c,
        let q := firstn (N.to_nat (a_adim a) * w) (nth i mem []) in
        hnsw_searcher sortf qd (N.to_nat k) levels q (N.to_nat L) (repeat 0 (N.to_nat k)) (repeat f32_zero (N.to_nat k)) = Ok (row, ds, c) /\
        exists found, c = length found /\ found <> [] /\ reports (N.to_nat (a_n a)) (ids_view (a_tags a)) (fun id => qd q (nth id (a_data a) [])) row ds found.
Proof.
  intros w g sortf pd data_name tags prm cs path d a levels d' Hs Hf HL HR Hnan Hcs Htool
    g' g1 g2 query_name prefix k args orders qd nq qadim mem Hg' Hq Hnq Hdim Hqd Hk Hex Ho.
  destruct (hnsw_tool_ok w g sortf pd data_name tags prm cs path d a Hs Hf HL HR Hnan Hcs) as [E|[lv [d1 [E [H1 [H2 [H3 [H4 [H5 [H6 H7]]]]]]]]]]; [congruence|].
  assert (lv = levels) by congruence. assert (d1 = d') by congruence. subst lv d1.
  destruct (H7 g' Hg') as [rs [R1 [R2 [[y [ys [Y1 Y2]]] R3]]]].
  destruct levels as [|x inner]; [destruct H2|]. cbn [level_data] in H2. destruct H2 as [Ex _].
  pose proof (files_ann_ok _ _ _ _ _ _ _ Hf) as [[_ [Ht _]] _].
  apply (tool_rows w g1 g2 query_name prefix k k args orders _ d' nq qadim mem (a_adim a) (hnsw_searcher sortf qd (N.to_nat k) (x :: inner))
    (hnsw_searcher sortf qd (N.to_nat k) (y :: ys))
    (fun L i row ds c => let q := firstn (N.to_nat (a_adim a) * w) (nth i mem []) in
      hnsw_searcher sortf qd (N.to_nat k) (x :: inner) q (N.to_nat L) (repeat 0 (N.to_nat k)) (repeat f32_zero (N.to_nat k)) = Ok (row, ds, c) /\
      exists found, c = length found /\ found <> [] /\ reports (N.to_nat (a_n a)) (ids_view (a_tags a)) (fun id => qd q (nth id (a_data a) [])) row ds found)); auto.
  - unfold load_for_hnsw. rewrite R1. cbn [bind]. rewrite Y1, Y2. reflexivity.
  - apply local_hnsw.
  - specialize (R3 qd (N.to_nat k)). rewrite Y1 in R3. exact R3.
  - intros L i _ HLk Hi. cbn zeta.
    set (q := firstn (N.to_nat (a_adim a) * w) (nth i mem [])).
    destruct (hnsw_search_ok sortf (N.to_nat L) (N.to_nat k) Hs ltac:(lia) ltac:(lia) (map graph_view inner) (graph_view x) (query_dist qd (g_ann x) q) []
      (repeat 0 (N.to_nat k)) (repeat f32_zero (N.to_nat k))) as [en [ids [i1 [i2 [S1 [S2 [S3 [_ [_ [S6 _]]]]]]]]]]; auto.
    + intros id. apply Hqd.
    + rewrite repeat_length. auto.
    + rewrite repeat_length. auto.
    + exists i1, i2, (length ids).
      assert (Es : hnsw_searcher sortf qd (N.to_nat k) (x :: inner) q (N.to_nat L) (repeat 0 (N.to_nat k)) (repeat f32_zero (N.to_nat k)) = Ok (i1, i2, length ids)) by exact S1.
      split; [exact Es|]. split; [exact Es|]. exists ids. split; [auto|]. split; [apply S3; lia|].
      unfold query_dist, graph_view in S6. cbn [ix_n ix_tags] in S6. rewrite Ex in S6. exact S6.
Qed.
