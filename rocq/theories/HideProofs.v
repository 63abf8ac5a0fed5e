(** * A filtered search depends on the matching points only. *)
From Coq Require Import NArith String List Arith Lia Bool.
From Verif Require Import Base Float32 PoolModel PoolProofs FilterSpec FilterProofs SortSpec GraphSpec GreedyModel GreedyProofs SearchModel ClosestModel FlatModel IvfModel LshModel HideSpec.
Import ListNotations.

Lemma acc_ok : forall n lc filters id, labelled n lc -> sorted_labels filters -> id < n ->
  passes_filter lc filters id = Ok (acc_of lc filters id) /\ (acc_of lc filters id = true <-> point_matches lc filters id).
Proof.
  intros n lc filters id [L H] Sf Hid. destruct (nth_error (pts_to_labels lc) id) as [ls|] eqn:E; [|apply nth_error_None in E; lia].
  destruct (passes_filter_exact lc filters id ls E Sf (H ls (nth_error_In _ _ E))) as [b [P B]]. unfold acc_of. rewrite P. split; [reflexivity|].
  unfold point_matches. rewrite B. split; [intros M; exists ls; now split|]. intros [ls' [E' M]]. rewrite E in E'. injection E' as <-. exact M.
Qed.
Lemma agree_acc : forall n filters lc lc' dist dist' id, agree n filters lc lc' dist dist' -> id < n -> acc_of lc' filters id = acc_of lc filters id.
Proof.
  intros n filters lc lc' dist dist' id [Sf [H [H' A]]] Hid. destruct (acc_ok n lc filters id H Sf Hid) as [_ B]. destruct (acc_ok n lc' filters id H' Sf Hid) as [_ B']. destruct (A id Hid) as [M _].
  apply eq_true_iff_eq. rewrite B, B'. symmetry. exact M.
Qed.

(** ** Candidate lists *)
Definition tests (n : nat) (accept : nat -> res bool) (acc : nat -> bool) : Prop := forall id, id < n -> accept id = Ok (acc id).
Definition yes_of (acc : nat -> bool) (id : nat) : Prop := acc id = true.
Lemma loop_same : forall n acc accept accept' dist dist' M l l', tests n accept acc -> tests n accept' acc -> (forall id, id < n -> acc id = true -> dist id = dist' id) ->
  same_among (yes_of acc) l l' -> (forall x, In x l -> x < n) -> (forall x, In x l' -> x < n) -> forall st, process_loop n dist accept M st l = process_loop n dist' accept' M st l'.
Proof.
  intros n acc accept accept' dist dist' M l l' T T' D S. induction S as [|x l l' S IH|x l l' Hx S IH|x l l' Hx S IH]; intros B B' st.
  - reflexivity.
  - cbn [process_loop]. assert (Hn : x < n) by (apply B; now left).
    assert (E : process_one n dist accept M st x = process_one n dist' accept' M st x).
    { unfold process_one. rewrite (T x Hn), (T' x Hn). cbn [bind]. destruct (acc x) eqn:Q; [|reflexivity]. cbn [negb]. now rewrite (D x Hn Q). }
    rewrite E. destruct (process_one n dist' accept' M st x); cbn [bind]; try reflexivity. apply IH; intros y Hy; [apply B|apply B']; now right.
  - cbn [process_loop]. assert (Hn : x < n) by (apply B; now left). unfold process_one at 1. rewrite (T x Hn). cbn [bind]. destruct (acc x) eqn:Q; [now elim Hx|]. cbn [negb bind].
    apply IH; [|exact B']. intros y Hy. apply B. now right.
  - cbn [process_loop]. assert (Hn : x < n) by (apply B'; now left). unfold process_one at 1. rewrite (T' x Hn). cbn [bind]. destruct (acc x) eqn:Q; [now elim Hx|]. cbn [negb bind].
    apply IH; [exact B|]. intros y Hy. apply B'. now right.
Qed.
Lemma same_weaken : forall (m m' : nat -> Prop) l l', same_among m l l' -> (forall x, In x l \/ In x l' -> m' x -> m x) -> same_among m' l l'.
Proof.
  intros m m' l l' S. induction S as [|x l l' S IH|x l l' Hx S IH|x l l' Hx S IH]; intros H.
  - constructor.
  - apply same_both. apply IH. intros y Hy. apply H. destruct Hy; [left|right]; now right.
  - apply same_left; [intros Q; apply Hx; apply H; [left; now left|exact Q]|]. apply IH. intros y Hy. apply H. destruct Hy; [left; now right|now right].
  - apply same_right; [intros Q; apply Hx; apply H; [right; now left|exact Q]|]. apply IH. intros y Hy. apply H. destruct Hy; [now left|right; now right].
Qed.
Lemma same_app : forall m l1 l1' l2 l2', same_among m l1 l1' -> same_among m l2 l2' -> same_among m (l1 ++ l2) (l1' ++ l2').
Proof. intros m l1 l1' l2 l2' S H. induction S; cbn [app]; [exact H|now apply same_both|now apply same_left|now apply same_right]. Qed.
Lemma same_refl : forall m l, same_among m l l.
Proof. intros m l. induction l; constructor; assumption. Qed.

Lemma flat_hide : forall n filters lc lc' dist dist' k l l' ind dst, agree n filters lc lc' dist dist' -> same_among (point_matches lc filters) l l' -> (forall x, In x l \/ In x l' -> x < n) ->
  flat_search n dist (passes_filter lc filters) k l ind dst = flat_search n dist' (passes_filter lc' filters) k l' ind dst.
Proof.
  intros n filters lc lc' dist dist' k l l' ind dst A S B. unfold flat_search, process_candidates. pose proof A as [Sf [H [H' Q]]].
  rewrite (loop_same n (acc_of lc filters) (passes_filter lc filters) (passes_filter lc' filters) dist dist' k l l'); [reflexivity|..].
  - intros id Hid. apply (acc_ok n lc filters id H Sf Hid).
  - intros id Hid. rewrite <- (agree_acc n filters lc lc' dist dist' id A Hid). apply (acc_ok n lc' filters id H' Sf Hid).
  - intros id Hid E. apply (Q id Hid). now apply (acc_ok n lc filters id H Sf Hid).
  - apply (same_weaken _ _ _ _ S). intros x Hx E. apply (acc_ok n lc filters x H Sf (B x Hx)). exact E.
  - intros x Hx. apply B. now left.
  - intros x Hx. apply B. now right.
Qed.

(** ** IVF *)
Lemma gather_same : forall m inv inv' cs, Forall2 (same_among m) inv inv' ->
  match gather inv cs, gather inv' cs with
  | Ok l, Ok l' => same_among m l l' /\ (forall x, In x l -> exists s, In s inv /\ In x s) /\ (forall x, In x l' -> exists s, In s inv' /\ In x s)
  | UB, UB => True | _, _ => False
  end.
Proof.
  intros m inv inv' cs F. induction cs as [|c cs IH]; cbn [gather]; [split; [constructor|split; intros x []]|].
  assert (R : match nth_error inv c, nth_error inv' c with Some l, Some l' => same_among m l l' | None, None => True | _, _ => False end).
  { clear IH. revert c. induction F as [|a b inv inv' Sab F IH]; intros c; [destruct c; exact I|]. destruct c as [|c]; [exact Sab|exact (IH c)]. }
  unfold rd. destruct (nth_error inv c) as [l|] eqn:E1; destruct (nth_error inv' c) as [l'|] eqn:E2; try contradiction; cbn [bind]; [|exact I].
  destruct (gather inv cs) as [t| | | |]; destruct (gather inv' cs) as [t'| | | |]; try contradiction; cbn [bind]; [|exact I]. destruct IH as [S [B B']].
  split; [now apply same_app|]. split; intros x Hx; apply in_app_or in Hx; destruct Hx as [Hx|Hx]; auto; [exists l|exists l']; (split; [|exact Hx]); eapply nth_error_In; eassumption.
Qed.
Lemma ivf_hide : forall popf mbs n tags tags' nc inv inv' lc lc' cdist dist dist' p k filters ind dst, agree n filters lc lc' dist dist' ->
  Forall2 (same_among (point_matches lc filters)) inv inv' -> (forall l x, In l inv \/ In l inv' -> In x l -> x < n) ->
  ivf_search popf mbs (mkIvf n tags nc inv lc) cdist dist p k filters ind dst = ivf_search popf mbs (mkIvf n tags' nc inv' lc') cdist dist' p k filters ind dst.
Proof.
  intros popf mbs n tags tags' nc inv inv' lc lc' cdist dist dist' p k filters ind dst A F B. unfold ivf_search, ivf_candidates. cbn [ivf_n ivf_nc ivf_inv ivf_labels].
  destruct (compute_closest popf mbs (fun _ => cdist) 1 nc p (one_point_order p) (repeat 0 p) None) as [r| | | |]; cbn [bind]; try reflexivity.
  pose proof (gather_same _ inv inv' (fst r) F) as G. destruct (gather inv (fst r)) as [l| | | |]; destruct (gather inv' (fst r)) as [l'| | | |]; try contradiction; cbn [bind]; try reflexivity.
  destruct G as [S [C C']]. apply flat_hide; [exact A|exact S|]. intros x [Hx|Hx]; [destruct (C x Hx) as [s [Hs Hx']]|destruct (C' x Hx) as [s [Hs Hx']]]; apply (B s x); auto.
Qed.

(** ** LSH *)
Lemma lookup_same : forall dotf q m ts ts', Forall2 (same_table m) ts ts' ->
  same_among m (fst (lookup_all dotf q ts)) (fst (lookup_all dotf q ts')) /\ (forall x, In x (fst (lookup_all dotf q ts)) -> exists t k, In t ts /\ In x (bucket t k)).
Proof.
  intros dotf q m ts ts' F. induction F as [|t t' ts ts' [E S] F IH]; [split; [constructor|intros x []]|]. cbn [lookup_all get_bucket].
  assert (Q : get_hash dotf t' q = get_hash dotf t q) by (unfold get_hash; now rewrite E). rewrite Q. destruct (lookup_all dotf q ts) as [ls r]. destruct (lookup_all dotf q ts') as [ls' r']. cbn [fst] in *.
  destruct IH as [IH B]. split; [apply same_app; [apply S|exact IH]|]. intros x Hx. apply in_app_or in Hx. destruct Hx as [Hx|Hx]; [exists t, (get_hash dotf t q); split; [now left|exact Hx]|].
  destruct (B x Hx) as [u [k [Hu Hk]]]. exists u, k. split; [now right|exact Hk].
Qed.
Lemma lookup_from : forall dotf q ts x, In x (fst (lookup_all dotf q ts)) -> exists t k, In t ts /\ In x (bucket t k).
Proof.
  intros dotf q ts x. assert (F : Forall2 (same_table (fun _ => True)) ts ts) by (induction ts; constructor; auto; split; [reflexivity|intros; apply same_refl]).
  exact (proj2 (lookup_same dotf q _ ts ts F) x).
Qed.
Lemma lsh_hide : forall dotf n tags tags' nt sz ts ts' lc lc' q dist dist' k filters ind dst, agree n filters lc lc' dist dist' ->
  Forall2 (same_table (point_matches lc filters)) ts ts' -> (forall t i x, In t ts \/ In t ts' -> In x (bucket t i) -> x < n) ->
  answer_of (lsh_search dotf (mkLsh n tags lc nt sz ts) q dist k filters ind dst) = answer_of (lsh_search dotf (mkLsh n tags' lc' nt sz ts') q dist' k filters ind dst).
Proof.
  intros dotf n tags tags' nt sz ts ts' lc lc' q dist dist' k filters ind dst A F B. unfold lsh_search, answer_of. cbn [l_n l_labels l_tables].
  destruct (lookup_same dotf q _ ts ts' F) as [S _]. pose proof (lookup_from dotf q ts) as C. pose proof (lookup_from dotf q ts') as C'.
  destruct (lookup_all dotf q ts) as [l r]. destruct (lookup_all dotf q ts') as [l' r']. cbn [fst] in *.
  rewrite (flat_hide n filters lc lc' dist dist' k l l' ind dst A S); [destruct (flat_search _ _ _ _ _ _ _); reflexivity|].
  intros x [Hx|Hx]; [destruct (C x Hx) as [t [i [Ht Hi]]]|destruct (C' x Hx) as [t [i [Ht Hi]]]]; apply (B t i x); auto.
Qed.

(** ** Graph search *)
Definition same_edges (acc : nat -> bool) (g g' : graph) : Prop := forall id l l', acc id = true -> nth_error g id = Some l -> nth_error g' id = Some l' -> same_among (yes_of acc) l l'.
Definition all_acc (acc : nat -> bool) (st : gstate) : Prop := forall x, In x (p_ins (g_pool st)) -> acc x = true.

Lemma step_same : forall n acc accept accept' dist dist' L c0 g g' st, tests n accept acc -> tests n accept' acc -> (forall id, id < n -> acc id = true -> dist id = dist' id) ->
  graph_ok n g -> graph_ok n g' -> same_edges acc g g' -> ginv n dist L c0 st -> all_acc acc st -> greedy_running st = true ->
  greedy_step n dist accept L g st = greedy_step n dist' accept' L g' st.
Proof.
  intros n acc accept accept' dist dist' L c0 g g' st T T' D [Lg Hg] [Lg' Hg'] E I A R. unfold greedy_running in R. apply Nat.ltb_lt in R. unfold greedy_step.
  destruct (rd (p_arr (g_pool st)) (g_k st)) as [x| | | |] eqn:X; cbn [bind]; try reflexivity. destruct (nflag x); [|reflexivity].
  destruct (wr (p_arr (g_pool st)) (g_k st) _) as [a| | | |]; cbn [bind]; try reflexivity.
  assert (Hin : In (nid x) (p_ins (g_pool st))).
  { apply rd_ok in X. destruct (gi_wf _ _ _ _ _ I) as [_ [Hal [Hcm [_ He]]]]. apply He. apply nth_error_In with (n := g_k st). unfold pool_entries. rewrite <- X.
    rewrite <- (firstn_skipn (p_cur (g_pool st)) (p_arr (g_pool st))) at 2. symmetry. apply nth_error_app1. rewrite firstn_length. lia. }
  pose proof (gi_lt _ _ _ _ _ I (nid x) Hin) as Hlt. unfold rd.
  destruct (nth_error g (nid x)) as [l|] eqn:G; [|apply nth_error_None in G; lia]. destruct (nth_error g' (nid x)) as [l'|] eqn:G'; [|apply nth_error_None in G'; lia]. cbn [bind].
  unfold process_candidates. rewrite (loop_same n acc accept accept' dist dist' L l l' T T' D (E _ _ _ (A _ Hin) G G')); [reflexivity|..].
  - intros y Hy. exact (Hg _ _ y G Hy).
  - intros y Hy. exact (Hg' _ _ y G' Hy).
Qed.
Lemma while_same : forall n acc accept accept' dist dist' L c0 g g', tests n accept acc -> tests n accept' acc -> (forall id, id < n -> acc id = true -> dist id = dist' id) -> (forall id, is_nan (dist id) = false) ->
  graph_ok n g -> graph_ok n g' -> same_edges acc g g' -> forall fuel i st, ginv n dist L c0 st -> all_acc acc st ->
  greedy_loop fuel n dist accept L (fun _ => g) i st = greedy_loop fuel n dist' accept' L (fun _ => g') i st.
Proof.
  intros n acc accept accept' dist dist' L c0 g g' T T' D N G G' E. induction fuel as [|fuel IH]; intros i st I A; cbn [greedy_loop]; destruct (greedy_running st) eqn:R; try reflexivity.
  rewrite <- (step_same n acc accept accept' dist dist' L c0 g g' st T T' D G G' E I A R). destruct (greedy_step_ok n dist accept acc L c0 g st N T G I R) as [st' [-> [I' K]]]. cbn [bind].
  apply IH; [exact I'|]. destruct K as [E1 _ _|x l _ _ _ K]; intros y Hy; [rewrite E1 in Hy; exact (A y Hy)|]. apply K in Hy. destruct Hy as [Hy|[_ Hy]]; [exact (A y Hy)|exact Hy].
Qed.
Lemma init_same : forall n dist dist' L ids arr l ins, (forall id, In id ids -> dist id = dist' id) -> init_loop n dist L arr l ins ids = init_loop n dist' L arr l ins ids.
Proof.
  intros n dist dist' L ids. induction ids as [|id ids IH]; intros arr l ins H; [reflexivity|]. cbn [init_loop]. rewrite (H id (or_introl eq_refl)). destruct (id <? n); cbn [bind]; [|reflexivity].
  destruct (if set_mem id ins then _ else _) as [[[a b] c]| | | |]; cbn [bind]; try reflexivity. destruct (b =? L); [reflexivity|]. apply IH. intros y Hy. apply H. now right.
Qed.
Lemma greedy_same : forall sortf n acc accept accept' dist dist' L g g' ids, sorts sortf -> 1 <= L -> tests n accept acc -> tests n accept' acc ->
  (forall id, id < n -> acc id = true -> dist id = dist' id) -> (forall id, is_nan (dist id) = false) -> graph_ok n g -> graph_ok n g' -> same_edges acc g g' -> (forall id, In id ids -> id < n /\ acc id = true) ->
  greedy_search sortf n dist accept L g ids = greedy_search sortf n dist' accept' L g' ids.
Proof.
  intros sortf n acc accept accept' dist dist' L g g' ids Hs HL T T' D N G G' E Hi.
  destruct (greedy_dyn_ok sortf n dist accept acc L (fun _ => g) ids Hs HL N T (fun _ => G) (fun id H => proj1 (Hi id H))) as [st0 [st [E0 [_ [_ [_ [_ [_ [_ [Hin [_ I0]]]]]]]]]]].
  unfold greedy_search, greedy_search_dyn. assert (E1 : greedy_init sortf n dist' L ids = Ok st0).
  { rewrite <- E0. unfold greedy_init. rewrite (init_same n dist dist' L ids); [reflexivity|]. intros id H. destruct (Hi id H) as [Hn Ha]. exact (D id Hn Ha). }
  rewrite E0, E1. cbn [bind]. apply (while_same n acc accept accept' dist dist' L (length (p_ins (g_pool st0)))); try assumption. intros x Hx. exact (proj2 (Hi x (Hin x Hx))).
Qed.

Lemma vamana_hide : forall sortf n tags lc lc' medoids start start' g g' dist dist' L k filters ind dst, sorts sortf -> 1 <= L -> filters <> [] -> agree n filters lc lc' dist dist' ->
  (forall id, id < n -> point_matches lc filters id -> is_nan (dist id) = false) -> graph_ok n g -> graph_ok n g' ->
  (forall id l l', point_matches lc filters id -> nth_error g id = Some l -> nth_error g' id = Some l' -> same_among (point_matches lc filters) l l') ->
  (forall x id, In x filters -> medoid_of medoids x = Some id -> id < n /\ point_matches lc filters id) ->
  vamana_search sortf (mkI n tags lc medoids start g) dist L k filters ind dst = vamana_search sortf (mkI n tags lc' medoids start' g') dist' L k filters ind dst.
Proof.
  intros sortf n tags lc lc' medoids start start' g g' dist dist' L k filters ind dst Hs HL Hf A N G G' E M. unfold vamana_search. cbn [ix_n ix_tags ix_labels ix_graph].
  assert (V : forall s lcx gx, vamana_init_ids (mkI n tags lcx medoids s gx) filters = filter_starts medoids filters) by (intros s lcx gx; destruct filters; [now elim Hf|reflexivity]). rewrite !V.
  pose proof A as [Sf [H [H' Q]]]. set (acc := acc_of lc filters).
  assert (T : tests n (passes_filter lc filters) acc) by (intros id Hid; apply (acc_ok n lc filters id H Sf Hid)).
  assert (T' : tests n (passes_filter lc' filters) acc) by (intros id Hid; unfold acc; rewrite <- (agree_acc n filters lc lc' dist dist' id A Hid); apply (acc_ok n lc' filters id H' Sf Hid)).
  assert (PM : forall id, id < n -> (acc id = true <-> point_matches lc filters id)) by (intros id Hid; apply (acc_ok n lc filters id H Sf Hid)).
  set (dist0 := fun id => if (id <? n) && acc id then dist id else f32_zero).
  assert (N0 : forall id, is_nan (dist0 id) = false).
  { intros id. unfold dist0. destruct (Nat.ltb_spec id n) as [Hid|Hid]; [|reflexivity]. destruct (acc id) eqn:Qa; [|reflexivity]. apply (N id Hid). now apply PM. }
  assert (D0 : forall id, id < n -> acc id = true -> dist0 id = dist id) by (intros id Hid Qa; unfold dist0; rewrite (proj2 (Nat.ltb_lt id n) Hid), Qa; reflexivity).
  assert (D1 : forall id, id < n -> acc id = true -> dist0 id = dist' id) by (intros id Hid Qa; rewrite (D0 id Hid Qa); apply (Q id Hid); now apply PM).
  assert (St : forall fs, (forall x, In x fs -> In x filters) -> forall id, In id (filter_starts medoids fs) -> id < n /\ acc id = true).
  { induction fs as [|x fs IH]; intros Hx id Hid; [destruct Hid|]. cbn [filter_starts] in Hid. destruct (medoid_of medoids x) as [y|] eqn:Y.
    - destruct Hid as [<-|Hid]; [destruct (M x y (Hx x (or_introl eq_refl)) Y) as [Hn Hm]; split; [exact Hn|now apply PM]|]. apply IH; [|exact Hid]. intros z Hz. apply Hx. now right.
    - apply IH; [|exact Hid]. intros z Hz. apply Hx. now right. }
  assert (Ga : forall id l, nth_error g id = Some l -> id < n) by (intros id l El; destruct G as [<- _]; apply nth_error_Some; now rewrite El).
  assert (SE : same_edges acc g g').
  { intros id l l' Qa El El'. apply (same_weaken (point_matches lc filters)); [apply (E id l l'); [apply PM; [exact (Ga id l El)|exact Qa]|exact El|exact El']|].
    intros x Hx Qx. apply PM; [|exact Qx]. destruct Hx as [Hx|Hx]; [exact (proj2 G id l x El Hx)|exact (proj2 G' id l' x El' Hx)]. }
  assert (SS : same_edges acc g g) by (intros id l l' _ El El'; rewrite El in El'; injection El' as <-; apply same_refl).
  rewrite <- (greedy_same sortf n acc (passes_filter lc filters) (passes_filter lc filters) dist0 dist L g g (filter_starts medoids filters) Hs HL T T D0 N0 G G SS (St filters (fun x h => h))).
  rewrite <- (greedy_same sortf n acc (passes_filter lc filters) (passes_filter lc' filters) dist0 dist' L g g' (filter_starts medoids filters) Hs HL T T' D1 N0 G G' SE (St filters (fun x h => h))).
  reflexivity.
Qed.
