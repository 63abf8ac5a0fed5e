(** * A graph search depends on the points it compares and the lists it expands. *)
From Coq Require Import NArith String List Arith Lia Bool.
From Verif Require Import Base Float32 PoolModel PoolProofs FilterSpec SortSpec GraphSpec GreedyModel GreedyProofs SearchModel LocalSpec.
Import ListNotations.

Lemma set_mem_in : forall x s, set_mem x s = true -> In x s.
Proof. intros x s H. unfold set_mem in H. apply existsb_exists in H. destruct H as [y [Hy E]]. apply Nat.eqb_eq in E. now subst. Qed.

Lemma one_local : forall n dist dist' accept M st id v, process_one n dist accept M st id = Ok v ->
  incl (p_ins st) (p_ins v) /\ ((forall x, In x (p_ins v) -> dist' x = dist x) -> process_one n dist' accept M st id = Ok v).
Proof.
  intros n dist dist' accept M st id v E. unfold process_one in *. destruct (accept id) as [b| | | |]; try discriminate. cbn [bind] in *. destruct (negb b); [injection E as <-; split; [apply incl_refl|reflexivity]|].
  destruct (set_mem id (p_ins st)); [injection E as <-; split; [apply incl_refl|reflexivity]|]. destruct (id <? n); [|discriminate]. cbn [bind] in *.
  assert (I : p_ins v = id :: p_ins st).
  { destruct (if 0 <? p_cur st then _ else _) as [[|]| | | |]; try discriminate; cbn [bind] in E; [injection E as <-; reflexivity|]. destruct (insert_into_pool _ _ _) as [[a r]| | | |]; try discriminate. cbn [bind] in E. injection E as <-. reflexivity. }
  split; [rewrite I; apply incl_tl, incl_refl|]. intros H. rewrite (H id) by (rewrite I; now left). exact E.
Qed.
Lemma loop_local : forall n dist dist' accept M l st v, process_loop n dist accept M st l = Ok v ->
  incl (p_ins st) (p_ins v) /\ ((forall x, In x (p_ins v) -> dist' x = dist x) -> process_loop n dist' accept M st l = Ok v).
Proof.
  intros n dist dist' accept M l. induction l as [|id l IH]; intros st v E; cbn [process_loop] in *; [injection E as <-; split; [apply incl_refl|reflexivity]|].
  destruct (process_one n dist accept M st id) as [s| | | |] eqn:O; try discriminate. cbn [bind] in E. destruct (one_local n dist dist' accept M st id s O) as [I1 K1]. destruct (IH s v E) as [I2 K2].
  split; [exact (incl_tran I1 I2)|]. intros H. rewrite K1; [cbn [bind]; exact (K2 H)|]. intros x Hx. apply H, I2, Hx.
Qed.

Definition grows (st st' : gstate) : Prop := incl (p_ins (g_pool st)) (p_ins (g_pool st')) /\ incl (g_exp st) (g_exp st').
Lemma same_seen_before : forall dist dist' g g' st st', grows st st' -> same_seen dist dist' g g' st' -> same_seen dist dist' g g' st.
Proof. intros dist dist' g g' st st' [A B] [C D]. split; intros x Hx; [apply C, A, Hx|apply D, B, Hx]. Qed.

Lemma step_local : forall n dist dist' accept L g g' st v, greedy_step n dist accept L g st = Ok v ->
  grows st v /\ (same_seen dist dist' g g' v -> greedy_step n dist' accept L g' st = Ok v).
Proof.
  intros n dist dist' accept L g g' st v E. unfold greedy_step in *. destruct (rd (p_arr (g_pool st)) (g_k st)) as [x| | | |]; try discriminate. cbn [bind] in *.
  destruct (nflag x); [|injection E as <-; split; [split; apply incl_refl|reflexivity]]. destruct (wr (p_arr (g_pool st)) (g_k st) _) as [a| | | |]; try discriminate. cbn [bind] in *.
  unfold rd in *. destruct (nth_error g (nid x)) as [l|] eqn:G; try discriminate. cbn [bind] in *. unfold process_candidates in *.
  destruct (process_loop n dist accept L _ l) as [p| | | |] eqn:P; try discriminate. cbn [bind] in E. injection E as <-. destruct (loop_local n dist dist' accept L l _ p P) as [I K]. cbn [p_ins p_arr p_cur p_cmps] in *.
  split; [split; [exact I|apply incl_tl, incl_refl]|]. intros [C D]. cbn [g_pool g_exp] in *. specialize (D _ (or_introl eq_refl)). cbn [nid] in D. rewrite D, G. cbn [bind]. rewrite (K C). reflexivity.
Qed.
Lemma while_local : forall fuel n dist dist' accept L g g' i st v, greedy_loop fuel n dist accept L (fun _ => g) i st = Ok v ->
  grows st v /\ (same_seen dist dist' g g' v -> greedy_loop fuel n dist' accept L (fun _ => g') i st = Ok v).
Proof.
  induction fuel as [|fuel IH]; intros n dist dist' accept L g g' i st v E; cbn [greedy_loop] in *; destruct (greedy_running st); try discriminate;
    try (injection E as <-; split; [split; apply incl_refl|reflexivity]).
  destruct (greedy_step n dist accept L g st) as [s| | | |] eqn:Q; try discriminate. cbn [bind] in E. destruct (step_local n dist dist' accept L g g' st s Q) as [I1 K1]. destruct (IH n dist dist' accept L g g' (S i) s v E) as [I2 K2].
  split; [destruct I1, I2; split; eapply incl_tran; eassumption|]. intros H. rewrite (K1 (same_seen_before _ _ _ _ _ _ I2 H)). cbn [bind]. exact (K2 H).
Qed.
Lemma init_local : forall n dist dist' L ids arr l ins a k i, init_loop n dist L arr l ins ids = Ok (a, k, i) ->
  incl ins i /\ ((forall x, In x i -> dist' x = dist x) -> init_loop n dist' L arr l ins ids = Ok (a, k, i)).
Proof.
  intros n dist dist' L ids. induction ids as [|id ids IH]; intros arr l ins a k i E; cbn [init_loop] in *; [injection E as <- <- <-; split; [apply incl_refl|reflexivity]|].
  destruct (id <? n); [|discriminate]. cbn [bind] in *. destruct (set_mem id ins) eqn:Q.
  - cbn [bind] in *. destruct (l =? L); [injection E as <- <- <-; split; [apply incl_refl|reflexivity]|]. exact (IH _ _ _ _ _ _ E).
  - destruct (wr arr l (mkN id (dist id) true)) as [arr'| | | |] eqn:W; try discriminate. cbn [bind] in *.
    assert (Z : incl (id :: ins) i /\ ((forall x, In x i -> dist' x = dist x) -> (if S l =? L then Ok (arr', S l, id :: ins) else init_loop n dist' L arr' (S l) (id :: ins) ids) = Ok (a, k, i))).
    { destruct (S l =? L); [injection E as <- <- <-; split; [apply incl_refl|reflexivity]|]. exact (IH _ _ _ _ _ _ E). }
    destruct Z as [I K]. split; [intros x Hx; apply I; now right|]. intros H. rewrite (H id) by (apply I; now left). rewrite W. cbn [bind]. exact (K H).
Qed.

Lemma greedy_local : forall sortf n dist dist' accept L g g' ids st, greedy_search sortf n dist accept L g ids = Ok st -> same_seen dist dist' g g' st ->
  greedy_search sortf n dist' accept L g' ids = Ok st.
Proof.
  intros sortf n dist dist' accept L g g' ids st E H. unfold greedy_search, greedy_search_dyn, greedy_init in *. destruct (init_loop n dist L _ 0 [] ids) as [[[a k] i]| | | |] eqn:Q; try discriminate. cbn [bind] in E.
  destruct (while_local _ n dist dist' accept L g g' 0 _ st E) as [[I J] K]. cbn [g_pool p_ins] in I. destruct (init_local n dist dist' L ids _ 0 [] a k i Q) as [_ K0]. rewrite K0; [cbn [bind]; exact (K H)|].
  intros x Hx. apply (proj1 H). apply I. exact Hx.
Qed.

(** ** Reachable points *)
Lemma tests_ok : forall n lc filters id, filters = [] \/ length (pts_to_labels lc) = n -> id < n -> passes_filter lc filters id = Ok (acc_of lc filters id).
Proof.
  intros n lc filters id H Hid. unfold acc_of. destruct filters as [|x t]; [reflexivity|]. destruct H as [H|H]; [discriminate|]. unfold passes_filter, rd.
  destruct (nth_error (pts_to_labels lc) id) as [ls|] eqn:E; [reflexivity|apply nth_error_None in E; lia].
Qed.
Lemma search_reach : forall sortf n dist dist' lc filters L g g' ids, sorts sortf -> 1 <= L -> (forall id, is_nan (dist id) = false) -> filters = [] \/ length (pts_to_labels lc) = n -> graph_ok n g ->
  (forall id, In id ids -> id < n) -> (forall x, reach (acc_of lc filters) g (fun y => In y ids) x -> dist' x = dist x /\ nth_error g' x = nth_error g x) ->
  greedy_search sortf n dist' (passes_filter lc filters) L g' ids = greedy_search sortf n dist (passes_filter lc filters) L g ids.
Proof.
  intros sortf n dist dist' lc filters L g g' ids Hs HL N Hl G Hi H.
  destruct (greedy_dyn_ok sortf n dist (passes_filter lc filters) (acc_of lc filters) L (fun _ => g) ids Hs HL N (fun id h => tests_ok n lc filters id Hl h) (fun _ => G) Hi) as [st0 [st [E0 [E [I [_ [R [_ [_ [Hin _]]]]]]]]]].
  change (greedy_search sortf n dist (passes_filter lc filters) L g ids = Ok st) in E. rewrite E. apply (greedy_local sortf n dist dist' _ L g g' ids st E).
  assert (Q : forall x, In x (p_ins (g_pool st)) -> reach (acc_of lc filters) g (fun y => In y ids) x).
  { intros x Hx. apply (reach_weaken _ _ (fun y => In y (p_ins (g_pool st0)))); [exact Hin|]. exact (run_reach _ _ _ _ _ R x Hx). }
  split; intros x Hx; [apply H, Q, Hx|]. apply H, Q. exact (proj1 (gi_exp _ _ _ _ _ I x Hx)).
Qed.
Lemma starts_lt : forall ix filters id, index_ok ix -> In id (vamana_init_ids ix filters) -> id < ix_n ix.
Proof.
  intros ix filters id [_ [_ [_ [Hst Hm]]]] H. unfold vamana_init_ids in H. destruct filters as [|y t]; [destruct H as [<-|[]]; exact Hst|]. revert H. generalize (y :: t) as fs. clear y t.
  assert (M : forall m x v, medoid_of m x = Some v -> exists z, In (z, v) m).
  { induction m as [|[z w] m IH]; intros x v Q; [discriminate|]. cbn [medoid_of] in Q. destruct (String.eqb x z); [injection Q as <-; exists z; now left|]. destruct (IH x v Q) as [u Hu]. exists u. now right. }
  induction fs as [|x fs IH]; intros H; [destruct H|]. cbn [filter_starts] in H. destruct (medoid_of (ix_medoids ix) x) as [v|] eqn:Q; [|exact (IH H)]. destruct H as [<-|H]; [|exact (IH H)].
  destruct (M _ _ _ Q) as [z Hz]. exact (Hm z v Hz).
Qed.

Lemma vamana_reach : forall sortf ix dist dist' g' L k filters ind dst, sorts sortf -> 1 <= L -> index_ok ix -> (forall id, is_nan (dist id) = false) -> filters = [] \/ length (pts_to_labels (ix_labels ix)) = ix_n ix ->
  (forall x, reach (acc_of (ix_labels ix) filters) (ix_graph ix) (fun y => In y (vamana_init_ids ix filters)) x -> dist' x = dist x /\ nth_error g' x = nth_error (ix_graph ix) x) ->
  vamana_search sortf (mkI (ix_n ix) (ix_tags ix) (ix_labels ix) (ix_medoids ix) (ix_start ix) g') dist' L k filters ind dst = vamana_search sortf ix dist L k filters ind dst.
Proof.
  intros sortf ix dist dist' g' L k filters ind dst Hs HL Hok N Hl H. unfold vamana_search. cbn [ix_n ix_tags ix_labels ix_medoids ix_start ix_graph].
  change (vamana_init_ids (mkI (ix_n ix) (ix_tags ix) (ix_labels ix) (ix_medoids ix) (ix_start ix) g') filters) with (vamana_init_ids ix filters).
  rewrite (search_reach sortf (ix_n ix) dist dist' (ix_labels ix) filters L (ix_graph ix) g' (vamana_init_ids ix filters)); auto; [apply Hok|]. intros id Hid. exact (starts_lt ix filters id Hok Hid).
Qed.
Lemma rng_reach : forall sortf ix dist dist' g' L k filters ind dst, sorts sortf -> 1 <= L -> index_ok ix -> (forall id, is_nan (dist id) = false) ->
  (forall x, reach (fun _ => true) (ix_graph ix) (fun y => y = ix_start ix) x -> dist' x = dist x /\ nth_error g' x = nth_error (ix_graph ix) x) ->
  rng_search sortf (mkI (ix_n ix) (ix_tags ix) (ix_labels ix) (ix_medoids ix) (ix_start ix) g') dist' L k filters ind dst = rng_search sortf ix dist L k filters ind dst.
Proof.
  intros sortf ix dist dist' g' L k filters ind dst Hs HL Hok N H. unfold rng_search. cbn [ix_n ix_tags ix_labels ix_start ix_graph].
  rewrite (search_reach sortf (ix_n ix) dist dist' (ix_labels ix) [] L (ix_graph ix) g' [ix_start ix]); auto; [apply Hok|intros id [<-|[]]; apply Hok|].
  intros x Hx. apply H. apply (reach_weaken _ _ (fun y => In y [ix_start ix])); [intros y [<-|[]]; reflexivity|]. exact Hx.
Qed.
