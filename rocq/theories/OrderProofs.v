(** * Runs on related distances do the same. *)
From Coq Require Import String List Arith Lia Bool.
From Verif Require Import Base Float32 PoolModel GreedyModel SearchModel HnswModel FlatModel ListLemmas OrderSpec.
Import ListNotations.

(** The same outcome, with related values. *)
Definition res_rel {A B : Type} (P : A -> B -> Prop) (r : res A) (r' : res B) : Prop :=
  match r, r' with
  | Ok a, Ok b => P a b
  | UB, UB | Throw, Throw | Exit, Exit | Fuel, Fuel => True
  | _, _ => False
  end.

Lemma bind_rel : forall (A B C D : Type) (P : A -> B -> Prop) (Q : C -> D -> Prop) r r' f f',
  res_rel P r r' -> (forall a b, P a b -> res_rel Q (f a) (f' b)) -> res_rel Q (bind r f) (bind r' f').
Proof. intros A B C D P Q r r' f f' H K. destruct r, r'; cbn in *; try contradiction; auto. Qed.

Lemma same_rel : forall (A : Type) (r : res A), res_rel eq r r.
Proof. intros A [a| | | |]; cbn; auto. Qed.

Lemma rel_eq : forall (A : Type) (r r' : res A), res_rel eq r r' -> r = r'.
Proof. intros A r r' H. destruct r, r'; cbn in H; try contradiction; congruence. Qed.

Lemma rel_impl : forall (A B : Type) (P Q : A -> B -> Prop) r r', (forall a b, P a b -> Q a b) -> res_rel P r r' -> res_rel Q r r'.
Proof. intros A B P Q r r' H K. destruct r, r'; cbn in *; auto. Qed.

(** Lists *)
Lemma all2_length : forall (A B : Type) (P : A -> B -> Prop) l l', Forall2 P l l' -> length l = length l'.
Proof. intros A B P l l' H. induction H; cbn; congruence. Qed.

Lemma rd_rel : forall (A B : Type) (P : A -> B -> Prop) l l', Forall2 P l l' -> forall i, res_rel P (rd l i) (rd l' i).
Proof.
  intros A B P l l' H. unfold rd. induction H as [|a b l l' Hab _ IH]; intros [|i]; cbn [nth_error]; try exact I; [exact Hab|apply IH].
Qed.

Lemma firstn_rel : forall (A B : Type) (P : A -> B -> Prop) l l', Forall2 P l l' -> forall k, Forall2 P (firstn k l) (firstn k l').
Proof. intros A B P l l' H. induction H; intros [|k]; cbn; auto. Qed.

Lemma skipn_rel : forall (A B : Type) (P : A -> B -> Prop) l l', Forall2 P l l' -> forall k, Forall2 P (skipn k l) (skipn k l').
Proof. intros A B P l l' H. induction H; intros [|k]; cbn; auto. Qed.

Lemma wr_rel : forall (A B : Type) (P : A -> B -> Prop) l l' i x y, Forall2 P l l' -> P x y -> res_rel (Forall2 P) (wr l i x) (wr l' i y).
Proof.
  intros A B P l l' i x y H Hxy. unfold wr. rewrite (all2_length _ _ _ _ _ H). destruct (i <? length l'); cbn [res_rel]; [|exact I].
  apply Forall2_app; [apply firstn_rel; exact H|]. constructor; [exact Hxy|apply skipn_rel; exact H].
Qed.

Lemma repeat_rel : forall (A B : Type) (P : A -> B -> Prop) x y k, P x y -> Forall2 P (repeat x k) (repeat y k).
Proof. intros A B P x y k H. induction k; cbn; auto. Qed.

Lemma same_list : forall (A : Type) (l : list A), Forall2 eq l l.
Proof. intros A l. induction l; auto. Qed.

(** The two measures: points below [n] and the default entry. *)
Definition sides (R : f32 -> f32 -> Prop) (n : nat) (dist dist' : nat -> f32) : Prop :=
  alike R /\ R FLT_MAX FLT_MAX /\ forall id, id < n -> R (dist id) (dist' id).

Lemma fgt_rel : forall R a a' b b', alike R -> R a a' -> R b b' -> fgt a b = fgt a' b'.
Proof. intros R a a' b b' H Ha Hb. apply (H b b' a a' Hb Ha). Qed.

Lemma fge_rel : forall R a a' b b', alike R -> R a a' -> R b b' -> fge a b = fge a' b'.
Proof. intros R a a' b b' H Ha Hb. apply (H b b' a a' Hb Ha). Qed.

Lemma flt_rel : forall R a a' b b', alike R -> R a a' -> R b b' -> flt a b = flt a' b'.
Proof. intros R a a' b b' H Ha Hb. apply (H a a' b b' Ha Hb). Qed.

Lemma memmove_rel : forall R a a' src cnt, Forall2 (nb_rel R) a a' -> res_rel (Forall2 (nb_rel R)) (memmove_up a src cnt) (memmove_up a' src cnt).
Proof.
  intros R a a' src cnt H. unfold memmove_up. rewrite (all2_length _ _ _ _ _ H). destruct (_ <=? _); cbn [res_rel]; [|exact I].
  repeat apply Forall2_app; auto using firstn_rel, skipn_rel.
Qed.

Lemma bsearch_rel : forall R, alike R -> forall fuel a a' nn nn' left right, Forall2 (nb_rel R) a a' -> nb_rel R nn nn' ->
  res_rel eq (bsearch fuel a nn left right) (bsearch fuel a' nn' left right).
Proof.
  intros R HR fuel. induction fuel as [|fuel IH]; intros a a' nn nn' left right H Hn; cbn [bsearch]; [exact I|].
  destruct (_ && _); [|reflexivity].
  apply (bind_rel _ _ _ _ (nb_rel R)); [apply rd_rel; exact H|]. intros m m' Hm.
  rewrite (fgt_rel R _ (ndist m') _ (ndist nn') HR); [|apply Hm|apply Hn]. destruct (fgt _ _); apply IH; assumption.
Qed.

Lemma dup_walk_rel : forall R, alike R -> forall a a' nn nn' left, Forall2 (nb_rel R) a a' -> nb_rel R nn nn' ->
  res_rel eq (dup_walk a nn left) (dup_walk a' nn' left).
Proof.
  intros R HR a a' nn nn' left H Hn. induction left as [|left IH]; cbn [dup_walk]; [reflexivity|].
  apply (bind_rel _ _ _ _ (nb_rel R)); [apply rd_rel; exact H|]. intros m m' Hm.
  rewrite (flt_rel R _ (ndist m') _ (ndist nn') HR); [|apply Hm|apply Hn]. destruct (flt _ _); [reflexivity|].
  rewrite (proj1 Hm), (proj1 Hn). destruct (_ =? _); [reflexivity|exact IH].
Qed.

Lemma insert_rel : forall R, alike R -> forall a a' K nn nn', Forall2 (nb_rel R) a a' -> nb_rel R nn nn' ->
  res_rel (fun x y => Forall2 (nb_rel R) (fst x) (fst y) /\ snd x = snd y) (insert_into_pool a K nn) (insert_into_pool a' K nn').
Proof.
  intros R HR a a' K nn nn' H Hn. unfold insert_into_pool.
  apply (bind_rel _ _ _ _ (nb_rel R)); [apply rd_rel; exact H|]. intros x0 x0' H0.
  rewrite (fgt_rel R _ (ndist x0') _ (ndist nn') HR); [|apply H0|apply Hn]. destruct (fgt _ _).
  - apply (bind_rel _ _ _ _ (Forall2 (nb_rel R))); [apply memmove_rel; exact H|]. intros a1 a1' H1.
    apply (bind_rel _ _ _ _ (Forall2 (nb_rel R))); [apply wr_rel; assumption|]. intros a2 a2' H2. cbn. auto.
  - destruct K as [|right0]; [exact I|].
    apply (bind_rel _ _ _ _ (nb_rel R)); [apply rd_rel; exact H|]. intros x1 x1' H1.
    rewrite (flt_rel R _ (ndist x1') _ (ndist nn') HR); [|apply H1|apply Hn]. destruct (flt _ _).
    + apply (bind_rel _ _ _ _ (Forall2 (nb_rel R))); [apply wr_rel; assumption|]. intros a2 a2' H2. cbn. auto.
    + apply (bind_rel _ _ _ _ eq); [apply (bsearch_rel R); assumption|]. intros [left right] ? <-.
      apply (bind_rel _ _ _ _ eq); [apply (dup_walk_rel R); assumption|]. intros w ? <-.
      destruct w as [left1|]; [|cbn; auto].
      apply (bind_rel _ _ _ _ (nb_rel R)); [apply rd_rel; exact H|]. intros xl xl' Hl.
      apply (bind_rel _ _ _ _ (nb_rel R)); [apply rd_rel; exact H|]. intros xr xr' Hr.
      rewrite (proj1 Hl), (proj1 Hr), (proj1 Hn). destruct (_ || _); [cbn; auto|].
      apply (bind_rel _ _ _ _ (Forall2 (nb_rel R))); [apply memmove_rel; exact H|]. intros a1 a1' Ha1.
      apply (bind_rel _ _ _ _ (Forall2 (nb_rel R))); [apply wr_rel; assumption|]. intros a2 a2' H2. cbn. auto.
Qed.

Definition pool_rel (R : f32 -> f32 -> Prop) (p p' : pool_state) : Prop :=
  Forall2 (nb_rel R) (p_arr p) (p_arr p') /\ p_cur p = p_cur p' /\ p_ins p = p_ins p' /\ p_cmps p = p_cmps p' /\ p_best p = p_best p'.

Lemma process_one_rel : forall R n dist dist' accept m p p' id, sides R n dist dist' -> pool_rel R p p' ->
  res_rel (pool_rel R) (process_one n dist accept m p id) (process_one n dist' accept m p' id).
Proof.
  intros R n dist dist' accept m [a c i k b] [a' c' i' k' b'] id [HR [_ Hd]] [Ha [E1 [E2 [E3 E4]]]].
  cbn [p_arr p_cur p_ins p_cmps p_best] in *. subst c' i' k' b'. unfold process_one. cbn [p_arr p_cur p_ins p_cmps p_best].
  apply (bind_rel _ _ _ _ eq); [apply same_rel|]. intros ok ? <-. destruct (negb ok); [repeat split; auto|].
  destruct (set_mem id i); [repeat split; auto|]. cbv zeta.
  apply (bind_rel _ _ _ _ R).
  { destruct (id <? n) eqn:E; [|exact I]. apply Hd. apply Nat.ltb_lt. exact E. }
  intros d d' Hdd.
  apply (bind_rel _ _ _ _ eq).
  { destruct (0 <? c); [|reflexivity]. apply (bind_rel _ _ _ _ (nb_rel R)); [apply rd_rel; exact Ha|]. intros w w' Hw.
    cbn [res_rel]. f_equal. apply (fge_rel R); [exact HR|exact Hdd|apply Hw]. }
  intros skip ? <-. destruct skip; [repeat split; auto|].
  apply (bind_rel _ _ _ _ (fun x y => Forall2 (nb_rel R) (fst x) (fst y) /\ snd x = snd y)).
  { apply (insert_rel R HR); [exact Ha|]. repeat split. exact Hdd. }
  intros [a1 r] [a1' r'] [H1 H2]. cbn [fst snd] in *. subst r'. repeat split; auto.
Qed.

Lemma process_loop_rel : forall R n dist dist' accept m, sides R n dist dist' -> forall cands p p', pool_rel R p p' ->
  res_rel (pool_rel R) (process_loop n dist accept m p cands) (process_loop n dist' accept m p' cands).
Proof.
  intros R n dist dist' accept m HS cands. induction cands as [|id cands IH]; intros p p' H; cbn [process_loop]; [exact H|].
  apply (bind_rel _ _ _ _ (pool_rel R)); [apply process_one_rel; assumption|]. exact IH.
Qed.

Lemma process_rel : forall R n dist dist' accept m cands p p', sides R n dist dist' -> pool_rel R p p' ->
  res_rel (pool_rel R) (process_candidates n dist accept m p cands) (process_candidates n dist' accept m p' cands).
Proof.
  intros R n dist dist' accept m cands p p' HS [Ha [E1 [E2 [E3 E4]]]]. apply process_loop_rel; [exact HS|].
  rewrite E1, E2, E3. repeat split; auto.
Qed.

(** ** Greedy search *)
Definition g_rel (R : f32 -> f32 -> Prop) (s s' : gstate) : Prop :=
  pool_rel R (g_pool s) (g_pool s') /\ g_k s = g_k s' /\ Forall2 (nb_rel R) (g_exp s) (g_exp s') /\ g_hops s = g_hops s'.

Lemma init_loop_rel : forall R n dist dist' L, sides R n dist dist' -> forall ids arr arr' l ins, Forall2 (nb_rel R) arr arr' ->
  res_rel (fun x y => Forall2 (nb_rel R) (fst (fst x)) (fst (fst y)) /\ snd (fst x) = snd (fst y) /\ snd x = snd y)
    (init_loop n dist L arr l ins ids) (init_loop n dist' L arr' l ins ids).
Proof.
  intros R n dist dist' L [HR [_ Hd]] ids. induction ids as [|id ids IH]; intros arr arr' l ins H; cbn [init_loop]; [repeat split; auto|].
  apply (bind_rel _ _ _ _ R).
  { destruct (id <? n) eqn:E; [|exact I]. apply Hd. apply Nat.ltb_lt. exact E. }
  intros d d' Hdd.
  apply (bind_rel _ _ _ _ (fun x y => Forall2 (nb_rel R) (fst (fst x)) (fst (fst y)) /\ snd (fst x) = snd (fst y) /\ snd x = snd y)).
  { destruct (set_mem id ins); [repeat split; auto|].
    apply (bind_rel _ _ _ _ (Forall2 (nb_rel R))); [apply wr_rel; [exact H|repeat split; exact Hdd]|]. intros a a' Ha. repeat split; auto. }
  intros [[a l1] i1] [[a' l1'] i1'] [H1 [H2 H3]]. cbn [fst snd] in *. subst l1' i1'. destruct (l1 =? L); [repeat split; auto|]. apply IH. exact H1.
Qed.

Lemma greedy_init_rel : forall R sortf n dist dist' L ids, by_comparisons sortf -> sides R n dist dist' ->
  res_rel (g_rel R) (greedy_init sortf n dist L ids) (greedy_init sortf n dist' L ids).
Proof.
  intros R sortf n dist dist' L ids Hs HS. unfold greedy_init.
  eapply bind_rel; [apply init_loop_rel; [exact HS|]; apply repeat_rel; repeat split; apply HS|].
  intros [[a l] i] [[a' l'] i'] [H1 [H2 H3]]. cbn [fst snd] in *. subst l' i'. repeat split; cbn; auto.
  apply Forall2_app; [|apply skipn_rel; exact H1]. apply Hs; [apply HS|apply firstn_rel; exact H1].
Qed.

Lemma greedy_step_rel : forall R n dist dist' accept L g s s', sides R n dist dist' -> g_rel R s s' ->
  res_rel (g_rel R) (greedy_step n dist accept L g s) (greedy_step n dist' accept L g s').
Proof.
  intros R n dist dist' accept L g [p k e h] [p' k' e' h'] HS [Hp [E1 [He E2]]]. cbn [g_pool g_k g_exp g_hops] in *. subst k' h'.
  unfold greedy_step. cbn [g_pool g_k g_exp g_hops]. destruct Hp as [Ha [F1 [F2 [F3 F4]]]].
  apply (bind_rel _ _ _ _ (nb_rel R)); [apply rd_rel; exact Ha|]. intros x x' Hx. rewrite (proj1 (proj2 Hx)). destruct (nflag x').
  - cbv zeta. assert (Hx' : nb_rel R (mkN (nid x) (ndist x) false) (mkN (nid x') (ndist x') false)) by (repeat split; cbn; apply Hx).
    apply (bind_rel _ _ _ _ (Forall2 (nb_rel R))); [apply wr_rel; assumption|]. intros a1 a1' H1.
    rewrite (proj1 Hx). apply (bind_rel _ _ _ _ eq); [apply same_rel|]. intros des ? <-.
    apply (bind_rel _ _ _ _ (pool_rel R)); [apply process_rel; [exact HS|]; repeat split; auto|]. intros q q' Hq.
    pose proof Hq as [_ [_ [_ [_ Eb]]]]. rewrite Eb. rewrite (proj1 Hx) in Hx'. repeat split; cbn; auto; apply Hq.
  - repeat split; cbn; auto.
Qed.

Lemma running_rel : forall R s s', g_rel R s s' -> greedy_running s = greedy_running s'.
Proof. intros R s s' [[_ [E _]] [E' _]]. unfold greedy_running. congruence. Qed.

Lemma greedy_loop_rel : forall R n dist dist' accept L gs, sides R n dist dist' -> forall fuel i s s', g_rel R s s' ->
  res_rel (g_rel R) (greedy_loop fuel n dist accept L gs i s) (greedy_loop fuel n dist' accept L gs i s').
Proof.
  intros R n dist dist' accept L gs HS fuel. induction fuel as [|fuel IH]; intros i s s' H; cbn [greedy_loop]; rewrite (running_rel R s s' H);
    destruct (greedy_running s'); try exact I; try exact H.
  apply (bind_rel _ _ _ _ (g_rel R)); [apply greedy_step_rel; assumption|]. intros. apply IH. assumption.
Qed.

Lemma greedy_rel : forall R sortf n dist dist' accept L g ids, by_comparisons sortf -> sides R n dist dist' ->
  res_rel (g_rel R) (greedy_search sortf n dist accept L g ids) (greedy_search sortf n dist' accept L g ids).
Proof.
  intros. unfold greedy_search, greedy_search_dyn. apply (bind_rel _ _ _ _ (g_rel R)); [apply greedy_init_rel; assumption|].
  intros. apply greedy_loop_rel; assumption.
Qed.

(** ** Searches: the same tags and counts, related distances. *)
Definition dst_rel (R : f32 -> f32 -> Prop) (x y : f32) : Prop := R x y \/ x = y.

Definition ans_rel (R : f32 -> f32 -> Prop) (x y : list nat * list f32) : Prop := fst x = fst y /\ Forall2 (dst_rel R) (snd x) (snd y).

Lemma report_rel : forall R tags cnt arr arr' i ind dst dst', Forall2 (nb_rel R) arr arr' -> Forall2 (dst_rel R) dst dst' ->
  res_rel (ans_rel R) (report tags arr i cnt ind dst) (report tags arr' i cnt ind dst').
Proof.
  intros R tags cnt. induction cnt as [|cnt IH]; intros arr arr' i ind dst dst' Ha Hd; cbn [report]; [split; [reflexivity|exact Hd]|].
  apply (bind_rel _ _ _ _ (nb_rel R)); [apply rd_rel; exact Ha|]. intros x x' Hx. rewrite (proj1 Hx).
  apply (bind_rel _ _ _ _ eq); [apply same_rel|]. intros t ? <-.
  apply (bind_rel _ _ _ _ eq); [apply same_rel|]. intros ind1 ? <-.
  apply (bind_rel _ _ _ _ (nb_rel R)); [apply rd_rel; exact Ha|]. intros y y' Hy.
  apply (bind_rel _ _ _ _ (Forall2 (dst_rel R))); [apply wr_rel; [exact Hd|left; apply Hy]|]. intros d1 d1' H1. apply IH; assumption.
Qed.

Lemma dst_same : forall R l, Forall2 (dst_rel R) l l.
Proof. intros R l. induction l; constructor; auto. right. reflexivity. Qed.

Definition out_rel (R : f32 -> f32 -> Prop) (x y : list nat * list f32 * nat) : Prop := ans_rel R (fst x) (fst y) /\ snd x = snd y.

Lemma search_rel : forall R sortf n tags dist dist' accept L g ids k ind dst dst', by_comparisons sortf -> sides R n dist dist' -> Forall2 (dst_rel R) dst dst' ->
  res_rel (out_rel R)
    (do st <- greedy_search sortf n dist accept L g ids; do bufs <- report tags (p_arr (g_pool st)) 0 k ind dst; Ok (bufs, min k (p_cur (g_pool st))))
    (do st <- greedy_search sortf n dist' accept L g ids; do bufs <- report tags (p_arr (g_pool st)) 0 k ind dst'; Ok (bufs, min k (p_cur (g_pool st)))).
Proof.
  intros R sortf n tags dist dist' accept L g ids k ind dst dst' Hs HS Hd.
  apply (bind_rel _ _ _ _ (g_rel R)); [apply greedy_rel; assumption|]. intros s s' [[Ha [E _]] _].
  apply (bind_rel _ _ _ _ (ans_rel R)); [apply report_rel; assumption|]. intros b b' Hb. split; [exact Hb|]. cbn. congruence.
Qed.

Lemma vamana_rel : forall R sortf ix dist dist' L k fs ind dst, by_comparisons sortf -> sides R (ix_n ix) dist dist' ->
  res_rel (out_rel R) (vamana_search sortf ix dist L k fs ind dst) (vamana_search sortf ix dist' L k fs ind dst).
Proof. intros. apply search_rel; auto using dst_same. Qed.

Lemma rng_rel : forall R sortf ix dist dist' L k fs ind dst, by_comparisons sortf -> sides R (ix_n ix) dist dist' ->
  res_rel (out_rel R) (rng_search sortf ix dist L k fs ind dst) (rng_search sortf ix dist' L k fs ind dst).
Proof. intros. apply search_rel; auto using dst_same. Qed.

(** Every level of an HNSW object names points of the level above. *)
Fixpoint tags_in (n : nat) (levels : hnsw) : Prop :=
  match levels with
  | [] => True
  | ix :: inner => ix_n ix <= n /\ match inner with [] => True | inn :: _ => (forall i, i < ix_n inn -> nth i (ix_tags inn) 0 < ix_n ix) end /\ tags_in (match inner with [] => 0 | inn :: _ => ix_n inn end) inner
  end.

Lemma hnsw_rel : forall R sortf, by_comparisons sortf -> forall levels dist dist' L k fs ind dst,
  alike R -> R FLT_MAX FLT_MAX -> (forall ix inner, levels = ix :: inner -> forall id, id < ix_n ix -> R (dist id) (dist' id)) ->
  tags_in (match levels with [] => 0 | ix :: _ => ix_n ix end) levels ->
  res_rel (out_rel R) (hnsw_search sortf levels dist L k fs ind dst) (hnsw_search sortf levels dist' L k fs ind dst).
Proof.
  intros R sortf Hs levels. induction levels as [|ix inner IH]; intros dist dist' L k fs ind dst HR HM Hd Ht; cbn [hnsw_search]; [exact I|].
  cbn [tags_in] in Ht. destruct Ht as [_ [Ht Hin]].
  apply (bind_rel _ _ _ _ eq).
  - destruct inner as [|inn rest]; [reflexivity|].
    apply (bind_rel _ _ _ _ (out_rel R)).
    + apply IH; auto. intros ix' in' E id Hid. injection E as <- <-. unfold inner_dist. apply (Hd ix (inn :: rest) eq_refl). apply Ht. exact Hid.
    + intros [[a b] c] [[a' b'] c'] [[H1 _] H2]. cbn in *. congruence.
  - intros init ? <-. apply search_rel; [exact Hs| |apply dst_same]. split; [exact HR|]. split; [exact HM|]. apply (Hd ix inner eq_refl).
Qed.
