(** * IVF, LSH and exact search on reordered data. *)
From Coq Require Import String List Arith Lia Bool NArith Sorting.Sorted Sorting.Permutation.
From Verif Require Import Base ListLemmas Float32 PoolModel SortSpec TopKSpec GraphSpec GreedyModel SearchSpec SearchModel SearchProofs AcceptProofs PoolProofs2 ClosestModel ClosestSpec FlatModel FlatSpec FlatProofs IvfModel IvfProofs
  LshModel LshSpec LshProofs LongerSpec LongerProofs LongerProofs2 RenameSpec RenameProofs.
Import ListNotations.

Lemma score_map : forall p dist dist' l, (forall x, In x l -> dist' (p x) = dist x) -> score dist' (map p l) = map (fun z => (p (fst z), snd z)) (score dist l).
Proof.
  intros p dist dist' l H. unfold score. rewrite !map_map. apply map_ext_in. intros x Hx. cbn. rewrite H by exact Hx. reflexivity.
Qed.

Lemma top_k_ren : forall n p dist dist' k l l' ids ids', renumbering n p -> (forall x, x < n -> dist' (p x) = dist x) -> no_ties n dist ->
  NoDup l -> NoDup l' -> (forall x, In x l -> x < n) -> (forall y, In y l' <-> exists x, In x l /\ p x = y) ->
  is_top_k k (score dist l) (score dist ids) -> is_top_k k (score dist' l') (score dist' ids') -> ids' = map p ids.
Proof.
  intros n p dist dist' k l l' ids ids' Hp Hd T Nl Nl' Hb Hin H H'.
  assert (Hi : forall x, In x ids -> In x l).
  { intros x Hx. destruct H as [r [P _]]. assert (X : In (x, dist x) (score dist l)).
    { apply (Permutation_in _ (Permutation_sym P)). apply in_app_iff. left. unfold score. apply in_map_iff. exists x. auto. }
    unfold score in X. apply in_map_iff in X. destruct X as [y [E Hy]]. injection E as -> _. exact Hy. }
  assert (Pl : Permutation (map p l) l').
  { apply NoDup_Permutation; [|exact Nl'|].
    - clear - Nl Hb Hp. induction l as [|a l IH]; cbn; [constructor|]. inversion Nl. subst. constructor.
      + intros C. apply in_map_iff in C. destruct C as [b [E Hb']]. apply Hp in E; [subst; auto|apply Hb; right; exact Hb'|apply Hb; left; reflexivity].
      + apply IH; auto. intros y Hy. apply Hb. right. exact Hy.
    - intros y. rewrite in_map_iff. rewrite Hin. split; intros [x [A B]]; exists x; auto. }
  assert (H2 : is_top_k k (score dist' l') (score dist' (map p ids))).
  { destruct H as [r [P [Hl [Hs Hf]]]].
    exists (map (fun z => (p (fst z), snd z)) r).
    assert (E1 : score dist' (map p ids) = map (fun z => (p (fst z), snd z)) (score dist ids)) by (apply score_map; intros x Hx; apply Hd; apply Hb; apply Hi; exact Hx).
    rewrite E1, <- map_app. split; [|split; [|split]].
    - transitivity (score dist' (map p l)); [unfold score; apply Permutation_map; symmetry; exact Pl|].
      rewrite (score_map p dist) by (intros x Hx; apply Hd; apply Hb; exact Hx). apply Permutation_map. exact P.
    - refine (eq_trans (map_length _ _) (eq_trans Hl _)). unfold score. rewrite !map_length. f_equal. rewrite <- (Permutation_length Pl). symmetry. apply map_length.
    - unfold by_distance in *. clear - Hs. induction Hs as [|a l H IH F]; cbn; constructor; auto. rewrite Forall_forall in *. intros y Hy. apply in_map_iff in Hy. destruct Hy as [z [<- Hz]].
      unfold no_farther. cbn. apply F. exact Hz.
    - intros x y Hx Hy. apply in_map_iff in Hx. destruct Hx as [u [<- Hu]]. apply in_map_iff in Hy. destruct Hy as [v [<- Hv]]. unfold no_farther. cbn. apply (Hf u v); assumption. }
  apply (score_inj dist'). apply (top_k_unique k (score dist' l')); auto.
  - apply score_NoDup. exact Nl'.
  - intros u v Hu Hv F1 F2. unfold score in Hu, Hv. apply in_map_iff in Hu. destruct Hu as [a [<- Ha]]. apply in_map_iff in Hv. destruct Hv as [b [<- Hb']].
    apply Hin in Ha. destruct Ha as [x [Hx <-]]. apply Hin in Hb'. destruct Hb' as [y [Hy <-]]. unfold no_farther in F1, F2. cbn in F1, F2.
    rewrite !Hd in F1, F2 by (apply Hb; assumption). assert (x = y) by (apply T; auto; apply fle_both; assumption). subst. reflexivity.
Qed.

(** Any exact search: the ids of the answers are renumbered. *)
Lemma exact_renumbered : forall n p dist dist' k ids ids', renumbering n p -> (forall x, x < n -> dist' (p x) = dist x) -> no_ties n dist ->
  is_top_k k (score dist (seq 0 n)) (score dist ids) -> is_top_k k (score dist' (seq 0 n)) (score dist' ids') -> ids' = map p ids.
Proof.
  intros n p dist dist' k ids ids' Hp Hd T H H'. apply (top_k_ren n p dist dist' k (seq 0 n) (seq 0 n)); auto; try apply seq_NoDup.
  - intros x Hx. apply in_seq in Hx. lia.
  - intros y. rewrite in_seq. split.
    + intros Hy. destruct (renumbering_onto n p y Hp) as [x [Hx E]]; [lia|]. exists x. split; [apply in_seq; lia|exact E].
    + intros [x [Hx <-]]. apply in_seq in Hx. split; [lia|]. cbn. apply Hp. lia.
Qed.

Lemma acc_ren : forall n p lc lc' fs x, universal_label lc' = universal_label lc -> use_universal_label lc' = use_universal_label lc ->
  (fs = [] \/ moved n p (pts_to_labels lc) (pts_to_labels lc')) -> x < n -> acc_of lc' fs (p x) = acc_of lc fs x.
Proof. intros n p lc lc' fs x H1 H2 H3 Hx. unfold acc_of. rewrite (passes_ren n p lc lc' fs x) by assumption. reflexivity. Qed.

Lemma holds_ren : forall p dist dist' ids ind i ind2 i2 dst d dst2 d2, (forall x, In x ids -> dist' (p x) = dist x) ->
  holds dist ids ind i dst d -> holds dist' (map p ids) ind2 i2 dst2 d2 ->
  firstn (length ids) i2 = map p (firstn (length ids) i) /\
  (forall e e2, d = Some e -> d2 = Some e2 -> firstn (length ids) e2 = firstn (length ids) e).
Proof.
  intros p dist dist' ids ind i ind2 i2 dst d dst2 d2 Hd [_ [H1 H2]] [_ [H3 H4]]. rewrite map_length in H3, H4. split; [rewrite H1; exact H3|].
  intros e e2 -> ->. destruct dst as [a|]; [|destruct H2]. destruct dst2 as [b|]; [|destruct H4]. destruct H2 as [_ H2]. destruct H4 as [_ H4].
  rewrite H2, H4, map_map. apply map_ext_in. exact Hd.
Qed.

Lemma ivf_renumbered : forall popf mbs p ix ix' cdist dist dist' probe m filters indices distances indices' distances',
  pops popf -> 1 <= mbs -> ivf_ok ix -> ivf_n ix' = ivf_n ix -> ivf_nc ix' = ivf_nc ix -> renumbering (ivf_n ix) p ->
  Forall2 (fun l l' => forall y, In y l' <-> exists x, In x l /\ p x = y) (ivf_inv ix) (ivf_inv ix') ->
  universal_label (ivf_labels ix') = universal_label (ivf_labels ix) -> use_universal_label (ivf_labels ix') = use_universal_label (ivf_labels ix) ->
  (filters = [] \/ moved (ivf_n ix) p (pts_to_labels (ivf_labels ix)) (pts_to_labels (ivf_labels ix'))) ->
  probe <= ivf_nc ix -> 1 <= m ->
  (forall c, is_nan (cdist c) = false) -> no_ties (ivf_nc ix) cdist -> (exists c, c < ivf_nc ix /\ flt (cdist c) FLT_MAX = true) ->
  finite_distances (ivf_n ix) dist -> finite_distances (ivf_n ix) dist' -> (forall x, x < ivf_n ix -> dist' (p x) = dist x) -> no_ties (ivf_n ix) dist ->
  room m indices distances -> room m indices' distances' ->
  exists i d i' d' c w,
    ivf_search popf mbs ix cdist dist probe m filters indices distances = Ok (i, d, c, w) /\
    ivf_search popf mbs ix' cdist dist' probe m filters indices' distances' = Ok (i', d', c, w) /\
    c <= m /\ firstn c i' = map p (firstn c i) /\ (forall e e', d = Some e -> d' = Some e' -> firstn c e' = firstn c e).
Proof.
  intros popf mbs p ix ix' cdist dist dist' pr m fs ind dst ind' dst' Hp Hmb Hok En Enc Hpm HF U1 U2 Hfl Hpr Hm Hcn Tc Hfar Hd Hd' Hdd T Hr Hr'.
  assert (HFl : length (ivf_inv ix') = length (ivf_inv ix)) by (clear - HF; induction HF; cbn; congruence).
  assert (Hnth : forall c y, c < ivf_nc ix -> In y (nth c (ivf_inv ix') []) <-> exists x, In x (nth c (ivf_inv ix) []) /\ p x = y).
  { clear - HF Hok. intros c y Hc. destruct Hok as [Hl _]. rewrite <- Hl in Hc. clear Hl. revert c Hc. induction HF as [|l l' a b H HF IH]; intros c Hc; cbn in Hc; [lia|].
    destruct c as [|c]; cbn; [apply H|]. apply IH. lia. }
  assert (Hok' : ivf_ok ix').
  { destruct Hok as [Hl Hb]. split; [rewrite HFl, Hl; auto|]. intros l id Hl' Hid. apply (In_nth _ _ []) in Hl'. destruct Hl' as [c [Hc <-]].
    rewrite HFl, Hl in Hc. apply Hnth in Hid; [|exact Hc]. destruct Hid as [x [Hx <-]]. rewrite En. apply Hpm. eapply Hb; [|exact Hx]. apply nth_In. lia. }
  assert (Hlen : fs = [] \/ length (pts_to_labels (ivf_labels ix)) = ivf_n ix) by (destruct Hfl as [->|[X _]]; auto).
  assert (Hlen' : fs = [] \/ length (pts_to_labels (ivf_labels ix')) = ivf_n ix') by (destruct Hfl as [->|[_ [X _]]]; [auto|right; rewrite En; exact X]).
  unfold ivf_search.
  destruct (ivf_candidates_ok popf mbs ix cdist pr Hp Hmb Hpr (proj1 Hok) Hcn Hfar) as [P [A1 [A2 [A3 [A4 A5]]]]].
  destruct (ivf_candidates_ok popf mbs ix' cdist pr Hp Hmb) as [P' [B1 [B2 [B3 [B4 B5]]]]]; try (rewrite Enc; assumption); try apply Hok'; auto.
  rewrite Enc in *.
  assert (EP : P' = P).
  { apply (score_inj cdist). apply (top_k_unique pr (score cdist (seq 0 (ivf_nc ix)))); auto.
    - apply score_NoDup. apply seq_NoDup.
    - intros u v Hu Hv F1 F2. unfold score in Hu, Hv. apply in_map_iff in Hu. destruct Hu as [a [<- Ha]]. apply in_map_iff in Hv. destruct Hv as [b [<- Hb]].
      apply in_seq in Ha. apply in_seq in Hb. unfold no_farther in *. cbn [snd] in *. assert (a = b); [|subst; reflexivity]. apply Tc; try lia. apply fle_both; assumption. }
  subst P'. rewrite A5, B5. cbn [bind].
  set (cands := concat (map (fun c => nth c (ivf_inv ix) []) P)). set (cands' := concat (map (fun c => nth c (ivf_inv ix') []) P)).
  assert (Hc : forall x, In x cands -> x < ivf_n ix).
  { intros x H. unfold cands in H. apply in_concat in H. destruct H as [l [H1 H2]]. apply in_map_iff in H1. destruct H1 as [c [<- Hc]].
    apply (proj2 Hok (nth c (ivf_inv ix) [])); auto. apply nth_In. rewrite (proj1 Hok). auto. }
  assert (Hc2 : forall y, In y cands' <-> exists x, In x cands /\ p x = y).
  { intros y. unfold cands, cands'. rewrite in_concat. split.
    - intros [l [H1 H2]]. apply in_map_iff in H1. destruct H1 as [c [<- Hc1]]. apply Hnth in H2; [|auto]. destruct H2 as [x [Hx E]]. exists x. split; [|exact E].
      apply in_concat. exists (nth c (ivf_inv ix) []). split; [apply in_map_iff; exists c; auto|exact Hx].
    - intros [x [Hx E]]. apply in_concat in Hx. destruct Hx as [l [H1 H2]]. apply in_map_iff in H1. destruct H1 as [c [<- Hc1]]. exists (nth c (ivf_inv ix') []).
      split; [apply in_map_iff; exists c; auto|]. apply Hnth; [auto|]. exists x. auto. }
  assert (Hc' : forall y, In y cands' -> y < ivf_n ix) by (intros y Hy; apply Hc2 in Hy; destruct Hy as [x [Hx <-]]; apply Hpm; auto).
  rewrite En in *.
  destruct (flat_search_ok (ivf_n ix) dist (passes_filter (ivf_labels ix) fs) (acc_of (ivf_labels ix) fs) m cands ind dst) as [ids [i [d [E1 [T1 [N1 [F1 H1]]]]]]]; auto.
  { intros id Hid. apply (acc_of_ok _ _ (ivf_n ix)); auto. }
  destruct (flat_search_ok (ivf_n ix) dist' (passes_filter (ivf_labels ix') fs) (acc_of (ivf_labels ix') fs) m cands' ind' dst') as [ids' [i' [d' [E2 [T2 [N2 [F2 H2]]]]]]]; auto.
  { intros id Hid. apply (acc_of_ok _ _ (ivf_n ix)); auto. }
  set (sel := nodup Nat.eq_dec (filter (acc_of (ivf_labels ix) fs) cands)) in *. set (sel' := nodup Nat.eq_dec (filter (acc_of (ivf_labels ix') fs) cands')) in *.
  assert (Hsel : forall y, In y sel' <-> exists x, In x sel /\ p x = y).
  { intros y. unfold sel, sel'. rewrite nodup_In, filter_In, Hc2. split.
    - intros [[x [Hx <-]] Ha]. exists x. split; [|reflexivity]. apply nodup_In. apply filter_In. split; [exact Hx|]. rewrite <- Ha. symmetry. apply (acc_ren (ivf_n ix)); auto.
    - intros [x [Hx <-]]. apply nodup_In in Hx. apply filter_In in Hx. destruct Hx as [Hx Ha]. split; [exists x; auto|]. rewrite <- Ha. apply (acc_ren (ivf_n ix)); auto. }
  assert (Hselb : forall x, In x sel -> x < ivf_n ix) by (intros x Hx; unfold sel in Hx; apply nodup_In in Hx; apply filter_In in Hx; apply Hc; apply Hx).
  assert (Eids : ids' = map p ids).
  { apply (top_k_ren (ivf_n ix) p dist dist' m sel sel'); auto; apply NoDup_nodup. }
  assert (Elen : length sel' = length sel).
  { rewrite <- (map_length p sel). apply Permutation_length. apply NoDup_Permutation; [apply NoDup_nodup| |].
    - assert (NS : NoDup sel) by apply NoDup_nodup. clear - NS Hselb Hpm. induction sel as [|a l IH]; cbn; [constructor|]. inversion NS. subst. constructor.
      + intros C. apply in_map_iff in C. destruct C as [b [E Hb']]. apply Hpm in E; [subst; auto|apply Hselb; right; exact Hb'|apply Hselb; left; reflexivity].
      + apply IH; auto. intros y Hy. apply Hselb. right. exact Hy.
    - intros y. rewrite Hsel, in_map_iff. split; intros [x [A B]]; exists x; auto. }
  subst ids'. rewrite map_length in E2. rewrite Elen in E2.
  exists i, d, i', d', (length ids), (length sel). split; [exact E1|]. split; [exact E2|].
  split. { destruct T1 as [r [_ [Hl _]]]. unfold score in Hl. rewrite map_length in Hl. lia. }
  apply (holds_ren p dist dist' ids ind i ind' i' dst d dst' d'); auto.
  intros x Hx. apply Hdd, Hc. apply F1. exact Hx.
Qed.

Lemma lsh_renumbered : forall dotf p data data' ts planes ix ix0 q dist dist' m filters indices distances indices' distances',
  (ts <= 64)%N -> l_tags ix = seq 0 (l_n ix) -> l_tags ix0 = seq 0 (l_n ix0) -> lsh_new ix -> lsh_new ix0 -> l_n ix0 = l_n ix -> renumbering (l_n ix) p -> 1 <= m ->
  (forall x, x < l_n ix -> data' (p x) = data x) ->
  universal_label (l_labels ix0) = universal_label (l_labels ix) -> use_universal_label (l_labels ix0) = use_universal_label (l_labels ix) ->
  (filters = [] \/ moved (l_n ix) p (pts_to_labels (l_labels ix)) (pts_to_labels (l_labels ix0))) ->
  finite_distances (l_n ix) dist -> finite_distances (l_n ix) dist' -> (forall x, x < l_n ix -> dist' (p x) = dist x) -> no_ties (l_n ix) dist ->
  room m indices distances -> room m indices' distances' ->
  exists a b a' b' i d i' d' c w,
    lsh_build dotf data ts planes ix = Ok a /\ lsh_search dotf a q dist m filters indices distances = Ok ((i, d, c, w), b) /\
    lsh_build dotf data' ts planes ix0 = Ok a' /\ lsh_search dotf a' q dist' m filters indices' distances' = Ok ((i', d', c, w), b') /\
    c <= m /\ firstn c i' = map p (firstn c i) /\ (forall e e', d = Some e -> d' = Some e' -> firstn c e' = firstn c e).
Proof.
  intros dotf p data data' ts planes ix ix0 q dist dist' m fs ind dst ind' dst' Hts Htg Htg0 Hnew Hnew0 En Hpm Hm Hdat U1 U2 Hfl Hd Hd' Hdd T Hr Hr'.
  assert (Hlen : fs = [] \/ length (pts_to_labels (l_labels ix)) = l_n ix) by (destruct Hfl as [->|[X _]]; auto).
  assert (Hlen' : fs = [] \/ length (pts_to_labels (l_labels ix0)) = l_n ix0) by (destruct Hfl as [->|[_ [X _]]]; [auto|right; rewrite En; exact X]).
  destruct (lsh_search_ok dotf data ts planes ix q dist m fs ind dst) as [a [b [cands [ids [i [d [A1 [A2 [A3 [A4 [A5 A6]]]]]]]]]]]; auto.
  destruct (lsh_search_ok dotf data' ts planes ix0 q dist' m fs ind' dst') as [a' [b' [cands' [ids' [i' [d' [B1 [B2 [B3 [B4 [B5 B6]]]]]]]]]]]; auto; try (rewrite En; assumption).
  rewrite En in *.
  assert (Hb : forall x, In x cands -> x < l_n ix) by (intros x Hx; apply A4 in Hx; apply Hx).
  assert (Hsel : forall y, In y cands' <-> exists x, In x cands /\ p x = y).
  { intros y. rewrite B4. split.
    - intros [Hy [Ha Hc]]. destruct (renumbering_onto _ p y Hpm Hy) as [x [Hx <-]]. exists x. split; [|reflexivity]. apply A4. split; [exact Hx|].
      rewrite (acc_ren (l_n ix) p (l_labels ix) (l_labels ix0)) in Ha by assumption. rewrite Hdat in Hc by exact Hx. auto.
    - intros [x [Hx <-]]. apply A4 in Hx. destruct Hx as [Hx [Ha Hc]]. split; [apply Hpm; exact Hx|]. rewrite (acc_ren (l_n ix) p (l_labels ix) (l_labels ix0)) by assumption. rewrite Hdat by exact Hx. auto. }
  assert (Eids : ids' = map p ids) by (apply (top_k_ren (l_n ix) p dist dist' m cands cands'); auto).
  assert (Elen : length cands' = length cands).
  { rewrite <- (map_length p cands). apply Permutation_length. apply NoDup_Permutation; [exact B3| |].
    - clear - A3 Hb Hpm. induction cands as [|x l IH]; cbn; [constructor|]. inversion A3. subst. constructor.
      + intros C. apply in_map_iff in C. destruct C as [y [E Hy]]. apply Hpm in E; [subst; auto|apply Hb; right; exact Hy|apply Hb; left; reflexivity].
      + apply IH; auto. intros y Hy. apply Hb. right. exact Hy.
    - intros y. rewrite Hsel, in_map_iff. split; intros [x [A B]]; exists x; auto. }
  subst ids'. rewrite map_length, Elen in B2.
  exists a, b, a', b', i, d, i', d', (length ids), (length cands). split; [exact A1|]. split; [exact A2|]. split; [exact B1|]. split; [exact B2|].
  assert (Hin : forall x, In x ids -> x < l_n ix).
  { intros x Hx. apply Hb. destruct A5 as [r [P _]]. assert (X : In (x, dist x) (score dist cands)).
    { apply (Permutation_in _ (Permutation_sym P)). apply in_app_iff. left. unfold score. apply in_map_iff. exists x. auto. }
    unfold score in X. apply in_map_iff in X. destruct X as [y [E Hy]]. injection E as -> _. exact Hy. }
  split. { destruct A5 as [r [_ [Hl _]]]. unfold score in Hl. rewrite map_length in Hl. lia. }
  apply (holds_ren p dist dist' ids ind i ind' i' dst d dst' d'); auto.
Qed.
