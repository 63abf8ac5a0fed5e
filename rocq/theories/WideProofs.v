(** * Graph search with a list that holds everything reachable. *)
From Coq Require Import ZArith String List Arith Lia Bool Sorting.Sorted Sorting.Permutation.
From Verif Require Import Base Float32 Float32Facts PoolModel TopKSpec SortSpec GraphSpec FilterSpec GreedyModel SearchSpec SearchModel
  GreedyProofs SearchProofs AcceptProofs PruneModel RngModel RngSpec RngProofs HnswModel HnswSpec HnswProofs WideSpec.
Import ListNotations.

Lemma at_most_n : forall n k (P : nat -> Prop), n <= k -> (forall x, P x -> x < n) -> at_most k P.
Proof.
  intros n k P Hn H l N Hl. apply Nat.le_trans with n; [|exact Hn]. rewrite <- (seq_length n 0).
  apply NoDup_incl_length; auto. intros x Hx. apply in_seq. apply Hl, H in Hx. lia.
Qed.

Lemma reach_lt : forall acc n g (S : nat -> Prop) x, graph_ok n g -> (forall y, S y -> y < n) -> reach acc g S x -> x < n.
Proof.
  intros acc n g S x [_ Hg] HS R. destruct R as [x Hx|x y _ [l [E [I _]]]]; [auto|]. eapply Hg; eauto.
Qed.

(** The answer of a search whose list can hold all reachable points is the set of
    reachable points. *)
Lemma greedy_answer_all : forall acc dist g starts L ids,
  greedy_answer acc dist g starts L ids -> length starts <= L ->
  at_most L (reach acc g (fun x => In x starts)) ->
  forall y, In y ids <-> reach acc g (fun x => In x starts) y.
Proof.
  intros acc dist g starts L ids [N [Hl [_ [Hr Hc]]]] Hs Hm y. split; [apply Hr|].
  assert (C : forall z, reach acc g (fun x => In x starts) z ->
    (In z ids \/ (length ids = L /\ forall w, In w ids -> fle (dist w) (dist z) = true)) -> In z ids).
  { intros z Rz [H|[H _]]; [exact H|]. destruct (in_dec Nat.eq_dec z ids) as [I|I]; [exact I|exfalso].
    assert (S (length ids) <= L); [|lia]. apply (Hm (z :: ids)); [constructor; auto|].
    intros x [<-|Hx]; auto. }
  intros R. induction R as [x Hx|x z R IH He].
  - apply C; [constructor; exact Hx|]. apply Hc. right. auto.
  - apply C; [eapply reach_edge; eauto|]. apply Hc. left. exists x. auto.
Qed.

Lemma sorted_top : forall k dist ids, StronglySorted (fun x y => fle (dist x) (dist y) = true) ids ->
  is_top_k k (score dist ids) (score dist (firstn k ids)).
Proof.
  intros k dist ids H. exists (score dist (skipn k ids)). unfold score.
  split; [rewrite <- map_app, firstn_skipn; apply Permutation_refl|].
  split; [rewrite !map_length, firstn_length; reflexivity|].
  rewrite <- (firstn_skipn k ids) in H. apply PoolProofs.ssorted_app in H. destruct H as [S1 [_ S3]]. split.
  - clear S3. unfold by_distance. induction S1 as [|a l S1 IH F]; cbn; constructor; auto.
    apply Forall_forall. intros x Hx. apply in_map_iff in Hx. destruct Hx as [b [<- Hb]].
    rewrite Forall_forall in F. apply F. exact Hb.
  - intros x y Hx Hy. apply in_map_iff in Hx. destruct Hx as [a [<- Ha]]. apply in_map_iff in Hy.
    destruct Hy as [b [<- Hb]]. apply S3; auto.
Qed.

Lemma greedy_answer_nearest : forall acc dist g starts L ids k,
  greedy_answer acc dist g starts L ids -> length starts <= L ->
  at_most L (reach acc g (fun x => In x starts)) ->
  nearest_among k (reach acc g (fun x => In x starts)) dist (firstn k ids).
Proof.
  intros acc dist g starts L ids k G Hs Hm. exists ids. pose proof (greedy_answer_all _ _ _ _ _ _ G Hs Hm) as A.
  destruct G as [N [_ [S _]]]. split; [exact N|]. split; [exact A|]. apply sorted_top. exact S.
Qed.

(** Vamana. *)
Lemma vamana_wide : forall sortf ix dist L k filters indices distances,
  sorts sortf -> index_ok ix -> 1 <= L -> (forall id, is_nan (dist id) = false) ->
  (filters = [] \/ length (pts_to_labels (ix_labels ix)) = ix_n ix) -> length filters <= L ->
  k <= L + 1 -> k <= length indices -> k <= length distances ->
  exists acc starts,
    filter_test (universal_of (ix_labels ix)) (pts_to_labels (ix_labels ix)) filters acc /\
    (filters = [] -> starts = [ix_start ix]) /\
    (filters <> [] -> forall id, In id starts <-> exists x, In x filters /\ medoid_of (ix_medoids ix) x = Some id) /\
    (at_most L (reach acc (ix_graph ix) (fun x => In x starts)) ->
     exists ids indices' distances',
       vamana_search sortf ix dist L k filters indices distances = Ok (indices', distances', length ids) /\
       reports (ix_n ix) (ix_tags ix) dist indices' distances' ids /\
       nearest_among k (reach acc (ix_graph ix) (fun x => In x starts)) dist ids).
Proof.
  intros sortf ix dist L k fs ind dst Hs Hix HL Hnan Hfl HfL Hk Hi Hd.
  destruct (vamana_search_answer sortf ix dist L k fs ind dst) as [acc [starts [ids [ind' [dst' [A1 [A2 [A3 [A4 [A5 [A6 [A7 A8]]]]]]]]]]]]; auto.
  exists acc, starts. split; [exact A1|]. split; [exact A2|]. split; [intros H; apply A3; exact H|].
  intros Hm. exists (firstn k ids), ind', dst'.
  split; [rewrite firstn_length; exact A5|]. split; [exact A8|].
  apply greedy_answer_nearest with (L := L); auto.
  destruct fs as [|f fs]; [rewrite A2 by reflexivity; exact HL|].
  destruct A3 as [A3 _]; [discriminate|]. lia.
Qed.

(** ** RelativeNG *)
Lemma descends_reach : forall g dist x y, descends g dist x y -> forall S, reach (fun _ => true) g S x -> reach (fun _ => true) g S y.
Proof.
  intros g dist x y D. induction D as [x|x l y z E I _ _ IH]; intros S R; [exact R|].
  apply IH. eapply reach_edge; [exact R|]. exists l. auto.
Qed.

Lemma flt_zero_neg : forall x y, feq y f32_zero = true -> fle f32_zero x = true -> flt x y = true -> False.
Proof.
  intros x y Hy Hx H. unfold feq, fle, flt, SpecFloat.SFeqb, SpecFloat.SFleb, SpecFloat.SFltb, f32_zero in *.
  destruct y as [sy|sy| |sy my ey]; try (destruct sy); try discriminate;
  destruct x as [sx|sx| |sx mx ex]; try (destruct sx); discriminate.
Qed.

Lemma rng_reaches : forall sortf sp tags centroid order ix md,
  rng_input_ok sortf sp tags centroid order -> dissimilarity (sp_pd sp) ->
  rng_build sortf sp tags centroid order = Ok (ix, md) ->
  forall q x, q < sp_n sp -> x < sp_n sp -> reach (fun _ => true) (ix_graph ix) (fun y => y = x) q.
Proof.
  intros sortf sp tags centroid order ix md Hin Hd Hb q x Hq Hx.
  destruct (rng_connected sortf sp tags centroid order ix md Hin Hd Hb q x Hq Hx) as [y [Hy [D Z]]].
  assert (R : reach (fun _ => true) (ix_graph ix) (fun y => y = x) y).
  { eapply descends_reach; [exact D|]. constructor. reflexivity. }
  destruct (Nat.eq_dec y q) as [->|Hne]; [exact R|].
  destruct (rng_build_ok sortf sp tags centroid order Hin Hd) as [ix' [md' [E [_ [_ [_ [_ [_ [_ [_ C]]]]]]]]]].
  assert (ix' = ix) by congruence. subst ix'.
  destruct (C y q Hy Hq Hne) as [l [El [I|[k [I Hf]]]]].
  - eapply reach_edge; [exact R|]. exists l. auto.
  - exfalso. rewrite (ds_sym _ Hd y q) in Z. exact (flt_zero_neg _ _ Z (ds_nonneg _ Hd q k) Hf).
Qed.

Lemma nth_error_last : forall (w : list nat) x d, nth_error (x :: w) (length w) = Some (last (x :: w) d).
Proof.
  induction w as [|c w IH]; intros x d; [reflexivity|].
  change (nth_error (x :: c :: w) (length (c :: w))) with (nth_error (c :: w) (length w)). rewrite (IH c d). reflexivity.
Qed.

Lemma reach_walk : forall g x y, reach (fun _ => true) g (fun z => z = x) y ->
  exists walk, last (x :: walk) x = y /\
    forall i a b, nth_error (x :: walk) i = Some a -> nth_error (x :: walk) (S i) = Some b -> exists l, nth_error g a = Some l /\ In b l.
Proof.
  intros g x y R. induction R as [z ->|z y R [w [Hl Hw]] [l [E [I _]]]].
  - exists []. split; [reflexivity|]. intros [|i] a b H1 H2; [|destruct i]; discriminate.
  - exists (w ++ [y]). split.
    + rewrite app_comm_cons. apply last_last.
    + intros i a b H1 H2. rewrite app_comm_cons in H1, H2.
      destruct (Nat.lt_ge_cases (S i) (length (x :: w))) as [Hlt|Hge].
      * rewrite nth_error_app1 in H1 by lia. rewrite nth_error_app1 in H2 by lia. eapply Hw; eauto.
      * assert (S i < length ((x :: w) ++ [y])) by (apply nth_error_Some; congruence).
        rewrite app_length in H. cbn [length] in H, Hge.
        assert (Ei : i = length w) by lia. subst i.
        rewrite nth_error_app1 in H1 by (cbn; lia). rewrite nth_error_app2 in H2 by (cbn; lia).
        cbn [length] in H2. rewrite Nat.sub_diag in H2. cbn in H2. injection H2 as <-.
        assert (Ea : a = z).
        { change (nth_error (x :: w) (length w) = Some a) in H1. rewrite (nth_error_last w x x) in H1. congruence. }
        subst a. exists l. auto.
Qed.

Lemma rng_wide : forall sortf sp tags centroid order ix md dist L k filters indices distances,
  rng_input_ok sortf sp tags centroid order -> dissimilarity (sp_pd sp) ->
  rng_build sortf sp tags centroid order = Ok (ix, md) -> (forall id, is_nan (dist id) = false) ->
  sp_n sp <= L -> k <= L + 1 -> k <= length indices -> k <= length distances ->
  exists ids indices' distances',
    rng_search sortf ix dist L k filters indices distances = Ok (indices', distances', length ids) /\
    reports (sp_n sp) tags dist indices' distances' ids /\
    nearest_among k (fun x => x < sp_n sp) dist ids.
Proof.
  intros sortf sp tags centroid order ix md dist L k fs ind dst Hin Hd Hb Hnan HL Hk Hi Hdd.
  destruct (rng_build_ok sortf sp tags centroid order Hin Hd) as [ix' [md' [E [Hix [En [Et _]]]]]].
  assert (ix' = ix) by congruence. subst ix'.
  assert (H1 : 1 <= ix_n ix) by apply Hix. assert (HL1 : 1 <= L) by lia.
  destruct (rng_search_answer sortf ix dist L k fs ind dst) as [ids [ind' [dst' [A1 [A2 [A3 [A4 A5]]]]]]]; auto.
  { exact (ro_sort _ _ _ _ _ Hin). }
  assert (Hst : ix_start ix < sp_n sp) by (rewrite <- En; apply Hix).
  assert (Hg : graph_ok (ix_n ix) (ix_graph ix)) by apply Hix.
  assert (Hlt : forall x, reach (fun _ => true) (ix_graph ix) (fun x => In x [ix_start ix]) x -> x < sp_n sp).
  { intros x R. rewrite <- En. eapply reach_lt; [exact Hg| |exact R]. intros y [<-|[]]. rewrite En. exact Hst. }
  assert (Hm : at_most L (reach (fun _ => true) (ix_graph ix) (fun x => In x [ix_start ix]))) by exact (at_most_n (sp_n sp) L _ HL Hlt).
  exists (firstn k ids), ind', dst'. split; [rewrite firstn_length; exact A2|].
  split; [rewrite <- En, <- Et; exact A5|].
  destruct (greedy_answer_nearest _ _ _ _ _ _ k A1 ltac:(cbn; lia) Hm) as [all [B1 [B2 B3]]].
  exists all. split; [exact B1|]. split; [|exact B3]. intros x. rewrite B2. split; [apply Hlt|].
  intros Hx. eapply reach_weaken; [|exact (rng_reaches sortf sp tags centroid order ix md Hin Hd Hb x (ix_start ix) Hx Hst)].
  intros y ->. left. reflexivity.
Qed.

Lemma rng_strong : forall sortf sp tags centroid order ix md,
  rng_input_ok sortf sp tags centroid order -> dissimilarity (sp_pd sp) ->
  rng_build sortf sp tags centroid order = Ok (ix, md) -> strongly_connected (sp_n sp) (ix_graph ix).
Proof.
  intros sortf sp tags centroid order ix md Hin Hd Hb x y Hx Hy. apply reach_walk.
  eapply rng_reaches; eauto.
Qed.
