(** * HNSW with wide lists: concrete cases. *)
From Coq Require Import ZArith String List Arith Lia Bool Sorting.Sorted Sorting.Permutation.
From Verif Require Import Base Float32 Float32Facts DivFacts PoolModel TopKSpec SortSpec SortInst GraphSpec GreedyModel SearchSpec SearchModel PruneModel
  BuildModel BuildSpec BuildWitness EntrySpec ListLemmas PoolProofs HnswModel HnswSpec HnswProofs HnswProofs2 HnswProofs3 RngSpec RngWitness WideSpec WideProofs WideProofs3 HwideSpec HwideProofs HwideProofs2.
Import ListNotations.

(** Twelve points on a line, two of them equal, ten of them in the inner level; L = 12, R = 24, C = 13. *)
Definition hp_space : space := mkSp 12 rng_pd false (mkL [] true "0"%string).
Definition hp_sample : list nat := [0; 1; 2; 3; 4; 5; 6; 7; 8; 10].
Definition hp_cent (n c : nat) : list f32 := map (fun i => rng_pd i c) (seq 0 n).
Definition hp_choices : list hchoice :=
  [mkHC hp_sample (hp_cent 12 5) (one_thread 12 80) (seq 0 12); mkHC [] (hp_cent 10 4) (one_thread 10 80) (seq 0 10)].
Definition hp_prm (rule : nat) : bparams := mkB 12 24 13 f12 rule.
Definition hp_levels (rule : nat) : hnsw :=
  match hnsw_build isort (hp_prm rule) hp_space (seq 100 12) hp_choices with Ok l => l | _ => [] end.

Lemma one_thread_lt : forall n k i, In i (one_thread n k) -> i < n.
Proof.
  intros n k i H. unfold one_thread in H. apply in_concat in H. destruct H as [l [H1 H2]].
  apply in_map_iff in H1. destruct H1 as [j [<- H1]]. apply repeat_spec in H2. subst. apply in_seq in H1. lia.
Qed.

Lemma hp_cent_nan : forall n c d, In d (hp_cent n c) -> is_nan d = false.
Proof. intros n c d H. apply in_map_iff in H. destruct H as [i [<- _]]. apply f32_of_Z_not_nan. Qed.

Lemma hp_ok : forall rule, hinput_ok isort (hp_prm rule) hp_space (seq 100 12) hp_choices.
Proof.
  intros rule. constructor.
  - exact isort_sorts.
  - cbn. lia.
  - intros a b. apply f32_of_Z_not_nan.
  - reflexivity.
  - reflexivity.
  - cbn [choices_ok hp_choices hc_sample hc_centroid hc_sched hc_order hp_space sp_n].
    split; [lia|]. split; [reflexivity|]. split; [apply hp_cent_nan|]. split; [apply one_thread_lt|].
    split; [apply Permutation_refl|]. split; [unfold hp_sample; cbn [In]; intros i Hi; lia|]. split.
    { unfold hp_sample. repeat (constructor; [|repeat (constructor; try lia)]). constructor. }
    split; [unfold hp_sample; cbn [length]; lia|]. split; [reflexivity|]. split; [apply hp_cent_nan|]. split; [apply one_thread_lt|].
    split; [apply Permutation_refl|exact I].
Qed.

Lemma hp_patient : forall rule, patient 12 (hp_prm rule).
Proof. intros rule. unfold patient, hp_prm; cbn [bp_L bp_R bp_C bp_rule bp_alpha]. split; [lia|]. split; [lia|]. intros _. split; [lia|reflexivity]. Qed.

Lemma hp_runs : forall rule, rule = 0 \/ rule = 1 ->
  hnsw_build isort (hp_prm rule) hp_space (seq 100 12) hp_choices = Ok (hp_levels rule) /\
  (do r <- hnsw_search isort (hp_levels rule) (rng_pd 9) 12 5 [] (repeat 0 5) (repeat f32_zero 5); Ok (fst (fst r), snd r)) = Ok ([109; 107; 111; 105; 103], 5).
Proof. intros rule [->| ->]; split; vm_compute; reflexivity. Qed.

(** ** The origin and 127 unit vectors, the origin and 27 of the others in the inner level; L = 100, R = 64, C = 750, alpha = 1.2 *)
Definition ht_sample : list nat := seq 100 28.
Definition ht_cent (n : nat) : list f32 := map (fun i => f32_of_Z (if i =? n - 1 then 127%Z else 16255%Z)) (seq 0 n).
Definition ht_choices : list hchoice :=
  [mkHC ht_sample (ht_cent 128) (one_thread 128 250) (seq 0 128); mkHC [] (ht_cent 28) (one_thread 28 250) (seq 0 28)].
Definition ht_prm : bparams := mkB 100 64 750 f12 0.
Definition levels_in (r : res hnsw) : hnsw := match r with Ok l => l | _ => [] end.
Definition ht_levels : hnsw := levels_in (hnsw_build isort ht_prm star_space (seq 0 128) ht_choices).

Lemma ht_cent_nan : forall n d, In d (ht_cent n) -> is_nan d = false.
Proof. intros n d H. apply in_map_iff in H. destruct H as [i [<- _]]. apply f32_of_Z_not_nan. Qed.

Lemma seq_sorted : forall n s, StronglySorted lt (seq s n).
Proof.
  induction n as [|n IH]; intros s; cbn; constructor; auto. apply Forall_forall. intros x Hx. apply in_seq in Hx. lia.
Qed.

Lemma ht_ok : hinput_ok isort ht_prm star_space (seq 0 128) ht_choices.
Proof.
  constructor.
  - exact isort_sorts.
  - apply Nat.leb_le. reflexivity.
  - intros a b. apply f32_of_Z_not_nan.
  - reflexivity.
  - apply seq_length.
  - cbn [choices_ok ht_choices hc_sample hc_centroid hc_sched hc_order star_space sp_n].
    split; [apply Nat.leb_le; reflexivity|]. split; [reflexivity|]. split; [apply ht_cent_nan|]. split; [apply one_thread_lt|].
    split; [apply Permutation_refl|]. split; [unfold ht_sample; intros i Hi; apply in_seq in Hi; apply Hi|]. split; [apply seq_sorted|].
    split; [unfold ht_sample; rewrite seq_length; lia|]. split; [reflexivity|]. split; [apply ht_cent_nan|]. split; [apply one_thread_lt|].
    split; [apply Permutation_refl|exact I].
Qed.

Lemma ht_built : hnsw_build isort ht_prm star_space (seq 0 128) ht_choices = Ok ht_levels.
Proof. vm_compute. reflexivity. Qed.

Definition ht_shape (levels : hnsw) : Prop :=
  match levels with [ix; inn] => ix_graph ix = tight_graph /\ ix_n ix = 128 /\ ix_tags ix = seq 0 128 /\ ix_tags inn = ht_sample | _ => False end.

Lemma ht_outer : ht_shape ht_levels.
Proof. vm_compute. repeat split. Qed.

Lemma ht_closed : forall (S : nat -> Prop) x, (forall y, S y -> 100 <= y < 128) -> reach (fun _ => true) tight_graph S x -> x < 64 \/ 100 <= x < 128.
Proof.
  intros S x HS R. induction R as [x Hx|x y R IH [l [E [I _]]]]; [right; apply HS; exact Hx|].
  unfold tight_graph in E. destruct (Nat.eq_dec x 127) as [->|Hne].
  - left. rewrite nth_error_app2 in E by (rewrite repeat_length; apply Nat.leb_le; reflexivity). rewrite repeat_length, Nat.sub_diag in E.
    change (Some (seq 0 64) = Some l) in E. apply some_eq in E. rewrite <- E in I. apply in_seq in I. apply I.
  - assert (H127 : x < 127) by lia. rewrite nth_error_app1 in E by (rewrite repeat_length; exact H127).
    apply nth_error_In, repeat_spec in E. subst l. destruct I as [<-|[]]. right. lia.
Qed.

Lemma built_levels_ok : forall sortf prm cs sp tags levels, hinput_ok sortf prm sp tags cs -> hnsw_build sortf prm sp tags cs = Ok levels -> levels_ok levels.
Proof.
  intros sortf prm cs sp tags levels H E. destruct (hnsw_build_ok _ _ _ _ _ H) as [[lv [E' [Hlv _]]]|E']; [|congruence].
  assert (lv = levels) by congruence. subst. exact Hlv.
Qed.

Lemma ht_never : forall levels, levels_ok levels -> ht_shape levels -> forall L k filters ind dst, 1 <= L -> k <= L -> k <= length ind -> k <= length dst ->
  exists ids ind' dst', hnsw_search isort levels (fun p => sp_pd star_space p 70) L k filters ind dst = Ok (ind', dst', length ids) /\
    reports 128 (seq 0 128) (fun p => sp_pd star_space p 70) ind' dst' ids /\ ~ In 70 ids.
Proof.
  intros levels Hlv Ho L k fs ind dst HL Hk Hi Hd.
  destruct levels as [|ix [|inn [|]]]; cbn [ht_shape] in Ho; try (destruct Ho). destruct H0 as [En [Et Ei]].
  destruct (hnsw_search_ok isort L k isort_sorts HL Hk [inn] ix (fun p => sp_pd star_space p 70) fs ind dst Hlv)
    as [entry [ids [ind' [dst' [E [_ [_ [_ [_ [Hr [Hh [_ [Hreach _]]]]]]]]]]]]]; auto.
  { intros p. apply f32_of_Z_not_nan. }
  exists ids, ind', dst'. split; [exact E|]. split; [rewrite En, Et in Hr; exact Hr|]. intros I. apply Hreach in I. rewrite H in I.
  apply (ht_closed (fun x => In x entry)) in I.
  - destruct I as [C|[C _]]; [apply Nat.ltb_lt in C|apply Nat.leb_le in C]; discriminate.
  - intros y Hy. cbn [handed_down] in Hh. destruct Hh as [is [ii [dd [_ [_ [_ F]]]]]].
    assert (Hin : In y ht_sample).
    { rewrite <- Ei. clear - F Hy. induction F as [|a b l l' H1 F IH]; [destruct Hy|]. destruct Hy as [<-|Hy]; [eapply nth_error_In; eauto|auto]. }
    unfold ht_sample in Hin. apply in_seq in Hin. exact Hin.
Qed.

Lemma ht_misses : exists sortf prm cs sp tags levels id, hinput_ok sortf prm sp tags cs /\ length cs = 2 /\
  sp_n sp = 128 /\ prm = mkB 100 64 750 f12 0 /\ (forall c, In c cs -> StronglySorted le (hc_sched c)) /\
  hnsw_build sortf prm sp tags cs = Ok levels /\ id < 128 /\
  (forall p, p < 128 -> p <> id -> fle f32_one (sp_pd sp p id) = true) /\ feq (sp_pd sp id id) f32_zero = true /\
  forall L k filters ind dst, 1 <= L -> k <= L -> k <= length ind -> k <= length dst ->
    exists ids ind' dst', hnsw_search sortf levels (fun p => sp_pd sp p id) L k filters ind dst = Ok (ind', dst', length ids) /\
      reports (sp_n sp) tags (fun p => sp_pd sp p id) ind' dst' ids /\ ~ In id ids.
Proof.
  exists isort, ht_prm, ht_choices, star_space, (seq 0 128), ht_levels, 70.
  split; [exact ht_ok|]. split; [reflexivity|]. split; [reflexivity|]. split; [reflexivity|].
  split; [|split; [exact ht_built|split; [apply Nat.ltb_lt; reflexivity|split; [|split; [reflexivity|]]]]].
  { intros c [<-|[<-|[]]]; cbn [hc_sched]; [exact (one_thread_sorted 250 128 0)|exact (one_thread_sorted 250 28 0)]. }
  { intros p Hp Hne. change (sp_pd star_space) with star_pd. unfold star_pd.
    rewrite (proj2 (Nat.eqb_neq p 70) Hne). destruct ((p =? 127) || (70 =? 127)); reflexivity. }
  intros L k fs ind dst HL Hk Hi Hd.
  apply (ht_never ht_levels (built_levels_ok _ _ _ _ _ _ ht_ok ht_built) ht_outer); auto.
Qed.

Lemma hp_case_alpha : hinput_ok isort (hp_prm 0) hp_space (seq 100 12) hp_choices /\ patient (sp_n hp_space) (hp_prm 0) /\ dissimilarity (sp_pd hp_space) /\
  hnsw_build isort (hp_prm 0) hp_space (seq 100 12) hp_choices = Ok (hp_levels 0) /\
  (do r <- hnsw_search isort (hp_levels 0) (rng_pd 9) 12 5 [] (repeat 0 5) (repeat f32_zero 5); Ok (fst (fst r), snd r)) = Ok ([109; 107; 111; 105; 103], 5).
Proof. split; [apply hp_ok|]. split; [apply hp_patient|]. split; [exact rng_pd_dissimilarity|]. apply hp_runs. auto. Qed.

Lemma hp_case_topk : hinput_ok isort (hp_prm 1) hp_space (seq 100 12) hp_choices /\ patient (sp_n hp_space) (hp_prm 1) /\ dissimilarity (sp_pd hp_space) /\
  hnsw_build isort (hp_prm 1) hp_space (seq 100 12) hp_choices = Ok (hp_levels 1) /\
  (do r <- hnsw_search isort (hp_levels 1) (rng_pd 9) 12 5 [] (repeat 0 5) (repeat f32_zero 5); Ok (fst (fst r), snd r)) = Ok ([109; 107; 111; 105; 103], 5).
Proof. split; [apply hp_ok|]. split; [apply hp_patient|]. split; [exact rng_pd_dissimilarity|]. apply hp_runs. auto. Qed.
