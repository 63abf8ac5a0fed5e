(** * Concrete builds: a duplicated neighbour, a lost reciprocal edge; completing
    schedules for the whole build. *)
From Coq Require Import ZArith SpecFloat String List Arith Lia Bool Sorting.Sorted Sorting.Permutation.
From Verif Require Import Base Float32 Float32Facts PoolModel TopKSpec SortSpec GraphSpec GreedyModel SearchModel PruneModel PruneSpec
  SortInst BuildModel BuildSpec BuildProofs BuildProofs2 EntryModel EntrySpec EntryProofs VamanaModel VamanaProofs.
Import ListNotations.

(** Ten points on a line, entry point 4, L = 100, R = 64, C = 750, alpha = 1.2. *)
Definition line_pd (a b : nat) : f32 := f32_of_Z ((Z.of_nat a - Z.of_nat b) * (Z.of_nat a - Z.of_nat b))%Z.
Definition f12 : f32 := S754_finite false 10066330 (-23).
Definition line_space : space := mkSp 10 line_pd false (mkL [] true "0"%string).
Definition line_env : benv := mkEnv isort line_space (mkB 100 64 750 f12 0) 4 [].
(** One thread: the locations in order, [steps] steps each. *)
Definition one_thread (n steps : nat) : list nat := concat (map (fun i => repeat i steps) (seq 0 n)).

Lemma line_ok : build_input_ok line_env.
Proof.
  constructor; cbn; try lia.
  - intros a b. apply f32_of_Z_not_nan.
Qed.

Fixpoint sortedb (l : list nat) : bool :=
  match l with
  | [] => true
  | x :: t => forallb (fun y => x <=? y) t && sortedb t
  end.

Lemma sortedb_ok : forall l, sortedb l = true -> StronglySorted le l.
Proof.
  induction l as [|x l IH]; cbn; intros H; constructor; apply andb_true_iff in H; destruct H as [H1 H2]; auto.
  apply Forall_forall. intros y Hy. rewrite forallb_forall in H1. apply Nat.leb_le. auto.
Qed.

Lemma duplicate_witness :
  exists env sched st g, sorts (be_sort env) /\ build_input_ok env /\
    StronglySorted le sched /\
    build_run env (build_init env) sched = Ok st /\ all_done st = true /\
    cleanup env (bs_graph st) (seq 0 (sp_n (be_sp env))) = Ok g /\
    exists x l, nth_error g x = Some l /\ ~ NoDup l.
Proof.
  exists line_env, (one_thread 10 30). eexists. eexists.
  split; [exact isort_sorts|]. split; [exact line_ok|].
  split; [apply sortedb_ok; vm_compute; reflexivity|].
  split; [vm_compute; reflexivity|]. split; [vm_compute; reflexivity|]. split; [vm_compute; reflexivity|].
  exists 4. eexists. split; [reflexivity|]. intros H.
  assert (C : 3 = 4) by (apply (proj1 (NoDup_nth_error _) H); [cbn; lia|reflexivity]). discriminate.
Qed.

(** The origin (point 127) and 127 unit vectors, squared distances; R = 1. *)
Definition star_pd (a b : nat) : f32 :=
  f32_of_Z (if a =? b then 0%Z else if (a =? 127) || (b =? 127) then 1%Z else 2%Z).
Definition star_space : space := mkSp 128 star_pd false (mkL [] true "0"%string).
Definition star_env : benv := mkEnv isort star_space (mkB 5 1 10 f12 0) 127 [].
(** Thread 1 runs locations 0, 1 and 2 up to the overwrite of 127's list; thread 2
    then runs 64 and 65. *)
Definition star_sched : list nat := repeat 0 5 ++ repeat 1 6 ++ repeat 2 7 ++ repeat 64 8 ++ repeat 65 6.

Lemma star_ok : build_input_ok star_env.
Proof.
  constructor; cbn [star_env be_sp be_prm be_start be_medoids star_space sp_n sp_pd sp_filtered bp_L].
  - apply Nat.leb_le. reflexivity.
  - lia.
  - intros a b. apply f32_of_Z_not_nan.
  - apply Nat.ltb_lt. reflexivity.
  - intros x id [].
  - discriminate.
Qed.

Lemma star_sched_In : forall i, In i star_sched -> In i [0; 1; 2; 64; 65].
Proof.
  intros i H. unfold star_sched in H.
  repeat (apply in_app_or in H; destruct H as [H|H]; [apply repeat_spec in H; subst; cbn; tauto|]).
  apply repeat_spec in H; subst; cbn; tauto.
Qed.

Definition star_state : bstate :=
  match build_run star_env (build_init star_env) star_sched with Ok st => st | _ => build_init star_env end.

Lemma star_run : build_run star_env (build_init star_env) star_sched = Ok star_state.
Proof. vm_compute. reflexivity. Qed.

Lemma lost_update_witness :
  exists env sched st st' s a b new, sorts (be_sort env) /\ build_input_ok env /\ sp_n (be_sp env) = 128 /\
    StronglySorted le (filter (fun i => i <? 64) sched) /\
    StronglySorted le (filter (fun i => 64 <=? i) sched) /\
    (forall i j, In j sched -> i < j -> i / 64 = j / 64 -> In i sched) /\
    (forall i, In i sched -> i < 128) /\
    build_run env (build_init env) sched = Ok st /\
    (forall i, In i sched -> i <> a -> exists t, nth_error (bs_tasks st) i = Some t /\ task_done t = true) /\
    nth_error (bs_tasks st) b = Some (TRecip []) /\
    (exists l, nth_error (bs_graph st) b = Some l /\ In s l) /\
    (exists l, nth_error (bs_graph st) s = Some l /\ In b l) /\
    nth_error (bs_tasks st) a = Some (TOver s new []) /\ ~ In b new /\
    build_step env st a = Ok st' /\
    (exists l, nth_error (bs_graph st') s = Some l /\ ~ In b l).
Proof.
  exists star_env, star_sched, star_state. eexists. exists 127, 2, 65, [0].
  split; [exact isort_sorts|]. split; [exact star_ok|]. split; [reflexivity|].
  split; [apply sortedb_ok; vm_compute; reflexivity|].
  split; [apply sortedb_ok; vm_compute; reflexivity|].
  split.
  { intros i j Hj Hij Hd. apply star_sched_In in Hj. unfold star_sched.
    assert (Hcase : i = 0 \/ i = 1 \/ i = 64).
    { cbn [In] in Hj. destruct Hj as [<-|[<-|[<-|[<-|[<-|[]]]]]]; try lia.
      - change (64 / 64) with 1 in Hd. rewrite Nat.div_small in Hd by lia. discriminate.
      - change (65 / 64) with 1 in Hd. destruct (Nat.eq_dec i 64) as [->|]; [auto|].
        rewrite Nat.div_small in Hd by lia. discriminate. }
    destruct Hcase as [-> | [-> | ->]].
    - apply in_or_app. left. cbn. auto.
    - apply in_or_app. right. apply in_or_app. left. cbn. auto.
    - apply in_or_app. right. apply in_or_app. right. apply in_or_app. right. apply in_or_app. left. cbn. auto. }
  split.
  { intros i Hi. apply star_sched_In in Hi. cbn [In] in Hi.
    destruct Hi as [<-|[<-|[<-|[<-|[<-|[]]]]]]; apply Nat.ltb_lt; reflexivity. }
  split; [exact star_run|].
  split.
  { intros i Hi Hne. apply star_sched_In in Hi. cbn [In] in Hi.
    destruct Hi as [<-|[<-|[<-|[<-|[<-|[]]]]]]; try congruence; eexists; (split; [vm_compute; reflexivity|reflexivity]). }
  split; [vm_compute; reflexivity|].
  split; [eexists; split; [vm_compute; reflexivity|cbn; auto]|].
  split; [eexists; split; [vm_compute; reflexivity|cbn; auto]|].
  split; [vm_compute; reflexivity|].
  split; [cbn; intros [H|[]]; discriminate|].
  split; [vm_compute; reflexivity|].
  eexists. split; [vm_compute; reflexivity|]. cbn. intros [H|[]]; discriminate.
Qed.

(** ** A completing schedule for every input *)
Lemma vamana_env_sched : forall v sched,
  vamana_env (mkV (vi_sort v) (vi_sp v) (vi_prm v) (vi_tags v) (vi_centroid v) (vi_work v) sched (vi_order v)) = vamana_env v.
Proof. reflexivity. Qed.

Lemma vamana_build_completes : forall v, vinput_ok v ->
  exists sched, vinput_ok (mkV (vi_sort v) (vi_sp v) (vi_prm v) (vi_tags v) (vi_centroid v) (vi_work v) sched (vi_order v)) /\
    vamana_build (mkV (vi_sort v) (vi_sp v) (vi_prm v) (vi_tags v) (vi_centroid v) (vi_work v) sched (vi_order v)) <> Fuel.
Proof.
  intros v H. destruct (vamana_env_ok v H) as [env [Ee [Hin [Es [Esp [Eprm Hfm]]]]]].
  pose proof (vo_sort _ H) as Hs. rewrite <- Es in Hs.
  destruct (build_completes_run env [] (build_init env) Hs Hin) as [sched [st [Hsc [_ [Hrun Hd]]]]].
  { intros i []. } { reflexivity. }
  exists sched.
  assert (Hv : vinput_ok (mkV (vi_sort v) (vi_sp v) (vi_prm v) (vi_tags v) (vi_centroid v) (vi_work v) sched (vi_order v))).
  { destruct H. constructor; auto. cbn. rewrite <- Esp. auto. }
  split; [auto|]. destruct (vamana_build_ok _ Hv) as [[ix [md [E _]]]|E]; [congruence|].
  exfalso. unfold vamana_build in E. rewrite vamana_env_sched, Ee in E. cbn [bind vi_sched vi_order vi_sp] in E.
  rewrite Hrun in E. cbn [bind] in E. rewrite Hd in E.
  destruct (build_final env sched st (vi_order v) Hs Hin Hsc Hrun) as [g [Eg [Lg Hg]]].
  { rewrite Esp. apply (vo_order _ H). }
  rewrite Eg in E. cbn [bind] in E.
  destruct (degree_stats_ok g 0) as [m [ind [Em _]]].
  { split; [auto|]. intros x l y Hx Hy. rewrite Lg. apply (Hg x l Hx). auto. }
  rewrite Esp in Lg. rewrite Lg in Em. rewrite Em in E. cbn [bind] in E. discriminate.
Qed.
