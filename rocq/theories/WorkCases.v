(** * Cases for C122. *)
From Coq Require Import ZArith String List Arith Lia Bool.
From Verif Require Import Base Float32 PoolModel SortSpec SortInst GraphSpec GreedyModel SearchModel SearchSpec PoolProofs HnswModel HnswSpec ClosestModel FlatModel FlatSpec IvfModel PopInst IvfProofs LongerSpec LongerCases WorkModel WorkSpec.
Import ListNotations.

Definition counted {A : Type} (r : res (A * counters)) : res counters := do x <- r; Ok (snd x).

(** A list of one expands 0 and computes the distances of 1 and 2; a list of two also expands 1 and 5; a list of six
    expands everything and computes five distances. *)
Lemma fork_work : index_ok fork_index /\ (forall x, x < ix_n fork_index -> reach (fun _ => true) (ix_graph fork_index) (fun y => y = ix_start fork_index) x) /\
  (forall x l, nth_error (ix_graph fork_index) x = Some l -> length l <= 2) /\
  counted (vamana_search_counted isort fork_index apart 1 1 [] (repeat 0 2) (repeat f32_zero 2) (Some (5, 7))) = Ok (Some (5 + 1, 7 + 2)) /\
  counted (vamana_search_counted isort fork_index apart 2 2 [] (repeat 0 2) (repeat f32_zero 2) (Some (5, 7))) = Ok (Some (5 + 3, 7 + 3)) /\
  counted (vamana_search_counted isort fork_index apart 6 2 [] (repeat 0 2) (repeat f32_zero 2) (Some (5, 7))) = Ok (Some (5 + 6, 7 + 5)).
Proof.
  split; [exact fork_ok|]. split; [|split; [|repeat split; vm_compute; reflexivity]].
  - assert (R0 : reach (fun _ => true) fork (fun y => y = 0) 0) by (constructor; reflexivity).
    assert (E : forall x y, In y (nth x fork []) -> x < 6 -> reach (fun _ => true) fork (fun z => z = 0) x -> reach (fun _ => true) fork (fun z => z = 0) y).
    { intros x y Hy Hx R. eapply reach_edge; [exact R|]. exists (nth x fork []). split; [apply nth_error_nth'; exact Hx|]. auto. }
    assert (R1 := E 0 1 ltac:(cbn; auto) ltac:(lia) R0). assert (R2 := E 0 2 ltac:(cbn; auto) ltac:(lia) R0).
    assert (R5 := E 1 5 ltac:(cbn; auto) ltac:(lia) R1). assert (R3 := E 2 3 ltac:(cbn; auto) ltac:(lia) R2). assert (R4 := E 2 4 ltac:(cbn; auto) ltac:(lia) R2).
    intros x Hx. cbn [ix_n fork_index] in Hx. do 6 (destruct x as [|x]; [assumption|]). lia.
  - intros x l Hx. unfold ix_graph, fork_index, fork in Hx.
    do 6 (destruct x as [|x]; [cbn in Hx; injection Hx as <-; cbn; lia|]). destruct x; discriminate.
Qed.

(** A decision for one visit of a graph in which every point is accepted. *)
Definition nodupb (l : list nat) : bool := length l =? length (nodup Nat.eq_dec l).
Definition work_b (g : list (list nat)) (n : nat) (starts ex cm : list nat) : bool :=
  forallb nodupb [ex; cm; starts] &&
  forallb (fun x => negb (set_mem x starts) && existsb (fun e => (e <? length g) && set_mem x (nth e g [])) ex) cm &&
  forallb (fun e => forallb (fun x => set_mem x starts || set_mem x cm) (nth e g [])) ex &&
  forallb (fun e => set_mem e starts || set_mem e cm) ex && forallb (fun x => x <? n) (starts ++ cm).

Lemma nodupb_ok : forall l, nodupb l = true -> NoDup l.
Proof.
  intros l H. apply Nat.eqb_eq in H. apply (NoDup_incl_NoDup (l := nodup Nat.eq_dec l)); [apply NoDup_nodup|lia|]. intros x Hx. apply nodup_In in Hx. exact Hx.
Qed.

Lemma work_check : forall g n starts ex cm, work_b g n starts ex cm = true -> work (fun _ => true) g n starts ex cm.
Proof.
  intros g n starts ex cm H. unfold work_b in H. apply andb_prop in H. destruct H as [H H5]. apply andb_prop in H. destruct H as [H H4].
  apply andb_prop in H. destruct H as [H H3]. apply andb_prop in H. destruct H as [H1 H2]. rewrite forallb_forall in H1, H2, H3, H4, H5.
  split; [apply nodupb_ok; apply H1; cbn; auto|]. split; [apply nodupb_ok; apply H1; cbn; auto|]. split; [apply nodupb_ok; apply H1; cbn; auto|].
  split; [|split].
  - intros x. split.
    + intros Hx. apply H2 in Hx. apply andb_prop in Hx. destruct Hx as [X Y]. apply negb_true_iff in X. apply set_mem_not_In in X. split; [exact X|].
      apply existsb_exists in Y. destruct Y as [e [He Y]]. apply andb_prop in Y. destruct Y as [Y1 Y2]. apply Nat.ltb_lt in Y1. apply set_mem_In in Y2.
      exists e. split; [exact He|]. exists (nth e g []). split; [apply nth_error_nth'; exact Y1|]. auto.
    + intros [X [e [He [l [El [Hl _]]]]]]. apply H3 in He. rewrite forallb_forall in He. rewrite (nth_error_nth _ _ _ El) in He. apply He in Hl.
      apply orb_prop in Hl. destruct Hl as [Hl|Hl]; apply set_mem_In in Hl; [contradiction|exact Hl].
  - intros x Hx. apply H4 in Hx. apply orb_prop in Hx. destruct Hx as [Hx|Hx]; apply set_mem_In in Hx; auto.
  - intros x Hx. apply Nat.ltb_lt. apply H5. apply in_or_app. exact Hx.
Qed.

(** Two levels: both count into the same object. *)
Lemma hall_work : levels_ok hall /\ (forall ix x l, In ix hall -> nth_error (ix_graph ix) x = Some l -> length l <= 1) /\
  descent hall [mkVisit [0; 1] [0; 1; 2] [2]; mkVisit [0] [0; 1; 2] [1; 2]] /\
  counted (hnsw_search_counted isort hall hall_far 2 2 [] (repeat 0 2) (repeat f32_zero 2) (Some (5, 7))) = Ok (Some (5 + (3 + 3), 7 + (1 + 2))).
Proof.
  split; [exact hall_ok|]. split; [|split].
  - intros ix x l [<-|[<-|[]]] Hx; cbn [ix_graph] in Hx.
    + do 4 (destruct x as [|x]; [cbn in Hx; injection Hx as <-; cbn; lia|]). destruct x; discriminate.
    + do 3 (destruct x as [|x]; [cbn in Hx; injection Hx as <-; cbn; lia|]). destruct x; discriminate.
  - split; [|split; [|split; [|split; [reflexivity|exact I]]]].
    + apply work_check. reflexivity.
    + cbn. intros x [<-|[<-|[]]]; [exists 0|exists 2]; auto.
    + apply work_check. reflexivity.
  - vm_compute. reflexivity.
Qed.

Lemma shelf_work : counted (ivf_search_counted pop_all 10 shelf shelf_centers shelf_far 2 2 [] [9; 9] None (Some (5, 7))) = Ok (Some (5, 7 + 4)).
Proof. vm_compute. reflexivity. Qed.

(** A single point: its distance is computed and reported, and no comparison is counted. *)
Lemma entry_not_counted : exists ix dist, index_ok ix /\ (forall id, is_nan (dist id) = false) /\
  vamana_search_counted isort ix dist 10 1 [] [0] [f32_zero] (Some (0, 0)) = Ok ([100], [dist 0], 1, Some (1, 0)) /\
  hnsw_search_counted isort [ix] dist 10 1 [] [0] [f32_zero] (Some (0, 0)) = Ok ([100], [dist 0], 1, Some (1, 0)).
Proof.
  exists (mkI 1 [100] no_labels [] 0 [[]]), (far_table [3]%Z). split; [|split; [apply far_table_nan|split; vm_compute; reflexivity]].
  split; [cbn; lia|]. split; [|split; [reflexivity|split; [cbn; lia|intros x id []]]].
  split; [reflexivity|]. intros x l y Hx Hy. cbn [ix_n]. cbn [ix_graph] in Hx.
  destruct x as [|x]; [cbn in Hx; injection Hx as <-; destruct Hy|destruct x; discriminate].
Qed.

(** IVF: three distances to centres, none counted. *)
Lemma centers_not_counted : exists ix cdist dist, ivf_ok ix /\ ivf_nc ix = 3 /\ finite_distances (ivf_n ix) dist /\
  ivf_search_counted pop_all 10 ix cdist dist 1 1 [] [9] None (Some (0, 0)) = Ok ([4], None, 1, Some (0, 2)).
Proof.
  exists shelf, shelf_centers, shelf_far. split; [apply shelf_case|]. split; [reflexivity|]. split; [apply shelf_case|]. vm_compute. reflexivity.
Qed.

