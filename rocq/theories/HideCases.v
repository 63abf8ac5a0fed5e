(** * Two collections that agree on the points with label a: concrete cases. *)
From Coq Require Import NArith ZArith String List Arith Lia Bool.
From Verif Require Import Base Float32 PoolModel FilterSpec SortInst SortSpec GraphSpec GreedyModel SearchModel PopInst FlatModel IvfModel LshModel LongerCases AskCases HideSpec.
Import ListNotations.

(** Points 0 to 3 have the label a; 4 and 5 differ in labels, distance and edges. *)
Definition day : label_ctx := mkL [["a"]; ["a"; "k"]; ["a"]; ["a"]; ["b"]; ["b"]]%string false ""%string.
Definition night : label_ctx := mkL [["a"]; ["a"]; ["a"; "m"]; ["a"]; ["c"]; ["b"; "z"]]%string false ""%string.
Definition day_far : nat -> f32 := far_table [9; 4; 7; 2; 1; 5]%Z.
Definition night_far : nat -> f32 := far_table [9; 4; 7; 2; 30; 0]%Z.
Definition day_graph : graph := [[1; 4]; [0; 2; 5]; [1; 3]; [2]; [5; 0]; [4]].
Definition night_graph : graph := [[5; 1]; [0; 4; 4; 2]; [1; 3]; [2; 5]; []; [0]].
Definition a_only : list label := ["a"%string].

Lemma day_points : forall id, id < 4 -> point_matches day a_only id /\ point_matches night a_only id.
Proof.
  intros id H. assert (C : id = 0 \/ id = 1 \/ id = 2 \/ id = 3) by lia.
  destruct C as [->|[->|[->| ->]]]; split; (eexists; split; [reflexivity|]); right; left; exists "a"%string; split; now left.
Qed.
Lemma day_others : forall id, 4 <= id -> ~ point_matches day a_only id /\ ~ point_matches night a_only id.
Proof.
  intros id H. destruct (Nat.eq_dec id 4) as [->|N4]; [|destruct (Nat.eq_dec id 5) as [->|N5]].
  - split; intros [ls [E M]]; injection E as <-; destruct M as [M|[[x [[<-|[]] M]]|[u [M _]]]]; try discriminate M; cbn in M; intuition discriminate.
  - split; intros [ls [E M]]; injection E as <-; destruct M as [M|[[x [[<-|[]] M]]|[u [M _]]]]; try discriminate M; cbn in M; intuition discriminate.
  - split; intros [ls [E M]]; rewrite (proj2 (nth_error_None _ _)) in E by (cbn; lia); discriminate E.
Qed.
Lemma day_agree : agree 6 a_only day night day_far night_far.
Proof.
  split; [repeat constructor|]. split; [|split].
  - split; [reflexivity|]. intros ls H. cbn in H. repeat (destruct H as [<-|H]; [repeat constructor; unfold label_le; cbn; congruence|]). destruct H.
  - split; [reflexivity|]. intros ls H. cbn in H. repeat (destruct H as [<-|H]; [repeat constructor; unfold label_le; cbn; congruence|]). destruct H.
  - intros id H. destruct (Nat.lt_ge_cases id 4) as [L|L].
    + destruct (day_points id L) as [A B]. split; [tauto|]. intros _. assert (C : id = 0 \/ id = 1 \/ id = 2 \/ id = 3) by lia. destruct C as [->|[->|[->| ->]]]; reflexivity.
    + destruct (day_others id L) as [A B]. split; tauto.
Qed.
Lemma no4 : ~ point_matches day a_only 4. Proof. exact (proj1 (day_others 4 (le_n 4))). Qed.
Lemma no5 : ~ point_matches day a_only 5. Proof. exact (proj1 (day_others 5 (le_S _ _ (le_n 4)))). Qed.

Lemma day_edges : forall id l l', point_matches day a_only id -> nth_error day_graph id = Some l -> nth_error night_graph id = Some l' -> same_among (point_matches day a_only) l l'.
Proof.
  intros id l l' M E E'. destruct (Nat.lt_ge_cases id 4) as [L|L]; [|elim (proj1 (day_others id L) M)].
  assert (C : id = 0 \/ id = 1 \/ id = 2 \/ id = 3) by lia. destruct C as [->|[->|[->| ->]]]; injection E as <-; injection E' as <-.
  - apply same_right; [exact no5|]. apply same_both. apply same_left; [exact no4|]. apply same_nil.
  - apply same_both. apply same_right; [exact no4|]. apply same_right; [exact no4|]. apply same_both. apply same_left; [exact no5|]. apply same_nil.
  - apply same_both, same_both, same_nil.
  - apply same_both. apply same_right; [exact no5|]. apply same_nil.
Qed.
Lemma graph_ok_b : forall n g, length g = n -> forallb (forallb (fun y => y <? n)) g = true -> graph_ok n g.
Proof.
  intros n g L H. split; [exact L|]. intros x nbrs y E Hy. rewrite forallb_forall in H. pose proof (H nbrs (nth_error_In _ _ E)) as Q. rewrite forallb_forall in Q. apply Nat.ltb_lt. exact (Q y Hy).
Qed.

(** The filtered answers are the same; without filter they are not. *)
Lemma day_search : agree 6 a_only day night day_far night_far /\ graph_ok 6 day_graph /\ graph_ok 6 night_graph /\
  (forall id l l', point_matches day a_only id -> nth_error day_graph id = Some l -> nth_error night_graph id = Some l' -> same_among (point_matches day a_only) l l') /\
  (forall x id, In x a_only -> medoid_of [("a"%string, 1)] x = Some id -> id < 6 /\ point_matches day a_only id) /\
  vamana_search isort (mkI 6 (seq 10 6) day [("a"%string, 1)] 0 day_graph) day_far 3 3 a_only [0; 0; 0] (repeat f32_zero 3) = Ok ([13; 11; 12], map f32_of_Z [2; 4; 7]%Z, 3) /\
  vamana_search isort (mkI 6 (seq 10 6) night [("a"%string, 1)] 2 night_graph) night_far 3 3 a_only [0; 0; 0] (repeat f32_zero 3) = Ok ([13; 11; 12], map f32_of_Z [2; 4; 7]%Z, 3) /\
  vamana_search isort (mkI 6 (seq 10 6) day [("a"%string, 1)] 0 day_graph) day_far 3 3 [] [0; 0; 0] (repeat f32_zero 3) <>
  vamana_search isort (mkI 6 (seq 10 6) night [("a"%string, 1)] 0 night_graph) night_far 3 3 [] [0; 0; 0] (repeat f32_zero 3).
Proof.
  split; [exact day_agree|]. split; [apply graph_ok_b; vm_compute; reflexivity|]. split; [apply graph_ok_b; vm_compute; reflexivity|]. split; [exact day_edges|].
  split; [|split; [vm_compute; reflexivity|split; [vm_compute; reflexivity|vm_compute; congruence]]].
  intros x id [<-|[]] E. injection E as <-. split; [lia|]. apply (day_points 1). lia.
Qed.

Definition day_lists : list (list nat) := [[0; 4; 3]; [1; 5; 2]].
Definition night_lists : list (list nat) := [[5; 0; 3]; [1; 2; 4]].
Lemma day_ivf : agree 6 a_only day night day_far night_far /\ Forall2 (same_among (point_matches day a_only)) day_lists night_lists /\
  ivf_search pop_all 10 (mkIvf 6 [] 2 day_lists day) (far_table [5; 7]%Z) day_far 2 3 a_only [9; 9; 9] None = Ok ([3; 1; 2], None, 3, 4) /\
  ivf_search pop_all 10 (mkIvf 6 [] 2 night_lists night) (far_table [5; 7]%Z) night_far 2 3 a_only [9; 9; 9] None = Ok ([3; 1; 2], None, 3, 4).
Proof.
  split; [exact day_agree|]. split; [|split; vm_compute; reflexivity]. constructor; [|constructor; [|constructor]].
  - apply same_right; [exact no5|]. apply same_both. apply same_left; [exact no4|]. apply same_both, same_nil.
  - apply same_both. apply same_left; [exact no5|]. apply same_both. apply same_right; [exact no4|]. apply same_nil.
Qed.

(** One table with no planes: every vector has the key 0. *)
Lemma day_lsh : Forall2 (same_table (point_matches day a_only)) [mkT [] [(0%N, [0; 4; 3])]] [mkT [] [(0%N, [5; 0; 3])]] /\
  answer_of (lsh_search seq_dot (mkLsh 6 [] day 1 0 [mkT [] [(0%N, [0; 4; 3])]]) [] day_far 3 a_only [9; 9; 9] None) = Ok ([3; 0; 9], None, 2, 2) /\
  answer_of (lsh_search seq_dot (mkLsh 6 [] night 1 0 [mkT [] [(0%N, [5; 0; 3])]]) [] night_far 3 a_only [9; 9; 9] None) = Ok ([3; 0; 9], None, 2, 2).
Proof.
  split; [|split; vm_compute; reflexivity]. constructor; [|constructor]. split; [reflexivity|]. intros k. unfold bucket. cbn [t_map map_get]. destruct (N.ltb _ _); [apply same_nil|]. destruct (N.eqb _ _); [|apply same_nil].
  apply same_right; [exact no5|]. apply same_both. apply same_left; [exact no4|]. apply same_both, same_nil.
Qed.
