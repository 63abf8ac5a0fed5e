(** * A search that sees three of six points. *)
From Coq Require Import NArith ZArith String List Arith Lia Bool.
From Verif Require Import Base Float32 PoolModel FilterSpec SortInst SortSpec GraphSpec GreedyModel SearchModel ClosestModel PopInst FlatModel IvfModel LshModel HideSpec LongerCases LocalSpec LocalSpec2.
Import ListNotations.

Definition road : graph := [[1]; [0; 2]; [1; 3]; [2; 4]; [3; 5]; [4]].
Definition road_far : nat -> f32 := far_table [4; 1; 2; 5; 10; 17]%Z.
(** The same for whoever stays between 0 and 2. *)
Definition road2 : graph := [[1]; [0; 2]; [5; 5]; []; [0]; [2]].
Definition road2_far : nat -> f32 := far_table [4; 1; 2; 0; 30; 0]%Z.
Definition plain : label_ctx := mkL [] false ""%string.
Definition seen_of (r : res gstate) : list nat * list nat := match r with Ok st => (p_ins (g_pool st), map nid (g_exp st)) | _ => ([], []) end.

Lemma road_case : seen_of (greedy_search isort 6 road_far (passes_filter plain []) 1 road [0]) = ([2; 1; 0], [1; 0]) /\
  (forall x, In x [2; 1; 0] -> road2_far x = road_far x) /\ (forall x, In x [1; 0] -> nth_error road2 x = nth_error road x) /\
  greedy_search isort 6 road2_far (passes_filter plain []) 1 road2 [0] = greedy_search isort 6 road_far (passes_filter plain []) 1 road [0] /\
  greedy_search isort 6 road2_far (passes_filter plain []) 3 road2 [0] <> greedy_search isort 6 road_far (passes_filter plain []) 3 road [0].
Proof.
  split; [vm_compute; reflexivity|]. split; [intros x [<-|[<-|[<-|[]]]]; reflexivity|]. split; [intros x [<-|[<-|[]]]; reflexivity|]. split; [vm_compute; reflexivity|vm_compute; congruence].
Qed.

(** Two islands: 0, 1, 2 and 3, 4, 5. *)
Definition isles : gindex := mkI 6 (seq 10 6) plain [] 0 [[1]; [0; 2]; [1]; [4; 2]; [3]; [3]].
Definition isles2 : graph := [[1]; [0; 2]; [1]; [9]; []].
Lemma isles_reach : forall x, reach (fun _ => true) (ix_graph isles) (fun y => y = 0) x -> x < 3.
Proof.
  intros x H. induction H as [x E|x y H IH [l [E [Hy _]]]]; [lia|]. assert (C : x = 0 \/ x = 1 \/ x = 2) by lia.
  destruct C as [->|[->| ->]]; injection E as <-; cbn in Hy; lia.
Qed.
Lemma isles_case : index_ok isles /\ (forall x, reach (fun _ => true) (ix_graph isles) (fun y => y = ix_start isles) x -> road2_far x = road_far x /\ nth_error isles2 x = nth_error (ix_graph isles) x) /\
  rng_search isort isles road_far 5 2 [] [0; 0] [f32_zero; f32_zero] = Ok ([11; 12], map f32_of_Z [1; 2]%Z, 2) /\
  rng_search isort (mkI 6 (seq 10 6) plain [] 0 isles2) road2_far 5 2 [] [0; 0] [f32_zero; f32_zero] = Ok ([11; 12], map f32_of_Z [1; 2]%Z, 2).
Proof.
  split; [|split; [|split; vm_compute; reflexivity]].
  - split; [cbn; lia|]. split; [|split; [reflexivity|split; [cbn; lia|intros x id []]]]. split; [reflexivity|]. intros x l y E Hy. cbn [ix_n isles] in *.
    do 6 (destruct x as [|x]; [injection E as <-; cbn in Hy; lia|]). cbn in E. destruct x; discriminate E.
  - intros x H. apply isles_reach in H. assert (C : x = 0 \/ x = 1 \/ x = 2) by lia. destruct C as [->|[->| ->]]; split; reflexivity.
Qed.

(** Two of three lists are probed: the third one, and the points in it, may be anything. *)
Definition inn : label_ctx := mkL [["a"]; ["a"]; ["b"]; ["a"]]%string false ""%string.
Definition inn2 : label_ctx := mkL [["a"]; ["a"]; ["b"]; ["c"; "d"]]%string false ""%string.
Lemma inn_case : compute_closest pop_all 10 (fun _ => far_table [5; 1; 3]%Z) 1 3 2 (one_point_order 2) (repeat 0 2) None = Ok ([1; 2], None) /\
  (forall x, In x [0; 1; 2] -> far_table [6; 2; 1; 0]%Z x = far_table [6; 2; 1; 9]%Z x /\ same_labels inn inn2 x) /\
  ivf_search pop_all 10 (mkIvf 4 [] 3 [[3]; [0; 1]; [2]] inn) (far_table [5; 1; 3]%Z) (far_table [6; 2; 1; 9]%Z) 2 3 ["a"%string] [9; 9; 9] None = Ok ([1; 0; 9], None, 2, 2) /\
  ivf_search pop_all 10 (mkIvf 4 [] 3 [[0; 3; 7]; [0; 1]; [2]] inn2) (far_table [5; 1; 3]%Z) (far_table [6; 2; 1; 0]%Z) 2 3 ["a"%string] [9; 9; 9] None = Ok ([1; 0; 9], None, 2, 2).
Proof.
  split; [vm_compute; reflexivity|]. split; [intros x [<-|[<-|[<-|[]]]]; (split; [reflexivity|split; [reflexivity|split; reflexivity]])|]. split; vm_compute; reflexivity.
Qed.
(** A table without planes has one key, 0; what is under other keys is not read. *)
Lemma inn_lsh : get_hash seq_dot (mkT [] [(0%N, [0; 1]); (5%N, [3])]) [] = 0%N /\
  answer_of (lsh_search seq_dot (mkLsh 4 [] inn 1 0 [mkT [] [(0%N, [0; 1]); (5%N, [3])]]) [] (far_table [6; 2; 1; 9]%Z) 3 ["a"%string] [9; 9; 9] None) = Ok ([1; 0; 9], None, 2, 2) /\
  answer_of (lsh_search seq_dot (mkLsh 4 [] inn2 1 0 [mkT [] [(0%N, [0; 1]); (6%N, [1; 8])]]) [] (far_table [6; 2; 1; 0]%Z) 3 ["a"%string] [9; 9; 9] None) = Ok ([1; 0; 9], None, 2, 2).
Proof. repeat split; vm_compute; reflexivity. Qed.
