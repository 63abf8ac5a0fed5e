(** * Concrete sessions for the build tools: points on a line. *)
From Coq Require Import ZArith NArith String List Arith Lia Bool Permutation Sorting.Sorted.
From Verif Require Import Base Float32 Float32Facts DivFacts Bytes StreamModel BinModel BinSpec TextModel PoolModel FilterSpec SortSpec SortInst GreedyModel SearchModel PruneModel
  BuildModel BuildWitness HnswModel HnswSpec ClosestModel ClosestSpec IvfModel LshModel IndexFileModel IndexFileSpec SystemModel SystemSpec SystemWitness ToolModel ToolSpec.
Import ListNotations.
Local Open Scope string_scope.

(** Distances on the line, at most 20. *)
Definition t_pd (p q : vec) : f32 := f32_of_Z (Z.min 20 (Z.abs (s_first p - s_first q))).

Lemma small_cases : forall (P : f32 -> bool), forallb P (map (fun i => f32_of_Z (Z.of_nat i)) (seq 0 21)) = true ->
  forall z, P (f32_of_Z (Z.min 20 (Z.abs z))) = true.
Proof.
  intros P H z. rewrite forallb_forall in H. apply H. apply in_map_iff. exists (Z.to_nat (Z.min 20 (Z.abs z))).
  split; [rewrite Z2Nat.id by lia; reflexivity|]. apply in_seq. lia.
Qed.

Lemma t_dissim : vec_dissim t_pd.
Proof.
  constructor; intros; unfold t_pd.
  - f_equal. lia.
  - apply (small_cases (fle f32_zero)). reflexivity.
  - apply small_cases. reflexivity.
  - rewrite Z.sub_diag. reflexivity.
Qed.

Lemma t_finite : forall p q, finite (t_pd p q).
Proof.
  intros p q. unfold t_pd. split.
  - apply negb_true_iff. apply (small_cases (fun x => negb (is_nan x))). reflexivity.
  - apply (small_cases (fun x => flt x FLT_MAX)). reflexivity.
Qed.

(** The files of SystemWitness and a file of twelve points. *)
Definition t_data : list N := (u32 12 ++ u32 1 ++ [0; 1; 2; 3; 4; 5; 6; 7; 8; 9; 10; 11]%N)%list.
Definition t_fs : fs := fs_set s_fs "big.bin" (Some t_data).
Definition made (data_name labels_name : string) : ann := match construct 1 s_g data_name [] labels_name t_fs with Ok a => a | _ => new_ann 0 0 end.

Ltac t_files := constructor;
  [left; auto | exact s_g_ok
  | intros b H; vm_compute in H; inversion H; repeat constructor
  | vm_compute; reflexivity | vm_compute; reflexivity | intros t [] | intros l Hl; vm_compute in Hl].

Lemma t_files_data : files_ok 1 s_g "data.bin" [] "" t_fs (made "data.bin" "").
Proof. t_files. destruct Hl. Qed.

Lemma t_files_big : files_ok 1 s_g "big.bin" [] "" t_fs (made "big.bin" "").
Proof. t_files. destruct Hl. Qed.

Lemma t_files_lab : files_ok 1 s_g "data.bin" [] "labels.txt" t_fs (made "data.bin" "labels.txt").
Proof. t_files. repeat (destruct Hl as [<-|Hl]; [eexists; split; [left; reflexivity|discriminate]|]). destruct Hl. Qed.

Lemma t_rng : rng_session_ok 1 s_g t_pd "data.bin" [] s_cent (seq 0 10) t_fs (made "data.bin" "").
Proof.
  constructor.
  - exact t_files_data.
  - vm_compute. discriminate.
  - exact t_dissim.
  - split; [reflexivity|]. intros c Hc. unfold s_cent in Hc. apply in_map_iff in Hc. destruct Hc as [i [<- _]]. apply f32_of_Z_not_nan.
  - apply Permutation_refl.
Qed.

(** Ten of the twelve points in the inner level. *)
Definition t_cent (n : nat) : list f32 := map (fun i => f32_of_Z (Z.abs (Z.of_nat i - 4))) (seq 0 n).
Definition t_choices : list hchoice :=
  [mkHC [0; 1; 2; 3; 4; 5; 6; 7; 8; 10] (t_cent 12) (one_thread 12 60) (seq 0 12); mkHC [] (t_cent 10) (one_thread 10 60) (seq 0 10)].
Definition t_prm : bparams := mkB 6 4 750 f12 0.

Lemma t_thread : forall n k i, In i (one_thread n k) -> i < n.
Proof.
  intros n k i H. unfold one_thread in H. apply in_concat in H. destruct H as [l [H1 H2]].
  apply in_map_iff in H1. destruct H1 as [j [<- H1]]. apply repeat_spec in H2. subst. apply in_seq in H1. lia.
Qed.

Lemma t_cent_nan : forall n d, In d (t_cent n) -> is_nan d = false.
Proof. intros n d H. apply in_map_iff in H. destruct H as [i [<- _]]. apply f32_of_Z_not_nan. Qed.

Lemma t_choices_ok : choices_ok 12 t_choices.
Proof.
  cbn [choices_ok t_choices hc_sample hc_centroid hc_sched hc_order].
  split; [lia|]. split; [reflexivity|]. split; [apply t_cent_nan|]. split; [apply t_thread|].
  split; [apply Permutation_refl|]. split; [cbn [In]; intros i Hi; lia|]. split.
  { repeat (constructor; [|repeat (constructor; try lia)]). constructor. }
  split; [cbn [length]; lia|]. split; [reflexivity|]. split; [apply t_cent_nan|]. split; [apply t_thread|].
  split; [apply Permutation_refl|exact I].
Qed.

(** Two clusters with centres at 2 and 7 (their first coordinates here as plain numbers). *)
Definition t_centers : list N := [2; 0; 0; 0; 0; 0; 0; 0; 7; 0; 0; 0; 0; 0; 0; 0]%N.
Definition t_orders (b : nat) : list (nat * nat) := rev (list_prod (seq (b * 10) (min 10 (10 - b * 10))) (seq 0 1)).

Lemma t_ivf : ivf_session_ok 1 s_g 1000 t_pd "data.bin" [] "labels.txt" 2 t_centers t_orders t_fs (made "data.bin" "labels.txt").
Proof.
  constructor.
  - exact t_files_lab.
  - vm_compute. discriminate.
  - lia.
  - lia.
  - reflexivity.
  - intros c Hc. cbn in Hc. repeat (destruct Hc as [<-|Hc]; [reflexivity|]). destruct Hc.
  - reflexivity.
  - reflexivity.
  - change (N.to_nat (a_n (made "data.bin" "labels.txt"))) with 10. intros b. unfold t_orders. change (min 10 1000) with 10. apply Permutation_sym, Permutation_rev.
  - exact t_finite.
Qed.

(** One table of two hyperplanes: the sign of (first + second coordinate) - c for a
    hyperplane with c in its first slot. *)
Definition t_fv (p : vec) : list f32 := [f32_of_Z (s_first p)].
Definition t_dot (hp : list N) (v : list f32) : f32 :=
  fsub (match v with x :: _ => x | [] => f32_zero end) (f32_of_Z (match hp with c :: _ => Z.of_N c | [] => 0%Z end)).
Definition t_planes : list (list (list N)) := [[[3; 0; 0; 0; 0; 0; 0; 0]; [6; 0; 0; 0; 0; 0; 0; 0]]]%N.

Lemma t_lsh : lsh_session_ok 1 s_g "data.bin" [] "labels.txt" 2 t_planes t_fs (made "data.bin" "labels.txt").
Proof.
  constructor.
  - exact t_files_lab.
  - discriminate.
  - reflexivity.
  - intros hps [<-|[]]. split; [reflexivity|]. intros hp [<-|[<-|[]]]; (split; [reflexivity|]); intros x Hx; cbn in Hx;
      repeat (destruct Hx as [<-|Hx]; [reflexivity|]); destruct Hx.
Qed.

Lemma t_sorted : forall x : string, sorted_labels [x].
Proof. intros x. constructor; constructor. Qed.
