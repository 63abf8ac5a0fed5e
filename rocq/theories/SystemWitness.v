(** * A concrete session: ten points on a line with labels, a build, two queries. *)
From Coq Require Import ZArith NArith String List Arith Lia Bool Permutation.
From Verif Require Import Base Float32 Float32Facts Bytes BinModel BinSpec TextModel PoolModel SortSpec SortInst GreedyModel PruneModel BuildModel BuildWitness
  IndexFileModel IndexFileSpec SystemModel SystemSpec.
Import ListNotations.
Local Open Scope string_scope.

Definition s_data : list N := (u32 10 ++ u32 1 ++ [0; 1; 2; 3; 4; 5; 6; 7; 8; 9]%N)%list.
Definition s_lines (l : list string) : string := String.concat "" (map (fun x => x ++ String LF "") l).
Definition s_labels : list N := bytes_of (s_lines ["a"; "b,a"; "b"; "0"; "b"; "a"; "c"; "b"; "c,b"; "b"]).
Definition s_query : list N := (u32 2 ++ u32 1 ++ [7; 0]%N)%list.
Definition s_fs : fs := fun m => if String.eqb m "data.bin" then Some s_data else if String.eqb m "labels.txt" then Some s_labels
  else if String.eqb m "query.bin" then Some s_query else None.

(** The first element of a vector. *)
Definition s_first (p : vec) : Z := match p with Some x :: _ => Z.of_N x | _ => 0%Z end.
Definition s_pd (p q : vec) : f32 := f32_of_Z (Z.abs (s_first p - s_first q)).
Definition s_prm : bparams := mkB 20 4 50 f12 0.
Definition s_g : nat -> list N := fun _ => [7; 7; 7; 7]%N.
Definition s_ann : ann := match construct 1 s_g "data.bin" [] "labels.txt" s_fs with Ok a => a | _ => new_ann 0 0 end.
Definition s_cent : list f32 := map (fun i => f32_of_Z (Z.abs (Z.of_nat i - 4))) (seq 0 10).
Definition s_work : list (label * list nat) := map (fun x => (x, seq 3 25)) ["c"; "0"; "b"; "a"].
Definition s_sched : list nat := one_thread 10 30.

Lemma s_g_ok : garbage_ok s_g.
Proof. intros i. split; [reflexivity|]. unfold s_g, is_bytes. repeat constructor. Qed.

Lemma s_session : session_ok 1 s_g s_pd "data.bin" [] "labels.txt" s_prm s_cent s_work s_sched (seq 0 10) "ix" s_fs s_ann.
Proof.
  constructor.
  - left. auto.
  - exact s_g_ok.
  - intros b H. change (s_fs "data.bin") with (Some s_data) in H. assert (E : b = s_data) by congruence. rewrite E. unfold is_bytes. vm_compute. repeat constructor.
  - vm_compute. reflexivity.
  - vm_compute. reflexivity.
  - intros t [].
  - intros l Hl. vm_compute in Hl. 
    repeat (destruct Hl as [<-|Hl]; [eexists; split; [left; reflexivity|discriminate]|]). destruct Hl.
  - vm_compute. discriminate.
  - cbn. lia.
  - reflexivity.
  - intros p q. apply f32_of_Z_not_nan.
  - split; [reflexivity|]. intros c Hc. unfold s_cent in Hc. apply in_map_iff in Hc. destruct Hc as [i [<- _]]. apply f32_of_Z_not_nan.
  - split.
    + replace (a_labels s_ann) with (rev ["c"; "0"; "b"; "a"]) by (vm_compute; reflexivity). apply Permutation_rev.
    + intros x r Hx. cbn in Hx. repeat (destruct Hx as [E|Hx]; [inversion E; reflexivity|]). destruct Hx.
  - intros i Hi. unfold s_sched, one_thread in Hi. apply in_concat in Hi. destruct Hi as [l [Hl Hi]]. apply in_map_iff in Hl. destruct Hl as [j [<- Hj]].
    apply repeat_spec in Hi. subst i. apply in_seq in Hj. change (N.to_nat (a_n s_ann)) with 10. lia.
  - apply Permutation_refl.
  - intros H. vm_compute in H. discriminate.
Qed.
