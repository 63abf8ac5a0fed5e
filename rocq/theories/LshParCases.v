(** A small LSH index and two queries. *)
From Coq Require Import ZArith NArith String List Arith Lia Bool.
From Verif Require Import Base Float32 PoolModel FlatModel LshModel LshSpec LshProofs LshParModel LshParSpec LshParProofs.
Import ListNotations.

(** Two tables of two hyperplanes (coefficients 1.0 and -1.0) and four points. *)
Definition par_planes : list (list (list N)) :=
  [[[1065353216; 1065353216]; [1065353216; 3212836864]]; [[1065353216; 0]; [0; 1065353216]]]%N.
Definition par_points (i : nat) : list f32 :=
  match i with
  | 0 => [f32_of_Z 1; f32_of_Z 2] | 1 => [f32_of_Z 2; f32_of_Z 1]
  | 2 => [f32_of_Z (-3); f32_of_Z 1] | _ => [f32_of_Z (-1); f32_of_Z (-4)]
  end.
Definition par_new : lsh_index := mkLsh 4 [0; 1; 2; 3] (mkL [] true "0"%string) 0%N 0%N [].
Definition par_index : lsh_index :=
  mkLsh 4 [0; 1; 2; 3] (mkL [] true "0"%string) 2%N 2%N
    [mkT (nth 0 par_planes []) [(0%N, [2]); (1%N, [0]); (2%N, [3]); (3%N, [1])]; mkT (nth 1 par_planes []) [(0%N, [3]); (2%N, [2]); (3%N, [0; 1])]].

Lemma par_built : lsh_build seq_dot par_points 2 par_planes par_new = Ok par_index.
Proof. vm_compute. reflexivity. Qed.

(** No point lies where (9, -1) does with respect to the second table. *)
Definition par_q : list f32 := [f32_of_Z 9; f32_of_Z (-1)].

Lemma par_missing : forall id, id < 4 -> sign_pattern seq_dot (nth 1 par_planes []) (par_points id) <> sign_pattern seq_dot (nth 1 par_planes []) par_q.
Proof. intros [|[|[|[|id]]]] H; try lia; vm_compute; discriminate. Qed.

Lemma par_race : exists dotf data ts planes ix ix' qs st, (ts <= 64)%N /\ length (l_tags ix) = l_n ix /\ lsh_new ix /\ lsh_build dotf data ts planes ix = Ok ix' /\
  length qs = 2 /\ reachable dotf (l_tables ix') qs st /\ race dotf qs st.
Proof.
  destruct (proj2 (built_race seq_dot par_points 2 par_planes par_new par_index [par_q; par_points 2] ltac:(lia) eq_refl eq_refl par_built)) as [st [R C]].
  - split; [cbn; lia|]. exists par_q, (nth 1 par_planes []). split; [left; reflexivity|]. split; [right; left; reflexivity|exact par_missing].
  - exists seq_dot, par_points, 2%N, par_planes, par_new, par_index, [par_q; par_points 2], st. repeat (split; [first [lia|reflexivity|exact par_built]|]). split; [exact R|exact C].
Qed.

(** Three searches interleaved: the answers, and the one key that was added. *)
Lemma par_case : exists st, par_run seq_dot [par_q; par_points 2; par_points 0] [2; 0; 1; 0; 2; 1] (par_init (l_tables par_index) 3) = Some st /\
  p_threads st = [(2, [1]); (2, [2; 2]); (2, [0; 0; 1])] /\ map t_map (p_tables st) = [[(0%N, [2]); (1%N, [0]); (2%N, [3]); (3%N, [1])]; [(0%N, [3]); (1%N, []); (2%N, [2]); (3%N, [0; 1])]].
Proof. eexists. split; [vm_compute; reflexivity|]. split; vm_compute; reflexivity. Qed.
