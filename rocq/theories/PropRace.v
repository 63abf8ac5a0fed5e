(** * Theorems: data races of the build (C91). *)
From Coq Require Import String List Arith Lia Bool.
From Verif Require Import Base Float32 SortSpec SortInst SearchModel PruneModel BuildModel BuildSpec BuildWitness RaceModel RaceSpec RaceProofs RaceProofs2.
Import ListNotations.

(** C91.  For every data set, every interleaving and every degree bound but 1, 2, 4, 5, 7
    and 8: no two threads of a build are ever about to touch the same memory of an
    adjacency list, one of them writing. *)
Theorem C91_no_race : forall env sched rs, sorts (be_sort env) -> build_input_ok env -> (forall i, In i sched -> i < sp_n (be_sp env)) ->
  ~ In (bp_R (be_prm env)) [1; 2; 4; 5; 7; 8] -> race_run env (race_init env) sched = Ok rs -> ~ race env rs.
Proof. exact no_race_small. Qed.
Print Assumptions C91_no_race.

(** C91.  These are the builds of C16 to C18: every schedule runs, and the capacities do
    not change what the threads do. *)
Theorem C91_runs : forall env sched, sorts (be_sort env) -> build_input_ok env -> (forall i, In i sched -> i < sp_n (be_sp env)) ->
  exists rs, race_run env (race_init env) sched = Ok rs /\ lock_run env (lock_init env) sched = Ok (fst rs).
Proof. exact race_runs. Qed.
Print Assumptions C91_runs.

(** C91.  For each of these six degree bounds there is a build with a race: one thread
    reads the storage bounds of its list while another replaces the storage. *)
Theorem C91_no_race_refuted : forall R, In R [1; 2; 4; 5; 7; 8] -> exists env sched rs, sorts (be_sort env) /\ build_input_ok env /\
  (forall i, In i sched -> i < sp_n (be_sp env)) /\ bp_R (be_prm env) = R /\ race_run env (race_init env) sched = Ok rs /\ race env rs.
Proof. exact race_found. Qed.
Print Assumptions C91_no_race_refuted.

(** C91.  Every access holds the lock of its list, exclusively if it writes; the only
    exception is a thread's test of the capacity of its own list. *)
Theorem C91_locked : forall env sched rs i a, sorts (be_sort env) -> build_input_ok env -> (forall i, In i sched -> i < sp_n (be_sp env)) ->
  race_run env (race_init env) sched = Ok rs -> about_to env rs i a ->
  (exists w, holds rs i (a_list a) w /\ (a_write a = true -> w = true)) \/ a = mkA i Bounds false.
Proof. exact locked_run. Qed.
Print Assumptions C91_locked.

(** C91.  That exception calls reserve on a vector while another thread, holding its lock,
    appends to it: a data race as far as the C++ library promises anything, with the
    default degree bound 64. *)
Theorem C91_unlocked_reserve_refuted : exists env sched rs i j, sorts (be_sort env) /\ build_input_ok env /\ bp_R (be_prm env) = 64 /\
  (forall i, In i sched -> i < sp_n (be_sp env)) /\ race_run env (race_init env) sched = Ok rs /\ i <> j /\
  about_to env rs i (mkA i Bounds false) /\ (forall x w, ~ holds rs i x w) /\
  about_to env rs j (mkA i Items true) /\ holds rs j i true.
Proof. exact unlocked_reserve. Qed.
Print Assumptions C91_unlocked_reserve_refuted.

(** C91.  The accesses are all there is: a step changes a list, or its capacity, only where
    it is about to write ... *)
Theorem C91_changes : forall env sched rs i rs' x, sorts (be_sort env) -> build_input_ok env -> (forall i, In i sched -> i < sp_n (be_sp env)) ->
  race_run env (race_init env) sched = Ok rs -> race_step env rs i = Ok (Some rs') ->
  (adjacency rs' x <> adjacency rs x -> about_to env rs i (mkA x Items true)) /\
  (capacity rs' x <> capacity rs x -> about_to env rs i (mkA x Bounds true)).
Proof. exact changes_run. Qed.
Print Assumptions C91_changes.

(** C91.  ... and what it does depends only on what it is about to access: with all other
    lists and capacities different, the thread goes on in the same way and leaves the same
    in the memory it accesses. *)
Theorem C91_depends : forall env sched rs rs2 i rs', sorts (be_sort env) -> build_input_ok env -> (forall i, In i sched -> i < sp_n (be_sp env)) ->
  race_run env (race_init env) sched = Ok rs -> race_step env rs i = Ok (Some rs') ->
  tasks_and_locks rs2 = tasks_and_locks rs ->
  length (bs_graph (ls_b (fst rs2))) = length (bs_graph (ls_b (fst rs))) -> length (snd rs2) = length (snd rs) ->
  (forall a, about_to env rs i a -> match a_part a with
     | Items => adjacency rs2 (a_list a) = adjacency rs (a_list a)
     | Bounds => capacity rs2 (a_list a) = capacity rs (a_list a) end) ->
  exists rs2', race_step env rs2 i = Ok (Some rs2') /\ tasks_and_locks rs2' = tasks_and_locks rs' /\
    (forall a, about_to env rs i a -> match a_part a with
       | Items => adjacency rs2' (a_list a) = adjacency rs' (a_list a)
       | Bounds => capacity rs2' (a_list a) = capacity rs' (a_list a) end).
Proof. exact depends_run. Qed.
Print Assumptions C91_depends.

(** Fourteen points on a line, R = 64: thread 4 is before its reserve, thread 0 holds the
    lock of list 4 and is about to append to it; the step of thread 0 changes list 4. *)
Example C91_case : sorts (be_sort (race_env 64)) /\ build_input_ok (race_env 64) /\ ~ In (bp_R (be_prm (race_env 64))) [1; 2; 4; 5; 7; 8] /\
  exists rs rs', race_run (race_env 64) (race_init (race_env 64)) ([4; 4; 4] ++ repeat 0 7) = Ok rs /\
    race_step (race_env 64) rs 0 = Ok (Some rs') /\ adjacency rs 4 = Some [] /\ adjacency rs' 4 = Some [0] /\ capacity rs' 4 = Some 87.
Proof.
  split; [exact isort_sorts|]. split; [apply race_env_ok|]. split; [cbn; lia|].
  eexists. eexists. split; [vm_compute; reflexivity|]. split; [vm_compute; reflexivity|]. vm_compute. auto.
Qed.
