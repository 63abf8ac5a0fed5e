(** Vocabulary for builds that run at the same time. *)
From Coq Require Import String List Arith.
From Verif Require Import Base IndexFileModel ToolModel UtilCmdSpec TempModel.

(** Between writing /tmp/temp_data and removing it. *)
Definition in_window (s : hstate) : Prop := match s with HWritten _ _ _ | HMade _ _ _ => True | _ => False end.

(** At no time are two processes in such a window. *)
Definition windows_apart (tools : list htool) (sched : list nat) (d : fs) : Prop :=
  forall k i j, let s := fst (h_together tools (firstn k sched) d) in in_window (s i) -> in_window (s j) -> i = j.

(** The processes save under different names, none of which is the name of a data file or
    of the temporary file, and the latter is not a data file. *)
Definition names_apart (tools : list htool) : Prop :=
  (forall i t, nth_error tools i = Some t -> ht_data t <> temp_name /\ ~ begins (ht_path t) temp_name) /\
  (forall i j t u, nth_error tools i = Some t -> nth_error tools j = Some u -> i <> j ->
     ~ begins (ht_path u) (ht_data t) /\ forall m, begins (ht_path t) m -> ~ begins (ht_path u) m).

(** How often process [i] is scheduled. *)
Definition steps_of (i : nat) (sched : list nat) : nat := count_occ Nat.eq_dec sched i.

(** The process ended as the tool did that returned [r]: with the same levels, and the files
    of the index alike; or with the same failure. *)
Definition ended_as (path : string) (s : hstate) (d : fs) (r : res (list gann * fs)) : Prop :=
  match r with
  | Ok (levels, d') => s = HDone levels /\ forall m, begins path m -> d m = d' m
  | UB => s = HFailed UB | Throw => s = HFailed Throw | Exit => s = HFailed Exit | Fuel => s = HFailed Fuel
  end.
