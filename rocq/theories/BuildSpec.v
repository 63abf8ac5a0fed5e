(** * Vocabulary for statements about the concurrent build. *)
From Coq Require Import List Arith Bool.
From Verif Require Import Base PruneModel BuildModel.
Import ListNotations.

(** ceil(1.3 R) *)
Definition slack (R : nat) : nat := (13 * R + 9) / 10.

(** Every pick of the schedule is a task that is not finished. *)
Fixpoint busy (env : benv) (st : bstate) (sched : list nat) : Prop :=
  match sched with
  | [] => True
  | i :: rest =>
      (exists t, nth_error (bs_tasks st) i = Some t /\ task_done t = false) /\
      forall st', build_step env st i = Ok st' -> busy env st' rest
  end.

(** How often the task of [loc] appends its own links in a run. *)
Fixpoint links (env : benv) (st : bstate) (sched : list nat) (loc : nat) : nat :=
  match sched with
  | [] => 0
  | i :: rest =>
      (match nth_error (bs_tasks st) i with
       | Some (TLink _) => if i =? loc then 1 else 0
       | _ => 0
       end) +
      match build_step env st i with
      | Ok st' => links env st' rest loc
      | _ => 0
      end
  end.

(** Steps at which something happens. *)
Fixpoint moving (env : benv) (st : lstate) (sched : list nat) : Prop :=
  match sched with
  | [] => True
  | i :: rest => i < sp_n (be_sp env) /\ exists st', lock_step env st i = Ok (Some st') /\ moving env st' rest
  end.

(** What add_reciprocal_edges does to the list of one target. *)
Inductive recip_outcome (env : benv) (loc des : nat) (old new : list nat) : Prop :=
| ro_there : In loc old -> new = old -> recip_outcome env loc des old new
| ro_append : 10 * length old < 13 * bp_R (be_prm env) -> new = old ++ [loc] -> recip_outcome env loc des old new
| ro_reprune : 13 * bp_R (be_prm env) <= 10 * length old -> reprune env des (old ++ [loc]) = Ok new ->
    recip_outcome env loc des old new.

