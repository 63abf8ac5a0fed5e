(** * Vocabulary for HNSW. *)
From Coq Require Import List Arith Bool Sorting.Sorted Sorting.Permutation.
From Verif Require Import Base Float32 PoolModel SortSpec GraphSpec GreedyModel SearchSpec SearchModel PruneModel BuildModel EntrySpec HnswModel.
Import ListNotations.

(** Every level is a well-formed index and the tags of a level are points of the
    level above. *)
Fixpoint levels_ok (levels : hnsw) : Prop :=
  match levels with
  | [] => False
  | ix :: inner =>
      index_ok ix /\
      match inner with
      | [] => True
      | inn :: _ => (forall t, In t (ix_tags inn) -> t < ix_n ix) /\ levels_ok inner
      end
  end.

(** Degree bound on all levels, and no level lists a node as its own neighbour. *)
Definition levels_degree (R : nat) (levels : hnsw) : Prop :=
  forall ix x l, In ix levels -> nth_error (ix_graph ix) x = Some l ->
    length l <= R /\ ~ In x l.

(** Valid input of the build: at every level at least ten points, a distance to the
    centroid for each, a sample of points in increasing order. *)
Fixpoint choices_ok (n : nat) (cs : list hchoice) : Prop :=
  match cs with
  | [] => False
  | c :: rest =>
      10 <= n /\ length (hc_centroid c) = n /\ (forall d, In d (hc_centroid c) -> is_nan d = false) /\
      (forall i, In i (hc_sched c) -> i < n) /\ Permutation (hc_order c) (seq 0 n) /\
      match rest with
      | [] => True
      | _ :: _ => (forall i, In i (hc_sample c) -> i < n) /\ StronglySorted lt (hc_sample c) /\
                  choices_ok (length (hc_sample c)) rest
      end
  end.

Record hinput_ok (sortf : list neighbor -> list neighbor) (prm : bparams) (sp : space) (tags : list nat)
    (cs : list hchoice) : Prop := {
  ho_sort : sorts sortf;
  ho_L : 1 <= bp_L prm;
  ho_nan : forall a b, is_nan (sp_pd sp a b) = false;
  ho_lab : sp_filtered sp = false;
  ho_tags : length tags = sp_n sp;
  ho_cs : choices_ok (sp_n sp) cs
}.

(** The points a level is entered at: its start node, or what the search of the
    inner levels reports, as ids of this level. *)
Definition handed_down (sortf : list neighbor -> list neighbor) (L res_count : nat) (ix : gindex) (inner : hnsw)
    (dist : nat -> f32) (entry : list nat) : Prop :=
  match inner with
  | [] => entry = [ix_start ix]
  | inn :: _ =>
      exists ids indices distances,
        hnsw_search sortf inner (inner_dist inn dist) L res_count [] (repeat 0 L) (repeat f32_zero L) =
          Ok (indices, distances, length ids) /\
        reports (ix_n inn) (ix_tags inn) (inner_dist inn dist) indices distances ids /\
        entry = firstn (length ids) indices /\
        Forall2 (fun i e => nth_error (ix_tags inn) i = Some e) ids entry
  end.

(** What the levels are built from: size, tags and entry point of each. *)
Fixpoint built_from (n : nat) (tags : list nat) (cs : list hchoice) (levels : hnsw) : Prop :=
  match cs, levels with
  | c :: rest, ix :: inner =>
      ix_n ix = n /\ ix_tags ix = tags /\ first_min (hc_centroid c) (ix_start ix) /\
      match rest with
      | [] => inner = []
      | _ :: _ => built_from (length (hc_sample c)) (hc_sample c) rest inner
      end
  | _, _ => False
  end.

(** Same random numbers and same cleanup order, another interleaving. *)
Definition other_schedule (c c' : hchoice) : Prop :=
  hc_sample c' = hc_sample c /\ hc_centroid c' = hc_centroid c /\ hc_order c' = hc_order c.

(** Every pick of the schedule is a task that is not finished. *)
Fixpoint h_busy (env : henv) (st : bstate) (sched : list nat) : Prop :=
  match sched with
  | [] => True
  | i :: rest =>
      (exists t, nth_error (bs_tasks st) i = Some t /\ task_done t = false) /\
      forall st', h_step env st i = Ok st' -> h_busy env st' rest
  end.

(** Number of points of the innermost level, and its choices. *)
Fixpoint innermost (n : nat) (cs : list hchoice) : option (nat * hchoice) :=
  match cs with
  | [] => None
  | c :: rest =>
      match rest with
      | [] => Some (n, c)
      | _ :: _ => innermost (length (hc_sample c)) rest
      end
  end.
