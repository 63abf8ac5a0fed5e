(** * Theorems: builds of HNSW indexes that run at the same time (C117).

    Every build keeps the vectors of its inner level for a while in the one file /tmp/temp_data.  [h_together tools sched
    d]: the processes [tools], started on the files [d], take steps in the order [sched] (TempModel.v); [alone t d] is the
    tool of C88, by itself.  [in_window]: the process has written the temporary file and not removed it yet. *)
From Coq Require Import NArith String List Arith.
From Verif Require Import Base Bytes SearchModel BuildModel IndexFileModel SystemModel ToolModel ToolSpec UtilCmdSpec TempModel TempSpec TempProofs TempCases.
Import ListNotations.
Local Open Scope string_scope.

(** C117.  If no two processes are between writing and removing the temporary file at the same time, each ends as if it had
    run alone: with the same levels and the same files, or the same failure.  Nothing else need be apart. *)
Theorem C117_builds_apart : forall tools sched d i t, names_apart tools -> windows_apart tools sched d ->
  nth_error tools i = Some t -> 3 * length (ht_cs t) + 2 <= steps_of i sched ->
  ended_as (ht_path t) (fst (h_together tools sched d) i) (snd (h_together tools sched d)) (alone t d).
Proof. exact builds_apart. Qed.
Print Assumptions C117_builds_apart.

Example C117_builds_apart_case : names_apart p_tools /\ windows_apart p_tools p_sched p_fs /\
  (forall i t, nth_error p_tools i = Some t -> 3 * length (ht_cs t) + 2 <= steps_of i p_sched) /\
  (exists levels d', alone (p_tool "other.bin" "jx") p_fs = Ok (levels, d') /\ length levels = 2) /\
  snd (h_together p_tools p_sched p_fs) "jx_0_data.bin" = Some (u32 10 ++ u32 1 ++ [30; 31; 32; 33; 34; 35; 36; 37; 38; 40]%N)%list.
Proof. exact p_case. Qed.

(** C117.  Under every schedule, if at most one of the builds has an inner level. *)
Theorem C117_one_with_levels : forall tools sched d i t, names_apart tools ->
  (forall i j t u, nth_error tools i = Some t -> nth_error tools j = Some u -> 1 < length (ht_cs t) -> 1 < length (ht_cs u) -> i = j) ->
  nth_error tools i = Some t -> 3 * length (ht_cs t) + 2 <= steps_of i sched ->
  ended_as (ht_path t) (fst (h_together tools sched d) i) (snd (h_together tools sched d)) (alone t d).
Proof. exact builds_single. Qed.
Print Assumptions C117_one_with_levels.

Example C117_one_with_levels_case : exists tools i j t u, i <> j /\ nth_error tools i = Some t /\ nth_error tools j = Some u /\
  length (ht_cs t) = 1 /\ length (ht_cs u) = 2 /\ length tools = 2 /\ names_apart tools.
Proof. exact single_case. Qed.

(** C117.  Without this the answers are wrong and nothing is reported: two builds of two levels on different files, whose
    windows overlap.  The first ends without an error, and its inner level holds none of its own vectors. *)
Theorem C117_vectors_refuted : exists tools sched d t a levels levels' d',
  names_apart tools /\ nth_error tools 0 = Some t /\ (forall i t, nth_error tools i = Some t -> 3 * length (ht_cs t) + 2 <= steps_of i sched) /\
  construct (ht_w t) (ht_g t) (ht_data t) (ht_tags t) "" d = Ok a /\
  alone t d = Ok (levels, d') /\ level_data a levels /\
  fst (h_together tools sched d) 0 = HDone levels' /\ ~ level_data a levels' /\
  forall x y, nth_error levels' 1 = Some x -> In y (a_data (g_ann x)) -> ~ In y (a_data a).
Proof. exact overlap_mixes. Qed.
Print Assumptions C117_vectors_refuted.

(** C117.  Or a build that would have ended well fails, as the other has removed the file. *)
Theorem C117_end_refuted : exists tools sched d t levels d', names_apart tools /\ nth_error tools 1 = Some t /\
  alone t d = Ok (levels, d') /\ fst (h_together tools sched d) 1 = HFailed Throw.
Proof. exact overlap_fails. Qed.
Print Assumptions C117_end_refuted.
