(** * Theorems: several threads searching one LSH index (C96). *)
From Coq Require Import ZArith NArith String List Arith Lia Bool.
From Verif Require Import Base Float32 PoolModel FlatModel LshModel LshSpec LshProofs LshParModel LshParSpec LshParProofs LshParCases.
Import ListNotations.

(** C96.  On a freshly built index two searches can race exactly if, for some query and some
    table, no indexed point has the query's sign pattern. *)
Theorem C96_race_iff : forall dotf data ts planes ix ix' qs, (ts <= 64)%N -> length (l_tags ix) = l_n ix -> lsh_new ix -> lsh_build dotf data ts planes ix = Ok ix' ->
  ((exists st, reachable dotf (l_tables ix') qs st /\ race dotf qs st) <->
   2 <= length qs /\ exists q hps, In q qs /\ In hps planes /\ forall id, id < l_n ix -> sign_pattern dotf hps (data id) <> sign_pattern dotf hps q).
Proof. exact built_race. Qed.
Print Assumptions C96_race_iff.

(** The same for any tables with ordered keys, such as those left by earlier searches. *)
Theorem C96_race_any : forall dotf ts qs, (forall t, In t ts -> keys_sorted (t_map t)) ->
  ((exists st, reachable dotf ts qs st /\ race dotf qs st) <-> 2 <= length qs /\ exists q t, In q qs /\ In t ts /\ ~ has_key dotf t q).
Proof. exact race_iff. Qed.
Print Assumptions C96_race_any.

(** So searching from several threads is not safe. *)
Theorem C96_always_safe_refuted : exists dotf data ts planes ix ix' qs st, (ts <= 64)%N /\ length (l_tags ix) = l_n ix /\ lsh_new ix /\ lsh_build dotf data ts planes ix = Ok ix' /\
  length qs = 2 /\ reachable dotf (l_tables ix') qs st /\ race dotf qs st.
Proof. exact par_race. Qed.
Print Assumptions C96_always_safe_refuted.

(** Without a race nothing is written: the tables stay as they are in every schedule. *)
Theorem C96_unchanged : forall dotf ts qs st, (forall t, In t ts -> keys_sorted (t_map t)) -> (forall q t, In q qs -> In t ts -> has_key dotf t q) ->
  reachable dotf ts qs st -> p_tables st = ts.
Proof. exact present_unchanged. Qed.
Print Assumptions C96_unchanged.

(** If lookups do not overlap (no race, or a lock around them), each search answers in every
    schedule exactly as it would alone, whatever the others look up. *)
Theorem C96_answers : forall dotf ix qs st i q cands dist m filters indices distances, reachable dotf (l_tables ix) qs st ->
  nth_error qs i = Some q -> nth_error (p_threads st) i = Some (length (l_tables ix), cands) ->
  par_answer ix cands dist m filters indices distances = (do r <- lsh_search dotf ix q dist m filters indices distances; Ok (fst r)).
Proof. exact answers_alone. Qed.
Print Assumptions C96_answers.

(** When all are through, the tables are those of searching one after the other. *)
Theorem C96_end_state : forall dotf ts qs st, reachable dotf ts qs st -> finished st -> p_tables st = one_by_one dotf qs ts.
Proof. exact tables_at_end. Qed.
Print Assumptions C96_end_state.

(** They get through: while one is not, a step is possible, and there are at most as many
    steps as queries times tables. *)
Theorem C96_progress : forall dotf ts qs, (forall st, reachable dotf ts qs st -> ~ finished st -> exists i st', par_step dotf qs st i = Some st') /\
  (forall sched st, par_run dotf qs sched (par_init ts (length qs)) = Some st -> length sched <= length qs * length ts).
Proof. intros dotf ts qs. split; [exact (progress dotf ts qs)|exact (steps_bound dotf ts qs)]. Qed.
Print Assumptions C96_progress.

(** Four points, two tables; three searches take turns.  The second table gets the key 1. *)
Example C96_case : lsh_build seq_dot par_points 2 par_planes par_new = Ok par_index /\
  (forall id, id < 4 -> sign_pattern seq_dot (nth 1 par_planes []) (par_points id) <> sign_pattern seq_dot (nth 1 par_planes []) par_q) /\
  exists st, par_run seq_dot [par_q; par_points 2; par_points 0] [2; 0; 1; 0; 2; 1] (par_init (l_tables par_index) 3) = Some st /\
    p_threads st = [(2, [1]); (2, [2; 2]); (2, [0; 0; 1])] /\
    map t_map (p_tables st) = [[(0%N, [2]); (1%N, [0]); (2%N, [3]); (3%N, [1])]; [(0%N, [3]); (1%N, []); (2%N, [2]); (3%N, [0; 1])]].
Proof. split; [exact par_built|]. split; [exact par_missing|exact par_case]. Qed.
