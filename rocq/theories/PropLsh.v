(** * Theorems: LSH index (C10, C31, C32, C33, C34, C35, C71).

    [dotf] is any function of a hyperplane and a vector, [data i] the vector of point
    i, [dist id] the distance of the query to point id. *)
From Coq Require Import ZArith NArith String List Arith Lia Bool.
From Verif Require Import Base Float32 Bytes PoolModel TopKSpec FilterSpec SearchSpec SearchModel FlatModel FlatSpec LshModel LshSpec LshProofs AcceptProofs.
Import ListNotations.

(** C32.  Search of a built index returns the nearest among the accepted points that
    share the query's sign pattern in some table, and counts exactly those. *)
Theorem C32_lsh_colliding : forall dotf data ts planes ix q dist m filters indices distances,
  (ts <= 64)%N -> l_tags ix = seq 0 (l_n ix) -> lsh_new ix -> 1 <= m ->
  (filters = [] \/ length (pts_to_labels (l_labels ix)) = l_n ix) ->
  finite_distances (l_n ix) dist -> room m indices distances ->
  exists acc ix' ix'' cands ids indices' distances',
    filter_test (universal_of (l_labels ix)) (pts_to_labels (l_labels ix)) filters acc /\
    lsh_build dotf data ts planes ix = Ok ix' /\
    lsh_search dotf ix' q dist m filters indices distances = Ok ((indices', distances', length ids, length cands), ix'') /\
    NoDup cands /\
    (forall id, In id cands <-> id < l_n ix /\ acc id = true /\ collide dotf planes q (data id)) /\
    is_top_k m (score dist cands) (score dist ids) /\
    holds dist ids indices indices' distances distances'.
Proof. exact lsh_search_test. Qed.
Print Assumptions C32_lsh_colliding.

(** C31.  Searching for the vector of an indexed point finds something at least as
    near as that point. *)
Theorem C31_lsh_finds_indexed : forall dotf data ts planes ix i dist m indices distances,
  (ts <= 64)%N -> l_tags ix = seq 0 (l_n ix) -> lsh_new ix -> planes <> [] -> 1 <= m -> i < l_n ix ->
  finite_distances (l_n ix) dist -> room m indices distances ->
  exists ix' ix'' f rest indices' distances' cmps,
    lsh_build dotf data ts planes ix = Ok ix' /\
    lsh_search dotf ix' (data i) dist m [] indices distances = Ok ((indices', distances', length (f :: rest), cmps), ix'') /\
    holds dist (f :: rest) indices indices' distances distances' /\
    fle (dist f) (dist i) = true.
Proof. exact lsh_finds. Qed.
Print Assumptions C31_lsh_finds_indexed.

(** C10.  Every reported point matches the filter, for any tables that hold valid
    ids. *)
Theorem C10_lsh_filtered : forall dotf ix q dist m filters indices distances, 1 <= m ->
  (forall t l id, In t (l_tables ix) -> In l (map snd (t_map t)) -> In id l -> id < l_n ix) ->
  length (pts_to_labels (l_labels ix)) = l_n ix ->
  finite_distances (l_n ix) dist -> room m indices distances ->
  exists ids ix' indices' distances' cmps,
    lsh_search dotf ix q dist m filters indices distances = Ok ((indices', distances', length ids, cmps), ix') /\
    holds dist ids indices indices' distances distances' /\
    forall id, In id ids -> exists labels, nth_error (pts_to_labels (l_labels ix)) id = Some labels /\
      matches (universal_of (l_labels ix)) filters labels.
Proof. exact lsh_search_filtered. Qed.
Print Assumptions C10_lsh_filtered.

(** C33.  In any sequence of searches on one index every answer is the one the index
    would have given at the start; the index stays the same up to empty buckets. *)
Theorem C33_lsh_repeated : forall dotf qs ix outs ix', lsh_answers dotf ix qs = Ok (outs, ix') ->
  same_index ix ix' /\
  Forall2 (fun q out => exists ix1, lsh_answer dotf ix q = Ok (out, ix1)) qs outs.
Proof. exact lsh_answers_same. Qed.
Print Assumptions C33_lsh_repeated.

(** C33 and C34.  Build, any searches, save, load: exactly the tables that were
    built. *)
Theorem C34_lsh_round_trip : forall dotf data ts planes ix ix1 qs outs ix2 dim fresh,
  lsh_build dotf data ts planes ix = Ok ix1 -> lsh_new ix -> (ts <= 64)%N ->
  (forall hps, In hps planes -> N.of_nat (length hps) = ts /\
     forall hp, In hp hps -> length hp = dim /\ forall x, In x hp -> (x < 2 ^ 32)%N) ->
  (N.of_nat (length planes) < 2 ^ 32)%N -> (N.of_nat (l_n ix) < 2 ^ 32)%N -> (forall t, In t (l_tags ix) -> (N.of_nat t < 2 ^ 32)%N) ->
  lsh_answers dotf ix1 qs = Ok (outs, ix2) ->
  (forall t, In t (l_tables ix2) -> (N.of_nat (length (t_map t)) < 2 ^ 32)%N) ->
  exists ix3, lsh_load dim (lsh_bytes ix2) fresh = Ok ix3 /\ l_tables ix3 = l_tables ix1 /\
    l_num_tables ix3 = l_num_tables fresh /\ l_table_size ix3 = l_table_size fresh.
Proof. exact lsh_life. Qed.
Print Assumptions C34_lsh_round_trip.

(** C34.  A loaded index keeps the table count 0 of its constructor, so saving it
    again and loading that file gives an index without tables, whatever it held. *)
Theorem C34_lsh_resave_loses : forall dim ix fresh, l_num_tables ix = 0%N -> (l_table_size ix < 2 ^ 32)%N ->
  lsh_load dim (lsh_bytes ix) fresh =
    Ok (mkLsh (l_n fresh) (l_tags fresh) (l_labels fresh) (l_num_tables fresh) (l_table_size fresh) []).
Proof. exact lsh_resave. Qed.
Print Assumptions C34_lsh_resave_loses.

(** C35.  A point with a tag not below the number of points: searching for its vector
    reads outside the data. *)
Theorem C35_lsh_tags_refuted : forall dotf data ts planes ix i dist m indices distances,
  (ts <= 64)%N -> length (l_tags ix) = l_n ix -> lsh_new ix -> planes <> [] -> 1 <= m -> i < l_n ix ->
  finite_distances (l_n ix) dist ->
  (exists tag, nth_error (l_tags ix) i = Some tag /\ l_n ix <= tag) ->
  exists ix', lsh_build dotf data ts planes ix = Ok ix' /\
    lsh_search dotf ix' (data i) dist m [] indices distances = UB.
Proof. exact lsh_tags_ub. Qed.
Print Assumptions C35_lsh_tags_refuted.

(** C71.  Building twice: the old tables stay, list every point twice, and the table
    count is that of the second build. *)
Theorem C71_lsh_rebuild : forall dotf data ts planes1 planes2 ix ix1 ix2,
  (ts <= 64)%N -> length (l_tags ix) = l_n ix -> lsh_new ix ->
  lsh_build dotf data ts planes1 ix = Ok ix1 -> lsh_build dotf data ts planes2 ix1 = Ok ix2 ->
  length (l_tables ix2) = length planes1 + length planes2 /\ l_num_tables ix2 = N.of_nat (length planes2) /\
  forall i hps t, nth_error planes1 i = Some hps -> nth_error (l_tables ix2) i = Some t ->
    t_hps t = hps /\ exists key : nat -> N,
      (forall j j', key j = key j' <-> sign_pattern dotf hps (data j) = sign_pattern dotf hps (data j')) /\
      forall k, bucket (t_map t) k =
        map (fun j => nth j (l_tags ix) 0) (filter (fun j => N.eqb k (key j)) (seq 0 (l_n ix))) ++
        map (fun j => nth j (l_tags ix) 0) (filter (fun j => N.eqb k (key j)) (seq 0 (l_n ix))).
Proof. exact lsh_rebuild_lists. Qed.
Print Assumptions C71_lsh_rebuild.

(** C71.  A file saved with a table count lower than the number of tables brings back
    only the first of them. *)
Theorem C71_lsh_rebuild_file : forall dim ix more fresh,
  l_num_tables ix = N.of_nat (length (l_tables ix) - more) -> more <= length (l_tables ix) -> (l_num_tables ix < 2 ^ 32)%N -> (l_table_size ix <= 64)%N ->
  (forall t, In t (l_tables ix) -> table_writable dim (N.to_nat (l_table_size ix)) t) ->
  exists ix', lsh_load dim (lsh_bytes ix) fresh = Ok ix' /\
    l_tables ix' = map drop_empty (firstn (length (l_tables ix) - more) (l_tables ix)).
Proof. exact lsh_rebuild_file. Qed.
Print Assumptions C71_lsh_rebuild_file.

(** A concrete case: four points in the plane, two tables of two hyperplanes with
    coefficients 1.0 and -1.0. *)
Open Scope string_scope.
Definition one_bits : N := 1065353216.
Definition mone_bits : N := 3212836864.
Definition ex_planes : list (list (list N)) :=
  [[[one_bits; one_bits]; [one_bits; mone_bits]]; [[one_bits; 0%N]; [0%N; one_bits]]].
Definition ex_points (i : nat) : list f32 :=
  match i with
  | 0 => [f32_of_Z 1; f32_of_Z 2] | 1 => [f32_of_Z 2; f32_of_Z 1]
  | 2 => [f32_of_Z (-3); f32_of_Z 1] | _ => [f32_of_Z (-1); f32_of_Z (-4)]
  end.
Definition ex_lsh (tags : list nat) : lsh_index :=
  mkLsh 4 tags (mkL [["a"]; ["b"]; ["a"]; ["0"]] true "0") 0%N 0%N [].
Definition ex_ldist (j : nat) : f32 := f32_of_Z (Z.of_nat ((j * 3 + 1) mod 5)).
Definition ex_q : lsh_query := mkQ (ex_points 2) ex_ldist 2 [] [9; 9; 9] None.

Example lsh_case_hyps :
  lsh_new (ex_lsh [0; 1; 2; 3]) /\ l_tags (ex_lsh [0; 1; 2; 3]) = seq 0 4 /\ finite_distances 4 ex_ldist /\
  room 2 [9; 9; 9] None /\
  (forall hps, In hps ex_planes -> N.of_nat (length hps) = 2%N /\
     forall hp, In hp hps -> length hp = 2 /\ forall x, In x hp -> (x < 2 ^ 32)%N).
Proof.
  split; [reflexivity|]. split; [reflexivity|]. split; [split|split; [split|]].
  - intros id. unfold ex_ldist. pose proof (Nat.mod_upper_bound (id * 3 + 1) 5 ltac:(lia)).
    destruct ((id * 3 + 1) mod 5) as [|[|[|[|[|k]]]]]; try lia; vm_compute; reflexivity.
  - intros id _. unfold ex_ldist. pose proof (Nat.mod_upper_bound (id * 3 + 1) 5 ltac:(lia)).
    destruct ((id * 3 + 1) mod 5) as [|[|[|[|[|k]]]]]; try lia; vm_compute; reflexivity.
  - cbn. lia.
  - discriminate.
  - intros hps H. unfold ex_planes in H. cbn [In] in H.
    repeat (destruct H as [<-|H]; [split; [reflexivity|]; intros hp Hp; cbn [In] in Hp; repeat (destruct Hp as [<-|Hp];
      [split; [reflexivity|]; intros x Hx; cbn [In] in Hx; repeat (destruct Hx as [<-|Hx]; [reflexivity|]); destruct Hx|]); destruct Hp|]).
    destruct H.
Qed.

Example lsh_case_run :
  match lsh_build seq_dot ex_points 2 ex_planes (ex_lsh [0; 1; 2; 3]) with
  | Ok ix =>
      (map t_map (l_tables ix),
       match lsh_answers seq_dot ix [ex_q; mkQ [f32_of_Z 9; f32_of_Z (-1)] ex_ldist 2 [] [7; 7] None; ex_q] with
       | Ok (outs, ix2) =>
           (map (fun o => match o with (i, _, c, k) => (i, c, k) end) outs, map (fun t => length (t_map t)) (l_tables ix2),
            match lsh_load 2 (lsh_bytes ix2) (ex_lsh [0; 1; 2; 3]) with
            | Ok ix3 => (map t_map (l_tables ix3),
                match lsh_load 2 (lsh_bytes ix3) (ex_lsh []) with Ok ix4 => Some (l_tables ix4) | _ => None end)
            | _ => ([], None)
            end)
       | _ => ([], [], ([], None))
       end)
  | _ => ([], ([], [], ([], None)))
  end =
  ([[(0%N, [2]); (1%N, [0]); (2%N, [3]); (3%N, [1])]; [(0%N, [3]); (2%N, [2]); (3%N, [0; 1])]],
   ([([2; 9; 9], 1, 1); ([1; 7], 1, 1); ([2; 9; 9], 1, 1)], [4; 4],
    ([[(0%N, [2]); (1%N, [0]); (2%N, [3]); (3%N, [1])]; [(0%N, [3]); (2%N, [2]); (3%N, [0; 1])]], Some []))).
Proof. vm_compute. reflexivity. Qed.

(** C35.  With permuted tags the search for point 0 reports another point. *)
Example C35_lsh_wrong_point :
  match lsh_build seq_dot ex_points 2 ex_planes (ex_lsh [3; 2; 1; 0]) with
  | Ok ix => match lsh_search seq_dot ix (ex_points 0) (fun j => f32_of_Z (Z.of_nat (10 * j))) 1 [] [9] (Some [f32_zero]) with
             | Ok (i, Some d, c, _, _) => (i, d, c)
             | _ => ([], [], 0)
             end
  | _ => ([], [], 0)
  end = ([2], [f32_of_Z 20], 1).
Proof. vm_compute. reflexivity. Qed.

(** C71.  One table built, then another: the first table lists everything twice and
    is the only one that a saved file brings back. *)
Example C71_lsh_rebuild_case :
  match lsh_build seq_dot ex_points 2 [nth 0 ex_planes []] (ex_lsh [0; 1; 2; 3]) with
  | Ok ix => match lsh_build seq_dot ex_points 2 [nth 1 ex_planes []] ix with
    | Ok ix' => (map t_map (l_tables ix'),
        match lsh_load 2 (lsh_bytes ix') (ex_lsh []) with Ok ix3 => map t_map (l_tables ix3) | _ => [] end)
    | _ => ([], []) end
  | _ => ([], [])
  end = ([[(0%N, [2; 2]); (1%N, [0; 0]); (2%N, [3; 3]); (3%N, [1; 1])]; [(0%N, [3]); (2%N, [2]); (3%N, [0; 1])]],
         [[(0%N, [2; 2]); (1%N, [0; 0]); (2%N, [3; 3]); (3%N, [1; 1])]]).
Proof. vm_compute. reflexivity. Qed.
