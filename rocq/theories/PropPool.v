(** * Theorems: candidate pool (C01, C02, C03, C11). *)
From Coq Require Import String ZArith List Arith Lia Bool Sorting.Sorted Sorting.Permutation.
From Verif Require Import Base Float32 PoolModel TopKSpec FilterSpec PoolProofs PoolSafety FilterProofs PoolProofs2.
Import ListNotations.

(** C01, a new id.  [pool] is the sorted pool, [spare :: tail] the rest of the
    buffer.  The new neighbour [nn] lands between entries no farther and entries
    no nearer, at the returned index; nothing before that index moves and the
    rest of the buffer beyond the spare slot is untouched. *)
Theorem C01_insert_new : forall pool spare tail nn,
  pool <> [] ->
  StronglySorted (fun x y => fle (ndist x) (ndist y) = true) pool ->
  (forall z, In z pool -> is_nan (ndist z) = false) -> is_nan (ndist nn) = false ->
  (forall z, In z pool -> nid z <> nid nn) ->
  exists before after,
    pool = before ++ after /\
    insert_into_pool (pool ++ spare :: tail) (length pool) nn
      = Ok (before ++ nn :: after ++ tail, length before) /\
    StronglySorted (fun x y => fle (ndist x) (ndist y) = true) (before ++ nn :: after).
Proof. exact insert_new_sorted. Qed.
Print Assumptions C01_insert_new.

(** C01, an id that is already in the pool at the same distance: nothing changes
    and K + 1 is returned. *)
Theorem C01_insert_present : forall pool spare tail nn z,
  StronglySorted (fun x y => fle (ndist x) (ndist y) = true) pool ->
  (forall y, In y pool -> is_nan (ndist y) = false) ->
  In z pool -> nid z = nid nn -> feq (ndist z) (ndist nn) = true ->
  insert_into_pool (pool ++ spare :: tail) (length pool) nn
    = Ok (pool ++ spare :: tail, length pool + 1).
Proof. exact insert_dup. Qed.
Print Assumptions C01_insert_present.

(** C01, memory: for K >= 1 and a buffer of more than K slots no access leaves
    the buffer, for all contents and all distances (NaN and unsorted included). *)
Theorem C01_insert_safe : forall buf K nn, 1 <= K -> K < length buf ->
  exists buf' r, insert_into_pool buf K nn = Ok (buf', r) /\ length buf' = length buf.
Proof. exact insert_safe. Qed.
Print Assumptions C01_insert_safe.

Example C01_case :
  let d z := f32_of_Z z in
  let pool := [mkN 4 (d 1%Z) true; mkN 7 (d 3%Z) true; mkN 9 (d 3%Z) true; mkN 2 (d 8%Z) true] in
  StronglySorted (fun x y => fle (ndist x) (ndist y) = true) pool /\
  insert_into_pool (pool ++ [default_neighbor]) 4 (mkN 5 (d 3%Z) true) =
    Ok ([mkN 4 (d 1%Z) true; mkN 7 (d 3%Z) true; mkN 9 (d 3%Z) true; mkN 5 (d 3%Z) true; mkN 2 (d 8%Z) true], 3) /\
  insert_into_pool (pool ++ [default_neighbor]) 4 (mkN 7 (d 3%Z) true) = Ok (pool ++ [default_neighbor], 5).
Proof.
  cbv zeta. split.
  - repeat constructor.
  - split; vm_compute; reflexivity.
Qed.

(** C02.  After any sequence of candidate lists the pool entries are the
    [m] nearest among the distinct accepted candidates, nearest first, and the
    comparison counter counts the distinct accepted candidates. *)
Theorem C02_feed_top : forall n dist accept acc m batches, 1 <= m ->
  (forall id, In id (concat batches) -> accept id = Ok (acc id)) ->
  (forall id, In id (concat batches) -> acc id = true -> id < n) ->
  (forall id, is_nan (dist id) = false) ->
  match filter acc (concat batches) with [] => True | id :: _ => flt (dist id) FLT_MAX = true end ->
  exists st, feed n dist accept m (empty_pool m) batches = Ok st /\
    is_top_k m (score dist (nodup Nat.eq_dec (filter acc (concat batches))))
      (map (fun x => (nid x, ndist x)) (pool_entries st)) /\
    NoDup (map nid (pool_entries st)) /\
    p_cmps st = length (nodup Nat.eq_dec (filter acc (concat batches))).
Proof. exact feed_top. Qed.
Print Assumptions C02_feed_top.

Example C02_case :
  let dist id := f32_of_Z (Z.of_nat ((id * 7) mod 11)) in
  match feed 12 dist (fun id => Ok (negb (id =? 3))) 3 (empty_pool 3) [[1; 2; 1]; [3; 5; 8]; [2; 9; 11]] with
  | Ok st => map nid (pool_entries st) = [11; 8; 5] /\ p_cmps st = 6
  | _ => False
  end.
Proof. vm_compute. auto. Qed.

(** C03.  No access outside a buffer of m + 1 slots, whatever the distances
    (NaN included), as long as the first accepted candidate is nearer than
    FLT_MAX. *)
Theorem C03_feed_safe : forall n dist accept acc m batches, 1 <= m ->
  (forall id, In id (concat batches) -> accept id = Ok (acc id)) ->
  (forall id, In id (concat batches) -> acc id = true -> id < n) ->
  match filter acc (concat batches) with [] => True | id :: _ => flt (dist id) FLT_MAX = true end ->
  exists st, feed n dist accept m (empty_pool m) batches = Ok st /\ length (p_arr st) = m + 1.
Proof. exact feed_safe. Qed.
Print Assumptions C03_feed_safe.

(** C03, the condition on the first candidate is necessary: if it is not nearer
    than FLT_MAX (infinity after overflow, or NaN) the read is out of bounds,
    for every capacity. *)
Theorem C03_first_far_refuted : forall n dist accept m id rest,
  accept id = Ok true -> id < n -> flt (dist id) FLT_MAX = false ->
  feed n dist accept m (empty_pool m) [id :: rest] = UB.
Proof. exact feed_first_far. Qed.
Print Assumptions C03_first_far_refuted.

(** C03, capacity 0 (res_count = 0 in IVF and LSH search): two distinct accepted
    candidates, the second not nearer than the first, read out of bounds. *)
Theorem C03_capacity_zero_refuted : exists n dist accept batches,
  (forall id, is_nan (dist id) = false /\ flt (dist id) FLT_MAX = true) /\
  (forall id, accept id = Ok true) /\ (forall id, In id (concat batches) -> id < n) /\
  feed n dist accept 0 (empty_pool 0) batches = UB.
Proof. exact feed_capacity_zero. Qed.
Print Assumptions C03_capacity_zero_refuted.

(** C11.  For sorted filter and label lists the test is exact. *)
Theorem C11_filter_exact : forall lc filters id curr,
  nth_error (pts_to_labels lc) id = Some curr ->
  sorted_labels filters -> sorted_labels curr ->
  exists b, passes_filter lc filters id = Ok b /\
    (b = true <->
     matches (if use_universal_label lc then Some (universal_label lc) else None) filters curr).
Proof. exact passes_filter_exact. Qed.
Print Assumptions C11_filter_exact.

(** C11, soundness does not need sorted lists. *)
Theorem C11_filter_sound : forall lc filters id curr,
  nth_error (pts_to_labels lc) id = Some curr ->
  passes_filter lc filters id = Ok true ->
  matches (if use_universal_label lc then Some (universal_label lc) else None) filters curr.
Proof. exact passes_filter_sound. Qed.
Print Assumptions C11_filter_sound.

(** C11, an unsorted filter list can lose a shared label. *)
Theorem C11_unsorted_refuted : exists lc filters id curr,
  nth_error (pts_to_labels lc) id = Some curr /\ sorted_labels curr /\
  share_label filters curr /\ passes_filter lc filters id = Ok false.
Proof. exact filter_unsorted. Qed.
Print Assumptions C11_unsorted_refuted.

Example C11_case :
  let lc := mkL [["a"; "c"]; ["b"]; ["0"; "d"]]%string true "0"%string in
  sorted_labels ["b"; "c"]%string /\
  passes_filter lc ["b"; "c"]%string 0 = Ok true /\ passes_filter lc ["b"; "c"]%string 2 = Ok true /\
  passes_filter lc ["c"; "d"]%string 1 = Ok false.
Proof. cbv zeta. split; [repeat constructor; discriminate|]. vm_compute. auto. Qed.
