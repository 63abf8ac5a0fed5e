(** * Theorems: graph files (C41, C42, C43) of Vamana, RelativeNG and HNSW.

    [md0], [st0], [lists0]: maximum degree, start node and lists of the object before
    loading. *)
From Coq Require Import NArith List Arith Lia.
From Verif Require Import Base Bytes StreamModel BinSpec GraphFileModel GraphFileSpec GraphFileProofs.
Import ListNotations.
Local Open Scope N_scope.

(** C41.  Saving a graph and loading it into an object without lists restores
    everything, without a mismatch, and the file records its length. *)
Theorem C41_graph_round_trip : forall md0 st0 md st lists, lists_ok lists -> u32_range md -> u32_range st ->
  16 + N.of_nat (length (lists_bytes lists)) < 2 ^ 64 ->
  exists b, save_graph (length lists) md st lists = Ok b /\
    load_graph (length lists) md0 st0 [] (Some b) = Ok (md, st, lists, true) /\
    dec (firstn 8 b) = N.of_nat (length b).
Proof. exact graph_round_trip. Qed.
Print Assumptions C41_graph_round_trip.

(** C41.  What save writes is exactly this byte sequence. *)
Theorem C41_graph_bytes : forall md st lists, lists_ok lists -> save_graph (length lists) md st lists = Ok (graph_file md st lists).
Proof. exact save_graph_ok. Qed.
Print Assumptions C41_graph_bytes.

Definition ex_lists : list (list N) := [[1; 70000]; []; [0; 2; 1]].

Example ex_lists_ok : lists_ok ex_lists.
Proof.
  intros l [<-|[<-|[<-|[]]]]; (split; [reflexivity|]); intros x Hx; cbn in Hx; intuition (subst; reflexivity).
Qed.

Example C41_graph_round_trip_applies :
  match save_graph 3 5 2 ex_lists with Ok b => load_graph 3 0 0 [] (Some b) | _ => UB end = Ok (5, 2, ex_lists, true).
Proof. vm_compute. reflexivity. Qed.

(** C42.  A graph file cut at any byte behind its header, whatever its first 8 bytes
    are: the lists before the cut are loaded intact and no list beyond it; the list
    the cut lies in is dropped, or, if its length was still there, has its length
    with every id behind the cut replaced by 0. *)
Theorem C42_cut_graph : forall npts md0 st0 h md st lists k, lists_ok lists -> u32_range md -> u32_range st -> length h = 8%nat -> (16 <= k)%nat ->
  exists m last, 
    load_graph npts md0 st0 [] (Some (firstn k (h ++ skipn 8 (graph_file md st lists)))) =
      Ok (md, st, firstn m lists ++ last, Nat.eqb (length (firstn m lists ++ last)) npts) /\
    (m + length last <= length lists)%nat /\ (length last <= 1)%nat /\
    (length (graph_file md st (firstn m lists)) <= k)%nat /\
    ((m < length lists)%nat -> (k < length (graph_file md st (firstn (S m) lists)))%nat) /\
    (forall l', last = [l'] -> exists l, nth_error lists m = Some l /\ length l' = length l /\
       forall j x, nth_error l j = Some x -> exists y, nth_error l' j = Some y /\ y <= x /\
         ((length (graph_file md st (firstn m lists)) + 4 + 4 * j + 4 <= k)%nat -> y = x) /\
         ((k <= length (graph_file md st (firstn m lists)) + 4 + 4 * j)%nat -> y = 0)).
Proof. exact graph_cut_spec. Qed.
Print Assumptions C42_cut_graph.

(** C42.  The same as an equation, for an object that may already have lists. *)
Theorem C42_cut_graph_exact : forall npts md0 st0 lists0 h md st lists k, lists_ok lists -> u32_range md -> u32_range st -> length h = 8%nat ->
  (16 <= k)%nat ->
  load_graph npts md0 st0 lists0 (Some (firstn k (h ++ skipn 8 (graph_file md st lists)))) =
    Ok (md, st, lists0 ++ cut_lists (k - 16) lists, Nat.eqb (length (lists0 ++ cut_lists (k - 16) lists)) npts).
Proof. exact load_graph_cut. Qed.
Print Assumptions C42_cut_graph_exact.

Example C42_cut_graph_applies :
  load_graph 3 0 0 [] (Some (firstn 22 ([0;0;0;0;0;0;0;0] ++ skipn 8 (graph_file 5 2 ex_lists)))) = Ok (5, 2, [[1; 0]], false) /\
  load_graph 3 0 0 [] (Some (firstn 44 ([0;0;0;0;0;0;0;0] ++ skipn 8 (graph_file 5 2 ex_lists)))) = Ok (5, 2, [[1; 70000]; []; [0; 2; 0]], true).
Proof. vm_compute. split; reflexivity. Qed.

(** C42.  A file cut inside the header gives no lists. *)
Theorem C42_cut_header : forall npts md0 st0 lists0 b, u32_range md0 -> u32_range st0 -> is_bytes b -> (length b < 16)%nat ->
  exists md st, load_graph npts md0 st0 lists0 (Some b) = Ok (md, st, lists0, Nat.eqb (length lists0) npts) /\
    ((length b <= 8)%nat -> md = md0) /\ ((length b <= 12)%nat -> st = st0) /\
    ((12 <= length b)%nat -> md = dec (firstn 4 (skipn 8 b))).
Proof. exact load_graph_header_cut. Qed.
Print Assumptions C42_cut_header.

Example C42_cut_header_applies : load_graph 3 9 8 [] (Some (firstn 13 (graph_file 5 2 ex_lists))) = Ok (5, 2, [], false).
Proof. vm_compute. reflexivity. Qed.

(** C42.  Every cut inside the ids of the last list is loaded without a mismatch. *)
Theorem C42_cut_last_list_undetected : forall md0 st0 h md st pre l k, lists_ok (pre ++ [l]) -> u32_range md -> u32_range st -> length h = 8%nat ->
  (length (graph_file md st pre) + 4 <= k < length (graph_file md st (pre ++ [l])))%nat ->
  load_graph (length (pre ++ [l])) md0 st0 [] (Some (firstn k (h ++ skipn 8 (graph_file md st (pre ++ [l]))))) =
    Ok (md, st, pre ++ [zero_fill (k - length (graph_file md st pre) - 4) l], true).
Proof. exact load_graph_undetected. Qed.
Print Assumptions C42_cut_last_list_undetected.

(** So a truncated file can load without complaint as a different graph. *)
Theorem C42_truncation_detected_refuted : exists lists k lists', lists_ok lists /\ (k < length (graph_file 5 2 lists))%nat /\
  load_graph (length lists) 0 0 [] (Some (firstn k (graph_file 5 2 lists))) = Ok (5, 2, lists', true) /\ lists' <> lists.
Proof.
  exists ex_lists, 44%nat, [[1; 70000]; []; [0; 2; 0]]. split; [exact ex_lists_ok|].
  split; [apply Nat.ltb_lt; vm_compute; reflexivity|]. split; [vm_compute; reflexivity|discriminate].
Qed.
Print Assumptions C42_truncation_detected_refuted.

(** C42.  If the graph file does not exist the loop reads an uninitialised degree. *)
Theorem C42_missing_graph_file : forall npts md0 st0 lists0, load_graph npts md0 st0 lists0 None = UB.
Proof. exact load_graph_missing. Qed.
Print Assumptions C42_missing_graph_file.

(** C43.  Loading into an object that has lists appends: the old lists stay in front,
    and unless the file or the object has none, the sizes mismatch. *)
Theorem C43_load_appends : forall npts md0 st0 lists0 md st lists, lists_ok lists -> u32_range md -> u32_range st ->
  load_graph npts md0 st0 lists0 (Some (graph_file md st lists)) =
    Ok (md, st, lists0 ++ lists, Nat.eqb (length (lists0 ++ lists)) npts).
Proof. exact load_graph_saved. Qed.
Print Assumptions C43_load_appends.

Example C43_load_appends_applies :
  load_graph 3 1 1 [[2]; [0]; [1]] (Some (graph_file 5 2 ex_lists)) = Ok (5, 2, [[2]; [0]; [1]] ++ ex_lists, false).
Proof. vm_compute. reflexivity. Qed.
