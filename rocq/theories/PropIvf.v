(** * Theorems: IVF index (C10, C27, C28, C29, C30, C35).

    [dmat i c] is the computed distance of point i to cluster centre c, [cdist c] of
    the query to centre c, [dist id] of the query to point id.  [popf] is any priority
    queue ([pops]), [mbs] any block size, [orders] any order of the parallel loop. *)
From Coq Require Import ZArith String SpecFloat List Arith Lia Bool Sorting.Sorted Sorting.Permutation.
From Verif Require Import Base Float32 PoolModel TopKSpec FilterSpec SearchSpec SearchModel ClosestModel ClosestSpec
  FlatModel FlatSpec IvfModel PopInst IvfProofs AcceptProofs.
Import ListNotations.

(** C27 and C28.  Build gives one list per cluster; together they hold every point
    exactly once, and each list holds only points whose first nearest centre is
    this one. *)
Theorem C27_ivf_partition : forall popf mbs dmat n nc orders, pops popf -> 1 <= n -> 1 <= mbs ->
  block_orders n 1 (min n mbs) orders ->
  (forall j c, is_nan (dmat j c) = false) ->
  (forall j, j < n -> exists c, c < nc /\ flt (dmat j c) FLT_MAX = true) ->
  exists inv, ivf_build popf mbs dmat n nc orders [] = Ok inv /\ length inv = nc /\
    Permutation (concat inv) (seq 0 n) /\
    (forall c l j, nth_error inv c = Some l -> In j l -> first_nearest (dmat j) nc c).
Proof. exact ivf_build_fresh. Qed.
Print Assumptions C27_ivf_partition.

(** C27.  Building an index a second time keeps the old lists: every point is now
    listed twice. *)
Theorem C27_ivf_rebuild_doubles : forall popf mbs dmat n nc orders old, pops popf -> 1 <= n -> 1 <= mbs ->
  block_orders n 1 (min n mbs) orders ->
  (forall j c, is_nan (dmat j c) = false) ->
  (forall j, j < n -> exists c, c < nc /\ flt (dmat j c) FLT_MAX = true) ->
  length old = nc -> Permutation (concat old) (seq 0 n) ->
  exists inv, ivf_build popf mbs dmat n nc orders old = Ok inv /\
    Permutation (concat inv) (seq 0 n ++ seq 0 n).
Proof. exact ivf_build_again. Qed.
Print Assumptions C27_ivf_rebuild_doubles.

(** C28.  What is appended to the list of centre c, from any old contents: the
    points assigned to c, each once, and each point is assigned to its first nearest
    centre. *)
Theorem C28_ivf_nearest : forall popf mbs dmat n nc orders old, pops popf -> 1 <= n -> 1 <= mbs ->
  block_orders n 1 (min n mbs) orders ->
  (forall j c, is_nan (dmat j c) = false) ->
  (forall j, j < n -> exists c, c < nc /\ flt (dmat j c) FLT_MAX = true) ->
  exists (assign : nat -> nat) inv,
    ivf_build popf mbs dmat n nc orders old = Ok inv /\ length inv = nc /\
    (forall j, j < n -> first_nearest (dmat j) nc (assign j)) /\
    forall c, c < nc -> exists new, nth_error inv c = Some (nth c old [] ++ new) /\
      Permutation new (filter (fun j => assign j =? c) (seq 0 n)).
Proof. exact ivf_build_appends. Qed.
Print Assumptions C28_ivf_nearest.

(** C28.  Up to one block of points (MAX_BLOCK_SIZE = 1000000): a point without any
    centre nearer than FLT_MAX makes build read an uninitialised assignment. *)
Theorem C28_ivf_far_refuted : forall popf mbs dmat n nc orders old j, n <= mbs -> 1 <= nc ->
  block_orders n 1 (min n mbs) orders -> j < n -> (forall c, flt (dmat j c) FLT_MAX = false) ->
  ivf_build popf mbs dmat n nc orders old = UB.
Proof. exact ivf_build_far. Qed.
Print Assumptions C28_ivf_far_refuted.

(** C28.  In later blocks such a point inherits the centre of a point of the block
    before: point 1 is put with centre 1 because point 0 is near it. *)
Theorem C28_ivf_stale_refuted : exists dmat n nc orders,
  block_orders n 1 (min n 1) orders /\ (forall j c, is_nan (dmat j c) = false) /\
  (forall c, dmat 1 c = S754_infinity false) /\ first_nearest (dmat 1) nc 0 /\
  ivf_build pop_all 1 dmat n nc orders [] = Ok [[]; [0; 1]].
Proof.
  exists (fun j c => if (j =? 0) then f32_of_Z (5 - Z.of_nat (c mod 2)) else S754_infinity false), 2, 2,
    (fun b => list_prod (seq (b * 1) (min 1 (2 - b * 1))) (seq 0 1)).
  split; [intros b; apply Permutation_refl|]. split; [|split; [|split]].
  - intros j c. destruct (j =? 0); [|reflexivity]. pose proof (Nat.mod_upper_bound c 2 ltac:(lia)).
    destruct (c mod 2) as [|[|k]]; [reflexivity|reflexivity|lia].
  - reflexivity.
  - split; [lia|]. split; [reflexivity|]. intros; lia.
  - vm_compute. reflexivity.
Qed.
Print Assumptions C28_ivf_stale_refuted.

(** C29.  Search examines the [probe] lists of nearest centres and returns exactly the
    nearest accepted points in them. *)
Theorem C29_ivf_probed : forall popf mbs ix cdist dist probe m filters indices distances,
  pops popf -> 1 <= mbs -> ivf_ok ix -> probe <= ivf_nc ix -> 1 <= m ->
  (filters = [] \/ length (pts_to_labels (ivf_labels ix)) = ivf_n ix) ->
  (forall c, is_nan (cdist c) = false) -> (exists c, c < ivf_nc ix /\ flt (cdist c) FLT_MAX = true) ->
  finite_distances (ivf_n ix) dist -> room m indices distances ->
  exists acc probed ids indices' distances' cmps,
    filter_test (universal_of (ivf_labels ix)) (pts_to_labels (ivf_labels ix)) filters acc /\
    length probed = probe /\ NoDup probed /\ (forall c, In c probed -> c < ivf_nc ix) /\
    is_top_k probe (score cdist (seq 0 (ivf_nc ix))) (score cdist probed) /\
    ivf_search popf mbs ix cdist dist probe m filters indices distances = Ok (indices', distances', length ids, cmps) /\
    is_top_k m (score dist (nodup Nat.eq_dec (filter acc
                              (concat (map (fun c => nth c (ivf_inv ix) []) probed))))) (score dist ids) /\
    NoDup ids /\ (forall id, In id ids -> id < ivf_n ix /\ acc id = true) /\
    holds dist ids indices indices' distances distances'.
Proof. exact ivf_search_probed_test. Qed.
Print Assumptions C29_ivf_probed.

(** C29.  Probing all clusters of an index whose lists partition the points (C27) is
    exact search. *)
Theorem C29_ivf_exact : forall popf mbs ix cdist dist m filters indices distances,
  pops popf -> 1 <= mbs -> length (ivf_inv ix) = ivf_nc ix -> Permutation (concat (ivf_inv ix)) (seq 0 (ivf_n ix)) -> 1 <= m ->
  (filters = [] \/ length (pts_to_labels (ivf_labels ix)) = ivf_n ix) ->
  (forall c, is_nan (cdist c) = false) -> (exists c, c < ivf_nc ix /\ flt (cdist c) FLT_MAX = true) ->
  finite_distances (ivf_n ix) dist -> room m indices distances ->
  exists acc ids indices' distances' cmps,
    filter_test (universal_of (ivf_labels ix)) (pts_to_labels (ivf_labels ix)) filters acc /\
    ivf_search popf mbs ix cdist dist (ivf_nc ix) m filters indices distances = Ok (indices', distances', length ids, cmps) /\
    is_top_k m (score dist (filter acc (seq 0 (ivf_n ix)))) (score dist ids) /\
    holds dist ids indices indices' distances distances'.
Proof. exact ivf_search_exact_test. Qed.
Print Assumptions C29_ivf_exact.

(** C30.  More probes than clusters: only the first list is examined, whatever the
    distances to the centres. *)
Theorem C30_ivf_wide_probe : forall popf mbs ix cdist dist probe m filters indices distances l0 rest,
  ivf_ok ix -> ivf_inv ix = l0 :: rest -> ivf_nc ix < probe -> 1 <= m ->
  (filters = [] \/ length (pts_to_labels (ivf_labels ix)) = ivf_n ix) ->
  finite_distances (ivf_n ix) dist -> room m indices distances ->
  exists acc ids indices' distances' cmps,
    filter_test (universal_of (ivf_labels ix)) (pts_to_labels (ivf_labels ix)) filters acc /\
    ivf_search popf mbs ix cdist dist probe m filters indices distances = Ok (indices', distances', length ids, cmps) /\
    is_top_k m (score dist (nodup Nat.eq_dec (filter acc l0))) (score dist ids) /\
    holds dist ids indices indices' distances distances'.
Proof. exact ivf_search_wide_test. Qed.
Print Assumptions C30_ivf_wide_probe.

(** C30.  Without any cluster (an index that was not built) it reads out of bounds. *)
Theorem C30_ivf_unbuilt_refuted : forall popf mbs ix cdist dist probe m filters indices distances,
  ivf_inv ix = [] -> ivf_nc ix = 0 -> 1 <= probe ->
  ivf_search popf mbs ix cdist dist probe m filters indices distances = UB.
Proof. exact ivf_search_no_clusters. Qed.
Print Assumptions C30_ivf_unbuilt_refuted.

(** C10.  Every point IVF search reports matches the filter. *)
Theorem C10_ivf_filtered : forall popf mbs ix cdist dist probe m filters indices distances,
  pops popf -> 1 <= mbs -> ivf_ok ix -> probe <= ivf_nc ix -> 1 <= m ->
  length (pts_to_labels (ivf_labels ix)) = ivf_n ix ->
  (forall c, is_nan (cdist c) = false) -> (exists c, c < ivf_nc ix /\ flt (cdist c) FLT_MAX = true) ->
  finite_distances (ivf_n ix) dist -> room m indices distances ->
  exists ids indices' distances' cmps,
    ivf_search popf mbs ix cdist dist probe m filters indices distances = Ok (indices', distances', length ids, cmps) /\
    holds dist ids indices indices' distances distances' /\
    forall id, In id ids -> exists labels, nth_error (pts_to_labels (ivf_labels ix)) id = Some labels /\
      matches (universal_of (ivf_labels ix)) filters labels.
Proof. exact ivf_search_filtered. Qed.
Print Assumptions C10_ivf_filtered.

(** C35.  IVF search reports internal indices: with tags that are all at least the
    number of points, no reported value is anybody's tag. *)
Theorem C35_ivf_tags_refuted : forall popf mbs ix cdist dist probe m filters indices distances,
  pops popf -> 1 <= mbs -> ivf_ok ix -> probe <= ivf_nc ix -> 1 <= m ->
  (filters = [] \/ length (pts_to_labels (ivf_labels ix)) = ivf_n ix) ->
  (forall c, is_nan (cdist c) = false) -> (exists c, c < ivf_nc ix /\ flt (cdist c) FLT_MAX = true) ->
  finite_distances (ivf_n ix) dist -> room m indices distances ->
  (forall t, In t (ivf_tags ix) -> ivf_n ix <= t) ->
  exists indices' distances' cnt cmps,
    ivf_search popf mbs ix cdist dist probe m filters indices distances = Ok (indices', distances', cnt, cmps) /\
    forall i t, i < cnt -> nth_error indices' i = Some t -> ~ In t (ivf_tags ix).
Proof. exact ivf_search_tags. Qed.
Print Assumptions C35_ivf_tags_refuted.

(** A concrete case: seven points on a line at 0, 10, ..., 60, centres at 5, 30 and 55,
    blocks of three points; the parallel loops run backwards. *)
Definition ex_dmat (j c : nat) : f32 :=
  f32_of_Z ((10 * Z.of_nat j - nth c [5; 30; 55]%Z 1000%Z) ^ 2)%Z.
Definition ex_orders (b : nat) : list (nat * nat) := rev (list_prod (seq (b * 3) (min 3 (7 - b * 3))) (seq 0 1)).

Example ivf_build_case :
  block_orders 7 1 (min 7 3) ex_orders /\
  (forall j, j < 7 -> exists c, c < 3 /\ flt (ex_dmat j c) FLT_MAX = true) /\
  ivf_build pop_all 3 ex_dmat 7 3 ex_orders [] = Ok [[1; 0]; [2; 4; 3]; [5; 6]].
Proof.
  split; [intros b; apply Permutation_sym; apply Permutation_rev|]. split; [|vm_compute; reflexivity].
  intros j Hj. exists 0. split; [lia|].
  destruct j as [|[|[|[|[|[|[|j]]]]]]]; try lia; vm_compute; reflexivity.
Qed.

Open Scope string_scope.
Definition ex_ivf : ivf_index :=
  mkIvf 7 [70; 71; 72; 73; 74; 75; 76] 3 [[1; 0]; [2; 4; 3]; [5; 6]]
    (mkL [["a"]; ["b"]; ["a"]; ["b"]; ["a"]; ["b"]; ["0"]] true "0").
Definition ex_cdist (c : nat) : f32 := f32_of_Z ((42 - nth c [5; 30; 55]%Z 1000%Z) ^ 2)%Z.
Definition ex_pdist (j : nat) : f32 := f32_of_Z ((42 - 10 * Z.of_nat (j mod 7)) ^ 2)%Z.

Example ivf_search_case_hyps :
  ivf_ok ex_ivf /\ Permutation (concat (ivf_inv ex_ivf)) (seq 0 7) /\ finite_distances 7 ex_pdist /\
  (forall c, is_nan (ex_cdist c) = false) /\ flt (ex_cdist 1) FLT_MAX = true /\
  room 3 [9; 9; 9; 9] (Some [f32_zero; f32_zero; f32_zero]) /\ (forall t, In t (ivf_tags ex_ivf) -> 7 <= t).
Proof.
  assert (P : Permutation (concat (ivf_inv ex_ivf)) (seq 0 7)).
  { cbn. apply Permutation_cons_app with (l1 := [0]). cbn. repeat constructor. }
  split; [split; [reflexivity|]|].
  - intros l id H1 H2. assert (In id (concat (ivf_inv ex_ivf))) as H by (apply in_concat; exists l; auto).
    apply (Permutation_in _ P) in H. apply in_seq in H. cbn. lia.
  - split; [exact P|]. split; [split|split; [|split; [|split; [split|]]]].
    + intros id. unfold ex_pdist. pose proof (Nat.mod_upper_bound id 7 ltac:(lia)).
      destruct (id mod 7) as [|[|[|[|[|[|[|k]]]]]]]; try lia; vm_compute; reflexivity.
    + intros id _. unfold ex_pdist. pose proof (Nat.mod_upper_bound id 7 ltac:(lia)).
      destruct (id mod 7) as [|[|[|[|[|[|[|k]]]]]]]; try lia; vm_compute; reflexivity.
    + intros c. destruct c as [|[|[|[|c]]]]; vm_compute; reflexivity.
    + vm_compute. reflexivity.
    + cbn. lia.
    + intros d H. inversion H. cbn. lia.
    + cbn. intros t H. repeat (destruct H as [<-|H]; [lia|]). destruct H.
Qed.

Example ivf_search_case_run :
  (match ivf_search pop_all 3 ex_ivf ex_cdist ex_pdist 2 3 [] [9; 9; 9; 9] None with
   | Ok (i, None, cnt, cmps) => (i, cnt, cmps) | _ => ([], 0, 0) end) = ([4; 5; 3; 9], 3, 5) /\
  (match ivf_search pop_all 3 ex_ivf ex_cdist ex_pdist 3 3 ["a"] [9; 9; 9; 9] None with
   | Ok (i, None, cnt, cmps) => (i, cnt, cmps) | _ => ([], 0, 0) end) = ([4; 6; 2; 9], 3, 4) /\
  (match ivf_search pop_all 3 ex_ivf ex_cdist ex_pdist 4 3 [] [9; 9; 9; 9] None with
   | Ok (i, None, cnt, cmps) => (i, cnt, cmps) | _ => ([], 0, 0) end) = ([1; 0; 9; 9], 2, 2).
Proof. vm_compute. auto. Qed.
