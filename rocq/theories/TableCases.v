(** * Cases for C125. *)
From Coq Require Import ZArith NArith Reals Lra Lia List Arith Bool Permutation Sorting.Sorted Floats.SpecFloat.
From Flocq Require Import Core.
From Verif Require Import Base Float32 DistSpec DistModel LloydModel RealSpec FloatReal RealDistProofs Float64Real NormModel StatsModel StatsSpec StatsProofs StatsCases RandProofs PoolModel SortSpec SortInst GraphSpec GreedyModel SearchModel SearchSpec PoolProofs
  ClosestModel FlatModel FlatSpec IvfModel PopInst IvfProofs HnswModel HnswSpec LongerSpec LongerCases WorkModel WorkCases TableModel TableSpec.
Import ListNotations.

Definition sortd : list spec_float -> list spec_float := StatsCases.isort SFltb.
Definition by_distance : list neighbor -> list neighbor := SortInst.isort.

Lemma sortd_sorts : sorts_doubles sortd.
Proof.
  assert (B : forall x y, finite x /\ f64_valid x = true -> finite y /\ f64_valid y = true -> (SFltb x y = false <-> (real y <= real x)%R)).
  { intros x y [Fx Vx] [Fy Vy]. pose proof (dlt_real x y Vx Vy Fx Fy) as H. destruct (SFltb x y); split; intros C; try congruence; [apply proj1 in H; specialize (H eq_refl); lra|].
    destruct (Rle_lt_dec (real y) (real x)); [auto|]. apply H in r. discriminate. }
  intros l Hl. apply (StatsCases.isort_sorts spec_float SFltb (fun x => finite x /\ f64_valid x = true)); [| |exact Hl].
  - intros x y Px Py C. apply B; auto. destruct Px as [Fx Vx], Py as [Fy Vy]. apply dlt_real in C; auto. lra.
  - intros x y z Px Py Pz C D. apply B in C; auto. apply B in D; auto. apply B; auto. lra.
Qed.

(** Two queries on six points. *)
Definition two_queries (q : nat) : nat -> f32 := if q =? 0 then apart else far_table [1; 2; 3; 4; 5; 6]%Z.
Definition sum2 : red := RAdd (RItem 1) (RItem 0).
Lemma two_queries_ok : (forall q id, is_nan (two_queries q id) = false) /\ (forall q, no_ties (ix_n fork_index) (two_queries q)).
Proof.
  split; intros q; unfold two_queries; destruct (q =? 0); [apply far_table_nan|apply far_table_nan|apply all_apart_ok; reflexivity|apply all_apart_ok; reflexivity].
Qed.
Definition f32_int (z : Z) : f32 := f32_of_Z z.
(** A list of one: 2 comparisons and 1 hop for both; of two: 3 comparisons, 3 and 2 hops; of six: 5 and 6. *)
Lemma fork_table : sorts by_distance /\ sorts_doubles sortd /\ index_ok fork_index /\ (forall q id, is_nan (two_queries q id) = false) /\ (forall q, no_ties (ix_n fork_index) (two_queries q)) /\
  (forall x l, nth_error (ix_graph fork_index) x = Some l -> length l <= 2) /\ (forall x, x < ix_n fork_index -> reach (fun _ => true) (ix_graph fork_index) (fun y => y = ix_start fork_index) x) /\
  Permutation (red_items sum2) (seq 0 2) /\
  vamana_columns by_distance sortd sum2 sum2 fork_index two_queries 2 1 1 [] [1; 0] = Ok (mkWorkRow (f32_int 2) (f32_int 1) (f32_int 2) (f32_int 1)) /\
  vamana_columns by_distance sortd sum2 sum2 fork_index two_queries 2 2 1 [] [0; 1] = Ok (mkWorkRow (f32_int 3) (S754_finite false 10485760 (-22)) (f32_int 3) (f32_int 3)) /\
  vamana_columns by_distance sortd sum2 sum2 fork_index two_queries 2 6 1 [] [1; 0] = Ok (mkWorkRow (f32_int 5) (f32_int 6) (f32_int 5) (f32_int 6)).
Proof.
  destruct fork_work as [A [B [C _]]]. destruct two_queries_ok as [D E].
  split; [exact SortInst.isort_sorts|]. split; [exact sortd_sorts|]. split; [exact A|]. split; [exact D|]. split; [exact E|]. split; [exact C|]. split; [exact B|].
  split; [apply perm_swap|]. split; [vm_compute; reflexivity|]. split; vm_compute; reflexivity.
Qed.

(** IVF: four points in two of the three lists. *)
Lemma shelf_table : ivf_ok shelf /\ finite_distances (ivf_n shelf) shelf_far /\
  ivf_columns pop_all 10 sortd sum2 sum2 shelf (fun _ => shelf_centers) (fun _ => shelf_far) 2 2 2 [] [1; 0] = Ok (mkWorkRow (f32_int 4) f32_zero (f32_int 4) f32_zero).
Proof. destruct shelf_case as [A [_ [B _]]]. split; [exact A|]. split; [exact B|]. vm_compute. reflexivity. Qed.

(** HNSW: with a list of one the inner level stops at 0 and the outer one walks from 0 to 5; with a list of two the inner
    level finds 5 itself. *)
Definition stairs : hnsw :=
  [mkI 7 (seq 100 7) no_labels [] 0 [[1]; [2]; [3]; [4]; [5]; []; []]; mkI 3 [0; 6; 5] no_labels [] 0 [[1]; [2]; []]].
Definition stairs_far := far_table [60; 50; 40; 30; 20; 10; 90]%Z.

Lemma stairs_ok : levels_ok stairs.
Proof.
  split; [|split; [|split; [|exact Logic.I]]].
  - split; [cbn; lia|]. split; [|split; [reflexivity|split; [cbn; lia|intros x id []]]].
    split; [reflexivity|]. intros x l y Hx Hy. cbn [ix_n]. cbn [ix_graph] in Hx.
    do 7 (destruct x as [|x]; [cbn in Hx; injection Hx as <-; cbn in Hy; lia|]). destruct x; discriminate.
  - intros t Ht. cbn in Ht. cbn. lia.
  - split; [cbn; lia|]. split; [|split; [reflexivity|split; [cbn; lia|intros x id []]]].
    split; [reflexivity|]. intros x l y Hx Hy. cbn [ix_n]. cbn [ix_graph] in Hx.
    do 3 (destruct x as [|x]; [cbn in Hx; injection Hx as <-; cbn in Hy; lia|]). destruct x; discriminate.
Qed.

Lemma stairs_table : exists levels dist, levels_ok levels /\ (forall q id, is_nan (dist q id) = false) /\ (forall q, no_ties 7 (dist q)) /\ list_sum (map ix_n levels) = 10 /\
  hnsw_columns by_distance sortd (RItem 0) (RItem 0) levels dist 1 1 1 [] [0] = Ok (mkWorkRow (f32_int 6) (f32_int 7) (f32_int 6) (f32_int 7)) /\
  hnsw_columns by_distance sortd (RItem 0) (RItem 0) levels dist 1 2 1 [] [0] = Ok (mkWorkRow (f32_int 2) (f32_int 4) (f32_int 2) (f32_int 4)).
Proof.
  exists stairs, (fun _ => stairs_far). split; [exact stairs_ok|]. split; [intros _; apply far_table_nan|]. split; [intros _; apply all_apart_ok; reflexivity|].
  split; [reflexivity|]. split; vm_compute; reflexivity.
Qed.

(** Eleven hundred queries of which one is dear: the last columns do not show it. *)
Definition one_dear (q : nat) (c : counters) : res (unit * counters) :=
  match c with Some (h, m) => Ok (tt, Some (h + 1, m + (if q =? 0 then 500 else 3))) | None => Ok (tt, None) end.
Fixpoint chain (n : nat) : red := match n with O => RZero | S m => RAdd (chain m) (RItem m) end.
Lemma chain_items : forall n, red_items (chain n) = seq 0 n.
Proof. induction n as [|n IH]; [reflexivity|]. cbn [chain red_items]. rewrite IH, seq_S. reflexivity. Qed.
Definition cmps_999_of (r : res work_row) : res f32 := do x <- r; Ok (cmps_999 x).
Lemma dear_hidden : (forall q, exists a h c, one_dear q (Some (0, 0)) = Ok (a, Some (h, c)) /\ h <= 500 /\ c <= 500) /\
  cmps_999_of (work_columns sortd (chain 1000) (chain 1000) one_dear 1000 (seq 0 1000)) = Ok (f32_int 500) /\
  cmps_999_of (work_columns sortd (chain 1100) (chain 1100) one_dear 1100 (seq 0 1100)) = Ok (f32_int 3).
Proof.
  split; [intros q; exists tt, 1, (if q =? 0 then 500 else 3); split; [reflexivity|]; destruct (q =? 0); lia|].
  split; vm_compute; reflexivity.
Qed.
