(** * Vocabulary for whole programs. *)
From Coq Require Import NArith String List Arith Permutation.
From Verif Require Import Base Float32 Bytes StreamModel BinModel BinSpec PoolModel FilterSpec IndexFileModel IndexFileSpec SystemModel.
Import ListNotations.

(** Two search functions give the same answer to every call. *)
Definition same_answers (s s' : searcher) : Prop :=
  forall q L ids ds, s' q L ids ds = s q L ids ds.

(** The entry point file of another index is not in the way (see C74): for an index
    without labels there must be none under this name. *)
Definition no_stale (name : string) (filtered : bool) (d : fs) : Prop :=
  filtered = false -> d (String.append name "_labels_to_medoids.txt") = None.

(** The part of an array that belongs to query [i]. *)
Definition row {A : Type} (k i : nat) (a : list A) : list A := firstn k (skipn (i * k) a).

(** Each number below [n] once. *)
Definition each_once (n : nat) (order : list nat) : Prop := Permutation order (seq 0 n).

(** The lines of a label file, and the labels of a line. *)
Definition file_lines (b : list N) : list string := TextModel.getlines TextModel.LF (TextModel.text_of b).

(** What a user gives to the Vamana build tool, and what the run does with it.
    [a] is the object made from the files. *)
Record session_ok (w : nat) (g : nat -> list N) (pd : vec -> vec -> f32) (data_name : string) (tags : list N) (labels_name : string)
    (prm : PruneModel.bparams) (cent : list f32) (work : list (label * list nat)) (sched order : list nat) (path : string) (d : fs) (a : ann) : Prop := {
  (* the files: bytes, and memory for the data *)
  so_width : width w;
  so_garbage : garbage_ok g;
  so_data : forall b, d data_name = Some b -> is_bytes b;
  so_made : construct w g data_name tags labels_name d = Ok a;
  so_fits : (a_n a * (a_dim a + 8) * N.of_nat w + 8 < 2 ^ 64)%N;
  so_tags : forall t, In t tags -> (t < 2 ^ 32)%N;
  (* no point has only empty labels (C45) *)
  so_labels : forall l, In l (a_pts a) -> exists x, In x l /\ x <> ""%string;
  (* parameters: ten points (C21), a search list, a 32-bit degree bound *)
  so_n : (10 <= a_n a)%N;
  so_L : 1 <= PruneModel.bp_L prm;
  so_R : (N.of_nat (PruneModel.bp_R prm) < 2 ^ 32)%N;
  (* no distance is NaN *)
  so_nan : forall p q, is_nan (pd p q) = false;
  so_cent : length cent = N.to_nat (a_n a) /\ forall c, In c cent -> is_nan c = false;
  (* the run: the labels in any order with 25 random numbers each, any schedule, any
     order of the cleanup *)
  so_work : Permutation (map fst work) (a_labels a) /\ forall x r, In (x, r) work -> length r = 25;
  so_sched : forall i, In i sched -> i < N.to_nat (a_n a);
  so_order : each_once (N.to_nat (a_n a)) order;
  (* no entry points of an earlier index under the same name (C74) *)
  so_stale : no_stale path (a_filtered a) d
}.

(** A search given [k] slots of each array answers as it does on arrays of exactly [k]
    slots, whatever follows them, and leaves what follows unchanged. *)
Definition writes_own_slots (k : nat) (s : searcher) : Prop :=
  forall q L ids ids2 ds ds2, length ids = k -> length ds = k ->
  match s q L ids ds with
  | Ok (ids', ds', c) => s q L (ids ++ ids2) (ds ++ ds2) = Ok (ids' ++ ids2, ds' ++ ds2, c) /\ length ids' = k /\ length ds' = k
  | r => s q L (ids ++ ids2) (ds ++ ds2) = r
  end.

(** The file [f] holds [nq] queries, which are loaded as [mem], each padded to [qadim]
    elements. *)
Definition queries_in (w : nat) (g1 g2 : list N) (f : file) (nq qadim : N) (mem : list vec) : Prop :=
  width w /\ (length g1 = 4 /\ is_bytes g1) /\ (length g2 = 4 /\ is_bytes g2) /\
  exists b qdim, f = Some b /\ is_bytes b /\ load_aligned_bin w g1 g2 f = Ok (nq, qdim, qadim, mem) /\
    (nq * (qdim + 8) * N.of_nat w + 8 < 2 ^ 64)%N.
