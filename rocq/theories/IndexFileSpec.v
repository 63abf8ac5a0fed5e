(** * Vocabulary for index files. *)
From Coq Require Import NArith Ascii String List Sorting.Sorted.
From Verif Require Import Base Bytes StreamModel BinModel BinSpec GraphFileSpec IndexFileModel.
Import ListNotations.
Local Open Scope string_scope.

(** A label that can be written: no comma, line feed or carriage return. *)
Definition clean (x : string) : Prop :=
  forall a, In a (list_ascii_of_string x) -> a <> "044"%char /\ a <> "010"%char /\ a <> "013"%char.

(** Sorted by the bytes of the labels. *)
Definition label_order (x y : string) : Prop := String.leb x y = true.
Definition labels_sorted (l : list string) : Prop := StronglySorted label_order l.

(** A label list that survives saving: at least one label, sorted, clean, and not all
    labels empty. *)
Definition saveable (l : list string) : Prop :=
  labels_sorted l /\ (forall x, In x l -> clean x) /\ (exists x, In x l /\ x <> "").

(** A word: not empty, without white space (space, tab to carriage return). *)
Definition a_word (x : string) : Prop :=
  x <> "" /\ forall a, In a (list_ascii_of_string x) -> N_of_ascii a <> 32%N /\ ~ (9 <= N_of_ascii a <= 13)%N.

(** Data as the constructor loads them from some vector file that fits into memory. *)
Definition data_loaded (w : nat) (a : ann) : Prop :=
  width w /\ (exists g1 g2 b, length g1 = 4 /\ length g2 = 4 /\ is_bytes g1 /\ is_bytes g2 /\ is_bytes b /\
    load_aligned_bin w g1 g2 (Some b) = Ok (a_n a, a_dim a, a_adim a, a_data a)) /\
  (a_n a * (a_dim a + 8) * N.of_nat w + 8 < 2 ^ 64)%N.

(** What can be saved: loaded data, one tag per point, and labels for every point if
    the index is filtered, none otherwise. *)
Definition ann_ok (w : nat) (a : ann) : Prop :=
  data_loaded w a /\ length (a_tags a) = N.to_nat (a_n a) /\ (forall t, In t (a_tags a) -> (t < 2 ^ 32)%N) /\
  a_use_univ a = true /\
  (if a_filtered a
   then length (a_pts a) = N.to_nat (a_n a) /\ (forall l, In l (a_pts a) -> saveable l) /\ a_word (a_univ a)
   else a_pts a = [] /\ a_univ a = "0").

(** The same index: every member restored, the label set being the labels of the
    points. *)
Definition same_ann (a a' : ann) : Prop :=
  a_n a' = a_n a /\ a_dim a' = a_dim a /\ a_adim a' = a_adim a /\ a_data a' = a_data a /\ a_tags a' = a_tags a /\
  a_filtered a' = a_filtered a /\ a_pts a' = a_pts a /\ a_use_univ a' = a_use_univ a /\ a_univ a' = a_univ a /\
  (forall x, In x (a_labels a') <-> exists l, In l (a_pts a) /\ In x l).

(** Four bytes in each uninitialised variable. *)
Definition garbage_ok (g : nat -> list N) : Prop := forall k, length (g k) = 4 /\ is_bytes (g k).

(** A graph that can be saved: one list per point, everything 32-bit. *)
Definition gann_ok (w : nat) (x : gann) : Prop :=
  ann_ok w (g_ann x) /\ length (g_lists x) = N.to_nat (a_n (g_ann x)) /\ lists_ok (g_lists x) /\
  u32_range (g_max x) /\ u32_range (g_start x).

Definition same_graph (x x' : gann) : Prop :=
  same_ann (g_ann x) (g_ann x') /\ g_max x' = g_max x /\ g_start x' = g_start x /\ g_lists x' = g_lists x.

(** An IVF index that can be saved: the centers of all clusters, one list per cluster. *)
Definition ivf_ok (w : nat) (x : ivfann) : Prop :=
  ann_ok w (i_ann x) /\ u32_range (i_k x) /\ N.of_nat (length (i_centers x)) = (i_k x * a_adim (i_ann x))%N /\
  (forall c, In c (i_centers x) -> (c < 2 ^ 32)%N) /\ (i_k x * (a_adim (i_ann x) + 8) * 4 + 8 < 2 ^ 64)%N /\ u32_range (a_adim (i_ann x)) /\
  length (i_lists x) = N.to_nat (i_k x) /\ lists_ok (i_lists x).

(** Entry points of labels: one per label, labels clean, ids 32-bit. *)
Definition medoids_ok (m : list (string * N)) : Prop :=
  NoDup (map fst m) /\ forall x v, In (x, v) m -> clean x /\ (v < 2 ^ 32)%N.

(** The file names an index named [name] uses. *)
Definition ann_suffixes : list string := ["_data.bin"; "_tags.bin"; "_labels.txt"; "_universal_label.txt"].
Definition rng_suffixes : list string := "" :: ann_suffixes.
Definition vamana_suffixes : list string := "_labels_to_medoids.txt" :: rng_suffixes.
Definition ivf_suffixes : list string := "_centers.bin" :: rng_suffixes.
Definition family (suffixes : list string) (name m : string) : Prop := exists s, In s suffixes /\ m = name ++ s.

(** Objects made for loading, as many as there are levels (src/hnsw.cpp:21-29). *)
Definition fresh_levels (dim adim st0 : N) (levels : list gann) : list gann := map (fun _ => new_gann dim adim st0) levels.
