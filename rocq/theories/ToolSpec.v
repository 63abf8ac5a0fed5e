(** * Vocabulary for the build tools of RelativeNG, HNSW, IVF and LSH. *)
From Coq Require Import NArith String List Arith Permutation.
From Verif Require Import Base Float32 DivFacts Bytes StreamModel BinModel BinSpec PoolModel RngSpec FilterSpec ClosestModel ClosestSpec IndexFileModel IndexFileSpec SystemModel SystemSpec ToolModel.
Import ListNotations.

(** The user's files, with [a] the object made from them: bytes, sizes that fit into
    memory, 32-bit tags, no point whose labels are all empty (C45). *)
Record files_ok (w : nat) (g : nat -> list N) (data_name : string) (tags : list N) (labels_name : string) (d : fs) (a : ann) : Prop := {
  fo_width : width w;
  fo_garbage : garbage_ok g;
  fo_data : forall b, d data_name = Some b -> is_bytes b;
  fo_made : construct w g data_name tags labels_name d = Ok a;
  fo_fits : (a_n a * (a_dim a + 8) * N.of_nat w + 8 < 2 ^ 64)%N;
  fo_tags : forall t, In t tags -> (t < 2 ^ 32)%N;
  fo_labels : forall l, In l (a_pts a) -> exists x, In x l /\ x <> ""%string
}.

(** [RngSpec.dissimilarity] for vectors: symmetric, non-negative, a float, zero from a
    vector to itself. *)
Record vec_dissim (pd : vec -> vec -> f32) : Prop := {
  vd_sym : forall p q, pd p q = pd q p;
  vd_nonneg : forall p q, fle f32_zero (pd p q) = true;
  vd_valid : forall p q, f32_valid (pd p q) = true;
  vd_self : forall p, feq (pd p p) f32_zero = true
}.

(** A session of the RelativeNG tools: ten points (C21), distances to the centroid,
    the points in any order. *)
Record rng_session_ok (w : nat) (g : nat -> list N) (pd : vec -> vec -> f32) (data_name : string) (tags : list N)
    (cent : list f32) (order : list nat) (d : fs) (a : ann) : Prop := {
  rs_files : files_ok w g data_name tags ""%string d a;
  rs_n : (10 <= a_n a)%N;
  rs_dist : vec_dissim pd;
  rs_cent : length cent = N.to_nat (a_n a) /\ forall c, In c cent -> is_nan c = false;
  rs_order : each_once (N.to_nat (a_n a)) order
}.

(** Levels outermost first: the first is [a]; the vectors of every inner level are those
    of the level above at the tags, bit by bit. *)
Fixpoint level_data (a : ann) (levels : list gann) : Prop :=
  match levels with
  | [] => False
  | x :: inner =>
      g_ann x = a /\
      match inner with
      | [] => True
      | y :: _ =>
          (a_dim (g_ann y) = a_dim a /\ a_adim (g_ann y) = a_adim a /\ length (a_data (g_ann y)) = length (a_tags (g_ann y)) /\
           forall i t, nth_error (a_tags (g_ann y)) i = Some t -> nth_error (a_data (g_ann y)) i = nth_error (a_data a) (N.to_nat t)) /\
          level_data (g_ann y) inner
      end
  end.

(** The filter accepts point [id]: there is none, or line [id] of the user's label file
    matches it ("0" is the universal label). *)
Definition line_matches (d : fs) (labels_name : string) (filters : list string) (id : nat) : Prop :=
  filters = [] \/ exists b line, d labels_name = Some b /\ nth_error (file_lines b) id = Some line /\
    FilterSpec.matches (Some "0"%string) filters (line_tokens line).

(** A filter a search tool can ask for: none, or a sorted list of labels if the index was
    built with a label file. *)
Definition filter_ok (labels_name : string) (filters : list string) : Prop :=
  filters = [] \/ (labels_name <> ""%string /\ FilterSpec.sorted_labels filters).

(** Ordinary numbers below FLT_MAX. *)
Definition finite (x : f32) : Prop := is_nan x = false /\ flt x FLT_MAX = true.

(** A session of the IVF tools: at least one point and one cluster, trained centres of
    the padded dimension that fit into memory, any schedule, no overflow in distances. *)
Record ivf_session_ok (w : nat) (g : nat -> list N) (mbs : nat) (cd : vec -> list (option N) -> f32)
    (data_name : string) (tags : list N) (labels_name : string) (nc : N) (centers : list N) (orders : nat -> list (nat * nat)) (d : fs) (a : ann) : Prop := {
  is_files : files_ok w g data_name tags labels_name d a;
  is_n : (1 <= a_n a)%N;
  is_mbs : 1 <= mbs;
  is_nc : (1 <= nc < 2 ^ 32)%N;
  is_len : N.of_nat (length centers) = (nc * a_adim a)%N;
  is_words : forall c, In c centers -> (c < 2 ^ 32)%N;
  is_fits : (nc * (a_adim a + 8) * 4 + 8 < 2 ^ 64)%N;
  is_adim : (a_adim a < 2 ^ 32)%N;
  is_orders : ClosestSpec.block_orders (N.to_nat (a_n a)) 1 (min (N.to_nat (a_n a)) mbs) orders;
  is_cd : forall p c, finite (cd p c)
}.

(** A session of the LSH tools: hyperplanes of the padded dimension, [ts] per table. *)
Record lsh_session_ok (w : nat) (g : nat -> list N) (data_name : string) (tags : list N) (labels_name : string) (ts : N) (planes : list (list (list N)))
    (d : fs) (a : ann) : Prop := {
  hs_files : files_ok w g data_name tags labels_name d a;
  hs_ts : (ts <= 64)%N;
  hs_tables : (N.of_nat (length planes) < 2 ^ 32)%N;
  hs_planes : forall hps, In hps planes -> N.of_nat (length hps) = ts /\
    forall hp, In hp hps -> length hp = N.to_nat (a_adim a) /\ forall x, In x hp -> (x < 2 ^ 32)%N
}.

(** The file names of a saved LSH index. *)
Definition lsh_suffixes : list string := "_index.bin"%string :: ann_suffixes.
