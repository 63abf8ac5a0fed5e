(** * Index files: the part all indexes share, Vamana, RelativeNG, HNSW and IVF.

    The file system maps a name to its bytes.  Writing always succeeds; permissions, full
    disks and other processes are not modelled. *)
From Coq Require Import NArith Ascii String List Bool.
From Verif Require Import Base Bytes StreamModel BinModel GraphFileModel TextModel.
Import ListNotations.
Local Open Scope string_scope.

Definition fs := string -> option (list N).
Definition fs_set (d : fs) (name : string) (v : option (list N)) : fs :=
  fun m => if String.eqb m name then v else d m.

(** The saved members of ANNIndex: include/index.h:150-175.  _labels_to_pts is never
    read by the code and left out. *)
Record ann : Type := mkA {
  a_n : N; a_dim : N; a_adim : N;          (* _num_points, _dim, _aligned_dim *)
  a_data : list (list (option N));         (* _data, row by row *)
  a_tags : list N;                         (* _tag_map *)
  a_filtered : bool;                       (* _filtered_index *)
  a_pts : list (list string);              (* _pts_to_labels *)
  a_labels : list string;                  (* _labels, a set *)
  a_use_univ : bool; a_univ : string       (* _use_universal_label, _universal_label *)
}.

(** src/index.cpp:108-114: an object made for loading.  The dimensions and the data
    pointer are not initialised. *)
Definition new_ann (dim adim : N) : ann := mkA 0 dim adim [] [] false [] [] true "0".

(** src/index.cpp:139-141: the tokens of a line. *)
Definition line_tokens (line : string) : list string :=
  map (fun t => erase CR (erase LF t)) (getlines comma line).

Definition set_insert (x : string) (s : list string) : list string :=
  if existsb (String.eqb x) s then s else s ++ [x].

(** src/index.cpp:134-153 *)
Fixpoint parse_lines (lines : list string) (pts : list (list string)) (labels : list string)
  : res (list (list string) * list string) :=
  match lines with
  | [] => Ok (pts, labels)
  | line :: rest =>
      match line_tokens line with
      | [] => Exit
      | toks => parse_lines rest (pts ++ [str_sort toks]) (fold_left (fun s x => set_insert x s) toks labels)
      end
  end.

(** src/index.cpp:124-160 parse_label_file; a file that does not exist has no lines. *)
Definition parse_label_file (f : file) (a : ann) : res ann :=
  let lines := match f with Some b => getlines LF (text_of b) | None => [] end in
  do r <- parse_lines lines (a_pts a) (a_labels a);
  let (pts, labels) := r in
  if N.eqb (N.of_nat (length pts)) (a_n a) then
    Ok (mkA (a_n a) (a_dim a) (a_adim a) (a_data a) (a_tags a) true pts labels (a_use_univ a) (a_univ a))
  else Exit.

(** src/index.cpp:166-171: a point without labels makes size() - 1 wrap, and the loop
    reads behind the vector. *)
Fixpoint join_labels (l : list string) : res string :=
  match l with
  | [] => UB
  | [x] => Ok x
  | x :: t => do r <- join_labels t; Ok (x ++ String comma r)
  end.

(** src/index.cpp:163-174 save_labels *)
Fixpoint save_labels (pts : list (list string)) : res string :=
  match pts with
  | [] => Ok ""
  | l :: t => do line <- join_labels l; do rest <- save_labels t; Ok (line ++ String LF rest)
  end.

(** src/index.cpp:177-200 save_data_and_tags_and_labels *)
Definition save_ann (w : nat) (name : string) (a : ann) (d : fs) : res fs :=
  do data <- save_orig w (a_data a) (a_adim a) (a_dim a);
  let d1 := match data with Some b => fs_set d (name ++ "_data.bin") (Some b) | None => d end in
  do tags <- save_bin 4 (a_tags a) (a_n a) 1;
  let d2 := fs_set d1 (name ++ "_tags.bin") (Some tags) in
  if a_filtered a then
    do txt <- save_labels (a_pts a);
    let d3 := fs_set d2 (name ++ "_labels.txt") (Some (bytes_of txt)) in
    if a_use_univ a
    then Ok (fs_set d3 (name ++ "_universal_label.txt") (Some (bytes_of (a_univ a ++ String LF ""))))
    else Ok (fs_set d3 (name ++ "_universal_label.txt") None)
  else Ok (fs_set (fs_set d2 (name ++ "_labels.txt") None) (name ++ "_universal_label.txt") None).

(** in >> s: the next word; [None]: there is none and s keeps its value. *)
Fixpoint take_word (s : string) : string :=
  match s with
  | String a t => if is_space a then "" else String a (take_word t)
  | EmptyString => ""
  end.
Definition read_word (s : string) : option string :=
  match skip_space s with EmptyString => None | t => Some (take_word t) end.

(** src/index.cpp:203-233 load_data_and_tags_and_labels; [g] are the bytes of the
    uninitialised header variables. *)
Definition load_ann (w : nat) (g : nat -> list N) (name : string) (a : ann) (d : fs) : res ann :=
  do r <- load_aligned_bin w (g 0) (g 1) (d (name ++ "_data.bin"));
  let '(n, dim, adim, rows) := r in
  do t <- load_bin 4 (g 2) (g 3) (d (name ++ "_tags.bin"));
  let '(num_tags, _, tags) := t in
  if negb (N.eqb num_tags n) then Exit
  else
    let a1 := mkA n dim adim rows tags (a_filtered a) (a_pts a) (a_labels a) (a_use_univ a) (a_univ a) in
    do a2 <- (match d (name ++ "_labels.txt") with
              | Some b => parse_label_file (Some b) a1
              | None => Ok a1
              end);
    match d (name ++ "_universal_label.txt") with
    | Some b =>
        let u := match read_word (text_of b) with Some x => x | None => a_univ a2 end in
        Ok (mkA (a_n a2) (a_dim a2) (a_adim a2) (a_data a2) (a_tags a2) (a_filtered a2) (a_pts a2) (a_labels a2) true u)
    | None => Ok a2
    end.

(** ** Graph indexes: src/graph_index.h, _max_degree, _start_node, _out_nbrs, and for
    Vamana _filter_to_medoid_id. *)
Record gann : Type := mkGA {
  g_ann : ann; g_max : N; g_start : N; g_lists : list (list N); g_medoids : list (string * N)
}.

(** An object made for loading; _start_node is not initialised. *)
Definition new_gann (dim adim start : N) : gann := mkGA (new_ann dim adim) 0 start [] [].

(** src/relative_ng.cpp:24-44; one HNSW level: src/hnsw.cpp:45-64. *)
Definition save_rng (w : nat) (name : string) (x : gann) (d : fs) : res fs :=
  do d1 <- save_ann w name (g_ann x) d;
  do b <- save_graph (N.to_nat (a_n (g_ann x))) (g_max x) (g_start x) (g_lists x);
  Ok (fs_set d1 name (Some b)).

(** src/relative_ng.cpp:48-83; one HNSW level: src/hnsw.cpp:74-110.  The flag tells
    whether the sizes match (an error is printed if not). *)
Definition load_rng (w : nat) (g : nat -> list N) (name : string) (x : gann) (d : fs) : res (gann * bool) :=
  do a <- load_ann w g name (g_ann x) d;
  do r <- load_graph (N.to_nat (a_n a)) (g_max x) (g_start x) (g_lists x) (d name);
  let '(md, st, lists, ok) := r in
  Ok (mkGA a md st lists (g_medoids x), ok).

(** src/vamana.cpp:38-41: one line per pair, in the order the map iterates. *)
Definition medoid_line (p : string * N) : string := fst p ++ String comma (String " " (show (snd p) ++ String LF "")).
Definition medoid_text (m : list (string * N)) : string := fold_right (fun p r => medoid_line p ++ r) "" m.

(** _filter_to_medoid_id[x] = v *)
Fixpoint map_set (m : list (string * N)) (x : string) (v : N) : list (string * N) :=
  match m with
  | [] => [(x, v)]
  | (y, u) :: t => if String.eqb x y then (y, v) :: t else (y, u) :: map_set t x v
  end.

(** src/vamana.cpp:82-92: the first token is the label, each other one a number. *)
Fixpoint medoid_tokens (cnt : nat) (toks : list string) (label : string) (medoid : N) : res (string * N) :=
  match toks with
  | [] => Ok (label, medoid)
  | t :: rest =>
      match cnt with
      | O => medoid_tokens 1 rest t medoid
      | S _ => do v <- stoul t; medoid_tokens (S cnt) rest label (v mod 4294967296)
      end
  end.

(** src/vamana.cpp:77-96 *)
Fixpoint parse_medoids (lines : list string) (m : list (string * N)) : res (list (string * N)) :=
  match lines with
  | [] => Ok m
  | line :: rest =>
      do p <- medoid_tokens 0 (line_tokens line) "" 0;
      parse_medoids rest (map_set m (fst p) (snd p))
  end.

(** src/vamana.cpp:31-63 *)
Definition save_vamana (w : nat) (name : string) (x : gann) (d : fs) : res fs :=
  do d1 <- save_ann w name (g_ann x) d;
  let d2 := if a_filtered (g_ann x) then
              match g_medoids x with
              | [] => d1
              | m => fs_set d1 (name ++ "_labels_to_medoids.txt") (Some (bytes_of (medoid_text m)))
              end
            else d1 in
  do b <- save_graph (N.to_nat (a_n (g_ann x))) (g_max x) (g_start x) (g_lists x);
  Ok (fs_set d2 name (Some b)).

(** src/vamana.cpp:67-134 *)
Definition load_vamana (w : nat) (g : nat -> list N) (name : string) (x : gann) (d : fs) : res (gann * bool) :=
  do a <- load_ann w g name (g_ann x) d;
  do m <- (match d (name ++ "_labels_to_medoids.txt") with
           | Some b => parse_medoids (getlines LF (text_of b)) []
           | None => Ok (g_medoids x)
           end);
  do r <- load_graph (N.to_nat (a_n a)) (g_max x) (g_start x) (g_lists x) (d name);
  let '(md, st, lists, ok) := r in
  Ok (mkGA a md st lists m, ok).

(** src/hnsw.cpp:45-47: the name of level [k]. *)
Definition level_name (name : string) (k : N) : string := name ++ "_" ++ show k.

(** src/hnsw.cpp:40-65: the inner index is saved first; [levels] are the levels from
    number [k] on, so the innermost is number 0. *)
Fixpoint save_hnsw (w : nat) (name : string) (k : N) (levels : list gann) (d : fs) : res fs :=
  match levels with
  | [] => Ok d
  | x :: rest => do d1 <- save_rng w (level_name name k) x d; save_hnsw w name (k + 1) rest d1
  end.

(** src/hnsw.cpp:69-110 *)
Fixpoint load_hnsw (w : nat) (g : nat -> list N) (name : string) (k : N) (levels : list gann) (d : fs) : res (list (gann * bool)) :=
  match levels with
  | [] => Ok []
  | x :: rest =>
      do r <- load_rng w g (level_name name k) x d;
      do rs <- load_hnsw w g name (k + 1) rest d;
      Ok (r :: rs)
  end.

(** ** IVF: _num_clusters, _cluster_centers (bit patterns, in memory order) and
    _inverted_index. *)
Record ivfann : Type := mkIA { i_ann : ann; i_k : N; i_centers : list N; i_lists : list (list N) }.

(** src/ivf.cpp:34-57; a loaded object's centers are the elements of its rows. *)
Definition save_ivf (w : nat) (name : string) (x : ivfann) (d : fs) : res fs :=
  do d1 <- save_ann w name (i_ann x) d;
  do c <- save_bin 4 (i_centers x) (i_k x) (a_adim (i_ann x));
  let d2 := fs_set d1 (name ++ "_centers.bin") (Some c) in
  do b <- write_lists (N.to_nat (i_k x)) 0 (i_lists x);
  Ok (fs_set d2 name (Some b)).

(** std::vector::resize *)
Definition vresize {A : Type} (k : nat) (z : A) (l : list A) : list A := firstn k l ++ repeat z (k - length l).

(** src/ivf.cpp:73-79: a failed read of GK leaves it uninitialised; a list keeps what
    it held where the file is too short. *)
Fixpoint load_inverted (cnt : nat) (s : istream) (old : list (list N)) : res (list (list N)) :=
  match cnt with
  | O => Ok []
  | S cnt' =>
      let (kb, s1) := sread 4 s in
      if negb (Nat.eqb (length kb) 4) then UB
      else
        let k := dec kb in
        let (b, s2) := sread (k * 4) s1 in
        let l := vresize (N.to_nat k) 0%N (hd [] old) in
        do rest <- load_inverted cnt' s2 (tl old);
        Ok (dec_all 4 (N.to_nat k) (overlay b (enc_all 4 l)) :: rest)
  end.

(** src/ivf.cpp:59-83; the loaded centers are rows of memory. *)
Definition load_ivf (w : nat) (g : nat -> list N) (name : string) (x : ivfann) (d : fs)
  : res (ann * N * list (list (option N)) * list (list N)) :=
  do a <- load_ann w g name (i_ann x) d;
  do r <- load_aligned_bin 4 (g 4) (g 5) (d (name ++ "_centers.bin"));
  let '(k, _, _, rows) := r in
  do lists <- load_inverted (N.to_nat k) (open_file (d name)) (vresize (N.to_nat k) [] (i_lists x));
  Ok (a, k, rows, lists).
