(** * Saving an index as a sequence of file operations, and stopping in between.

    The process may stop at any byte; what was written stays.  Losing written bytes when
    the machine itself stops is not modelled. *)
From Coq Require Import NArith String List Bool.
From Verif Require Import Base Bytes StreamModel BinModel GraphFileModel TextModel IndexFileModel LshModel ToolModel.
Import ListNotations.
Local Open Scope string_scope.

(** [Write]: an std::ofstream is opened (the file becomes empty), written from start to
    end and closed.  [WriteSized]: as before, but the first 8 bytes are written as zero
    and written again at the end (src/vamana.cpp:46-62, src/relative_ng.cpp:28-43,
    src/hnsw.cpp:49-64).  [Remove]: std::remove. *)
Inductive step : Type :=
| Write (name : string) (b : list N)
| WriteSized (name : string) (b : list N)
| Remove (name : string).

Definition target (s : step) : string :=
  match s with Write n _ => n | WriteSized n _ => n | Remove n => n end.

Definition final (s : step) : option (list N) :=
  match s with Write _ b => Some b | WriteSized _ b => Some b | Remove _ => None end.

Definition run_step (s : step) (d : fs) : fs := fs_set d (target s) (final s).
Definition run_steps (ws : list step) (d : fs) : fs := fold_left (fun d s => run_step s d) ws d.

(** src/index.cpp:177-200, in the order of the code. *)
Definition ann_steps (w : nat) (name : string) (a : ann) : res (list step) :=
  do data <- save_orig w (a_data a) (a_adim a) (a_dim a);
  let s1 := match data with Some b => [Write (name ++ "_data.bin") b] | None => [] end in
  do tags <- save_bin 4 (a_tags a) (a_n a) 1;
  let s2 := [Write (name ++ "_tags.bin") tags] in
  if a_filtered a then
    do txt <- save_labels (a_pts a);
    let s3 := [Write (name ++ "_labels.txt") (bytes_of txt)] in
    if a_use_univ a
    then Ok (s1 ++ s2 ++ s3 ++ [Write (name ++ "_universal_label.txt") (bytes_of (a_univ a ++ String LF ""))])%list
    else Ok (s1 ++ s2 ++ s3 ++ [Remove (name ++ "_universal_label.txt")])%list
  else Ok (s1 ++ s2 ++ [Remove (name ++ "_labels.txt"); Remove (name ++ "_universal_label.txt")])%list.

(** src/relative_ng.cpp:24-44; one HNSW level: src/hnsw.cpp:45-64. *)
Definition rng_steps (w : nat) (name : string) (x : gann) : res (list step) :=
  do s <- ann_steps w name (g_ann x);
  do b <- save_graph (N.to_nat (a_n (g_ann x))) (g_max x) (g_start x) (g_lists x);
  Ok (s ++ [WriteSized name b])%list.

(** src/vamana.cpp:31-63 *)
Definition vamana_steps (w : nat) (name : string) (x : gann) : res (list step) :=
  do s <- ann_steps w name (g_ann x);
  let sm := if a_filtered (g_ann x) then
              match g_medoids x with
              | [] => []
              | m => [Write (name ++ "_labels_to_medoids.txt") (bytes_of (medoid_text m))]
              end
            else [] in
  do b <- save_graph (N.to_nat (a_n (g_ann x))) (g_max x) (g_start x) (g_lists x);
  Ok (s ++ sm ++ [WriteSized name b])%list.

(** src/hnsw.cpp:40-65: the inner index first. *)
Fixpoint hnsw_steps (w : nat) (name : string) (k : N) (levels : list gann) : res (list step) :=
  match levels with
  | [] => Ok []
  | x :: rest =>
      do s <- rng_steps w (level_name name k) x;
      do t <- hnsw_steps w name (k + 1) rest;
      Ok (s ++ t)%list
  end.

(** src/ivf.cpp:34-57 *)
Definition ivf_steps (w : nat) (name : string) (x : ivfann) : res (list step) :=
  do s <- ann_steps w name (i_ann x);
  do c <- save_bin 4 (i_centers x) (i_k x) (a_adim (i_ann x));
  do b <- write_lists (N.to_nat (i_k x)) 0 (i_lists x);
  Ok (s ++ [Write (name ++ "_centers.bin") c; Write name b])%list.

(** src/lsh.cpp:192-215 *)
Definition lsh_steps (w : nat) (name : string) (x : lshann) : res (list step) :=
  do s <- ann_steps w name (sh_ann x);
  Ok (s ++ [Write (name ++ "_index.bin") (lsh_bytes (lsh_view x))])%list.
