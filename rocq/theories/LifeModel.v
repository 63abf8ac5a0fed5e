(** * Lifetimes: which memory the index classes obtain and release.

    Only the raw pointers of the classes are modelled: _distance, _distance_float, _data, _tag_map
    (include/index.h:153-158), _cluster_centers (include/ivf.h:34), _inner_index (include/hnsw.h:37).
    Whether files are as expected is an input of each call; std::bad_alloc is left out. *)
From Coq Require Import List Arith Bool.
From Verif Require Import Base.
Import ListNotations.

(** How a block was obtained: new, new[], aligned_alloc.  It has to be given back the same way
    (delete, delete[], free). *)
Inductive form := FNew | FArr | FMalloc.
(** [Wild]: a pointer that was never set. *)
Inductive ptr := Wild | Null | Blk (b : nat).
Record heap := mkHeap { h_next : nat; h_live : list (nat * form) }.

Definition form_eqb (a b : form) : bool := match a, b with FNew, FNew | FArr, FArr | FMalloc, FMalloc => true | _, _ => false end.
Definition obtain (f : form) (h : heap) : ptr * heap := (Blk (h_next h), mkHeap (S (h_next h)) ((h_next h, f) :: h_live h)).
Fixpoint drop_block (b : nat) (f : form) (l : list (nat * form)) : option (list (nat * form)) :=
  match l with
  | [] => None
  | (b', f') :: l' => if b' =? b then (if form_eqb f' f then Some l' else None) else match drop_block b f l' with Some r => Some ((b', f') :: r) | None => None end
  end.
(** delete, delete[] and aligned_free (include/utils.h:29-40) do nothing with a null pointer. *)
Definition release (f : form) (p : ptr) (h : heap) : res heap :=
  match p with
  | Null => Ok h
  | Wild => UB
  | Blk b => match drop_block b f (h_live h) with Some l => Ok (mkHeap (h_next h) l) | None => UB end
  end.

(** ** Objects *)
Record base := mkBase { b_dist : ptr; b_distf : ptr; b_data : ptr; b_tags : ptr }.
(** An HNSW object, its level and the objects that hang on it: the inner one, the one inner to that, and
    so on, each with the block it was made in. *)
Inductive obj :=
| Plain (b : base)                                              (* Vamana, RelativeNG, LSH *)
| Ivf (b : base) (centers : ptr)
| Hnsw (b : base) (level : nat) (inners : list (ptr * base)).

(** The ways a method can end: normally, by an exception, by exit(), undefined.  After an exception the
    object is still there. *)
Inductive out (A : Type) := Done (a : A) | Threw (a : A) | Quit | Bad.
Arguments Done {A} a.
Arguments Threw {A} a.
Arguments Quit {A}.
Arguments Bad {A}.

(** What a load or a constructor finds: a data file of the right size; a tag file of the right size (a list
    of tags of the right length); as many tags and labels as points; the rest of the index. *)
Inductive rest_of := Fine | Raises | Quits.
Record files := mkF { data_ok : bool; tags_ok : bool; counts_ok : bool; f_rest : rest_of }.

Definition finish {A : Type} (r : rest_of) (a : A) : out A := match r with Fine => Done a | Raises => Threw a | Quits => Quit end.

(** src/index.cpp:203-230 with include/utils.h:70-110 and 219-267: a file of the wrong size throws before the
    pointer is set. *)
Definition base_load (f : files) (b : base) (h : heap) : out (base * heap) :=
  if data_ok f then
    let '(p, h1) := obtain FMalloc h in
    if tags_ok f then
      let '(q, h2) := obtain FArr h1 in
      if counts_ok f then finish (f_rest f) (mkBase (b_dist b) (b_distf b) p q, h2) else Quit
    else Threw (mkBase (b_dist b) (b_distf b) p (b_tags b), h1)
  else Threw (b, h).

(** src/index.cpp:74-106, the constructor from files; [metric_ok]: there is a distance for the metric.  A
    constructor that throws leaves no object. *)
Definition base_from_file (metric_ok : bool) (f : files) (h : heap) : out (option base * heap) :=
  if data_ok f then
    let '(p, h1) := obtain FMalloc h in
    if metric_ok then
      let '(d, h2) := obtain FNew h1 in
      let '(e, h3) := obtain FNew h2 in
      if tags_ok f then
        let '(q, h4) := obtain FArr h3 in
        if counts_ok f then Done (Some (mkBase d e p q), h4) else Quit
      else Threw (None, h3)
    else Threw (None, h1)
  else Threw (None, h).
(** src/index.cpp:108-115, the constructor from a metric: _data is not set. *)
Definition base_empty (h : heap) : base * heap :=
  let '(d, h1) := obtain FNew h in
  let '(e, h2) := obtain FNew h1 in
  (mkBase d e Wild Null, h2).

Inductive kind := KPlain | KIvf | KHnsw (level : nat).

(** src/hnsw.cpp:23-30: new HNSW(m, level - 1), and so on. *)
Fixpoint empty_inners (level : nat) (h : heap) : list (ptr * base) * heap :=
  match level with
  | O => ([], h)
  | S l =>
      let '(p, h1) := obtain FNew h in
      let '(b, h2) := base_empty h1 in
      let '(rest, h3) := empty_inners l h2 in
      ((p, b) :: rest, h3)
  end.
(** src/vamana.cpp:25-28, src/lsh.cpp:117-122, src/ivf.cpp:22-26, src/hnsw.cpp:23-30. *)
Definition make_empty (k : kind) (metric_ok : bool) (h : heap) : out (option obj * heap) :=
  if metric_ok then
    let '(b, h1) := base_empty h in
    match k with
    | KPlain => Done (Some (Plain b), h1)
    | KIvf => Done (Some (Ivf b Wild), h1)
    | KHnsw level => let '(inners, h2) := empty_inners level h1 in Done (Some (Hnsw b level inners), h2)
    end
  else Threw (None, h).
(** src/vamana.cpp:14-23, src/relative_ng.cpp:13-19, src/lsh.cpp:106-115, src/ivf.cpp:14-20, src/hnsw.cpp:13-21. *)
Definition make_from_file (k : kind) (metric_ok : bool) (f : files) (h : heap) : out (option obj * heap) :=
  match base_from_file metric_ok f h with
  | Done (Some b, h1) => Done (Some (match k with KPlain => Plain b | KIvf => Ivf b Wild | KHnsw level => Hnsw b level [] end), h1)
  | Done (None, h1) | Threw (_, h1) => Threw (None, h1)
  | Quit => Quit
  | Bad => Bad
  end.

(** ** Methods *)

(** src/hnsw.cpp:69-76: the inner index is loaded first; [fs] lists the files of the inner levels from the
    outside in. *)
Fixpoint load_inners (level : nat) (inners : list (ptr * base)) (fs : list files) (h : heap) : out (list (ptr * base) * heap) :=
  match level with
  | O => Done (inners, h)
  | S l =>
      match inners, fs with
      | (p, b) :: rest, f :: fs' =>
          match load_inners l rest fs' h with
          | Done (rest', h1) =>
              match base_load f b h1 with
              | Done (b', h2) => Done ((p, b') :: rest', h2)
              | Threw (b', h2) => Threw ((p, b') :: rest', h2)
              | Quit => Quit
              | Bad => Bad
              end
          | Threw (rest', h1) => Threw ((p, b) :: rest', h1)
          | Quit => Quit
          | Bad => Bad
          end
      | _, _ => Bad
      end
  end.

(** How far a build comes: no parameter missing at its start; nothing thrown later.  For the inner level of
    HNSW: what its constructor finds in the temporary file. *)
Record build_in := mkBuild { params_ok : bool; temp : files; rest_ok : bool }.

(** src/hnsw.cpp:121-146: the pointer is set when the constructor has returned; a constructor that throws
    gives back the block it was to be made in. *)
Fixpoint build_inners (level : nat) (inners : list (ptr * base)) (ins : list build_in) (h : heap) : out (list (ptr * base) * heap) :=
  match ins with
  | [] => Threw (inners, h)
  | i :: ins' =>
      if params_ok i then
        match level with
        | O => if rest_ok i then Done (inners, h) else Threw (inners, h)
        | S l =>
            let '(p, h1) := obtain FNew h in
            match base_from_file true (temp i) h1 with
            | Done (Some b, h2) =>
                match build_inners l [] ins' h2 with
                | Done (rest, h3) => if rest_ok i then Done ((p, b) :: rest, h3) else Threw ((p, b) :: rest, h3)
                | Threw (rest, h3) => Threw ((p, b) :: rest, h3)
                | Quit => Quit
                | Bad => Bad
                end
            | Done (None, h2) | Threw (_, h2) => match release FNew p h2 with Ok h3 => Threw (inners, h3) | _ => Bad end
            | Quit => Quit
            | Bad => Bad
            end
        end
      else Threw (inners, h)
  end.

Definition set_ptr (p : ptr) : bool := match p with Wild => false | _ => true end.

Inductive call :=
| Load (fs : list files) (centers_ok : bool)      (* the files of the levels from the outside in; IVF: the file of the centres *)
| Build (ins : list build_in)
| Use (returns : bool).                           (* search or save *)

Definition call_load (fs : list files) (centers_ok : bool) (o : obj) (h : heap) : out (obj * heap) :=
  match fs with
  | [] => Bad
  | f :: fs' =>
      match o with
      | Plain b => match base_load f b h with Done (b', h') => Done (Plain b', h') | Threw (b', h') => Threw (Plain b', h') | Quit => Quit | Bad => Bad end
      (** src/ivf.cpp:59-67: load_aligned_bin for the centres as well. *)
      | Ivf b c =>
          match base_load (mkF (data_ok f) (tags_ok f) (counts_ok f) Fine) b h with
          | Done (b', h') => if centers_ok then let '(p, h2) := obtain FMalloc h' in finish (f_rest f) (Ivf b' p, h2) else Threw (Ivf b' c, h')
          | Threw (b', h') => Threw (Ivf b' c, h')
          | Quit => Quit
          | Bad => Bad
          end
      | Hnsw b level inners =>
          match load_inners level inners fs' h with
          | Done (inners', h1) => match base_load f b h1 with Done (b', h') => Done (Hnsw b' level inners', h') | Threw (b', h') => Threw (Hnsw b' level inners', h') | Quit => Quit | Bad => Bad end
          | Threw (inners', h1) => Threw (Hnsw b level inners', h1)
          | Quit => Quit
          | Bad => Bad
          end
      end
  end.

(** src/ivf.cpp:85-122: the parameters, then new float[] (the arrays used for training are given back
    at the end and left out); src/vamana.cpp, src/relative_ng.cpp, src/lsh.cpp: nothing
    obtained in a build outlives it.  Without data every build reads members that were not set. *)
Definition call_build (ins : list build_in) (o : obj) (h : heap) : out (obj * heap) :=
  match o with
  | Plain b => if set_ptr (b_data b) then match ins with i :: _ => if params_ok i && rest_ok i then Done (o, h) else Threw (o, h) | [] => Threw (o, h) end else Bad
  | Ivf b c =>
      if set_ptr (b_data b) then
        match ins with
        | i :: _ => if params_ok i then let '(p, h1) := obtain FArr h in if rest_ok i then Done (Ivf b p, h1) else Threw (Ivf b p, h1) else Threw (o, h)
        | [] => Threw (o, h)
        end
      else Bad
  | Hnsw b level inners =>
      if set_ptr (b_data b) then
        match build_inners level inners ins h with
        | Done (inners', h1) => Done (Hnsw b level inners', h1)
        | Threw (inners', h1) => Threw (Hnsw b level inners', h1)
        | Quit => Quit
        | Bad => Bad
        end
      else Bad
  end.

(** search and save: read the data, the centres, all inner levels; leave the pointers alone. *)
Definition usable (o : obj) : bool :=
  match o with
  | Plain b => set_ptr (b_data b)
  | Ivf b c => set_ptr (b_data b) && set_ptr c
  | Hnsw b level inners => set_ptr (b_data b) && (length inners =? level) && forallb (fun p => set_ptr (b_data (snd p))) inners
  end.
Definition step (c : call) (o : obj) (h : heap) : out (obj * heap) :=
  match c with
  | Load fs centers_ok => call_load fs centers_ok o h
  | Build ins => call_build ins o h
  | Use returns => if usable o then (if returns then Done (o, h) else Threw (o, h)) else Bad
  end.
(** A history of calls; exceptions are caught by the caller. *)
Fixpoint run (cs : list call) (o : obj) (h : heap) : out (obj * heap) :=
  match cs with
  | [] => Done (o, h)
  | c :: cs' => match step c o h with Done (o', h') | Threw (o', h') => run cs' o' h' | Quit => Quit | Bad => Bad end
  end.

(** ** Destructors *)

(** src/index.cpp:116-122 *)
Definition destroy_base (b : base) (h : heap) : res heap :=
  do h1 <- release FNew (b_dist b) h;
  do h2 <- release FNew (b_distf b) h1;
  do h3 <- release FMalloc (b_data b) h2;
  release FArr (b_tags b) h3.
(** src/hnsw.cpp:31-35: delete of the inner object. *)
Fixpoint destroy_inners (inners : list (ptr * base)) (h : heap) : res heap :=
  match inners with
  | [] => Ok h
  | (p, b) :: rest => do h1 <- destroy_inners rest h; do h2 <- destroy_base b h1; release FNew p h2
  end.
(** src/ivf.cpp:28-32, src/lsh.cpp:124-126, src/hnsw.cpp:31-35. *)
Definition destroy (o : obj) (h : heap) : res heap :=
  match o with
  | Plain b => destroy_base b h
  | Ivf b c => do h1 <- release FArr c h; destroy_base b h1
  | Hnsw b level inners => do h1 <- (if 0 <? level then destroy_inners inners h else Ok h); destroy_base b h1
  end.
