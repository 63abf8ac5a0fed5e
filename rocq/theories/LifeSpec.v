(** * What lifetimes of index objects are stated with. *)
From Coq Require Import List Arith Bool.
From Verif Require Import LifeModel.
Import ListNotations.

(** A heap whose live blocks have different numbers, all given out before. *)
Definition heap_ok (h : heap) : Prop := NoDup (map fst (h_live h)) /\ forall b f, In (b, f) (h_live h) -> b < h_next h.

(** Files as a build followed by a save leaves them. *)
Definition full (f : files) : bool := data_ok f && tags_ok f && counts_ok f && match f_rest f with Fine => true | _ => false end.
(** The call reads a data file into the object itself: for HNSW this needs every inner level to load. *)
Definition reads (k : kind) (c : call) : bool :=
  match c with
  | Load (f :: fs) _ => match k with KHnsw level => forallb full (firstn level fs) && data_ok f | _ => data_ok f end
  | _ => false
  end.
(** How the centres of an IVF index were last obtained. *)
Definition centres (was : option form) (c : call) : option form :=
  match c with
  | Load (f :: _) centers_ok => if data_ok f && tags_ok f && counts_ok f && centers_ok then Some FMalloc else was
  | Build (i :: _) => if params_ok i then Some FArr else was
  | _ => was
  end.
(** Loads that read a data file, and those that read a tag file as well. *)
Definition loads_data (c : call) : bool := match c with Load (f :: _) _ => data_ok f | _ => false end.
Definition loads_tags (c : call) : bool := match c with Load (f :: _) _ => data_ok f && tags_ok f | _ => false end.
Definition count (p : call -> bool) (cs : list call) : nat := length (filter p cs).
Definition is_use (c : call) : bool := match c with Use _ => true | _ => false end.
(** By either constructor. *)
Definition made (k : kind) (h : heap) (o : obj) (h' : heap) : Prop :=
  (exists m f, make_from_file k m f h = Done (Some o, h')) \/ (exists m, make_empty k m h = Done (Some o, h')).
