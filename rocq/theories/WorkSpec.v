(** * Specification: the work of a search. *)
From Coq Require Import List Arith.
From Verif Require Import GraphSpec SearchModel HnswModel.
Import ListNotations.

(** A graph search from [starts]: [expanded] are the points whose neighbour lists were read, [compared] the points whose
    distance was computed because they stood, accepted by the filter, in such a list. *)
Definition work (acc : nat -> bool) (g : list (list nat)) (n : nat) (starts expanded compared : list nat) : Prop :=
  NoDup expanded /\ NoDup compared /\ NoDup starts /\
  (forall x, In x compared <-> ~ In x starts /\ exists e, In e expanded /\ edge acc g e x) /\
  (forall x, In x expanded -> In x starts \/ In x compared) /\
  (forall x, In x starts \/ In x compared -> x < n).

(** The starting points a list of size L has room for. *)
Definition room_for (L : nat) (ids starts : list nat) : Prop :=
  incl starts ids /\ length starts <= L /\ (length ids <= L -> incl ids starts).

(** One level of a search through the levels of an HNSW object. *)
Record visit : Type := mkVisit { v_starts : list nat; v_expanded : list nat; v_compared : list nat }.

(** The levels, outermost first: each is searched from points whose representatives were expanded in the level inside it (its
    tags are the numbers of its points in the level around it), the innermost from its start point. *)
Fixpoint descent (levels : hnsw) (ws : list visit) : Prop :=
  match levels, ws with
  | [], [] => True
  | ix :: inner, w :: ws' =>
      work (fun _ => true) (ix_graph ix) (ix_n ix) (v_starts w) (v_expanded w) (v_compared w) /\
      match inner, ws' with
      | inn :: _, w' :: _ => forall x, In x (v_starts w) -> exists i, In i (v_expanded w') /\ nth_error (ix_tags inn) i = Some x
      | _, _ => v_starts w = [ix_start ix]
      end /\
      descent inner ws'
  | _, _ => False
  end.

Definition total (f : visit -> list nat) (ws : list visit) : nat := list_sum (map (fun w => length (f w)) ws).
