(** * Specification: when a point matches a filter list.

    Independent of any model of the code. *)
From Coq Require Import String List Sorting.Sorted.
Import ListNotations.

(** Lexicographic order of strings (by character code), as std::string's <. *)
Definition label_le (a b : string) : Prop := String.compare a b <> Gt.

(** The list is in ascending order (equal neighbours allowed). *)
Definition sorted_labels (l : list string) : Prop := StronglySorted label_le l.

Definition share_label (filters labels : list string) : Prop :=
  exists x, In x filters /\ In x labels.

(** A point with label list [labels] matches a filter list: an empty filter list
    matches everything; otherwise they must share a label, or a universal label
    [u] is in force ([Some u]) and appears on either side. *)
Definition matches (universal : option string) (filters labels : list string) : Prop :=
  filters = [] \/ share_label filters labels \/
  exists u, universal = Some u /\ (In u filters \/ In u labels).

(** [acc] is a filter test for the points with the given label lists: it accepts
    everything if there are no filters, accepts only matching points, and accepts
    every matching point whose label list is sorted if the filter list is too. *)
Definition filter_test (universal : option string) (labels : list (list string)) (filters : list string)
    (acc : nat -> bool) : Prop :=
  (filters = [] -> forall id, acc id = true) /\
  forall id ls, nth_error labels id = Some ls ->
    (acc id = true -> matches universal filters ls) /\
    (sorted_labels filters -> sorted_labels ls -> matches universal filters ls -> acc id = true).
