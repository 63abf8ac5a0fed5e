(** * What a filtered ground truth is. *)
From Coq Require Import NArith Reals String List Arith Sorting.Sorted Floats.SpecFloat.
From Verif Require Import Bytes Float32 DistSpec RealSpec TextModel FiltGtSpec IndexFileModel.
Import ListNotations.

(** [row] lists k of the points [ids] with their distances, nearest first; each distance is a
    number and right up to [err], and no point of [ids] left out is nearer than a listed one by
    more than the errors of the two. *)
Definition nearest_among (ids : list nat) (k : nat) (dist err : nat -> R) (row : list (nat * f32)) : Prop :=
  length row = k /\ NoDup (map fst row) /\ StronglySorted (fun x y => (real (snd x) <= real (snd y))%R) row /\
  (forall x, In x row -> In (fst x) ids /\ finite (snd x) /\ (Rabs (real (snd x) - dist (fst x)) <= err (fst x))%R) /\
  (forall x j, In x row -> In j ids -> ~ In j (map fst row) -> (dist (fst x) <= dist j + err (fst x) + err j)%R).

(** The words a text lists between commas in line i, and those of the filter. *)
Definition line_labels (text : list N) (i : nat) : list string := line_tokens (nth i (getlines LF (text_of text)) EmptyString).
Definition line_count (text : list N) : nat := length (getlines LF (text_of text)).

(** [ids] are the points, of n, with a line of labels each, that have a label of the filter or
    the universal label. *)
Definition matches (n : nat) (text : list N) (filter_string : string) (univ : option string) (ids : list nat) : Prop :=
  lists_all n (fun i => has_label (line_tokens filter_string) univ (line_labels text i)) ids.

(** The word for a universal label, if there is one. *)
Definition label_word (univ : option string) : list string := match univ with Some u => [u] | None => [] end.

(** The two files used in between. *)
Definition base_name (out : string) : string := (out ++ "_filtered_base.bin")%string.
Definition dummy_name (out : string) : string := (out ++ "_dummy")%string.
