(** * Specification: the same points in another order. *)
From Coq Require Import String List Arith.
From Verif Require Import Float32 PoolModel GreedyModel SearchModel PruneModel.
Import ListNotations.

(** Point x of the first data set is point [p x] of the second. *)
Definition renumbering (n : nat) (p : nat -> nat) : Prop :=
  (forall x, x < n -> p x < n) /\ (forall x y, x < n -> y < n -> p x = p y -> x = y).

(** The second array holds at [p x] what the first holds at x. *)
Definition moved {A : Type} (n : nat) (p : nat -> nat) (l l' : list A) : Prop :=
  length l = n /\ length l' = n /\ forall x, x < n -> nth_error l' (p x) = nth_error l x.

(** The neighbours of [p x] are those of x, renumbered, in the same order. *)
Definition moved_graph (n : nat) (p : nat -> nat) (g g' : list (list nat)) : Prop :=
  length g = n /\ length g' = n /\ forall x l, nth_error g x = Some l -> nth_error g' (p x) = Some (map p l).

(** The two indices are the same but for the numbers of the points; each point keeps its tag and its labels. *)
Record renumbered (p : nat -> nat) (ix ix' : gindex) : Prop := {
  rn_n : ix_n ix' = ix_n ix;
  rn_perm : renumbering (ix_n ix) p;
  rn_tags : moved (ix_n ix) p (ix_tags ix) (ix_tags ix');
  rn_graph : moved_graph (ix_n ix) p (ix_graph ix) (ix_graph ix');
  rn_start : ix_start ix' = p (ix_start ix);
  rn_medoids : ix_medoids ix' = map (fun m => (fst m, p (snd m))) (ix_medoids ix);
  rn_universal : universal_label (ix_labels ix') = universal_label (ix_labels ix) /\ use_universal_label (ix_labels ix') = use_universal_label (ix_labels ix)
}.

(** A sorting routine that looks at the distances of the entries only (as std::sort with operator< of include/index.h:59):
    on entries with the same distances it does the same. *)
Definition by_distances_only (sortf : list neighbor -> list neighbor) : Prop :=
  forall (f : neighbor -> neighbor) l, (forall x, ndist (f x) = ndist x) -> sortf (map f l) = map f (sortf l).

(** The same data set in another order: the same distances and labels, under other numbers. *)
Record reordered (p : nat -> nat) (sp sp' : space) : Prop := {
  ro_size : sp_n sp' = sp_n sp;
  ro_perm : renumbering (sp_n sp) p;
  ro_pd : forall a b, a < sp_n sp -> b < sp_n sp -> sp_pd sp' (p a) (p b) = sp_pd sp a b;
  ro_filtered : sp_filtered sp' = sp_filtered sp;
  ro_labels : sp_filtered sp = true -> moved (sp_n sp) p (pts_to_labels (sp_labels sp)) (pts_to_labels (sp_labels sp'));
  ro_universal : universal_label (sp_labels sp') = universal_label (sp_labels sp) /\ use_universal_label (sp_labels sp') = use_universal_label (sp_labels sp)
}.

(** No two values of the array are equal. *)
Definition values_differ (l : list f32) : Prop :=
  forall i j d e, nth_error l i = Some d -> nth_error l j = Some e -> feq d e = true -> i = j.

(** The levels of two HNSW objects, outermost first, are the same but for the numbers of the points.  [t] says what became of
    the tags: nothing at the outermost level; below, a tag is the number of the point in the level above, which was renumbered. *)
Fixpoint levels_renumbered (t : nat -> nat) (ps : list (nat -> nat)) (levels levels' : list gindex) : Prop :=
  match ps, levels, levels' with
  | [], [], [] => True
  | p :: ps', ix :: inner, ix' :: inner' =>
      ix_n ix' = ix_n ix /\ renumbering (ix_n ix) p /\ moved (ix_n ix) p (map t (ix_tags ix)) (ix_tags ix') /\
      moved_graph (ix_n ix) p (ix_graph ix) (ix_graph ix') /\ ix_start ix' = p (ix_start ix) /\
      levels_renumbered p ps' inner inner'
  | _, _, _ => False
  end.
