(** * Specification of alpha pruning.

    Stated over positions of the sorted candidate list; no reference to the
    occlusion array of the code. *)
From Coq Require Import String List.
From Verif Require Import Float32 PoolModel PruneModel.
Import ListNotations.

(** The labels of a point. *)
Definition labels_of (sp : space) (id : nat) : list label := nth id (pts_to_labels (sp_labels sp)) [].

(** In a filtered index a point may stand in for another only if it carries all
    of its labels. *)
Definition may_occlude (sp : space) (k c : neighbor) : Prop :=
  sp_filtered sp = false \/ forall x, In x (labels_of sp (nid c)) -> In x (labels_of sp (nid k)).

(** [k] occludes [c]: d(c, point) / d(c, k) > alpha in float arithmetic. *)
Definition occludes (sp : space) (alpha : f32) (k c : neighbor) : Prop :=
  may_occlude sp k c /\ flt alpha (fdiv (ndist c) (sp_pd sp (nid c) (nid k))) = true.

(** The elements of [l] at the positions marked in [keep]. *)
Fixpoint select {A : Type} (keep : list bool) (l : list A) : list A :=
  match keep, l with
  | true :: keep', x :: l' => x :: select keep' l'
  | false :: keep', _ :: l' => select keep' l'
  | _, _ => []
  end.

(** [keep] marks the kept candidates of [cs] (in scanning order): a candidate is
    kept iff it is not the point itself, fewer than R were kept before it and no
    candidate kept before it occludes it. *)
Definition kept (occl : neighbor -> neighbor -> Prop) (R point : nat)
    (cs : list neighbor) (keep : list bool) : Prop :=
  length keep = length cs /\
  forall i c, nth_error cs i = Some c ->
    (nth i keep false = true <->
     nid c <> point /\
     length (select (firstn i keep) cs) < R /\
     forall k, In k (select (firstn i keep) cs) -> ~ occl k c).

(** Valid input of pruning: candidate ids are points, their distances are not
    NaN, and a filtered index has a label list for every point. *)
Definition prune_input_ok (sp : space) (cands : list neighbor) : Prop :=
  (forall z, In z cands -> nid z < sp_n sp /\ is_nan (ndist z) = false) /\
  (sp_filtered sp = true -> length (pts_to_labels (sp_labels sp)) = sp_n sp).
