(** * Concrete lives. *)
From Coq Require Import List Arith Bool.
From Verif Require Import Base LifeModel LifeSpec.
Import ListNotations.

Definition l_heap : heap := mkHeap 3 [(1, FNew); (2, FMalloc)].
Definition l_full : files := mkF true true true Fine.
Definition l_notags : files := mkF true false true Fine.
Definition l_nodata : files := mkF false true true Fine.
Definition l_build : build_in := mkBuild true l_full true.

Lemma l_heap_ok : heap_ok l_heap.
Proof.
  split; cbn.
  - repeat constructor; cbn; intuition discriminate.
  - intros b f [E|[E|[]]]; inversion E; auto.
Qed.

(** How many blocks are left after a life, or that it ends undefined. *)
Inductive fate := Left (n : nat) | Undefined | Gone.
Definition end_of (r : out (option obj * heap)) (cs : list call) : fate :=
  match r with
  | Done (Some o, h) => match run cs o h with Done (o', h') => match destroy o' h' with Ok h3 => Left (length (h_live h3)) | _ => Undefined end | Bad => Undefined | _ => Gone end
  | _ => Gone
  end.

Lemma l_plain : end_of (make_from_file KPlain true l_full l_heap) [Build [l_build]; Use true] = Left 2 /\
  end_of (make_from_file KPlain true l_full l_heap) [Load [l_full] true; Load [l_nodata] true; Load [l_notags] true; Use true] = Left 5 /\
  end_of (make_empty KPlain true l_heap) [Load [l_nodata] true] = Undefined /\
  end_of (make_empty KPlain true l_heap) [Load [l_nodata] true; Load [l_full] true; Use false; Load [l_full] true] = Left 4 /\
  end_of (make_empty KPlain true l_heap) [Use true] = Undefined.
Proof. now vm_compute. Qed.
Lemma l_hnsw : end_of (make_from_file (KHnsw 2) true l_full l_heap) [Build [l_build; l_build; l_build]; Use true] = Left 2 /\
  end_of (make_from_file (KHnsw 2) true l_full l_heap) [Build [l_build; mkBuild true l_nodata true]; Build [l_build; mkBuild true l_notags true]] = Left 10 /\
  end_of (make_from_file (KHnsw 2) true l_full l_heap) [Load [l_full; l_full; l_full] true] = Undefined /\
  end_of (make_empty (KHnsw 2) true l_heap) [Load [l_full; l_full; l_full] true; Use true; Build [l_build; l_build; l_build]] = Left 12 /\
  end_of (make_empty (KHnsw 2) true l_heap) [Load [l_full; l_full; l_full] true; Use true] = Left 2 /\
  end_of (make_empty (KHnsw 2) true l_heap) [Load [l_full; l_notags; l_full] true] = Undefined /\
  existsb (reads (KHnsw 2)) [Load [l_full; l_notags; l_full] true] = false /\ existsb (reads (KHnsw 2)) [Load [l_notags; l_full; l_full] true] = true.
Proof. now vm_compute. Qed.
Lemma l_ivf : end_of (make_from_file KIvf true l_full l_heap) [Build [l_build]; Use true] = Left 2 /\
  end_of (make_from_file KIvf true l_full l_heap) [] = Undefined /\
  end_of (make_empty KIvf true l_heap) [Load [l_full] true; Use true] = Undefined /\
  end_of (make_empty KIvf true l_heap) [Load [l_full] true; Build [l_build]; Use true] = Left 3 /\
  fold_left centres [Load [l_full] true; Build [l_build]; Use true] None = Some FArr.
Proof. now vm_compute. Qed.
Lemma l_two : exists o1 h1 o2 h2 o3 h3, make_from_file (KHnsw 2) true l_full l_heap = Done (Some o1, h1) /\ step (Build [l_build; l_build; l_build]) o1 h1 = Done (o2, h2) /\
  step (Build [l_build; l_build; l_build]) o2 h2 = Done (o3, h3) /\
  end_of (make_from_file (KHnsw 2) true l_full l_heap) [Build [l_build; l_build; l_build]; Build [l_build; l_build; l_build]] = Left 12 /\
  end_of (make_from_file KIvf true l_full l_heap) [Build [l_build]; Build [l_build]] = Left 3.
Proof. do 6 eexists. split; [vm_compute; reflexivity|]. split; [vm_compute; reflexivity|]. split; [vm_compute; reflexivity|]. now vm_compute. Qed.
Lemma l_copy : match make_from_file KPlain true l_full l_heap with Done (Some o, h) => match destroy o h with Ok h3 => destroy o h3 = UB | _ => False end | _ => False end /\
  match make_from_file KIvf true l_full l_heap with Done (Some o, h) => match run [Build [l_build]] o h with Done (o', h') => match destroy o' h' with Ok h3 => destroy o' h3 = UB | _ => False end | _ => False end | _ => False end.
Proof. now vm_compute. Qed.
Lemma l_use : (exists o h o' h', make_from_file (KHnsw 2) true l_full l_heap = Done (Some o, h) /\ step (Build [l_build; l_build; l_build]) o h = Done (o', h')) /\
  (exists o h o' h', make_empty (KHnsw 2) true l_heap = Done (Some o, h) /\ step (Load [l_full; l_full; l_full] true) o h = Done (o', h')) /\
  heap_ok l_heap /\ data_ok (temp (mkBuild true l_nodata true)) = false.
Proof.
  split; [do 4 eexists; split; vm_compute; reflexivity|]. split; [do 4 eexists; split; vm_compute; reflexivity|]. split; [exact l_heap_ok|reflexivity].
Qed.
