(** Concrete cases for C111. *)
From Coq Require Import ZArith Reals Lra Lia String List Arith Bool Permutation Floats.SpecFloat.
From Verif Require Import Base Float32 DivFacts DistSpec RealSpec FusedModel BlasModel BlasSpec MathModel MathSpec MathProofs2.
Import ListNotations.
Local Open Scope nat_scope.

Definition fl (l : list Z) : list f32 := map f32_of_Z l.
(** Equal as numbers (0 and -0 are equal). *)
Definition feqs (a b : list f32) : bool := (length a =? length b) && forallb (fun p => feq (fst p) (snd p)) (combine a b).
(** Three points of two coordinates, two centres. *)
Definition m_data : list f32 := fl [7; 8; 1; 2; 9; 9]%Z.
Definition m_centers : list f32 := fl [1; 1; 8; 9]%Z.
Lemma m_residuals : process_residuals 2 m_centers [1; 0; 1] true [2; 0; 1] m_data = Ok (fl [-1; -1; 0; 1; 1; 0]%Z) /\
  (do mid <- process_residuals 2 m_centers [1; 0; 1] true [2; 0; 1] m_data; process_residuals 2 m_centers [1; 0; 1] false [0; 1; 2] mid) = Ok m_data /\
  process_residuals 2 m_centers [1; 0; 2] true [0; 1; 2] m_data = UB /\
  (forall x, In x m_data \/ In x m_centers -> finite x /\ f32_valid x = true).
Proof.
  split; [vm_compute; reflexivity|]. split; [vm_compute; reflexivity|]. split; [vm_compute; reflexivity|]. intros x [H|H]; cbn [m_data m_centers fl map] in H; repeat (destruct H as [<-|H]; [split; [exact I|reflexivity]|]); destruct H.
Qed.
(** A matrix that is not symmetric. *)
Definition m_rot : list (list f32) := [fl [0; 1]; fl [-1; 0]]%Z.
Definition m_rows : list (list f32) := [fl [7; 8]; fl [1; 2]; fl [9; 9]]%Z.
Definition m_way : nat -> way := fun x => if Nat.even x then Inside (FFma 1 (FItem 0)) else Outside (FAdd (FItem 1) (FItem 0)) true.
Lemma m_rotate : (match rotate_data m_way (concat m_rows) 3 2 (concat m_rot) false with Ok o => feqs o (fl [-8; 7; -2; 1; -9; 9]%Z) | _ => false end = true) /\
  (match rotate_data m_way (concat m_rows) 3 2 (concat m_rot) true with Ok o => feqs o (fl [8; -7; 2; -1; 9; -9]%Z) | _ => false end = true).
Proof. split; vm_compute; reflexivity. Qed.
Lemma m_rotation_case : (forall x, way_ok 2 false (m_way x)) /\ (forall r, In r m_rows \/ In r m_rot -> length r = 2 /\ forall x, In x r -> finite x /\ f32_valid x = true) /\
  holds_ints (line_of false m_rot 1) [1; 0]%Z /\ holds_ints (line_of true m_rot 1) [-1; 0]%Z /\ int_dot [7; 8]%Z [1; 0]%Z = 7%Z /\ (exact_ip (fl [7; 8]%Z) (fl [7; 8]%Z) = 113)%R.
Proof.
  split; [intros x; unfold m_way; destruct (Nat.even x); cbn; [apply perm_swap|apply perm_swap]|]. split.
  - intros r [H|H]; cbn [m_rows m_rot] in H; repeat (destruct H as [<-|H]; [split; [reflexivity|]; intros x Hx; cbn [fl map] in Hx; repeat (destruct Hx as [<-|Hx]; [split; [exact I|reflexivity]|]); destruct Hx|]); destruct H.
  - split; [cbn; repeat constructor; cbv; lra|]. split; [cbn; repeat constructor; cbv; lra|]. split; [reflexivity|]. cbv. lra.
Qed.
Lemma m_budget : get_memory_budget (fun _ => S754_finite false 4503599627370496 (-51)) "2" = S754_finite false 7881299347898368 (-22) /\
  get_memory_budget (fun _ => S754_finite false 4503599627370496 (-53)) "0.5" = S754_finite false 4503599627370496 (-23).
Proof. split; vm_compute; reflexivity. Qed.
