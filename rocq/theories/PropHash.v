(** * Theorems: the hash set and map (C65). *)
From Coq Require Import NArith List Arith Lia Sorting.Permutation.
From Verif Require Import Base HashModel HashSpec HashProofs2 HashProofs3.
Import ListNotations.
Local Open Scope nat_scope.

(** C65.  Whatever the hash function, the initial number of buckets and the history of
    insertions, lookups, erasures, assignments, clears and reservations, the table
    answers as the set does, while it holds no more values than distances can count:
    32767 in the code, which keeps them in 16 bits. *)
Theorem C65_answers_like_a_set : forall (A K : Type) (P : kind A K) n ops, (forall x y, k_eq P x y = true <-> x = y) -> (k_limit P < 2 ^ 62)%N -> (n < 2 ^ 62)%N ->
  Forall (right_op P) ops -> fits P (k_limit P) [] ops ->
  exists answers, run P (new_table n) ops = Ok answers /\ Forall2 agree answers (spec_run P [] ops).
Proof. exact history_ok. Qed.
Print Assumptions C65_answers_like_a_set.

(** Numbers that all hash to one of two values, in a table that starts with no buckets:
    collisions, wrap-around, growth, erasing with backward shift.  The order of [Items]
    is the table's. *)
Definition ids : kind N N := mkKind (fun v => v) N.eqb (fun v => (v mod 2 + 6)%N) false 32767.
Definition ids_ops : list (op N N) :=
  [Insert 4; Insert 7; Insert 2; Insert 7; Insert 6; Find 2; Find 5; Erase 4; Find 4; Find 6; Size; Items; Reserve 20; Find 7; Erase 4; Clear; Find 7; Size]%N.
Example C65_answers_like_a_set_applies : Forall (right_op ids) ids_ops /\ fits ids 32767 [] ids_ops /\
  run ids (new_table 0) ids_ops = Ok
    [Inserted true; Inserted true; Inserted true; Inserted false; Inserted true; Found (Some 2%N); Found None; Number 1; Found None; Found (Some 6%N); Number 3;
     Listed [7; 2; 6]%N; Done; Found (Some 7%N); Number 0; Done; Found None; Number 0].
Proof. split; [repeat constructor|]. split; [cbn; repeat split; discriminate|]. vm_compute. reflexivity. Qed.

(** A map with stored hashes: assigning twice keeps the last value. *)
Definition pairs : kind (N * N) N := mkKind fst N.eqb (fun k => (k * 4294967297)%N) true 32767.
Definition to (x : N) (p : N * N) : N * N := (fst p, x).
Definition pairs_ops : list (op (N * N) N) :=
  [Assign (1, 0) (to 10); Assign (9, 0) (to 90); Assign (1, 0) (to 11); Find 1; Insert (9, 5); Find 9; Erase 1; Find 1; Find 9; Size]%N.
Example C65_map_applies : Forall (right_op pairs) pairs_ops /\ fits pairs 32767 [] pairs_ops /\
  run pairs (new_table 1) pairs_ops = Ok
    [Done; Done; Done; Found (Some (1, 11)); Inserted false; Found (Some (9, 90)); Number 1; Found None; Found (Some (9, 90)); Number 1%nat]%N.
Proof. split; [repeat constructor|]. split; [cbn; repeat split; discriminate|]. vm_compute. reflexivity. Qed.

(** C65.  With more values, too: either some value gets more than 32767 buckets away from
    where its hash puts it, or the table answers as the set does. *)
Theorem C65_any_size : forall (A K : Type) (P : kind A K) n m ops, (forall x y, k_eq P x y = true <-> x = y) -> (m < 2 ^ 62)%N -> (n < 2 ^ 62)%N ->
  Forall (right_op P) ops -> fits P m [] ops ->
  run P (new_table n) ops = UB \/ exists answers, run P (new_table n) ops = Ok answers /\ Forall2 agree answers (spec_run P [] ops).
Proof. exact any_history_ok. Qed.
Print Assumptions C65_any_size.

(** Both cases: with distances up to 2 only, four equal hashes overflow, three do not. *)
Definition narrow : kind N N := mkKind (fun v => v) N.eqb (fun _ => 3%N) false 2.
Example C65_any_size_applies :
  run narrow (new_table 16) [Insert 1; Insert 2; Insert 3; Find 3; Insert 4]%N = UB /\
  run narrow (new_table 16) [Insert 1; Insert 2; Insert 3; Find 3]%N = Ok [Inserted true; Inserted true; Inserted true; Found (Some 3%N)].
Proof. split; vm_compute; reflexivity. Qed.
