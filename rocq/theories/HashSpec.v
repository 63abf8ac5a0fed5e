(** * Specification of the hash set and map: a list of values with different keys. *)
From Coq Require Import NArith List Arith Bool Sorting.Permutation.
From Verif Require Import Base HashModel.
Import ListNotations.

(** The operations of a user.  [Assign v set] is m[k] = x for a map, where v is the pair
    of k and a default value and [set] replaces the second component by x. *)
Inductive op (A K : Type) : Type :=
| Insert (v : A) | Find (k : K) | Erase (k : K) | Assign (v : A) (set : A -> A) | Size | Items | Clear | Reserve (n : N).
Arguments Insert {A K}.
Arguments Find {A K}.
Arguments Erase {A K}.
Arguments Assign {A K}.
Arguments Size {A K}.
Arguments Items {A K}.
Arguments Clear {A K}.
Arguments Reserve {A K}.

(** What they return: whether a value was inserted, the value found, how many were
    erased or are there, the values in the order of iteration, or nothing. *)
Inductive answer (A : Type) : Type :=
| Inserted (b : bool) | Found (v : option A) | Number (n : nat) | Listed (l : list A) | Done.
Arguments Inserted {A}.
Arguments Found {A}.
Arguments Number {A}.
Arguments Listed {A}.
Arguments Done {A}.

(** ** The set *)
Definition lookup {A K : Type} (P : kind A K) (k : K) (s : list A) : option A := List.find (fun v => k_eq P (k_key P v) k) s.

Definition spec_step {A K : Type} (P : kind A K) (s : list A) (o : op A K) : list A * answer A :=
  match o with
  | Insert v => match lookup P (k_key P v) s with Some _ => (s, Inserted false) | None => (v :: s, Inserted true) end
  | Find k => (s, Found (lookup P k s))
  | Erase k => match lookup P k s with Some _ => (filter (fun v => negb (k_eq P (k_key P v) k)) s, Number 1) | None => (s, Number 0) end
  | Assign v set => match lookup P (k_key P v) s with
                    | Some _ => (map (fun w => if k_eq P (k_key P w) (k_key P v) then set w else w) s, Done)
                    | None => (set v :: s, Done) end
  | Size => (s, Number (length s))
  | Items => (s, Listed s)
  | Clear => ([], Done)
  | Reserve _ => (s, Done)
  end.

Fixpoint spec_run {A K : Type} (P : kind A K) (s : list A) (ops : list (op A K)) : list (answer A) :=
  match ops with [] => [] | o :: rest => snd (spec_step P s o) :: spec_run P (fst (spec_step P s o)) rest end.

(** The answers agree; iteration may be in any order. *)
Definition agree {A : Type} (a b : answer A) : Prop :=
  match a, b with Listed l, Listed m => Permutation l m | _, _ => a = b end.

(** Sizes reserved are below 2^62 and assignment keeps the key. *)
Definition right_op {A K : Type} (P : kind A K) (o : op A K) : Prop :=
  match o with Assign _ set => forall w, k_key P (set w) = k_key P w | Reserve n => (n < 2 ^ 62)%N | _ => True end.
(** At no time more than [m] values are held. *)
Fixpoint fits {A K : Type} (P : kind A K) (m : N) (s : list A) (ops : list (op A K)) : Prop :=
  (N.of_nat (length s) <= m)%N /\ match ops with [] => True | o :: rest => fits P m (fst (spec_step P s o)) rest end.

(** ** The table *)
Definition step {A K : Type} (P : kind A K) (t : table A) (o : op A K) : res (table A * answer A) :=
  match o with
  | Insert v => do r <- insert P v t; Ok (fst (fst r), Inserted (snd r))
  | Find k => do r <- find P k t; Ok (t, Found r)
  | Erase k => do r <- erase P k t; Ok (fst r, Number (snd r))
  | Assign v set => do r <- assign P v set t; Ok (r, Done)
  | Size => Ok (t, Number (t_size t))
  | Items => Ok (t, Listed (items (t_buckets t)))
  | Clear => Ok (clear t, Done)
  | Reserve n => do r <- reserve P n t; Ok (r, Done)
  end.

Fixpoint run {A K : Type} (P : kind A K) (t : table A) (ops : list (op A K)) : res (list (answer A)) :=
  match ops with
  | [] => Ok []
  | o :: rest => do r <- step P t o; do l <- run P (fst r) rest; Ok (snd r :: l)
  end.
