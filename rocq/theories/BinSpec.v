(** * Vocabulary for vector files. *)
From Coq Require Import NArith List.
From Verif Require Import Base Bytes.
Import ListNotations.
Local Open Scope N_scope.

Definition u32_range (x : N) : Prop := x < 2 ^ 32.

(** sizeof(T) of the element types used. *)
Definition width (w : nat) : Prop := In w [1; 2; 4; 8]%nat.

(** The file holding [n] points of [d] elements of [w] bytes. *)
Definition bin_file (w : nat) (n d : N) (elems : list N) : list N := u32 n ++ u32 d ++ enc_all w elems.

(** Element [k] of a memory area of bytes, if all its bytes are initialised. *)
Fixpoint known (l : list (option N)) : option (list N) :=
  match l with
  | [] => Some []
  | Some x :: t => match known t with Some r => Some (x :: r) | None => None end
  | None :: _ => None
  end.
Definition mem_elem (w : nat) (m : list (option N)) (k : nat) : option N :=
  match known (firstn w (skipn (k * w) m)) with
  | Some b => if Nat.eqb (length b) w then Some (dec b) else None
  | None => None
  end.

(** Element [k] behind the header of a file. *)
Definition file_elem (w : nat) (b : list N) (k : nat) : N := dec (firstn w (skipn (8 + k * w) b)).
