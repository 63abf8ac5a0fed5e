(** * Vocabulary for graph files. *)
From Coq Require Import NArith List.
From Verif Require Import Bytes.
Import ListNotations.
Local Open Scope N_scope.

(** Lists that fit the format. *)
Definition ids_ok (l : list N) : Prop := N.of_nat (length l) < 2 ^ 32 /\ forall x, In x l -> x < 2 ^ 32.
Definition lists_ok (lists : list (list N)) : Prop := forall l, In l lists -> ids_ok l.

(** Bytes of one list and of all lists. *)
Definition list_bytes (l : list N) : list N := u32 (N.of_nat (length l)) ++ enc_all 4 l.
Definition lists_bytes (lists : list (list N)) : list N := flat_map list_bytes lists.

(** The file: its own length, maximum degree, start node, lists. *)
Definition graph_file (max_degree start : N) (lists : list (list N)) : list N :=
  u64 (16 + N.of_nat (length (lists_bytes lists))) ++ u32 max_degree ++ u32 start ++ lists_bytes lists.

(** The ids [l] when only the first [p] of their bytes are there and the others are
    zero. *)
Fixpoint zero_fill (p : nat) (l : list N) : list N :=
  match l with
  | [] => []
  | x :: t => x mod 256 ^ N.of_nat (min 4 p) :: zero_fill (p - 4) t
  end.

(** The lists when only the first [k] of their bytes are there: complete lists, then
    at most one list that is cut and zero-filled. *)
Fixpoint cut_lists (k : nat) (lists : list (list N)) : list (list N) :=
  match lists with
  | [] => []
  | l :: t =>
      if Nat.ltb k 4 then []
      else if Nat.ltb k (4 + 4 * length l) then [zero_fill (k - 4) l]
      else l :: cut_lists (k - (4 + 4 * length l)) t
  end.
