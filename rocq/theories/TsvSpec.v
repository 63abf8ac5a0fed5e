(** * What the text converters should do: texts of tables, six-digit decimals. *)
From Coq Require Import NArith ZArith QArith Qpower Qabs List SpecFloat.
From Verif Require Import Float32 Bytes BinSpec DivFacts.
Import ListNotations.

(** The value of a finite float; a decimal with at most six significant digits. *)
Definition signed (s : bool) (z : Z) : Z := if s then (- z)%Z else z.
Definition fvalue (x : f32) : Q :=
  match x with
  | S754_finite s m e => inject_Z (signed s (Zpos m)) * (2 # 1) ^ e
  | _ => 0
  end.
Definition finite (x : f32) : Prop :=
  match x with S754_zero _ => True | S754_finite _ _ _ => f32_valid x = true | _ => False end.
Definition six_digits (y : Q) : Prop :=
  exists D q : Z, (Z.abs D < 1000000)%Z /\ (y == inject_Z D * (10 # 1) ^ q)%Q.

(** [y] is a six-digit decimal closest to [x]; the float [f] is closest to [y]. *)
Definition closest_decimal (x y : Q) : Prop :=
  six_digits y /\ forall y', six_digits y' -> (Qabs (x - y) <= Qabs (x - y'))%Q.
Definition closest_float (y : Q) (f : f32) : Prop :=
  finite f /\ forall g, finite g -> (Qabs (y - fvalue f) <= Qabs (y - fvalue g))%Q.

(** The text of a table: the entries of a row separated by tabs, each row ended by a
    newline. *)
Fixpoint tabbed (row : list (list N)) : list N :=
  match row with
  | [] => []
  | [a] => a
  | a :: r => a ++ [9%N] ++ tabbed r
  end.
Definition table_text (rows : list (list (list N))) : list N := flat_map (fun r => tabbed r ++ [10%N]) rows.

(** Decimal notation: sign, digits, optionally a point and digits, optionally e and an
    exponent.  Digits are given as numbers 0 to 9. *)
Definition digits_text (l : list Z) : list N := map (fun d => Z.to_N (48 + d)) l.
Definition is_digits (l : list Z) : Prop := Forall (fun d => 0 <= d <= 9)%Z l.
Definition number (l : list Z) : Z := fold_left (fun a d => a * 10 + d)%Z l 0%Z.
Inductive exponent_text : list N -> Z -> Prop :=
| no_exponent : exponent_text [] 0
| an_exponent : forall (s : bool) (E : list Z), E <> [] -> is_digits E ->
    exponent_text ([101; if s then 45 else 43]%N ++ digits_text E) (signed s (number E)).
Definition notation_of (t : list N) (y : Q) : Prop :=
  exists (s : bool) (A B : list Z) (tail : list N) (x : Z),
    A <> [] /\ is_digits A /\ is_digits B /\ exponent_text tail x /\
    t = (if s then [45%N] else []) ++ digits_text A ++ (match B with [] => [] | _ => 46%N :: digits_text B end) ++ tail /\
    (y == inject_Z (signed s (number (A ++ B))) * (10 # 1) ^ (x - Z.of_nat (length B)))%Q.

(** A table of [nd] columns, and its .bin file with elements of [w] bytes. *)
Definition table (nd : nat) (tb : list (list N)) : Prop := Forall (fun r => length r = nd) tb.
Definition table_file (w nd : nat) (tb : list (list N)) : list N :=
  bin_file w (N.of_nat (length tb)) (N.of_nat nd) (concat tb).
Definition elements (P : N -> Prop) (tb : list (list N)) : Prop := forall x, In x (concat tb) -> P x.
Definition entrywise (P : N -> N -> Prop) (tb tc : list (list N)) : Prop := Forall2 (Forall2 P) tb tc.
(** tab, newline, vertical tab, form feed, carriage return, space *)
Definition white (c : N) : Prop := In c [9; 10; 11; 12; 13; 32]%N.
