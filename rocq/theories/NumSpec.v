(** * Specification: a decimal number at the start of a text. *)
From Coq Require Import NArith Ascii String List.
Import ListNotations.

Definition chars (s : string) : list ascii := list_ascii_of_string s.
(** Tab, newline, vertical tab, form feed, carriage return, space. *)
Definition white (a : ascii) : Prop := In a ["009"; "010"; "011"; "012"; "013"; "032"]%char.
Definition decimal_digit (a : ascii) : Prop := In a ["0"; "1"; "2"; "3"; "4"; "5"; "6"; "7"; "8"; "9"]%char.
Definition decimal (s : string) : N := fold_left (fun v a => (10 * v + (N_of_ascii a - 48))%N) (chars s) 0%N.

(** [s] is white space, perhaps a sign ([neg]: a minus), the digits of [n], and [rest],
    which does not begin with a digit. *)
Definition numeral (s : string) (neg : bool) (n : N) (rest : string) : Prop :=
  exists sp sg ds, s = (sp ++ sg ++ ds ++ rest)%string /\ (forall a, In a (chars sp) -> white a) /\
    (neg = true /\ sg = "-"%string \/ neg = false /\ (sg = ""%string \/ sg = "+"%string)) /\
    ds <> ""%string /\ (forall a, In a (chars ds) -> decimal_digit a) /\
    (forall a t, rest = String a t -> ~ decimal_digit a) /\ n = decimal ds.
