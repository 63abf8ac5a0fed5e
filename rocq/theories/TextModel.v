(** * Text: characters, std::getline, numbers in decimal, std::sort of strings. *)
From Coq Require Import NArith Ascii String List Bool.
From Verif Require Import Base.
Import ListNotations.
Local Open Scope string_scope.
Local Open Scope N_scope.

Definition chr (n : N) : ascii := ascii_of_N n.
Definition LF : ascii := chr 10.
Definition CR : ascii := chr 13.
Definition comma : ascii := chr 44.

(** A text file is its bytes. *)
Definition bytes_of (s : string) : list N := map N_of_ascii (list_ascii_of_string s).
Definition text_of (b : list N) : string := string_of_list_ascii (map ascii_of_N b).

(** All the strings successive std::getline(in, s, c) calls return: the pieces between
    the delimiters, without an empty piece after the last one. *)
Fixpoint getlines (c : ascii) (s : string) : list string :=
  match s with
  | EmptyString => []
  | String a t =>
      if Ascii.eqb a c then EmptyString :: getlines c t
      else match getlines c t with
           | [] => [String a EmptyString]
           | p :: r => String a p :: r
           end
  end.

(** s.erase(std::remove(s.begin(), s.end(), c), s.end()) *)
Fixpoint erase (c : ascii) (s : string) : string :=
  match s with
  | EmptyString => EmptyString
  | String a t => if Ascii.eqb a c then erase c t else String a (erase c t)
  end.

(** std::sort of a vector<std::string>: operator< compares bytes as unsigned char.
    Equal strings are indistinguishable, so every sorting algorithm gives this. *)
Fixpoint str_insert (x : string) (l : list string) : list string :=
  match l with
  | [] => [x]
  | y :: t => if String.leb x y then x :: l else y :: str_insert x t
  end.
Fixpoint str_sort (l : list string) : list string :=
  match l with [] => [] | x :: t => str_insert x (str_sort t) end.

(** operator<< of an unsigned number, std::to_string. *)
Definition digit (d : N) : ascii := chr (48 + d).
Fixpoint show_aux (fuel : nat) (n : N) (acc : string) : string :=
  match fuel with
  | O => acc
  | S f => if n <? 10 then String (digit n) acc else show_aux f (n / 10) (String (digit (n mod 10)) acc)
  end.
Definition show (n : N) : string := show_aux (S (N.size_nat n)) n EmptyString.

(** isspace in the C locale. *)
Definition is_space (a : ascii) : bool := let x := N_of_ascii a in (x =? 32) || ((9 <=? x) && (x <=? 13)).
Definition is_digit (a : ascii) : bool := let x := N_of_ascii a in (48 <=? x) && (x <=? 57).
Fixpoint skip_space (s : string) : string :=
  match s with
  | String a t => if is_space a then skip_space t else s
  | EmptyString => EmptyString
  end.
(** The digits at the start of a string: their value, how many, the rest. *)
Fixpoint digits (s : string) (acc : N) (cnt : nat) : N * nat * string :=
  match s with
  | String a t => if is_digit a then digits t (acc * 10 + (N_of_ascii a - 48)) (S cnt) else (acc, cnt, s)
  | EmptyString => (acc, cnt, EmptyString)
  end.
(** An optional sign: is it a minus?  What follows? *)
Definition sign (s : string) : bool * string :=
  match s with
  | String a t => if Ascii.eqb a (chr 45) then (true, t) else if Ascii.eqb a (chr 43) then (false, t) else (false, s)
  | EmptyString => (false, s)
  end.

(** std::stoul on a 64-bit unsigned long: throws std::invalid_argument without digits
    and std::out_of_range from 2^64 on; what follows the digits is ignored. *)
Definition stoul (s : string) : res N :=
  let (neg, t) := sign (skip_space s) in
  let '(v, cnt, _) := digits t 0 0 in
  if Nat.eqb cnt 0 then Throw
  else if 18446744073709551616 <=? v then Throw
  else Ok (if neg then (18446744073709551616 - v) mod 18446744073709551616 else v).
