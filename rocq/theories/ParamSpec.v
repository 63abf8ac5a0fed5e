(** * Names in histories of Set calls, strings without white space. *)
From Coq Require Import Ascii String List.
From Verif Require Import TextModel ParamModel.
Import ListNotations.

(** The name a call sets; no call of a history sets a name. *)
Definition pname (o : pset) : string := match o with SetU n _ => n | SetT n _ => n end.
Definition untouched (name : string) (os : list pset) : Prop := forall o, In o os -> pname o <> name.

(** No space, tab, newline, vertical tab, form feed or carriage return. *)
Definition spaceless (s : string) : Prop := forall a, In a (list_ascii_of_string s) -> is_space a = false.
