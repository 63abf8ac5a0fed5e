(** * Model of Parameters (include/parameters.h:11-59).

    The unordered_map is a partial function from names to texts.  operator<< of an
    unsigned number is [show]; of any other type the text is given. *)
From Coq Require Import NArith Ascii String List Bool.
From Verif Require Import TextModel.
Import ListNotations.
Local Open Scope string_scope.

Definition params := string -> option string.

(** include/parameters.h:20-25 *)
Definition p_text (name text : string) (p : params) : params := fun m => if String.eqb m name then Some text else p m.
Definition p_set (name : string) (v : N) (p : params) : params := p_text name (show v) p.

(** include/parameters.h:13-17; operator<< of the float 1 gives the text 1. *)
Definition new_params : params := p_set "pruning_rule" 0 (p_text "alpha" "1" (p_set "num_threads" 0 (fun _ => None))).

(** A value, std::invalid_argument or std::runtime_error. *)
Inductive pres (A : Type) : Type := Val (v : A) | NoName | BadText.
Arguments Val {A} _. Arguments NoName {A}. Arguments BadText {A}.

(** include/parameters.h:48-57 for uint32_t: operator>> skips white space, takes an
    optional sign and digits, fails from 2^32 on; a minus sign negates modulo 2^32.  The
    text must be used up. *)
Definition conv_u32 (s : string) : pres N :=
  let (neg, t) := sign (skip_space s) in
  let '(v, cnt, rest) := digits t 0 0 in
  if Nat.eqb cnt 0 then BadText
  else if (4294967296 <=? v)%N then BadText
  else match rest with
       | EmptyString => Val (if neg then ((4294967296 - v) mod 4294967296)%N else v)
       | _ => BadText
       end.

(** include/parameters.h:48-57 for std::string: operator>> skips white space and takes
    the characters before the next white space. *)
Fixpoint word (s : string) : string * string :=
  match s with
  | EmptyString => (EmptyString, EmptyString)
  | String a t => if is_space a then (EmptyString, s) else let (w, r) := word t in (String a w, r)
  end.
Definition conv_str (s : string) : pres string :=
  match word (skip_space s) with
  | (EmptyString, _) => BadText
  | (w, EmptyString) => Val w
  | _ => BadText
  end.

(** include/parameters.h:27-35 *)
Definition p_get {A : Type} (conv : string -> pres A) (name : string) (p : params) : pres A :=
  match p name with None => NoName | Some t => conv t end.

(** include/parameters.h:37-44 *)
Definition p_get_default {A : Type} (conv : string -> pres A) (name : string) (dflt : A) (p : params) : pres A :=
  match p_get conv name p with NoName => Val dflt | r => r end.

(** A history of Set calls: of an unsigned number, of a value printed as some text. *)
Inductive pset : Type := SetU (name : string) (v : N) | SetT (name text : string).
Definition pstep (o : pset) (p : params) : params := match o with SetU n v => p_set n v p | SetT n t => p_text n t p end.
Definition prun (os : list pset) : params := fold_left (fun p o => pstep o p) os new_params.
