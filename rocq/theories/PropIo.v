(** * Theorems: buffered files and parameters (C47, C48, C49). *)
From Coq Require Import NArith String List.
From Verif Require Import StreamModel CacheModel CacheSpec CacheProofs TextModel ParamModel ParamSpec ParamProofs NumSpec NumProofs.
Import ListNotations.
Local Open Scope N_scope.

(** C47.  Any sequence of reads gives what plain reading gives, and throws exactly when
    plain reading would pass the end, for every cache size. *)
Theorem C47_reads_plain : forall f cache ns, N.of_nat (length f) < 18446744073709551616 -> (forall n, In n ns -> n < 18446744073709551616) ->
  fst (creads ns (copen (Some f) cache)) = plain_reads f ns.
Proof. exact creads_plain. Qed.
Print Assumptions C47_reads_plain.

Example C47_reads_plain_applies : fst (creads [2; 0; 4; 3; 1; 1] (copen (Some [10; 11; 12; 13; 14; 15; 16]) 3)) =
  [Got [Some 10; Some 11]; Got []; Got [Some 12; Some 13; Some 14; Some 15]; Threw; Got [Some 16]; Threw].
Proof. reflexivity. Qed.

(** C47.  The file size reported. *)
Theorem C47_size : forall f cache, c_fsize (copen (Some f) cache) = N.of_nat (length f).
Proof. exact copen_size. Qed.
Print Assumptions C47_size.

(** C47.  Opening a missing file is not reported: a first read within the cache size
    gives uninitialised bytes, a longer one throws. *)
Theorem C47_missing_file : forall cache n, cache < 18446744073709551615 -> n < 18446744073709551616 ->
  (n <= cache -> fst (cread n (copen None cache)) = Got (repeat None (N.to_nat n))) /\
  (cache < n -> fst (cread n (copen None cache)) = Threw).
Proof. exact copen_missing. Qed.
Print Assumptions C47_missing_file.

Example C47_missing_file_applies : fst (cread 2 (copen None 3)) = Got [None; None] /\ fst (cread 4 (copen None 3)) = Threw.
Proof. split; reflexivity. Qed.

(** C48.  Without seeking back, the file is the concatenation of what was written and
    the size reported after a flush is its length. *)
Theorem C48_writes_concat : forall cache g os, sizes_ok cache os -> length g = N.to_nat cache -> no_reset os ->
  exists c, osteps os (oopen cache g) = Some c /\ oclose c = written os /\ o_fsize (oflush c) = N.of_nat (length (written os)).
Proof. exact writes_concat. Qed.
Print Assumptions C48_writes_concat.

Definition ex_ops : list oop := [OWrite [1; 2]; OWrite [3]; OFlush; OWrite []; OWrite [4; 5; 6; 7]; OWrite [8]].
Example C48_writes_concat_applies : sizes_ok 3 ex_ops /\ no_reset ex_ops /\
  option_map oclose (osteps ex_ops (oopen 3 [9; 9; 9])) = Some [1; 2; 3; 4; 5; 6; 7; 8].
Proof.
  split; [split; [reflexivity|]|split; [|reflexivity]].
  - intros b H. unfold ex_ops in H. cbn [In] in H. repeat (destruct H as [H|H]; [try discriminate; injection H as <-; reflexivity|]). destruct H.
  - intros H. unfold ex_ops in H. cbn [In] in H. repeat (destruct H as [H|H]; [discriminate|]). destruct H.
Qed.

(** C48.  With resets: the file is what unbuffered writing gives; the size reported
    after a flush is the number of bytes written. *)
Theorem C48_writes_plain : forall cache g os, sizes_ok cache os -> length g = N.to_nat cache ->
  exists c, osteps os (oopen cache g) = Some c /\ oclose c = plain_writes os [] 0 /\ o_fsize (oflush c) = N.of_nat (length (written os)).
Proof. exact writes_plain. Qed.
Print Assumptions C48_writes_plain.

(** C48.  Rewriting the header at the end. *)
Theorem C48_reset_header : forall cache g h0 os h1, sizes_ok cache (OWrite h0 :: os ++ [OReset; OWrite h1]) -> length g = N.to_nat cache -> no_reset os ->
  length h1 = length h0 ->
  exists c, osteps (OWrite h0 :: os ++ [OReset; OWrite h1]) (oopen cache g) = Some c /\ oclose c = h1 ++ written os.
Proof. exact reset_header. Qed.
Print Assumptions C48_reset_header.

Example C48_reset_header_applies : option_map oclose (osteps (OWrite [0; 0] :: [OWrite [5; 6; 7]] ++ [OReset; OWrite [1; 2]]) (oopen 3 [9; 9; 9])) = Some [1; 2; 5; 6; 7].
Proof. reflexivity. Qed.

(** So after a reset the size reported is not the size of the file. *)
Theorem C48_size_after_reset_refuted : exists os c, sizes_ok 3 os /\ osteps os (oopen 3 [0; 0; 0]) = Some c /\
  o_fsize (oflush c) <> N.of_nat (length (oclose c)).
Proof.
  exists [OWrite [1]; OReset; OWrite [2]]. eexists. split; [|split; [reflexivity|discriminate]].
  split; [reflexivity|]. intros b H. cbn [In] in H. repeat (destruct H as [H|H]; [try discriminate; injection H as <-; reflexivity|]). destruct H.
Qed.
Print Assumptions C48_size_after_reset_refuted.

(** C49.  Getting an unsigned parameter returns the last value set. *)
Theorem C49_get_last : forall pre name v post, v < 4294967296 -> untouched name post ->
  p_get conv_u32 name (prun (pre ++ SetU name v :: post)) = Val v.
Proof. exact get_last. Qed.
Print Assumptions C49_get_last.

Example C49_get_last_applies : untouched "R" [SetU "L" 50; SetT "alpha" "1.2"] /\
  p_get conv_u32 "R" (prun [SetU "R" 7; SetU "R" 4294967295; SetU "L" 50; SetT "alpha" "1.2"]) = Val 4294967295.
Proof. split; [intros o [<-|[<-|[]]]; discriminate|reflexivity]. Qed.

(** C49.  A name never set throws std::invalid_argument, and gives the default value
    when one is passed. *)
Theorem C49_get_unset : forall A (conv : string -> pres A) name os, untouched name os -> name <> "num_threads"%string -> name <> "alpha"%string -> name <> "pruning_rule"%string ->
  p_get conv name (prun os) = NoName /\ forall d, p_get_default conv name d (prun os) = Val d.
Proof. exact get_unset. Qed.
Print Assumptions C49_get_unset.

Example C49_get_unset_applies : untouched "C" [SetU "L" 50] /\ p_get conv_u32 "C" (prun [SetU "L" 50]) = NoName.
Proof. split; [intros o [<-|[]]; discriminate|reflexivity]. Qed.

(** C49.  The values a fresh object has. *)
Theorem C49_defaults : forall os,
  (untouched "num_threads" os -> p_get conv_u32 "num_threads" (prun os) = Val 0) /\
  (untouched "pruning_rule" os -> p_get conv_u32 "pruning_rule" (prun os) = Val 0) /\
  (untouched "alpha" os -> prun os "alpha"%string = Some "1"%string).
Proof. exact get_defaults. Qed.
Print Assumptions C49_defaults.

(** C49.  A string parameter is returned as set exactly when it is non-empty and has no
    white space. *)
Theorem C49_get_string : forall pre name s post, untouched name post ->
  p_get conv_str name (prun (pre ++ SetT name s :: post)) = Val s <-> s <> ""%string /\ spaceless s.
Proof. exact get_string. Qed.
Print Assumptions C49_get_string.

Example C49_get_string_applies : p_get conv_str "f" (prun [SetT "f" "/tmp/a.bin"]) = Val "/tmp/a.bin"%string /\
  p_get conv_str "f" (prun [SetT "f" "/tmp/a b.bin"]) = BadText.
Proof. split; reflexivity. Qed.

(** C49.  A parameter set as text can be read as an unsigned number exactly if the whole text
    is a number below 2^32, perhaps after white space and a sign.  A minus sign is accepted
    and negates modulo 2^32. *)
Theorem C49_get_number : forall pre name s post v, untouched name post ->
  p_get conv_u32 name (prun (pre ++ SetT name s :: post)) = Val v <->
  exists neg n, numeral s neg n "" /\ n < 4294967296 /\ v = (if neg then (4294967296 - n) mod 4294967296 else n).
Proof. intros pre name s post v H. rewrite (get_text pre name s post H). exact (conv_u32_iff s v). Qed.
Print Assumptions C49_get_number.

Example C49_get_number_applies : numeral " -5" true 5 "" /\ numeral "+071" false 71 "" /\ p_get conv_u32 "R" (prun [SetT "R" " -5"]) = Val 4294967291 /\ p_get conv_u32 "R" (prun [SetT "R" "5x"]) = BadText.
Proof.
  repeat split; try reflexivity; apply scan_iff; reflexivity.
Qed.
