(** * Theorems: text converters (C90). *)
From Coq Require Import NArith ZArith QArith Qabs SpecFloat List Arith Lia.
From Verif Require Import Base Bytes Float32 FloatBits DivFacts StreamModel BinModel BinSpec TsvModel TsvSpec TsvProofs3.
Import ListNotations.
Local Open Scope nat_scope.

(** C90.  bin_to_tsv on a float file with finite values, for every number of points and
    every block size: one line per point, entries separated by tabs, and every entry is
    the decimal notation of a number of at most six digits closest to the value. *)
Theorem C90_float_text : forall bs g1 g2 nd tb extra, 1 <= bs -> 1 <= nd -> length g1 = 4 -> length g2 = 4 ->
  u32_range (N.of_nat (length tb)) -> u32_range (N.of_nat nd) -> table nd tb -> elements (fun x => (x < 2 ^ 32)%N /\ finite (f32_of_bits x)) tb ->
  exists texts, bin_to_tsv Float bs g1 g2 (Some (table_file 4 nd tb ++ extra)) = Ok (table_text texts) /\
    Forall2 (Forall2 (fun x t => exists q, closest_decimal (fvalue (f32_of_bits x)) q /\ notation_of t q)) tb texts.
Proof. exact float_text_ok. Qed.
Print Assumptions C90_float_text.

(** C90.  Float file to text and back: every value becomes the float closest to the
    six-digit decimal closest to it, and writing that file as text again gives the same
    text. *)
Theorem C90_float_round_trip : forall bs g1 g2 nd tb, 1 <= bs -> 1 <= nd -> length g1 = 4 -> length g2 = 4 ->
  u32_range (N.of_nat (length tb)) -> u32_range (N.of_nat nd) -> table nd tb -> elements (fun x => (x < 2 ^ 32)%N /\ finite (f32_of_bits x)) tb ->
  exists txt tc, bin_to_tsv Float bs g1 g2 (Some (table_file 4 nd tb)) = Ok txt /\
    tsv_to_bin Float bs (Some txt) nd (length tb) = Ok (table_file 4 nd tc) /\ table nd tc /\ length tc = length tb /\
    entrywise (fun x y => exists q, closest_decimal (fvalue (f32_of_bits x)) q /\ closest_float q (f32_of_bits y)) tb tc /\
    bin_to_tsv Float bs g1 g2 (Some (table_file 4 nd tc)) = Ok txt.
Proof. exact float_round_trip. Qed.
Print Assumptions C90_float_round_trip.

(** 0.5, -3, 0 / the smallest positive float, the largest float, 1234567; blocks of one. *)
Definition ex_floats : list (list N) := [[1056964608; 3225419776; 0]; [1; 2139095039; 1234613304]]%N.
Example C90_float_case : table 3 ex_floats /\ elements (fun x => (x < 2 ^ 32)%N /\ finite (f32_of_bits x)) ex_floats /\
  bin_to_tsv Float 1 [0; 0; 0; 0]%N [0; 0; 0; 0]%N (Some (table_file 4 3 ex_floats)) =
    Ok ([48; 46; 53; 9; 45; 51; 9; 48; 10] ++ [49; 46; 52; 48; 49; 51; 101; 45; 52; 53; 9] ++
        [51; 46; 52; 48; 50; 56; 50; 101; 43; 51; 56; 9] ++ [49; 46; 50; 51; 52; 53; 55; 101; 43; 48; 54; 10])%N.
Proof.
  split; [repeat constructor|]. split; [|vm_compute; reflexivity].
  intros x [<-|[<-|[<-|[<-|[<-|[<-|[]]]]]]]; vm_compute; auto.
Qed.

(** C90.  The claim that the values come back is false: 1234567 comes back as 1234570. *)
Theorem C90_float_exact_refuted : forall bs g, 1 <= bs -> length g = 4 -> exists x y txt, f32_of_bits x = f32_of_Z 1234567 /\ f32_of_bits y = f32_of_Z 1234570 /\
  bin_to_tsv Float bs g g (Some (table_file 4 1 [[x]])) = Ok txt /\ tsv_to_bin Float bs (Some txt) 1 1 = Ok (table_file 4 1 [[y]]).
Proof. exact float_digits_lost. Qed.
Print Assumptions C90_float_exact_refuted.

(** C90.  An infinity is written as "inf", which cannot be read: it and everything behind
    it comes back as 0. *)
Theorem C90_infinity_refuted : forall bs g, 1 <= bs -> length g = 4 -> exists txt,
  bin_to_tsv Float bs g g (Some (table_file 4 3 [[bits_of_f32 f32_one; bits_of_f32 (S754_infinity false); bits_of_f32 f32_one]])) = Ok txt /\
  tsv_to_bin Float bs (Some txt) 3 1 = Ok (table_file 4 3 [[bits_of_f32 f32_one; 0%N; 0%N]]).
Proof. exact float_infinity_lost. Qed.
Print Assumptions C90_infinity_refuted.

(** C90.  bin_to_tsv on an int8 or uint8 file of at most one block of points: every
    element is written as the character with its code, not as a number. *)
Theorem C90_byte_text : forall bs g1 g2 nd tb extra, 1 <= bs -> 1 <= nd -> length g1 = 4 -> length g2 = 4 -> length tb <= bs ->
  u32_range (N.of_nat (length tb)) -> u32_range (N.of_nat nd) -> table nd tb -> elements (fun x => (x < 256)%N) tb -> Forall (fun x => (x < 256)%N) extra ->
  bin_to_tsv Byte bs g1 g2 (Some (table_file 1 nd tb ++ extra)) = Ok (table_text (map (map (fun x => [x])) tb)).
Proof. exact byte_text_ok. Qed.
Print Assumptions C90_byte_text.

(** C90.  Such a file comes back byte for byte if no element is a white-space code. *)
Theorem C90_byte_round_trip : forall bs g1 g2 nd tb, 1 <= bs -> 1 <= nd -> length g1 = 4 -> length g2 = 4 -> length tb <= bs ->
  u32_range (N.of_nat (length tb)) -> u32_range (N.of_nat nd) -> table nd tb -> elements (fun x => (x < 256)%N /\ ~ white x) tb ->
  exists txt, bin_to_tsv Byte bs g1 g2 (Some (table_file 1 nd tb)) = Ok txt /\
    tsv_to_bin Byte bs (Some txt) nd (length tb) = Ok (table_file 1 nd tb).
Proof. exact byte_round_trip. Qed.
Print Assumptions C90_byte_round_trip.

Definition ex_bytes : list (list N) := [[1; 200]; [255; 0]; [45; 127]]%N.
Example C90_byte_case : table 2 ex_bytes /\ elements (fun x => (x < 256)%N /\ ~ white x) ex_bytes /\
  bin_to_tsv Byte 3 [0; 0; 0; 0]%N [0; 0; 0; 0]%N (Some (table_file 1 2 ex_bytes)) = Ok [1; 9; 200; 10; 255; 9; 0; 10; 45; 9; 127; 10]%N /\
  tsv_to_bin Byte 3 (Some [1; 9; 200; 10; 255; 9; 0; 10; 45; 9; 127; 10]%N) 2 3 = Ok (table_file 1 2 ex_bytes).
Proof.
  split; [repeat constructor|]. split; [|vm_compute; auto].
  intros x H. split; [|intro W; cbn in H, W; intuition congruence]. cbn in H. intuition (subst; reflexivity).
Qed.

(** C90.  An element that is a white-space code is lost, and the rest moves up. *)
Theorem C90_byte_white_refuted : forall bs g, 1 <= bs -> length g = 4 -> exists txt,
  bin_to_tsv Byte bs g g (Some (table_file 1 3 [[7; 32; 5]%N])) = Ok txt /\ tsv_to_bin Byte bs (Some txt) 3 1 = Ok (table_file 1 3 [[7; 5; 5]%N]).
Proof. exact byte_white_lost. Qed.
Print Assumptions C90_byte_white_refuted.

(** C90.  int8 and uint8 files of more than one block: every block asks for four bytes
    per element, so the first one reads the whole file and the second block of points is
    written as a copy of the first. *)
Theorem C90_byte_blocks_refuted : forall bs g1 g2 nd tb, 1 <= bs -> 1 <= nd -> length g1 = 4 -> length g2 = 4 -> bs < length tb <= 2 * bs ->
  u32_range (N.of_nat (length tb)) -> u32_range (N.of_nat nd) -> table nd tb -> elements (fun x => (x < 256)%N) tb ->
  bin_to_tsv Byte bs g1 g2 (Some (table_file 1 nd tb)) = Ok (table_text (map (map (fun x => [x])) (firstn bs tb ++ firstn (length tb - bs) tb))).
Proof. exact byte_blocks_wrong. Qed.
Print Assumptions C90_byte_blocks_refuted.

Example C90_byte_blocks_case : bin_to_tsv Byte 2 [0; 0; 0; 0]%N [0; 0; 0; 0]%N (Some (table_file 1 2 ex_bytes)) =
  Ok [1; 9; 200; 10; 255; 9; 0; 10; 1; 9; 200; 10]%N.
Proof. vm_compute. reflexivity. Qed.

(** C90.  A text of decimal numbers read as uint8: "12 7" gives the codes of '1' and '2'. *)
Theorem C90_byte_decimal_refuted : forall bs, 1 <= bs -> tsv_to_bin Byte bs (Some [49; 50; 9; 55; 10]%N) 2 1 = Ok (table_file 1 2 [[49; 50]%N]).
Proof. exact byte_decimal. Qed.
Print Assumptions C90_byte_decimal_refuted.

(** C90.  Malformed numbers are not reported: behind "--5" every value of the file is 0, and
    "1.5.25" is read as two values, 1.5 and .25. *)
Theorem C90_malformed_refuted : forall bs, 1 <= bs ->
  tsv_to_bin Float bs (Some [45; 45; 53; 9; 55; 10]%N) 2 1 = Ok (table_file 4 2 [[0; 0]%N]) /\
  tsv_to_bin Float bs (Some [49; 46; 53; 46; 50; 53; 9; 55; 10]%N) 2 1 = Ok (table_file 4 2 [[bits_of_f32 (fdiv (f32_of_Z 3) (f32_of_Z 2)); bits_of_f32 (fdiv (f32_of_Z 1) (f32_of_Z 4))]]).
Proof. exact malformed. Qed.
Print Assumptions C90_malformed_refuted.

(** C90.  Asking tsv_to_bin for more values than the text has is not an error: the last
    value is repeated. *)
Theorem C90_short_text_byte : forall bs nd tb nd' npts', 1 <= bs -> 1 <= nd -> table nd tb -> elements (fun x => (x < 256)%N /\ ~ white x) tb -> tb <> [] ->
  npts' <= bs -> length (concat tb) <= npts' * nd' ->
  tsv_to_bin Byte bs (Some (table_text (map (map (fun x => [x])) tb))) nd' npts' =
    Ok (bin_file 1 (N.of_nat npts') (N.of_nat nd') (concat tb ++ repeat (last (concat tb) 0%N) (npts' * nd' - length (concat tb)))).
Proof. exact short_text_byte. Qed.
Print Assumptions C90_short_text_byte.

Theorem C90_short_text_float : forall bs g1 g2 nd tb txt nd' npts', 1 <= bs -> 1 <= nd -> length g1 = 4 -> length g2 = 4 ->
  u32_range (N.of_nat (length tb)) -> u32_range (N.of_nat nd) -> table nd tb -> elements (fun x => (x < 2 ^ 32)%N /\ finite (f32_of_bits x)) tb -> tb <> [] ->
  bin_to_tsv Float bs g1 g2 (Some (table_file 4 nd tb)) = Ok txt -> npts' <= bs -> length (concat tb) <= npts' * nd' ->
  exists ys, tsv_to_bin Float bs (Some txt) nd (length tb) = Ok (bin_file 4 (N.of_nat (length tb)) (N.of_nat nd) ys) /\
    length ys = length (concat tb) /\
    tsv_to_bin Float bs (Some txt) nd' npts' =
      Ok (bin_file 4 (N.of_nat npts') (N.of_nat nd') (ys ++ repeat (last ys 0%N) (npts' * nd' - length ys))).
Proof. exact short_text_float. Qed.
Print Assumptions C90_short_text_float.

Example C90_short_text_case : tsv_to_bin Byte 4 (Some [1; 9; 200; 10; 255; 9; 0; 10; 45; 9; 127; 10]%N) 3 3 = Ok (bin_file 1 3 3 [1; 200; 255; 0; 45; 127; 127; 127; 127]%N) /\
  tsv_to_bin Float 4 (Some [50; 46; 53; 9; 45; 49; 10]%N) 2 2 = Ok (bin_file 4 2 2 (map bits_of_f32 [fdiv (f32_of_Z 5) (f32_of_Z 2); f32_of_Z (-1); f32_of_Z (-1); f32_of_Z (-1)])).
Proof. split; vm_compute; reflexivity. Qed.
