(** * Theorems: file converters (C63, C81). *)
From Coq Require Import NArith ZArith SpecFloat List Arith Lia Sorting.Permutation.
From Verif Require Import Base Bytes Float32 StreamModel BinModel BinSpec ConvertModel ConvertSpec ConvertProofs.
Import ListNotations.
Local Open Scope nat_scope.

(** C63.  Converting an fvecs or ivecs file, with any block size, writes the number of
    records, the dimension of the first and the coordinates of all of them in order.  A
    last incomplete record is dropped; the headers of later records are not looked at. *)
Theorem C63_records : forall bs nd recs tail v r0, 1 <= bs -> u32_range (N.of_nat nd) ->
  (forall r, In r recs -> length (fst r) = 4 /\ length (snd r) = 4 * nd) -> length tail < (nd + 1) * 4 -> recs = (u32 (N.of_nat nd), v) :: r0 ->
  vecs_to_bin bs (Some (flat_map record recs ++ tail)) = Ok (u32 (N.of_nat (length recs)) ++ u32 (N.of_nat nd) ++ flat_map snd recs).
Proof. exact vecs_records. Qed.
Print Assumptions C63_records.

(** Three records of two coordinates, in blocks of two; the third header is wrong. *)
Definition ex_recs : list (list N * list N) :=
  [(u32 2, u32 10 ++ u32 11); (u32 2, u32 20 ++ u32 21); (u32 7, u32 30 ++ u32 31)].
Example C63_records_applies : (forall r, In r ex_recs -> length (fst r) = 4 /\ length (snd r) = 4 * 2) /\
  vecs_to_bin 2 (Some (flat_map record ex_recs ++ [1; 2; 3]%N)) = Ok (u32 3 ++ u32 2 ++ enc_all 4 [10; 11; 20; 21; 30; 31]%N).
Proof. split; [intros r [<-|[<-|[<-|[]]]]; split; reflexivity|vm_compute; reflexivity]. Qed.

(** C63.  The file written loads as the vectors of the records. *)
Theorem C63_loads : forall bs nd recs v r0 g1 g2, 1 <= bs -> length g1 = 4 -> length g2 = 4 -> u32_range (N.of_nat nd) -> u32_range (N.of_nat (length recs)) ->
  (N.of_nat (length recs) * N.of_nat nd * 4 < 2 ^ 63)%N -> (forall r, In r recs -> length (fst r) = 4 /\ length (snd r) = 4 * nd) -> recs = (u32 (N.of_nat nd), v) :: r0 ->
  exists out, vecs_to_bin bs (Some (flat_map record recs)) = Ok out /\
    load_bin 4 g1 g2 (Some out) = Ok (N.of_nat (length recs), N.of_nat nd, dec_all 4 (length recs * nd) (flat_map snd recs)).
Proof. exact vecs_loads. Qed.
Print Assumptions C63_loads.

Example C63_loads_applies : exists out, vecs_to_bin 2 (Some (flat_map record ex_recs)) = Ok out /\
  load_bin 4 [1; 2; 3; 4]%N [5; 6; 7; 8]%N (Some out) = Ok (3%N, 2%N, [10; 11; 20; 21; 30; 31]%N).
Proof. eexists. split; vm_compute; reflexivity. Qed.

(** C63.  Any file of at least four bytes: the first four are taken as the dimension. *)
Theorem C63_any_file : forall bs b, 1 <= bs -> 4 <= length b ->
  let nd := N.to_nat (dec (firstn 4 b)) in let npts := length b / ((nd + 1) * 4) in
  vecs_to_bin bs (Some b) = Ok (u32 (N.of_nat npts) ++ u32 (N.of_nat nd) ++ rows_at nd b 0 npts).
Proof. exact vecs_to_bin_ok. Qed.
Print Assumptions C63_any_file.

(** C63.  A missing file, or one too short for the first header, leaves the dimension
    uninitialised. *)
Theorem C63_short_refuted : forall bs f, (match f with Some b => length b < 4 | None => True end) -> vecs_to_bin bs f = UB.
Proof. exact vecs_short. Qed.
Print Assumptions C63_short_refuted.

(** C81.  Converting int8, for every order of the parallel loop: the header is kept and
    every element becomes the float of its signed value. *)
Theorem C81_int8 : forall g1 g2 order n d data, length g1 = 4 -> length g2 = 4 -> u32_range n -> u32_range d ->
  N.of_nat (length data) = (n * d)%N -> (n * d < 2 ^ 63)%N -> (forall x, In x data -> (x < 256)%N) -> Permutation order (seq 0 (N.to_nat n)) ->
  exists out, convert_file 1 4 int8_to_float g1 g2 order (Some (bin_file 1 n d data)) = Ok (bin_file 4 n d out) /\
    Forall2 (fun b y => f32_of_bits y = f32_of_Z (if (b <? 128)%N then Z.of_N b else Z.of_N b - 256)) data out.
Proof. exact int8_file. Qed.
Print Assumptions C81_int8.

Theorem C81_uint8 : forall g1 g2 order n d data, length g1 = 4 -> length g2 = 4 -> u32_range n -> u32_range d ->
  N.of_nat (length data) = (n * d)%N -> (n * d < 2 ^ 63)%N -> (forall x, In x data -> (x < 256)%N) -> Permutation order (seq 0 (N.to_nat n)) ->
  exists out, convert_file 1 4 uint8_to_float g1 g2 order (Some (bin_file 1 n d data)) = Ok (bin_file 4 n d out) /\
    Forall2 (fun b y => f32_of_bits y = f32_of_Z (Z.of_N b)) data out.
Proof. exact uint8_file. Qed.
Print Assumptions C81_uint8.

(** C81.  uint32 to uint8 keeps the low eight bits. *)
Theorem C81_uint32 : forall g1 g2 order n d data, length g1 = 4 -> length g2 = 4 -> u32_range n -> u32_range d ->
  N.of_nat (length data) = (n * d)%N -> (n * d * 4 < 2 ^ 63)%N -> (forall x, In x data -> (x < 2 ^ 32)%N) -> Permutation order (seq 0 (N.to_nat n)) ->
  exists out, convert_file 4 1 uint32_to_uint8 g1 g2 order (Some (bin_file 4 n d data)) = Ok (bin_file 1 n d out) /\
    Forall2 (fun x y => y = (x mod 256)%N) data out.
Proof. exact uint32_file. Qed.
Print Assumptions C81_uint32.

(** -1, 1, -128, 2 as int8 and as uint8, rows in reverse order; 1.0f is 1065353216. *)
Example C81_types_apply :
  convert_file 1 4 int8_to_float [0;0;0;0]%N [0;0;0;0]%N [1; 0] (Some (bin_file 1 2 2 [255; 1; 128; 2]%N)) = Ok (bin_file 4 2 2 [3212836864; 1065353216; 3271557120; 1073741824]%N) /\
  convert_file 1 4 uint8_to_float [0;0;0;0]%N [0;0;0;0]%N [1; 0] (Some (bin_file 1 2 2 [255; 1; 128; 2]%N)) = Ok (bin_file 4 2 2 [1132396544; 1065353216; 1124073472; 1073741824]%N) /\
  convert_file 4 1 uint32_to_uint8 [0;0;0;0]%N [0;0;0;0]%N [1; 0] (Some (bin_file 4 2 1 [258; 7]%N)) = Ok (bin_file 1 2 1 [2; 7]%N).
Proof. vm_compute. repeat split; reflexivity. Qed.

(** C81.  Quantising to int8, with any block size: either every element x has become
    (x - bias) * (256 / scale) cut to an integer, or for some element that does not fit
    an int8 and the conversion is undefined. *)
Theorem C81_quantise : forall bias scale bs g1 g2 n d data, 1 <= bs -> length g1 = 4 -> length g2 = 4 -> u32_range n -> u32_range d ->
  N.of_nat (length data) = (n * d)%N -> (forall x, In x data -> (x < 2 ^ 32)%N) ->
  (float_bin_to_int8 bias scale bs g1 g2 (Some (bin_file 4 n d data)) = UB /\ exists x, In x data /\ forall y, ~ quantised bias scale (f32_of_bits x) y) \/
  (exists out, float_bin_to_int8 bias scale bs g1 g2 (Some (bin_file 4 n d data)) = Ok (u32 n ++ u32 d ++ out) /\ Forall2 (fun x y => quantised bias scale (f32_of_bits x) y) data out).
Proof. exact float_bin_to_int8_spec. Qed.
Print Assumptions C81_quantise.

(** 0.25 and 0.125 with bias 0 and scale 1 give 64 and 32. *)
Example C81_quantise_applies :
  float_bin_to_int8 f32_zero f32_one 1 [0;0;0;0]%N [0;0;0;0]%N (Some (bin_file 4 2 1 [1048576000; 1040187392]%N)) = Ok (u32 2 ++ u32 1 ++ [64; 32]%N).
Proof. vm_compute. reflexivity. Qed.

(** C81.  The range [bias, bias + scale] does not fit: 0.75 with bias 0 and scale 1. *)
Theorem C81_quantise_fits_refuted : exists x, f32_of_bits x = fdiv (f32_of_Z 3) (f32_of_Z 4) /\
  float_bin_to_int8 f32_zero f32_one 1 [0;0;0;0]%N [0;0;0;0]%N (Some (bin_file 4 1 1 [x])) = UB.
Proof. exists 1061158912%N. split; vm_compute; reflexivity. Qed.
Print Assumptions C81_quantise_fits_refuted.
