(** * Theorems: vector files (C38, C39, C40, C75).

    [w] is sizeof(T); [g1], [g2] are the four bytes the uninitialised header variables
    hold before they are read: the results do not depend on them. *)
From Coq Require Import NArith List Arith Lia.
From Verif Require Import Base Bytes StreamModel BinModel BinSpec BinProofs BinProofs2.
Import ListNotations.
Local Open Scope N_scope.

(** C38.  Saving a matrix and loading it gives back its sizes and contents. *)
Theorem C38_bin_round_trip : forall w g1 g2 data n d, length g1 = 4%nat -> length g2 = 4%nat ->
  u32_range n -> u32_range d -> N.of_nat (length data) = n * d -> n * d * N.of_nat w < 2 ^ 63 ->
  (forall x, In x data -> x < 256 ^ N.of_nat w) ->
  save_bin w data n d = Ok (bin_file w n d data) /\ load_bin w g1 g2 (Some (bin_file w n d data)) = Ok (n, d, data).
Proof. exact bin_round_trip. Qed.
Print Assumptions C38_bin_round_trip.

Example C38_bin_round_trip_applies :
  load_bin 2 [0;0;0;0] [9;9;9;9] (Some (bin_file 2 2 3 [1; 513; 65535; 0; 7; 256])) = Ok (2, 3, [1; 513; 65535; 0; 7; 256]).
Proof. vm_compute. reflexivity. Qed.

(** C38.  Whatever load_bin accepts, save_bin writes back byte for byte. *)
Theorem C38_bin_reload : forall w g1 g2 b n d data, width w -> length g1 = 4%nat -> length g2 = 4%nat -> is_bytes g1 -> is_bytes g2 ->
  is_bytes b -> load_bin w g1 g2 (Some b) = Ok (n, d, data) -> save_bin w data n d = Ok b.
Proof. exact bin_reload. Qed.
Print Assumptions C38_bin_reload.

(** C38.  A padded load followed by a save in the original dimensions reproduces the
    file byte for byte. *)
Theorem C38_aligned_resave : forall w g1 g2 n d rest, length g1 = 4%nat -> length g2 = 4%nat ->
  u32_range n -> u32_range d -> N.of_nat (length rest) = n * d * N.of_nat w -> n * round_up d 8 * N.of_nat w + 8 < 2 ^ 64 ->
  exists rdim rows, load_aligned_bin w g1 g2 (Some (u32 n ++ u32 d ++ rest)) = Ok (n, d, rdim, rows) /\
    save_orig w rows rdim d = Ok (Some (u32 n ++ u32 d ++ rest)).
Proof. exact aligned_resave. Qed.
Print Assumptions C38_aligned_resave.

Example C38_aligned_resave_applies :
  match load_aligned_bin 1 [0;0;0;0] [9;9;9;9] (Some (bin_file 1 2 3 [1; 2; 3; 4; 5; 6])) with
  | Ok (n, d, rd, rows) => (n, d, rd, rows, save_orig 1 rows rd d)
  | _ => (0, 0, 0, [], UB)
  end = (2, 3, 8, [[Some 1; Some 2; Some 3; Some 0; Some 0; Some 0; Some 0; Some 0]; [Some 4; Some 5; Some 6; Some 0; Some 0; Some 0; Some 0; Some 0]],
    Ok (Some (bin_file 1 2 3 [1; 2; 3; 4; 5; 6]))).
Proof. vm_compute. reflexivity. Qed.

(** C39.  load_bin either returns the contents of a file that has the size its header
    announces, or throws; this covers every byte string and a missing file. *)
Theorem C39_load_bin_cases : forall w g1 g2 f, width w -> length g1 = 4%nat -> length g2 = 4%nat -> is_bytes g1 -> is_bytes g2 ->
  (forall b, f = Some b -> is_bytes b) ->
  (exists n d rest, f = Some (u32 n ++ u32 d ++ rest) /\ u32_range n /\ u32_range d /\
     N.of_nat (length rest) = n * d * N.of_nat w /\ n * d * N.of_nat w < 2 ^ 63 /\
     load_bin w g1 g2 f = Ok (n, d, dec_all w (N.to_nat (n * d)) rest)) \/
  load_bin w g1 g2 f = Throw.
Proof. exact load_bin_cases. Qed.
Print Assumptions C39_load_bin_cases.

(** C39.  Every truncation and every extension of a saved file is rejected. *)
Theorem C39_load_bin_wrong_size : forall w g1 g2 n d data b', width w -> length g1 = 4%nat -> length g2 = 4%nat -> is_bytes g1 -> is_bytes g2 ->
  u32_range n -> u32_range d -> N.of_nat (length data) = n * d ->
  is_bytes b' -> length b' <> length (bin_file w n d data) ->
  (exists k, b' = firstn k (bin_file w n d data)) \/ (exists more, b' = bin_file w n d data ++ more) ->
  load_bin w g1 g2 (Some b') = Throw.
Proof. exact bin_wrong_size. Qed.
Print Assumptions C39_load_bin_wrong_size.

Example C39_load_bin_wrong_size_applies :
  load_bin 2 [0;0;0;0] [0;0;0;0] (Some (firstn 19 (bin_file 2 2 3 [1; 513; 65535; 0; 7; 256]))) = Throw /\
  load_bin 2 [0;0;0;0] [0;0;0;0] (Some (bin_file 2 2 3 [1; 513; 65535; 0; 7; 256] ++ [0])) = Throw.
Proof. vm_compute. split; reflexivity. Qed.

(** C39.  The same for aligned loading, as long as the size does not wrap: what is
    accepted has the announced size, *)
Theorem C39_load_aligned_accepts : forall w g1 g2 f n d rdim rows, width w -> length g1 = 4%nat -> length g2 = 4%nat -> is_bytes g1 -> is_bytes g2 ->
  (forall b, f = Some b -> is_bytes b) -> load_aligned_bin w g1 g2 f = Ok (n, d, rdim, rows) ->
  n * d * N.of_nat w + 8 < 2 ^ 64 ->
  exists rest, f = Some (u32 n ++ u32 d ++ rest) /\ N.of_nat (length rest) = n * d * N.of_nat w.
Proof. exact aligned_cases. Qed.
Print Assumptions C39_load_aligned_accepts.

(** and truncations behind the header and extensions throw. *)
Theorem C39_load_aligned_wrong_size : forall w g1 g2 n d data b', length g1 = 4%nat -> length g2 = 4%nat ->
  u32_range n -> u32_range d -> N.of_nat (length data) = n * d -> n * d * N.of_nat w + 8 < 2 ^ 64 ->
  length b' <> length (bin_file w n d data) ->
  (exists k, (8 <= k)%nat /\ b' = firstn k (bin_file w n d data)) \/ (exists more, b' = bin_file w n d data ++ more) ->
  load_aligned_bin w g1 g2 (Some b') = Throw.
Proof. exact aligned_wrong_size_saved. Qed.
Print Assumptions C39_load_aligned_wrong_size.

Example C39_load_aligned_wrong_size_applies :
  load_aligned_bin 2 [0;0;0;0] [0;0;0;0] (Some (firstn 19 (bin_file 2 2 3 [1; 513; 65535; 0; 7; 256]))) = Throw.
Proof. vm_compute. reflexivity. Qed.

(** C39.  Where the size wraps, an 8-byte file is accepted and no coordinate is
    initialised. *)
Theorem C39_load_aligned_wraps : forall w g1 g2 n d, length g1 = 4%nat -> length g2 = 4%nat -> u32_range n -> u32_range d ->
  d mod 8 = 0 -> 0 < d -> (1 <= w)%nat -> n * d * N.of_nat w mod 2 ^ 64 = 0 ->
  exists rows, load_aligned_bin w g1 g2 (Some (u32 n ++ u32 d)) = Ok (n, d, d, rows) /\ length rows = N.to_nat n /\
    forall row, In row rows -> forall x, In x row -> x = None.
Proof. exact aligned_wrap. Qed.
Print Assumptions C39_load_aligned_wraps.

(** Such sizes exist: floats, n = d = 2^31. *)
Theorem C39_load_aligned_rejects_refuted :
  exists n d rows, load_aligned_bin 4 [0;0;0;0] [0;0;0;0] (Some (u32 n ++ u32 d)) = Ok (n, d, d, rows) /\
    n * d * 4 <> 0 /\ length rows = N.to_nat n /\ (forall row, In row rows -> forall x, In x row -> x = None).
Proof. exact aligned_rejects_refuted. Qed.
Print Assumptions C39_load_aligned_rejects_refuted.

(** C40.  Aligned loading: the padded dimension is the next multiple of 8, every
    coordinate is the file's, every padding element is zero. *)
Theorem C40_aligned_padding : forall w g1 g2 n d rest, length g1 = 4%nat -> length g2 = 4%nat ->
  u32_range n -> u32_range d -> N.of_nat (length rest) = n * d * N.of_nat w -> n * round_up d 8 * N.of_nat w + 8 < 2 ^ 64 ->
  exists rdim rows, load_aligned_bin w g1 g2 (Some (u32 n ++ u32 d ++ rest)) = Ok (n, d, rdim, rows) /\
    d <= rdim < d + 8 /\ rdim mod 8 = 0 /\ length rows = N.to_nat n /\
    forall i row, nth_error rows i = Some row ->
      length row = (N.to_nat rdim * w)%nat /\
      (forall j, (j < N.to_nat d)%nat -> mem_elem w row j = Some (file_elem w (u32 n ++ u32 d ++ rest) (i * N.to_nat d + j))) /\
      (forall j, (N.to_nat d <= j < N.to_nat rdim)%nat -> mem_elem w row j = Some 0).
Proof. exact aligned_spec. Qed.
Print Assumptions C40_aligned_padding.

Example C40_aligned_padding_applies : u32_range 2 /\ u32_range 3 /\ N.of_nat (length [1;2;3;4;5;6]) = 2 * 3 * N.of_nat 1 /\ 2 * round_up 3 8 * N.of_nat 1 + 8 < 2 ^ 64.
Proof. repeat split. Qed.

(** C75.  Writing selected vectors of a loaded file and loading them again gives
    exactly the selected vectors, in the order of the selection. *)
Theorem C75_subset_file : forall w g1 g2 h1 h2 n d rest ids, length g1 = 4%nat -> length g2 = 4%nat -> length h1 = 4%nat -> length h2 = 4%nat ->
  u32_range n -> u32_range d -> N.of_nat (length rest) = n * d * N.of_nat w -> n * round_up d 8 * N.of_nat w + 8 < 2 ^ 64 ->
  u32_range (N.of_nat (length ids)) -> N.of_nat (length ids) * round_up d 8 * N.of_nat w + 8 < 2 ^ 64 ->
  (forall i, In i ids -> (i < N.to_nat n)%nat) ->
  exists rdim rows sub rows', load_aligned_bin w g1 g2 (Some (u32 n ++ u32 d ++ rest)) = Ok (n, d, rdim, rows) /\
    save_subset w rows d rdim ids = Ok (Some sub) /\
    load_aligned_bin w h1 h2 (Some sub) = Ok (N.of_nat (length ids), d, rdim, rows') /\
    length rows' = length ids /\ forall k i, nth_error ids k = Some i -> nth_error rows' k = nth_error rows i.
Proof. exact subset_ok. Qed.
Print Assumptions C75_subset_file.

Example C75_subset_file_applies :
  match load_aligned_bin 1 [0;0;0;0] [9;9;9;9] (Some (bin_file 1 3 2 [1; 2; 3; 4; 5; 6])) with
  | Ok (n, d, rd, rows) => save_subset 1 rows d rd [2; 0]%nat
  | _ => UB
  end = Ok (Some (bin_file 1 2 2 [5; 6; 1; 2])).
Proof. vm_compute. reflexivity. Qed.

(** C75.  The sizes get_bin_metadata reports are the header's exactly when both are
    below 2^31. *)
Theorem C75_metadata : forall g1 g2 n d rest, length g1 = 4%nat -> length g2 = 4%nat -> u32_range n -> u32_range d ->
  (get_bin_metadata g1 g2 (Some (u32 n ++ u32 d ++ rest)) = (n, d) <-> n < 2 ^ 31 /\ d < 2 ^ 31).
Proof. exact metadata_ok. Qed.
Print Assumptions C75_metadata.

Example C75_metadata_applies : u32_range 3000000000 /\ get_bin_metadata [0;0;0;0] [0;0;0;0] (Some (u32 3000000000 ++ u32 8)) = (18446744072414584320, 8).
Proof. split; reflexivity. Qed.
