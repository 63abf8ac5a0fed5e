(** * Theorems: product quantisation from data file to code file (C86).

    [env i] is what the k-means of chunk i depends on besides its points (random numbers,
    schedules, the computed distances); [cdist] the distances the encoder computes.
    [pick] tells which vectors are sampled, [conv] converts an element of [w] bytes to
    float, [g], [g'], [gl], [gl'] are the contents of uninitialised buffers. *)
From Coq Require Import ZArith NArith String List Arith Lia Bool Sorting.Permutation Floats.SpecFloat.
From Verif Require Import Base Bytes Float32 FloatBits DivFacts BinModel BinSpec IndexFileModel ClosestModel ClosestSpec PopInst PqModel PqSpec LloydModel ShardModel ShardSpec
  PqFileModel PqFileSpec PqFileProofs PqFileProofs2 PqFileProofs3.
Import ListNotations.

(** C86.  generate_pq_pivots that returns 0 leaves four files: nc pivots of dim floats;
    the centroid that was subtracted (the mean of the training vectors, or zero); the
    identity rearrangement; the chunk boundaries.  Each chunk of the pivots is the result
    of k-means on that chunk of the (centred) training vectors. *)
Theorem C86_pivot_files : forall gl env train n dim nc chunks reps path zm d d', rows_of n dim train -> floats_ok train -> 1 <= chunks -> 1 <= reps ->
  gen_pivots gl env train dim nc chunks reps path zm d = Ok (true, d') ->
  exists offs pivots, chunks <= dim /\ (N.of_nat nc * N.of_nat dim < 2 ^ 32)%N /\ boundaries dim chunks offs /\ rows_of nc dim pivots /\ floats_ok pivots /\
    pivot_files path nc dim (centroid_used zm dim train) offs pivots d' /\ same_but (pivot_names path) d d' /\
    trained env dim nc chunks reps offs (training_set zm dim train) pivots.
Proof. exact gen_pivots_files. Qed.
Print Assumptions C86_pivot_files.

(** C86.  generate_pq_data_from_pivots on a set of pivot files and a data file: the file
    it writes holds, for every vector and chunk, the first nearest pivot of the files. *)
Theorem C86_codes_file : forall g gl popf mbs maxb cdist w conv orders data n dim nc chunks base path out d centroid offs pivots,
  pops popf -> 1 <= mbs -> 1 <= maxb -> four_bytes gl -> (N.of_nat dim + 1 < 2 ^ 32)%N -> 1 <= chunks -> chunks <= dim -> (N.of_nat nc * N.of_nat dim < 2 ^ 32)%N ->
  boundaries dim chunks offs -> length centroid = dim -> (forall v, In v centroid -> f32_valid v = true) -> rows_of nc dim pivots -> floats_ok pivots ->
  pivot_files path nc dim centroid offs pivots d -> d data = Some (vector_file dim base) -> rows_ok n (dim * w) dim base -> 1 <= n ->
  pq_orders n (min n maxb) mbs orders ->
  (forall p i a, p < n -> i < chunks -> nth_error offs i = Some a -> usable (pivot_dist cdist centroid pivots (float_rows w conv dim base) a (chunk_size dim chunks i) p) nc) ->
  exists codes body, pq_data g gl popf mbs maxb cdist w conv orders data nc chunks path out d = Ok (fs_set d out (Some (u32 (N.of_nat n) ++ u32 (N.of_nat chunks) ++ body))) /\
    length codes = n * chunks /\ length body = code_width nc * (n * chunks) /\ dec_all (code_width nc) (n * chunks) body = map N.of_nat codes /\
    forall p i a, p < n -> i < chunks -> nth_error offs i = Some a ->
      exists c, nth_error codes (p * chunks + i) = Some c /\ first_nearest (pivot_dist cdist centroid pivots (float_rows w conv dim base) a (chunk_size dim chunks i) p) nc c.
Proof. exact pq_data_ok. Qed.
Print Assumptions C86_codes_file.

(** C86.  The tool, with no pivots of an earlier run: pivots trained on the sampled
    vectors, codes of all vectors against these pivots, and no other file changed. *)
Theorem C86_generate_pq : forall g g' gl gl' env popf mbs maxb cdist w conv pick orders data prefix n dim nc chunks base d d',
  let path := (prefix ++ "_pq_pivots.bin")%string in let out := (prefix ++ "_compressed.bin")%string in
  (forall x, f32_valid (conv x) = true) -> 1 <= chunks -> (N.of_nat dim + 1 < 2 ^ 32)%N -> four_bytes gl' -> rows_ok n (dim * w) dim base -> d data = Some (vector_file dim base) ->
  ~ In data (pivot_names path) -> d path = None ->
  generate_pq g g' gl gl' env popf mbs maxb cdist w conv pick orders data prefix nc chunks d = Ok d' ->
  exists offs pivots, boundaries dim chunks offs /\ rows_of nc dim pivots /\ pivot_files path nc dim (repeat f32_zero dim) offs pivots d' /\
    trained env dim nc chunks 15 offs (picked w conv dim base pick) pivots /\ same_but (out :: pivot_names path) d d' /\
    (pops popf -> 1 <= mbs -> 1 <= maxb -> pq_orders n (min n maxb) mbs orders ->
     (forall p i a, p < n -> i < chunks -> nth_error offs i = Some a -> usable (pivot_dist cdist (repeat f32_zero dim) pivots (float_rows w conv dim base) a (chunk_size dim chunks i) p) nc) ->
     exists codes body, d' out = Some (u32 (N.of_nat n) ++ u32 (N.of_nat chunks) ++ body) /\
       length codes = n * chunks /\ length body = code_width nc * (n * chunks) /\ dec_all (code_width nc) (n * chunks) body = map N.of_nat codes /\
       forall p i a, p < n -> i < chunks -> nth_error offs i = Some a ->
         exists c, nth_error codes (p * chunks + i) = Some c /\ first_nearest (pivot_dist cdist (repeat f32_zero dim) pivots (float_rows w conv dim base) a (chunk_size dim chunks i) p) nc c).
Proof. exact generate_pq_new. Qed.
Print Assumptions C86_generate_pq.

(** C86.  But if pivots of the same size are there, the tool keeps them, whatever data
    they came from: it only writes the code file. *)
Theorem C86_old_pivots_kept : forall g g' gl gl' env popf mbs maxb cdist w conv pick orders data prefix n dim nc chunks base pivots d d',
  let path := (prefix ++ "_pq_pivots.bin")%string in let out := (prefix ++ "_compressed.bin")%string in
  four_bytes gl -> rows_ok n (dim * w) dim base -> d data = Some (vector_file dim base) ->
  (N.of_nat nc * N.of_nat dim < 2 ^ 32)%N -> (N.of_nat nc < 2 ^ 32)%N -> rows_of nc dim pivots -> floats_ok pivots -> d path = Some (float_file nc dim pivots) ->
  generate_pq g g' gl gl' env popf mbs maxb cdist w conv pick orders data prefix nc chunks d = Ok d' -> same_but [out] d d'.
Proof. exact generate_pq_kept. Qed.
Print Assumptions C86_old_pivots_kept.

(** C86.  Pivots of another number or another dimension are trained again and replaced. *)
Theorem C86_other_pivots_replaced : forall gl env train n dim nc chunks reps path zm nc' dim' old d ok d', four_bytes gl -> rows_of n dim train -> floats_ok train ->
  1 <= chunks -> chunks <= dim -> 1 <= reps ->
  (N.of_nat nc' * N.of_nat dim' < 2 ^ 32)%N -> (N.of_nat dim' < 2 ^ 32)%N -> (N.of_nat nc' < 2 ^ 32)%N -> rows_of nc' dim' old -> floats_ok old ->
  d path = Some (float_file nc' dim' old) -> nc' <> nc \/ dim' <> dim ->
  gen_pivots gl env train dim nc chunks reps path zm d = Ok (ok, d') ->
  ok = true /\ exists offs pivots, boundaries dim chunks offs /\ rows_of nc dim pivots /\
    pivot_files path nc dim (centroid_used zm dim train) offs pivots d' /\ same_but (pivot_names path) d d' /\
    trained env dim nc chunks reps offs (training_set zm dim train) pivots.
Proof. exact gen_pivots_replaced. Qed.
Print Assumptions C86_other_pivots_replaced.

(** C86.  Missing pivots, pivots for another number of chunks: an exception.  More chunks
    than dimensions: no pivots. *)
Theorem C86_no_pivots : forall g gl popf mbs maxb cdist w conv orders data n dim nc chunks base path out d,
  d data = Some (vector_file dim base) -> rows_ok n (dim * w) dim base -> d path = None ->
  pq_data g gl popf mbs maxb cdist w conv orders data nc chunks path out d = Throw.
Proof. exact pq_data_no_pivots. Qed.
Print Assumptions C86_no_pivots.

Theorem C86_other_chunks : forall g gl popf mbs maxb cdist w conv orders data n dim nc chunks chunks' base path out d centroid offs pivots,
  four_bytes gl -> (N.of_nat dim + 1 < 2 ^ 32)%N -> chunks <= dim -> boundaries dim chunks offs -> length centroid = dim -> (forall v, In v centroid -> f32_valid v = true) ->
  pivot_files path nc dim centroid offs pivots d -> d data = Some (vector_file dim base) -> rows_ok n (dim * w) dim base -> chunks' <> chunks ->
  pq_data g gl popf mbs maxb cdist w conv orders data nc chunks' path out d = Throw.
Proof. exact pq_data_other_chunks. Qed.
Print Assumptions C86_other_chunks.

Theorem C86_too_many_chunks : forall gl env train dim nc chunks reps path zm d, dim < chunks -> gen_pivots gl env train dim nc chunks reps path zm d = Ok (false, d).
Proof. exact gen_pivots_too_many. Qed.
Print Assumptions C86_too_many_chunks.

(** A float survives being written to a file and read again. *)
Theorem C86_float_words : forall x, f32_valid x = true -> f32_of_bits (bits_of_f32 x) = x /\ (bits_of_f32 x < 2 ^ 32)%N.
Proof. exact f32_of_bits_of_f32. Qed.
Print Assumptions C86_float_words.

(** Six vectors of two floats, of which the last four are sampled; two chunks, two pivots. *)
Definition ex_row (l : list Z) : list N := concat (map (fun z => u32 (bits_of_f32 (f32_of_Z z))) l).
Definition ex_base : list (list N) := [ex_row [0; 9]; ex_row [7; 1]; ex_row [1; 10]; ex_row [8; 0]; ex_row [3; 12]; ex_row [10; 2]]%Z.
Definition ex_other : list (list N) := [ex_row [100; 100]; ex_row [101; 100]; ex_row [100; 50]]%Z.
Definition ex_l2 (x y : list f32) : f32 := fold_left fadd (map (fun q => fmul (fsub (fst q) (snd q)) (fsub (fst q) (snd q))) (combine x y)) f32_zero.
Definition ex_half : spec_float := S754_finite false 4503599627370496 (-53).
Definition ex_block (n bs b : nat) : list (nat * nat) := rev (list_prod (seq (b * bs) (min bs (n - b * bs))) (seq 0 1)).
Definition ex_env (n : nat) (i : nat) : kmenv := mkKm pop_all 3 2 ex_l2 (fun _ => ex_l2) 0 (fun _ => ex_half) (fun j => j) 20 (fun _ => ex_block n (min n 3)).
Definition ex_gl (i : nat) : list N := [1; 2; 3; 4]%N.
Definition ex_pick (i : nat) : bool := 2 <=? i.
Definition ex_d (name : string) : option (list N) := if (name =? "data.bin")%string then Some (vector_file 2 ex_base) else if (name =? "other.bin")%string then Some (vector_file 2 ex_other) else None.
Definition ex_orders (n : nat) (b i : nat) : nat -> list (nat * nat) := let size := min (S b * min n 4) n - b * min n 4 in ex_block size (min size 3).
Definition ex_run (data : string) (n m : nat) (pick : nat -> bool) (d : fs) : res fs :=
  generate_pq (fun _ => 0%N) (fun _ => 0%N) ex_gl ex_gl (ex_env m) pop_all 3 4 (fun _ => ex_l2) 4 f32_of_bits pick (ex_orders n) data "p" 2 2 d.
Definition ex_d' : fs := match ex_run "data.bin" 6 4 ex_pick ex_d with Ok d => d | _ => ex_d end.
Definition ex_float (z : Z) : f32 := f32_of_Z z.


Example C86_case : rows_ok 6 (2 * 4) 2 ex_base /\ four_bytes ex_gl /\ (forall x, f32_valid (f32_of_bits x) = true) /\ pq_orders 6 (min 6 4) 3 (ex_orders 6) /\
  (match ex_run "data.bin" 6 4 ex_pick ex_d with Ok d => True | _ => False end) /\
  ex_d' "p_pq_pivots.bin"%string = Some (float_file 2 2 [[ex_float 2; ex_float 11]; [ex_float 9; ex_float 1]]) /\
  ex_d' "p_pq_pivots.bin_chunk_offsets.bin"%string = Some (number_file [0; 1; 2]) /\
  ex_d' "p_compressed.bin"%string = Some (u32 6 ++ u32 2 ++ [0; 0; 1; 1; 0; 0; 1; 1; 0; 0; 1; 1]%N).
Proof.
  split; [|split; [|split; [|split; [|split; [|split; [|split]]]]]].
  - split; [reflexivity|]. split; [|repeat split; reflexivity]. intros r Hr. cbn in Hr. repeat (destruct Hr as [<-|Hr]; [reflexivity|]). destruct Hr.
  - intros i. split; [reflexivity|]. repeat constructor.
  - exact f32_of_bits_valid.
  - intros b i size k. apply Permutation_sym, Permutation_rev.
  - vm_compute. exact I.
  - vm_compute. reflexivity.
  - vm_compute. reflexivity.
  - vm_compute. reflexivity.
Qed.

(** C86.  Refuted: the pivots after a run need not be trained on the data of this run.
    Run on data.bin, then on other.bin, under the same prefix: the pivots are those of
    data.bin, far from all the vectors that are encoded. *)
Theorem C86_pivots_of_this_data_refuted : exists d',
  ex_run "other.bin" 3 3 (fun _ => true) ex_d' = Ok d' /\ d' "p_pq_pivots.bin"%string = Some (float_file 2 2 [[ex_float 2; ex_float 11]; [ex_float 9; ex_float 1]]) /\
  d' "p_compressed.bin"%string = Some (u32 3 ++ u32 2 ++ [1; 0; 1; 0; 1; 0]%N).
Proof.
  assert (E : match ex_run "other.bin" 3 3 (fun _ => true) ex_d' with
    | Ok d' => d' "p_pq_pivots.bin"%string = Some (float_file 2 2 [[ex_float 2; ex_float 11]; [ex_float 9; ex_float 1]]) /\ d' "p_compressed.bin"%string = Some (u32 3 ++ u32 2 ++ [1; 0; 1; 0; 1; 0]%N)
    | _ => False end) by (vm_compute; split; reflexivity).
  destruct (ex_run "other.bin" 3 3 (fun _ => true) ex_d') as [d'| | | |]; [|destruct E..]. exists d'. split; [reflexivity|exact E].
Qed.
Print Assumptions C86_pivots_of_this_data_refuted.

(** Three pivots of an earlier run are replaced by the two of this run. *)
Example C86_replaced_case :
  match ex_run "data.bin" 6 4 ex_pick (fs_set ex_d "p_pq_pivots.bin" (Some (float_file 3 2 [[ex_float 2; ex_float 11]; [ex_float 9; ex_float 1]; [ex_float 0; ex_float 0]]))) with
  | Ok d' => d' "p_pq_pivots.bin"%string = Some (float_file 2 2 [[ex_float 2; ex_float 11]; [ex_float 9; ex_float 1]])
  | _ => False end.
Proof. vm_compute. reflexivity. Qed.
