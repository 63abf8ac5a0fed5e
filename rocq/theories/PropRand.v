(** * Theorems: random numbers, samples and darts (C106). *)
From Coq Require Import NArith ZArith Reals Lra Lia String List Arith Bool Sorting.Sorted Floats.SpecFloat.
From Verif Require Import Base Bytes Float32 DivFacts DistSpec RealSpec Float64Real LloydModel NormModel LloydSpec StreamModel CacheModel SliceModel ShardSpec IndexFileModel SystemModel CmdModel RandModel RandSpec RandProofs RandProofs2.
Import ListNotations.
Local Open Scope R_scope.

(** ** C106.  The number drawn for a point is a float from 0 to 1 - 2^-24, next to the word of the
    generator over 2^32; the number drawn for a dart is a double from 0 to 1 - 2^-53. *)
Theorem C106_uniform : forall w, (w < 2 ^ 32)%N -> let u := uniform32 f32_zero f32_one w in
  finite u /\ 0 <= real u <= 1 - powerRZ 2 (-24) /\ Rabs (real u - fraction w) <= powerRZ 2 (-24).
Proof. exact uniform_range. Qed.
Print Assumptions C106_uniform.

Theorem C106_dart : forall words r, (forall k, (words k < 2 ^ 32)%N) -> finite (dart words r) /\ 0 <= real (dart words r) <= 1 - powerRZ 2 (-53).
Proof. exact dart_range. Qed.
Print Assumptions C106_dart.

(** The greatest word would be rounded to 1; it gives the float below. *)
Example C106_uniform_case : (4294967295 < 2 ^ 32)%N /\ uniform32 f32_zero f32_one 4294967295 = S754_finite false 16777215 (-24) /\
  fdiv (f32_of_Z 4294967295) (f32_of_Z 4294967296) = f32_one /\ uniform32 f32_zero f32_one 1073741824 = S754_finite false 8388608 (-25) /\
  canonical64 4294967295 4294967295 = S754_finite false 9007199254740991 (-53).
Proof. split; [reflexivity|]. repeat split; vm_compute; reflexivity. Qed.

(** ** C106.  The command line of gen_random_slice: the data file holds the vectors and the id file
    the ids of a sample at the rate given. *)
Theorem C106_slice_sample : forall atof g words prog ty kt base prefix ra d n dim rows, kind_of ty = Some kt -> d base = Some (vector_file dim rows) -> rows_ok n (dim * kwidth kt) dim rows ->
  (forall i, (words i < 2 ^ 32)%N) -> let rate := f32_of_f64 (atof ra) in f64_valid (atof ra) = true -> finite rate ->
  exists ids, sample_at (real rate) words n ids /\
    gen_random_slice_main atof g words [prog; ty; base; prefix; ra] d = Ok (0%Z, fs_set (fs_set d (prefix ++ "_data.bin")%string (Some (shard_file dim rows ids))) (prefix ++ "_ids.bin")%string (Some (id_file ids))).
Proof. exact slice_main_sample. Qed.
Print Assumptions C106_slice_sample.

(** A rate of 1 or more copies the data, a rate of 0 or less takes nothing. *)
Theorem C106_slice_all : forall atof g words prog ty kt base prefix ra d n dim rows, kind_of ty = Some kt -> d base = Some (vector_file dim rows) -> rows_ok n (dim * kwidth kt) dim rows ->
  (forall i, (words i < 2 ^ 32)%N) -> f64_valid (atof ra) = true -> fle f32_one (f32_of_f64 (atof ra)) = true ->
  gen_random_slice_main atof g words [prog; ty; base; prefix; ra] d = Ok (0%Z, fs_set (fs_set d (prefix ++ "_data.bin")%string (d base)) (prefix ++ "_ids.bin")%string (Some (id_file (seq 0 n)))).
Proof. exact slice_main_all. Qed.
Print Assumptions C106_slice_all.

Theorem C106_slice_none : forall atof g words prog ty kt base prefix ra d n dim rows, kind_of ty = Some kt -> d base = Some (vector_file dim rows) -> rows_ok n (dim * kwidth kt) dim rows ->
  (forall i, (words i < 2 ^ 32)%N) -> f64_valid (atof ra) = true -> fle (f32_of_f64 (atof ra)) f32_zero = true ->
  gen_random_slice_main atof g words [prog; ty; base; prefix; ra] d = Ok (0%Z, fs_set (fs_set d (prefix ++ "_data.bin")%string (Some (vector_file dim []))) (prefix ++ "_ids.bin")%string (Some (vector_file 1 []))).
Proof. exact slice_main_none. Qed.
Print Assumptions C106_slice_none.

(** With the same words, a greater rate only adds points. *)
Theorem C106_slice_more : forall atof g words prog ty kt base prefix r1 r2 d n dim rows, kind_of ty = Some kt -> d base = Some (vector_file dim rows) -> rows_ok n (dim * kwidth kt) dim rows ->
  (forall i, (words i < 2 ^ 32)%N) -> f64_valid (atof r1) = true -> f64_valid (atof r2) = true -> fle (f32_of_f64 (atof r1)) (f32_of_f64 (atof r2)) = true ->
  exists ids1 ids2, incl ids1 ids2 /\
    gen_random_slice_main atof g words [prog; ty; base; prefix; r1] d = Ok (0%Z, fs_set (fs_set d (prefix ++ "_data.bin")%string (Some (shard_file dim rows ids1))) (prefix ++ "_ids.bin")%string (Some (id_file ids1))) /\
    gen_random_slice_main atof g words [prog; ty; base; prefix; r2] d = Ok (0%Z, fs_set (fs_set d (prefix ++ "_data.bin")%string (Some (shard_file dim rows ids2))) (prefix ++ "_ids.bin")%string (Some (id_file ids2))).
Proof. exact slice_main_more. Qed.
Print Assumptions C106_slice_more.

(** Four points of two bytes, words at 1/8, 3/4, 1/4 and just below 1. *)
Definition s_rows : list (list N) := [[1; 2]; [3; 4]; [5; 6]; [7; 8]]%N.
Definition s_words (i : nat) : N := nth i [536870912; 3221225472; 1073741824; 4294967295]%N 0%N.
Definition s_disk : fs := fun name => if String.eqb name "base.bin" then Some (vector_file 2 s_rows) else None.
Definition s_atof (s : string) : spec_float :=
  if String.eqb s "0.5" then S754_finite false 4503599627370496 (-53) else if String.eqb s "1" then f64_one else S754_zero false.
Definition s_run (ra : string) : option (option (list N) * option (list N)) :=
  match gen_random_slice_main s_atof (fun _ => 7%N) s_words ["gen_random_slice"; "uint8"; "base.bin"; "out"; ra]%string s_disk with
  | Ok (0%Z, d) => Some (d "out_data.bin"%string, d "out_ids.bin"%string)
  | _ => None
  end.

Lemma s_words_ok : forall i, (s_words i < 2 ^ 32)%N.
Proof. intros i. unfold s_words. do 4 (destruct i as [|i]; [reflexivity|]). cbn. destruct i; reflexivity. Qed.

Example C106_slice_case : rows_ok 4 (2 * kwidth KUint8) 2 s_rows /\ (forall i, (s_words i < 2 ^ 32)%N) /\ f64_valid (s_atof "0.5") = true /\ finite (f32_of_f64 (s_atof "0.5")) /\
  s_run "0.5" = Some (Some (vector_file 2 [[1; 2]; [5; 6]]%N), Some (id_file [0; 2]%nat)) /\ fle f32_one (f32_of_f64 (s_atof "1")) = true /\
  s_run "1" = Some (Some (vector_file 2 s_rows), Some (id_file [0; 1; 2; 3]%nat)) /\ s_run "half" = Some (Some (vector_file 2 []), Some (vector_file 1 [])).
Proof.
  split; [repeat split; try reflexivity; intros r Hr; cbn in Hr; repeat (destruct Hr as [<-|Hr]; [reflexivity|]); destruct Hr|]. split; [exact s_words_ok|]. split; [reflexivity|]. split; [exact I|]. repeat split; vm_compute; reflexivity.
Qed.

(** ** C106.  Training data: a rate that is not below 1 takes every vector of the file. *)
Theorem C106_training_all : forall g w conv n dim rows p words, rows_ok n (dim * w) dim rows -> (forall i, (words i < 2 ^ 32)%N) -> SFltb p f64_one = false ->
  slice_floats g w conv (fun i => picked_train p (words i)) (Some (vector_file dim rows)) = Ok (concat (map (fun r => map conv (dec_all w dim r)) rows), n, dim).
Proof. exact training_all. Qed.
Print Assumptions C106_training_all.

Example C106_training_case : SFltb (f64_of_Z 2) f64_one = false /\ slice_floats (fun _ => 7%N) 1 (fun x => f32_of_Z (Z.of_N x)) (fun i => picked_train (f64_of_Z 2) (s_words i)) (Some (vector_file 2 s_rows)) =
  Ok (map f32_of_Z [1; 2; 3; 4; 5; 6; 7; 8]%Z, 4%nat, 2%nat).
Proof. split; vm_compute; reflexivity. Qed.

(** ** C106.  The points of an inner level of HNSW: increasing ids of points of the level; all of
    them at a rate of 1 or more, none at a rate of 0 or less. *)
Theorem C106_level_sorted : forall rate draws n, StronglySorted lt (level_points rate draws n) /\ forall i, In i (level_points rate draws n) -> (i < n)%nat.
Proof. exact level_sorted. Qed.
Print Assumptions C106_level_sorted.

Theorem C106_level_all : forall rate draws n, f32_valid rate = true -> fle f32_one rate = true -> level_points rate draws n = seq 0 n.
Proof. exact level_all. Qed.
Print Assumptions C106_level_all.

Theorem C106_level_none : forall rate draws n, f32_valid rate = true -> fle rate f32_zero = true -> level_points rate draws n = [].
Proof. exact level_none. Qed.
Print Assumptions C106_level_none.

(** At a rate of one half; rand() gives 1999999, 1499999, 2500000 and 999999. *)
Example C106_level_case : level_points (S754_finite false 8388608 (-24)) (fun i => nth i [1999999; 1499999; 2500000; 999999]%N 0%N) 4 = [1]%nat /\
  level_points f32_one (fun i => nth i [1999999; 1499999; 2500000; 999999]%N 0%N) 4 = [0; 1; 2; 3]%nat.
Proof. split; vm_compute; reflexivity. Qed.

(** ** C106.  k-means++ ends after one round per centre, whatever the generator gives: no dart of
    a point already picked is drawn (up to 2^23 points, components up to 2^49). *)
Theorem C106_kmeans_pp_ends : forall dim data init words nc, (Z.of_nat (length data) <= 2 ^ 23)%Z -> (Z.of_nat dim <= 2 ^ 24)%Z ->
  (forall x, In x data -> length x = dim /\ forall v, In v x -> finite v /\ f32_valid v = true /\ Rabs (real v) <= powerRZ 2 49) ->
  (forall k, (words k < 2 ^ 32)%N) -> (init < length data)%nat -> (1 <= nc)%nat ->
  exists picked flag centers, kmeans_pp (nc - 1) data (fun i j => calc_distance (nth i data []) (nth j data [])) init (dart words) nc = Ok (Some (picked, flag, centers)).
Proof. exact kmeans_pp_calc. Qed.
Print Assumptions C106_kmeans_pp_ends.

(** Three points of which two are equal; every word is the greatest one. *)
Definition s_data : list (list f32) := [map f32_of_Z [1; 0]; map f32_of_Z [4; 4]; map f32_of_Z [1; 0]]%Z.
Example C106_kmeans_pp_case : (forall x, In x s_data -> length x = 2%nat /\ forall v, In v x -> finite v /\ f32_valid v = true /\ Rabs (real v) <= powerRZ 2 49) /\
  calc_distance (nth 0 s_data []) (nth 1 s_data []) = f32_of_Z 25 /\
  kmeans_pp 1 s_data (fun i j => calc_distance (nth i s_data []) (nth j s_data [])) 0 (dart (fun _ => 4294967295%N)) 2 =
    Ok (Some ([0; 1]%nat, false, [Some (map f32_of_Z [1; 0]%Z); Some (map f32_of_Z [4; 4]%Z)])).
Proof.
  split; [|split; vm_compute; reflexivity]. assert (P : 4 <= powerRZ 2 49) by (change (powerRZ 2 49) with (2 ^ 49); lra).
  assert (H : forall z, In z [0; 1; 4]%Z -> finite (f32_of_Z z) /\ f32_valid (f32_of_Z z) = true /\ Rabs (real (f32_of_Z z)) <= powerRZ 2 49).
  { intros z Hz. cbn [In] in Hz. destruct Hz as [<-|[<-|[<-|[]]]]; (split; [exact I|split; [reflexivity|]]); apply Rle_trans with (2 := P).
    - cbn. rewrite Rabs_R0. lra.
    - change (f32_of_Z 1) with (S754_finite false 8388608 (-23)). cbn [real]. change (powerRZ 2 (-23)) with (/ 2 ^ 23). rewrite Rabs_pos_eq; lra.
    - change (f32_of_Z 4) with (S754_finite false 8388608 (-21)). cbn [real]. change (powerRZ 2 (-21)) with (/ 2 ^ 21). rewrite Rabs_pos_eq; lra. }
  intros x Hx. cbn [s_data In] in Hx. destruct Hx as [<-|[<-|[<-|[]]]]; (split; [reflexivity|]); intros v Hv; cbn [map In] in Hv; destruct Hv as [<-|[<-|[]]]; apply H; cbn; auto.
Qed.

(** ** C106, refuted form: a sample of an unknown type is not an error. *)
Theorem C106_unknown_type_refuted : forall atof g words prog ty base prefix ra d, kind_of ty = None -> gen_random_slice_main atof g words [prog; ty; base; prefix; ra] d = Ok (0%Z, d).
Proof. exact slice_unknown_type. Qed.
Print Assumptions C106_unknown_type_refuted.

Example C106_unknown_type_case : kind_of "double" = None /\ kind_of "uint8" = Some KUint8.
Proof. split; reflexivity. Qed.
