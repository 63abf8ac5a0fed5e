(** The random data tools: concrete runs. *)
From Coq Require Import NArith ZArith Reals Lra Lia String List Arith Bool Floats.SpecFloat.
From Flocq Require Import Core.
From Verif Require Import Base Bytes Float32 DivFacts FloatBits DistSpec RealSpec FloatReal NormProofs L2ErrorProofs RandProofs StreamModel BinModel BinSpec TsvModel IndexFileModel CmdModel CmdSpec RandModel RandSpec RandDistModel RandDistSpec RandDistProofs3.
Import ListNotations.
Local Open Scope nat_scope.

(** A generator that renews each word by itself. *)
Definition step_word (w : N) : N := ((w * 1103515245 + 12345) mod 4294967296)%N.
Definition c_regen (x : list N) : list N := map step_word x.
Definition c_seed : list N := map (fun i => (N.of_nat i * 2654435769 mod 4294967296)%N) (seq 0 624).
Lemma c_renews : renews mt_size c_regen c_seed.
Proof.
  assert (L : length c_seed = mt_size) by (unfold c_seed; now rewrite map_length, seq_length).
  split; [exact L|]. intros x Hx. split; [unfold c_regen; now rewrite map_length|]. apply Forall_forall. intros w Hw. apply in_map_iff in Hw as [v [<- _]]. unfold step_word. change (2 ^ 32)%N with 4294967296%N. apply N.mod_lt. discriminate.
Qed.
(** The first order logarithm. *)
Definition c_log (r : f32) : f32 := fsub r f32_one.
Lemma c_log_ok : log_ok c_log.
Proof.
  intros r F V [B1 B2]. unfold c_log. assert (P : (0 < powerRZ 2 (-48))%R) by (rewrite pow_bp; apply bpow_gt_0). assert (A : (Rabs (real r - 1) <= 1)%R) by (apply Rabs_le; lra).
  assert (W : (-1 <= rnd (real r - 1) <= 0)%R). { split; [rewrite <- RandDistProofs3.rnd_neg1; apply rnd_le; lra|]. rewrite <- rnd_0. apply rnd_le. lra. }
  assert (Fs : finite (fsub r f32_one)). { apply fsub_fin; [exact V|reflexivity|exact F|exact I|]. rewrite one_real. apply rnd_small. apply Rle_trans with 1%R; [exact A|]. change 1%R with (bpow radix2 0). apply bpow_le. lia. }
  destruct (fsub_rnd r f32_one V eq_refl F I Fs) as [Vs Rs]. split; [exact Fs|]. split; [exact Vs|]. rewrite Rs, one_real. lra.
Qed.
Definition c_words (k : nat) : N := step_word (N.of_nat k * 2654435769).
Lemma c_words_ok : forall k, (c_words k < 2 ^ 32)%N.
Proof. intros k. unfold c_words, step_word. change (2 ^ 32)%N with 4294967296%N. apply N.mod_lt. discriminate. Qed.

Local Open Scope string_scope.
Definition c_fs : fs := fun name => if String.eqb name "other" then Some [7%N] else None.
Definition c_build (T : nat) (sched : list nat) (ty ns ds : string) : res (Z * fs) := build_random_dist_main c_regen c_seed sched c_log Plain c_words 20 T ["build_random_dist"; ty; ns; ds; "out.bin"] c_fs.
Definition c_g (i : nat) : list N := [1; 2; 3; 4]%N.
(** The text printed for the file written, and another file. *)
Definition c_text (r : res (Z * fs)) : res (string * option (list N)) :=
  do p <- r; do q <- load_random_dist_main c_g ["load_random_dist"; "cube"; "out.bin"] (snd p); Ok (string_of_list_ascii (map (fun b => Ascii.ascii_of_N b) (snd q)), snd p "other").
Definition nl : string := String (Ascii.ascii_of_N 10) "".
Lemma c_cube : c_text (c_build 1 (repeat 0 24) "cube" "2" "3") = Ok ("-0.999994 -0.228168 0.543658 " ++ nl ++ "-0.684516 0.0873097 0.859136 " ++ nl, Some [7%N]) /\
  c_text (c_build 4 (repeat 2 9 ++ repeat 0 24)%list "anything" "02" "3") = Ok ("-0.999994 -0.228168 0.543658 " ++ nl ++ "-0.684516 0.0873097 0.859136 " ++ nl, Some [7%N]) /\
  c_text (c_build 1 (repeat 0 23) "cube" "2" "3") = Fuel.
Proof. vm_compute. auto. Qed.
Lemma c_gaussian : c_text (c_build 4 [] "gaussian" "2" "3") = Ok ("-0.537844 0.427167 0.709456 " ++ nl ++ "0.0720985 0.87339 -0.800209 " ++ nl, Some [7%N]) /\
  (6 <= length (flat_map (pair_numbers c_log Plain c_words) (seq 0 20)) < 40)%nat.
Proof. split; [vm_compute; reflexivity|]. vm_compute. split; lia. Qed.
Lemma c_repeat : match c_build 2 ([0; 1; 0; 1; 0; 1; 0; 1] ++ repeat 0 252)%list "cube" "65" "1" with
  | Ok (_, d) => exists b, d "out.bin" = Some b /\ firstn 4 (skipn (8 + 4 * 64) b) = firstn 4 (skipn 8 b) /\ firstn 4 (skipn (8 + 4 * 63) b) <> firstn 4 (skipn 8 b)
  | _ => False end.
Proof. vm_compute. eexists. split; [reflexivity|]. split; [reflexivity|]. discriminate. Qed.
Lemma c_shared : shared_loop 2 65 10 /\ alone 4 64 /\ number_arg "065" 65.
Proof.
  split; [unfold shared_loop; change (2 ^ 32)%N with 4294967296%N; repeat split; lia|]. split; [right; split; lia|].
  split; [exists [0; 6; 5]%N; repeat split; [discriminate|repeat constructor; discriminate]|reflexivity].
Qed.
Lemma c_rest : c_build 1 (repeat 0%nat 24) "gaussian" "65536" "65536" = UB /\ c_build 2 [] "gaussian" "65" "1" = UB /\
  build_random_dist_main c_regen c_seed [] c_log Plain c_words 20 1 ["build_random_dist"; "cube"; "2"; "3"] c_fs = Ok (0%Z, c_fs).
Proof. split; [vm_compute; reflexivity|]. split; [vm_compute; reflexivity|reflexivity]. Qed.
