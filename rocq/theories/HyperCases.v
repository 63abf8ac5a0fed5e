(** Hyperplanes of two seeds. *)
From Coq Require Import NArith ZArith String List Arith.
From Verif Require Import Base Float32 FloatBits RandDistModel RandDistSpec RandDistCases LshModel HyperModel HyperSpec.
Import ListNotations.

(** The 10000th number of the engine seeded with 1, as the C++ standard gives it (rand.predef). *)
Lemma h_standard : lcg_out 1 (N.to_nat 9999) = 1043618065%N.
Proof. vm_compute. reflexivity. Qed.

Definition h_planes : list (list (list N)) :=
  [[[1052172864; 1066341723; 3211022527]; [3204048312; 1060900660; 3205862056]]; [[3209447497; 3205808027; 1043673762]; [1067372025; 1064161170; 3206613763]]]%N.
Lemma h_drawn : generate_all c_log Plain 9 [12345; 7]%N 2 3 = Ok h_planes /\ generate_all c_log Plain 9 [2147495992; 2147483654]%N 2 3 = Ok h_planes /\
  generate_all c_log Plain 1 [12345]%N 2 3 = Fuel /\ map (engine 12345) (seq 0 4) = [207482415; 1790989824; 2035175616; 77048696]%N /\ length (polar c_log Plain 12345 4) = 2 /\ length (polar c_log Plain 7 4) = 6.
Proof. vm_compute. repeat split. Qed.

Definition h_data (i : nat) : list f32 := nth i [[f32_of_Z 1; f32_of_Z 0; f32_of_Z 2]; [f32_of_Z (-1); f32_of_Z 5; f32_of_Z 0]; [f32_of_Z 2; f32_of_Z 0; f32_of_Z 4]] [].
Definition h_index : lsh_index := mkLsh 3 [0; 1; 2] (PoolModel.mkL [] true EmptyString) 0%N 0%N [].
Lemma h_built : match build_seeded c_log Plain 9 [12345; 7]%N 3 seq_dot h_data 2 h_index with Ok ix => map t_map (l_tables ix) = [[(0%N, [0; 2]); (3%N, [1])]; [(0%N, [0; 2]); (2%N, [1])]] | _ => False end.
Proof. vm_compute. reflexivity. Qed.
