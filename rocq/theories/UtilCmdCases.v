(** * Concrete command lines of the utility tools. *)
From Coq Require Import NArith ZArith Reals Lra Ascii String List Arith Bool Lia Permutation Floats.SpecFloat.
From Verif Require Import Base Bytes Float32 FloatBits BinSpec StreamModel BinModel TextModel ConvertModel TsvModel TsvSpec LloydModel NormModel FusedModel StatsModel TruthModel ClosestModel HeapSpec HeapInst PopInst GtModel GtSpec BlasModel BlasSpec BlasCases
  GtToolModel GtToolSpec GtToolCases IndexFileModel PqFileModel PartitionModel CmdModel CmdSpec CmdCases RandModel UtilCmdModel UtilCmdSpec.
Import ListNotations.
Local Open Scope string_scope.

Lemma num4 : number_arg "4" 4. Proof. num [4%N]. Qed.

Definition u_g (i : nat) : list N := no.
Definition u_files (l : list (string * list N)) : fs := fun name => match find (fun p => String.eqb (fst p) name) l with Some p => Some (snd p) | None => None end.
Definition u_at (name : string) (r : res (Z * fs)) : res (Z * option (list N)) := do x <- r; Ok (fst x, snd x name).

(** The vectors of GtToolCases.v as bytes; their truth; records of an fvecs file; seven
    vectors of two floats. *)
Definition u_bytes (rows : list (list N)) : list N := bin_file 1 (N.of_nat (length rows)) 2 (concat rows).
Definition u_seven : list (list N) := map fbits [[0; 0]; [10; 1]; [1; 0]; [10; 0]; [50; 2]; [11; 0]; [50; 4]]%Z.
Definition u_fs : fs := u_files [("base.bin", u_bytes tool_rows); ("query.bin", u_bytes tool_queries); ("text.bin", u_bytes [[65; 66]; [67; 68]]%N);
  ("fvecs", (u32 2 ++ u32 10 ++ u32 11 ++ u32 2 ++ u32 20 ++ u32 21)%list); ("floats.bin", bin_file 4 7 2 (concat u_seven)); ("half.bin", bin_file 4 2 1 [1048576000; 1040187392]%N)].
Definition u_truth := compute_groundtruth_main case_W heap_push heap_take sort_pairs 2 3 u_g (tool_orders 3).
Definition u_line (mips : bool) : list string := ["compute_groundtruth"; type_word KUint8; "base.bin"; "query.bin"; "2"; "gt.bin"; mips_word mips].

(** k-means and assignments as in PropPartition.v; the first four words are below every rate
    above 0, the others above every rate below 1. *)
Definition u_words (i : nat) : N := if (i <? 4)%nat then 0%N else 4294967295%N.
Definition u_l2 (x y : list f32) : f32 := fold_left fadd (map (fun q => fmul (fsub (fst q) (snd q)) (fsub (fst q) (snd q))) (combine x y)) f32_zero.
Definition u_half : spec_float := S754_finite false 4503599627370496 (-53).
Definition u_block (k n bs b : nat) : list (nat * nat) := rev (list_prod (seq (b * bs) (min bs (n - b * bs))) (seq 0 k)).
Definition u_env (n : nat) : kmenv := mkKm pop_all 3 2 u_l2 (fun _ => u_l2) 0 (fun _ => u_half) (fun j => j) 20 (fun _ => u_block 1 n (min n 3)).
Definition u_cl (k n : nat) : clenv := mkCl pop_all 3 4 (fun _ => u_l2) (fun b => let size := min (S b * min n 4) n - b * min n 4 in u_block k size (min size 3)).
Definition u_partition := partition_data_main c_atof u_words (fun _ => 0%N) (fun _ => 0%N) (u_env 4) (u_cl 1 7).
Definition u_budget := partition_budget_main 5 c_atof u_words u_words (fun _ => 0%N) (fun _ => 0%N) (fun _ => 0%N) (fun _ => u_env 7) (fun _ => u_cl 1 7) (fun _ => repeat 0 4) (u_cl 1 7).
Definition u_pq := generate_pq_main c_atof u_words (fun _ => 0%N) (fun _ => 0%N) u_g u_g (fun _ => u_env 4) pop_all 3 4 (fun _ => u_l2) (fun b i => u_block 1 7 3).
Definition u_analysis := vector_analysis_main Reciprocal (FAdd (FItem 0) (FItem 1)) [MLoad 0; MStore 0; MLoad 1; MStore 1; MLoad 2; MStore 2; MLoad 3; MStore 3; MLoad 4; MStore 4; MLoad 5; MStore 5; MLoad 6; MStore 6] (fun l => l) u_g.
