(** * Concrete command lines one after the other. *)
From Coq Require Import NArith ZArith Reals Lra Ascii String List Arith Bool Lia Permutation Floats.SpecFloat.
From Verif Require Import Base Bytes Float32 FloatBits DistSpec BinSpec StreamModel BinModel TextModel ConvertModel TsvModel TsvSpec LloydModel NormModel NormSpec FusedModel StatsModel TruthModel SortInst PoolModel ClosestModel HeapSpec HeapInst PopInst GtModel GtSpec BlasModel BlasSpec BlasCases
  GtToolModel GtToolSpec GtToolCases RealSearchModel RealSearchCases IndexFileModel SystemModel SystemWitness ToolModel ToolWitness CmdModel CmdSpec CmdCases RealSpec UtilCmdModel UtilCmdSpec UtilCmdCases.
Import ListNotations.
Local Open Scope string_scope.

Lemma as_floats : file_vectors 1 2 tool_rows /\ file_vectors 1 2 tool_queries /\ u_fs "base.bin" = vector_file KUint8 2 tool_rows /\
  u_at "gt.bin" (do x <- uint8_to_float_main u_g (seq 0 5) ["uint8_to_float"; "base.bin"; "fb"] u_fs; do y <- uint8_to_float_main u_g [2; 0; 1]%nat ["uint8_to_float"; "query.bin"; "fq"] (snd x);
    u_truth ["compute_groundtruth"; "float"; "fb"; "fq"; "2"; "gt.bin"; "l2"] (snd y)) = u_at "gt.bin" (u_truth (u_line false) u_fs) /\
  match u_at "gt.bin" (u_truth (u_line false) u_fs) with Ok (z, Some b) => z = 0%Z /\ length b = 56%nat | _ => False end.
Proof.
  assert (V : forall rows, Forall (fun r => length r = 2%nat /\ Forall (fun x => (x < 256)%N) r) rows -> (length rows < 10)%nat -> file_vectors 1 2 rows).
  { intros rows H L. split; [|split; [reflexivity|]]. { change (2 ^ 31)%N with 2147483648%N. lia. } rewrite Forall_forall in H. intros r Hr. destruct (H r Hr) as [A B]. rewrite Forall_forall in B. split; [exact A|exact B]. }
  split; [apply V; [repeat constructor|cbn; lia]|]. split; [apply V; [repeat constructor|cbn; lia]|]. split; [reflexivity|]. split; vm_compute; auto.
Qed.
Lemma text_case : table 2 [[65; 66]; [67; 68]]%N /\ elements (fun x => (x < 256)%N /\ ~ white x) [[65; 66]; [67; 68]]%N /\ u_fs "text.bin" = Some (table_file 1 2 [[65; 66]; [67; 68]]%N) /\
  u_at "back" (do x <- bin_to_tsv_main 2 u_g ["bin_to_tsv"; "uint8"; "text.bin"; "out"] u_fs; tsv_to_bin_main 2 ["tsv_to_bin"; "uint8"; "out"; "back"; "2"; "2"] (snd x)) = Ok (0%Z, u_fs "text.bin") /\
  u_at "back" (do x <- bin_to_tsv_main 2 u_g ["bin_to_tsv"; "float"; "half.bin"; "out"] u_fs; tsv_to_bin_main 2 ["tsv_to_bin"; "float"; "out"; "back"; "1"; "2"] (snd x)) = Ok (0%Z, u_fs "half.bin").
Proof.
  split; [repeat constructor|]. split. { intros x Hx. cbn in Hx. repeat (destruct Hx as [<-|Hx]; [split; [reflexivity|intros Q; cbn in Q; intuition discriminate]|]). destruct Hx. }
  split; [reflexivity|]. split; vm_compute; reflexivity.
Qed.
Lemma itself_case : tool_input KUint8 2 3 tool_rows tool_queries /\ ways_ok 2 case_W /\ (forall r, In r tool_rows \/ In r tool_queries -> (elem_sq KUint8 r <= powerRZ 2 100)%R) /\ (2 <= last_part (length tool_rows) 3)%nat /\
  (do x <- u_truth (u_line true) u_fs; calculate_recall_main h0 h0 ["calculate_recall"; "gt.bin"; "gt.bin"; "1"] (snd x)) = Ok (0%Z, Some (S754_finite false 13107200 (-17))).
Proof.
  split; [apply tool_hyps|]. split; [apply tool_hyps|]. split.
  { assert (P : (IZR 1000000 <= powerRZ 2 100)%R) by (change (powerRZ 2 100) with (2 ^ 100)%R; rewrite (pow_IZR 2 100); apply IZR_le; vm_compute; discriminate).
    intros r Hr. eapply Rle_trans; [|exact P]. cbn in Hr. repeat (destruct Hr as [Hr|Hr]); try contradiction; subst r; unfold elem_sq, elem_real, real_sum; cbn [map fold_right Z.of_N]; lra. }
  split; [cbn; lia|]. vm_compute. reflexivity.
Qed.

(** Ten points on a line and the queries 7 and 0: the truth, an index of two clusters, and the
    search. *)
Definition script (depth : N) : res (Z * Z * Z * list (N * f32)) :=
  do x <- compute_groundtruth_main one_W heap_push heap_take sort_pairs 2 5 u_g (tool_orders 2) ["compute_groundtruth"; "uint8"; "data.bin"; "query.bin"; TextModel.show depth; "gt.bin"; "l2"] t_fs;
  do y <- build_ivf_main c_atof s_g pop_all 1000 c_cd t_centers t_orders ["build_ivf"; "uint8"; "data.bin"; "1"; "labels.txt"; "ix"; "2"; "0.5"] (snd x);
  do z <- search_ivf_main (s_g 0%nat) (s_g 1%nat) h0 s_g pop_all 1000 (fun kt => mem_l2 kt r_T r_F) c_cd c_order ["search_ivf"; "uint8"; "ix"; "2"; "query.bin"; "gt.bin"; "2"; "res"; "0"; "1"; "2"] (snd y);
  Ok (fst x, fst y, fst (fst z), snd z).
Lemma begins_first : forall a s b t, begins (String a s) (String b t) -> a = b.
Proof. intros a s b t [rest E]. cbn in E. now injection E as ->. Qed.
Lemma script_case : script 3 = Ok (0%Z, 0%Z, 0%Z, [(1%N, S754_finite false 13107200 (-17)); (2%N, S754_finite false 13107200 (-17))]) /\ ~ begins "ix" "query.bin" /\ ~ begins "ix" "gt.bin" /\ "gt.bin" <> "data.bin".
Proof. split; [vm_compute; reflexivity|]. split; [intros H; apply begins_first in H; discriminate|]. split; [intros H; apply begins_first in H; discriminate|discriminate]. Qed.
Lemma keeps_case : match c_build_vamana c_vamana_args c_fs with
  | Ok (z, d') => z = 0%Z /\ d' "query.bin" = c_fs "query.bin" /\ d' "query.bin" <> None /\ d' "ix" <> c_fs "ix" | _ => False end /\ ~ begins "ix" "query.bin" /\ nth_error (c_find_vamana "truth.bin") 8 = Some "res".
Proof. split; [vm_compute; repeat split; discriminate|]. split; [intros H; apply begins_first in H; discriminate|reflexivity]. Qed.
