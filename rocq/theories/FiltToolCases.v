(** Concrete runs for PropFiltTool. *)
From Coq Require Import NArith ZArith Reals Lra Lia Ascii String List Arith Bool Permutation Floats.SpecFloat.
From Verif Require Import Base Bytes Float32 FloatBits DistSpec RealSpec StreamModel BinSpec NormModel NormSpec ClosestModel HeapSpec HeapInst PopInst GtModel GtSpec TruthModel BlasModel BlasSpec BlasCases GtToolModel GtToolSpec GtToolCases
  TextModel FiltGtModel FiltGtSpec IndexFileModel CmdModel CmdSpec CmdProofs FiltToolModel FiltToolSpec.
Import ListNotations.
Local Open Scope string_scope.

(** Five vectors; "red" are 0, 3, "blue" 1, 3, and 4 has the label "all". *)
Definition f_rows : list (list N) := map fbits [[3; -4]; [1; 2]; [5; 5]; [-3; 4]; [9; 9]]%Z.
Definition f_text : list N := bytes_of ("red" ++ String LF ("blue" ++ String LF ("green" ++ String LF ("blue,red" ++ String LF ("all" ++ String LF EmptyString))))).
Definition f_fs : fs := fun s =>
  if String.eqb s "v.bin" then vector_file KFloat 2 f_rows
  else if String.eqb s "labels.txt" then Some f_text
  else if String.eqb s "q.bin" then vector_file KFloat 2 tool_fq
  else if String.eqb s "b.bin" then vector_file KUint8 2 tool_rows
  else if String.eqb s "bq.bin" then vector_file KUint8 2 tool_queries
  else if String.eqb s "other" then Some [7%N] else None.
Definition f_run (nq : nat) (argv : list string) : res (Z * fs) :=
  compute_filtered_groundtruth_main case_W heap_push heap_take sort_pairs 2 3 (fun _ => no) (tool_orders nq) argv f_fs.
Definition f_truth (r : res (Z * fs)) : res (Z * (N * N * list N * option (list N)) * (file * file * file)) :=
  do x <- r; do t <- load_truthset (fun _ => 171%N) (snd x "gt"); Ok (fst x, t, (snd x "gt_filtered_base.bin", snd x "gt_dummy", snd x "other")).

Lemma f_hyps : tool_input KFloat 2 3 f_rows tool_fq /\ forall r, In r f_rows \/ In r tool_fq -> (elem_sq KFloat r <= powerRZ 2 100)%R.
Proof.
  assert (P : (IZR (2 ^ 50) <= powerRZ 2 100)%R).
  { change (powerRZ 2 100) with (2 ^ 100)%R. rewrite (pow_IZR 2 100). apply IZR_le. vm_compute. discriminate. }
  split.
  - split; [discriminate|]; split; [reflexivity|]; split; [discriminate|]; split; [intro Q; discriminate Q|]; split; [cbn; lia|]; split; [reflexivity|].
    intros r Hr; cbn in Hr; repeat (destruct Hr as [Hr|Hr]); try contradiction; subst r; (split; [reflexivity|]); repeat (constructor; [split; [vm_compute; reflexivity|vm_compute; exact I]|]); constructor.
  - intros r Hr. eapply Rle_trans; [|exact P]. assert (E : exists z, r = fbits z /\ (forall x, In x z -> Z.abs x <= 2 ^ 24)%Z /\ (int_sq z <= 2 ^ 50)%Z).
    { cbn in Hr; repeat (destruct Hr as [Hr|Hr]); try contradiction; subst r; [exists [3; -4]%Z|exists [1; 2]%Z|exists [5; 5]%Z|exists [-3; 4]%Z|exists [9; 9]%Z|exists [1; 1]%Z];
      (split; [reflexivity|]; split; [|vm_compute; discriminate]; intros x [<-|[<-|[]]]; lia). }
    destruct E as [z [-> [B S]]]. eapply Rle_trans; [|apply IZR_le, S]. right. clear S Hr. unfold elem_sq, int_sq, fbits. induction z as [|x z IH]; [reflexivity|]. cbn [map fold_right real_sum]. unfold real_sum in *. cbn [fold_right]. rewrite IH by (intros; apply B; right; auto). rewrite plus_IZR, mult_IZR.
    f_equal. cbn [elem_real]. destruct (RealDistProofs.of_Z_int x) as [F [V R]]; [apply B; left; auto|]. destruct (FloatBits.f32_of_bits_of_f32 _ V) as [-> _]. rewrite R. ring.
Qed.

Definition f_line (ty v q k : string) : list string := ["tool"; ty; v; "labels.txt"; "red"; q; k; "gt"].
(** With and without the universal label. *)
Lemma f_runs : f_truth (f_run 1 (f_line "float" "v.bin" "q.bin" "2" ++ ["all"])) = Ok (0%Z, (1, 2, [3; 0], Some (fbits [25; 29]%Z))%N, (None, None, Some [7%N])) /\
  f_truth (f_run 1 (f_line "float" "v.bin" "q.bin" "002")) = Ok (0%Z, (1, 2, [3; 0], Some (fbits [25; 29]%Z))%N, (None, None, Some [7%N])) /\
  f_truth (f_run 1 ["tool"; "float"; "v.bin"; "labels.txt"; "green"; "q.bin"; "9"; "gt"; "all"]) = Ok (0%Z, (1, 2, [2; 4], Some (fbits [32; 128]%Z))%N, (None, None, Some [7%N])).
Proof. repeat split; vm_compute; reflexivity. Qed.
Lemma f_matches : line_count f_text = length f_rows /\ matches (length f_rows) f_text "red" (Some "all") [0; 3; 4] /\ matches (length f_rows) f_text "red" None [0; 3] /\ matches (length f_rows) f_text "white" None [].
Proof.
  split; [reflexivity|]. assert (T : forall i, i < 5 -> line_labels f_text i = nth i [["red"]; ["blue"]; ["green"]; ["blue"; "red"]; ["all"]] []).
  { intros i Hi. do 5 (destruct i as [|i]; [reflexivity|]). lia. }
  split; [|split]; (split; [repeat constructor; lia|]); intros i; change (length f_rows) with 5; (split; [intros Hi; assert (i < 5) by (cbn in Hi; lia); split; [assumption|]; rewrite T by assumption|intros [Hi [t [Ht Hl]]]; rewrite T in Ht by assumption]).
  - cbn in Hi. destruct Hi as [<-|[<-|[<-|[]]]]; [exists "red"|exists "red"|exists "all"]; (split; [cbn; auto|]); [left; vm_compute; auto|left; vm_compute; auto|right; reflexivity].
  - change (line_tokens "red") with ["red"] in Hl. do 5 (destruct i as [|i]; [cbn in Ht |- *; destruct Hl as [[Hl|[]]|Hl]; [|injection Hl as Hl]; subst t; repeat (destruct Ht as [Ht|Ht]; [discriminate Ht|]); auto 10; try contradiction|]); lia.
  - cbn in Hi. destruct Hi as [<-|[<-|[]]]; exists "red"; (split; [cbn; auto|]); left; vm_compute; auto.
  - change (line_tokens "red") with ["red"] in Hl. do 5 (destruct i as [|i]; [cbn in Ht |- *; destruct Hl as [[Hl|[]]|Hl]; [|discriminate Hl]; subst t; repeat (destruct Ht as [Ht|Ht]; [discriminate Ht|]); auto 10; try contradiction|]); lia.
  - destruct Hi.
  - change (line_tokens "white") with ["white"] in Hl. do 5 (destruct i as [|i]; [cbn in Ht |- *; destruct Hl as [[Hl|[]]|Hl]; [|discriminate Hl]; subst t; repeat (destruct Ht as [Ht|Ht]; [discriminate Ht|]); auto 10; try contradiction|]); lia.
Qed.
Lemma f_fails : f_run 3 (f_line "uint8" "b.bin" "bq.bin" "2") = UB /\ f_run 1 ["tool"; "float"; "v.bin"; "labels.txt"; "white"; "q.bin"; "2"; "gt"] = UB /\ f_run 1 (f_line "float" "v.bin" "q.bin" "-1") = UB /\
  f_run 1 ["tool"; "float"] = Exit /\ f_run 1 (f_line "double" "v.bin" "q.bin" "2") = Ok (0%Z, f_fs).
Proof. repeat split; vm_compute; reflexivity. Qed.
