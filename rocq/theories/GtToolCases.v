(** Concrete runs for PropGtTool. *)
From Coq Require Import NArith ZArith Reals Lra Lia List Arith Bool Permutation Floats.SpecFloat.
From Verif Require Import Base Bytes Float32 FloatBits DistSpec RealSpec StreamModel BinSpec NormModel NormSpec FusedModel ClosestModel HeapSpec HeapInst PopInst GtModel GtSpec TruthModel BlasModel BlasSpec BlasCases GtToolModel GtToolSpec.
Import ListNotations.

Definition tool_orders (nq p b : nat) : list nat := rev (seq (b * 2) (min 2 (nq - b * 2))).
Lemma tool_orders_ok : forall nq p, batch_orders nq 2 (tool_orders nq p).
Proof. intros nq p b. apply Permutation_sym, Permutation_rev. Qed.
Definition no : list N := [170; 187; 204; 221]%N.

(** Five vectors of two bytes in parts of three, three queries in batches of two. *)
Definition tool_rows : list (list N) := [[0; 255]; [7; 3]; [255; 255]; [10; 12]; [7; 4]]%N.
Definition tool_queries : list (list N) := [[10; 10]; [255; 0]; [0; 250]]%N.
Lemma tool_hyps : tool_input KUint8 2 3 tool_rows tool_queries /\ tool_input KInt8 2 3 tool_rows tool_queries /\ ways_ok 2 case_W.
Proof.
  split; [|split; [|exact case_ways]];
  (split; [discriminate|]; split; [reflexivity|]; split; [discriminate|]; split; [intro Q; discriminate Q|]; split; [cbn; lia|]; split; [reflexivity|];
   intros r Hr; cbn in Hr; repeat (destruct Hr as [Hr|Hr]); try contradiction; subst r; (split; [reflexivity|]); repeat constructor).
Qed.
Definition run (mips : bool) (kt : ktype) (dim qdim k : nat) (rows qrows : list (list N)) : res (list N) :=
  gt_tool case_W mips heap_push heap_take sort_pairs 2 3 kt no no no no (vector_file kt dim rows) (vector_file kt qdim qrows) k (tool_orders (length qrows)).
Definition loaded (r : res (list N)) : res (N * N * list N * option (list N)) := do b <- r; load_truthset (fun _ => 171%N) (Some b).
Definition fbits (l : list Z) : list N := map (fun z => bits_of_f32 (f32_of_Z z)) l.
Lemma tool_l2_runs : loaded (run false KUint8 2 2 2 tool_rows tool_queries) = Ok (3, 2, [3; 4; 3; 1; 0; 3], Some (fbits [4; 45; 60169; 61513; 25; 56744]%Z))%N.
Proof. vm_compute. reflexivity. Qed.
(** Inner products of the same bytes; as signed bytes 255 is -1. *)
Lemma tool_mips_runs : loaded (run true KUint8 2 2 2 tool_rows tool_queries) = Ok (3, 2, [2; 0; 2; 3; 2; 0], Some (fbits [5100; 2550; 65025; 2550; 63750; 63750]%Z))%N /\
  loaded (run true KInt8 2 2 2 tool_rows tool_queries) = Ok (3, 2, [3; 4; 2; 0; 2; 0], Some (fbits [220; 110; 1; 0; 6; 6]%Z))%N.
Proof. split; vm_compute; reflexivity. Qed.

(** Floats. *)
Definition tool_floats : list (list N) := map fbits [[3; -4]; [1000000; 7]; [5; 5]; [-3; 4]]%Z.
Definition tool_fq : list (list N) := map fbits [[1; 1]]%Z.
Lemma floats_hyps : tool_input KFloat 2 3 tool_floats tool_fq /\ forall r, In r tool_floats \/ In r tool_fq -> (elem_sq KFloat r <= powerRZ 2 100)%R.
Proof.
  assert (P : (IZR (2 ^ 50) <= powerRZ 2 100)%R).
  { change (powerRZ 2 100) with (2 ^ 100)%R. rewrite (pow_IZR 2 100). apply IZR_le. vm_compute. discriminate. }
  split.
  - split; [discriminate|]; split; [reflexivity|]; split; [discriminate|]; split; [intro Q; discriminate Q|]; split; [cbn; lia|]; split; [reflexivity|].
    intros r Hr; cbn in Hr; repeat (destruct Hr as [Hr|Hr]); try contradiction; subst r; (split; [reflexivity|]); repeat (constructor; [split; [vm_compute; reflexivity|vm_compute; exact I]|]); constructor.
  - intros r Hr. eapply Rle_trans; [|exact P]. assert (E : exists z, r = fbits z /\ (forall x, In x z -> Z.abs x <= 2 ^ 24)%Z /\ (int_sq z <= 2 ^ 50)%Z).
    { cbn in Hr; repeat (destruct Hr as [Hr|Hr]); try contradiction; subst r; [exists [3; -4]%Z|exists [1000000; 7]%Z|exists [5; 5]%Z|exists [-3; 4]%Z|exists [1; 1]%Z];
      (split; [reflexivity|]; split; [|vm_compute; discriminate]; intros x [<-|[<-|[]]]; lia). }
    destruct E as [z [-> [B S]]]. eapply Rle_trans; [|apply IZR_le, S]. right. clear S Hr. unfold elem_sq, int_sq, fbits. induction z as [|x z IH]; [reflexivity|]. cbn [map fold_right real_sum]. unfold real_sum in *. cbn [fold_right]. rewrite IH by (intros; apply B; right; auto). rewrite plus_IZR, mult_IZR.
    f_equal. cbn [elem_real]. destruct (RealDistProofs.of_Z_int x) as [F [V R]]; [apply B; left; auto|]. destruct (FloatBits.f32_of_bits_of_f32 _ V) as [-> _]. rewrite R. ring.
Qed.

Lemma tool_float_runs : loaded (run false KFloat 2 2 1 tool_floats tool_fq) = Ok (1, 1, [3], Some (fbits [25]%Z))%N /\ loaded (run true KFloat 2 2 1 tool_floats tool_fq) = Ok (1, 1, [1], Some (fbits [1000007]%Z))%N.
Proof. split; vm_compute; reflexivity. Qed.

(** More neighbours than points in a part. *)
Lemma tool_many : run false KUint8 2 2 3 tool_rows tool_queries = UB.
Proof. vm_compute. reflexivity. Qed.

(** Queries of two bytes against vectors of one. *)
Definition one_W : gt_ways := far_W.
Lemma tool_dims : gt_tool one_W false heap_push heap_take sort_pairs 2 3 KUint8 no no no no (vector_file KUint8 1 [[9]; [5]]%N) (vector_file KUint8 2 [[5; 5]; [9; 9]]%N) 1 (tool_orders 2) = Ok (map N.of_nat [2; 0; 0; 0; 1; 0; 0; 0; 1; 0; 0; 0; 1; 0; 0; 0; 0; 0; 0; 0; 0; 0; 0; 0]).
Proof. vm_compute. reflexivity. Qed.
