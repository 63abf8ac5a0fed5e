(** * Theorems: the recall of a search, from vector files to the printed percentage (C102).

    Byte vectors of up to 258 dimensions, whose squared distances are exact.  [rows] are the
    vectors of the data file, [qrows] those of the query file; [b] is the truth file written
    to [depth] columns; [r] is the depth of the recall.  A point can be among the [r] nearest
    if fewer than [r] points are strictly nearer. *)
From Coq Require Import NArith ZArith Reals Lra Lia String List Arith Bool Permutation Floats.SpecFloat.
From Verif Require Import Base Bytes Float32 DistSpec DistModel FusedModel RealSpec StreamModel BinModel BinSpec RecallSpec NormModel NormSpec StatsModel
  PoolModel FilterSpec SortSpec SortInst TopKSpec ClosestModel ClosestSpec SearchSpec PopInst HeapSpec HeapInst GtModel GtSpec IndexFileModel IndexFileSpec SystemModel SystemSpec SystemWitness ToolModel ToolSpec ToolWitness
  BlasModel BlasSpec BlasCases GtToolModel GtToolSpec GtToolCases RealSearchModel RealSearchSpec RealSearchCases PipelineSpec PipelineProofs2 PipelineProofs3.
Import ListNotations.
Local Open Scope R_scope.

(** ** C102.  A printed recall of 100 is right: if the tool prints 100 for a result file of any
    search, the ids counted are, for each query, distinct and among the r nearest vectors. *)
Theorem C102_recall_100_means_nearest : forall W pushf takef sortf bs ps kt gb1 gb2 gq1 gq2 dim depth rows qrows orders b, heap_ok pushf takef -> sorts_pairs sortf -> length gb1 = 4%nat -> length gb2 = 4%nat -> length gq1 = 4%nat -> length gq2 = 4%nat -> (1 <= bs)%nat -> (1 <= ps)%nat -> (depth <= last_part (length rows) ps)%nat -> (forall p, batch_orders (length qrows) bs (orders p)) ->
  tool_input kt dim ps rows qrows -> ways_ok dim W -> kt <> KFloat -> (dim <= 258)%nat ->
  gt_tool W false pushf takef sortf bs ps kt gb1 gb2 gq1 gq2 (vector_file kt dim rows) (vector_file kt dim qrows) depth orders = Ok b ->
  forall r cols ids h h' v, (1 <= r)%nat -> (r <= depth)%nat -> (N.of_nat r <= cols < 2 ^ 32)%N -> (N.of_nat (length qrows) * N.of_nat r <= 2 ^ 22)%N -> N.of_nat (length ids) = (N.of_nat (length qrows) * cols)%N -> (forall x, In x ids -> (x < 2 ^ 32)%N) ->
  recall_tool h h' (Some b) (Some (bin_file 4 (N.of_nat (length qrows)) cols ids)) (N.of_nat r) = Ok (Some v) -> real v = 100 ->
  forall i, (i < length qrows)%nat -> let reported := prefix ids cols (N.of_nat i) (N.of_nat r) in
    NoDup reported /\ forall x, In x reported -> can_be_nearest (length rows) r (fun id => elem_l2 kt (nth i qrows []) (nth id rows [])) (N.to_nat x).
Proof. exact full_means_nearest. Qed.
Print Assumptions C102_recall_100_means_nearest.

(** ** C102.  Conversely the tool prints 100 for every result file with the right answers, if
    the truth file is deep enough for the ties. *)
Theorem C102_nearest_means_recall_100 : forall W pushf takef sortf bs ps kt gb1 gb2 gq1 gq2 dim depth rows qrows orders b, heap_ok pushf takef -> sorts_pairs sortf -> length gb1 = 4%nat -> length gb2 = 4%nat -> length gq1 = 4%nat -> length gq2 = 4%nat -> (1 <= bs)%nat -> (1 <= ps)%nat -> (depth <= last_part (length rows) ps)%nat -> (forall p, batch_orders (length qrows) bs (orders p)) ->
  tool_input kt dim ps rows qrows -> ways_ok dim W -> kt <> KFloat -> (dim <= 258)%nat ->
  gt_tool W false pushf takef sortf bs ps kt gb1 gb2 gq1 gq2 (vector_file kt dim rows) (vector_file kt dim qrows) depth orders = Ok b ->
  forall r cols ids h h', (1 <= r)%nat -> (r <= depth)%nat -> (N.of_nat r <= cols < 2 ^ 32)%N -> (N.of_nat (length qrows) * N.of_nat r <= 2 ^ 53)%N -> N.of_nat (length ids) = (N.of_nat (length qrows) * cols)%N -> (forall x, In x ids -> (x < 2 ^ 32)%N) ->
  (forall i, (i < length qrows)%nat -> let dist := fun id => elem_l2 kt (nth i qrows []) (nth id rows []) in let reported := prefix ids cols (N.of_nat i) (N.of_nat r) in
     ties_fit (length rows) r depth dist /\ NoDup reported /\ forall x, In x reported -> can_be_nearest (length rows) r dist (N.to_nat x)) ->
  exists v, recall_tool h h' (Some b) (Some (bin_file 4 (N.of_nat (length qrows)) cols ids)) (N.of_nat r) = Ok (Some v) /\ DistSpec.finite v /\ real v = 100.
Proof. exact nearest_means_full. Qed.
Print Assumptions C102_nearest_means_recall_100.

(** ** C102.  The whole way: an IVF index is built from a data file, saved, loaded and searched
    with as many probes as clusters; the truth is computed from the same files.  The recall
    tool prints 100. *)
Theorem C102_ivf_recall_100 : forall kt T F dim rows qrows g popf mbs cd data_name tags labels_name nc centers orders path d a x d', pops popf -> loops_ok T F ->
  ivf_session_ok (kwidth kt) g mbs cd data_name tags labels_name nc centers orders d a ->
  d data_name = vector_file kt dim rows -> vectors_ok kt dim rows ->
  ivf_tool (kwidth kt) g popf mbs cd data_name tags labels_name nc centers orders path d = Ok (x, d') ->
  forall g' g1 g2 query_name prefix k args order, garbage_ok g' -> length g1 = 4%nat /\ is_bytes g1 -> length g2 = 4%nat /\ is_bytes g2 ->
  d' query_name = vector_file kt dim qrows -> vectors_ok kt dim qrows -> (1 <= k < 2 ^ 32)%N ->
  In nc args -> (forall L, In L args -> (L <= nc)%N) -> (forall L, In L args -> (1 <= L)%N -> each_once (length qrows) (order L)) ->
  forall W pushf takef sortf bs ps gb1 gb2 gq1 gq2 depth torders, heap_ok pushf takef -> sorts_pairs sortf -> length gb1 = 4%nat -> length gb2 = 4%nat -> length gq1 = 4%nat -> length gq2 = 4%nat -> (1 <= bs)%nat -> (1 <= ps)%nat ->
  (depth <= last_part (length rows) ps)%nat -> (forall p, batch_orders (length qrows) bs (torders p)) -> tool_input kt dim ps rows qrows -> ways_ok dim W -> kt <> KFloat -> (dim <= 258)%nat ->
  forall h h' r, (1 <= r)%nat -> (r <= depth)%nat -> (N.of_nat r <= k)%N -> (N.of_nat (length qrows) * N.of_nat r <= 2 ^ 53)%N ->
  (forall i, (i < length qrows)%nat -> ties_fit (length rows) r depth (fun id => elem_l2 kt (nth i qrows []) (nth id rows []))) ->
  exists d'' b v, search_tool (kwidth kt) g1 g2 query_name prefix k 1 args order (load_for_ivf (kwidth kt) g' popf mbs (mem_l2 kt T F) cd [] (N.to_nat k) path) d' = Ok (Some d'') /\
    gt_tool W false pushf takef sortf bs ps kt gb1 gb2 gq1 gq2 (d data_name) (d' query_name) depth torders = Ok b /\
    recall_tool h h' (Some b) (d'' (result_name prefix nc)) (N.of_nat r) = Ok (Some v) /\ DistSpec.finite v /\ real v = 100.
Proof. exact ivf_recall. Qed.
Print Assumptions C102_ivf_recall_100.

(** Ten vectors 0 to 9, queries 7 and 0: 6 and 8 are at the same distance of 7. *)
Definition session (depth : nat) : option (res (option f32)) :=
  match ivf_tool 1 s_g pop_all 1000 t_pd "data.bin" [] "labels.txt" 2 t_centers t_orders "ix" t_fs with
  | Ok (_, d') =>
      match search_tool 1 (s_g 0%nat) (s_g 1%nat) "query.bin" "res" 2 1 [2]%N (fun _ => [1; 0]%nat) (load_for_ivf 1 s_g pop_all 1000 (mem_l2 KUint8 r_T r_F) t_pd [] 2 "ix") d' with
      | Ok (Some d'') =>
          match gt_tool one_W false heap_push heap_take sort_pairs 2 5 KUint8 no no no no (t_fs "data.bin"%string) (d' "query.bin"%string) depth (tool_orders 2) with
          | Ok b => Some (recall_tool (fun _ => 0%N) (fun _ => 0%N) (Some b) (d'' (result_name "res" 2)) 2)
          | _ => None
          end
      | _ => None
      end
  | _ => None
  end.

Example C102_ivf_applies : pops pop_all /\ loops_ok r_T r_F /\
  ivf_session_ok 1 s_g 1000 t_pd "data.bin" [] "labels.txt" 2 t_centers t_orders t_fs (made "data.bin" "labels.txt") /\
  t_fs "data.bin"%string = vector_file KUint8 1 (r_rows 10) /\ vectors_ok KUint8 1 (r_rows 10) /\ vectors_ok KUint8 1 [[7]; [0]]%N /\ tool_input KUint8 1 5 (r_rows 10) [[7]; [0]]%N /\ ways_ok 1 one_W /\
  (forall i, (i < 2)%nat -> ties_fit 10 2 3 (fun id => elem_l2 KUint8 (nth i [[7]; [0]]%N []) (nth id (r_rows 10) []))) /\
  session 3 = Some (Ok (Some (S754_finite false 13107200 (-17)))).
Proof.
  split; [exact pop_all_pops|]. split; [exact r_loops|]. split; [exact t_ivf|]. split; [exact r_data|]. split; [apply r_rows_ok; lia|]. split; [exact r_query_ok|].
  split; [|split; [exact (proj1 far_runs)|split; [exact r_ties|vm_compute; reflexivity]]].
  assert (V : vectors_ok KUint8 1 (r_rows 10)) by (apply r_rows_ok; lia). destruct V as [V1 [_ [V2 _]]]. destruct r_query_ok as [W1 [_ [W2 _]]].
  split; [exact V1|]. split; [reflexivity|]. split; [exact W1|]. split; [cbn; lia|]. split; [cbn; lia|]. split; [cbn; lia|]. intros r [Hr|Hr]; [apply V2, Hr|apply W2, Hr].
Qed.

(** Without the condition on ties the claim is false: the same search, with the truth computed
    to two columns, is told to have found three of the four neighbours (75), because 8 is
    reported and 6 is in the truth. *)
Theorem C102_any_depth_refuted : exists v, session 2 = Some (Ok (Some v)) /\ real v = 75.
Proof. exists (S754_finite false 9830400 (-17)). split; [vm_compute; reflexivity|]. change (real (S754_finite false 9830400 (-17))) with (1 * 9830400 * powerRZ 2 (-17)). change (powerRZ 2 (-17)) with (/ 2 ^ 17). field. Qed.
Print Assumptions C102_any_depth_refuted.
