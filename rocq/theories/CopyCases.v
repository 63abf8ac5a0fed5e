(** * Copies of a vector: concrete cases. *)
From Coq Require Import NArith ZArith String List Arith Lia Bool Sorting.Sorted Sorting.Permutation.
From Verif Require Import Base Float32 Float32Facts PoolModel SortSpec SortInst GraphSpec GreedyModel SearchSpec SearchModel SearchProofs PruneModel PruneSpec BuildModel EntryModel VamanaModel VamanaProofs
  ListLemmas PoolProofs PoolProofs2 PruneProofs GreedyProofs WideSpec WideProofs WideProofs3 BuildWitness RngModel RngSpec RngWitness LshModel LshProofs FlatSpec AskCases CopySpec CopyProofs.
Import ListNotations.

(** Twenty-two copies of the origin and four more points far away on a line; R is 16. *)
Definition spot (i : nat) : Z := if i <? 22 then 0%Z else Z.of_nat (30 + i).
Definition spot_pd (a b : nat) : f32 := f32_of_Z ((spot a - spot b) * (spot a - spot b))%Z.
(** The centroid is 214 / 26 = 107 / 13. *)
Definition spot_centroid : list f32 := map (fun i => fdiv (f32_of_Z ((13 * spot i - 107) * (13 * spot i - 107))%Z) (f32_of_Z 169)) (seq 0 26).
Definition spot_input : vinput :=
  mkV isort (mkSp 26 spot_pd false (mkL [] true "0"%string)) (mkB 30 16 50 f12 0) (seq 100 26) spot_centroid [] (one_thread 26 60) (seq 0 26).

Definition spot_graph : graph :=
  map (fun x => filter (fun y => negb (y =? x)) (seq 0 17)) (seq 0 17) ++ repeat (seq 0 16) 5 ++ [[0]; [0; 24]; [23; 0; 25]; [24; 0]].
Definition spot_index : gindex := mkI 26 (seq 100 26) (mkL [] true "0"%string) [] 0 spot_graph.

Lemma spot_ok : vinput_ok spot_input.
Proof.
  constructor; cbn [spot_input vi_sort vi_sp vi_prm vi_tags vi_centroid vi_work vi_sched vi_order sp_n sp_pd sp_filtered sp_labels pts_to_labels bp_L].
  - exact isort_sorts.
  - lia.
  - lia.
  - intros a b. apply f32_of_Z_not_nan.
  - reflexivity.
  - reflexivity.
  - assert (H : forallb (fun d => negb (is_nan d)) spot_centroid = true) by (vm_compute; reflexivity).
    intros d Hd. rewrite forallb_forall in H. apply negb_true_iff. exact (H d Hd).
  - discriminate.
  - intros x r [].
  - intros i Hi. unfold one_thread in Hi. apply in_concat in Hi. destruct Hi as [l [Hl' Hi]]. apply in_map_iff in Hl'.
    destruct Hl' as [j [<- Hj]]. apply repeat_spec in Hi. subst. apply in_seq in Hj. lia.
  - apply Permutation_refl.
Qed.

Lemma spot_built : vamana_build spot_input = Ok (spot_index, 16).
Proof. vm_compute. reflexivity. Qed.

Lemma spot_closed : forall x, reach (fun _ => true) spot_graph (fun y => In y [0]) x -> x < 17.
Proof.
  intros x R. induction R as [x [<-|[]]|x y R IH [l [E [I _]]]]; [lia|].
  unfold spot_graph in E. rewrite nth_error_app1 in E by (rewrite map_length, seq_length; exact IH). rewrite nth_error_map in E.
  destruct (nth_error (seq 0 17) x) as [z|]; [|discriminate]. cbn [option_map] in E. apply some_eq in E. rewrite <- E in I. apply filter_In in I. destruct I as [I _].
  apply in_seq in I. lia.
Qed.

(** No search reports one of the four other points, not even when asked for exactly that vector, nor one of five of the copies. *)
Lemma spot_misses : exists v ix md, vinput_ok v /\ sp_filtered (vi_sp v) = false /\ sp_n (vi_sp v) = 26 /\ vi_prm v = mkB 30 16 50 f12 0 /\ StronglySorted le (vi_sched v) /\
  (forall a b, a < 22 -> b < 22 -> same_place (sp_pd (vi_sp v)) a b) /\ (forall a b, a < 26 -> 22 <= b < 26 -> a <> b -> fle f32_one (sp_pd (vi_sp v) a b) = true) /\
  vamana_build v = Ok (ix, md) /\
  forall dist L k ind dst, (forall id, is_nan (dist id) = false) -> 1 <= L -> k <= L + 1 -> k <= length ind -> k <= length dst ->
    exists ids ind' dst', vamana_search (vi_sort v) ix dist L k [] ind dst = Ok (ind', dst', length ids) /\
      reports (sp_n (vi_sp v)) (vi_tags v) dist ind' dst' ids /\ forall id, In id ids -> id < 17.
Proof.
  exists spot_input, spot_index, 16. split; [exact spot_ok|]. split; [reflexivity|]. split; [reflexivity|]. split; [reflexivity|].
  split; [exact (one_thread_sorted 60 26 0)|]. split; [|split; [|split; [exact spot_built|]]].
  { intros a b Ha Hb. unfold same_place. change (spot_pd a b = f32_zero). unfold spot_pd, spot. rewrite (proj2 (Nat.ltb_lt a 22) Ha), (proj2 (Nat.ltb_lt b 22) Hb). reflexivity. }
  { intros a b Ha Hb Hne. change (fle f32_one (spot_pd a b) = true).
    assert (H : forallb (fun b => forallb (fun a => (a =? b) || fle f32_one (spot_pd a b)) (seq 0 26)) (seq 22 4) = true) by (vm_compute; reflexivity).
    rewrite forallb_forall in H. specialize (H b ltac:(apply in_seq; lia)). rewrite forallb_forall in H. specialize (H a ltac:(apply in_seq; lia)).
    rewrite (proj2 (Nat.eqb_neq a b) Hne) in H. exact H. }
  intros dist L k ind dst Hn HL Hk Hi Hd.
  destruct (vamana_built spot_input _ 16 spot_ok spot_built) as [Hix _].
  destruct (vamana_search_ok (vi_sort spot_input) spot_index dist L k [] ind dst) as [st [ind' [dst' [E [V [_ [_ [R Hr]]]]]]]]; auto.
  { exact isort_sorts. }
  exists (firstn k (map nid (found st))), ind', dst'. split; [rewrite firstn_length, map_length; exact V|]. split; [exact R|].
  intros id I. apply In_firstn in I. apply in_map_iff in I. destruct I as [z [Ez Hz]]. apply Hr in Hz. rewrite Ez in Hz.
  apply spot_closed in Hz. exact Hz.
Qed.

(** Pruning for point 0: two copies of it, three copies of another vector, one more point.  With R 3 both copies and one
    of the three are kept; with R 2 only the copies. *)
Definition heap_of (i : nat) : Z := nth i [0; 0; 0; 5; 5; 5; -7]%Z 0%Z.
Definition heap_pd (a b : nat) : f32 := f32_of_Z ((heap_of a - heap_of b) * (heap_of a - heap_of b))%Z.
Definition heap_space : space := mkSp 7 heap_pd false (mkL [] true "0"%string).
Definition heap_cands : list neighbor := map (fun j => mkN j (heap_pd j 0) true) [1; 3; 4; 6; 5; 2].
Lemma heap_case : prune_input_ok heap_space heap_cands /\ fgt f32_zero f12 = false /\ flt f12 (Floats.SpecFloat.S754_infinity false) = true /\
  (forall z, In z heap_cands -> ndist z = heap_pd (nid z) 0) /\ (forall z, In z heap_cands -> fle f32_zero (ndist z) = true) /\
  same_place heap_pd 4 3 /\ same_place heap_pd 2 0 /\
  prune_alpha isort heap_space (mkB 10 5 750 f12 0) 0 heap_cands [] = Ok [1; 2; 3; 6] /\
  prune_alpha isort heap_space (mkB 10 2 750 f12 0) 0 heap_cands [] = Ok [1; 2].
Proof.
  split; [split; [|discriminate]|].
  { intros z Hz. cbn in Hz. repeat (destruct Hz as [<-|Hz]; [split; [cbn; lia|vm_compute; reflexivity]|]). destruct Hz. }
  split; [reflexivity|]. split; [reflexivity|]. split; [intros z Hz; unfold heap_cands in Hz; apply in_map_iff in Hz; destruct Hz as [j [<- _]]; reflexivity|].
  split; [intros z Hz; cbn in Hz; repeat (destruct Hz as [<-|Hz]; [vm_compute; reflexivity|]); destruct Hz|].
  split; [reflexivity|]. split; [reflexivity|]. split; vm_compute; reflexivity.
Qed.

(** Points 2 and 4 of the eleven points of RngWitness.v are equal: they are linked with each other, 6 and 8 with the first only. *)
Lemma rng_copy_case : rng_input_ok isort rng_space (map (fun i => 100 + i) (seq 0 11)) rng_centroid rng_order /\ dissimilarity (sp_pd rng_space) /\ sp_filtered rng_space = false /\
  same_place (sp_pd rng_space) 2 4 /\
  match rng_build isort rng_space (map (fun i => 100 + i) (seq 0 11)) rng_centroid rng_order with
  | Ok (ix, _) => ix_graph ix = [[6]; [8; 10]; [4; 6; 8]; [10; 5]; [2; 6; 8]; [3; 7]; [0; 2]; [5; 9]; [1; 2]; [7]; [1; 3]]
  | _ => False
  end.
Proof.
  split; [apply rng_input_ok_any; intros C; discriminate C|]. split; [exact rng_pd_dissimilarity|]. split; [reflexivity|]. split; [reflexivity|]. vm_compute. reflexivity.
Qed.

(** Points 0 and 2 are equal: they share a list, and a bucket. *)
Definition twin (i : nat) : list f32 := match i with 1 => [f32_of_Z (-1)] | 3 => [f32_of_Z 4] | _ => [f32_of_Z 1] end.
Definition twin_far (i : nat) : f32 := match i with 1 => f32_of_Z 9 | 3 => f32_of_Z 1 | _ => f32_of_Z 2 end.
Definition twins : lsh_index := mkLsh 4 (seq 0 4) (mkL [] false "0"%string) 0%N 0%N [].
Lemma twin_case : l_tags twins = seq 0 (l_n twins) /\ lsh_new twins /\ finite_distances (l_n twins) twin_far /\ twin 2 = twin 0 /\
  (do ix <- lsh_build seq_dot twin 1 [[[1065353216]]]%N twins; do r <- lsh_search seq_dot ix [f32_of_Z 3] twin_far 3 [] [9; 9; 9] None; Ok (fst r)) = Ok ([3; 2; 0], None, 3, 3) /\
  (do ix <- lsh_build seq_dot twin 1 [[[1065353216]]]%N twins; do r <- lsh_search seq_dot ix [f32_of_Z 3] twin_far 2 [] [9; 9] None; Ok (fst r)) = Ok ([3; 2], None, 2, 3) /\
  IvfModel.ivf_build PopInst.pop_all 10 (fun j c => fmul (fsub (hd f32_zero (twin j)) (f32_of_Z (2 * Z.of_nat c))) (fsub (hd f32_zero (twin j)) (f32_of_Z (2 * Z.of_nat c)))) 4 3 (fun b => list_prod (seq (b * 4) (min 4 (4 - b * 4))) (seq 0 1)) [] = Ok [[0; 1; 2]; []; [3]].
Proof.
  split; [reflexivity|]. split; [reflexivity|]. split.
  { split; [intros id; do 4 (destruct id as [|id]; [reflexivity|]); reflexivity|]. intros id Hid. do 4 (destruct id as [|id]; [reflexivity|]). cbn in Hid. lia. }
  split; [reflexivity|]. split; [vm_compute; reflexivity|]. split; vm_compute; reflexivity.
Qed.
