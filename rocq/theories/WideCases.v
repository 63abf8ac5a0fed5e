(** * Cases for C115: eleven points on a line, two of them equal (RngWitness.v), built by one thread. *)
From Coq Require Import ZArith String List Arith Lia Bool Sorting.Sorted Sorting.Permutation.
From Verif Require Import Base Float32 Float32Facts PoolModel TopKSpec SortSpec GraphSpec FilterSpec GreedyModel SearchSpec SearchModel
  PruneModel BuildModel EntryModel EntrySpec EntryProofs VamanaModel VamanaProofs PoolProofs SearchProofs GreedyProofs RngModel RngSpec RngWitness
  WideSpec WideProofs WideProofs2 WideProofs3 WideProofs4 BuildWitness SortInst.
Import ListNotations.

Definition wide_of (filtered : bool) (labels : list (list label)) (work : list (label * list nat)) : vinput :=
  mkV isort (mkSp 11 rng_pd filtered (mkL labels true "0"%string)) (mkB 100 64 750 f12 0) (seq 100 11) rng_centroid work
    (one_thread 11 33) rng_order.

Lemma wide_of_ok : forall filtered labels work, (filtered = true -> length labels = 11) -> (forall x r, In (x, r) work -> length r = 25) ->
  vinput_ok (wide_of filtered labels work).
Proof.
  intros filtered labels work Hl Hw. constructor; cbn [wide_of vi_sort vi_sp vi_prm vi_tags vi_centroid vi_work vi_sched vi_order sp_n sp_pd sp_filtered sp_labels pts_to_labels bp_L]; auto.
  - exact isort_sorts.
  - lia.
  - intros a b. apply f32_of_Z_not_nan.
  - intros d Hd. apply in_map_iff in Hd. destruct Hd as [i [<- _]]. apply f32_of_Z_not_nan.
  - intros i Hi. unfold one_thread in Hi. apply in_concat in Hi. destruct Hi as [l [Hl' Hi]]. apply in_map_iff in Hl'.
    destruct Hl' as [j [<- Hj]]. apply repeat_spec in Hi. subst. apply in_seq in Hj. lia.
  - apply NoDup_Permutation; [|apply seq_NoDup|].
    + unfold rng_order. repeat (constructor; [cbn; intuition lia|]). constructor.
    + intros x. unfold rng_order. rewrite in_seq. cbn. lia.
Qed.

Lemma wide_of_uncut : forall filtered labels work, uncut (wide_of filtered labels work) /\ unhurried (wide_of filtered labels work).
Proof. intros. repeat split; cbn; lia. Qed.

(** Even points carry "a", odd points "b", every third point "c" too. *)
Definition mix_labels : list (list label) :=
  map (fun i => (if Nat.even i then ["a"%string] else ["b"%string]) ++ (if i mod 3 =? 0 then ["c"%string] else [])) (seq 0 11).
Definition mix_work : list (label * list nat) := [("c"%string, repeat 2 25); ("a"%string, repeat 3 25); ("b"%string, seq 0 25)].
Definition mix_input : vinput := wide_of true mix_labels mix_work.

Lemma sorted_cat : forall a : string, a = "a"%string \/ a = "b"%string -> sorted_labels [a] /\ sorted_labels [a; "c"%string].
Proof.
  intros a Ha. assert (label_le a "c"%string) by (destruct Ha as [->| ->]; discriminate).
  unfold sorted_labels. split; repeat constructor; auto.
Qed.

Lemma mix_hyps : vinput_ok mix_input /\ unhurried mix_input /\ dissimilarity (sp_pd (vi_sp mix_input)) /\ sp_filtered (vi_sp mix_input) = true /\
  no_universal (sp_labels (vi_sp mix_input)) /\ (forall ls, In ls (pts_to_labels (sp_labels (vi_sp mix_input))) -> sorted_labels ls) /\
  sorted_labels ["b"%string; "c"%string] /\
  (forall x, In x ["b"%string; "c"%string] -> In x (map fst (vi_work mix_input)) /\ universal_of (sp_labels (vi_sp mix_input)) <> Some x).
Proof.
  split; [apply wide_of_ok; [reflexivity|]; intros x r [E|[E|[E|[]]]]; injection E as _ <-; reflexivity|].
  split; [apply wide_of_uncut|]. split; [exact rng_pd_dissimilarity|]. split; [reflexivity|].
  assert (Hl : forall ls, In ls mix_labels -> sorted_labels ls /\ ~ In "0"%string ls).
  { intros ls H. repeat (destruct H as [<-|H]; [split; [apply (sorted_cat _ (or_introl eq_refl)) || apply (sorted_cat _ (or_intror eq_refl))|
      cbn; intuition discriminate]|]). destruct H. }
  split; [|split; [|split]].
  - intros u id E [ls [El I]]. cbn in E. injection E as <-. apply nth_error_In in El. apply (proj2 (Hl ls El)). exact I.
  - intros ls H. apply (Hl ls H).
  - apply (sorted_cat _ (or_intror eq_refl)).
  - intros x [<-|[<-|[]]]; split; try discriminate; cbn; tauto.
Qed.

Lemma mix_runs : exists ix md, vamana_build mix_input = Ok (ix, md) /\ map fst (ix_medoids ix) = ["b"; "a"; "c"]%string /\
  (do r <- vamana_search isort ix (fun id => rng_pd id 4) 11 5 ["b"%string; "c"%string] (repeat 0 5) (repeat f32_zero 5); Ok (fst (fst r), snd r))
    = Ok ([106; 100; 101; 103; 105], 5).
Proof. eexists. eexists. vm_compute. repeat split; reflexivity. Qed.

Lemma plain_runs : vinput_ok (wide_of false [] []) /\ uncut (wide_of false [] []) /\
  exists ix md, vamana_build (wide_of false [] []) = Ok (ix, md) /\
  (do r <- vamana_search isort ix (fun id => rng_pd id 4) 11 5 [] (repeat 0 5) (repeat f32_zero 5); Ok (fst (fst r), snd r))
    = Ok ([102; 104; 108; 106; 100], 5).
Proof.
  split; [apply wide_of_ok; [discriminate|intros x r []]|]. split; [apply wide_of_uncut|]. eexists. eexists. vm_compute. split; reflexivity.
Qed.

(** Points 0 to 4 carry "a", the others the universal label. *)
Definition uni_labels : list (list label) := map (fun i => if i <? 5 then ["a"%string] else ["0"%string]) (seq 0 11).
Definition uni_input : vinput := wide_of true uni_labels [("a"%string, repeat 3 25); ("0"%string, seq 0 25)].
Definition uni_graph : graph :=
  [[3; 1; 2; 4]; [3; 0; 2; 4]; [0; 1; 4]; [0; 1; 1]; [2; 0; 1]; [6; 7; 8; 10]; [5; 8]; [5; 9]; [6; 5; 10]; [7]; [8; 5]].
Definition uni_index : gindex := mkI 11 (seq 100 11) (mkL uni_labels true "0"%string) [("0"%string, 5); ("a"%string, 3)] 1 uni_graph.

Lemma uni_built : exists md, vamana_build uni_input = Ok (uni_index, md).
Proof. eexists. vm_compute. reflexivity. Qed.

Lemma uni_closed : forall acc x, reach acc uni_graph (fun y => In y [3]) x -> x < 5.
Proof.
  intros acc x R. induction R as [x [<-|[]]|x y R IH [l [E [I _]]]]; [lia|].
  unfold uni_graph in E.
  do 5 (destruct x as [|x]; [cbn in E; injection E as <-; cbn in I; lia|]). lia.
Qed.

Lemma uni_misses : exists v ix md x id ls, vinput_ok v /\ unhurried v /\ dissimilarity (sp_pd (vi_sp v)) /\ sp_filtered (vi_sp v) = true /\
  (forall l, In l (pts_to_labels (sp_labels (vi_sp v))) -> sorted_labels l) /\ In x (map fst (vi_work v)) /\
  vamana_build v = Ok (ix, md) /\ nth_error (pts_to_labels (sp_labels (vi_sp v))) id = Some ls /\
  matches (universal_of (sp_labels (vi_sp v))) [x] ls /\
  forall L k ind dst, 1 <= L -> k <= L + 1 -> k <= length ind -> k <= length dst ->
    exists ids ind' dst', vamana_search (vi_sort v) ix (fun p => sp_pd (vi_sp v) p id) L k [x] ind dst = Ok (ind', dst', length ids) /\
      reports (sp_n (vi_sp v)) (vi_tags v) (fun p => sp_pd (vi_sp v) p id) ind' dst' ids /\ ~ In id ids.
Proof.
  destruct uni_built as [md Hb].
  assert (Hok : vinput_ok uni_input) by (apply wide_of_ok; [reflexivity|]; intros x r [E|[E|[]]]; injection E as _ <-; reflexivity).
  exists uni_input, uni_index, md, "a"%string, 9, ["0"%string].
  split; [exact Hok|]. split; [apply wide_of_uncut|]. split; [exact rng_pd_dissimilarity|]. split; [reflexivity|].
  split. { intros l H. cbn [uni_input wide_of vi_sp sp_labels pts_to_labels] in H. unfold uni_labels in H. apply in_map_iff in H.
    destruct H as [i [<- _]]. destruct (i <? 5); repeat constructor. }
  split; [left; reflexivity|]. split; [exact Hb|]. split; [reflexivity|].
  split. { right. right. exists "0"%string. split; [reflexivity|]. right. left. reflexivity. }
  intros L k ind dst HL Hk Hi Hd. destruct (vamana_built uni_input _ md Hok Hb) as [Hix _].
  destruct (vamana_search_ok (vi_sort uni_input) uni_index (fun p => sp_pd (vi_sp uni_input) p 9) L k ["a"%string] ind dst)
    as [st [ind' [dst' [E [V [_ [_ [R Hr]]]]]]]]; auto.
  { exact isort_sorts. } { intros p. apply f32_of_Z_not_nan. }
  exists (firstn k (map nid (found st))), ind', dst'. split; [rewrite firstn_length, map_length; exact V|]. split; [exact R|].
  intros I. apply In_firstn in I. apply in_map_iff in I. destruct I as [z [Ez Hz]]. apply Hr in Hz. rewrite Ez in Hz.
  apply uni_closed in Hz. lia.
Qed.

Lemma rng_wide_case : (rng_input_ok isort rng_space (seq 100 11) rng_centroid rng_order /\ dissimilarity (sp_pd rng_space)) /\
  match rng_build isort rng_space (seq 100 11) rng_centroid rng_order with
  | Ok (ix, md) => do r <- rng_search isort ix (fun id => rng_pd id 4) 11 5 [] (repeat 0 5) (repeat f32_zero 5); Ok (fst (fst r), snd r)
  | _ => UB
  end = Ok ([102; 104; 108; 106; 100], 5).
Proof. split; [split; [apply rng_input_ok_any; intros C; discriminate C|exact rng_pd_dissimilarity]|vm_compute; reflexivity]. Qed.
