(** Two builds at the same time: apart, and overlapping. *)
From Coq Require Import NArith String List Arith Lia Bool.
From Verif Require Import Base Float32 Bytes StreamModel BinModel PoolModel SortInst SearchModel PruneModel BuildModel HnswModel IndexFileModel SystemModel SystemWitness ToolModel ToolSpec ToolWitness UtilCmdSpec BuildWitness TempModel TempSpec TempProofs.
Import ListNotations.
Local Open Scope string_scope.

(** ** Builds without inner levels *)
Lemma single_states : forall tools d0 sched i t, nth_error tools i = Some t -> length (ht_cs t) <= 1 ->
  match fst (h_together tools sched d0) i with HLevel _ cs _ => length cs <= 1 | HWritten _ _ _ | HMade _ _ _ => False | _ => True end.
Proof.
  intros tools d0 sched i t Hi Hl. induction sched as [|x l IH] using rev_ind; [exact I|].
  unfold h_together in *. rewrite sched_app. set (s := fst (h_sched tools l (fun _ => HStart) d0)) in *. set (d := snd (h_sched tools l (fun _ => HStart) d0)) in *.
  cbn [h_sched]. unfold h_all. destruct (nth_error tools x) as [u|] eqn:Hx; cbn [fst]; [|exact IH].
  destruct (Nat.eqb_spec i x) as [->|Ne]; [|exact IH]. assert (u = t) by congruence. subst u.
  destruct (s x) as [|a cs made|a cs made|ai cs made|levels|levels|r]; try contradiction; cbn [h_step].
  - destruct (construct _ _ _ _ _ _); cbn; auto.
  - destruct cs as [|c [|c' rest]]; [exact I| |cbn in IH; lia]. destruct (build_graphs _ _ _ _ _); cbn; auto.
  - destruct (save_hnsw _ _ _ _ _); cbn; auto.
  - exact I.
  - exact I.
Qed.

(** If at most one of the builds has inner levels, the windows are apart whatever the schedule. *)
Lemma single_apart : forall tools sched d, (forall i j t u, nth_error tools i = Some t -> nth_error tools j = Some u -> 1 < length (ht_cs t) -> 1 < length (ht_cs u) -> i = j) ->
  windows_apart tools sched d.
Proof.
  intros tools sched d H k i j. cbn zeta. intros Wi Wj.
  assert (G : forall i, in_window (fst (h_together tools (firstn k sched) d) i) -> exists t, nth_error tools i = Some t /\ 1 < length (ht_cs t)).
  { clear. intros i W. destruct (nth_error tools i) as [t|] eqn:Hi.
    - exists t. split; [reflexivity|]. destruct (le_lt_dec (length (ht_cs t)) 1) as [L|L]; [|exact L]. exfalso.
      pose proof (single_states tools d (firstn k sched) i t Hi L) as S. destruct (fst (h_together tools (firstn k sched) d) i); exact S || exact W.
    - exfalso. assert (E : forall l s d, fst (h_sched tools l s d) i = s i).
      { induction l as [|x l IH]; intros s e; cbn [h_sched]; [reflexivity|]. rewrite IH. unfold h_all. destruct (nth_error tools x) as [u|] eqn:Hx; [|reflexivity]. cbn [fst]. destruct (Nat.eqb_spec i x) as [->|]; [congruence|reflexivity]. }
      unfold h_together in W. rewrite E in W. exact W. }
  destruct (G i Wi) as [t [Ht Lt]]. destruct (G j Wj) as [u [Hu Lu]]. eapply H; eauto.
Qed.

Lemma builds_single : forall tools sched d i t, names_apart tools ->
  (forall i j t u, nth_error tools i = Some t -> nth_error tools j = Some u -> 1 < length (ht_cs t) -> 1 < length (ht_cs u) -> i = j) ->
  nth_error tools i = Some t -> 3 * length (ht_cs t) + 2 <= steps_of i sched ->
  ended_as (ht_path t) (fst (h_together tools sched d) i) (snd (h_together tools sched d)) (alone t d).
Proof. intros tools sched d i t Hn H Hi Hs. apply builds_apart; auto. now apply single_apart. Qed.

(** ** Two builds of two levels, on files of twelve points each *)
Definition p_data : list N := (u32 12 ++ u32 1 ++ [30; 31; 32; 33; 34; 35; 36; 37; 38; 39; 40; 41]%N)%list.
Definition p_fs : fs := fs_set t_fs "other.bin" (Some p_data).
Definition p_tool (data path : string) : htool := mkHT 1 s_g isort t_pd data [] t_prm t_choices path.
Definition p_tools : list htool := [p_tool "big.bin" "ix"; p_tool "other.bin" "jx"].

Lemma ok_of {A : Type} : forall (r : res A) (P : A -> Prop), match r with Ok x => P x | _ => False end -> exists x, r = Ok x /\ P x.
Proof. intros [x| | | |] P H; try contradiction. now exists x. Qed.
Lemma ok_pair {A B : Type} : forall (x x' : A) (y y' : B), Ok (x, y) = Ok (x', y') -> x = x' /\ y = y'.
Proof. intros x x' y y' H. injection H as -> ->. auto. Qed.
Lemma done_of : forall (s : hstate) (P : list gann -> Prop), match s with HDone x => P x | _ => False end -> exists x, s = HDone x /\ P x.
Proof. intros s P H. destruct s; try contradiction. eexists; split; [reflexivity|exact H]. Qed.

Lemma begins_char : forall (a b : Ascii.ascii) p m, a <> b -> ~ begins (String a p) (String b m).
Proof. intros a b p m H [rest E]. injection E as E _. congruence. Qed.

Lemma p_names : names_apart p_tools.
Proof.
  split.
  - intros i t H. destruct i as [|[|i]]; [injection H as <-|injection H as <-|destruct i; discriminate]; cbn [ht_data ht_path p_tool]; (split; [discriminate|apply begins_char; discriminate]).
  - intros i j t u Hi Hj Ne. destruct i as [|[|i]]; [injection Hi as <-|injection Hi as <-|destruct i; discriminate]; (destruct j as [|[|j]]; [injection Hj as <-|injection Hj as <-|destruct j; discriminate]);
      try congruence; cbn [ht_data ht_path p_tool]; (split; [apply begins_char; discriminate|]); intros m [r ->]; apply begins_char; discriminate.
Qed.

Definition winb (s : hstate) : bool := match s with HWritten _ _ _ | HMade _ _ _ => true | _ => false end.
Definition apart_at (k : nat) (sched : list nat) : bool :=
  let s := fst (h_together p_tools (firstn k sched) p_fs) in negb (winb (s 0) && winb (s 1)).

Lemma p_apart : forall sched, forallb (fun k => apart_at k sched) (seq 0 (S (length sched))) = true -> windows_apart p_tools sched p_fs.
Proof.
  intros sched H k i j. cbn zeta.
  assert (Hk : apart_at (min k (length sched)) sched = true) by (rewrite forallb_forall in H; apply H, in_seq; lia).
  assert (Ek : firstn k sched = firstn (min k (length sched)) sched).
  { destruct (le_lt_dec k (length sched)); [rewrite Nat.min_l by lia; reflexivity|rewrite Nat.min_r by lia; rewrite firstn_all, firstn_all2 by lia; reflexivity]. }
  rewrite Ek. unfold apart_at in Hk. set (s := fst (h_together p_tools (firstn (min k (length sched)) sched) p_fs)) in *.
  assert (Out : forall x, 2 <= x -> s x = HStart).
  { intros x Hx. assert (G : forall l e s0, fst (h_sched p_tools l s0 e) x = s0 x).
    { clear - Hx. induction l as [|y l IH]; intros e s0; cbn [h_sched]; [reflexivity|]. rewrite IH. unfold h_all. destruct (nth_error p_tools y) as [u|] eqn:Hy; [|reflexivity]. cbn [fst].
      destruct (Nat.eqb_spec x y) as [->|]; [|reflexivity]. destruct y as [|[|y]]; [lia|lia|destruct y; discriminate]. }
    unfold s, h_together. apply G. }
  intros Wi Wj. destruct i as [|[|i]]; [| |rewrite Out in Wi by lia; destruct Wi]; (destruct j as [|[|j]]; [| |rewrite Out in Wj by lia; destruct Wj]); try reflexivity; exfalso;
    destruct (s 0); try contradiction; destruct (s 1); try contradiction; discriminate.
Qed.

(** One is done with its inner level before the other begins with its own; the rest overlaps. *)
Definition p_sched : list nat := ([0; 1; 0; 0; 0; 1; 1; 1] ++ [0; 1; 1; 0] ++ repeat 0 3 ++ repeat 1 3)%list.

Definition file_of (r : res (list gann * fs)) (name : string) : option (list N) := match r with Ok (_, d) => d name | _ => None end.

Lemma p_case : names_apart p_tools /\ windows_apart p_tools p_sched p_fs /\
  (forall i t, nth_error p_tools i = Some t -> 3 * length (ht_cs t) + 2 <= steps_of i p_sched) /\
  (exists levels d', alone (p_tool "other.bin" "jx") p_fs = Ok (levels, d') /\ length levels = 2) /\
  snd (h_together p_tools p_sched p_fs) "jx_0_data.bin" = Some (u32 10 ++ u32 1 ++ [30; 31; 32; 33; 34; 35; 36; 37; 38; 40]%N)%list.
Proof.
  split; [exact p_names|]. split; [apply p_apart; vm_compute; reflexivity|]. split.
  - intros i t H. destruct i as [|[|i]]; [injection H as <-|injection H as <-|destruct i; discriminate]; vm_compute; lia.
  - split; [|vm_compute; reflexivity].
    destruct (ok_of (alone (p_tool "other.bin" "jx") p_fs) (fun r => length (fst r) = 2)) as [[levels d'] [El L]]; [vm_compute; reflexivity|].
    exists levels, d'. split; [exact El|exact L].
Qed.

Definition p_made : ann := match construct 1 s_g "big.bin" [] "" p_fs with Ok a => a | _ => new_ann 0 0 end.
Lemma p_files : files_ok 1 s_g "big.bin" [] "" p_fs p_made.
Proof. t_files. destruct Hl. Qed.

(** The other process writes its vectors before the first has read its own. *)
Definition p_mixed : list nat := ([0; 1; 0; 1; 0; 1] ++ repeat 0 6 ++ repeat 1 6)%list.

Lemma overlap_mixes : exists tools sched d t a levels levels' d',
  names_apart tools /\ nth_error tools 0 = Some t /\ (forall i t, nth_error tools i = Some t -> 3 * length (ht_cs t) + 2 <= steps_of i sched) /\
  construct (ht_w t) (ht_g t) (ht_data t) (ht_tags t) "" d = Ok a /\
  alone t d = Ok (levels, d') /\ level_data a levels /\
  fst (h_together tools sched d) 0 = HDone levels' /\ ~ level_data a levels' /\
  forall x y, nth_error levels' 1 = Some x -> In y (a_data (g_ann x)) -> ~ In y (a_data a).
Proof.
  destruct (ok_of (construct 1 s_g "big.bin" [] "" p_fs) (fun a => map (firstn 1) (a_data a) = map (fun i => [Some i]) [0; 1; 2; 3; 4; 5; 6; 7; 8; 9; 10; 11]%N)) as [a [Ea La]]; [vm_compute; reflexivity|].
  destruct (ok_of (alone (p_tool "big.bin" "ix") p_fs) (fun _ => True)) as [[levels d'] [El _]]; [vm_compute; exact I|].
  destruct (done_of (fst (h_together p_tools p_mixed p_fs) 0) (fun levels' =>
        map (fun x => map (firstn 1) (a_data (g_ann x))) levels' = [map (fun i => [Some i]) [0; 1; 2; 3; 4; 5; 6; 7; 8; 9; 10; 11]; map (fun i => [Some i]) [30; 31; 32; 33; 34; 35; 36; 37; 38; 40]]%N /\
        map (fun x => a_tags (g_ann x)) levels' = [[0; 1; 2; 3; 4; 5; 6; 7; 8; 9; 10; 11]; [0; 1; 2; 3; 4; 5; 6; 7; 8; 10]]%N)) as [levels' [Eh [Lb Lc]]]; [vm_compute; split; reflexivity|].
  exists p_tools, p_mixed, p_fs, (p_tool "big.bin" "ix"), a, levels, levels', d'.
  split; [exact p_names|]. split; [reflexivity|]. split.
  { intros i t H. destruct i as [|[|i]]; [injection H as <-|injection H as <-|destruct i; discriminate]; vm_compute; lia. }
  split; [exact Ea|]. split; [exact El|].
  assert (Far : forall x y, nth_error levels' 1 = Some x -> In y (a_data (g_ann x)) -> ~ In y (a_data a)).
  { intros x y Hx Hy Hy'. apply (in_map (firstn 1)) in Hy. apply (in_map (firstn 1)) in Hy'. rewrite La in Hy'.
    pose proof (map_nth_error (fun x => map (firstn 1) (a_data (g_ann x))) 1 levels' Hx) as Q. rewrite Lb in Q.
    apply (f_equal (fun o => match o with Some l => l | None => [] end)) in Q. cbv beta iota in Q. cbn [nth_error] in Q. cbv beta iota in Q. rewrite <- Q in Hy. clear - Hy Hy'. revert Hy Hy'. generalize (firstn 1 y). clear. intros y Hy Hy'. cbn in Hy, Hy'.
    repeat (destruct Hy as [<-|Hy]; [repeat (destruct Hy' as [Hy'|Hy']; [discriminate|]); contradiction|]); contradiction. }
  split; [|split; [exact Eh|split; [|exact Far]]].
  - assert (Qa : a = p_made) by (pose proof (fo_made _ _ _ _ _ _ _ p_files) as Q; rewrite Ea in Q; now injection Q). subst a.
    assert (Nn : forall p q, is_nan (t_pd p q) = false) by (intros p q; exact (proj1 (t_finite p q))).
    destruct (ToolProofs2.hnsw_tool_ok 1 s_g isort t_pd "big.bin" [] t_prm t_choices "ix" p_fs p_made isort_sorts p_files ltac:(vm_compute; lia) ltac:(vm_compute; reflexivity) Nn t_choices_ok)
      as [F|[lv [dd [E [_ [Hd _]]]]]]; unfold alone in El; cbn [ht_w ht_g ht_sortf ht_pd ht_data ht_tags ht_prm ht_cs ht_path p_tool] in El.
    + rewrite F in El. discriminate El.
    + rewrite E in El. rewrite <- (proj1 (ok_pair _ _ _ _ El)). exact Hd.
  - intros Hd. clear - Hd Lc Far. destruct levels' as [|x [|y rest]]; [discriminate Lc|discriminate Lc|]. cbn [level_data] in Hd. destruct Hd as [_ [[_ [_ [Hlen Hd]]] _]].
    cbn [map] in Lc. injection Lc as _ Lc _. specialize (Hd 0 0%N). rewrite Lc in Hd. specialize (Hd eq_refl). cbn [N.to_nat] in Hd.
    destruct (a_data (g_ann y)) as [|r rs] eqn:Er; [rewrite Lc in Hlen; discriminate|]. cbn [nth_error] in Hd. destruct (a_data a) as [|r' rs'] eqn:Er'; [discriminate|].
    assert (r = r') by (cbn in Hd; congruence). subst r'. apply (Far y r eq_refl); [rewrite Er; left; reflexivity|left; reflexivity].
Qed.

(** The other process removes the file before it is read. *)
Definition p_removed : list nat := ([0; 1; 0; 1; 0; 0; 1] ++ repeat 0 6 ++ repeat 1 6)%list.
Lemma overlap_fails : exists tools sched d t levels d', names_apart tools /\ nth_error tools 1 = Some t /\
  alone t d = Ok (levels, d') /\ fst (h_together tools sched d) 1 = HFailed Throw.
Proof.
  destruct (ok_of (alone (p_tool "other.bin" "jx") p_fs) (fun _ => True)) as [[levels d'] [El _]]; [vm_compute; exact I|].
  exists p_tools, p_removed, p_fs, (p_tool "other.bin" "jx"), levels, d'. split; [exact p_names|]. split; [reflexivity|]. split; [exact El|]. vm_compute. reflexivity.
Qed.

Definition p_one : htool := mkHT 1 s_g isort t_pd "other.bin" [] t_prm [mkHC [] (t_cent 12) (one_thread 12 4) (seq 0 12)] "jx".
Lemma single_case : exists tools i j t u, i <> j /\ nth_error tools i = Some t /\ nth_error tools j = Some u /\
  length (ht_cs t) = 1 /\ length (ht_cs u) = 2 /\ length tools = 2 /\ names_apart tools.
Proof.
  exists [p_tool "big.bin" "ix"; p_one], 1, 0, p_one, (p_tool "big.bin" "ix"). split; [discriminate|]. repeat (split; [reflexivity|]). split.
  - intros i t H. destruct i as [|[|i]]; [injection H as <-|injection H as <-|destruct i; discriminate]; cbn [ht_data ht_path p_tool p_one]; (split; [discriminate|apply begins_char; discriminate]).
  - intros i j t u Hi Hj Ne. destruct i as [|[|i]]; [injection Hi as <-|injection Hi as <-|destruct i; discriminate]; (destruct j as [|[|j]]; [injection Hj as <-|injection Hj as <-|destruct j; discriminate]);
      try congruence; cbn [ht_data ht_path p_tool p_one]; (split; [apply begins_char; discriminate|]); intros m [r ->]; apply begins_char; discriminate.
Qed.
