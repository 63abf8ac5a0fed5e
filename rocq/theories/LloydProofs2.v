(** * Lemmas about run_lloyds and the choice of the first centres. *)
From Coq Require Import ZArith List Arith Bool Lia Sorting.Permutation Floats.SpecFloat.
From Verif Require Import Base Float32 ListLemmas ClosestModel ClosestSpec ClosestProofs PqModel PqSpec PqProofs PqProofs2 LloydModel LloydSpec LloydProofs.
Import ListNotations.

(** ** run_lloyds *)
Lemma lloyd_loop_run : forall popf mbs csz cdist rdist n dim nc data orders cnt i st st',
  lloyd_loop popf mbs csz cdist rdist n dim nc data orders i cnt st = Ok st' -> 1 <= cnt ->
  exists r s, 1 <= r <= cnt /\ s 0 = st /\ s r = st' /\
    lloyd_run (fun j a b => lloyd_iter popf mbs csz cdist rdist n dim nc data (orders (i + j)) (ll_centers a) (ll_assign a) = Ok b) r s /\
    (forall j, S j < r -> lloyd_stop (i + j) (ll_res (s j)) (ll_res (s (S j))) = false) /\
    (r = cnt \/ exists j, r = S j /\ lloyd_stop (i + j) (ll_res (s j)) (ll_res (s r)) = true).
Proof.
  intros popf mbs csz cdist rdist n dim nc data orders. induction cnt as [|cnt IH]; intros i st st' H Hc; [lia|]. cbn [lloyd_loop] in H.
  destruct (lloyd_iter popf mbs csz cdist rdist n dim nc data (orders i) (ll_centers st) (ll_assign st)) as [a| | | |] eqn:E; try discriminate. cbn [bind] in H.
  destruct (lloyd_stop i (ll_res st) (ll_res a)) eqn:Es.
  - injection H as <-. exists 1, (fun j => if j =? 0 then st else a). split; [lia|]. split; [auto|]. split; [auto|]. split.
    + intros j Hj. replace j with 0 by lia. cbn [Nat.eqb]. rewrite Nat.add_0_r. exact E.
    + split; [intros; lia|]. right. exists 0. split; [auto|]. rewrite Nat.add_0_r. exact Es.
  - destruct cnt as [|cnt].
    + cbn [lloyd_loop] in H. injection H as <-. exists 1, (fun j => if j =? 0 then st else a). split; [lia|]. split; [auto|]. split; [auto|]. split.
      * intros j Hj. replace j with 0 by lia. cbn [Nat.eqb]. rewrite Nat.add_0_r. exact E.
      * split; [intros; lia|auto].
    + destruct (IH (S i) a st' H ltac:(lia)) as [r [s [Hr [E0 [Er [Hrun [Hns Hend]]]]]]].
      exists (S r), (fun j => match j with 0 => st | S j' => s j' end). split; [lia|]. split; [auto|]. split; [auto|]. split; [|split].
      * intros j Hj. destruct j as [|j]; [rewrite Nat.add_0_r, E0; exact E|]. replace (i + S j) with (S i + j) by lia. apply Hrun. lia.
      * intros j Hj. destruct j as [|j]; [rewrite Nat.add_0_r, E0; exact Es|]. replace (i + S j) with (S i + j) by lia. apply Hns. lia.
      * destruct Hend as [->|[j [-> Hj]]]; [now left|]. right. exists (S j). split; [auto|]. replace (i + S j) with (S i + j) by lia. exact Hj.
Qed.

Lemma stop_settled : forall i old new, lloyd_stop i old new = true <-> settled i old new.
Proof.
  intros i old new. unfold lloyd_stop, settled. rewrite orb_true_iff, andb_true_iff, negb_true_iff, Nat.eqb_neq.
  assert (E1 : f64_div (f64_of_nat 1) (f64_mul (f64_of_nat 1000) (f64_of_nat 100)) = c_1em5) by (vm_compute; reflexivity).
  assert (E2 : (fdiv (f32_of_Z 1) (f32_of_Z 8388608) = FLT_EPS)%Z) by (vm_compute; reflexivity).
  rewrite E1, E2. intuition lia.
Qed.

Lemma run_lloyds_ok : forall popf mbs csz cdist rdist n dim nc max_reps data orders centers assign docs st,
  run_lloyds popf mbs csz cdist rdist n dim nc max_reps data orders centers assign docs = Ok st -> 1 <= max_reps ->
  exists r s, 1 <= r <= max_reps /\ s 0 = mkLl assign docs centers FLT_MAX /\ s r = st /\
    lloyd_run (fun j a b => lloyd_iter popf mbs csz cdist rdist n dim nc data (orders j) (ll_centers a) (ll_assign a) = Ok b) r s /\
    (forall j, S j < r -> ~ settled j (ll_res (s j)) (ll_res (s (S j)))) /\
    (r = max_reps \/ exists j, r = S j /\ settled j (ll_res (s j)) (ll_res (s r))).
Proof.
  intros popf mbs csz cdist rdist n dim nc max_reps data orders centers assign docs st H Hm.
  destruct (lloyd_loop_run popf mbs csz cdist rdist n dim nc data orders max_reps 0 _ _ H Hm) as [r [s [H1 [H2 [H3 [H4 [H5 H6]]]]]]].
  exists r, s. split; [auto|]. split; [auto|]. split; [auto|]. split; [auto|]. split.
  - intros j Hj Hs. apply stop_settled in Hs. specialize (H5 j Hj). cbn [Nat.add] in H5. congruence.
  - destruct H6 as [H6|[j [E H6]]]; [auto|]. right. exists j. split; [auto|]. apply stop_settled. exact H6.
Qed.

(** ** The residual *)
Lemma chunk_points : forall csz n c, 1 <= csz -> filter (fun p => p / csz =? c) (seq 0 n) = seq (c * csz) (min csz (n - c * csz)).
Proof.
  intros csz n c Hc. assert (Q : forall p, (p / csz =? c) = true <-> c * csz <= p < c * csz + csz).
  { intros p. rewrite Nat.eqb_eq. pose proof (Nat.div_mod p csz ltac:(lia)) as E. pose proof (Nat.mod_upper_bound p csz ltac:(lia)) as B. split; intros H; [subst c; nia|].
    assert (p / csz < c + 1) by nia. assert (c < p / csz + 1) by nia. lia. }
  assert (None' : forall a m, (forall p, a <= p < a + m -> (p / csz =? c) = false) -> filter (fun p => p / csz =? c) (seq a m) = []).
  { intros a m. revert a. induction m as [|m IH]; intros a H; [reflexivity|]. cbn [seq filter]. rewrite H by lia. apply IH. intros; apply H; lia. }
  assert (All : forall a m, (forall p, a <= p < a + m -> (p / csz =? c) = true) -> filter (fun p => p / csz =? c) (seq a m) = seq a m).
  { intros a m. revert a. induction m as [|m IH]; intros a H; [reflexivity|]. cbn [seq filter]. rewrite H by lia. f_equal. apply IH. intros; apply H; lia. }
  assert (F : forall p, ~ (c * csz <= p < c * csz + csz) -> (p / csz =? c) = false).
  { intros p H. destruct (p / csz =? c) eqn:E; [|auto]. apply Q in E. tauto. }
  destruct (Nat.le_gt_cases n (c * csz)) as [H|H].
  - replace (n - c * csz) with 0 by lia. rewrite Nat.min_0_r. apply None'. intros p Hp. apply F. lia.
  - set (m := min csz (n - c * csz)). assert (Hm : m <= csz /\ c * csz + m <= n /\ (c * csz + m = n \/ m = csz)) by (unfold m; lia).
    replace n with (c * csz + (m + (n - c * csz - m))) by lia. rewrite seq_app, filter_app, seq_app, filter_app. cbn [Nat.add].
    rewrite None', All, None'; [cbn [app]; apply app_nil_r| | |]; intros p Hp; [apply F; lia|apply Q; lia|apply F; lia].
Qed.

Lemma chunk_residual_val : forall rdist data centers assign cnt d r v, chunk_residual rdist data centers assign d cnt r = Ok v ->
  v = fold_left fadd (map (fun p => rdist (nth p data []) (nth (nth p assign 0) centers [])) (seq d cnt)) r.
Proof.
  intros rdist data centers assign. induction cnt as [|cnt IH]; intros d r v H; cbn [chunk_residual seq map fold_left] in *; [congruence|].
  apply bind_ok in H. destruct H as [x [E1 H]]. apply bind_ok in H. destruct H as [c [E2 H]]. apply bind_ok in H. destruct H as [y [E3 H]].
  apply rd_ok in E1. apply rd_ok in E2. apply rd_ok in E3. rewrite (IH _ _ _ H).
  rewrite (nth_error_nth _ _ _ E1), (nth_error_nth _ _ _ E2), (nth_error_nth _ _ _ E3). reflexivity.
Qed.

Lemma residual_val : forall rdist csz n data centers assign, 1 <= csz -> forall cnt chunk r v, residual_from rdist csz n data centers assign chunk cnt r = Ok v ->
  v = fold_left fadd (map (fun c => fold_left fadd (map (fun p => rdist (nth p data []) (nth (nth p assign 0) centers []))
        (filter (fun p => p / csz =? c) (seq 0 n))) f32_zero) (seq chunk cnt)) r.
Proof.
  intros rdist csz n data centers assign Hc. induction cnt as [|cnt IH]; intros chunk r v H; cbn [residual_from seq map fold_left] in *; [congruence|].
  apply bind_ok in H. destruct H as [s [E1 H]]. apply chunk_residual_val in E1. rewrite (IH _ _ _ H). rewrite chunk_points by auto. rewrite <- E1. reflexivity.
Qed.

Lemma lloyd_residual : forall popf mbs csz cdist rdist n dim nc data orders centers assign st, 1 <= csz ->
  lloyd_iter popf mbs csz cdist rdist n dim nc data orders centers assign = Ok st ->
  ll_res st = total_dist (fun p => rdist (nth p data []) (nth (nth p (ll_assign st) 0) (ll_centers st) [])) csz n.
Proof.
  intros popf mbs csz cdist rdist n dim nc data orders centers assign st Hc H. unfold lloyd_iter in H. apply bind_ok in H. destruct H as [[a o] [_ H]].
  cbn [fst snd] in H. destruct o as [docs|]; [|discriminate]. apply bind_ok in H. destruct H as [cs [_ H]]. apply bind_ok in H. destruct H as [r [E H]].
  assert (st = mkLl a docs cs r) by congruence. subst st. cbn [ll_res ll_assign ll_centers]. apply residual_val in E; auto. unfold total_dist.
  replace ((n + csz - 1) / csz) with (div_round_up n csz); [exact E|]. unfold div_round_up.
  pose proof (Nat.div_mod n csz ltac:(lia)) as Ed. pose proof (Nat.mod_upper_bound n csz ltac:(lia)) as B.
  destruct (n mod csz) as [|m] eqn:Em; cbn [Nat.eqb].
  - replace (n + csz - 1) with (csz - 1 + (n / csz) * csz) by nia. rewrite Nat.div_add by lia. rewrite (Nat.div_small (csz - 1)) by lia. lia.
  - replace (n + csz - 1) with (m + (n / csz + 1) * csz) by nia. rewrite Nat.div_add by lia. rewrite (Nat.div_small m) by lia. lia.
Qed.

(** ** random_centers *)
Lemma existsb_in : forall x l, existsb (Nat.eqb x) l = true <-> In x l.
Proof. intros x l. rewrite existsb_exists. split; [intros [y [H E]]; apply Nat.eqb_eq in E; now subst|intros H; exists x; split; [auto|apply Nat.eqb_refl]]. Qed.

Lemma random_centers_from : forall data draw cnt j picked centers, (forall i, i < j + cnt -> draw i < length data) -> j + cnt <= length centers ->
  (forall x, In x picked <-> In x (map draw (seq 0 j))) ->
  exists out, random_centers data draw j cnt picked centers = Ok out /\ length out = length centers /\
    (forall i, j <= i < j + cnt -> nth_error out i = if existsb (Nat.eqb (draw i)) (map draw (seq 0 i)) then nth_error centers i else Some (Some (nth (draw i) data []))) /\
    (forall i, i < j \/ j + cnt <= i -> nth_error out i = nth_error centers i).
Proof.
  intros data draw. induction cnt as [|cnt IH]; intros j picked centers Hd Hc HP; cbn [random_centers].
  - exists centers. split; [auto|]. split; [auto|]. split; [intros; lia|auto].
  - assert (EB : existsb (Nat.eqb (draw j)) picked = existsb (Nat.eqb (draw j)) (map draw (seq 0 j))).
    { apply eq_true_iff_eq. rewrite !existsb_in. apply HP. }
    rewrite EB. destruct (existsb (Nat.eqb (draw j)) (map draw (seq 0 j))) eqn:Ex.
    + destruct (IH (S j) picked centers) as [out [E [L [I O]]]]; [intros; apply Hd; lia|lia| |].
      * intros x. rewrite HP, seq_S, map_app, in_app_iff. cbn [plus map In]. split; [auto|]. intros [H|[<-|[]]]; [auto|]. now apply existsb_in.
      * exists out. split; [auto|]. split; [auto|]. split; [|intros; apply O; lia]. intros i Hi. destruct (Nat.eq_dec i j) as [->|Hne]; [rewrite Ex; apply O; lia|apply I; lia].
    + assert (Hdj : draw j < length data) by (apply Hd; lia). assert (E1 : rd data (draw j) = Ok (nth (draw j) data [])) by (apply rd_ok, nth_error_nth'; auto). rewrite E1. cbn [bind].
      destruct (wr_nth _ centers j (Some (nth (draw j) data []))) as [b [Ew [Lw Nw]]]; [lia|]. rewrite Ew. cbn [bind].
      destruct (IH (S j) (picked ++ [draw j]) b) as [out [E [L [I O]]]]; [intros; apply Hd; lia|lia| |].
      * intros x. rewrite seq_S, map_app, !in_app_iff, HP. reflexivity.
      * exists out. split; [auto|]. split; [lia|]. split.
        -- intros i Hi. destruct (Nat.eq_dec i j) as [->|Hne]; [rewrite Ex, O, Nw by lia; destruct (Nat.eq_dec j j); [auto|congruence]|]. rewrite I by lia.
           rewrite Nw. destruct (Nat.eq_dec i j); [congruence|auto].
        -- intros i Hi. rewrite O by lia. rewrite Nw. destruct (Nat.eq_dec i j); [lia|auto].
Qed.

Lemma random_centers_ok : forall data draw nc, (forall i, i < nc -> draw i < length data) ->
  exists out, random_centers data draw 0 nc [] (repeat None nc) = Ok out /\ length out = nc /\
    forall i, i < nc -> nth_error out i = Some (if existsb (Nat.eqb (draw i)) (map draw (seq 0 i)) then None else Some (nth (draw i) data [])).
Proof.
  intros data draw nc H. destruct (random_centers_from data draw nc 0 [] (repeat None nc)) as [out [E [L [I _]]]]; auto; [rewrite repeat_length; lia|reflexivity|].
  rewrite repeat_length in L. exists out. split; [auto|]. split; [auto|]. intros i Hi. rewrite I by lia. destruct (existsb _ _); [|auto]. now rewrite nth_error_repeat.
Qed.

(** ** k-means++ *)
Lemma dart_hit_lt : forall dart dist prefix i last t, dart_hit dart prefix i dist last = Some t -> (forall x, last = Some x -> x < i + length dist) -> t < i + length dist.
Proof.
  intros dart. induction dist as [|d dist IH]; intros prefix i last t H HL; cbn [dart_hit] in H; [apply HL; auto|]. cbn [length].
  destruct (SFleb prefix dart && SFltb dart (f64_add prefix (f64_of_f32 d))); [injection H as <-; lia|].
  apply IH in H; [lia|]. intros x Hx. injection Hx as <-. lia.
Qed.

Lemma dart_hit_some : forall dart dist prefix i last, (dist <> [] \/ last <> None) -> exists t, dart_hit dart prefix i dist last = Some t.
Proof.
  intros dart. induction dist as [|d dist IH]; intros prefix i last H; cbn [dart_hit].
  - destruct last as [x|]; [eauto|]. destruct H; congruence.
  - destruct (_ && _); [eauto|]. apply IH. right. discriminate.
Qed.

Lemma min_dists_length : forall pdist c dist, length (min_dists pdist c dist) = length dist.
Proof. intros. unfold min_dists. rewrite map_length, combine_length, seq_length. lia. Qed.

Lemma combine_seq_nth : forall (A : Type) (l : list A) s i, nth_error (combine (seq s (length l)) l) i = match nth_error l i with Some x => Some (s + i, x) | None => None end.
Proof.
  intros A. induction l as [|x l IH]; intros s i; cbn [length seq combine]; [now destruct i|]. destruct i as [|i]; cbn [nth_error]; [now rewrite Nat.add_0_r|].
  rewrite IH. destruct (nth_error l i); [|auto]. do 2 f_equal. lia.
Qed.

Lemma min_dists_nth : forall pdist c dist i d, nth_error dist i = Some d -> nth_error (min_dists pdist c dist) i = Some (if flt (pdist i c) d then pdist i c else d).
Proof. intros pdist c dist i d H. unfold min_dists. rewrite nth_error_map, combine_seq_nth, H. reflexivity. Qed.

Lemma kpp_result : forall data pdist darts nc fuel r flag picked dist centers out,
  length dist = length data -> length centers = nc -> 1 <= length picked <= nc -> (forall p, In p picked -> p < length data) -> (flag = false -> NoDup picked) ->
  (forall i p, nth_error picked i = Some p -> nth_error centers i = Some (Some (nth p data []))) ->
  kpp_loop fuel data pdist darts nc r flag picked dist centers = Ok (Some out) ->
  let '(picked', flag', centers') := out in length picked' = nc /\ (forall p, In p picked' -> p < length data) /\ (flag' = false -> NoDup picked') /\
    centers' = map (fun p => Some (nth p data [])) picked'.
Proof.
  intros data pdist darts nc. induction fuel as [|fuel IH]; intros r flag picked dist centers out HD HC HP HL HN HI H; cbn [kpp_loop] in H.
  - destruct (Nat.leb_spec nc (length picked)); [|discriminate]. injection H as <-. split; [lia|]. split; [auto|]. split; [auto|].
    apply nth_error_ext_lt; [rewrite map_length; lia|]. intros i Hi. rewrite nth_error_map. destruct (nth_error picked i) as [p|] eqn:E; [|apply nth_error_None in E; lia]. rewrite (HI i p E). reflexivity.
  - destruct (Nat.leb_spec nc (length picked)).
    + injection H as <-. split; [lia|]. split; [auto|]. split; [auto|].
      apply nth_error_ext_lt; [rewrite map_length; lia|]. intros i Hi. rewrite nth_error_map. destruct (nth_error picked i) as [p|] eqn:E; [|apply nth_error_None in E; lia]. rewrite (HI i p E). reflexivity.
    + set (dart := f64_mul (darts r) (sum64 dist)) in H. destruct (dart_hit dart f64_zero 0 dist None) as [t|] eqn:Et; [|discriminate].
      assert (Ht : t < length data). { apply dart_hit_lt in Et; [lia|discriminate]. }
      destruct (existsb (Nat.eqb t) picked && negb (flag || SFeqb (sum64 dist) f64_zero)) eqn:Ex.
      * apply (IH _ _ _ _ _ _ HD HC HP HL) in H; auto. intros Hf. apply HN. now apply orb_false_iff in Hf.
      * assert (E1 : rd data t = Ok (nth t data [])) by (apply rd_ok, nth_error_nth'; auto). rewrite E1 in H. cbn [bind] in H.
        destruct (wr_nth _ centers (length picked) (Some (nth t data []))) as [b [Ew [Lw Nw]]]; [lia|]. rewrite Ew in H. cbn [bind] in H.
        apply IH in H; auto.
        -- now rewrite min_dists_length.
        -- lia.
        -- rewrite app_length. cbn. lia.
        -- intros p Hp. apply in_app_iff in Hp. destruct Hp as [Hp|[<-|[]]]; auto.
        -- intros Hf. pose proof Hf as Hf'. apply orb_false_iff in Hf. destruct Hf as [Hf _]. rewrite Hf' in Ex. cbn [negb] in Ex. rewrite andb_true_r in Ex.
           apply (Permutation_NoDup (Permutation_cons_append picked t)). constructor; [|auto]. intros X. apply existsb_in in X. congruence.
        -- intros i p Hp. rewrite Nw. destruct (Nat.eq_dec i (length picked)) as [->|Hne].
           ++ rewrite nth_error_app2, Nat.sub_diag in Hp by lia. injection Hp as <-. reflexivity.
           ++ apply HI. rewrite nth_error_app1 in Hp; [auto|]. assert (i < length (picked ++ [t])) by (apply nth_error_Some; rewrite Hp; discriminate). rewrite app_length in *. cbn in *. lia.
Qed.

Lemma kmeans_pp_result : forall fuel data pdist init darts nc picked flag centers, init < length data -> 1 <= nc ->
  kmeans_pp fuel data pdist init darts nc = Ok (Some (picked, flag, centers)) ->
  length picked = nc /\ (forall p, In p picked -> p < length data) /\ (flag = false -> NoDup picked) /\ centers = map (fun p => Some (nth p data [])) picked.
Proof.
  intros fuel data pdist init darts nc picked flag centers Hi Hc H. unfold kmeans_pp in H.
  assert (E1 : rd data init = Ok (nth init data [])) by (apply rd_ok, nth_error_nth'; auto). rewrite E1 in H. cbn [bind] in H.
  destruct (wr_nth _ (repeat None nc) 0 (Some (nth init data []))) as [b [Ew [Lw Nw]]]; [rewrite repeat_length; lia|]. rewrite Ew in H. cbn [bind] in H.
  rewrite repeat_length in Lw.
  apply kpp_result in H; auto.
  - now rewrite map_length, seq_length.
  - intros p [<-|[]]. auto.
  - intros _. repeat constructor. intros [].
  - intros i p Hp. rewrite Nw. destruct i as [|i]; [|now destruct i]. cbn in Hp. injection Hp as <-. reflexivity.
Qed.

Definition is_zero (x : f32) : Prop := match x with S754_zero _ => True | _ => False end.

Lemma add_zero_no_hit : forall prefix dart d, is_zero d -> SFleb prefix dart = true -> SFltb dart (f64_add prefix (f64_of_f32 d)) = false.
Proof.
  intros prefix dart d Hd H. destruct d as [s| | |]; try contradiction. cbn [f64_of_f32].
  assert (E : SFltb dart (f64_add prefix (S754_zero s)) = SFltb dart prefix).
  { unfold f64_add. destruct prefix as [s'|s'| |s' m e]; cbn [SFadd]; try reflexivity. destruct (Bool.eqb s' s); destruct dart as [|[]| |[]]; reflexivity. }
  rewrite E. change (flt dart prefix = false). change (fle prefix dart = true) in H. destruct (flt dart prefix) eqn:F; [|auto].
  pose proof (fle_flt_trans _ _ _ H F) as X. now rewrite flt_irrefl in X.
Qed.

Lemma fold_nan : forall dist, fold_left (fun s d => f64_add s (f64_of_f32 d)) dist S754_nan = S754_nan.
Proof. induction dist as [|d dist IH]; [reflexivity|]. cbn [fold_left]. exact IH. Qed.

Lemma dart_hit_fresh : forall dart dist prefix i last, SFleb prefix dart = true -> SFltb dart (fold_left (fun s d => f64_add s (f64_of_f32 d)) dist prefix) = true ->
  exists t d, dart_hit dart prefix i dist last = Some (i + t) /\ nth_error dist t = Some d /\ ~ is_zero d.
Proof.
  intros dart. induction dist as [|d dist IH]; intros prefix i last H1 H2; cbn [fold_left dart_hit] in *.
  - exfalso. change (fle prefix dart = true) in H1. change (flt dart prefix = true) in H2. pose proof (fle_flt_trans _ _ _ H1 H2) as X. now rewrite flt_irrefl in X.
  - rewrite H1. cbn [andb]. destruct (SFltb dart (f64_add prefix (f64_of_f32 d))) eqn:E.
    + exists 0, d. rewrite Nat.add_0_r. split; [auto|]. split; [auto|]. intros Hz. now rewrite (add_zero_no_hit prefix dart d Hz H1) in E.
    + assert (N1 : is_nan dart = false) by apply (fle_not_nan prefix dart H1).
      assert (N2 : is_nan (f64_add prefix (f64_of_f32 d)) = false). { destruct (f64_add prefix (f64_of_f32 d)) eqn:F; try reflexivity. rewrite fold_nan in H2. destruct (flt_not_nan _ _ H2). discriminate. }
      destruct (IH (f64_add prefix (f64_of_f32 d)) (S i) (Some i)) as [t [x [Et [Hx Hz]]]]; [apply (flt_false_fle _ _ N1 N2 E)|exact H2|].
      exists (S t), x. split; [rewrite Et; f_equal; lia|auto].
Qed.

Lemma nonneg_not_below_zero : forall x z, is_zero z -> fle f32_zero x = true -> flt x z = false.
Proof. intros x z Hz H. destruct z; try contradiction. destruct x as [|[]| |[]]; try discriminate; reflexivity. Qed.

Lemma not_above_zero : forall z d, is_zero z -> fle f32_zero d = true -> flt z d = false -> is_zero d.
Proof. intros z d Hz H F. destruct z; try contradiction. destruct d as [|[]| |[]]; try discriminate; cbn; auto. Qed.

Lemma kpp_ends : forall data pdist darts nc, (forall i j, i < length data -> j < length data -> fle f32_zero (pdist i j) = true) ->
  (forall i, i < length data -> is_zero (pdist i i)) -> darts_ok (length data) pdist darts ->
  forall fuel r flag picked dist centers, nc <= length picked + fuel -> length dist = length data -> length centers = nc -> 1 <= length picked -> (forall p, In p picked -> p < length data) ->
    (forall i d, nth_error dist i = Some d -> exists j, j < length data /\ d = pdist i j) -> (forall p, In p picked -> exists d, nth_error dist p = Some d /\ is_zero d) ->
    exists out, kpp_loop fuel data pdist darts nc r flag picked dist centers = Ok (Some out).
Proof.
  intros data pdist darts nc Hpos Hself Hdart. induction fuel as [|fuel IH]; intros r flag picked dist centers Hf HD HC HP HL HV HZ; cbn [kpp_loop].
  - rewrite (proj2 (Nat.leb_le nc (length picked))) by lia. eauto.
  - destruct (Nat.leb_spec nc (length picked)) as [Hle|Hgt]; [eauto|].
    assert (Hne : dist <> []). { intros ->. destruct picked as [|p picked]; [cbn in HP; lia|]. destruct (HZ p ltac:(now left)) as [d [Hd _]]. destruct p; discriminate. }
    set (dart := f64_mul (darts r) (sum64 dist)).
    assert (Step : exists t, dart_hit dart f64_zero 0 dist None = Some t /\ t < length data /\ existsb (Nat.eqb t) picked && negb (flag || SFeqb (sum64 dist) f64_zero) = false).
    { destruct (SFeqb (sum64 dist) f64_zero) eqn:Es.
      - destruct (dart_hit_some dart dist f64_zero 0 None (or_introl Hne)) as [t Et]. exists t. split; [auto|]. split; [apply dart_hit_lt in Et; [lia|discriminate]|].
        rewrite orb_true_r. cbn [negb]. apply andb_false_r.
      - destruct (Hdart r dist HD) as [X|[X1 X2]].
        + intros d Hd. apply In_nth_error in Hd. destruct Hd as [i Hi]. destruct (HV i d Hi) as [j [Hj ->]]. exists i, j. split; [|auto]. rewrite <- HD. apply nth_error_Some. rewrite Hi. discriminate.
        + congruence.
        + destruct (dart_hit_fresh dart dist f64_zero 0 None X1 X2) as [t [d [Et [Hd Hz]]]]. exists t. split; [exact Et|].
          split; [rewrite <- HD; apply nth_error_Some; rewrite Hd; discriminate|]. replace (existsb (Nat.eqb t) picked) with false; [reflexivity|]. symmetry.
          destruct (existsb (Nat.eqb t) picked) eqn:Ex; [|auto]. apply existsb_in in Ex. destruct (HZ t Ex) as [d' [Hd' Hz']]. congruence. }
    destruct Step as [t [Et [Ht Ex]]]. rewrite Et, Ex.
    assert (E1 : rd data t = Ok (nth t data [])) by (apply rd_ok, nth_error_nth'; auto). rewrite E1. cbn [bind].
    destruct (wr_nth _ centers (length picked) (Some (nth t data []))) as [b [Ew [Lw Nw]]]; [lia|]. rewrite Ew. cbn [bind].
    apply IH.
    + rewrite app_length. cbn. lia.
    + now rewrite min_dists_length.
    + lia.
    + rewrite app_length. lia.
    + intros p Hp. apply in_app_iff in Hp. destruct Hp as [Hp|[<-|[]]]; auto.
    + intros i d Hd. destruct (nth_error dist i) as [d0|] eqn:E0.
      * rewrite (min_dists_nth pdist t dist i d0 E0) in Hd. injection Hd as <-. destruct (HV i d0 E0) as [j [Hj ->]]. destruct (flt (pdist i t) (pdist i j)); [exists t|exists j]; auto.
      * exfalso. apply nth_error_None in E0. assert (i < length (min_dists pdist t dist)) by (apply nth_error_Some; rewrite Hd; discriminate). rewrite min_dists_length in *. lia.
    + intros p Hp. apply in_app_iff in Hp. destruct Hp as [Hp|[<-|[]]].
      * destruct (HZ p Hp) as [d [Hd Hz]]. exists d. split; [|auto]. rewrite (min_dists_nth pdist t dist p d Hd), (nonneg_not_below_zero (pdist p t) d Hz); [auto|]. apply Hpos; auto.
      * destruct (nth_error dist t) as [d|] eqn:Ed; [|apply nth_error_None in Ed; lia]. rewrite (min_dists_nth pdist t dist t d Ed). eexists. split; [reflexivity|].
        destruct (flt (pdist t t) d) eqn:F; [apply Hself; auto|]. apply (not_above_zero (pdist t t)); auto. destruct (HV t d Ed) as [j [Hj ->]]. apply Hpos; auto.
Qed.

Lemma kmeans_pp_ends : forall data pdist init darts nc, (forall i j, i < length data -> j < length data -> fle f32_zero (pdist i j) = true) ->
  (forall i, i < length data -> feq (pdist i i) f32_zero = true) -> darts_ok (length data) pdist darts -> init < length data -> 1 <= nc ->
  exists picked flag centers, kmeans_pp (nc - 1) data pdist init darts nc = Ok (Some (picked, flag, centers)).
Proof.
  intros data pdist init darts nc Hpos Hself Hdart Hi Hc. unfold kmeans_pp.
  assert (Hself' : forall i, i < length data -> is_zero (pdist i i)). { intros i Hi'. specialize (Hself i Hi'). destruct (pdist i i) as [|[]| |[]]; try discriminate. exact I. }
  assert (E1 : rd data init = Ok (nth init data [])) by (apply rd_ok, nth_error_nth'; auto). rewrite E1. cbn [bind].
  destruct (wr_nth _ (repeat None nc) 0 (Some (nth init data []))) as [b [Ew [Lw Nw]]]; [rewrite repeat_length; lia|]. rewrite Ew. cbn [bind]. rewrite repeat_length in Lw.
  destruct (kpp_ends data pdist darts nc Hpos Hself' Hdart (nc - 1) 0 false [init] (map (fun i => pdist i init) (seq 0 (length data))) b) as [[[p f] c] E].
  - cbn. lia.
  - now rewrite map_length, seq_length.
  - auto.
  - auto.
  - intros p [<-|[]]. auto.
  - intros i d Hd. assert (Hl : i < length data). { assert (X : i < length (map (fun i => pdist i init) (seq 0 (length data)))) by (apply nth_error_Some; rewrite Hd; discriminate). now rewrite map_length, seq_length in X. }
    rewrite nth_error_map, nth_error_seq_lt in Hd by auto. injection Hd as <-. exists init. auto.
  - intros p [<-|[]]. exists (pdist init init). rewrite nth_error_map, nth_error_seq_lt by auto. split; [reflexivity|]. auto.
  - exists p, f, c. exact E.
Qed.

(** One iteration, with the distances to the centres written out. *)
Lemma lloyd_iter_nearest : forall popf mbs csz cdist rdist n dim nc data orders centers assign0,
  pops popf -> 1 <= n -> 1 <= mbs -> 1 <= csz -> block_orders n 1 (min n mbs) orders -> rows_of n dim data -> length centers = nc ->
  usable_centers cdist n centers -> length assign0 = n ->
  exists (assign : nat -> nat) st, lloyd_iter popf mbs csz cdist rdist n dim nc data orders centers assign0 = Ok st /\
    ll_assign st = map assign (seq 0 n) /\ (forall p, p < n -> first_nearest (fun c => cdist p (nth c centers [])) nc (assign p)) /\
    length (ll_docs st) = nc /\ length (ll_centers st) = nc /\
    forall c, c < nc -> exists docs, nth_error (ll_docs st) c = Some docs /\ Permutation docs (filter (fun p => assign p =? c) (seq 0 n)) /\
      nth_error (ll_centers st) c = Some (centroid_of dim data docs).
Proof.
  intros popf mbs csz cdist rdist n dim nc data orders centers assign0 H1 H2 H3 H4 H5 H6 H7 H8 H9.
  destruct (lloyd_iter_ok popf mbs csz cdist rdist n dim nc data orders centers assign0 H1 H2 H3 H4 H5 H6 H7 H8 H9)
    as [assign [st [E [A [F R]]]]].
  exists assign, st. split; [exact E|]. split; [exact A|]. split; [|exact R].
  intros p Hp. assert (X : forall c, c < nc -> centre_dist cdist centers p c = cdist p (nth c centers [])).
  { intros c Hc. unfold centre_dist. rewrite nth_error_nth' with (d := []) by lia. reflexivity. }
  destruct (F p Hp) as [F1 [F2 F3]]. split; [exact F1|]. split.
  - intros j Hj. rewrite <- !X by lia. apply F2. exact Hj.
  - intros j Hj. rewrite <- !X by lia. apply F3. exact Hj.
Qed.
