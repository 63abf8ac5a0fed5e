(** The random data tools. *)
From Coq Require Import NArith ZArith Reals Lra Lia String List Arith Bool Floats.SpecFloat.
From Verif Require Import Base Bytes Float32 DivFacts FloatBits DistSpec RealSpec StreamModel BinModel BinSpec BinProofs TsvModel IndexFileModel CmdModel CmdSpec CmdProofs CmdProofs2 RandModel RandSpec RandDistModel RandDistSpec RandDistProofs RandDistProofs2 RandDistProofs3.
Import ListNotations.
Local Open Scope nat_scope.

(** ** Numbers of the polar method in order *)
Definition tail_numbers (logf : f32 -> f32) (way : sum_way) (words : nat -> N) (M i : nat) : list f32 := flat_map (pair_numbers logf way words) (seq i (M - i)).
Lemma tail_step : forall logf way words M i, i < M -> tail_numbers logf way words M i = pair_numbers logf way words i ++ tail_numbers logf way words M (S i).
Proof. intros logf way words M i H. unfold tail_numbers. replace (M - i) with (S (M - S i)) by lia. reflexivity. Qed.
Lemma tail_end : forall logf way words M i, M <= i -> tail_numbers logf way words M i = [].
Proof. intros logf way words M i H. unfold tail_numbers. replace (M - i) with 0 by lia. reflexivity. Qed.

Lemma call_next : forall logf way words M fuel i, tail_numbers logf way words M i <> [] -> M - i <= fuel ->
  exists j v x, i < j /\ normal_call logf way words fuel (2 * i) None = Ok (v, 2 * j, Some x) /\ tail_numbers logf way words M i = v :: normal_param x :: tail_numbers logf way words M j.
Proof.
  intros logf way words M fuel. induction fuel as [|fuel IH]; intros i Hne Hf.
  - rewrite tail_end in Hne by lia. congruence.
  - destruct (Nat.lt_ge_cases i M) as [L|L]; [|rewrite tail_end in Hne by lia; congruence]. rewrite tail_step in Hne |- * by exact L. cbn [normal_call]. unfold pair_numbers in Hne |- *. replace (2 * i + 1) with (S (2 * i)) in * by lia. destruct (rejected _).
    + cbn [app] in Hne |- *. replace (S (S (2 * i))) with (2 * S i) by lia. destruct (IH (S i) Hne ltac:(lia)) as [j [v [x [A [B C]]]]]. exists j, v, x. split; [lia|]. auto.
    + exists (S i). eexists. eexists. split; [lia|]. split; [|reflexivity]. replace (2 * S i) with (S (S (2 * i))) by lia. reflexivity.
Qed.
Lemma fill_numbers : forall logf way words M fuel cnt i, M <= fuel ->
  (cnt <= length (tail_numbers logf way words M i) -> normal_fill logf way words fuel cnt (2 * i) None = Ok (firstn cnt (tail_numbers logf way words M i))) /\
  (forall x, cnt <= S (length (tail_numbers logf way words M i)) -> normal_fill logf way words fuel cnt (2 * i) (Some x) = Ok (firstn cnt (normal_param x :: tail_numbers logf way words M i))).
Proof.
  intros logf way words M fuel cnt. induction cnt as [|cnt IH]; intros i Hf; [split; reflexivity|]. split.
  - intros H. assert (Hne : tail_numbers logf way words M i <> []) by (destruct (tail_numbers logf way words M i); [cbn in H; lia|discriminate]).
    destruct (call_next logf way words M fuel i Hne ltac:(lia)) as [j [v [x [Hj [E T]]]]]. cbn [normal_fill]. rewrite E. cbn [bind]. rewrite T in H |- *. cbn [length] in H. rewrite (proj2 (IH j Hf) x) by lia. reflexivity.
  - intros x H. cbn [normal_fill]. assert (E : normal_call logf way words fuel (2 * i) (Some x) = Ok (normal_param x, 2 * i, None)) by (destruct fuel; reflexivity). rewrite E. cbn [bind]. rewrite (proj1 (IH i Hf)) by lia. reflexivity.
Qed.

Lemma pair_finite : forall logf way words i v, log_ok logf -> (forall k, (words k < 2 ^ 32)%N) -> In v (pair_numbers logf way words i) -> finite v /\ f32_valid v = true /\ (Rabs (real v) <= 64)%R.
Proof.
  intros logf way words i v HL HW H. unfold pair_numbers in H. destruct (rejected _) eqn:R; [destruct H|]. pose proof (polar_numbers logf way (words (2 * i)) (words (2 * i + 1)) HL (HW _) (HW _) R) as P. destruct H as [<-|[<-|[]]]; apply P; auto.
Qed.

Lemma gaussian_alone : forall logf way words fuel M T n dim, alone T n -> (n * dim < 2 ^ 32)%N -> M <= fuel ->
  let numbers := flat_map (pair_numbers logf way words) (seq 0 M) in N.to_nat n * N.to_nat dim <= length numbers ->
  random_gaussian logf way words fuel T n dim = Ok (float_file n dim (firstn (N.to_nat n * N.to_nat dim) numbers)).
Proof.
  intros logf way words fuel M T n dim A H Hf numbers HL. unfold random_gaussian. assert (E1 : (1 <? T) && (64 <? N.to_nat n) = false). { destruct A as [->|[_ Hn]]; [reflexivity|]. apply andb_false_iff. right. apply Nat.ltb_ge. lia. } rewrite E1.
  change (2 ^ 32)%N with 4294967296%N in H. assert (E2 : (4294967296 <=? n * dim)%N = false) by (apply N.leb_gt; exact H). rewrite E2.
  assert (E3 : tail_numbers logf way words M 0 = numbers) by (unfold tail_numbers; rewrite Nat.sub_0_r; reflexivity). pose proof (proj1 (fill_numbers logf way words M fuel (N.to_nat n * N.to_nat dim) 0 Hf)) as F. rewrite E3 in F. change (2 * 0) with 0 in F. rewrite F by exact HL. cbn [bind].
  apply save_bin_full. rewrite firstn_length. lia.
Qed.
Lemma gaussian_race : forall logf way words fuel T n dim, shared_loop T n dim -> random_gaussian logf way words fuel T n dim = UB.
Proof.
  intros logf way words fuel T n dim [HT [Hn _]]. unfold random_gaussian. assert (E1 : (1 <? T) && (64 <? N.to_nat n) = true) by (apply andb_true_intro; split; apply Nat.ltb_lt; lia). now rewrite E1.
Qed.

(** ** Command lines *)
Lemma kth_range : forall regen x0 k, renews mt_size regen x0 -> (kth_word mt_size regen x0 k < 2 ^ 32)%N.
Proof.
  intros regen x0 k HR. unfold kth_word. set (x := Nat.iter _ _ _). assert (F : length x = mt_size /\ Forall (fun w => (w < 2 ^ 32)%N) x). { unfold x. cbn [Nat.iter nat_rect]. apply HR. now apply iter_length. }
  destruct F as [L F]. rewrite Forall_forall in F. apply F. apply nth_In. rewrite L. apply Nat.mod_upper_bound. pose proof size_pos. lia.
Qed.
Lemma build_words : forall regen x0 sched logf way words fuel T prog ty ns ds n dim name d, number_arg ns n -> number_arg ds dim ->
  build_random_dist_main regen x0 sched logf way words fuel T [prog; ty; ns; ds; name] d =
  do b <- (if String.eqb ty "gaussian" then random_gaussian logf way words fuel T n dim else random_cube regen x0 T sched n dim); Ok (0%Z, fs_set d name (Some b)).
Proof.
  intros regen x0 sched logf way words fuel T prog ty ns ds n dim name d H1 H2. unfold build_random_dist_main, int_arg, arg. cbn [length Nat.eqb negb nth_error bind]. rewrite (atoi_numeral _ _ H1), (atoi_numeral _ _ H2). cbn [bind]. rewrite !u32_small by (eapply small31; eauto). reflexivity.
Qed.

Lemma cube_command : forall regen x0 logf way words fuel T prog ty ns ds n dim name d, renews mt_size regen x0 -> alone T n -> (n * dim < 2 ^ 32)%N -> number_arg ns n -> number_arg ds dim -> ty <> "gaussian"%string ->
  exists data, length data = N.to_nat n * N.to_nat dim /\
    (forall k v, nth_error data k = Some v -> finite v /\ (-1 <= real v <= 1 - powerRZ 2 (-23))%R /\ (Rabs (real v - (2 * fraction (kth_word 624 regen x0 k) - 1)) <= powerRZ 2 (-22))%R) /\
    (forall sched, let r := build_random_dist_main regen x0 sched logf way words fuel T [prog; ty; ns; ds; name] d in r = Fuel \/ r = Ok (0%Z, fs_set d name (Some (float_file n dim data)))) /\
    (exists sched, build_random_dist_main regen x0 sched logf way words fuel T [prog; ty; ns; ds; name] d = Ok (0%Z, fs_set d name (Some (float_file n dim data)))).
Proof.
  intros regen x0 logf way words fuel T prog ty ns ds n dim name d HR A H H1 H2 Hty. exists (map (fun i => cube_value (kth_word mt_size regen x0 i)) (seq 0 (N.to_nat n * N.to_nat dim))). assert (Et : String.eqb ty "gaussian" = false) by now apply String.eqb_neq.
  assert (All : forall sched, let r := build_random_dist_main regen x0 sched logf way words fuel T [prog; ty; ns; ds; name] d in r = Fuel \/ r = Ok (0%Z, fs_set d name (Some (float_file n dim (map (fun i => cube_value (kth_word mt_size regen x0 i)) (seq 0 (N.to_nat n * N.to_nat dim))))))).
  { intros sched r. unfold r. rewrite (build_words _ _ _ _ _ _ _ _ _ _ _ _ n dim) by auto. rewrite Et. destruct (cube_alone regen x0 T sched n dim HR A H) as [-> | ->]; cbn [bind]; auto. }
  split; [now rewrite map_length, seq_length|]. split; [|split; [exact All|]].
  - intros k v Hv. rewrite nth_error_map, nth_seq in Hv. destruct (k <? _); [|discriminate]. cbn [option_map Nat.add] in Hv. injection Hv as <-. change 624 with mt_size. apply cube_range. now apply kth_range.
  - destruct (cube_ends regen x0 T n dim HR A H) as [s Hs]. exists s. destruct (All s) as [Q|Q]; [|exact Q]. exfalso. rewrite (build_words _ _ _ _ _ _ _ _ _ _ _ _ n dim) in Q by auto. rewrite Et in Q. destruct (cube_alone regen x0 T s n dim HR A H) as [E|E]; rewrite E in Q; [congruence|discriminate].
Qed.

Lemma gaussian_command : forall regen x0 sched logf way words fuel M T prog ns ds n dim name d, log_ok logf -> (forall k, (words k < 2 ^ 32)%N) -> alone T n -> (n * dim < 2 ^ 32)%N -> number_arg ns n -> number_arg ds dim -> M <= fuel ->
  let numbers := flat_map (pair_numbers logf way words) (seq 0 M) in N.to_nat n * N.to_nat dim <= length numbers ->
  build_random_dist_main regen x0 sched logf way words fuel T [prog; "gaussian"%string; ns; ds; name] d = Ok (0%Z, fs_set d name (Some (float_file n dim (firstn (N.to_nat n * N.to_nat dim) numbers)))) /\
  (forall v, In v numbers -> finite v /\ (Rabs (real v) <= 64)%R).
Proof.
  intros regen x0 sched logf way words fuel M T prog ns ds n dim name d HL HW A H H1 H2 Hf numbers Hn. split.
  - rewrite (build_words _ _ _ _ _ _ _ _ _ _ _ _ n dim) by auto. cbn [String.eqb]. change (String.eqb "gaussian" "gaussian") with true. cbn match. rewrite (gaussian_alone logf way words fuel M T n dim) by auto. reflexivity.
  - intros v Hv. apply in_flat_map in Hv as [i [_ Hv]]. destruct (pair_finite logf way words i v HL HW Hv) as [F [_ B]]. auto.
Qed.

(** ** Printing *)
Lemma print_row_ok : forall data row pos, (forall j x, nth_error row j = Some x -> nth_error data (pos + j) = Some (bits_of_f32 x)) -> (forall x, In x row -> f32_valid x = true) ->
  print_row data pos (length row) = Ok (concat (map (fun x => show_float x ++ [32%N]) row) ++ [10%N]).
Proof.
  intros data row. induction row as [|x row IH]; intros pos H V; cbn [length print_row map concat]; [reflexivity|]. unfold rd. specialize (H 0 x eq_refl) as H0. rewrite Nat.add_0_r in H0. rewrite H0. cbn [bind]. rewrite IH.
  - cbn [bind]. destruct (f32_of_bits_of_f32 x (V x (or_introl eq_refl))) as [-> _]. rewrite <- !app_assoc. reflexivity.
  - intros j y Hy. rewrite Nat.add_succ_comm. now apply (H (S j)).
  - intros y Hy. apply V. now right.
Qed.
Lemma nth_concat : forall dim (rows : list (list f32)) i r j x, (forall r, In r rows -> length r = dim) -> nth_error rows i = Some r -> nth_error r j = Some x -> nth_error (concat rows) (i * dim + j) = Some x.
Proof.
  intros dim rows. induction rows as [|r0 rows IH]; intros [|i] r j x L Hr Hx; try discriminate; cbn [concat nth_error] in *.
  - injection Hr as ->. cbn [Nat.mul Nat.add]. rewrite nth_error_app1; [exact Hx|]. apply nth_error_Some. congruence.
  - assert (L0 : length r0 = dim) by (apply L; now left). rewrite nth_error_app2 by lia. rewrite L0. replace (S i * dim + j - dim) with (i * dim + j) by lia. eapply IH; eauto. intros q Hq. apply L. now right.
Qed.
Lemma print_rows_ok : forall dim (rows : list (list f32)) cnt i, (forall r, In r rows -> length r = dim /\ forall x, In x r -> f32_valid x = true) -> i + cnt = length rows ->
  print_rows (map bits_of_f32 (concat rows)) dim i cnt = Ok (printed (skipn i rows)).
Proof.
  intros dim rows cnt. induction cnt as [|cnt IH]; intros i H E; cbn [print_rows].
  - rewrite skipn_all2 by lia. reflexivity.
  - destruct (nth_error rows i) as [r|] eqn:Hr; [|apply nth_error_None in Hr; lia]. destruct (H r (nth_error_In _ _ Hr)) as [L V]. rewrite <- L at 2. rewrite (print_row_ok _ r).
    + cbn [bind]. rewrite IH by (auto; lia). cbn [bind]. assert (S : skipn i rows = r :: skipn (S i) rows).
      { clear -Hr. revert i Hr. induction rows as [|a rows IH]; intros [|i] Hr; try discriminate; cbn [skipn nth_error] in *; [now injection Hr as ->|]. apply IH, Hr. }
      rewrite S. reflexivity.
    + intros j x Hx. rewrite nth_error_map. rewrite (nth_concat dim rows i r j x); auto. intros q Hq. exact (proj1 (H q Hq)).
    + exact V.
Qed.

Lemma load_command : forall g prog ty name d dim rows, (forall i, length (g i) = 4) -> (N.of_nat (length rows) < 2 ^ 31)%N -> (N.of_nat dim < 2 ^ 31)%N -> (N.of_nat (length rows) * N.of_nat dim < 2 ^ 60)%N -> (forall r, In r rows -> length r = dim /\ forall x, In x r -> f32_valid x = true) ->
  d name = Some (float_file (N.of_nat (length rows)) (N.of_nat dim) (concat rows)) -> load_random_dist_main g [prog; ty; name] d = Ok (0%Z, printed rows).
Proof.
  intros g prog ty name d dim rows G Hn Hd Hnd HR E. unfold load_random_dist_main, arg. cbn [length Nat.eqb negb nth_error bind]. rewrite E. change (2 ^ 31)%N with 2147483648%N in *.
  assert (L : length (concat rows) = length rows * dim). { clear -HR. induction rows as [|r rows IH]; [reflexivity|]. cbn [concat length]. rewrite app_length, IH by (intros q Hq; apply HR; now right). rewrite (proj1 (HR r (or_introl eq_refl))). lia. }
  assert (B : load_bin 4 (g 0) (g 1) (Some (float_file (N.of_nat (length rows)) (N.of_nat dim) (concat rows))) = Ok (N.of_nat (length rows), N.of_nat dim, map bits_of_f32 (concat rows))).
  { apply (bin_round_trip 4 (g 0) (g 1) (map bits_of_f32 (concat rows)) (N.of_nat (length rows)) (N.of_nat dim)); auto; unfold u32_range; try (change (2 ^ 32)%N with 4294967296%N; lia).
    - rewrite map_length, L. lia.
    - intros x Hx. apply in_map_iff in Hx as [y [<- Hy]]. apply in_concat in Hy as [r [Hr Hy]]. change (256 ^ N.of_nat 4)%N with (2 ^ 32)%N. apply f32_of_bits_of_f32. now apply (HR r). }
  assert (B2 : (if String.eqb ty "gaussian" then load_bin 4 (g 0) (g 1) (Some (float_file (N.of_nat (length rows)) (N.of_nat dim) (concat rows))) else load_bin 4 (g 0) (g 1) (Some (float_file (N.of_nat (length rows)) (N.of_nat dim) (concat rows)))) = Ok (N.of_nat (length rows), N.of_nat dim, map bits_of_f32 (concat rows))) by (destruct (String.eqb ty "gaussian"); exact B).
  rewrite B2. cbn [bind]. assert (C : ((2147483648 <=? N.of_nat (length rows)) || ((0 <? N.of_nat (length rows)) && (2147483648 <=? N.of_nat dim)))%N = false).
  { apply orb_false_iff. split; [apply N.leb_gt; lia|]. apply andb_false_iff. right. apply N.leb_gt. lia. }
  rewrite C, !Nat2N.id. rewrite print_rows_ok by auto. reflexivity.
Qed.

(** ** What else the words can be *)
Lemma build_count : forall regen x0 sched logf way words fuel T argv d, length argv <> 5 -> build_random_dist_main regen x0 sched logf way words fuel T argv d = Ok (0%Z, d).
Proof. intros. unfold build_random_dist_main. apply Nat.eqb_neq in H. now rewrite H. Qed.
Lemma load_count : forall g argv d, length argv <> 3 -> load_random_dist_main g argv d = Ok (0%Z, []).
Proof. intros. unfold load_random_dist_main. apply Nat.eqb_neq in H. now rewrite H. Qed.
Lemma any_word : forall regen x0 sched logf way words fuel T prog ty ns ds name d, ty <> "gaussian"%string ->
  build_random_dist_main regen x0 sched logf way words fuel T [prog; ty; ns; ds; name] d = build_random_dist_main regen x0 sched logf way words fuel T [prog; "cube"%string; ns; ds; name] d.
Proof. intros. unfold build_random_dist_main, arg. cbn [length Nat.eqb negb nth_error bind]. apply String.eqb_neq in H. rewrite H. reflexivity. Qed.

Lemma shared_repeats : forall regen x0 logf way words fuel T prog ty ns ds n dim name d, renews mt_size regen x0 -> shared_loop T n dim -> number_arg ns n -> number_arg ds dim -> ty <> "gaussian"%string ->
  exists sched data, build_random_dist_main regen x0 sched logf way words fuel T [prog; ty; ns; ds; name] d = Ok (0%Z, fs_set d name (Some (float_file n dim data))) /\ length data = N.to_nat n * N.to_nat dim /\
    forall j, j < N.to_nat dim -> nth_error data (64 * N.to_nat dim + j) = nth_error data j.
Proof.
  intros regen x0 logf way words fuel T prog ty ns ds n dim name d HR HS H1 H2 Hty. destruct (cube_repeats regen x0 T n dim HR HS) as [s [data [E [L K]]]]. exists s, data. split; [|auto]. rewrite (build_words _ _ _ _ _ _ _ _ _ _ _ _ n dim) by auto. apply String.eqb_neq in Hty. now rewrite Hty, E.
Qed.
Lemma shared_outside : forall regen x0 logf way words fuel T prog ty ns ds n dim name d, renews mt_size regen x0 -> shared_loop T n dim -> (10 <= dim)%N -> number_arg ns n -> number_arg ds dim -> ty <> "gaussian"%string ->
  exists sched, build_random_dist_main regen x0 sched logf way words fuel T [prog; ty; ns; ds; name] d = UB.
Proof.
  intros regen x0 logf way words fuel T prog ty ns ds n dim name d HR HS H10 H1 H2 Hty. destruct (cube_out_of_bounds regen x0 T n dim HR HS H10) as [s E]. exists s. rewrite (build_words _ _ _ _ _ _ _ _ _ _ _ _ n dim) by auto. apply String.eqb_neq in Hty. now rewrite Hty, E.
Qed.
Lemma product_overflow : forall regen x0 sched logf way words fuel T prog ty ns ds n dim name d, (2 ^ 32 <= n * dim)%N -> number_arg ns n -> number_arg ds dim ->
  let r := build_random_dist_main regen x0 sched logf way words fuel T [prog; ty; ns; ds; name] d in r = UB \/ r = Fuel.
Proof.
  intros regen x0 sched logf way words fuel T prog ty ns ds n dim name d H H1 H2 r. unfold r. rewrite (build_words _ _ _ _ _ _ _ _ _ _ _ _ n dim) by auto. destruct (String.eqb ty "gaussian").
  - unfold random_gaussian. destruct (_ && _); [now left|]. change (2 ^ 32)%N with 4294967296%N in H. apply N.leb_le in H. rewrite H. now left.
  - destruct (cube_overflow regen x0 T sched n dim H) as [-> | ->]; auto.
Qed.

(** ** Writing and printing *)
Lemma cut_rows : forall A dim n (data : list A), length data = n * dim -> exists rows, length rows = n /\ (forall r, In r rows -> length r = dim) /\ concat rows = data.
Proof.
  intros A dim n. induction n as [|n IH]; intros data H.
  - exists []. destruct data; [|discriminate]. repeat split; auto. intros r [].
  - destruct (IH (skipn dim data)) as [rows [L [R C]]]; [rewrite skipn_length; lia|]. exists (firstn dim data :: rows). split; [cbn; lia|]. split.
    + intros r [<-|Hr]; [rewrite firstn_length; lia|auto].
    + cbn [concat]. rewrite C. apply firstn_skipn.
Qed.
Lemma cube_valid : forall w, (w < 2 ^ 32)%N -> f32_valid (cube_value w) = true.
Proof. intros w Hw. destruct (twice_fin w Hw) as [[_ [V _]] _]. unfold cube_value, uniform32. change (fsub f32_one (fneg f32_one)) with (f32_of_Z 2). apply fadd_valid; [exact V|reflexivity]. Qed.
Lemma set_same : forall d name b, fs_set d name (Some b) name = Some b.
Proof. intros. unfold fs_set. now rewrite String.eqb_refl. Qed.

Lemma chain_print : forall g prog ty name d n dim data, (forall i, length (g i) = 4) -> (n < 2 ^ 31)%N -> (dim < 2 ^ 31)%N -> (n * dim < 2 ^ 32)%N -> length data = N.to_nat n * N.to_nat dim -> (forall x, In x data -> f32_valid x = true) ->
  exists rows, length rows = N.to_nat n /\ (forall r, In r rows -> length r = N.to_nat dim) /\ concat rows = data /\
    load_random_dist_main g [prog; ty; name] (fs_set d name (Some (float_file n dim data))) = Ok (0%Z, printed rows).
Proof.
  intros g prog ty name d n dim data G Hn Hd H L V. destruct (cut_rows _ _ _ data L) as [rows [L1 [L2 C]]]. exists rows. repeat (split; [assumption|]). change (2 ^ 32)%N with 4294967296%N in H. apply (load_command g prog ty name _ (N.to_nat dim) rows G); rewrite ?L1, ?N2Nat.id; auto.
  - change (2 ^ 60)%N with 1152921504606846976%N. lia.
  - intros r Hr. split; [auto|]. intros x Hx. apply V. rewrite <- C. apply in_concat. eauto.
  - rewrite C. apply set_same.
Qed.

Lemma cube_chain : forall regen x0 logf way words fuel T prog ty ns ds n dim name d g prog2 ty2, renews mt_size regen x0 -> alone T n -> (n * dim < 2 ^ 32)%N -> number_arg ns n -> number_arg ds dim -> ty <> "gaussian"%string -> (forall i, length (g i) = 4) ->
  exists rows, length rows = N.to_nat n /\ (forall r, In r rows -> length r = N.to_nat dim) /\
    (forall i r j v, nth_error rows i = Some r -> nth_error r j = Some v -> (Rabs (real v - (2 * fraction (kth_word 624 regen x0 (i * N.to_nat dim + j)) - 1)) <= powerRZ 2 (-22))%R) /\
    forall sched st d', build_random_dist_main regen x0 sched logf way words fuel T [prog; ty; ns; ds; name] d = Ok (st, d') -> load_random_dist_main g [prog2; ty2; name] d' = Ok (0%Z, printed rows).
Proof.
  intros regen x0 logf way words fuel T prog ty ns ds n dim name d g prog2 ty2 HR A H H1 H2 Hty G. set (data := map (fun i => cube_value (kth_word mt_size regen x0 i)) (seq 0 (N.to_nat n * N.to_nat dim))).
  assert (L : length data = N.to_nat n * N.to_nat dim) by (unfold data; now rewrite map_length, seq_length).
  destruct (chain_print g prog2 ty2 name d n dim data G ltac:(eapply small31; eauto) ltac:(eapply small31; eauto) H L) as [rows [L1 [L2 [C P]]]].
  { intros x Hx. apply in_map_iff in Hx as [i [<- _]]. apply cube_valid. now apply kth_range. }
  exists rows. split; [exact L1|]. split; [exact L2|]. split.
  - intros i r j v Hi Hj. pose proof (nth_concat _ _ _ _ _ _ L2 Hi Hj) as K. rewrite C in K. unfold data in K. rewrite nth_error_map, nth_seq in K. destruct (_ <? _); [|discriminate]. cbn [option_map Nat.add] in K. injection K as <-. change 624 with mt_size. apply cube_range. now apply kth_range.
  - intros sched st d' E. rewrite (build_words _ _ _ _ _ _ _ _ _ _ _ _ n dim) in E by auto. apply String.eqb_neq in Hty. rewrite Hty in E. destruct (cube_alone regen x0 T sched n dim HR A H) as [Q|Q]; rewrite Q in E; cbn [bind] in E; [discriminate|]. injection E as _ <-. exact P.
Qed.

Lemma gaussian_chain : forall regen x0 sched logf way words fuel M T prog ns ds n dim name d g prog2 ty2, log_ok logf -> (forall k, (words k < 2 ^ 32)%N) -> alone T n -> (n * dim < 2 ^ 32)%N -> number_arg ns n -> number_arg ds dim -> M <= fuel -> (forall i, length (g i) = 4) ->
  let numbers := flat_map (pair_numbers logf way words) (seq 0 M) in N.to_nat n * N.to_nat dim <= length numbers ->
  exists d' rows, build_random_dist_main regen x0 sched logf way words fuel T [prog; "gaussian"%string; ns; ds; name] d = Ok (0%Z, d') /\
    length rows = N.to_nat n /\ (forall r, In r rows -> length r = N.to_nat dim) /\ concat rows = firstn (N.to_nat n * N.to_nat dim) numbers /\ load_random_dist_main g [prog2; ty2; name] d' = Ok (0%Z, printed rows).
Proof.
  intros regen x0 sched logf way words fuel M T prog ns ds n dim name d g prog2 ty2 HL HW A H H1 H2 Hf G numbers Hn. destruct (gaussian_command regen x0 sched logf way words fuel M T prog ns ds n dim name d HL HW A H H1 H2 Hf Hn) as [E _].
  destruct (chain_print g prog2 ty2 name d n dim (firstn (N.to_nat n * N.to_nat dim) numbers) G ltac:(eapply small31; eauto) ltac:(eapply small31; eauto) H) as [rows [L1 [L2 [C P]]]].
  - rewrite firstn_length. lia.
  - intros x Hx. assert (In x numbers) as Hi. { rewrite <- (firstn_skipn (N.to_nat n * N.to_nat dim) numbers). apply in_or_app. now left. } apply in_flat_map in Hi as [i [_ Hi]]. now apply (pair_finite logf way words i x HL HW).
  - eexists. exists rows. split; [exact E|]. auto.
Qed.
