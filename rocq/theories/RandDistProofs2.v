(** Interleavings of the random data generator. *)
From Coq Require Import NArith ZArith Lia List Arith Bool Floats.SpecFloat.
From Verif Require Import Base Bytes Float32 FloatBits StreamModel BinModel BinProofs CmdModel RandModel RandDistModel RandDistSpec RandDistProofs.
Import ListNotations.
Local Open Scope nat_scope.

Lemma rows_in : forall T n t ii, In ii (rows_of T n t) -> ii < N.to_nat n /\ (ii / 64) mod T = t.
Proof. intros T n t ii H. unfold rows_of in H. apply filter_In in H as [H1 H2]. apply in_seq in H1. apply Nat.eqb_eq in H2. lia. Qed.
Lemma cells_in : forall T n dim t c, (n * dim < 2 ^ 32)%N -> In c (thread_cells T n dim t) -> exists ii jj, In ii (rows_of T n t) /\ jj < N.to_nat dim /\ c = ii * N.to_nat dim + jj.
Proof.
  intros T n dim t c H Hc. unfold thread_cells in Hc. apply in_flat_map in Hc as [ii [Hi Hc]]. destruct (rows_in _ _ _ _ Hi) as [Li _]. rewrite (row_cells_seq n) in Hc by (auto; lia). apply in_seq in Hc.
  exists ii, (c - ii * N.to_nat dim). split; [exact Hi|]. lia.
Qed.
Lemma cells_small : forall T n dim t c, (n * dim < 2 ^ 32)%N -> In c (thread_cells T n dim t) -> c < N.to_nat n * N.to_nat dim.
Proof. intros T n dim t c H Hc. destruct (cells_in T n dim t c H Hc) as [ii [jj [Hi [Hj ->]]]]. apply rows_in in Hi as [Hi _]. nia. Qed.
Lemma start_data : forall n dim : N, (n * dim < 2 ^ 32)%N -> N.to_nat ((n * dim) mod 4294967296) = N.to_nat n * N.to_nat dim.
Proof. intros n dim H. change (2 ^ 32)%N with 4294967296%N in H. rewrite N.mod_small by exact H. lia. Qed.
Lemma same_cell : forall d a b i j, i < d -> j < d -> a * d + i = b * d + j -> a = b.
Proof. intros d a b i j Hi Hj H. destruct (Nat.lt_trichotomy a b) as [Q|[Q|Q]]; [nia|exact Q|nia]. Qed.

Lemma cube_ends : forall regen x0 T n dim, renews mt_size regen x0 -> alone T n -> (n * dim < 2 ^ 32)%N -> exists sched, random_cube regen x0 T sched n dim <> Fuel.
Proof.
  intros regen x0 T n dim HR A H. set (ts := map (fun t => mkT (thread_cells T n dim t) Check) (seq 0 T)).
  destruct (finish_from regen x0 cube_value (length ts) 0 0 ts (repeat S754_nan (N.to_nat ((n * dim) mod 4294967296))) HR eq_refl) as [s [w [E [F [L K]]]]].
  - intros i th Hi. apply nth_error_In, in_map_iff in Hi as [t [<- _]]. split; [reflexivity|]. cbn [t_cells]. intros c Hc. rewrite repeat_length, start_data by auto. eapply cells_small; eauto.
  - intros; lia.
  - exists s. unfold random_cube. fold ts. cbn [st] in E. rewrite E. cbn [bind]. rewrite F. unfold save_bin. destruct (N.of_nat _ <? _)%N; discriminate.
Qed.

(** ** Equal vectors *)
Lemma shared_start : forall T n dim, shared_loop T n dim -> exists r0 r1 ts,
  map (fun t => mkT (thread_cells T n dim t) Check) (seq 0 T) = mkT (seq 0 (N.to_nat dim) ++ r0) Check :: mkT (seq (64 * N.to_nat dim) (N.to_nat dim) ++ r1) Check :: ts /\
  (forall c, In c (r0 ++ r1) \/ (exists th, In th ts /\ In c (t_cells th)) -> c < N.to_nat n * N.to_nat dim /\ N.to_nat dim <= c /\ (c < 64 * N.to_nat dim \/ 65 * N.to_nat dim <= c)) /\ (forall th, In th ts -> t_pc th = Check).
Proof.
  intros T n dim [HT [Hn [Hd H]]].
  assert (R0 : rows_of T n 0 = 0 :: filter (fun ii => (ii / 64) mod T =? 0) (seq 1 (N.to_nat n - 1))).
  { unfold rows_of. replace (N.to_nat n) with (S (N.to_nat n - 1)) at 1 by lia. cbn [seq filter]. rewrite Nat.div_small by lia. rewrite Nat.mod_0_l by lia. reflexivity. }
  assert (R1 : rows_of T n 1 = 64 :: filter (fun ii => (ii / 64) mod T =? 1) (seq 65 (N.to_nat n - 65))).
  { unfold rows_of. replace (N.to_nat n) with (64 + S (N.to_nat n - 65)) at 1 by lia. rewrite seq_app, filter_app. rewrite filter_no; [|intros x Hx; apply in_seq in Hx; rewrite Nat.div_small by lia; rewrite Nat.mod_0_l by lia; reflexivity].
    cbn [app]. change (0 + 64) with 64. cbn [seq]. change (filter ?f (64 :: ?l)) with (if f 64 then 64 :: filter f l else filter f l). cbv beta. change (64 / 64) with 1. rewrite Nat.mod_small by lia. reflexivity. }
  assert (C0 : thread_cells T n dim 0 = seq 0 (N.to_nat dim) ++ flat_map (row_cells dim) (filter (fun ii => (ii / 64) mod T =? 0) (seq 1 (N.to_nat n - 1)))).
  { unfold thread_cells. rewrite R0. cbn [flat_map]. rewrite (row_cells_seq n dim 0) by (auto; lia). reflexivity. }
  assert (C1 : thread_cells T n dim 1 = seq (64 * N.to_nat dim) (N.to_nat dim) ++ flat_map (row_cells dim) (filter (fun ii => (ii / 64) mod T =? 1) (seq 65 (N.to_nat n - 65)))).
  { unfold thread_cells. rewrite R1. change (flat_map ?f (64 :: ?l)) with (f 64 ++ flat_map f l). rewrite (row_cells_seq n dim 64) by (auto; lia). reflexivity. }
  exists (flat_map (row_cells dim) (filter (fun ii => (ii / 64) mod T =? 0) (seq 1 (N.to_nat n - 1)))), (flat_map (row_cells dim) (filter (fun ii => (ii / 64) mod T =? 1) (seq 65 (N.to_nat n - 65)))), (map (fun t => mkT (thread_cells T n dim t) Check) (seq 2 (T - 2))).
  split; [|split].
  - replace (seq 0 T) with (0 :: 1 :: seq 2 (T - 2)) by (destruct T as [|[|T]]; [lia|lia|]; cbn; now rewrite Nat.sub_0_r). cbn [map]. now rewrite C0, C1.
  - intros c Hc. assert (Q : exists ii jj, ii < N.to_nat n /\ ii <> 0 /\ ii <> 64 /\ jj < N.to_nat dim /\ c = ii * N.to_nat dim + jj).
    { assert (G : forall l ii, In c (row_cells dim ii) -> In ii l -> (ii < N.to_nat n /\ ii <> 0 /\ ii <> 64) -> exists ii jj, ii < N.to_nat n /\ ii <> 0 /\ ii <> 64 /\ jj < N.to_nat dim /\ c = ii * N.to_nat dim + jj).
      { intros l ii Hc' _ [A [B C]]. rewrite (row_cells_seq n) in Hc' by (auto; lia). apply in_seq in Hc'. exists ii, (c - ii * N.to_nat dim). lia. }
      destruct Hc as [Hc|[th [Hth Hc]]].
      - apply in_app_iff in Hc as [Hc|Hc]; apply in_flat_map in Hc as [ii [Hi Hc]]; pose proof Hi as Hi'; apply filter_In in Hi as [Hi Hq]; apply in_seq in Hi; apply Nat.eqb_eq in Hq; eapply G; eauto.
        + split; [lia|]. split; [lia|]. intros ->. change (64 / 64) with 1 in Hq. rewrite Nat.mod_small in Hq by lia. discriminate.
        + lia.
      - apply in_map_iff in Hth as [t [<- Ht]]. apply in_seq in Ht. cbn [t_cells] in Hc. unfold thread_cells in Hc. apply in_flat_map in Hc as [ii [Hi Hc]]. pose proof Hi as Hi'. apply rows_in in Hi as [Li Oi]. eapply G; eauto. split; [lia|]. split.
        + intros ->. rewrite Nat.div_small in Oi by lia. rewrite Nat.mod_0_l in Oi by lia. lia.
        + intros ->. change (64 / 64) with 1 in Oi. rewrite Nat.mod_small in Oi by lia. lia. }
    destruct Q as [ii [jj [A [B [C [D ->]]]]]]. split; [nia|]. split; [nia|]. destruct (Nat.lt_ge_cases ii 64); [left; nia|right; assert (65 <= ii) by lia; nia].
  - intros th Hth. apply in_map_iff in Hth as [t [<- _]]. reflexivity.
Qed.

Lemma nth_seq : forall len s j, nth_error (seq s len) j = if j <? len then Some (s + j) else None.
Proof.
  induction len as [|len IH]; intros s [|j]; cbn [seq nth_error]; auto; [rewrite Nat.add_0_r; reflexivity|]. rewrite IH. change (S j <? S len) with (j <? len). destruct (j <? len); [f_equal; lia|reflexivity].
Qed.

Lemma cube_repeats : forall regen x0 T n dim, renews mt_size regen x0 -> shared_loop T n dim ->
  exists sched data, random_cube regen x0 T sched n dim = Ok (float_file n dim data) /\ length data = N.to_nat n * N.to_nat dim /\
    forall j, j < N.to_nat dim -> nth_error data (64 * N.to_nat dim + j) = nth_error data j.
Proof.
  intros regen x0 T n dim HR HS. destruct (shared_start T n dim HS) as [r0 [r1 [ts [E [HC HP]]]]]. pose proof HS as [HT [Hn [Hd H]]]. set (data0 := repeat S754_nan (N.to_nat ((n * dim) mod 4294967296))). assert (L0 : @length f32 data0 = N.to_nat n * N.to_nat dim) by (unfold data0; rewrite repeat_length; now apply start_data).
  set (d := N.to_nat dim) in *. assert (Hin : forall c, In c (seq 0 d ++ seq (64 * d) d) <-> c < d \/ (64 * d <= c < 65 * d)) by (intros c; rewrite in_app_iff, !in_seq; lia).
  destruct (many_two regen x0 cube_value (seq 0 d) (seq (64 * d) d) r0 r1 0 ts data0) as [s [d1 [E1 [L1 [K1 V1]]]]]; auto.
  { now rewrite !seq_length. }
  { apply NoDup_nth with (d := 0). intros i j Hi Hj. rewrite app_length, !seq_length in Hi, Hj. intros Q.
    assert (F : forall i, i < d + d -> nth i (seq 0 d ++ seq (64 * d) d) 0 = if i <? d then i else 63 * d + i).
    { intros x Hx. destruct (Nat.ltb_spec x d); [rewrite app_nth1 by (now rewrite seq_length); now rewrite seq_nth|]. rewrite app_nth2 by (rewrite seq_length; lia). rewrite seq_length, seq_nth by lia. lia. }
    rewrite !F in Q by lia. destruct (Nat.ltb_spec i d), (Nat.ltb_spec j d); lia. }
  { intros c Hc. apply Hin in Hc. rewrite L0. nia. }
  destruct (finish_from regen x0 cube_value (length (mkT r0 Check :: mkT r1 Check :: ts)) 0 (0 + length (seq 0 d)) (mkT r0 Check :: mkT r1 Check :: ts) d1 HR eq_refl) as [s2 [w [E2 [F2 [L2 K2]]]]].
  { intros i th Hi. apply nth_error_In in Hi. rewrite L1, L0. destruct Hi as [<-|[<-|Hi]]; [split; [reflexivity|]|split; [reflexivity|]|split; [now apply HP|]]; intros c Hc; apply HC; [left; apply in_app_iff; now left|left; apply in_app_iff; now right|right; eauto]. }
  { intros; lia. }
  exists (s ++ s2), (w_data w). split; [|split].
  - unfold random_cube. rewrite E. fold data0. change (mkMt x0 mt_size) with (st regen x0 0). rewrite run_app, E1. cbn [bind]. rewrite E2. cbn [bind]. rewrite F2. apply save_bin_full. fold d. congruence.
  - congruence.
  - intros j Hj. assert (N0 : forall c, c < d \/ 64 * d <= c < 65 * d -> forall th, In th (mkT r0 Check :: mkT r1 Check :: ts) -> ~ In c (t_cells th)).
    { intros c Hc th Hth Q. assert (B : d <= c /\ (c < 64 * d \/ 65 * d <= c)). { apply HC. destruct Hth as [<-|[<-|Hth]]; [left; apply in_app_iff; now left|left; apply in_app_iff; now right|right; eauto]. } lia. }
    rewrite !K2 by (apply N0; lia). destruct (V1 j j (64 * d + j)) as [A B]; [rewrite nth_seq; apply Nat.ltb_lt in Hj; now rewrite Hj|rewrite nth_seq; apply Nat.ltb_lt in Hj; now rewrite Hj|]. congruence.
Qed.

(** ** Past the end of the words *)
Lemma cube_out_of_bounds : forall regen x0 T n dim, renews mt_size regen x0 -> shared_loop T n dim -> (10 <= dim)%N -> exists sched, random_cube regen x0 T sched n dim = UB.
Proof.
  intros regen x0 T n dim HR HS H10. destruct (shared_start T n dim HS) as [r0 [r1 [ts [E [HC HP]]]]]. pose proof HS as [HT [Hn [Hd H]]].
  set (cs := thread_cells T n dim 0).
  assert (Lc : 624 <= length cs).
  { unfold cs, thread_cells. rewrite (flat_map_concat_map (row_cells dim)). assert (G : forall l : list (list nat), (forall r : list nat, In r l -> 10 <= length r) -> 10 * length l <= length (concat l)).
    { clear. induction l as [|r l IH]; intros G; [apply Nat.le_0_l|]. cbn [concat length]. rewrite app_length. specialize (IH (fun x Hx => G x (or_intror Hx))). specialize (G r (or_introl eq_refl)). lia. }
    assert (R : 64 <= length (rows_of T n 0)).
    { unfold rows_of. replace (N.to_nat n) with (64 + (N.to_nat n - 64)) by lia. rewrite seq_app, filter_app, app_length. rewrite (filter_yes _ (seq 0 64)); [rewrite seq_length; lia|]. intros x Hx. apply in_seq in Hx. rewrite Nat.div_small by lia. rewrite Nat.mod_0_l by lia. reflexivity. }
    specialize (G (map (row_cells dim) (rows_of T n 0))). rewrite map_length in G. eapply Nat.le_trans; [|apply G].
    - transitivity (10 * 64); [apply Nat.leb_le; reflexivity|]. apply Nat.mul_le_mono_l, R.
    - intros r Hr. apply in_map_iff in Hr as [ii [<- _]]. unfold row_cells. rewrite map_length, seq_length. lia. }
  assert (E0 : seq 0 (N.to_nat dim) ++ r0 = cs). { unfold cs. destruct T as [|T]; [lia|]. cbn [seq map] in E. injection E as E _. symmetry. exact E. }
  rewrite E0 in E. assert (Sp : exists a c b, cs = a ++ c :: b /\ length a = 623).
  { exists (firstn 623 cs). destruct (skipn 623 cs) as [|c b] eqn:Q; [apply (f_equal (@length nat)) in Q; rewrite skipn_length in Q; cbn [length] in Q; lia|]. exists c, b. split; [rewrite <- Q; symmetry; apply firstn_skipn|]. rewrite firstn_length. lia. }
  destruct Sp as [a [c [b [Ec La]]]]. rewrite Ec in E.
  set (e := seq (64 * N.to_nat dim) (N.to_nat dim) ++ r1) in E. assert (Ee : exists x y, e = x :: y). { unfold e. destruct (N.to_nat dim) as [|dd] eqn:Q; [lia|]. cbn [seq app]. eauto. } destruct Ee as [x [y Ee]]. rewrite Ee in E.
  set (data0 := repeat S754_nan (N.to_nat ((n * dim) mod 4294967296))). assert (L0 : @length f32 data0 = N.to_nat n * N.to_nat dim) by (unfold data0; rewrite repeat_length; now apply start_data).
  destruct (many_alone regen x0 cube_value 0 a (c :: b) 0 (mkT (a ++ c :: b) Check :: mkT (x :: y) Check :: ts) data0) as [s [d1 [E1 [L1 K1]]]]; auto.
  { intros i Hi. rewrite L0. apply (cells_small T n dim 0 i H). fold cs. rewrite Ec. apply in_app_iff. now left. }
  exists (s ++ [0; 1; 0; 0; 1; 1; 1]). unfold random_cube. rewrite E. fold data0. change (mkMt x0 mt_size) with (st regen x0 0). rewrite run_app, E1. cbn [bind]. rewrite La. cbn [Nat.add]. change (upd (mkT (a ++ c :: b) Check :: mkT (x :: y) Check :: ts) 0 (mkT (c :: b) Check)) with (mkT (c :: b) Check :: mkT (x :: y) Check :: ts).
  assert (D1 : 623 / mt_size = 0) by (apply Nat.div_small; unfold mt_size; lia). assert (M1 : 623 mod mt_size = 623) by (apply Nat.mod_small; unfold mt_size; lia).
  assert (W0 : forall a b x, wr (a :: b :: ts) 0 x = Ok (x :: b :: ts)) by reflexivity. assert (W1 : forall a b x, wr (a :: b :: ts) 1 x = Ok (a :: x :: ts)) by reflexivity.
  assert (P : (mt_size <=? 623 mod mt_size) = false) by (rewrite M1; reflexivity).
  cbn [run_threads]. unfold thread_step at 1. cbn [w_threads w_mt w_data nth_error t_cells t_pc]. rewrite check_st, W0. cbn [bind].
  unfold thread_step at 1. cbn [w_threads w_mt w_data nth_error t_cells t_pc]. change (mt_p (fresh regen x0 623)) with (623 mod mt_size). rewrite P, W1. cbn [bind].
  unfold thread_step at 1. cbn [w_threads w_mt w_data nth_error t_cells t_pc]. change (mt_p (fresh regen x0 623)) with (623 mod mt_size). rewrite M1, W0. cbn [bind].
  unfold thread_step at 1. cbn [w_threads w_mt w_data nth_error t_cells t_pc]. rewrite W0. cbn [bind].
  unfold thread_step at 1. cbn [w_threads w_mt w_data nth_error t_cells t_pc mt_p mt_x]. rewrite W1. cbn [bind].
  unfold thread_step at 1. cbn [w_threads w_mt w_data nth_error t_cells t_pc mt_p mt_x]. rewrite W1. cbn [bind].
  unfold thread_step at 1. cbn [w_threads w_mt w_data nth_error t_cells t_pc mt_p mt_x].
  unfold rd. destruct (nth_error (mt_x (fresh regen x0 623)) 624) eqn:Q; [|reflexivity]. exfalso. assert (B : 624 < length (mt_x (fresh regen x0 623))) by (apply nth_error_Some; congruence). unfold fresh in B. cbn [mt_x] in B. rewrite iter_length in B by auto. unfold mt_size in B. lia.
Qed.

(** ** Products of 2^32 and more *)
Lemma step_length : forall regen dist w t w', thread_step regen dist w t = Ok w' -> length (w_data w') = length (w_data w).
Proof.
  intros regen dist w t w' H. unfold thread_step in H. destruct (nth_error _ t) as [[[|c r] pc]|]; [injection H as <-; reflexivity| |injection H as <-; reflexivity]. cbn [t_cells t_pc] in H.
  destruct pc; repeat (apply bind_ok in H as [? [? H]]); injection H as <-; cbn [w_data]; auto. eapply wr_length; eauto.
Qed.
Lemma run_length : forall regen dist sched w w', run_threads regen dist w sched = Ok w' -> length (w_data w') = length (w_data w).
Proof.
  intros regen dist sched. induction sched as [|t s IH]; intros w w' H; cbn [run_threads] in H; [now injection H as <-|]. apply bind_ok in H as [v [H1 H2]]. rewrite (IH _ _ H2). eapply step_length; eauto.
Qed.
Lemma run_outcome : forall regen dist sched w, (exists w', run_threads regen dist w sched = Ok w') \/ run_threads regen dist w sched = UB.
Proof.
  intros regen dist sched. induction sched as [|t s IH]; intros w; cbn [run_threads]; [eauto|]. assert (C : (exists w', thread_step regen dist w t = Ok w') \/ thread_step regen dist w t = UB).
  { unfold thread_step. destruct (nth_error _ t) as [[[|c r] pc]|]; cbn [t_cells t_pc]; [eauto| |eauto].
    assert (W : forall th, (exists ts, wr (w_threads w) t th = Ok ts) \/ wr (w_threads w) t th = UB) by (intros th; unfold wr; destruct (t <? _); eauto).
    destruct pc as [| |q|q].
    - destruct (W (mkT (c :: r) Load)) as [[ts ->]| ->]; cbn [bind]; eauto.
    - destruct (W (mkT (c :: r) (Store (mt_p (w_mt w))))) as [[ts ->]| ->]; cbn [bind]; eauto.
    - destruct (W (mkT (c :: r) (Use q))) as [[ts ->]| ->]; cbn [bind]; eauto.
    - unfold rd. destruct (nth_error (mt_x (w_mt w)) q); cbn [bind]; auto. unfold wr at 1 3. destruct (c <? _); cbn [bind]; auto. destruct (W (mkT r Check)) as [[ts ->]| ->]; cbn [bind]; eauto. }
  destruct C as [[w' ->]| ->]; cbn [bind]; auto.
Qed.
Lemma cube_overflow : forall regen x0 T sched n dim, (2 ^ 32 <= n * dim)%N -> random_cube regen x0 T sched n dim = UB \/ random_cube regen x0 T sched n dim = Fuel.
Proof.
  intros regen x0 T sched n dim H. unfold random_cube. set (w0 := mkW _ _ _). destruct (run_outcome regen cube_value sched w0) as [[w E]|E]; rewrite E; cbn [bind]; [|now left]. destruct (finished w); [left|now right]. apply run_length in E. unfold save_bin. rewrite map_length, E. unfold w0. cbn [w_data].
  rewrite repeat_length, N2Nat.id. change (2 ^ 32)%N with 4294967296%N in H. pose proof (N.mod_lt (n * dim) 4294967296 ltac:(lia)) as B. destruct (N.ltb_spec ((n * dim) mod 4294967296) (n * dim)); [reflexivity|lia].
Qed.
