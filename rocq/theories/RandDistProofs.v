(** The parallel loop of the random data generator. *)
From Coq Require Import NArith ZArith Lia List Arith Bool Floats.SpecFloat.
From Verif Require Import Base Bytes Float32 FloatBits StreamModel BinModel BinProofs CmdModel RandModel RandDistModel RandDistSpec.
Import ListNotations.
Local Open Scope nat_scope.

Definition upd {A : Type} (l : list A) (i : nat) (x : A) : list A := firstn i l ++ x :: skipn (S i) l.
Lemma wr_upd : forall (A : Type) (l : list A) i x, i < length l -> wr l i x = Ok (upd l i x).
Proof. intros. now apply wr_ok. Qed.
Lemma upd_length : forall (A : Type) (l : list A) i x, i < length l -> length (upd l i x) = length l.
Proof. intros A l i x H. eapply wr_length, wr_upd, H. Qed.
Lemma upd_nth : forall (A : Type) (l : list A) i x j, i < length l -> nth_error (upd l i x) j = if Nat.eq_dec j i then Some x else nth_error l j.
Proof. intros A l i x j H. destruct (wr_nth A l i x H) as [b [E [_ Hb]]]. rewrite wr_upd in E by auto. injection E as <-. apply Hb. Qed.
Lemma upd_same : forall (A : Type) (l : list A) i x, i < length l -> nth_error (upd l i x) i = Some x.
Proof. intros. rewrite upd_nth by auto. destruct (Nat.eq_dec i i); congruence. Qed.
Lemma upd_other : forall (A : Type) (l : list A) i x j, i < length l -> j <> i -> nth_error (upd l i x) j = nth_error l j.
Proof. intros. rewrite upd_nth by auto. destruct (Nat.eq_dec j i); congruence. Qed.
Lemma ext_nth_error : forall (A : Type) (a b : list A), (forall i, nth_error a i = nth_error b i) -> a = b.
Proof.
  intros A a. induction a as [|x a IH]; intros [|y b] H; auto; [discriminate (H 0)|discriminate (H 0)|]. f_equal; [now injection (H 0)|]. apply IH. intros i. apply (H (S i)).
Qed.
Lemma upd_twice : forall (A : Type) (l : list A) i x y, i < length l -> upd (upd l i x) i y = upd l i y.
Proof. intros A l i x y H. apply ext_nth_error. intros j. rewrite !upd_nth; auto; [|rewrite upd_length; auto]. destruct (Nat.eq_dec j i); auto. Qed.

(** ** The generator *)
Definition st (regen : list N -> list N) (x0 : list N) (k : nat) : mt :=
  match k with 0 => mkMt x0 mt_size | S j => mkMt (Nat.iter (S (j / mt_size)) regen x0) (S (j mod mt_size)) end.
Definition fresh (regen : list N -> list N) (x0 : list N) (k : nat) : mt := mkMt (Nat.iter (S (k / mt_size)) regen x0) (k mod mt_size).

Lemma mod_step : forall m j, 0 < m -> (S (j mod m) < m /\ S j / m = j / m /\ S j mod m = S (j mod m)) \/ (S (j mod m) = m /\ S j / m = S (j / m) /\ S j mod m = 0).
Proof.
  intros m j H. pose proof (Nat.div_mod j m ltac:(lia)) as E. pose proof (Nat.mod_upper_bound j m ltac:(lia)) as B. destruct (Nat.eq_dec (S (j mod m)) m) as [Q|Q]; [right|left].
  - split; [exact Q|]. assert (E2 : S j = m * S (j / m) + 0) by nia. split; [symmetry; apply (Nat.div_unique _ _ _ 0); lia|symmetry; apply (Nat.mod_unique _ _ (S (j / m))); lia].
  - split; [lia|]. assert (E2 : S j = m * (j / m) + S (j mod m)) by nia. split; [symmetry; apply (Nat.div_unique _ _ _ (S (j mod m))); lia|symmetry; apply (Nat.mod_unique _ _ (j / m)); lia].
Qed.
Lemma size_pos : 0 < mt_size.
Proof. unfold mt_size. lia. Qed.

Lemma check_st : forall regen x0 k, (if mt_size <=? mt_p (st regen x0 k) then mkMt (regen (mt_x (st regen x0 k))) 0 else st regen x0 k) = fresh regen x0 k.
Proof.
  intros regen x0 [|j]; unfold st, fresh; cbn [mt_p mt_x].
  - rewrite Nat.leb_refl. rewrite Nat.div_0_l, Nat.mod_0_l by (pose proof size_pos; lia). reflexivity.
  - destruct (mod_step mt_size j size_pos) as [[A [B C]]|[A [B C]]]; rewrite B, C; [rewrite leb_correct_conv by lia; reflexivity|]. rewrite A, Nat.leb_refl. reflexivity.
Qed.
Lemma fresh_next : forall regen x0 k, mkMt (mt_x (fresh regen x0 k)) (S (mt_p (fresh regen x0 k))) = st regen x0 (S k).
Proof. reflexivity. Qed.
Lemma iter_length : forall regen x0 j, renews mt_size regen x0 -> length (Nat.iter j regen x0) = mt_size.
Proof. intros regen x0 j [H0 H]. induction j as [|j IH]; cbn [Nat.iter nat_rect]; auto. now apply H. Qed.
Lemma fresh_read : forall regen x0 k, renews mt_size regen x0 ->
  rd (mt_x (fresh regen x0 k)) (k mod mt_size) = Ok (kth_word mt_size regen x0 k).
Proof.
  intros regen x0 k H. unfold fresh, kth_word. cbn [mt_x]. unfold rd. rewrite nth_error_nth' with (d := 0%N); [reflexivity|]. rewrite iter_length by auto. apply Nat.mod_upper_bound. pose proof size_pos. lia.
Qed.

(** ** One thread at work *)
Definition mt_at (regen : list N -> list N) (x0 : list N) (k : nat) (pc : draw_pc) : mt :=
  match pc with Check => st regen x0 k | Load | Store _ => fresh regen x0 k | Use _ => st regen x0 (S k) end.
Definition pc_ok (k : nat) (pc : draw_pc) : Prop := match pc with Check | Load => True | Store q | Use q => q = k mod mt_size end.
Definition data_at (regen : list N -> list N) (x0 : list N) (dist : N -> f32) (m k : nat) : list f32 := map (fun i => dist (kth_word mt_size regen x0 i)) (seq 0 k) ++ repeat S754_nan (m - k).
Definition solo (regen : list N -> list N) (x0 : list N) (dist : N -> f32) (m : nat) (w : world) : Prop :=
  exists k pc idle, k <= m /\ (k = m -> pc = Check) /\ pc_ok k pc /\ w = mkW (mt_at regen x0 k pc) (mkT (seq k (m - k)) pc :: idle) (data_at regen x0 dist m k) /\ (forall th, In th idle -> t_cells th = []).

Lemma data_next : forall regen x0 dist m k, k < m -> wr (data_at regen x0 dist m k) k (dist (kth_word mt_size regen x0 k)) = Ok (data_at regen x0 dist m (S k)).
Proof.
  intros regen x0 dist m k H. unfold data_at. set (f := fun i => _). assert (L : length (map f (seq 0 k)) = k) by now rewrite map_length, seq_length.
  rewrite wr_ok by (rewrite app_length, L, repeat_length; lia). f_equal. rewrite firstn_app, L, Nat.sub_diag, firstn_O, app_nil_r, firstn_all2 by lia. rewrite skipn_app, L, skipn_all2 by lia.
  replace (S k - k) with 1 by lia. replace (m - k) with (S (m - S k)) by lia. cbn [repeat skipn app]. rewrite seq_S, map_app. cbn [map]. rewrite <- app_assoc. reflexivity.
Qed.

Lemma solo_step : forall regen x0 dist m w t, renews mt_size regen x0 ->
  solo regen x0 dist m w -> exists w', thread_step regen dist w t = Ok w' /\ solo regen x0 dist m w'.
Proof.
  intros regen x0 dist m w t HR [k [pc [idle [Hk [Hm [Hp [-> HI]]]]]]]. unfold thread_step. cbn [w_threads]. destruct t as [|t].
  2: { cbn [nth_error]. assert (S0 : solo regen x0 dist m (mkW (mt_at regen x0 k pc) (mkT (seq k (m - k)) pc :: idle) (data_at regen x0 dist m k))) by (exists k, pc, idle; auto).
       destruct (nth_error idle t) as [th|] eqn:E; [|eauto]. apply nth_error_In, HI in E. rewrite E. eauto. }
  cbn [nth_error t_cells t_pc]. destruct (Nat.eq_dec k m) as [->|Hne].
  { rewrite Nat.sub_diag. cbn [seq]. eexists. split; [reflexivity|]. exists m, pc, idle. rewrite Nat.sub_diag. auto. }
  assert (E : seq k (m - k) = k :: seq (S k) (m - S k)) by (replace (m - k) with (S (m - S k)) by lia; reflexivity). rewrite E.
  destruct pc as [| |q|q]; cbn [mt_at w_mt w_threads w_data pc_ok] in *.
  - rewrite check_st. cbn [wr]. unfold wr. cbn [Nat.ltb Nat.leb length firstn skipn app bind]. eexists. split; [reflexivity|]. exists k, Load, idle. rewrite E. repeat split; auto. intros ->. lia.
  - unfold wr. cbn [Nat.ltb Nat.leb length firstn skipn app bind]. eexists. split; [reflexivity|]. exists k, (Store (k mod mt_size)), idle. rewrite E. repeat split; auto. intros ->. lia.
  - subst q. unfold wr. cbn [Nat.ltb Nat.leb length firstn skipn app bind]. eexists. split; [reflexivity|]. exists k, (Use (k mod mt_size)), idle. rewrite E. repeat split; auto. intros ->. lia.
  - subst q. change (mt_x (st regen x0 (S k))) with (mt_x (fresh regen x0 k)). rewrite fresh_read by auto. cbn [bind]. rewrite data_next by lia. cbn [bind]. unfold wr. cbn [Nat.ltb Nat.leb length firstn skipn app bind].
    eexists. split; [reflexivity|]. exists (S k), Check, idle. repeat split; auto. lia.
Qed.

Lemma solo_run : forall regen x0 dist m sched w, renews mt_size regen x0 -> solo regen x0 dist m w -> exists w', run_threads regen dist w sched = Ok w' /\ solo regen x0 dist m w'.
Proof.
  intros regen x0 dist m sched. induction sched as [|t sched IH]; intros w HR HS; cbn [run_threads]; [eauto|]. destruct (solo_step regen x0 dist m w t HR HS) as [w' [-> HS']]. cbn [bind]. now apply IH.
Qed.

(** ** Who fills what *)
Lemma small_cell : forall n dim ii jj, (n * dim < 2 ^ 32)%N -> (N.of_nat ii < n)%N -> (N.of_nat jj < dim)%N -> N.to_nat ((N.of_nat ii * dim + N.of_nat jj) mod 4294967296) = ii * N.to_nat dim + jj.
Proof. intros n dim ii jj H Hi Hj. change (2 ^ 32)%N with 4294967296%N in H. rewrite N.mod_small by nia. lia. Qed.
Lemma seq_shift_map : forall len a s, seq (a + s) len = map (fun j => a + j) (seq s len).
Proof. induction len as [|len IH]; intros a s; cbn [seq map]; [reflexivity|]. f_equal. rewrite <- Nat.add_succ_r. apply IH. Qed.
Lemma row_cells_seq : forall n dim ii, (n * dim < 2 ^ 32)%N -> (N.of_nat ii < n)%N -> row_cells dim ii = seq (ii * N.to_nat dim) (N.to_nat dim).
Proof.
  intros n dim ii H Hi. unfold row_cells. rewrite <- (Nat.add_0_r (ii * N.to_nat dim)). rewrite seq_shift_map. apply map_ext_in. intros jj Hj. apply in_seq in Hj. eapply small_cell; eauto. lia.
Qed.
Lemma rows_concat : forall k s dim, flat_map (fun ii => seq (ii * dim) dim) (seq s k) = seq (s * dim) (k * dim).
Proof.
  induction k as [|k IH]; intros s dim; cbn [seq flat_map]; [now rewrite Nat.mul_0_l|]. rewrite IH. cbn [Nat.mul]. rewrite seq_app. f_equal. f_equal. lia.
Qed.
Lemma flat_map_ext_in : forall (A B : Type) (f g : A -> list B) l, (forall x, In x l -> f x = g x) -> flat_map f l = flat_map g l.
Proof. intros A B f g l. induction l as [|a l IH]; intros H; cbn [flat_map]; [reflexivity|]. rewrite (H a), IH; auto; [|now left]. intros x Hx. apply H. now right. Qed.
Lemma filter_yes : forall (f : nat -> bool) l, (forall x, In x l -> f x = true) -> filter f l = l.
Proof. intros f l. induction l as [|a l IH]; intros H; cbn [filter]; [reflexivity|]. rewrite (H a (or_introl eq_refl)), IH; auto. intros x Hx. apply H. now right. Qed.
Lemma filter_no : forall (f : nat -> bool) l, (forall x, In x l -> f x = false) -> filter f l = [].
Proof. intros f l. induction l as [|a l IH]; intros H; cbn [filter]; [reflexivity|]. rewrite (H a (or_introl eq_refl)), IH; auto. intros x Hx. apply H. now right. Qed.

Lemma owner_alone : forall T n ii, alone T n -> ii < N.to_nat n -> (ii / 64) mod T = 0.
Proof.
  intros T n ii [->|[HT Hn]] Hi; [apply Nat.mod_1_r|]. assert (Hd : ii / 64 = 0) by (apply Nat.div_small; lia). rewrite Hd. apply Nat.mod_0_l. lia.
Qed.
Lemma alone_cells : forall T n dim, alone T n -> (n * dim < 2 ^ 32)%N ->
  map (fun t => mkT (thread_cells T n dim t) Check) (seq 0 T) = mkT (seq 0 (N.to_nat n * N.to_nat dim)) Check :: map (fun t => mkT [] Check) (seq 1 (T - 1)).
Proof.
  intros T n dim A H. assert (HT : 1 <= T) by (destruct A as [->|[? _]]; lia). replace (seq 0 T) with (0 :: seq 1 (T - 1)) by (destruct T; [lia|]; cbn; now rewrite Nat.sub_0_r). cbn [map]. f_equal.
  - f_equal. unfold thread_cells, rows_of. rewrite filter_yes by (intros x Hx; apply in_seq in Hx; rewrite (owner_alone T n x A) by lia; reflexivity).
    rewrite <- (Nat.mul_0_l (N.to_nat dim)) at 2. rewrite <- rows_concat. apply flat_map_ext_in. intros x Hx. apply in_seq in Hx. eapply row_cells_seq; eauto. lia.
  - apply map_ext_in. intros t Ht. apply in_seq in Ht. f_equal. unfold thread_cells, rows_of. rewrite filter_no; [reflexivity|]. intros x Hx. apply in_seq in Hx. rewrite (owner_alone T n x A) by lia. apply Nat.eqb_neq. lia.
Qed.

Lemma save_bin_full : forall data n dim, length data = N.to_nat n * N.to_nat dim -> save_bin 4 (map bits_of_f32 data) n dim = Ok (float_file n dim data).
Proof. intros data n dim H. unfold float_file. apply save_bin_ok. rewrite map_length, H. lia. Qed.

Definition start (T : nat) (x0 : list N) (n dim : N) : world := mkW (mkMt x0 mt_size) (map (fun t => mkT (thread_cells T n dim t) Check) (seq 0 T)) (repeat S754_nan (N.to_nat ((n * dim) mod 4294967296))).
Lemma start_solo : forall regen x0 dist T n dim, alone T n -> (n * dim < 2 ^ 32)%N -> solo regen x0 dist (N.to_nat n * N.to_nat dim) (start T x0 n dim).
Proof.
  intros regen x0 dist T n dim A H. exists 0, Check, (map (fun t => mkT [] Check) (seq 1 (T - 1))). split; [lia|]. split; [reflexivity|]. split; [exact I|]. split.
  - unfold start. rewrite alone_cells by auto. unfold data_at. cbn [seq map app mt_at st]. rewrite Nat.sub_0_r. f_equal. change (2 ^ 32)%N with 4294967296%N in H. rewrite N.mod_small by exact H. f_equal. lia.
  - intros th Hth. apply in_map_iff in Hth as [t [<- _]]. reflexivity.
Qed.

(** Any interleaving that ends. *)
Lemma cube_alone : forall regen x0 T sched n dim, renews mt_size regen x0 -> alone T n -> (n * dim < 2 ^ 32)%N ->
  random_cube regen x0 T sched n dim = Fuel \/ random_cube regen x0 T sched n dim = Ok (float_file n dim (map (fun i => cube_value (kth_word mt_size regen x0 i)) (seq 0 (N.to_nat n * N.to_nat dim)))).
Proof.
  intros regen x0 T sched n dim HR A H. unfold random_cube. fold (start T x0 n dim). destruct (solo_run regen x0 cube_value (N.to_nat n * N.to_nat dim) sched _ HR (start_solo regen x0 cube_value T n dim A H)) as [w [-> [k [pc [idle [Hk [Hm [Hp [-> HI]]]]]]]]].
  cbn [bind]. destruct (finished _) eqn:F; [right|left; reflexivity]. unfold finished in F. cbn [w_threads forallb t_cells] in F. apply andb_prop in F as [F _].
  assert (Ek : k = N.to_nat n * N.to_nat dim). { destruct (N.to_nat n * N.to_nat dim - k) eqn:Q; [lia|discriminate F]. } subst k. cbn [w_data]. unfold data_at. rewrite Nat.sub_diag. cbn [repeat]. rewrite app_nil_r.
  apply save_bin_full. now rewrite map_length, seq_length.
Qed.

(** ** One draw of one thread, undisturbed *)
Lemma run_app : forall regen dist a b w, run_threads regen dist w (a ++ b) = do w' <- run_threads regen dist w a; run_threads regen dist w' b.
Proof. intros regen dist a. induction a as [|t a IH]; intros b w; cbn [app run_threads bind]; [reflexivity|]. destruct (thread_step regen dist w t); cbn [bind]; auto. Qed.

Lemma draw_alone : forall regen x0 dist k t c rest ts data, renews mt_size regen x0 -> nth_error ts t = Some (mkT (c :: rest) Check) -> c < length data ->
  run_threads regen dist (mkW (st regen x0 k) ts data) [t; t; t; t] = Ok (mkW (st regen x0 (S k)) (upd ts t (mkT rest Check)) (upd data c (dist (kth_word mt_size regen x0 k)))).
Proof.
  intros regen x0 dist k t c rest ts data HR Ht Hc. assert (Lt : t < length ts) by (apply nth_error_Some; congruence).
  assert (U : forall x y, nth_error (upd ts t x) t = Some x /\ wr (upd ts t x) t y = Ok (upd ts t y)).
  { intros x y. split; [now apply upd_same|]. rewrite wr_upd by (rewrite upd_length; auto). now rewrite upd_twice. }
  cbn [run_threads]. unfold thread_step at 1. cbn [w_threads w_mt w_data]. rewrite Ht. cbn [t_cells t_pc]. rewrite check_st, wr_upd by auto. cbn [bind].
  unfold thread_step at 1. cbn [w_threads w_mt w_data]. rewrite (proj1 (U _ (mkT [] Check))). cbn [t_cells t_pc]. rewrite (proj2 (U _ _)). cbn [bind mt_p fresh].
  unfold thread_step at 1. cbn [w_threads w_mt w_data]. rewrite (proj1 (U _ (mkT [] Check))). cbn [t_cells t_pc]. rewrite (proj2 (U _ _)). cbn [bind]. change (mkMt (mt_x (fresh regen x0 k)) (S (k mod mt_size))) with (st regen x0 (S k)).
  unfold thread_step at 1. cbn [w_threads w_mt w_data]. rewrite (proj1 (U _ (mkT [] Check))). cbn [t_cells t_pc]. change (mt_x (st regen x0 (S k))) with (mt_x (fresh regen x0 k)). rewrite fresh_read by auto. cbn [bind]. rewrite wr_upd by auto. cbn [bind].
  rewrite (proj2 (U _ _)). reflexivity.
Qed.

Lemma many_alone : forall regen x0 dist t cells rest k ts data, renews mt_size regen x0 -> nth_error ts t = Some (mkT (cells ++ rest) Check) -> (forall c, In c cells -> c < length data) ->
  exists sched data', run_threads regen dist (mkW (st regen x0 k) ts data) sched = Ok (mkW (st regen x0 (k + length cells)) (upd ts t (mkT rest Check)) data') /\ length data' = length data /\
    (forall c, ~ In c cells -> nth_error data' c = nth_error data c).
Proof.
  intros regen x0 dist t cells rest. induction cells as [|c cells IH]; intros k ts data HR Ht Hc; assert (Lt : t < length ts) by (apply nth_error_Some; congruence).
  - exists [], data. cbn [run_threads length app] in *. rewrite Nat.add_0_r. split; [|auto]. f_equal. f_equal. apply ext_nth_error. intros j. rewrite upd_nth by auto. destruct (Nat.eq_dec j t) as [->|]; auto.
  - cbn [app] in Ht. pose proof (draw_alone regen x0 dist k t c (cells ++ rest) ts data HR Ht (Hc c (or_introl eq_refl))) as E.
    destruct (IH (S k) (upd ts t (mkT (cells ++ rest) Check)) (upd data c (dist (kth_word mt_size regen x0 k)))) as [s [d' [E' [L K]]]]; auto.
    + now apply upd_same.
    + intros e He. rewrite upd_length by (apply Hc; now left). apply Hc. now right.
    + exists ([t; t; t; t] ++ s), d'. rewrite run_app, E. cbn [bind]. rewrite E'. rewrite upd_twice by auto. cbn [length]. rewrite Nat.add_succ_r. split; [reflexivity|]. rewrite upd_length in L by (apply Hc; now left). split; [exact L|].
      intros e He. rewrite K by (intro Q; apply He; now right). apply upd_other; [apply Hc; now left|]. intros ->. apply He. now left.
Qed.

(** Threads between two draws can finish one after the other. *)
Lemma finish_from : forall regen x0 dist n j k ts data, renews mt_size regen x0 -> j + n = length ts -> (forall i th, nth_error ts i = Some th -> t_pc th = Check /\ (forall c, In c (t_cells th) -> c < length data)) -> (forall i th, nth_error ts i = Some th -> i < j -> t_cells th = []) ->
  exists sched w', run_threads regen dist (mkW (st regen x0 k) ts data) sched = Ok w' /\ finished w' = true /\ length (w_data w') = length data /\ (forall c, (forall th, In th ts -> ~ In c (t_cells th)) -> nth_error (w_data w') c = nth_error data c).
Proof.
  intros regen x0 dist n. induction n as [|n IH]; intros j k ts data HR Hn HA HJ.
  - exists []. eexists. split; [reflexivity|]. cbn [w_data]. split; [|auto]. unfold finished. apply forallb_forall. intros th Hth. cbn [w_threads] in Hth. apply In_nth_error in Hth as [i Hi]. rewrite (HJ i th Hi); auto. assert (i < length ts) by (apply nth_error_Some; congruence). lia.
  - destruct (nth_error ts j) as [[cells pc]|] eqn:Ej; [|apply nth_error_None in Ej; lia]. destruct (HA j _ Ej) as [Hp Hc]. cbn [t_pc t_cells] in *. subst pc. assert (Lj : j < length ts) by lia.
    destruct (many_alone regen x0 dist j cells [] k ts data) as [s [d' [E [L K]]]]; auto; [now rewrite app_nil_r|].
    destruct (IH (S j) (k + length cells) (upd ts j (mkT [] Check)) d') as [s' [w' [E' [F [L' K']]]]]; auto.
    + rewrite upd_length by auto. lia.
    + intros i th Hi. rewrite upd_nth in Hi by auto. rewrite L. destruct (Nat.eq_dec i j) as [->|]; [injection Hi as <-; split; [reflexivity|intros c []]|eauto].
    + intros i th Hi Hlt. rewrite upd_nth in Hi by auto. destruct (Nat.eq_dec i j) as [->|]; [injection Hi as <-; reflexivity|]. apply (HJ i th Hi). lia.
    + exists (s ++ s'), w'. rewrite run_app, E. cbn [bind]. rewrite E'. split; [reflexivity|]. split; [exact F|]. split; [congruence|]. intros c Hc'. rewrite K'.
      * apply K. apply (Hc' _ (nth_error_In _ _ Ej)).
      * intros th Hth. apply In_nth_error in Hth as [i Hi]. rewrite upd_nth in Hi by auto. destruct (Nat.eq_dec i j); [injection Hi as <-; intros []|]. apply Hc'. eapply nth_error_In, Hi.
Qed.

(** ** Two threads side by side *)
Lemma draw_two : forall regen x0 dist k c r0 e r1 ts data, renews mt_size regen x0 -> c < length data -> e < length data ->
  run_threads regen dist (mkW (st regen x0 k) (mkT (c :: r0) Check :: mkT (e :: r1) Check :: ts) data) [0; 1; 0; 1; 0; 1; 0; 1] =
  Ok (mkW (st regen x0 (S k)) (mkT r0 Check :: mkT r1 Check :: ts) (upd (upd data c (dist (kth_word mt_size regen x0 k))) e (dist (kth_word mt_size regen x0 k)))).
Proof.
  intros regen x0 dist k c r0 e r1 ts data HR Hc He. assert (P : (mt_size <=? k mod mt_size) = false) by (apply leb_correct_conv, Nat.mod_upper_bound; pose proof size_pos; lia).
  assert (W0 : forall a b x, wr (a :: b :: ts) 0 x = Ok (x :: b :: ts)) by reflexivity. assert (W1 : forall a b x, wr (a :: b :: ts) 1 x = Ok (a :: x :: ts)) by reflexivity.
  cbn [run_threads]. do 8 (unfold thread_step at 1; cbn [w_threads w_mt w_data nth_error t_cells t_pc]; rewrite ?check_st; try (change (mt_p (fresh regen x0 k)) with (k mod mt_size); rewrite ?P);
    try (change (mkMt (mt_x (fresh regen x0 k)) (S (k mod mt_size))) with (st regen x0 (S k)); change (mt_x (st regen x0 (S k))) with (mt_x (fresh regen x0 k)); change (mkMt (mt_x (fresh regen x0 k)) (S (k mod mt_size))) with (st regen x0 (S k)));
    rewrite ?fresh_read by auto; cbn [bind]; try (rewrite wr_upd with (l := data) by auto); try (rewrite wr_upd with (l := upd data _ _) by (rewrite upd_length; auto)); cbn [bind]; rewrite ?W0, ?W1; cbn [bind]).
  reflexivity.
Qed.

Lemma many_two : forall regen x0 dist cs0 cs1 r0 r1 k ts data, renews mt_size regen x0 -> length cs0 = length cs1 -> NoDup (cs0 ++ cs1) -> (forall c, In c (cs0 ++ cs1) -> c < length data) ->
  exists sched data', run_threads regen dist (mkW (st regen x0 k) (mkT (cs0 ++ r0) Check :: mkT (cs1 ++ r1) Check :: ts) data) sched = Ok (mkW (st regen x0 (k + length cs0)) (mkT r0 Check :: mkT r1 Check :: ts) data') /\ length data' = length data /\
    (forall c, ~ In c (cs0 ++ cs1) -> nth_error data' c = nth_error data c) /\
    (forall j a b, nth_error cs0 j = Some a -> nth_error cs1 j = Some b -> nth_error data' a = Some (dist (kth_word mt_size regen x0 (k + j))) /\ nth_error data' b = Some (dist (kth_word mt_size regen x0 (k + j)))).
Proof.
  intros regen x0 dist cs0. induction cs0 as [|c cs0 IH]; intros [|e cs1] r0 r1 k ts data HR HL ND HB; try discriminate HL.
  - exists [], data. cbn [app length run_threads]. rewrite Nat.add_0_r. split; [reflexivity|]. split; [reflexivity|]. split; [auto|]. intros [|j] a b Q; discriminate Q.
  - assert (Hc : c < length data) by (apply HB; now left). assert (He : e < length data) by (apply HB, in_app_iff; right; now left). injection HL as HL.
    assert (Dce : c <> e /\ ~ In c (cs0 ++ cs1) /\ ~ In e (cs0 ++ cs1) /\ NoDup (cs0 ++ cs1)).
    { cbn [app] in ND. inversion ND as [|? ? N1 N2]; subst. apply NoDup_remove in N2 as [N2 N3]. split; [intros ->; apply N1, in_app_iff; right; now left|]. split; [intro Q; apply N1; apply in_app_iff; apply in_app_iff in Q; cbn; tauto|]. auto. }
    destruct Dce as [D1 [D2 [D3 D4]]]. set (v := dist (kth_word mt_size regen x0 k)). assert (Lu : length (upd (upd data c v) e v) = length data) by (rewrite !upd_length; rewrite ?upd_length; auto).
    destruct (IH cs1 r0 r1 (S k) ts (upd (upd data c v) e v) HR HL D4) as [s [d' [E [L [K V]]]]].
    { intros x Hx. rewrite Lu. apply HB. apply in_app_iff. apply in_app_iff in Hx. cbn. tauto. }
    exists ([0; 1; 0; 1; 0; 1; 0; 1] ++ s), d'. rewrite run_app. cbn [app]. rewrite draw_two by auto. cbn [bind]. fold v. rewrite E. cbn [length]. rewrite Nat.add_succ_r. split; [reflexivity|]. split; [congruence|]. split.
    + intros x Hx. rewrite K by (intro Q; apply Hx; right; apply in_app_iff; apply in_app_iff in Q; cbn; tauto). rewrite upd_other, upd_other; auto; [intros ->; apply Hx; now left|rewrite upd_length; auto|intros ->; apply Hx; right; apply in_app_iff; right; now left].
    + intros [|j] a b Ha Hb; cbn [nth_error] in Ha, Hb.
      * injection Ha as <-. injection Hb as <-. rewrite Nat.add_0_r. rewrite !K by auto. split; [rewrite upd_other; auto; [now apply upd_same|rewrite upd_length; auto]|apply upd_same; rewrite upd_length; auto].
      * rewrite Nat.add_succ_r. apply (V j a b Ha Hb).
Qed.
