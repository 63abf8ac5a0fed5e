(** One row of the table of work: the tools. *)
From Coq Require Import ZArith NArith Reals Lra Lia List Arith Bool Permutation Floats.SpecFloat.
From Flocq Require Import Core.
From Verif Require Import Base Float32 DistSpec DistModel LloydModel RealSpec FloatReal RealDistProofs NormModel NormSpec NormProofs FusedModel StatsModel StatsSpec StatsProofs StatsProofs4
  PoolModel TopKSpec SortSpec GraphSpec GreedyModel SearchModel SearchSpec FilterSpec ClosestModel ClosestSpec FlatModel FlatSpec IvfModel IvfProofs HnswModel HnswSpec LongerSpec WorkModel WorkSpec WorkProofs WorkProofs2 TableModel TableSpec TableProofs.
Import ListNotations.

Definition facts (k : nat) (r : work_row) (stats : list (nat * nat)) : Prop :=
  exists vc vh,
      finite (mean_cmps r) /\ real (mean_cmps r) = mean_value (map snd stats) /\ finite (mean_hops r) /\ real (mean_hops r) = mean_value (map fst stats) /\
      finite (cmps_999 r) /\ real (cmps_999 r) = rnd (INR vc) /\ ranked Nat.ltb (map snd stats) vc k /\
      finite (hops_999 r) /\ real (hops_999 r) = rnd (INR vh) /\ ranked Nat.ltb (map fst stats) vh k.

Definition rank_ok (n k : nat) : Prop := (k < n)%nat /\ (Rabs (INR k - 0.999 * INR n) <= 1 + powerRZ 2 (-21) * INR n)%R /\ to_u64 (fmul p999_f32 (f32_of_Z (Z.of_nat n))) = Ok (N.of_nat k).

Lemma columns_ok : forall n, 1 <= n -> (Z.of_nat n <= 2 ^ 32)%Z -> exists k, rank_ok n k /\
  forall (A : Type) (search : nat -> counters -> res (A * counters)) sortd tc th stats order, sorts_doubles sortd -> length stats = n ->
    Permutation order (seq 0 n) -> Permutation (red_items tc) (seq 0 n) -> Permutation (red_items th) (seq 0 n) ->
    (forall i c, nth_error stats i = Some c -> exists a, search i (Some (0, 0)) = Ok (a, Some c)) ->
    (Z.of_nat (list_sum (map fst stats)) <= 2 ^ 53)%Z -> (Z.of_nat (list_sum (map snd stats)) <= 2 ^ 53)%Z ->
    exists r, work_columns sortd tc th search n order = Ok r /\ facts k r stats.
Proof.
  intros n L1 L2. destruct (row_ok n L1 L2) as [k [Lk [Hk [Tk H]]]]. exists k. split; [split; [exact Lk|split; assumption]|].
  intros A search sortd tc th stats order S Ls Po Pc Ph Hs Bh Bc. unfold work_columns. rewrite (loop_all A search stats n order Ls Po Hs). cbn [bind].
  destruct (H sortd tc th stats S Ls Pc Ph Bh Bc) as [r [vc [vh [E F]]]]. exists r. split; [exact E|]. exists vc, vh. exact F.
Qed.

Lemma facts_show : forall n k r stats, length stats = n -> 1 <= n -> (Z.of_nat n <= 2 ^ 32)%Z -> rank_ok n k -> facts k r stats ->
  (Z.of_nat (list_sum (map fst stats)) <= 2 ^ 53)%Z -> (Z.of_nat (list_sum (map snd stats)) <= 2 ^ 53)%Z ->
  shows_mean (mean_cmps r) (map snd stats) /\ shows_mean (mean_hops r) (map fst stats) /\ shows_999 (cmps_999 r) (map snd stats) /\ shows_999 (hops_999 r) (map fst stats).
Proof.
  intros n k r stats Ls L1 L2 [Lk [Hk _]] [vc [vh [A1 [A2 [A3 [A4 [A5 [A6 [A7 [A8 [A9 A10]]]]]]]]]]] Bh Bc.
  assert (Lc : length (map snd stats) = n) by (now rewrite map_length). assert (Lh : length (map fst stats) = n) by (now rewrite map_length).
  split; [apply mean_shown; rewrite ?Lc; auto|]. split; [apply mean_shown; rewrite ?Lh; auto|]. split; [apply (rank_shown _ _ vc k); rewrite ?Lc; auto|apply (rank_shown _ _ vh k); rewrite ?Lh; auto].
Qed.

Definition row_le (r r' : work_row) : Prop :=
  (real (mean_cmps r) <= real (mean_cmps r') /\ real (mean_hops r) <= real (mean_hops r') /\ real (cmps_999 r) <= real (cmps_999 r') /\ real (hops_999 r) <= real (hops_999 r'))%R.

Lemma sum_le : forall ks ks', Forall2 le ks ks' -> list_sum ks <= list_sum ks'.
Proof. unfold list_sum; induction 1; cbn; lia. Qed.
Lemma Forall2_len : forall (A B : Type) (P : A -> B -> Prop) l m, Forall2 P l m -> length l = length m.
Proof. induction 1; cbn; congruence. Qed.
Lemma facts_le : forall k r r' s s', 1 <= length s -> facts k r s -> facts k r' s' -> Forall2 le (map fst s) (map fst s') -> Forall2 le (map snd s) (map snd s') -> row_le r r'.
Proof.
  intros k r r' s s' L1 [vc [vh [A1 [A2 [A3 [A4 [A5 [A6 [A7 [A8 [A9 A10]]]]]]]]]]] [vc' [vh' [B1 [B2 [B3 [B4 [B5 [B6 [B7 [B8 [B9 B10]]]]]]]]]]] Hf Hs.
  pose proof (Forall2_len _ _ _ _ _ Hf). pose proof (Forall2_len _ _ _ _ _ Hs). unfold row_le. rewrite A2, A4, A6, A9, B2, B4, B6, B9.
  split; [apply mean_le; auto; [now rewrite map_length|now apply sum_le]|]. split; [apply mean_le; auto; [now rewrite map_length|now apply sum_le]|].
  split; apply rnd_le, le_INR; [exact (ranked_le _ _ _ _ k Hs A7 B7)|exact (ranked_le _ _ _ _ k Hf A10 B10)].
Qed.

(** Per query existence, collected. *)
Lemma collect_all : forall (W : Type) (P : nat -> W -> Prop) n, (forall q, q < n -> exists w, P q w) -> exists ws, length ws = n /\ forall q w, nth_error ws q = Some w -> P q w.
Proof.
  intros W P n. induction n as [|n IH]; intros H; [exists []; split; [reflexivity|intros [|q] w E; discriminate]|].
  destruct IH as [ws [L Hw]]; [intros q Hq; apply H; lia|]. destruct (H n) as [w Pw]; [lia|]. exists (ws ++ [w]). split; [rewrite app_length; cbn; lia|].
  intros q v E. destruct (Nat.lt_ge_cases q n) as [Hq|Hq]. - rewrite nth_error_app1 in E by lia. auto.
  - rewrite nth_error_app2 in E by lia. rewrite L in E. destruct (q - n) as [|m] eqn:D; [|destruct m; discriminate]. cbn in E. injection E as <-. replace q with n by lia. exact Pw.
Qed.
Lemma sum_bound : forall ks B, (forall k, In k ks -> k <= B) -> list_sum ks <= length ks * B.
Proof. unfold list_sum; induction ks as [|k ks IH]; intros B H; cbn; [lia|]. pose proof (H k (or_introl eq_refl)). specialize (IH B (fun x Hx => H x (or_intror Hx))). cbn in IH. lia. Qed.
Lemma nodup_below : forall (l : list nat) n, NoDup l -> (forall x, In x l -> x < n) -> length l <= n.
Proof. intros l n Nd H. rewrite <- (seq_length n 0). apply NoDup_incl_length; [exact Nd|]. intros x Hx. apply in_seq. specialize (H x Hx). lia. Qed.

Lemma work_sizes : forall acc g n st ex cm, work acc g n st ex cm -> length ex <= n /\ length cm <= n.
Proof.
  intros acc g n st ex cm [N1 [N2 [_ [_ [A B]]]]]. split; apply nodup_below; auto.
Qed.

Definition sizes (w : visit) : nat * nat := (length (v_expanded w), length (v_compared w)).
Lemma sizes_fst : forall ws, map fst (map sizes ws) = map (fun w => length (v_expanded w)) ws. Proof. intros. apply map_map. Qed.
Lemma sizes_snd : forall ws, map snd (map sizes ws) = map (fun w => length (v_compared w)) ws. Proof. intros. apply map_map. Qed.

(** ** Any tool: neither the schedule nor the order of the additions shows. *)
Lemma columns_same : forall (A : Type) (search : nat -> counters -> res (A * counters)) nq B sortd tc th order sortd' tc' th' order',
  1 <= nq -> (Z.of_nat nq <= 2 ^ 32)%Z -> (Z.of_nat (nq * B) <= 2 ^ 53)%Z -> sorts_doubles sortd -> sorts_doubles sortd' ->
  (forall q, q < nq -> exists a h c, search q (Some (0, 0)) = Ok (a, Some (h, c)) /\ h <= B /\ c <= B) ->
  Permutation order (seq 0 nq) -> Permutation (red_items tc) (seq 0 nq) -> Permutation (red_items th) (seq 0 nq) ->
  Permutation order' (seq 0 nq) -> Permutation (red_items tc') (seq 0 nq) -> Permutation (red_items th') (seq 0 nq) ->
  exists r r', work_columns sortd tc th search nq order = Ok r /\ work_columns sortd' tc' th' search nq order' = Ok r' /\
    (real (mean_cmps r) = real (mean_cmps r') /\ real (mean_hops r) = real (mean_hops r') /\ real (cmps_999 r) = real (cmps_999 r') /\ real (hops_999 r) = real (hops_999 r'))%R.
Proof.
  intros A search nq B sortd tc th order sortd' tc' th' order' L1 L2 Bd S S' H P1 P2 P3 P1' P2' P3'.
  destruct (collect_all (nat * nat) (fun q c => (exists a, search q (Some (0, 0)) = Ok (a, Some c)) /\ fst c <= B /\ snd c <= B) nq) as [st [Ls Hst]].
  { intros q Hq. destruct (H q Hq) as [a [h [c [E [Hh Hc]]]]]. exists (h, c). split; [exists a; exact E|]. auto. }
  assert (Bf : list_sum (map fst st) <= nq * B). { rewrite <- Ls, <- (map_length fst st). apply sum_bound. intros x Hx. apply in_map_iff in Hx. destruct Hx as [c [<- Hc]]. apply In_nth_error in Hc. destruct Hc as [q Hq]. apply (Hst q c Hq). }
  assert (Bs : list_sum (map snd st) <= nq * B). { rewrite <- Ls, <- (map_length snd st). apply sum_bound. intros x Hx. apply in_map_iff in Hx. destruct Hx as [c [<- Hc]]. apply In_nth_error in Hc. destruct Hc as [q Hq]. apply (Hst q c Hq). }
  destruct (columns_ok nq L1 L2) as [k [_ C]]. 
  destruct (C A search sortd tc th st order S Ls P1 P2 P3) as [r [E F]]; [intros i c Hc; apply (Hst i c Hc)|lia|lia|].
  destruct (C A search sortd' tc' th' st order' S' Ls P1' P2' P3') as [r' [E' F']]; [intros i c Hc; apply (Hst i c Hc)|lia|lia|].
  exists r, r'. split; [exact E|]. split; [exact E'|].
  assert (Refl : forall l, Forall2 le l l) by (induction l; constructor; auto).
  destruct (facts_le k r r' st st) as [Q1 [Q2 [Q3 Q4]]]; auto; [lia|]. destruct (facts_le k r' r st st) as [R1 [R2 [R3 R4]]]; auto; [lia|].
  repeat split; apply Rle_antisym; assumption.
Qed.

(** ** From the work of the queries to the row *)
Lemma table_of : forall (A : Type) (search : nat -> counters -> res (A * counters)) nq B sortd tc th order (W : Type) (hops cmps : W -> nat) (ws : list W),
  sorts_doubles sortd -> 1 <= nq -> (Z.of_nat nq <= 2 ^ 32)%Z -> (Z.of_nat (nq * B) <= 2 ^ 53)%Z ->
  Permutation order (seq 0 nq) -> Permutation (red_items tc) (seq 0 nq) -> Permutation (red_items th) (seq 0 nq) -> length ws = nq ->
  (forall q w, nth_error ws q = Some w -> (exists a, search q (Some (0, 0)) = Ok (a, Some (hops w, cmps w))) /\ hops w <= B /\ cmps w <= B) ->
  exists r, work_columns sortd tc th search nq order = Ok r /\
    shows_mean (mean_cmps r) (map cmps ws) /\ shows_mean (mean_hops r) (map hops ws) /\ shows_999 (cmps_999 r) (map cmps ws) /\ shows_999 (hops_999 r) (map hops ws).
Proof.
  intros A search nq B sortd tc th order W hops cmps ws Sd L1 L2 Bd Po Pc Ph Lw Hw. set (st := map (fun w => (hops w, cmps w)) ws).
  assert (Ef : map fst st = map hops ws) by apply map_map. assert (Es : map snd st = map cmps ws) by apply map_map.
  assert (Ls : length st = nq) by (unfold st; now rewrite map_length).
  assert (Bf : list_sum (map fst st) <= nq * B). { rewrite Ef, <- Lw, <- (map_length hops ws). apply sum_bound. intros x Hx. apply in_map_iff in Hx. destruct Hx as [w [<- Hi]]. apply In_nth_error in Hi. destruct Hi as [q Hq]. apply (Hw q w Hq). }
  assert (Bs : list_sum (map snd st) <= nq * B). { rewrite Es, <- Lw, <- (map_length cmps ws). apply sum_bound. intros x Hx. apply in_map_iff in Hx. destruct Hx as [w [<- Hi]]. apply In_nth_error in Hi. destruct Hi as [q Hq]. apply (Hw q w Hq). }
  destruct (columns_ok nq L1 L2) as [rk [Hrk C]]. destruct (C A search sortd tc th st order Sd Ls Po Pc Ph) as [r [E F]]; [|lia|lia|].
  { intros i c Hc. unfold st in Hc. rewrite nth_error_map in Hc. destruct (nth_error ws i) as [w|] eqn:Ew; [|discriminate]. cbn in Hc. injection Hc as <-. apply (Hw i w Ew). }
  exists r. split; [exact E|]. rewrite <- Ef, <- Es. apply (facts_show nq rk); auto; lia.
Qed.

(** ** Vamana *)
Lemma vamana_table : forall sortf sortd tc th ix dist nq L recall_at filters order,
  sorts sortf -> sorts_doubles sortd -> index_ok ix -> 1 <= L -> recall_at <= L + 1 -> (forall q id, is_nan (dist q id) = false) ->
  (filters = [] \/ length (pts_to_labels (ix_labels ix)) = ix_n ix) ->
  1 <= nq -> (Z.of_nat nq <= 2 ^ 32)%Z -> (Z.of_nat (nq * ix_n ix) <= 2 ^ 53)%Z ->
  Permutation order (seq 0 nq) -> Permutation (red_items tc) (seq 0 nq) -> Permutation (red_items th) (seq 0 nq) ->
  exists r works, vamana_columns sortf sortd tc th ix dist nq L recall_at filters order = Ok r /\ length works = nq /\
    (forall q w, nth_error works q = Some w -> exists acc ind dst count,
      filter_test (universal_of (ix_labels ix)) (pts_to_labels (ix_labels ix)) filters acc /\
      vamana_search sortf ix (dist q) L recall_at filters (repeat 0 recall_at) (repeat f32_zero recall_at) = Ok (ind, dst, count) /\
      vamana_search_counted sortf ix (dist q) L recall_at filters (repeat 0 recall_at) (repeat f32_zero recall_at) (Some (0, 0)) = Ok (ind, dst, count, Some (length (v_expanded w), length (v_compared w))) /\
      count <= length (v_expanded w) /\
      work acc (ix_graph ix) (ix_n ix) (v_starts w) (v_expanded w) (v_compared w)) /\
    shows_mean (mean_cmps r) (map (fun w => length (v_compared w)) works) /\ shows_mean (mean_hops r) (map (fun w => length (v_expanded w)) works) /\
    shows_999 (cmps_999 r) (map (fun w => length (v_compared w)) works) /\ shows_999 (hops_999 r) (map (fun w => length (v_expanded w)) works).
Proof.
  intros sortf sortd tc th ix dist nq L k fs order Hs Sd Hix HL Hk Hn Hf L1 L2 B Po Pc Ph.
  destruct (collect_all visit (fun q w => exists acc ind dst count,
      filter_test (universal_of (ix_labels ix)) (pts_to_labels (ix_labels ix)) fs acc /\
      vamana_search sortf ix (dist q) L k fs (repeat 0 k) (repeat f32_zero k) = Ok (ind, dst, count) /\
      vamana_search_counted sortf ix (dist q) L k fs (repeat 0 k) (repeat f32_zero k) (Some (0, 0)) = Ok (ind, dst, count, Some (sizes w)) /\
      count <= length (v_expanded w) /\ work acc (ix_graph ix) (ix_n ix) (v_starts w) (v_expanded w) (v_compared w)) nq) as [ws [Lw Hw]].
  { intros q _. destruct (vamana_work sortf ix (dist q) L k fs (repeat 0 k) (repeat f32_zero k) 0 0) as [acc [en [st [ex [cm [ids [i' [d' [Ft [_ [_ [E1 [_ [E3 [Rp [Hin [_ [W _]]]]]]]]]]]]]]]]]]; auto; try (rewrite repeat_length; lia).
    exists (mkVisit st ex cm), acc, i', d', (length ids). cbn [v_starts v_expanded v_compared sizes]. split; [exact Ft|]. split; [exact E3|]. split; [exact E1|]. split; [|exact W].
    apply NoDup_incl_length; [|exact Hin]. apply Rp. }
  destruct (table_of _ (fun q c => vamana_search_counted sortf ix (dist q) L k fs (repeat 0 k) (repeat f32_zero k) c) nq (ix_n ix) sortd tc th order visit (fun w => length (v_expanded w)) (fun w => length (v_compared w)) ws Sd L1 L2 B Po Pc Ph Lw) as [r [E M]].
  { intros q w Hq. destruct (Hw q w Hq) as [acc [i [d [c [_ [_ [Q [_ W]]]]]]]]. split; [exists (i, d, c); exact Q|]. exact (work_sizes _ _ _ _ _ _ W). }
  exists r, ws. split; [exact E|]. split; [exact Lw|]. split; [|exact M].
  intros q w Hq. destruct (Hw q w Hq) as [acc [i [d [c [A1 [A2 [A5 [A3 A4]]]]]]]]. exists acc, i, d, c. auto.
Qed.
