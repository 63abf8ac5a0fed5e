(** Matrix products on flat arrays, down to entries. *)
From Coq Require Import ZArith List Arith Bool Lia Permutation Floats.SpecFloat.
From Verif Require Import Base Float32 DistModel FusedModel PqModel ClosestModel GtModel BlasModel BlasSpec PqFileProofs2 MeanProofs3 BlasProofs3.
Import ListNotations.

(** ** Arrays made of rows *)
Lemma nth_concat : forall (A : Type) dim (rows : list (list A)) i r l, (forall r, In r rows -> length r = dim) -> nth_error rows i = Some r -> l < dim -> nth_error (concat rows) (i * dim + l) = nth_error r l.
Proof.
  intros A dim rows. induction rows as [|r0 rows IH]; intros [|i] r l H Hr Hl; try discriminate; cbn [concat nth_error] in *.
  - injection Hr as ->. cbn [Nat.mul Nat.add]. rewrite nth_error_app1; [reflexivity|]. rewrite (H r) by (left; auto). exact Hl.
  - rewrite nth_error_app2 by (rewrite (H r0) by (left; auto); cbn [Nat.mul]; lia). rewrite (H r0) by (left; auto). replace (S i * dim + l - dim) with (i * dim + l) by (cbn [Nat.mul]; lia).
    apply IH; auto. intros x Hx. apply H. right. exact Hx.
Qed.
Lemma rd_concat : forall dim (rows : list (list f32)) i r l, (forall r, In r rows -> length r = dim) -> nth_error rows i = Some r -> l < dim -> rd (concat rows) (i * dim + l) = Ok (at_ r l).
Proof.
  intros dim rows i r l H Hr Hl. unfold rd. rewrite (nth_concat _ dim rows i r l H Hr Hl). assert (Lr : length r = dim) by (apply H; eapply nth_error_In; eauto).
  rewrite (nth_error_nth' _ f32_zero) by lia. reflexivity.
Qed.
Lemma nth_skipn_ : forall (A : Type) k (l : list A) i, nth_error (skipn k l) i = nth_error l (k + i).
Proof. intros A k. induction k as [|k IH]; intros l i; [reflexivity|]. destruct l; [now destruct i|]. apply IH. Qed.
Lemma rd_skipn_ : forall (l : list f32) k i, rd (skipn k l) i = rd l (k + i).
Proof. intros. unfold rd. now rewrite nth_skipn_. Qed.
Lemma rd_repeat : forall (x : f32) n i, i < n -> rd (repeat x n) i = Ok x.
Proof. intros x n i H. unfold rd. rewrite (nth_error_nth' _ x) by (rewrite repeat_length; lia). now rewrite nth_repeat. Qed.

(** ** sgemm *)
Lemma sgemm_col : forall ws ta tb m n k alpha A lda B ldb (beta : bool) C (P : nat -> nat -> f32 -> Prop),
  (forall i j, i < m -> j < n -> exists (c : option f32) (v : f32), (if beta then do v <- rd C (i + j * m); Ok (Some v) else Ok None) = Ok c /\
     gemm_entry (ws (i + j * m)) k alpha (fun l => rd A (place ColMajor ta i l lda)) (fun l => rd B (place ColMajor tb l j ldb)) c = Ok v /\ P i j v) ->
  exists C', sgemm ws ColMajor ta tb m n k alpha A lda B ldb beta C = Ok C' /\ length C' = m * n /\ forall i j, i < m -> j < n -> exists v, nth_error C' (i + j * m) = Some v /\ P i j v.
Proof.
  intros ws ta tb m n k alpha A lda B ldb beta C P H. unfold sgemm.
  destruct (collect_ex _ _ (fun x =>
    let '(i, j) := (x mod m, x / m) in
    do c <- (if beta then do v <- rd C x; Ok (Some v) else Ok None);
    gemm_entry (ws x) k alpha (fun l => rd A (place ColMajor ta i l lda)) (fun l => rd B (place ColMajor tb l j ldb)) c) (fun x v => P (x mod m) (x / m) v) (seq 0 (m * n))) as [C' [HC F]].
  - intros x Hx. apply in_seq in Hx. assert (m <> 0) by lia. assert (x mod m < m) by (apply Nat.mod_upper_bound; auto). assert (x / m < n) by (apply Nat.div_lt_upper_bound; auto; lia).
    destruct (H (x mod m) (x / m)) as [c [v [Hc [Hv Pv]]]]; auto. assert (Q : x mod m + x / m * m = x) by (pose proof (Nat.div_mod x m ltac:(auto)); lia). rewrite Q in *. rewrite Hc. cbn [bind]. eauto.
  - apply Forall2_seq in F. destruct F as [L F]. exists C'. split; [exact HC|]. split; [exact L|]. intros i j Hi Hj.
    assert (Hx : i + j * m < m * n) by nia. destruct (F _ Hx) as [v [Hv Pv]]. exists v. split; [exact Hv|].
    rewrite Nat.mod_add, Nat.mod_small, Nat.div_add, Nat.div_small in Pv by lia. exact Pv.
Qed.
Lemma sgemm_row : forall ws ta tb m n k alpha A lda B ldb (beta : bool) C (P : nat -> nat -> f32 -> Prop),
  (forall i j, i < m -> j < n -> exists (c : option f32) (v : f32), (if beta then do v <- rd C (i * n + j); Ok (Some v) else Ok None) = Ok c /\
     gemm_entry (ws (i * n + j)) k alpha (fun l => rd A (place RowMajor ta i l lda)) (fun l => rd B (place RowMajor tb l j ldb)) c = Ok v /\ P i j v) ->
  exists C', sgemm ws RowMajor ta tb m n k alpha A lda B ldb beta C = Ok C' /\ length C' = m * n /\ forall i j, i < m -> j < n -> exists v, nth_error C' (i * n + j) = Some v /\ P i j v.
Proof.
  intros ws ta tb m n k alpha A lda B ldb beta C P H. unfold sgemm.
  destruct (collect_ex _ _ (fun x =>
    let '(i, j) := (x / n, x mod n) in
    do c <- (if beta then do v <- rd C x; Ok (Some v) else Ok None);
    gemm_entry (ws x) k alpha (fun l => rd A (place RowMajor ta i l lda)) (fun l => rd B (place RowMajor tb l j ldb)) c) (fun x v => P (x / n) (x mod n) v) (seq 0 (m * n))) as [C' [HC F]].
  - intros x Hx. apply in_seq in Hx. assert (n <> 0) by lia. assert (x mod n < n) by (apply Nat.mod_upper_bound; auto). assert (x / n < m) by (apply Nat.div_lt_upper_bound; auto; lia).
    destruct (H (x / n) (x mod n)) as [c [v [Hc [Hv Pv]]]]; auto. assert (Q : x / n * n + x mod n = x) by (pose proof (Nat.div_mod x n ltac:(auto)); lia). rewrite Q in *. rewrite Hc. cbn [bind]. eauto.
  - apply Forall2_seq in F. destruct F as [L F]. exists C'. split; [exact HC|]. split; [exact L|]. intros i j Hi Hj.
    assert (Hx : i * n + j < m * n) by nia. destruct (F _ Hx) as [v [Hv Pv]]. exists v. split; [exact Hv|].
    rewrite (Nat.add_comm (i * n)), Nat.mod_add, Nat.mod_small, Nat.div_add, Nat.div_small in Pv by lia. exact Pv.
Qed.

(** ** The ground truth *)
Lemma l2sq_ok : forall ts (rows : list (list f32)) num dim (P : list f32 -> f32 -> Prop), (forall r, In r rows -> length r = dim) -> num <= length rows ->
  (forall i r fac, i < num -> nth_error rows i = Some r -> (forall l, l < dim -> fac l = Ok (at_ r l, at_ r l)) -> exists v, fred_eval fac (ts i) = Ok v /\ P r v) ->
  exists out, compute_l2sq ts (concat rows) num dim = Ok out /\ length out = num /\ forall i r, i < num -> nth_error rows i = Some r -> exists v, nth_error out i = Some v /\ P r v.
Proof.
  intros ts rows num dim P H Hn F. unfold compute_l2sq.
  destruct (collect_ex _ _ (fun d => fred_eval (fun l => do x <- rd (concat rows) (d * dim + l); Ok (x, x)) (ts d)) (fun i v => forall r, nth_error rows i = Some r -> P r v) (seq 0 num)) as [out [Ho Fo]].
  - intros i Hi. apply in_seq in Hi. destruct (nth_error rows i) as [r|] eqn:Hr; [|apply nth_error_None in Hr; lia].
    destruct (F i r (fun l => do x <- rd (concat rows) (i * dim + l); Ok (x, x))) as [v [Hv Pv]]; [lia|exact Hr| |].
    + intros l Hl. rewrite (rd_concat dim rows i r l H Hr Hl). reflexivity.
    + exists v. split; [exact Hv|]. intros r' [= <-]. exact Pv.
  - apply Forall2_seq in Fo. destruct Fo as [L Fo]. exists out. split; [exact Ho|]. split; [exact L|]. intros i r Hi Hr. destruct (Fo i Hi) as [v [Hv Pv]]. exists v. auto.
Qed.

(** What the three products make of a row and a row, given their norms. *)
Definition entry_makes (dim : nat) (w0 w1 w2 : way) (p q : list f32) (x y : f32) (R : f32 -> Prop) : Prop :=
  forall f0 g0 f1 g1 f2 g2, (forall l, l < dim -> f0 l = Ok (at_ p l)) -> (forall l, l < dim -> g0 l = Ok (at_ q l)) -> f1 0 = Ok x -> g1 0 = Ok f32_one -> f2 0 = Ok f32_one -> g2 0 = Ok y ->
  exists r0 r1 r2, gemm_entry w0 dim f32_m2 f0 g0 None = Ok r0 /\ gemm_entry w1 1 f32_one f1 g1 (Some r0) = Ok r1 /\ gemm_entry w2 1 f32_one f2 g2 (Some r1) = Ok r2 /\ R r2.

Lemma distsq_ok : forall ws dim m n pr qr pn qn (R : list f32 -> list f32 -> f32 -> Prop), (forall r, In r pr -> length r = dim) -> (forall r, In r qr -> length r = dim) -> m <= length pr -> n <= length qr -> m <= length pn -> n <= length qn ->
  (forall i j p q x y, i < m -> j < n -> nth_error pr i = Some p -> nth_error qr j = Some q -> nth_error pn i = Some x -> nth_error qn j = Some y ->
     entry_makes dim (ws 0 (i + j * m)) (ws 1 (i + j * m)) (ws 2 (i + j * m)) p q x y (R p q)) ->
  exists C, distsq_to_points ws dim m (concat pr) pn n (concat qr) qn = Ok C /\ length C = m * n /\
    forall i j p q, i < m -> j < n -> nth_error pr i = Some p -> nth_error qr j = Some q -> exists v, nth_error C (i + j * m) = Some v /\ R p q v.
Proof.
  intros ws dim m n pr qr pn qn R Hp Hq Lm Ln Lpn Lqn H. unfold distsq_to_points. set (ones := repeat f32_one (if m <? n then n else m)).
  assert (Ones : forall i, i < m \/ i < n -> rd ones i = Ok f32_one) by (intros i Hi; apply rd_repeat; destruct (Nat.ltb_spec m n); lia).
  assert (All : forall i j, i < m -> j < n -> exists p q x y, nth_error pr i = Some p /\ nth_error qr j = Some q /\ nth_error pn i = Some x /\ nth_error qn j = Some y).
  { intros i j Hi Hj. destruct (nth_error pr i) as [p|] eqn:E1; [|apply nth_error_None in E1; lia]. destruct (nth_error qr j) as [q|] eqn:E2; [|apply nth_error_None in E2; lia].
    destruct (nth_error pn i) as [x|] eqn:E3; [|apply nth_error_None in E3; lia]. destruct (nth_error qn j) as [y|] eqn:E4; [|apply nth_error_None in E4; lia]. eauto 10. }
  assert (Ent : forall i j p q, i < m -> j < n -> nth_error pr i = Some p -> nth_error qr j = Some q -> exists r0 r1 r2,
    gemm_entry (ws 0 (i + j * m)) dim f32_m2 (fun l => rd (concat pr) (place ColMajor true i l dim)) (fun l => rd (concat qr) (place ColMajor false l j dim)) None = Ok r0 /\
    gemm_entry (ws 1 (i + j * m)) 1 f32_one (fun l => rd pn (place ColMajor false i l m)) (fun l => rd ones (place ColMajor true l j n)) (Some r0) = Ok r1 /\
    gemm_entry (ws 2 (i + j * m)) 1 f32_one (fun l => rd ones (place ColMajor false i l m)) (fun l => rd qn (place ColMajor true l j n)) (Some r1) = Ok r2 /\ R p q r2).
  { intros i j p q Hi Hj E1 E2. destruct (All i j Hi Hj) as [p' [q' [x [y [E1' [E2' [E3 E4]]]]]]]. rewrite E1 in E1'. injection E1' as <-. rewrite E2 in E2'. injection E2' as <-.
    apply (H i j p q x y Hi Hj E1 E2 E3 E4).
    - intros l Hl. cbn [place]. apply rd_concat; auto.
    - intros l Hl. cbn [place]. rewrite Nat.add_comm. apply rd_concat; auto.
    - cbn [place Nat.mul]. rewrite Nat.add_0_r. unfold rd. now rewrite E3.
    - cbn [place Nat.mul Nat.add]. apply Ones. auto.
    - cbn [place Nat.mul]. rewrite Nat.add_0_r. apply Ones. auto.
    - cbn [place Nat.mul Nat.add]. unfold rd. now rewrite E4. }
  destruct (sgemm_col (ws 0) true false m n dim f32_m2 (concat pr) dim (concat qr) dim false []
    (fun i j v => gemm_entry (ws 0 (i + j * m)) dim f32_m2 (fun l => rd (concat pr) (place ColMajor true i l dim)) (fun l => rd (concat qr) (place ColMajor false l j dim)) None = Ok v)) as [d0 [H0 [L0 P0]]].
  { intros i j Hi Hj. destruct (All i j Hi Hj) as [p [q [_ [_ [E1 [E2 _]]]]]]. destruct (Ent i j p q Hi Hj E1 E2) as [r0 [_ [_ [Q _]]]]. exists None, r0. auto. }
  rewrite H0. cbn [bind].
  destruct (sgemm_col (ws 1) false true m n 1 f32_one pn m ones n true d0
    (fun i j v => exists r0, nth_error d0 (i + j * m) = Some r0 /\ gemm_entry (ws 1 (i + j * m)) 1 f32_one (fun l => rd pn (place ColMajor false i l m)) (fun l => rd ones (place ColMajor true l j n)) (Some r0) = Ok v)) as [d1 [H1 [L1 P1]]].
  { intros i j Hi Hj. destruct (All i j Hi Hj) as [p [q [_ [_ [E1 [E2 _]]]]]]. destruct (Ent i j p q Hi Hj E1 E2) as [r0 [r1 [r2 [Q0 [Q1 _]]]]]. destruct (P0 i j Hi Hj) as [v [Hv Pv]]. rewrite Q0 in Pv. injection Pv as <-.
    exists (Some r0), r1. split; [unfold rd; now rewrite Hv|]. split; [exact Q1|]. eauto. }
  rewrite H1. cbn [bind].
  destruct (sgemm_col (ws 2) false true m n 1 f32_one ones m qn n true d1
    (fun i j v => forall p q, nth_error pr i = Some p -> nth_error qr j = Some q -> R p q v)) as [d2 [H2 [L2 P2]]].
  { intros i j Hi Hj. destruct (All i j Hi Hj) as [p [q [_ [_ [E1 [E2 _]]]]]]. destruct (Ent i j p q Hi Hj E1 E2) as [r0 [r1 [r2 [Q0 [Q1 [Q2 Rr]]]]]]. destruct (P0 i j Hi Hj) as [v [Hv Pv]]. rewrite Q0 in Pv. injection Pv as <-.
    destruct (P1 i j Hi Hj) as [v1 [Hv1 [u [Hu Pu]]]]. rewrite Hv in Hu. injection Hu as <-. rewrite Q1 in Pu. injection Pu as <-.
    exists (Some r1), r2. split; [unfold rd; now rewrite Hv1|]. split; [exact Q2|]. intros p' q' E1' E2'. rewrite E1 in E1'. injection E1' as <-. rewrite E2 in E2'. injection E2' as <-. exact Rr. }
  exists d2. split; [exact H2|]. split; [exact L2|]. intros i j p q Hi Hj E1 E2. destruct (P2 i j Hi Hj) as [v [Hv Pv]]. exists v. auto.
Qed.

Lemma gt_entry_ok : forall W bs ps dim rows qrows (N : list f32 -> f32 -> Prop) (R : list f32 -> list f32 -> f32 -> Prop), 1 <= bs -> 1 <= ps -> ways_ok dim W -> (forall r, In r rows -> length r = dim) -> (forall r, In r qrows -> length r = dim) ->
  (forall t r fac, In r rows \/ In r qrows -> Permutation (fred_items t) (seq 0 dim) -> (forall l, l < dim -> fac l = Ok (at_ r l, at_ r l)) -> exists v, fred_eval fac t = Ok v /\ N r v) ->
  (forall w0 w1 w2 p q x y, In p rows -> In q qrows -> N p x -> N q y -> way_ok dim false w0 -> way_ok 1 true w1 -> way_ok 1 true w2 -> entry_makes dim w0 w1 w2 p q x y (R p q)) ->
  forall q p rq rp, nth_error qrows q = Some rq -> nth_error rows p = Some rp ->
  exists v, gt_entry W bs ps dim (length rows) (length qrows) (concat rows) (concat qrows) q p = Ok v /\ R rp rq v.
Proof.
  intros W bs ps dim rows qrows N R Hbs Hps [Wp [Wq Wd]] Hr Hq HN HR q p rq rp Eq Ep. unfold gt_entry.
  assert (Lp : p < length rows) by (apply nth_error_Some; congruence). assert (Lq : q < length qrows) by (apply nth_error_Some; congruence).
  set (part := p / ps). set (st := part * ps). set (m := min ps (length rows - st)). set (b := q / bs). set (qb := b * bs). set (qe := if length qrows <? (b + 1) * bs then length qrows else (b + 1) * bs).
  assert (Hst : st <= p /\ p < st + ps) by (unfold st, part; pose proof (Nat.div_mod p ps ltac:(lia)); pose proof (Nat.mod_upper_bound p ps ltac:(lia)); lia).
  assert (Hqb : qb <= q /\ q < qb + bs) by (unfold qb, b; pose proof (Nat.div_mod q bs ltac:(lia)); pose proof (Nat.mod_upper_bound q bs ltac:(lia)); lia).
  assert (Hqe : q < qe /\ qe <= length qrows) by (unfold qe; destruct (Nat.ltb_spec (length qrows) ((b + 1) * bs)); unfold qb in Hqb; lia).
  rewrite (skipn_concat _ dim st rows Hr), (skipn_concat _ dim qb qrows Hq).
  assert (Hr' : forall r, In r (skipn st rows) -> In r rows) by (intros r Hi; rewrite <- (firstn_skipn st rows); apply in_or_app; auto).
  assert (Hq' : forall r, In r (skipn qb qrows) -> In r qrows) by (intros r Hi; rewrite <- (firstn_skipn qb qrows); apply in_or_app; auto).
  destruct (l2sq_ok (w_points W part) (skipn st rows) m dim N) as [pn [Hpn [Lpn Npn]]]; [auto|rewrite skipn_length; unfold m; lia| |].
  { intros i r fac Hi Er Hf. apply HN; auto. left. apply Hr'. eapply nth_error_In; eauto. }
  destruct (l2sq_ok (w_queries W part) qrows (length qrows) dim N) as [qn [Hqn [Lqn Nqn]]]; [auto|lia| |].
  { intros i r fac Hi Er Hf. apply HN; auto. right. eapply nth_error_In; eauto. }
  rewrite Hpn. cbn [bind]. rewrite Hqn. cbn [bind].
  destruct (distsq_ok (w_dist W part b) dim m (qe - qb) (skipn st rows) (skipn qb qrows) pn (skipn qb qn) R) as [C [HC [LC PC]]]; auto.
  - rewrite skipn_length. unfold m. lia.
  - rewrite skipn_length. lia.
  - lia.
  - rewrite skipn_length. lia.
  - intros i j p0 q0 x y Hi Hj E1 E2 E3 E4. destruct (Wd part b (i + j * m)) as [W0 [W1 W2]]. destruct (Npn i p0 Hi E1) as [x' [E3' Nx]]. rewrite E3 in E3'. injection E3' as <-.
    rewrite nth_skipn_ in E2, E4. destruct (Nqn (qb + j) q0 ltac:(lia) E2) as [y' [E4' Ny]]. rewrite E4 in E4'. injection E4' as <-.
    apply HR; auto; [apply Hr'; eapply nth_error_In; eauto|eapply nth_error_In; eauto].
  - rewrite HC. cbn [bind]. destruct (PC (p - st) (q - qb) rp rq) as [v [Hv Rv]]; [unfold m; lia|lia| | |].
    + rewrite nth_skipn_. replace (st + (p - st)) with p by lia. exact Ep.
    + rewrite nth_skipn_. replace (qb + (q - qb)) with q by lia. exact Eq.
    + exists v. split; [unfold rd; now rewrite Hv|exact Rv].
Qed.
