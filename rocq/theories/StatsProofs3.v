(** Degrees, norms, percentages and means. *)
From Coq Require Import ZArith NArith Reals Lra Lia List Arith Bool Permutation Sorting.Sorted Floats.SpecFloat.
From Flocq Require Import Core Relative.
From Verif Require Import Base Float32 DivFacts DistSpec DistModel RecallModel LloydModel ConvertModel GreedyModel GraphSpec EntryModel EntrySpec EntryProofs FusedModel RealSpec FloatReal L2ErrorProofs RealDistProofs Float64Real NormModel NormProofs StatsModel StatsSpec StatsProofs StatsProofs2.
Import ListNotations.
Local Open Scope R_scope.

(** ** Degrees *)
Lemma sorted_map : forall (A B : Type) (f : A -> B) (R : B -> B -> Prop) l, StronglySorted (fun x y => R (f x) (f y)) l -> StronglySorted R (map f l).
Proof.
  intros A B f R l S. induction S as [|a l S IH F]; [constructor|]. cbn. constructor; [exact IH|]. rewrite Forall_forall in *. intros y Hy. apply in_map_iff in Hy.
  destruct Hy as [x [<- Hx]]. now apply F.
Qed.

Lemma zeros_first : forall l : list (nat * nat), StronglySorted (fun x y => (snd y <? snd x)%nat = false) l -> count_zeros l = length (filter (fun x => snd x =? 0)%nat l).
Proof.
  intros l S. induction S as [|[a c] l S IH F]; [reflexivity|]. cbn [count_zeros filter snd]. destruct c as [|c].
  - cbn. now rewrite IH.
  - cbn [Nat.eqb]. symmetry. rewrite filter_none; [reflexivity|]. intros x Hx. rewrite Forall_forall in F. specialize (F x Hx). cbn [snd] in F. apply Nat.ltb_ge in F. apply Nat.eqb_neq. lia.
Qed.

Lemma ind_map : forall g (ind : list nat), length ind = length g -> (forall x, (x < length g)%nat -> nth_error ind x = Some (in_degree g x)) -> ind = map (in_degree g) (seq 0 (length g)).
Proof.
  intros g ind L H. apply nth_ext with (d := 0%nat) (d' := in_degree g 0%nat); [rewrite map_length, seq_length; exact L|].
  intros i Hi. rewrite L in Hi. rewrite (map_nth (in_degree g)), seq_nth by exact Hi. cbn. apply nth_error_nth. now apply H.
Qed.

Lemma combine_self : forall (f : nat -> nat) l, combine l (map f l) = map (fun x => (x, f x)) l.
Proof. intros f. induction l as [|x t IH]; [reflexivity|]. cbn. now rewrite IH. Qed.

Lemma filter_map_len : forall (A B : Type) (f : A -> B) (p : B -> bool) l, length (filter p (map f l)) = length (filter (fun x => p (f x)) l).
Proof. intros A B f p. induction l as [|x t IH]; [reflexivity|]. cbn. destruct (p (f x)); cbn; congruence. Qed.

Lemma percent_close : forall u n, (u <= n)%nat -> (1 <= n)%nat -> (Z.of_nat n <= 2 ^ 32)%Z ->
  let r := f64_div (f64_mul (f64_of_nat 100) (f64_of_nat u)) (f64_of_nat n) in
  finite r /\ Rabs (real r - 100 * INR u / INR n) <= ulp64 * (100 * INR u / INR n).
Proof.
  intros u n Hu Hn Hb r. destruct (of_nat64 u) as [Fu [Vu Ru]]; [lia|]. destruct (of_nat64 n) as [Fn [Vn Rn]]; [lia|]. destruct (of_nat64 100) as [Fh [Vh Rh]]; [lia|].
  replace (INR 100) with 100 in Rh by (rewrite INR_IZR_INZ; reflexivity). pose proof (INR_pos n Hn) as N1. pose proof (pos_INR u) as U0. apply le_INR in Hu as Hu'.
  assert (N2 : INR n <= 4294967296) by (rewrite INR_IZR_INZ; apply IZR_le in Hb; exact Hb).
  assert (P : real (f64_of_nat 100) * real (f64_of_nat u) = IZR (100 * Z.of_nat u)) by (rewrite Rh, Ru, mult_IZR, <- INR_IZR_INZ; reflexivity).
  destruct (int64_rnd (100 * Z.of_nat u)) as [I1 I2]; [lia|].
  assert (Fm : finite (f64_mul (f64_of_nat 100) (f64_of_nat u))) by (apply dmul_fin; auto; rewrite P; exact I2).
  destruct (dmul_rnd _ _ Vh Vu Fm) as [Vm Rm]. rewrite P, I1, mult_IZR, <- INR_IZR_INZ in Rm.
  assert (Dp : 0 <= 100 * INR u / INR n <= 100).
  { split; [apply Rdiv_le_0_compat || (unfold Rdiv; apply Rmult_le_pos; [lra|left; apply Rinv_0_lt_compat; lra]); lra|]. apply Rmult_le_reg_r with (INR n); [lra|]. unfold Rdiv. rewrite Rmult_assoc, Rinv_l by lra. lra. }
  assert (S0 : 100 * INR u = 0 \/ / 100000000000000000000 <= 100 * INR u / INR n).
  { destruct u as [|u]; [left; cbn; ring|]. right. assert (1 <= INR (S u)) by (apply INR_pos; lia). apply Rmult_le_reg_r with (INR n); [lra|]. unfold Rdiv. rewrite Rmult_assoc, Rinv_l by lra. lra. }
  destruct (ddiv_close _ (f64_of_nat n) (100 * INR u) (INR n) Vm Vn Fm Rm Rn) as [F [V [d [Hd E]]]]; [lra|exact S0|lra|].
  split; [exact F|]. unfold r. rewrite E. replace (100 * INR u / INR n * (1 + d) - 100 * INR u / INR n) with (d * (100 * INR u / INR n)) by ring.
  rewrite Rabs_mult, (Rabs_pos_eq (100 * INR u / INR n)) by lra. apply Rmult_le_compat_r; lra.
Qed.

Lemma degree_report_ok : forall c sort_out sort_in g, graph_ok (length g) g -> (1 <= length g)%nat -> (Z.of_nat (length g) <= 2 ^ 32)%Z ->
  (forall l, sorts_as Nat.ltb sort_out l) -> (forall l, sorts_as (fun a b => snd a <? snd b)%nat sort_in l) ->
  exists m outs ins unreachable top, degree_report c sort_out sort_in g = Ok (m, outs, ins, unreachable, top) /\
    max_length g m /\ percentile_table Nat.ltb 10 (map (@length nat) g) outs /\ percentile_table Nat.ltb 10 (map (in_degree g) (seq 0 (length g))) ins /\
    (let u := INR (length (filter (fun x => in_degree g x =? 0)%nat (seq 0 (length g)))) in
     finite unreachable /\ Rabs (real unreachable - 100 * u / INR (length g)) <= powerRZ 2 (-53) * (100 * u / INR (length g))) /\
    (top < length g)%nat /\ (forall x, (x < length g)%nat -> (in_degree g x <= in_degree g top)%nat).
Proof.
  intros c sort_out sort_in g G L1 L2 So Si. destruct (degree_stats_ok g 0 G) as [m [ind [E [Mx [Li Hi]]]]]. rewrite (ind_map g ind Li Hi) in E. clear ind Li Hi.
  set (n := length g) in *. set (L := map (fun x => (x, in_degree g x)) (seq 0 n)). assert (LL : length L = n) by (unfold L; now rewrite map_length, seq_length).
  destruct (Si L) as [P S]. pose proof (Permutation_length P) as PL.
  assert (Sm : sorts_as Nat.ltb (fun _ => map snd (sort_in L)) (map snd L)).
  { split; [now apply Permutation_map|]. apply (sorted_map _ _ snd (fun x y => (y <? x)%nat = false)). exact S. }
  assert (EL : map snd L = map (in_degree g) (seq 0 n)) by (unfold L; rewrite map_map; reflexivity).
  destruct (pct_table_ok nat Nat.ltb c 10 sort_out (map (@length nat) g)) as [outs [Eo To]]; [now right|intros; apply Nat.ltb_irrefl|apply So|rewrite map_length; exact L1|rewrite map_length; exact L2|].
  destruct (pct_table_ok nat Nat.ltb c 10 (fun _ => map snd (sort_in L)) (map snd L)) as [ins [Ei Ti]]; [now right|intros; apply Nat.ltb_irrefl|exact Sm|rewrite map_length; lia|rewrite map_length; lia|]. cbv beta in Ei.
  destruct (rd_lt _ (sort_in L) (n - 1)) as [[t ct] Et]; [lia|]. pose proof Et as Et'. apply rd_ok in Et'. rewrite <- LL in Et' at 1.
  destruct (sorted_last _ (fun a b : nat * nat => snd a <? snd b)%nat sort_in L (t, ct) ltac:(intros; apply Nat.ltb_irrefl) (Si L) Et') as [It Bt].
  unfold L in It. apply in_map_iff in It. destruct It as [x [Ex Hx]]. injection Ex as <- <-. apply in_seq in Hx.
  exists m, outs, ins, (f64_div (f64_mul (f64_of_nat 100) (f64_of_nat (count_zeros (sort_in L)))) (f64_of_nat n)), x.
  split. { unfold degree_report. fold n. rewrite E. cbn [bind snd fst]. rewrite combine_self. fold L. rewrite Eo. cbn [bind]. rewrite Ei. cbn [bind]. rewrite Et. reflexivity. }
  split; [exact Mx|]. split; [exact To|]. split; [rewrite <- EL; exact Ti|].
  split.
  { rewrite (zeros_first _ S), <- (filter_perm _ _ _ _ P). unfold L. rewrite filter_map_len. cbn [snd]. apply percent_close; [|exact L1|exact L2].
    apply Nat.le_trans with (length (seq 0 n)); [apply filter_le|rewrite seq_length; auto]. }
  split; [lia|]. intros y Hy. assert (In (y, in_degree g y) L) by (unfold L; apply in_map_iff; exists y; split; [reflexivity|apply in_seq; lia]).
  specialize (Bt _ H). cbn [snd] in Bt. now apply Nat.ltb_ge.
Qed.

Lemma degree_report_empty : forall c so si, (forall l, Permutation l (so l)) -> degree_report c so si [] = UB.
Proof.
  intros c so si H. unfold degree_report. cbn [length update_degree_stats degree_loop bind repeat snd map]. 
  assert (so [] = []) as -> by (apply Permutation_nil; apply H). now rewrite pct_table_empty.
Qed.

(** ** Norms *)
Lemma range_report_ok : forall c sortf (lists : list (list N)), (1 <= length lists)%nat -> (Z.of_nat (length lists) <= 2 ^ 32)%Z -> (forall l, sorts_as Nat.ltb sortf l) ->
  exists table, range_report c sortf lists = Ok table /\ percentile_table Nat.ltb 5 (map (@length N) lists) table.
Proof. intros c sortf lists L1 L2 S. apply pct_table_ok; auto; [intros; apply Nat.ltb_irrefl|rewrite map_length; exact L1|rewrite map_length; exact L2]. Qed.

Lemma flt_irr : forall x, flt x x = false.
Proof. intros [s|[]| |[] m e]; try reflexivity; unfold flt, SFltb, SFcompare; cbn; rewrite Z.compare_refl, Pos.compare_refl; reflexivity. Qed.

(** ** Percentages *)
Lemma of_N64 : forall x, (Z.of_N x <= 2 ^ 53)%Z -> finite (f64_of_N x) /\ f64_valid (f64_of_N x) = true /\ real (f64_of_N x) = IZR (Z.of_N x).
Proof. intros x H. apply norm64. lia. Qed.

Lemma recall_percent_close : forall total nq k, (1 <= nq < 2 ^ 32)%N -> (1 <= k < 2 ^ 32)%N -> (total <= 2 ^ 53)%N -> (total <= nq * k)%N ->
  let exact := 100 * IZR (Z.of_N total) / (IZR (Z.of_N nq) * IZR (Z.of_N k)) in
  finite (recall_percent total nq k) /\ f64_valid (recall_percent total nq k) = true /\ exists d, Rabs d <= 4 * ulp64 /\ real (recall_percent total nq k) = exact * (1 + d).
Proof.
  intros total nq k Hn Hk Ht Hb exact. destruct (of_N64 total) as [Ft [Vt Rt]]; [lia|]. destruct (of_N64 nq) as [Fn [Vn Rn]]; [lia|]. destruct (of_N64 k) as [Fk [Vk Rk]]; [lia|].
  destruct (of_N64 100) as [Fh [Vh Rh]]; [lia|]. change (IZR (Z.of_N 100)) with 100 in Rh. pose proof ulp64_val as U.
  set (T := IZR (Z.of_N total)) in *. set (n := IZR (Z.of_N nq)) in *. set (r := IZR (Z.of_N k)) in *.
  assert (N1 : 1 <= n <= 4294967296) by (unfold n; split; apply IZR_le; lia). assert (K1 : 1 <= r <= 4294967296) by (unfold r; split; apply IZR_le; lia).
  assert (T1 : T = 0 \/ 1 <= T) by (unfold T; destruct (N.eq_dec total 0) as [->|Q]; [now left|right; apply IZR_le; lia]).
  assert (T2 : 0 <= T <= n * r) by (unfold T, n, r; rewrite <- mult_IZR; split; apply IZR_le; lia).
  assert (IV : forall a b, 0 < b -> a / b * b = a) by (intros a b Hb0; field; lra).
  pose proof (IV T n ltac:(lra)) as D1. pose proof (IV 100 r ltac:(lra)) as D2. set (q := T / n) in *. set (h := 100 / r) in *.
  assert (H1 : 0 < h <= 100) by (clear -D2 K1; split; [destruct (Rle_lt_dec h 0); [nra|auto]|destruct (Rle_lt_dec h 100); [auto|nra]]).
  assert (H2 : / 100000000000 <= h) by (clear -D2 K1; destruct (Rle_lt_dec (/ 100000000000) h); [auto|nra]).
  assert (Q0 : 0 <= q) by (clear -D1 T2 N1; destruct (Rle_lt_dec 0 q); [auto|nra]).
  assert (Q1 : q <= r) by (clear -D1 T2 N1; destruct (Rle_lt_dec q r); [auto|nra]).
  assert (Q2 : T = 0 \/ / 5000000000 <= q) by (clear -D1 T1 N1; destruct T1 as [?|T1]; [now left|right]; destruct (Rle_lt_dec (/ 5000000000) q); [auto|nra]).
  destruct (ddiv_close (f64_of_N total) (f64_of_N nq) T n Vt Vn Ft Rt Rn) as [F1 [V1 [d1 [A1 E1]]]]; [lra|destruct Q2; [now left|right; fold q; lra]|fold q; lra|].
  destruct (ddiv_close (f64_of_N 100) (f64_of_N k) 100 r Vh Vk Fh Rh Rk) as [F2 [V2 [d2 [A2 E2]]]]; [lra|right; fold h; lra|fold h; lra|]. fold q in E1. fold h in E2.
  assert (QH : 0 <= q * h <= 100) by (clear -Q0 Q1 H1 D2 K1; split; [nra|]; apply Rle_trans with (r * h); [nra|lra]).
  assert (QZ : q = 0 \/ / 10000000000000000000 <= q * h).
  { destruct T1 as [T1|T1]; [left; unfold q; rewrite T1; unfold Rdiv; ring|right]. destruct Q2 as [Q2|_]; [lra|]. 
    assert (X : q * h * (n * r) = 100 * T) by (replace (q * h * (n * r)) with ((q * n) * (h * r)) by ring; rewrite D1, D2; ring).
    assert (Y : 0 < n * r <= 4294967296 * 4294967296) by (clear -N1 K1; nra). clear -X Y T1 QH. destruct (Rle_lt_dec (/ 10000000000000000000) (q * h)); [auto|]. exfalso. set (w := n * r) in *. set (z := q * h) in *. clearbody w z. nra. }
  destruct (dmul_close _ _ q h d1 d2 V1 V2 F1 F2 E1 E2) as [F [V [d3 [A3 E3]]]]; [lra|lra|exact QZ|lra|].
  split; [exact F|]. split; [exact V|]. exists ((1 + d1) * (1 + d2) * (1 + d3) - 1). split; [now apply three_errors|].
  change (recall_percent total nq k) with (f64_mul (f64_div (f64_of_N total) (f64_of_N nq)) (f64_div (f64_of_N 100) (f64_of_N k))). rewrite E3.
  unfold exact, q, h. field. lra.
Qed.
