(** Concrete cases for the statistics. *)
From Coq Require Import ZArith NArith Reals Lra Lia List Arith Bool Permutation Sorting.Sorted Floats.SpecFloat.
From Flocq Require Import Core.
From Verif Require Import Base Bytes Float32 DivFacts DistSpec DistModel RecallModel RecallSpec TruthModel TruthSpec LloydModel GreedyModel GraphSpec FusedModel RealSpec RealDistProofs Float64Real NormModel NormSpec NormCases StatsModel StatsSpec StatsProofs StatsProofs4.
Import ListNotations.

(** A sort: insertion. *)
Fixpoint ins {A : Type} (lt : A -> A -> bool) (x : A) (l : list A) : list A :=
  match l with [] => [x] | y :: t => if lt y x then y :: ins lt x t else x :: l end.
Definition isort {A : Type} (lt : A -> A -> bool) (l : list A) : list A := fold_right (ins lt) [] l.

Lemma ins_perm : forall (A : Type) (lt : A -> A -> bool) x l, Permutation (x :: l) (ins lt x l).
Proof. intros A lt x. induction l as [|y t IH]; [auto|]. cbn. destruct (lt y x); [|auto]. eapply perm_trans; [apply perm_swap|]. now apply perm_skip. Qed.
Lemma isort_perm : forall (A : Type) (lt : A -> A -> bool) l, Permutation l (isort lt l).
Proof. intros A lt. induction l as [|x t IH]; [constructor|]. cbn. eapply perm_trans; [apply perm_skip, IH|apply ins_perm]. Qed.

Lemma isort_sorts : forall (A : Type) (lt : A -> A -> bool) (P : A -> Prop),
  (forall x y, P x -> P y -> lt x y = true -> lt y x = false) -> (forall x y z, P x -> P y -> P z -> lt y x = false -> lt z y = false -> lt z x = false) ->
  forall l, (forall x, In x l -> P x) -> sorts_as lt (isort lt) l.
Proof.
  intros A lt P As Tr l Hl. split; [apply isort_perm|]. induction l as [|x t IH]; [constructor|]. change (isort lt (x :: t)) with (ins lt x (isort lt t)).
  assert (Ht : forall y, In y (isort lt t) -> P y) by (intros y Hy; apply Hl; right; apply (Permutation_in _ (Permutation_sym (isort_perm A lt t))), Hy).
  assert (Px : P x) by (apply Hl; now left). specialize (IH ltac:(intros; apply Hl; now right)). revert IH Ht. generalize (isort lt t). clear -As Tr Px. intros s S Hs.
  induction s as [|y s IH]; [cbn [ins]; constructor; constructor|]. apply StronglySorted_inv in S. destruct S as [S F]. cbn [ins]. assert (Py : P y) by (apply Hs; now left). destruct (lt y x) eqn:C.
  - constructor; [apply IH; [exact S|intros; apply Hs; now right]|]. rewrite Forall_forall in *. intros z Hz. apply (Permutation_in _ (Permutation_sym (ins_perm A lt x s))) in Hz. destruct Hz as [<-|Hz]; [now apply As|now apply F].
  - constructor; [constructor; auto|]. constructor; [exact C|]. rewrite Forall_forall in *. intros z Hz. apply (Tr x y z); auto. apply Hs. now right.
Qed.

Lemma nat_sorts : forall l, sorts_as Nat.ltb (isort Nat.ltb) l.
Proof. intros l. apply (isort_sorts nat Nat.ltb (fun _ => True)); auto; intros *; rewrite ?Nat.ltb_lt, ?Nat.ltb_ge; lia. Qed.
Definition by_count (a b : nat * nat) : bool := snd a <? snd b.
Lemma pair_sorts : forall l, sorts_as (fun a b => snd a <? snd b) (isort by_count) l.
Proof. intros l. apply (isort_sorts (nat * nat) by_count (fun _ => True)); auto; unfold by_count; intros *; rewrite ?Nat.ltb_lt, ?Nat.ltb_ge; lia. Qed.
Lemma float_sorts : forall l, (forall x, In x l -> finite x /\ f32_valid x = true) -> sorts_as flt (isort flt) l.
Proof.
  assert (B : forall x y, finite x /\ f32_valid x = true -> finite y /\ f32_valid y = true -> (flt x y = false <-> (real y <= real x)%R)).
  { intros x y [Fx Vx] [Fy Vy]. pose proof (flt_real x y Vx Vy Fx Fy) as H. destruct (flt x y); split; intros C; try congruence; [apply proj1 in H; specialize (H eq_refl); lra|].
    destruct (Rle_lt_dec (real y) (real x)); [auto|]. apply H in r. discriminate. }
  intros l. apply isort_sorts.
  - intros x y Px Py C. apply B; auto. destruct Px as [Fx Vx], Py as [Fy Vy]. apply flt_real in C; auto. lra.
  - intros x y z Px Py Pz C D. apply B in C; auto. apply B in D; auto. apply B; auto. lra.
Qed.

(** Four nodes: 0 -> 1,2; 1 -> 2; 2 -> 1; 3 -> 2.  Node 2 has most links, 0 and 3 none. *)
Definition deg_g : graph := [[1; 2]; [2]; [1]; [2]].
Lemma deg_ok : graph_ok (length deg_g) deg_g.
Proof.
  split; [reflexivity|]. intros i l x Hi Hx. destruct i as [|[|[|[|i]]]]; cbn in Hi; [injection Hi as <-|injection Hi as <-|injection Hi as <-|injection Hi as <-|destruct i; discriminate]; cbn in Hx |- *; intuition lia.
Qed.
Lemma deg_runs : degree_report Divided (isort Nat.ltb) (isort by_count) deg_g =
  Ok (2, [1; 1; 1; 1; 1; 1; 1; 1; 2; 2; 2], [0; 0; 0; 0; 0; 2; 2; 2; 3; 3; 3], f64_of_nat 50, 2).
Proof. vm_compute. reflexivity. Qed.

(** Latencies 3, 1, 2. *)
Definition lat3 : list spec_float := map f64_of_nat [3; 1; 2].
Lemma lat3_sorts : sorts_as SFltb (isort SFltb) lat3.
Proof. split; [apply isort_perm|]. replace (isort SFltb lat3) with (map f64_of_nat [1; 2; 3]) by (vm_compute; reflexivity). cbn [map].
  repeat first [apply SSorted_cons|apply SSorted_nil|apply Forall_cons|apply Forall_nil]; reflexivity. Qed.
Lemma lat3_runs : latency_999 (isort SFltb) lat3 = Ok (f64_of_nat 3) /\ get_percentile_stats (isort SFltb) p999_f32 lat3 = Ok (f64_of_nat 3) /\
  get_percentile_stats (isort SFltb) (S754_finite false 8388608 (-24)) lat3 = Ok (f64_of_nat 2) /\ get_mean_stats (RAdd (RItem 2) (RAdd (RItem 0) (RItem 1))) lat3 = Ok (f64_of_nat 2).
Proof. vm_compute. auto. Qed.
Lemma lat3_counts : holds_counts lat3 [3; 1; 2].
Proof.
  unfold holds_counts, lat3. cbn [map]. repeat apply Forall2_cons; try apply Forall2_nil.
  all: split; [apply of_nat64; lia|split; [apply of_nat64; lia|apply of_nat64; lia]].
Qed.

(** Ground truth and results of two queries. *)
Definition tool_gold : list N := [5; 6; 7; 8]%N.
Definition tool_res : list N := [6; 5; 8; 1]%N.
Lemma tool_truth : truth_ok 2 2 tool_gold None /\ truth_ok 2 2 tool_res None.
Proof. split; (split; [reflexivity|split; [reflexivity|split; [reflexivity|split; [reflexivity|split; [|exact Logic.I]]]]]); intros x Hx; cbn in Hx; unfold BinSpec.u32_range; intuition lia. Qed.
