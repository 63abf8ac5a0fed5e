(** * Proofs about the hash table. *)
From Coq Require Import NArith List Arith Bool Lia Sorting.Permutation.
From Verif Require Import Base HashModel HashArith.
Import ListNotations.
Local Open Scope nat_scope.

Definition get {A : Type} (bs : list (bucket A)) (i : nat) : bucket A := nth i bs None.
Definition vals {A : Type} (b : bucket A) : list A := match b with Some (_, _, v) => [v] | None => [] end.

Lemma rd_get : forall (A : Type) (bs : list (bucket A)) i, i < length bs -> rd bs i = Ok (get bs i).
Proof. intros A bs i H. unfold rd, get. now rewrite (nth_error_nth' bs None H). Qed.

Lemma peek_get : forall (A : Type) (bs : list (bucket A)) i, i < length bs -> peek bs i = Ok (get bs i).
Proof. intros A [|b bs] i H; [cbn in H; lia|]. unfold peek. now apply rd_get. Qed.

Lemma split_at : forall (A : Type) (bs : list (bucket A)) i, i < length bs -> bs = firstn i bs ++ get bs i :: skipn (S i) bs.
Proof.
  intros A. induction bs as [|b bs IH]; intros i H; [cbn in H; lia|]. destruct i as [|i]; [reflexivity|]. cbn [firstn app skipn]. f_equal. apply IH. cbn in H. lia.
Qed.

Lemma items_app : forall (A : Type) (l m : list (bucket A)), items (l ++ m) = items l ++ items m.
Proof. intros. unfold items. apply flat_map_app. Qed.
Lemma items_cons : forall (A : Type) b (l : list (bucket A)), items (b :: l) = vals b ++ items l.
Proof. reflexivity. Qed.

Lemma wr_get : forall (A : Type) (bs : list (bucket A)) i x, i < length bs ->
  exists bs', wr bs i x = Ok bs' /\ length bs' = length bs /\ (forall j, get bs' j = if j =? i then x else get bs j) /\
    Permutation (vals (get bs i) ++ items bs') (vals x ++ items bs).
Proof.
  intros A bs i x H. destruct (wr_nth _ bs i x H) as [b [E [L N]]]. exists b. split; [auto|]. split; [auto|]. split.
  - intros j. unfold get. specialize (N j). destruct (Nat.eq_dec j i) as [Hj|Hj].
    + subst j. rewrite Nat.eqb_refl. now apply nth_error_nth.
    + rewrite (proj2 (Nat.eqb_neq _ _)) by auto. destruct (nth_error bs j) as [y|] eqn:Ej; try rewrite Ej in N.
      * apply (nth_error_nth _ _ None) in N. apply (nth_error_nth _ _ None) in Ej. exact (eq_trans N (eq_sym Ej)).
      * rewrite !nth_overflow; [reflexivity|now apply nth_error_None|now apply nth_error_None].
  - rewrite wr_ok in E by auto. assert (Eb : b = firstn i bs ++ x :: skipn (S i) bs) by congruence. rewrite Eb. assert (Es : items bs = items (firstn i bs) ++ vals (get bs i) ++ items (skipn (S i) bs)) by (rewrite (split_at _ bs i H) at 1; now rewrite items_app, items_cons).
    rewrite Es, items_app, items_cons. set (l1 := items (firstn i bs)). set (l2 := items (skipn (S i) bs)). rewrite (Permutation_app_swap_app (vals (get bs i))), (Permutation_app_swap_app (vals x)). apply Permutation_app_head.
    apply Permutation_app_swap_app.
Qed.

Lemma in_items : forall (A : Type) (bs : list (bucket A)) v, In v (items bs) <-> exists i d h, i < length bs /\ get bs i = Some (d, h, v).
Proof.
  intros A bs v. unfold items. rewrite in_flat_map. split.
  - intros [[[[d h] w]|] [Hb Hv]]; [|destruct Hv]. destruct Hv as [<-|[]]. destruct (In_nth _ _ None Hb) as [i [Hi E]]. exists i, d, h. split; auto.
  - intros [i [d [h [Hi E]]]]. exists (Some (d, h, v)). split; [|left; reflexivity]. unfold get in E. rewrite <- E. now apply nth_In.
Qed.

Lemma filter_map_comm : forall (A B : Type) (f : B -> bool) (g : A -> B) l, filter f (map g l) = map g (filter (fun x => f (g x)) l).
Proof. intros A B f g. induction l as [|x l IH]; [reflexivity|]. cbn. rewrite IH. destruct (f (g x)); reflexivity. Qed.

(** The occupied buckets are as many as the items. *)
Definition full {A : Type} (b : bucket A) : bool := match b with Some _ => true | None => false end.
Lemma full_count : forall (A : Type) (bs : list (bucket A)), length (filter (fun i => full (get bs i)) (seq 0 (length bs))) = length (items bs).
Proof.
  intros A. induction bs as [|b bs IH]; [reflexivity|]. cbn [length seq filter]. rewrite <- seq_shift, filter_map_comm. unfold get at 1. cbn [nth].
  assert (E : forall l, length ((if full b then [0] else []) ++ map S l) = length (vals b) + length l) by (intros l; rewrite app_length, map_length; destruct b as [[[d h] v]|]; reflexivity).
  transitivity (length ((if full b then [0] else []) ++ map S (filter (fun x => full (get (b :: bs) (S x))) (seq 0 (length bs))))); [destruct (full b); reflexivity|].
  rewrite E. cbn [items flat_map]. rewrite app_length. unfold items in IH. rewrite <- IH. reflexivity.
Qed.

Lemma some_empty : forall (A : Type) (bs : list (bucket A)), length (items bs) < length bs -> exists i, i < length bs /\ get bs i = None.
Proof.
  intros A. induction bs as [|b bs IH]; intros H; [cbn in H; lia|]. destruct b as [[[d h] v]|].
  - cbn in H. destruct IH as [i [Hi E]]; [unfold items; lia|]. exists (S i). split; [cbn; lia|exact E].
  - exists 0. split; [cbn; lia|reflexivity].
Qed.

(** ** The invariant *)
Definition home {A K : Type} (P : kind A K) (mask : N) (v : A) : nat := bucket_for_hash mask (k_hash P (k_key P v)).
Definition stored {A K : Type} (P : kind A K) (v : A) : N := truncated P (k_hash P (k_key P v)).

Record wf {A K : Type} (P : kind A K) (mask : N) (bs : list (bucket A)) : Prop := mkWf {
  wf_count : count_ok (length bs) mask;
  wf_home : forall i d h v, i < length bs -> get bs i = Some (d, h, v) -> (home P mask v + d) mod length bs = i /\ h = stored P v;
  wf_robin : forall i, i < length bs -> lv (get bs (nx (length bs) i)) <= S (lv (get bs i)) }.

Lemma wf_chain : forall (A K : Type) (P : kind A K) mask bs a n j, wf P mask bs ->
  lv (get bs ((a + (j + n)) mod length bs)) <= lv (get bs ((a + j) mod length bs)) + n.
Proof.
  intros A K P mask bs a n j W. pose proof (count_pos _ _ (wf_count _ _ _ W)) as C. induction n as [|n IH]; [rewrite !Nat.add_0_r; lia|].
  replace (j + S n) with (S (j + n)) by lia. rewrite <- pos_next by auto. pose proof (wf_robin _ _ _ W ((a + (j + n)) mod length bs) ltac:(apply Nat.mod_upper_bound; lia)). lia.
Qed.

(** Every bucket on the way from an item's ideal bucket to its own is occupied, by an
    item at least as far from its own ideal bucket. *)
Lemma wf_path : forall (A K : Type) (P : kind A K) mask bs i d h v j, wf P mask bs -> i < length bs -> get bs i = Some (d, h, v) -> j <= d ->
  j < lv (get bs ((home P mask v + j) mod length bs)).
Proof.
  intros A K P mask bs i d h v j W Hi E Hj. destruct (wf_home _ _ _ W i d h v Hi E) as [E2 _].
  pose proof (wf_chain A K P mask bs (home P mask v) (d - j) j W) as C. replace (j + (d - j)) with d in C by lia. rewrite E2, E in C. cbn [lv] in C. lia.
Qed.

Lemma depth_bound : forall (A K : Type) (P : kind A K) mask bs i, wf P mask bs -> length (items bs) < length bs -> i < length bs -> lv (get bs i) <= length (items bs).
Proof.
  intros A K P mask bs i W Hn Hi. destruct (get bs i) as [[[d h] v]|] eqn:E; [|cbn; lia]. cbn [lv]. pose proof (count_pos _ _ (wf_count _ _ _ W)) as C.
  assert (F : forall j, j <= d -> full (get bs ((home P mask v + j) mod length bs)) = true).
  { intros j Hj. pose proof (wf_path A K P mask bs i d h v j W Hi E Hj) as Q. destruct (get bs ((home P mask v + j) mod length bs)); [reflexivity|cbn in Q; lia]. }
  assert (Hd : d < length bs).
  { destruct (Nat.lt_ge_cases d (length bs)) as [|Hd]; [auto|exfalso]. destruct (some_empty _ bs Hn) as [z [Hz Ez]]. destruct (reach (length bs) (home P mask v) z) as [m [Hm Em]]; auto; [apply bucket_lt, (wf_count _ _ _ W)|].
    specialize (F m ltac:(lia)). rewrite Em, Ez in F. discriminate. }
  rewrite <- full_count. set (L := map (fun j => (home P mask v + j) mod length bs) (seq 0 (S d))).
  replace (S d) with (length L) by (unfold L; rewrite map_length, seq_length; auto). apply NoDup_incl_length.
  - unfold L. clear -Hd C. assert (G : forall l, NoDup l -> (forall j, In j l -> j < length bs) -> NoDup (map (fun j => (home P mask v + j) mod length bs) l)).
    { induction l as [|x l IH]; intros HN HB; [constructor|]. inversion HN as [|? ? H1 H2]. subst. cbn [map]. constructor; [|apply IH; [auto|intros; apply HB; now right]].
      intros HI. apply in_map_iff in HI. destruct HI as [y [Ey Hy]]. apply pos_inj in Ey; auto; [congruence|apply HB; now right|apply HB; now left]. }
    apply G; [apply seq_NoDup|]. intros j Hj. apply in_seq in Hj. lia.
  - intros x Hx. unfold L in Hx. apply in_map_iff in Hx. destruct Hx as [j [<- Hj]]. apply in_seq in Hj. apply filter_In. split; [apply in_seq; split; [lia|apply Nat.mod_upper_bound; lia]|apply F; lia].
Qed.

(** ** Looking up *)
Lemma bump_ok : forall lim d, (N.of_nat d < lim)%N -> bump lim d = Ok (S d).
Proof. intros lim d H. unfold bump. now rewrite (proj2 (N.ltb_lt _ _)). Qed.

(** The probing loop at distance [j]: the buckets before were occupied by farther items
    with other keys. *)
Definition passed {A K : Type} (P : kind A K) (bs : list (bucket A)) (a : nat) (k : K) (d : nat) : Prop :=
  forall j, j < d -> exists d' h v, get bs ((a + j) mod length bs) = Some (d', h, v) /\ j <= d' /\ k_key P v <> k.

Lemma probe_ok : forall (A K : Type) (P : kind A K) mask bs k, wf P mask bs -> length (items bs) < length bs -> (N.of_nat (length (items bs)) <= k_limit P)%N ->
  (forall x y, k_eq P x y = true <-> x = y) ->
  forall fuel a j, length (items bs) + 1 < fuel + j -> a < length bs -> passed P bs a k j ->
  exists i d f, probe P fuel bs mask k ((a + j) mod length bs) j = Ok (i, d, f) /\ i = (a + d) mod length bs /\ passed P bs a k d /\
    if f : bool then exists d' h v, get bs i = Some (d', h, v) /\ k_key P v = k else lv (get bs i) <= d.
Proof.
  intros A K P mask bs k W Hn H15 Heq. pose proof (count_pos _ _ (wf_count _ _ _ W)) as C. induction fuel as [|fuel IH]; intros a j Hf Ha Hp.
  - exfalso. destruct j as [|j]; [lia|]. destruct (Hp j ltac:(lia)) as [d' [h [v [E [Hj _]]]]]. pose proof (depth_bound A K P mask bs _ W Hn (Nat.mod_upper_bound (a + j) (length bs) ltac:(lia))) as D. rewrite E in D. cbn [lv] in D. lia.
  - cbn [probe]. set (i := (a + j) mod length bs). assert (Hi : i < length bs) by (apply Nat.mod_upper_bound; lia). rewrite peek_get by auto. cbn [bind].
    destruct (Nat.ltb_spec j (lv (get bs i))) as [Hl|Hl].
    + destruct (get bs i) as [[[d' h] v]|] eqn:E; [|cbn in Hl; lia]. destruct (k_eq P (k_key P v) k) eqn:Ek.
      * exists i, j, true. split; [reflexivity|]. split; [reflexivity|]. split; [auto|]. exists d', h, v. split; [auto|now apply Heq].
      * pose proof (depth_bound A K P mask bs i W Hn Hi) as D. rewrite E in D. cbn [lv] in D, Hl. rewrite bump_ok by lia. cbn [bind].
        rewrite (next_bucket_nx _ _ _ (wf_count _ _ _ W)). unfold i. rewrite pos_next by auto. apply IH; [lia|auto|].
        intros j' Hj'. destruct (Nat.eq_dec j' j) as [->|]; [|apply Hp; lia]. exists d', h, v. split; [exact E|]. split; [lia|]. intros Hk. apply Heq in Hk. congruence.
    + exists i, j, false. split; [reflexivity|]. split; [reflexivity|]. split; auto.
Qed.

(** If the loop ends without finding the key, it is not in the table. *)
Lemma passed_absent : forall (A K : Type) (P : kind A K) mask bs k d, wf P mask bs -> passed P bs (bucket_for_hash mask (k_hash P k)) k d ->
  lv (get bs ((bucket_for_hash mask (k_hash P k) + d) mod length bs)) <= d -> ~ In k (map (k_key P) (items bs)).
Proof.
  intros A K P mask bs k d W Hp Hd Hk. apply in_map_iff in Hk. destruct Hk as [v [Ek Hv]]. apply in_items in Hv. destruct Hv as [i [dq [h [Hi E]]]].
  assert (Eh : home P mask v = bucket_for_hash mask (k_hash P k)) by (unfold home; now rewrite Ek). destruct (Nat.lt_ge_cases dq d) as [L|L].
  - destruct (Hp dq L) as [d' [h' [v' [E' [_ N]]]]]. destruct (wf_home _ _ _ W i dq h v Hi E) as [E2 _]. rewrite Eh in E2. rewrite E2, E in E'. congruence.
  - pose proof (wf_path A K P mask bs i dq h v d W Hi E L) as Q. rewrite Eh in Q. lia.
Qed.

Lemma skip_ok : forall (A K : Type) (P : kind A K) mask bs, wf P mask bs -> length (items bs) < length bs -> (N.of_nat (length (items bs)) <= k_limit P)%N ->
  forall fuel a j, length (items bs) + 1 < fuel + j -> a < length bs -> (forall j', j' < j -> j' < lv (get bs ((a + j') mod length bs))) ->
  exists d, skip (k_limit P) fuel bs mask ((a + j) mod length bs) j = Ok ((a + d) mod length bs, d) /\ (forall j', j' < d -> j' < lv (get bs ((a + j') mod length bs))) /\
    lv (get bs ((a + d) mod length bs)) <= d.
Proof.
  intros A K P mask bs W Hn H15. pose proof (count_pos _ _ (wf_count _ _ _ W)) as C. induction fuel as [|fuel IH]; intros a j Hf Ha Hp.
  - exfalso. destruct j as [|j]; [lia|]. specialize (Hp j ltac:(lia)). pose proof (depth_bound A K P mask bs _ W Hn (Nat.mod_upper_bound (a + j) (length bs) ltac:(lia))) as D. lia.
  - cbn [skip]. set (i := (a + j) mod length bs). assert (Hi : i < length bs) by (apply Nat.mod_upper_bound; lia). rewrite peek_get by auto. cbn [bind].
    destruct (Nat.ltb_spec j (lv (get bs i))) as [Hl|Hl].
    + pose proof (depth_bound A K P mask bs i W Hn Hi) as D. rewrite bump_ok by lia. cbn [bind]. rewrite (next_bucket_nx _ _ _ (wf_count _ _ _ W)). unfold i. rewrite pos_next by auto.
      apply IH; [lia|auto|]. intros j' Hj'. destruct (Nat.eq_dec j' j) as [->|]; [exact Hl|apply Hp; lia].
    + exists j. split; [reflexivity|]. split; auto.
Qed.

(** ** Putting a value in *)

(** Putting [(d, v)] into bucket [p] keeps the invariant, if the bucket before is far
    enough out and the one in [p] was not farther. *)
Lemma wf_put : forall (A K : Type) (P : kind A K) mask bs bs' p d v, wf P mask bs -> p < length bs -> length bs' = length bs ->
  (forall j, get bs' j = if j =? p then Some (d, stored P v, v) else get bs j) -> (home P mask v + d) mod length bs = p ->
  (forall q, q < length bs -> nx (length bs) q = p -> q <> p -> d <= lv (get bs q)) -> lv (get bs p) <= S d -> wf P mask bs'.
Proof.
  intros A K P mask bs bs' p d v W Hp L G Hh Hq Hl. constructor.
  - rewrite L. apply W.
  - rewrite L. intros i d' h' v' Hi E. rewrite G in E. destruct (Nat.eqb_spec i p) as [->|]; [|eapply W; eauto]. inversion E. subst. auto.
  - rewrite L. intros i Hi. rewrite !G. destruct (Nat.eqb_spec (nx (length bs) i) p) as [E1|N1], (Nat.eqb_spec i p) as [E2|N2].
    + lia.
    + cbn [lv]. specialize (Hq i Hi E1 N2). lia.
    + cbn [lv]. subst i. pose proof (wf_robin _ _ _ W p Hp). lia.
    + apply W. auto.
Qed.

Lemma place_ok : forall (A K : Type) (P : kind A K) mask fuel m bs p d v, wf P mask bs -> p < length bs -> length (items bs) < length bs -> (N.of_nat (length (items bs)) <= k_limit P)%N ->
  (home P mask v + d) mod length bs = p -> (forall q, q < length bs -> nx (length bs) q = p -> d <= lv (get bs q)) ->
  get bs ((p + m) mod length bs) = None -> m < fuel -> m < length bs ->
  exists bs', place (k_limit P) fuel mask bs p d (stored P v) v = Ok bs' /\ wf P mask bs' /\ length bs' = length bs /\ Permutation (items bs') (v :: items bs) /\
    (forall q, q < length bs -> (forall j, j <= m -> (p + j) mod length bs <> q) -> get bs' q = get bs q) /\
    (lv (get bs p) <= d -> get bs' p = Some (d, stored P v, v)).
Proof.
  intros A K P mask. induction fuel as [|fuel IH]; intros m bs p d v W Hp Hn H15 Hh Hq Hm Hf Hmb; [lia|].
  cbn [place]. pose proof (count_pos _ _ (wf_count _ _ _ W)) as C. rewrite rd_get by auto. cbn [bind].
  destruct (get bs p) as [[[d2 h2] v2]|] eqn:E; cbn [lv].
  - assert (Hm1 : exists m', m = S m'). { destruct m as [|m']; [|eauto]. rewrite Nat.add_0_r, Nat.mod_small, E in Hm by auto. discriminate. }
    destruct Hm1 as [m' ->]. pose proof (wf_home _ _ _ W p d2 h2 v2 Hp E) as [Hh2 Hs2]. pose proof (depth_bound A K P mask bs p W Hn Hp) as D. rewrite E in D. cbn [lv] in D.
    assert (Hz : (p + S m') mod length bs <> p) by (intros Ez; rewrite Ez, E in Hm; discriminate).
    assert (C1 : 1 < length bs) by (destruct (Nat.eq_dec (length bs) 1) as [E1|]; [rewrite E1 in Hz; rewrite Nat.mod_1_r in Hz; lia|lia]).
    assert (Hnx : nx (length bs) p < length bs) by (apply nx_lt; auto). assert (Hpn : nx (length bs) p <> p) by (apply nx_neq; auto).
    assert (Em : (nx (length bs) p + m') mod length bs = (p + S m') mod length bs) by (unfold nx; rewrite Nat.add_mod_idemp_l by lia; f_equal; lia).
    assert (Path : forall q, (forall j, j <= S m' -> (p + j) mod length bs <> q) -> q <> p /\ forall j, j <= m' -> (nx (length bs) p + j) mod length bs <> q).
    { intros q Hj. split; [specialize (Hj 0 ltac:(lia)); rewrite Nat.add_0_r, Nat.mod_small in Hj by auto; auto|]. intros j Hjm. specialize (Hj (S j) ltac:(lia)). unfold nx. rewrite Nat.add_mod_idemp_l by lia. now replace (p + 1 + j) with (p + S j) by lia. }
    destruct (Nat.leb_spec (S d2) d) as [Hd|Hd].
    + destruct (wr_get A bs p (Some (d, stored P v, v)) Hp) as [bs1 [E1 [L1 [G1 P1]]]]. rewrite E1. cbn [bind]. rewrite bump_ok by lia. cbn [bind]. rewrite (next_bucket_nx _ _ _ (wf_count _ _ _ W)).
      assert (W1 : wf P mask bs1) by (eapply (wf_put A K P mask bs bs1 p d v); eauto; rewrite E; cbn; lia).
      assert (I1 : length (items bs1) = length (items bs)) by (apply Permutation_length in P1; rewrite E in P1; cbn in P1; lia).
      rewrite Hs2. destruct (IH m' bs1 (nx (length bs) p) (S d2) v2) as [bs2 [E2 [W2 [L2 [P2 [Q2 _]]]]]]; auto; rewrite ?L1, ?I1; auto; try lia.
      * rewrite <- pos_next by auto. now rewrite Hh2.
      * intros q Hqb Eq. apply nx_inj in Eq; auto. subst q. rewrite G1, Nat.eqb_refl. cbn. lia.
      * rewrite Em, G1. rewrite (proj2 (Nat.eqb_neq _ _)) by auto. exact Hm.
      * exists bs2. split; [auto|]. split; [auto|]. split; [lia|]. split; [|].
        -- rewrite P2. rewrite E in P1. cbn [vals app] in P1. exact P1.
        -- split.
           ++ intros q Hqb Hqj. destruct (Path q Hqj) as [Hqp Hqm]. rewrite Q2; [rewrite G1, (proj2 (Nat.eqb_neq _ _)) by auto; reflexivity|lia|rewrite L1; auto].
           ++ intros _. rewrite Q2; [rewrite G1, Nat.eqb_refl; reflexivity|lia|]. rewrite L1. intros j Hj Ej. unfold nx in Ej. rewrite Nat.add_mod_idemp_l in Ej by lia.
              assert (X : S j = 0); [|discriminate]. apply (pos_inj (length bs) p); try lia. rewrite Nat.add_0_r, (Nat.mod_small p) by auto. rewrite <- Ej at 2. f_equal. lia.
    + rewrite bump_ok by lia. cbn [bind]. rewrite (next_bucket_nx _ _ _ (wf_count _ _ _ W)).
      destruct (IH m' bs (nx (length bs) p) (S d) v) as [bs2 [E2 [W2 [L2 [P2 [Q2 _]]]]]]; auto; try lia.
      * rewrite <- pos_next by auto. now rewrite Hh.
      * intros q Hqb Eq. apply nx_inj in Eq; auto. subst q. rewrite E. cbn. lia.
      * rewrite Em. exact Hm.
      * exists bs2. split; [auto|]. split; [auto|]. split; [auto|]. split; [auto|]. split; [|lia]. intros q Hqb Hqj. destruct (Path q Hqj) as [Hqp Hqm]. apply Q2; auto.
  - cbn [Nat.leb]. destruct (wr_get A bs p (Some (d, stored P v, v)) Hp) as [bs1 [E1 [L1 [G1 P1]]]]. rewrite E1. exists bs1. split; [reflexivity|]. split; [eapply (wf_put A K P mask bs bs1 p d v); eauto; rewrite E; cbn; lia|].
    split; [auto|]. split; [rewrite E in P1; exact P1|]. split; [|intros _; rewrite G1, Nat.eqb_refl; reflexivity]. intros q Hqb Hqj. specialize (Hqj 0 ltac:(lia)). rewrite Nat.add_0_r, Nat.mod_small in Hqj by auto. rewrite G1, (proj2 (Nat.eqb_neq _ _)) by auto. reflexivity.
Qed.
