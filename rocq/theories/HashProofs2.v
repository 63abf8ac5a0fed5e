(** * Proofs about the hash table: operations and histories. *)
From Coq Require Import NArith ZArith SpecFloat List Arith Bool Lia Sorting.Permutation.
From Verif Require Import Base ConvertModel ConvProofs HashModel HashArith HashSpec HashProofs.
Import ListNotations.
Local Open Scope nat_scope.

(** ** insert_value is the loop of rehashing with a flag *)
Lemma shift_in_place : forall (A : Type) lim mask size fuel (bs : list (bucket A)) i d h v flag bs', place lim fuel mask bs i d h v = Ok bs' ->
  exists f, shift_in lim fuel mask size bs i d h v flag = Ok (bs', f).
Proof.
  intros A lim mask size. induction fuel as [|fuel IH]; intros bs i d h v flag bs' H; [discriminate|]. cbn [place shift_in] in *.
  destruct (rd bs i) as [b| | | |]; cbn [bind] in *; try discriminate. destruct b as [[[d2 h2] v2]|]; cbn [lv] in H.
  - unfold Nat.ltb. destruct (S d2 <=? d).
    + destruct (wr bs i _) as [b1| | | |]; cbn [bind] in *; try discriminate. destruct (bump _ d2); cbn [bind] in *; try discriminate. eauto.
    + destruct (bump _ d); cbn [bind] in *; try discriminate. eauto.
  - cbn [Nat.leb] in H. rewrite H. cbn [bind]. eauto.
Qed.

Lemma insert_at_place : forall (A K : Type) (P : kind A K) t i d v bs', i < length (t_buckets t) -> lv (get (t_buckets t) i) <= d ->
  place (k_limit P) (S (length (t_buckets t))) (t_mask t) (t_buckets t) i d (stored P v) v = Ok bs' ->
  exists f, insert_at P t i d v = Ok (mkT bs' (t_mask t) (S (t_size t)) f).
Proof.
  intros A K P t i d v bs' Hi Hl H. unfold insert_at. fold (stored P v). cbn [place] in H. rewrite rd_get in * by auto. cbn [bind] in *. rewrite (proj2 (Nat.leb_le _ _)) in H by auto.
  destruct (get (t_buckets t) i) as [[[d2 h2] v2]|] eqn:E.
  - unfold insert_value. rewrite rd_get, E by auto. cbn [bind]. destruct (wr (t_buckets t) i _) as [b1| | | |]; cbn [bind] in *; try discriminate. destruct (bump _ d2); cbn [bind] in *; try discriminate.
    destruct (shift_in_place A (k_limit P) (t_mask t) (t_size t) _ _ _ _ _ _ (t_grow t) _ H) as [f E2]. rewrite E2. cbn [bind fst snd]. eauto.
  - rewrite H. cbn [bind]. eauto.
Qed.

(** ** Rehashing *)
Lemma empty_get : forall (A : Type) n i, get (repeat (@None (nat * N * A)) n) i = None.
Proof. intros A n i. unfold get. revert i. induction n as [|n IH]; intros [|i]; cbn; auto. Qed.

Lemma empty_items : forall (A : Type) n, items (repeat (@None (nat * N * A)) n) = [].
Proof. intros A. induction n as [|n IH]; [reflexivity|]. cbn [repeat]. rewrite items_cons. exact IH. Qed.

Lemma wf_empty : forall (A K : Type) (P : kind A K) mask n, count_ok n mask -> wf P mask (repeat None n).
Proof.
  intros A K P mask n C. constructor.
  - now rewrite repeat_length.
  - intros i d h v _ E. rewrite empty_get in E. discriminate.
  - intros i _. rewrite !empty_get. cbn. lia.
Qed.

Lemma place_home : forall (A K : Type) (P : kind A K) mask bs v, wf P mask bs -> length (items bs) < length bs -> (N.of_nat (length (items bs)) <= k_limit P)%N ->
  exists bs', place (k_limit P) (length bs) mask bs (home P mask v) 0 (stored P v) v = Ok bs' /\ wf P mask bs' /\ length bs' = length bs /\ Permutation (items bs') (v :: items bs).
Proof.
  intros A K P mask bs v W Hn H15. pose proof (count_pos _ _ (wf_count _ _ _ W)) as C. pose proof (bucket_lt _ _ (k_hash P (k_key P v)) (wf_count _ _ _ W)) as Hh. fold (home P mask v) in Hh.
  destruct (some_empty _ bs Hn) as [z [Hz Ez]]. destruct (reach (length bs) (home P mask v) z C Hh Hz) as [m [Hm Em]].
  destruct (place_ok A K P mask (length bs) m bs (home P mask v) 0 v) as [bs' [E [W' [L [Pm _]]]]]; auto.
  - rewrite Nat.add_0_r. apply Nat.mod_small. auto.
  - intros. lia.
  - now rewrite Em.
  - eauto.
Qed.

Lemma move_all_ok : forall (A K : Type) (P : kind A K) mask old new, wf P mask new -> (forall b, In b old -> match b with Some (_, th, v) => th = stored P v | None => True end) ->
  length (items old) + length (items new) < length new -> (N.of_nat (length (items old) + length (items new)) <= k_limit P)%N ->
  exists bs, move_all P mask old new = Ok bs /\ wf P mask bs /\ length bs = length new /\ Permutation (items bs) (items old ++ items new).
Proof.
  intros A K P mask. induction old as [|b old IH]; intros new W Ho Hn H15.
  - exists new. cbn. auto.
  - unfold move_all. cbn [fold_left bind]. destruct b as [[[d th] v]|].
    + rewrite items_cons in *. cbn [vals app length] in *. rewrite (Ho (Some (d, th, v)) (or_introl eq_refl)).
      set (h := if k_store P && (mask <=? 4294967295)%N then stored P v else k_hash P (k_key P v)).
      assert (E1 : bucket_for_hash mask h = home P mask v).
      { unfold h, home, stored, truncated. destruct (k_store P); cbn [andb]; [|reflexivity]. destruct (N.leb_spec mask 4294967295); [|reflexivity]. eapply bucket_truncated; eauto. apply W. }
      assert (E2 : truncated P h = stored P v).
      { unfold h, stored, truncated. destruct (k_store P); cbn [andb]; [|reflexivity]. destruct (N.leb_spec mask 4294967295); [|reflexivity]. apply N.mod_mod. lia. }
      rewrite E1, E2. destruct (place_home A K P mask new v W) as [bs1 [E3 [W1 [L1 P1]]]]; [lia|lia|]. rewrite E3. pose proof (Permutation_length P1) as PL. cbn [length] in PL.
      destruct (IH bs1 W1) as [bs2 [E4 [W2 [L2 P2]]]]; [intros; apply Ho; now right|rewrite PL, L1; lia|rewrite PL; lia|].
      exists bs2. split; [exact E4|]. split; [auto|]. split; [lia|]. rewrite P2, P1. rewrite <- Permutation_middle. reflexivity.
    + rewrite items_cons in *. cbn [vals app] in *. apply IH; auto. intros; apply Ho; now right.
Qed.

(** ** The invariant of a table holding the values [s] *)
Record inv {A K : Type} (P : kind A K) (s : list A) (t : table A) : Prop := mkInv {
  i_wf : (t_buckets t = [] /\ t_mask t = 0%N) \/ wf P (t_mask t) (t_buckets t);
  i_size : t_size t = length s;
  i_load : length s <= length (t_buckets t) - 1;
  i_keys : NoDup (map (k_key P) s);
  i_items : Permutation (items (t_buckets t)) s }.

Lemma new_table_ok : forall (A K : Type) (P : kind A K) n, (n < 2 ^ 64)%N -> inv P [] (@new_table A n) /\ (0 < n -> wf P (t_mask (@new_table A n)) (t_buckets (@new_table A n)) /\ n <= N.of_nat (length (t_buckets (@new_table A n))))%N.
Proof.
  intros A K P n Hn. unfold new_table. destruct (N.ltb_spec 0 n) as [H|H].
  - destruct (round_up_spec n ltac:(lia)) as [k [E Hk]]. rewrite E. assert (C : count_ok (N.to_nat (2 ^ k)) (2 ^ k - 1)) by (exists k; auto).
    split; [|intros _; cbn [t_buckets t_mask]; split; [now apply wf_empty|rewrite repeat_length; lia]].
    constructor; cbn [t_buckets t_mask t_size]; [right; now apply wf_empty|reflexivity|cbn; lia|constructor|rewrite empty_items; constructor].
  - split; [|lia]. constructor; cbn; [left; auto|reflexivity|lia|constructor|constructor].
Qed.

Lemma inv_th : forall (A K : Type) (P : kind A K) s t b, inv P s t -> In b (t_buckets t) -> match b with Some (_, th, v) => th = stored P v | None => True end.
Proof.
  intros A K P s t [[[d th] v]|] I Hb; [|auto]. destruct (i_wf _ _ _ I) as [[E _]|W]; [rewrite E in Hb; destruct Hb|]. destruct (In_nth _ _ None Hb) as [i [Hi E]]. apply (wf_home _ _ _ W i d th v Hi E).
Qed.

Lemma rehash_ok : forall (A K : Type) (P : kind A K) n s t, inv P s t -> (0 < n < 2 ^ 64)%N \/ (exists k, n = 2 ^ k)%N -> (N.of_nat (length s) < n)%N -> (N.of_nat (length s) <= k_limit P)%N ->
  exists t', rehash_impl P n t = Ok t' /\ inv P s t' /\ wf P (t_mask t') (t_buckets t') /\ (n <= N.of_nat (length (t_buckets t')))%N.
Proof.
  intros A K P n s t I Hn Hs H15. pose proof (Permutation_length (i_items _ _ _ I)) as PL. unfold rehash_impl.
  assert (T : wf P (t_mask (@new_table A n)) (t_buckets (@new_table A n)) /\ (n <= N.of_nat (length (t_buckets (@new_table A n))))%N /\ items (t_buckets (@new_table A n)) = [] /\ (0 < n)%N).
  { assert (Z : items (t_buckets (@new_table A n)) = []) by (unfold new_table; cbn [t_buckets]; apply empty_items). destruct Hn as [Hn|[k Hk]].
    - destruct (new_table_ok A K P n ltac:(lia)) as [_ T]. destruct (T ltac:(lia)) as [T1 T2]. split; [exact T1|]. split; [exact T2|]. split; [exact Z|lia].
    - assert (0 < n)%N by (rewrite Hk; assert (2 ^ k <> 0)%N by (apply N.pow_nonzero; lia); lia). assert (E : round_up n = n) by (unfold round_up; rewrite Hk, power_of_two_pow; reflexivity).
      unfold new_table in *. rewrite (proj2 (N.ltb_lt 0 n)) in * by auto. rewrite E in *. cbn [t_mask t_buckets] in *. split; [apply wf_empty; exists k; split; congruence|]. rewrite repeat_length. split; [lia|]. split; auto. }
  destruct T as [W [Hc [Z H0]]]. destruct (move_all_ok A K P _ (t_buckets t) (t_buckets (@new_table A n)) W) as [bs [E [W' [L Pm]]]].
  - intros b Hb. eapply inv_th; eauto.
  - rewrite Z, PL. cbn [length]. lia.
  - rewrite Z, PL. cbn [length]. lia.
  - rewrite E. cbn [bind]. eexists. split; [reflexivity|]. rewrite Z, app_nil_r in Pm. split; [|cbn [t_buckets t_mask]; split; [auto|lia]].
    constructor; cbn [t_buckets t_mask t_size]; [auto|apply I|lia|apply I|rewrite Pm; apply I].
Qed.

(** ** Keys *)
Lemma key_unique : forall (A K : Type) (f : A -> K) s v w, NoDup (map f s) -> In v s -> In w s -> f v = f w -> v = w.
Proof.
  intros A K f. induction s as [|x s IH]; intros v w H Hv Hw E; [destruct Hv|]. cbn [map] in H. inversion H as [|? ? H1 H2]. subst. destruct Hv as [->|Hv], Hw as [->|Hw]; auto.
  - exfalso. apply H1. rewrite E. now apply in_map.
  - exfalso. apply H1. rewrite <- E. now apply in_map.
Qed.

Lemma lookup_none : forall (A K : Type) (P : kind A K) k s, (forall x y, k_eq P x y = true <-> x = y) -> (lookup P k s = None <-> ~ In k (map (k_key P) s)).
Proof.
  intros A K P k s Heq. unfold lookup. split.
  - intros H Hk. apply in_map_iff in Hk. destruct Hk as [v [E Hv]]. pose proof (find_none _ _ H v Hv) as F. cbn in F. rewrite (proj2 (Heq _ _) E) in F. discriminate.
  - intros H. destruct (List.find _ s) as [v|] eqn:F; [exfalso|auto]. apply find_some in F. destruct F as [Hv F]. apply Heq in F. apply H. rewrite <- F. now apply in_map.
Qed.

Lemma lookup_some : forall (A K : Type) (P : kind A K) s v, (forall x y, k_eq P x y = true <-> x = y) -> NoDup (map (k_key P) s) -> In v s -> lookup P (k_key P v) s = Some v.
Proof.
  intros A K P s v Heq HN Hv. unfold lookup. destruct (List.find _ s) as [w|] eqn:F.
  - apply find_some in F. destruct F as [Hw F]. apply Heq in F. f_equal. eapply key_unique; eauto.
  - pose proof (find_none _ _ F v Hv) as X. cbn in X. rewrite (proj2 (Heq _ _) eq_refl) in X. discriminate.
Qed.

(** ** The probing loop on a table *)
Lemma probe_table : forall (A K : Type) (P : kind A K) s t k, (forall x y, k_eq P x y = true <-> x = y) -> inv P s t -> (N.of_nat (length s) <= k_limit P)%N ->
  exists i d f, probe P (length (t_buckets t) + 2) (t_buckets t) (t_mask t) k (bucket_for_hash (t_mask t) (k_hash P k)) 0 = Ok (i, d, f) /\
    if f : bool then exists d' h v, i < length (t_buckets t) /\ get (t_buckets t) i = Some (d', h, v) /\ k_key P v = k /\ In v s /\ wf P (t_mask t) (t_buckets t)
    else ~ In k (map (k_key P) s) /\ (t_buckets t <> [] -> i = (bucket_for_hash (t_mask t) (k_hash P k) + d) mod length (t_buckets t) /\
      (forall j, j < d -> j < lv (get (t_buckets t) ((bucket_for_hash (t_mask t) (k_hash P k) + j) mod length (t_buckets t)))) /\ lv (get (t_buckets t) i) <= d).
Proof.
  intros A K P s t k Heq I H15. pose proof (Permutation_length (i_items _ _ _ I)) as PL. pose proof (i_load _ _ _ I) as HL. destruct (i_wf _ _ _ I) as [[E1 E2]|W].
  - rewrite E1, E2. unfold bucket_for_hash. rewrite N.land_0_r. exists 0, 0, false. split; [reflexivity|]. split; [|intros X; congruence].
    rewrite E1 in HL. cbn in HL. assert (s = []) by (destruct s; [auto|cbn in HL; lia]). subst s. intros [].
  - set (a := bucket_for_hash (t_mask t) (k_hash P k)). assert (Ha : a < length (t_buckets t)) by (apply bucket_lt, (wf_count _ _ _ W)). pose proof (count_pos _ _ (wf_count _ _ _ W)) as C.
    destruct (probe_ok A K P (t_mask t) (t_buckets t) k W ltac:(lia) ltac:(lia) Heq (length (t_buckets t) + 2) a 0) as [i [d [f [E [Ei [Hp Hf]]]]]]; [lia|auto|intros j Hj; lia|].
    rewrite Nat.add_0_r, Nat.mod_small in E by auto. exists i, d, f. split; [exact E|]. destruct f.
    + destruct Hf as [d' [h [v [Eg Ek]]]]. assert (Hi : i < length (t_buckets t)) by (rewrite Ei; apply Nat.mod_upper_bound; lia). exists d', h, v. split; [auto|]. split; [auto|]. split; [auto|]. split; [|auto].
      apply (Permutation_in _ (i_items _ _ _ I)), in_items. exists i, d', h. auto.
    + split.
      * intros Hk. rewrite Ei in Hf. eapply passed_absent; eauto. eapply Permutation_in; [|exact Hk]. apply Permutation_map, Permutation_sym, I.
      * intros _. split; [auto|]. split; [|auto]. intros j Hj. destruct (Hp j Hj) as [d' [h [v [Eg [Hle _]]]]]. rewrite Eg. cbn. lia.
Qed.

(** ** Insertion *)
Lemma insert_at_ok : forall (A K : Type) (P : kind A K) s t d v, inv P s t -> wf P (t_mask t) (t_buckets t) -> (N.of_nat (length s) <= k_limit P)%N -> ~ In (k_key P v) (map (k_key P) s) ->
  S (length s) < length (t_buckets t) ->
  (forall j, j < d -> j < lv (get (t_buckets t) ((home P (t_mask t) v + j) mod length (t_buckets t)))) ->
  lv (get (t_buckets t) ((home P (t_mask t) v + d) mod length (t_buckets t))) <= d ->
  exists t', insert_at P t ((home P (t_mask t) v + d) mod length (t_buckets t)) d v = Ok t' /\ inv P (v :: s) t' /\
    (home P (t_mask t) v + d) mod length (t_buckets t) < length (t_buckets t') /\ exists h, get (t_buckets t') ((home P (t_mask t) v + d) mod length (t_buckets t)) = Some (d, h, v).
Proof.
  intros A K P s t d v I W H15 Hk Hc Hj Hl. pose proof (Permutation_length (i_items _ _ _ I)) as PL. pose proof (count_pos _ _ (wf_count _ _ _ W)) as C. set (bs := t_buckets t) in *. set (p := (home P (t_mask t) v + d) mod length bs) in *.
  assert (Hp : p < length bs) by (apply Nat.mod_upper_bound; lia). destruct (some_empty _ bs ltac:(unfold bs in *; lia)) as [z [Hz Ez]]. destruct (reach (length bs) p z C Hp Hz) as [m [Hm Em]].
  destruct (place_ok A K P (t_mask t) (S (length bs)) m bs p d v) as [bs' [E [W' [L [Pm [_ G]]]]]]; auto; try (unfold bs in *; lia).
  - intros q Hq Eq. destruct d as [|d]; [lia|]. specialize (Hj d ltac:(lia)). replace q with ((home P (t_mask t) v + d) mod length bs); [unfold bs in *; lia|].
    apply (nx_inj (length bs)); auto; [apply Nat.mod_upper_bound; lia|]. rewrite Eq. rewrite pos_next by auto. reflexivity.
  - now rewrite Em.
  - destruct (insert_at_place A K P t p d v bs') as [f Ef]; auto. eexists. split; [exact Ef|]. cbn [t_buckets]. split; [|split; [rewrite L; auto|exists (stored P v); auto]].
    constructor; cbn [t_buckets t_mask t_size].
    + auto.
    + rewrite (i_size _ _ _ I). reflexivity.
    + rewrite L. cbn [length]. lia.
    + cbn [map]. constructor; [auto|apply I].
    + rewrite Pm. constructor. apply I.
Qed.

Lemma insert_ok : forall (A K : Type) (P : kind A K) s t v, (forall x y, k_eq P x y = true <-> x = y) -> inv P s t -> (N.of_nat (length s) <= k_limit P)%N ->
  exists t' i b, insert P v t = Ok (t', i, b) /\ match lookup P (k_key P v) s with
    | Some w => b = false /\ t' = t /\ i < length (t_buckets t) /\ wf P (t_mask t) (t_buckets t) /\ exists d h, get (t_buckets t) i = Some (d, h, w)
    | None => b = true /\ inv P (v :: s) t' /\ wf P (t_mask t') (t_buckets t') /\ i < length (t_buckets t') /\ exists d h, get (t_buckets t') i = Some (d, h, v) end.
Proof.
  intros A K P s t v Heq I H15. unfold insert. destruct (probe_table A K P s t (k_key P v) Heq I H15) as [i [d [f [E Hf]]]]. rewrite E. cbn [bind]. destruct f.
  - destruct Hf as [d' [h [w [Hi [Eg [Ek [Hw W]]]]]]]. exists t, i, false. split; [reflexivity|]. rewrite <- Ek. rewrite (lookup_some A K P s w) by (auto; apply I). eauto 10.
  - destruct Hf as [Hk Hpos]. rewrite (proj2 (lookup_none A K P (k_key P v) s Heq) Hk).
    assert (Iw : forall s' t', inv P (v :: s') t' -> wf P (t_mask t') (t_buckets t')).
    { intros s' t' I'. destruct (i_wf _ _ _ I') as [[E1 _]|]; [|auto]. pose proof (i_load _ _ _ I') as L'. rewrite E1 in L'. cbn in L'. lia. }
    destruct (t_grow t || (threshold t <=? t_size t)) eqn:G.
    + assert (N2 : exists k, ((t_mask t + 1) * 2 = 2 ^ k)%N /\ (2 * N.of_nat (length s) + 2 <= 2 ^ k)%N).
      { pose proof (i_load _ _ _ I) as HL. destruct (i_wf _ _ _ I) as [[E1 E2]|W].
        - exists 1%N. rewrite E2. rewrite E1 in HL. cbn [length] in HL. split; [reflexivity|]. change (2 ^ 1)%N with 2%N. lia.
        - destruct (wf_count _ _ _ W) as [k [Ec Em]]. assert (P0 : (2 ^ k <> 0)%N) by (apply N.pow_nonzero; lia). exists (N.succ k). rewrite N.pow_succ_r'. split; [lia|]. lia. }
      destruct N2 as [k [Ek Hk2]]. destruct (rehash_ok A K P ((t_mask t + 1) * 2) s t I (or_intror (ex_intro _ k Ek)) ltac:(lia) H15) as [t1 [E1 [I1 [W1 L1]]]]. rewrite E1. cbn [bind].
      pose proof (Permutation_length (i_items _ _ _ I1)) as PL1. pose proof (bucket_lt _ _ (k_hash P (k_key P v)) (wf_count _ _ _ W1)) as Ha. pose proof (count_pos _ _ (wf_count _ _ _ W1)) as C1.
      destruct (skip_ok A K P (t_mask t1) (t_buckets t1) W1 ltac:(lia) ltac:(lia) (length (t_buckets t1) + 2) (bucket_for_hash (t_mask t1) (k_hash P (k_key P v))) 0) as [d1 [E2 [Hj Hl]]]; [lia|auto|intros; lia|].
      rewrite Nat.add_0_r, Nat.mod_small in E2 by auto. rewrite E2. cbn [bind fst snd].
      destruct (insert_at_ok A K P s t1 d1 v I1 W1 H15 Hk ltac:(lia) Hj Hl) as [t2 [E3 [I2 [Hi [h G2]]]]]. unfold home in *. rewrite E3. cbn [bind]. do 3 eexists. split; [reflexivity|]. split; [reflexivity|]. split; [auto|]. split; [eapply Iw; eauto|]. split; eauto.
    + apply orb_false_iff in G. destruct G as [_ G]. apply Nat.leb_gt in G. unfold threshold in G. rewrite (i_size _ _ _ I) in G.
      assert (Hne : t_buckets t <> []) by (intros Z; rewrite Z in G; cbn in G; lia). destruct (Hpos Hne) as [Ei [Hj Hl]]. destruct (i_wf _ _ _ I) as [[Z _]|W]; [congruence|].
      assert (Hc : S (length s) < length (t_buckets t)). { pose proof (Nat.div_mod (length (t_buckets t)) 2 ltac:(lia)) as D. lia. }
      rewrite Ei in Hl. destruct (insert_at_ok A K P s t d v I W H15 Hk Hc Hj Hl) as [t2 [E3 [I2 [Hi [h G2]]]]]. unfold home in *. rewrite <- Ei in *. rewrite E3. cbn [bind]. do 3 eexists. split; [reflexivity|]. split; [reflexivity|]. split; [auto|]. split; [eapply Iw; eauto|]. split; eauto.
Qed.

Lemma find_ok : forall (A K : Type) (P : kind A K) s t k, (forall x y, k_eq P x y = true <-> x = y) -> inv P s t -> (N.of_nat (length s) <= k_limit P)%N -> find P k t = Ok (lookup P k s).
Proof.
  intros A K P s t k Heq I H15. unfold find. destruct (probe_table A K P s t k Heq I H15) as [i [d [f [E Hf]]]]. rewrite E. cbn [bind]. destruct f.
  - destruct Hf as [d' [h [w [Hi [Eg [Ek [Hw W]]]]]]]. rewrite rd_get, Eg by auto. cbn [bind]. rewrite <- Ek. rewrite (lookup_some A K P s w) by (auto; apply I). reflexivity.
  - destruct Hf as [Hk _]. now rewrite (proj2 (lookup_none A K P k s Heq) Hk).
Qed.

(** ** Assignment *)
Lemma perm_replace : forall (A K : Type) (f : A -> K) (eqk : K -> K -> bool) g s w r, (forall x y, eqk x y = true <-> x = y) -> NoDup (map f s) -> Permutation s (w :: r) ->
  Permutation (map (fun x => if eqk (f x) (f w) then g x else x) s) (g w :: r).
Proof.
  intros A K f eqk g s w r Heq HN HP. rewrite (Permutation_map (fun x => if eqk (f x) (f w) then g x else x) HP). cbn [map]. rewrite (proj2 (Heq _ _) eq_refl). constructor.
  assert (HN2 : NoDup (map f (w :: r))) by (eapply Permutation_NoDup; [apply Permutation_map; exact HP|auto]). cbn [map] in HN2. inversion HN2 as [|? ? H1 H2]. subst.
  rewrite <- (map_id r) at 2. erewrite map_ext_in; [reflexivity|]. intros x Hx. cbn. destruct (eqk (f x) (f w)) eqn:E; [|reflexivity]. exfalso. apply Heq in E. apply H1. rewrite <- E. now apply in_map.
Qed.

Lemma write_ok : forall (A K : Type) (P : kind A K) s t i d h w set, (forall x y, k_eq P x y = true <-> x = y) -> (forall x, k_key P (set x) = k_key P x) -> inv P s t -> wf P (t_mask t) (t_buckets t) ->
  i < length (t_buckets t) -> get (t_buckets t) i = Some (d, h, w) ->
  exists bs, wr (t_buckets t) i (Some (d, h, set w)) = Ok bs /\
    inv P (map (fun x => if k_eq P (k_key P x) (k_key P w) then set x else x) s) (mkT bs (t_mask t) (t_size t) (t_grow t)).
Proof.
  intros A K P s t i d h w set Heq Hset I W Hi Eg. destruct (wr_get A (t_buckets t) i (Some (d, h, set w)) Hi) as [bs [E [L [G Pm]]]]. exists bs. split; [auto|].
  assert (Hl : forall j, lv (get bs j) = lv (get (t_buckets t) j)) by (intros j; rewrite G; destruct (Nat.eqb_spec j i) as [->|]; [rewrite Eg|]; reflexivity).
  destruct (wf_home _ _ _ W i d h w Hi Eg) as [Hh Hst]. constructor; cbn [t_buckets t_mask t_size].
  - right. constructor.
    + rewrite L. apply W.
    + rewrite L. intros j d' h' v' Hj E'. rewrite G in E'. destruct (Nat.eqb_spec j i) as [->|]; [|eapply W; eauto]. inversion E'. subst. unfold home, stored. rewrite Hset. auto.
    + rewrite L. intros j Hj. rewrite !Hl. now apply W.
  - rewrite map_length. apply I.
  - rewrite map_length, L. apply I.
  - rewrite map_map. erewrite map_ext; [apply I|]. intros x. cbn. destruct (k_eq P _ _); auto.
  - rewrite Eg in Pm. cbn [vals app] in Pm. assert (Hw : In w (items (t_buckets t))) by (apply in_items; eauto). destruct (in_split _ _ Hw) as [l1 [l2 El]].
    assert (P1 : Permutation s (w :: l1 ++ l2)) by (rewrite <- (i_items _ _ _ I), El; symmetry; apply Permutation_middle).
    rewrite (perm_replace A K (k_key P) (k_eq P) set s w (l1 ++ l2) Heq (i_keys _ _ _ I) P1). apply (Permutation_cons_inv (a := w)). rewrite Pm, El. rewrite <- Permutation_middle. apply perm_swap.
Qed.

Lemma assign_ok : forall (A K : Type) (P : kind A K) s t v set, (forall x y, k_eq P x y = true <-> x = y) -> (forall x, k_key P (set x) = k_key P x) -> inv P s t -> (N.of_nat (length s) <= k_limit P)%N ->
  exists t' s', assign P v set t = Ok t' /\ inv P s' t' /\ Permutation s' (fst (spec_step P s (Assign v set))).
Proof.
  intros A K P s t v set Heq Hset I H15. unfold assign. destruct (insert_ok A K P s t v Heq I H15) as [t' [i [b [E H]]]]. rewrite E. cbn [bind spec_step]. destruct (lookup P (k_key P v) s) as [w|] eqn:Lk.
  - destruct H as [_ [-> [Hi [W [d [h Eg]]]]]]. rewrite rd_get, Eg by auto. cbn [bind]. destruct (write_ok A K P s t i d h w set Heq Hset I W Hi Eg) as [bs [E2 I2]]. rewrite E2. cbn [bind].
    do 2 eexists. split; [reflexivity|]. split; [exact I2|]. cbn [fst]. unfold lookup in Lk. apply find_some in Lk. destruct Lk as [_ Lk]. apply Heq in Lk. rewrite Lk. reflexivity.
  - destruct H as [_ [I1 [W [Hi [d [h Eg]]]]]]. rewrite rd_get, Eg by auto. cbn [bind]. destruct (write_ok A K P (v :: s) t' i d h v set Heq Hset I1 W Hi Eg) as [bs [E2 I2]]. rewrite E2. cbn [bind].
    do 2 eexists. split; [reflexivity|]. split; [exact I2|]. cbn [fst map]. rewrite (proj2 (Heq _ _) eq_refl). constructor. rewrite <- (map_id s) at 2. erewrite map_ext_in; [reflexivity|].
    intros x Hx. cbn. destruct (k_eq P _ _) eqn:Ex; [|reflexivity]. exfalso. apply Heq in Ex. apply (proj1 (lookup_none A K P (k_key P v) s Heq) Lk). rewrite <- Ex. now apply in_map.
Qed.

(** ** Erasing *)
Lemma shift_back_ok : forall (A K : Type) (P : kind A K) mask fuel m bs prev e, count_ok (length bs) mask -> prev < length bs -> get bs prev = None ->
  (forall i d h v, i < length bs -> get bs i = Some (d, h, v) -> (home P mask v + d) mod length bs = i /\ h = stored P v) ->
  (forall i, i < length bs -> i <> prev -> lv (get bs (nx (length bs) i)) <= S (lv (get bs i))) ->
  lv (get bs (nx (length bs) prev)) <= S e -> (forall q, q < length bs -> nx (length bs) q = prev -> e <= S (lv (get bs q))) ->
  (prev + S m) mod length bs <> prev -> get bs ((prev + S m) mod length bs) = None -> m < fuel ->
  exists bs', shift_back fuel mask bs prev (nx (length bs) prev) = Ok bs' /\ wf P mask bs' /\ length bs' = length bs /\ Permutation (items bs') (items bs).
Proof.
  intros A K P mask. induction fuel as [|fuel IH]; intros m bs prev e Cok Hp Ep Hh Hr He Hq Hz Ez Hf; [lia|].
  pose proof (count_pos _ _ Cok) as C. assert (C1 : 1 < length bs) by (destruct (Nat.eq_dec (length bs) 1) as [E1|]; [rewrite E1, Nat.mod_1_r in Hz; lia|lia]).
  set (cur := nx (length bs) prev) in *. assert (Hc : cur < length bs) by (apply nx_lt; auto). assert (Hpc : cur <> prev) by (apply nx_neq; auto). cbn [shift_back]. rewrite rd_get by auto. cbn [bind].
  assert (Stop : lv (get bs cur) <= 1 -> wf P mask bs).
  { intros Hl. constructor; auto. intros i Hi. destruct (Nat.eq_dec i prev) as [->|]; [fold cur; rewrite Ep; cbn; lia|auto]. }
  destruct (get bs cur) as [[[[|d] h] v]|] eqn:Ec.
  - exists bs. split; [reflexivity|]. split; [apply Stop; cbn; lia|]. split; reflexivity.
  - destruct (Hh cur (S d) h v Hc Ec) as [Hv Hst]. cbn [lv] in He.
    destruct (wr_get A bs prev (Some (d, h, v)) Hp) as [bs1 [E1 [L1 [G1 P1]]]]. rewrite E1. cbn [bind]. destruct (wr_get A bs1 cur None ltac:(lia)) as [bs2 [E2 [L2 [G2 P2]]]]. rewrite E2. cbn [bind].
    assert (L : length bs2 = length bs) by lia. rewrite (next_bucket_nx _ _ _ Cok).
    assert (Hm : exists m', m = S m'). { destruct m as [|m']; [|eauto]. replace ((prev + 1) mod length bs) with cur in Ez by reflexivity. congruence. } destruct Hm as [m' ->].
    assert (Zp : (cur + S m') mod length bs = (prev + S (S m')) mod length bs) by (unfold cur, nx; rewrite Nat.add_mod_idemp_l by lia; f_equal; lia).
    assert (G : forall j, get bs2 j = if j =? cur then None else if j =? prev then Some (d, h, v) else get bs j) by (intros j; rewrite G2, G1; reflexivity).
    assert (Zc : (prev + S (S m')) mod length bs <> cur) by (intros X; rewrite X in Ez; congruence).
    rewrite <- L. destruct (IH m' bs2 cur (S (S d))) as [bs3 [E3 [W3 [L3 P3]]]]; rewrite ?L; auto.
    + rewrite G, Nat.eqb_refl. reflexivity.
    + intros i d' h' v' Hi Ei. rewrite G in Ei. destruct (Nat.eqb_spec i cur) as [|N1]; [discriminate|]. destruct (Nat.eqb_spec i prev) as [->|N2]; [|auto]. inversion Ei. subst d' h' v'. split; [|auto].
      apply (nx_inj (length bs)); auto; [apply Nat.mod_upper_bound; lia|]. rewrite pos_next by auto. exact Hv.
    + intros i Hi Hic. rewrite !G. rewrite (proj2 (Nat.eqb_neq i cur)) by auto. destruct (Nat.eqb_spec (nx (length bs) i) cur) as [X1|X1]; [cbn; lia|]. destruct (Nat.eqb_spec i prev) as [X2|X2]; [subst i; fold cur in X1; contradiction|].
      destruct (Nat.eqb_spec (nx (length bs) i) prev) as [X3|X3]; [|auto]. cbn [lv]. specialize (Hq i Hi X3). lia.
    + rewrite !G. rewrite (proj2 (Nat.eqb_neq (nx (length bs) cur) cur)) by (apply nx_neq; auto). destruct (Nat.eqb_spec (nx (length bs) cur) prev) as [X|X]; [cbn; lia|]. specialize (Hr cur Hc Hpc). rewrite Ec in Hr. exact Hr.
    + intros q Hqb Eq. apply nx_inj in Eq; auto. subst q. rewrite G. rewrite (proj2 (Nat.eqb_neq prev cur)) by auto. rewrite Nat.eqb_refl. cbn. lia.
    + rewrite Zp. auto.
    + rewrite Zp, G. rewrite (proj2 (Nat.eqb_neq _ cur)) by auto. rewrite (proj2 (Nat.eqb_neq _ prev)) by auto. exact Ez.
    + lia.
    + exists bs3. rewrite ?L in *. split; [exact E3|]. split; [auto|]. split; [lia|]. rewrite P3. apply (Permutation_cons_inv (a := v)).
      rewrite G1 in P2. rewrite (proj2 (Nat.eqb_neq cur prev)) in P2 by auto. rewrite Ec in P2. cbn [vals app] in P2. rewrite P2. rewrite Ep in P1. cbn [vals app] in P1. exact P1.
  - exists bs. split; [reflexivity|]. split; [apply Stop; cbn; lia|]. split; reflexivity.
Qed.

Lemma filter_perm : forall (A : Type) (f : A -> bool) l m, Permutation l m -> Permutation (filter f l) (filter f m).
Proof.
  intros A f l m H. induction H; cbn; [constructor| | |etransitivity; eauto].
  - destruct (f x); auto.
  - destruct (f x), (f y); auto. apply perm_swap.
Qed.

Lemma erase_ok : forall (A K : Type) (P : kind A K) s t k, (forall x y, k_eq P x y = true <-> x = y) -> inv P s t -> (N.of_nat (length s) <= k_limit P)%N ->
  exists t' n, erase P k t = Ok (t', n) /\ inv P (fst (spec_step P s (Erase k))) t' /\ snd (spec_step P s (Erase k)) = Number n.
Proof.
  intros A K P s t k Heq I H15. unfold erase. destruct (probe_table A K P s t k Heq I H15) as [i [d [f [E Hf]]]]. rewrite E. cbn [bind spec_step]. destruct f.
  - destruct Hf as [d' [h [w [Hi [Eg [Ek [Hw W]]]]]]]. rewrite <- Ek. rewrite (lookup_some A K P s w) by (auto; apply I). cbn [fst snd].
    pose proof (Permutation_length (i_items _ _ _ I)) as PL. pose proof (i_load _ _ _ I) as HL. pose proof (count_pos _ _ (wf_count _ _ _ W)) as C.
    destruct (wr_get A (t_buckets t) i None Hi) as [bs [E1 [L1 [G1 P1]]]]. rewrite E1. cbn [bind]. rewrite (next_bucket_nx _ _ _ (wf_count _ _ _ W)). set (bk := t_buckets t) in *.
    assert (Hs1 : 1 <= length s) by (destruct s; [destruct Hw|cbn; lia]). destruct (some_empty _ bk ltac:(lia)) as [z [Hz Ez]]. assert (Hzi : z <> i) by (intros ->; congruence).
    destruct (reach (length bk) i z C Hi Hz) as [m0 [Hm0 Em0]]. destruct m0 as [|m]; [rewrite Nat.add_0_r, Nat.mod_small in Em0 by auto; congruence|].
    assert (Hni : nx (length bk) i <> i) by (apply nx_neq; lia).
    destruct (shift_back_ok A K P (t_mask t) (length bs + 1) m bs i (S d')) as [bs' [E2 [W' [L2 P2]]]]; rewrite ?L1; auto.
    + apply W.
    + rewrite G1, Nat.eqb_refl. reflexivity.
    + intros j dj hj vj Hj Ej. rewrite G1 in Ej. destruct (Nat.eqb_spec j i); [discriminate|]. eapply W; eauto.
    + intros j Hj Hji. rewrite !G1. rewrite (proj2 (Nat.eqb_neq j i)) by auto. destruct (Nat.eqb_spec (nx (length bk) j) i); [cbn; lia|]. now apply W.
    + rewrite G1. rewrite (proj2 (Nat.eqb_neq _ _)) by auto. pose proof (wf_robin _ _ _ W i Hi) as R. fold bk in R. rewrite Eg in R. exact R.
    + intros q Hq Eq. rewrite G1. destruct (Nat.eqb_spec q i) as [->|]; [congruence|]. pose proof (wf_robin _ _ _ W q Hq) as R. fold bk in R. rewrite Eq, Eg in R. exact R.
    + rewrite Em0. auto.
    + rewrite Em0, G1. rewrite (proj2 (Nat.eqb_neq z i)) by auto. exact Ez.
    + lia.
    + rewrite L1 in E2. rewrite E2. cbn [bind]. do 2 eexists. split; [reflexivity|]. split; [|reflexivity]. rewrite Eg in P1. cbn [vals app] in P1.
      assert (Ps : Permutation s (w :: items bs')) by (rewrite <- (i_items _ _ _ I); fold bk; rewrite <- P1; constructor; symmetry; exact P2).
      assert (HN : NoDup (map (k_key P) (w :: items bs'))) by (eapply Permutation_NoDup; [apply Permutation_map; exact Ps|apply I]). cbn [map] in HN. inversion HN as [|? ? HN1 HN2]. subst.
      assert (Pf : Permutation (filter (fun v => negb (k_eq P (k_key P v) (k_key P w))) s) (items bs')).
      { rewrite (filter_perm A _ _ _ Ps). cbn [filter]. rewrite (proj2 (Heq _ _) eq_refl). cbn [negb]. assert (Ef : forall l, incl l (items bs') -> filter (fun v => negb (k_eq P (k_key P v) (k_key P w))) l = l).
        { induction l as [|x l IH]; intros Hl; [reflexivity|]. cbn [filter]. destruct (k_eq P (k_key P x) (k_key P w)) eqn:Ex.
          - exfalso. apply Heq in Ex. apply HN1. rewrite <- Ex. apply in_map, Hl. now left.
          - cbn [negb]. f_equal. apply IH. intros y Hy. apply Hl. now right. }
        rewrite Ef; [reflexivity|apply incl_refl]. }
      pose proof (Permutation_length Pf) as Lf. pose proof (Permutation_length Ps) as Lp. cbn [length] in Lp.
      constructor; cbn [t_buckets t_mask t_size].
      * auto.
      * rewrite (i_size _ _ _ I). lia.
      * lia.
      * eapply Permutation_NoDup; [apply Permutation_map, Permutation_sym; exact Pf|auto].
      * symmetry. exact Pf.
  - destruct Hf as [Hk _]. rewrite (proj2 (lookup_none A K P k s Heq) Hk). exists t, 0. auto.
Qed.

Lemma clear_ok : forall (A K : Type) (P : kind A K) s t, inv P s t -> inv P [] (clear t).
Proof.
  intros A K P s t I. unfold clear. assert (E : map (fun _ : bucket A => None) (t_buckets t) = repeat (@None (nat * N * A)) (length (t_buckets t))) by (induction (t_buckets t) as [|b l IH]; [reflexivity|cbn; now rewrite IH]).
  rewrite E. constructor; cbn [t_buckets t_mask t_size]; [|reflexivity|cbn; lia|constructor|rewrite empty_items; constructor].
  destruct (i_wf _ _ _ I) as [[E1 E2]|W]; [left; rewrite E1; auto|right; apply wf_empty, W].
Qed.

Lemma reserve_ok : forall (A K : Type) (P : kind A K) n s t, inv P s t -> (n < 2 ^ 62)%N -> (N.of_nat (length s) < 2 ^ 62)%N -> (N.of_nat (length s) <= k_limit P)%N -> exists t', reserve P n t = Ok t' /\ inv P s t'.
Proof.
  intros A K P n s t I Hn Hs62 H15. unfold reserve. rewrite (i_size _ _ _ I). set (m := N.max (doubled n) (doubled (N.of_nat (length s)))).
  assert (Hm : m = 0%N /\ length s = 0 \/ (0 < m < 2 ^ 64)%N /\ (N.of_nat (length s) < m)%N).
  { change (2 ^ 64)%N with 18446744073709551616%N. change (2 ^ 62)%N with 4611686018427387904%N in *. unfold m. destruct (N.eq_dec n 0) as [->|Hn0], (Nat.eq_dec (length s) 0) as [Hs0|Hs0].
    - rewrite Hs0. left. auto.
    - pose proof (doubled_pos (N.of_nat (length s)) ltac:(change (2 ^ 62)%N with 4611686018427387904%N; lia)) as D. change (2 ^ 64)%N with 18446744073709551616%N in D. change (doubled 0) with 0%N. right. lia.
    - pose proof (doubled_pos n ltac:(change (2 ^ 62)%N with 4611686018427387904%N; lia)) as D. change (2 ^ 64)%N with 18446744073709551616%N in D. rewrite Hs0. change (doubled (N.of_nat 0)) with 0%N. right. lia.
    - pose proof (doubled_pos n ltac:(change (2 ^ 62)%N with 4611686018427387904%N; lia)) as D. pose proof (doubled_pos (N.of_nat (length s)) ltac:(change (2 ^ 62)%N with 4611686018427387904%N; lia)) as D2. change (2 ^ 64)%N with 18446744073709551616%N in *. right. lia. }
  destruct Hm as [[Hm Hs]|[Hm1 Hm2]].
  - assert (s = []) by (destruct s; [auto|discriminate]). subst s. rewrite Hm. unfold rehash_impl. cbn [new_table t_mask t_buckets]. 
    assert (E : move_all P (t_mask (@new_table A 0)) (t_buckets t) (t_buckets (@new_table A 0)) = Ok []).
    { pose proof (Permutation_length (i_items _ _ _ I)) as PL. cbn [length] in PL. unfold move_all. cbn [new_table t_mask t_buckets N.ltb repeat N.to_nat]. assert (G : forall l : list (bucket A), length (items l) = 0 -> forall g, (forall bs, g (Ok bs) None = Ok bs) -> fold_left g l (Ok []) = Ok (@nil (bucket A))).
      { induction l as [|[[[d h] v]|] l IH]; intros Hl g Hg; [reflexivity|cbn in Hl; lia|]. cbn [fold_left]. rewrite Hg. apply IH; auto. }
      apply G; [lia|reflexivity]. }
    cbn [new_table t_mask t_buckets] in E. rewrite E. cbn [bind]. eexists. split; [reflexivity|]. constructor; cbn; [left; auto|apply I|lia|constructor|constructor].
  - destruct (rehash_ok A K P m s t I (or_introl Hm1) Hm2 H15) as [t' [E [I' _]]]. eauto.
Qed.

(** ** Histories *)
Lemma inv_perm : forall (A K : Type) (P : kind A K) s s' t, Permutation s s' -> inv P s t -> inv P s' t.
Proof.
  intros A K P s s' t H I. pose proof (Permutation_length H) as L. constructor; [apply I|rewrite <- L; apply I|rewrite <- L; apply I|eapply Permutation_NoDup; [apply Permutation_map; exact H|apply I]|rewrite <- H; apply I].
Qed.

Lemma step_ok : forall (A K : Type) (P : kind A K) s t o, (forall x y, k_eq P x y = true <-> x = y) -> right_op P o -> inv P s t -> (N.of_nat (length s) < 2 ^ 62)%N -> (N.of_nat (length s) <= k_limit P)%N ->
  exists t' a, step P t o = Ok (t', a) /\ inv P (fst (spec_step P s o)) t' /\ agree a (snd (spec_step P s o)).
Proof.
  intros A K P s t o Heq Hr I H62 H15. destruct o as [v|k|k|v set| | | |n].
  - destruct (insert_ok A K P s t v Heq I H15) as [t' [i [b [E H]]]]. cbn [step spec_step]. rewrite E. cbn [bind fst snd]. destruct (lookup P (k_key P v) s); cbn [fst snd].
    + destruct H as [-> [-> _]]. do 2 eexists. split; [reflexivity|]. split; [auto|reflexivity].
    + destruct H as [-> [I' _]]. do 2 eexists. split; [reflexivity|]. split; [auto|reflexivity].
  - cbn [step spec_step]. rewrite (find_ok A K P s t k Heq I H15). cbn [bind fst snd]. do 2 eexists. split; [reflexivity|]. split; [auto|reflexivity].
  - destruct (erase_ok A K P s t k Heq I H15) as [t' [n [E [I' Ea]]]]. cbn [step]. rewrite E. cbn [bind fst snd]. do 2 eexists. split; [reflexivity|]. split; [auto|]. rewrite Ea. reflexivity.
  - destruct (assign_ok A K P s t v set Heq Hr I H15) as [t' [s' [E [I' Ps]]]]. cbn [step]. rewrite E. cbn [bind]. do 2 eexists. split; [reflexivity|]. split; [eapply inv_perm; eauto|]. cbn [spec_step]. destruct (lookup P _ s); reflexivity.
  - cbn [step spec_step fst snd]. do 2 eexists. split; [reflexivity|]. split; [auto|]. cbn. f_equal. apply I.
  - cbn [step spec_step fst snd]. do 2 eexists. split; [reflexivity|]. split; [auto|]. cbn. apply I.
  - cbn [step spec_step fst snd]. do 2 eexists. split; [reflexivity|]. split; [eapply clear_ok; eauto|reflexivity].
  - destruct (reserve_ok A K P n s t I Hr H62 H15) as [t' [E I']]. cbn [step]. rewrite E. cbn [bind spec_step fst snd]. do 2 eexists. split; [reflexivity|]. split; [auto|reflexivity].
Qed.

Lemma run_ok : forall (A K : Type) (P : kind A K) m, (forall x y, k_eq P x y = true <-> x = y) -> (m <= k_limit P)%N -> (m < 2 ^ 62)%N -> forall ops s t, Forall (right_op P) ops -> fits P m s ops -> inv P s t ->
  exists l, run P t ops = Ok l /\ Forall2 agree l (spec_run P s ops).
Proof.
  intros A K P m Heq Hl H62. induction ops as [|o ops IH]; intros s t Hr Hf I; [exists []; split; [reflexivity|constructor]|]. inversion Hr as [|? ? Hr1 Hr2]. subst. destruct Hf as [H15 Hf].
  destruct (step_ok A K P s t o Heq Hr1 I (N.le_lt_trans _ _ _ H15 H62) (N.le_trans _ _ _ H15 Hl)) as [t' [a [E [I' Ha]]]]. cbn [run spec_run]. rewrite E. cbn [bind fst snd]. destruct (IH _ t' Hr2 Hf I') as [l [E2 F]]. rewrite E2. cbn [bind]. eexists. split; [reflexivity|]. constructor; auto.
Qed.

Lemma history_ok : forall (A K : Type) (P : kind A K) n ops, (forall x y, k_eq P x y = true <-> x = y) -> (k_limit P < 2 ^ 62)%N -> (n < 2 ^ 62)%N -> Forall (right_op P) ops -> fits P (k_limit P) [] ops ->
  exists answers, run P (new_table n) ops = Ok answers /\ Forall2 agree answers (spec_run P [] ops).
Proof.
  intros A K P n ops Heq Hl Hn Hr Hf. apply (run_ok A K P (k_limit P)); auto; [reflexivity|]. apply new_table_ok. change (2 ^ 62)%N with 4611686018427387904%N in Hn. change (2 ^ 64)%N with 18446744073709551616%N. lia.
Qed.
