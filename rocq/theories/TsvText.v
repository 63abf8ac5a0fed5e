(** * Reading the text of a number. *)
From Coq Require Import ZArith NArith QArith Qpower Qabs Lia Lqa List Bool SpecFloat.
From Verif Require Import Base Float32 FloatBits DivFacts TsvModel TsvSpec TsvNum TsvNum2 TsvNum3 TsvNum4.
Import ListNotations.
Local Open Scope Z_scope.

Definition numa (acc : Z) (l : list Z) : Z := fold_left (fun a d => a * 10 + d) l acc.

Lemma numa_app : forall a l1 l2, numa a (l1 ++ l2) = numa (numa a l1) l2.
Proof. intros. unfold numa. apply fold_left_app. Qed.

Lemma numa_shift : forall l a, numa a l = a * 10 ^ Z.of_nat (length l) + numa 0 l.
Proof.
  unfold numa. induction l as [|d l IH]; intros a; [cbn; lia|]. cbn [fold_left length]. rewrite IH. rewrite (IH (0 * 10 + d)).
  rewrite Nat2Z.inj_succ, Z.pow_succ_r by lia. ring.
Qed.

Lemma digs_length : forall k n, length (digs k n) = k.
Proof. induction k as [|k IH]; intros n; cbn; auto. Qed.

Lemma digs_digits : forall k n, is_digits (digs k n).
Proof.
  induction k as [|k IH]; intros n; cbn; constructor; [|apply IH]. pose proof (Z.mod_pos_bound (n / 10 ^ Z.of_nat k) 10 ltac:(lia)). lia.
Qed.

Lemma digs_num : forall k n, 0 <= n -> numa 0 (digs k n) = n mod 10 ^ Z.of_nat k.
Proof.
  induction k as [|k IH]; intros n Hn; [cbn; rewrite Z.mod_1_r; reflexivity|].
  cbn [digs]. change (numa 0 (((n / 10 ^ Z.of_nat k) mod 10) :: digs k n)) with (numa (0 * 10 + (n / 10 ^ Z.of_nat k) mod 10) (digs k n)).
  rewrite numa_shift, digs_length, IH by auto. rewrite Nat2Z.inj_succ, Z.pow_succ_r by lia.
  assert (P : 0 < 10 ^ Z.of_nat k) by (apply Z.pow_pos_nonneg; lia). rewrite (Z.mul_comm 10). rewrite Z.rem_mul_r by lia. ring.
Qed.

Lemma digs_value : forall k n, 0 <= n < 10 ^ Z.of_nat k -> numa 0 (digs k n) = n.
Proof. intros k n H. rewrite digs_num by lia. apply Z.mod_small. auto. Qed.

Lemma strip0_app : forall l, exists j, l = strip0 l ++ repeat 0 j.
Proof.
  induction l as [|d l [j IH]]; [exists 0%nat; reflexivity|]. cbn [strip0]. destruct (strip0 l) as [|a t] eqn:E.
  - destruct (Z.eqb_spec d 0) as [->|N].
    + exists (S j). cbn in *. rewrite IH. reflexivity.
    + exists j. cbn in *. rewrite IH. reflexivity.
  - exists j. rewrite IH at 1. reflexivity.
Qed.

Lemma numa_zeros : forall j a, numa a (repeat 0 j) = a * 10 ^ Z.of_nat j.
Proof.
  induction j as [|j IH]; intros a; [cbn; lia|]. cbn [repeat]. change (numa a (0 :: repeat 0 j)) with (numa (a * 10 + 0) (repeat 0 j)).
  rewrite IH, Nat2Z.inj_succ, Z.pow_succ_r by lia. ring.
Qed.

Lemma strip0_digits : forall l, is_digits l -> is_digits (strip0 l).
Proof. intros l H. destruct (strip0_app l) as [j E]. rewrite E in H. unfold is_digits in *. apply Forall_app in H. apply H. Qed.

Lemma strip0_num : forall a l, numa a l = numa a (strip0 l) * 10 ^ (Z.of_nat (length l) - Z.of_nat (length (strip0 l))) /\ (length (strip0 l) <= length l)%nat.
Proof.
  intros a l. destruct (strip0_app l) as [j E]. assert (L : length l = (length (strip0 l) + j)%nat) by (rewrite E at 1; rewrite app_length, repeat_length; reflexivity).
  split; [|lia]. rewrite E at 1. rewrite numa_app, numa_zeros. f_equal. f_equal. lia.
Qed.

(** ** Characters *)

Lemma char_digit : forall d, 0 <= d <= 9 -> digitc (Z.to_N (48 + d)) = true /\ signc (Z.to_N (48 + d)) = false /\ is_ws (Z.to_N (48 + d)) = false /\
  (Z.to_N (48 + d) =? 46)%N = false /\ Z.of_N (Z.to_N (48 + d)) - 48 = d.
Proof.
  intros d H. assert (D : d = 0 \/ d = 1 \/ d = 2 \/ d = 3 \/ d = 4 \/ d = 5 \/ d = 6 \/ d = 7 \/ d = 8 \/ d = 9) by lia.
  destruct D as [->|[->|[->|[->|[->|[->|[->|[->|[->| ->]]]]]]]]]; repeat split.
Qed.

Definition no_digit (l : list N) : Prop := match l with c :: _ => digitc c = false | [] => True end.

Lemma read_digits_chars : forall l acc cnt rest, is_digits l -> no_digit rest ->
  read_digits acc cnt (chars l ++ rest) = (numa acc l, cnt + Z.of_nat (length l), rest).
Proof.
  induction l as [|d l IH]; intros acc cnt rest H N.
  - cbn [chars map app length]. rewrite Z.add_0_r. destruct rest as [|c t]; [reflexivity|]. cbn in N. cbn [read_digits]. rewrite N. reflexivity.
  - inversion H as [|? ? H1 H2]; subst. destruct (char_digit d H1) as [C1 [_ [_ [_ C2]]]]. cbn [chars map app read_digits]. rewrite C1, C2.
    change (map (fun d0 => Z.to_N (48 + d0)) l) with (chars l). rewrite IH by auto. cbn [length]. rewrite Nat2Z.inj_succ. f_equal. f_equal. lia.
Qed.

(** ** strtof on the text of a number *)

(** The exponent part, as in the text of %g: [] or e, a sign and digits. *)
Inductive tail_of : list N -> Z -> Prop :=
| tail_none : tail_of [] 0
| tail_exp : forall (s : bool) (E : list Z), E <> [] -> is_digits E -> tail_of (101%N :: (if s then 45%N else 43%N) :: chars E) (if s then - numa 0 E else numa 0 E).

Lemma parse_ok : forall s A B tail x, A <> [] -> is_digits A -> is_digits B -> tail_of tail x ->
  parse_num (minus s ++ chars A ++ frac B ++ tail) = Some (s, numa 0 (A ++ strip0 B), x - Z.of_nat (length (strip0 B))).
Proof.
  intros s A B tail x NA HA HB T.
  assert (Sg : read_sign (minus s ++ chars A ++ frac B ++ tail) = (s, chars A ++ frac B ++ tail)).
  { destruct s; [reflexivity|]. destruct A as [|d A]; [contradiction|]. inversion HA as [|? ? H1 H2]; subst. destruct (char_digit d H1) as [_ [C _]].
    cbn [minus app chars map read_sign]. rewrite C. reflexivity. }
  assert (NT : no_digit tail /\ match tail with c :: _ => (c =? 46)%N = false | [] => True end) by (inversion T; subst; cbn; auto).
  destruct NT as [NT1 NT2].
  assert (NF : no_digit (frac B ++ tail)) by (unfold frac; destruct (strip0 B); [exact NT1|reflexivity]).
  unfold parse_num. rewrite Sg. rewrite read_digits_chars by auto.
  assert (Pt : read_point (numa 0 A) (frac B ++ tail) = (numa 0 (A ++ strip0 B), Z.of_nat (length (strip0 B)), tail)).
  { pose proof (strip0_digits B HB) as HS. unfold frac. destruct (strip0 B) as [|a t].
    - rewrite app_nil_r. cbn [app]. destruct tail as [|c t]; [reflexivity|]. cbn [read_point]. rewrite NT2. reflexivity.
    - cbn [app read_point N.eqb Pos.eqb]. change (46 =? 46)%N with true. cbn iota. rewrite read_digits_chars by auto. rewrite <- numa_app. reflexivity. }
  rewrite Pt. destruct A as [|a A]; [contradiction|]. destruct (Z.eqb_spec (0 + Z.of_nat (length (a :: A)) + Z.of_nat (length (strip0 B))) 0); [cbn [length] in *; lia|].
  inversion T as [|s' E NE HE]; subst.
  - f_equal.
  - change ((101 =? 101)%N || (101 =? 69)%N) with true. cbn iota.
    assert (Sg' : read_sign ((if s' then 45%N else 43%N) :: chars E) = (s', chars E)) by (destruct s'; reflexivity). rewrite Sg'.
    rewrite <- (app_nil_r (chars E)). rewrite read_digits_chars by (auto; exact I).
    destruct (Z.eqb_spec (0 + Z.of_nat (length E)) 0); [destruct E; [contradiction|cbn [length] in *; lia]|reflexivity].
Qed.

(** ** operator>> takes all of it *)

Lemma take_digits : forall l sg man dot sci rest, is_digits l ->
  take_num sg man dot sci (chars l ++ rest) =
  let '(a, r) := (match l with [] => take_num sg man dot sci rest | _ => take_num false true dot sci rest end) in (chars l ++ a, r).
Proof.
  induction l as [|d l IH]; intros sg man dot sci rest H; [cbn [chars map app]; destruct (take_num _ _ _ _ rest); reflexivity|].
  inversion H as [|? ? H1 H2]; subst. destruct (char_digit d H1) as [C1 [C2 _]]. cbn [chars map app take_num]. rewrite C1, C2, andb_false_r.
  change (map (fun d0 => Z.to_N (48 + d0)) l) with (chars l). rewrite IH by auto.
  destruct l as [|d' l]; destruct (take_num false true dot sci rest); reflexivity.
Qed.

Lemma take_stop : forall man dot sci sg c rest, is_ws c = true -> take_num sg man dot sci (c :: rest) = ([], c :: rest).
Proof.
  intros man dot sci sg c rest H. unfold is_ws in H. cbn [take_num].
  assert (D : (c = 32 \/ c = 9 \/ c = 10 \/ c = 11 \/ c = 12 \/ c = 13)%N).
  { apply orb_true_iff in H. destruct H as [H|H]; [apply N.eqb_eq in H; auto|]. apply andb_true_iff in H. destruct H as [H1 H2]. apply N.leb_le in H1. apply N.leb_le in H2. lia. }
  destruct D as [->|[->|[->|[->|[->| ->]]]]]; cbn; rewrite ?andb_false_r; reflexivity.
Qed.

Lemma take_e : forall dot t, take_num false true dot false (101%N :: t) = let '(a, r) := take_num true true dot true t in (101%N :: a, r).
Proof. intros [] t; reflexivity. Qed.
Lemma take_dot : forall t, take_num false true false false (46%N :: t) = let '(a, r) := take_num false true true false t in (46%N :: a, r).
Proof. reflexivity. Qed.
Lemma take_sign : forall (s' : bool) man dot sci t, take_num true man dot sci ((if s' then 45%N else 43%N) :: t) =
  let '(a, r) := take_num false man dot sci t in ((if s' then 45%N else 43%N) :: a, r).
Proof. intros [] man dot sci t; reflexivity. Qed.

Lemma take_ok : forall s A B tail x c rest, A <> [] -> is_digits A -> is_digits B -> tail_of tail x -> is_ws c = true ->
  take_num true false false false ((minus s ++ chars A ++ frac B ++ tail) ++ c :: rest) = (minus s ++ chars A ++ frac B ++ tail, c :: rest).
Proof.
  intros s A B tail x c rest NA HA HB T W.
  assert (T1 : forall dot, take_num false true dot false (tail ++ c :: rest) = (tail, c :: rest)).
  { intro dot. inversion T as [|s' E NE HE]; subst; [apply take_stop; auto|].
    rewrite <- !app_comm_cons. rewrite take_e, take_sign, take_digits by auto. destruct E as [|e E]; [contradiction|]. rewrite take_stop by auto. rewrite app_nil_r. reflexivity. }
  assert (T2 : take_num false true false false ((frac B ++ tail) ++ c :: rest) = (frac B ++ tail, c :: rest)).
  { pose proof (strip0_digits B HB) as HS. unfold frac. destruct (strip0 B) as [|a t]; [apply T1|].
    rewrite <- app_assoc. rewrite <- app_comm_cons. rewrite take_dot. rewrite take_digits by auto. rewrite T1. reflexivity. }
  assert (T3 : forall sg, take_num sg false false false ((chars A ++ frac B ++ tail) ++ c :: rest) = (chars A ++ frac B ++ tail, c :: rest)).
  { intro sg. rewrite <- app_assoc. rewrite take_digits by auto. destruct A as [|a A]; [contradiction|]. rewrite T2. reflexivity. }
  destruct s; [|apply T3]. pose proof (take_sign true false false false ((chars A ++ frac B ++ tail) ++ c :: rest)) as X.
  rewrite T3 in X. exact X.
Qed.

(** ** The text %g writes *)

Lemma firstn_digits : forall l n, is_digits l -> is_digits (firstn n l).
Proof. intros l n H. unfold is_digits in *. rewrite <- (firstn_skipn n l) in H. apply Forall_app in H. apply H. Qed.
Lemma skipn_digits : forall l n, is_digits l -> is_digits (skipn n l).
Proof. intros l n H. unfold is_digits in *. rewrite <- (firstn_skipn n l) in H. apply Forall_app in H. apply H. Qed.

Lemma fmt_form : forall D k, 100000 <= D < 1000000 -> -99 <= k <= 99 -> exists A B tail x,
  A <> [] /\ is_digits A /\ is_digits B /\ tail_of tail x /\ fmt_dec D k = chars A ++ frac B ++ tail /\
  numa 0 (A ++ B) = D /\ x - Z.of_nat (length B) = k - 5.
Proof.
  intros D k HD HK. pose proof (digs_digits 6 D) as G. assert (V : numa 0 (digs 6 D) = D) by (apply digs_value; cbn; lia).
  pose proof (digs_length 6 D) as L. unfold fmt_dec. destruct ((k <? -4) || (6 <=? k)) eqn:C.
  - exists (firstn 1 (digs 6 D)), (skipn 1 (digs 6 D)), (101%N :: (if k <? 0 then 45%N else 43%N) :: chars (digs 2 (Z.abs k))), k.
    split; [discriminate|]. split; [apply firstn_digits; auto|]. split; [apply skipn_digits; auto|]. split.
    + assert (E : k = if k <? 0 then - numa 0 (digs 2 (Z.abs k)) else numa 0 (digs 2 (Z.abs k))).
      { rewrite digs_value by (cbn; lia). destruct (Z.ltb_spec k 0); lia. }
      pose proof (tail_exp (k <? 0) (digs 2 (Z.abs k)) ltac:(discriminate) (digs_digits _ _)) as T. rewrite <- E in T. exact T.
    + split; [reflexivity|]. rewrite firstn_skipn. split; [exact V|]. rewrite skipn_length, L. cbn. lia.
  - apply orb_false_iff in C. destruct C as [C1 C2]. apply Z.ltb_ge in C1. apply Z.leb_gt in C2. destruct (Z.leb_spec 0 k) as [K|K].
    + exists (firstn (Z.to_nat (k + 1)) (digs 6 D)), (skipn (Z.to_nat (k + 1)) (digs 6 D)), [], 0.
      split. { intro E. apply (f_equal (@length Z)) in E. rewrite firstn_length, L in E. cbn [length] in E. lia. }
      split; [apply firstn_digits; auto|]. split; [apply skipn_digits; auto|]. split; [constructor|]. split; [rewrite app_nil_r; reflexivity|].
      rewrite firstn_skipn. split; [exact V|]. rewrite skipn_length, L. lia.
    + exists [0], (repeat 0 (Z.to_nat (- k - 1)) ++ digs 6 D), [], 0. split; [discriminate|]. split; [repeat constructor; lia|].
      split. { apply Forall_app. split; [|exact G]. apply Forall_forall. intros z Hz. apply repeat_spec in Hz. subst. lia. }
      split; [constructor|]. split; [rewrite app_nil_r; reflexivity|]. split.
      * rewrite app_assoc. change ([0] ++ repeat 0 (Z.to_nat (- k - 1))) with (repeat 0 (S (Z.to_nat (- k - 1)))). rewrite numa_app, numa_zeros. exact V.
      * rewrite app_length, repeat_length, L. lia.
Qed.

(** What operator>> makes of the text of a number, followed by white space. *)
Lemma scan_fmt : forall s D k c rest, 100000 <= D < 1000000 -> -99 <= k <= 99 -> is_ws c = true ->
  exists tok r D' q', take_num true false false false ((minus s ++ fmt_dec D k) ++ c :: rest) = (tok, c :: rest) /\
    parse_num tok = Some (s, D', q') /\ 0 < D' /\ strtof s D' q' = r /\ strtof s D (k - 5) = r.
Proof.
  intros s D k c rest HD HK W. destruct (fmt_form D k HD HK) as [A [B [tail [x [NA [HA [HB [T [E [V X]]]]]]]]]].
  exists (minus s ++ fmt_dec D k), (strtof s D (k - 5)). exists (numa 0 (A ++ strip0 B)), (x - Z.of_nat (length (strip0 B))).
  rewrite E. split; [apply (take_ok s A B tail x); auto|]. split; [apply parse_ok; auto|].
  rewrite numa_app in V. destruct (strip0_num (numa 0 A) B) as [S1 S2]. rewrite S1, <- numa_app in V. set (D' := numa 0 (A ++ strip0 B)) in *.
  set (j := Z.of_nat (length B) - Z.of_nat (length (strip0 B))) in *. assert (J : 0 <= j) by (unfold j; lia).
  assert (P : 0 < 10 ^ j) by (apply Z.pow_pos_nonneg; lia). assert (D0 : 0 < D') by nia. split; [exact D0|]. split; [|reflexivity].
  destruct (dec_frac D' (x - Z.of_nat (length (strip0 B))) D0) as [A1 [A2 A3]]. destruct (dec_frac D (k - 5) ltac:(lia)) as [B1 [B2 B3]].
  unfold strtof. destruct (Z.eqb_spec D' 0); [lia|]. destruct (Z.eqb_spec D 0); [lia|].
  destruct (scale 10 _ D' 1) as [n1 d1]. destruct (scale 10 _ D 1) as [n2 d2]. cbn [fst snd] in *. apply round32_eq; auto.
  rewrite A3, B3. rewrite <- V. rewrite inject_Z_mult. rewrite <- (bp_nonneg 10 j) by auto. rewrite <- Qmult_assoc. rewrite <- bp_add by lia.
  replace (j + (k - 5)) with (x - Z.of_nat (length (strip0 B))) by (unfold j; lia). reflexivity.
Qed.
