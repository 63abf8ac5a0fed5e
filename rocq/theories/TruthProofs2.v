(** Range ground truth files: what loads is one. *)
From Coq Require Import Arith NArith List Bool Lia.
From Verif Require Import Base Bytes Float32 StreamModel BinModel BinSpec BinProofs CacheModel CacheProofs ListLemmas TruthModel TruthSpec TruthProofs.
Import ListNotations.
Local Open Scope N_scope.

Lemma is_bytes_firstn : forall n b, is_bytes b -> is_bytes (firstn n b).
Proof. intros n b H. rewrite <- (firstn_skipn n b) in H. apply is_bytes_app in H. tauto. Qed.
Lemma is_bytes_skipn : forall n b, is_bytes b -> is_bytes (skipn n b).
Proof. intros n b H. rewrite <- (firstn_skipn n b) in H. apply is_bytes_app in H. tauto. Qed.

Lemma enc_all_app : forall a b, enc_all 4 (a ++ b) = enc_all 4 a ++ enc_all 4 b.
Proof. intros a b. unfold enc_all. apply flat_map_app. Qed.

Lemma range_lists_only : forall g f counts pos c, is_bytes f -> rinv f pos c -> (pos <= length f)%nat -> all_u32 counts ->
  range_lists g counts c = Throw \/
  exists lists, range_lists g counts c = Ok lists /\ map (fun l => N.of_nat (length l)) lists = counts /\ (forall l, In l lists -> all_u32 l) /\
    exists rest, skipn pos f = enc_all 4 (concat lists) ++ rest.
Proof.
  intros g f. induction counts as [|k t IH]; intros pos c Hb R Hp Hu; cbn [range_lists].
  - right. exists []. repeat split; [intros l []|]. exists (skipn pos f). reflexivity.
  - assert (Hk : k < 4294967296) by (specialize (Hu k (or_introl eq_refl)); exact Hu).
    assert (X : (if k =? 0 then Ok ([], c) else take g (4 * k) c) = Throw \/
      exists c', (if k =? 0 then Ok ([], c) else take g (4 * k) c) = Ok (firstn (N.to_nat (4 * k)) (skipn pos f), c') /\ rinv f (pos + N.to_nat (4 * k)) c' /\ (pos + N.to_nat (4 * k) <= length f)%nat).
    { destruct (N.eqb_spec k 0) as [->|Nk].
      - right. exists c. cbn [N.mul N.to_nat firstn]. rewrite Nat.add_0_r. auto.
      - destruct (N.le_gt_cases (4 * k) (N.of_nat (length (skipn pos f)))) as [L|L].
        + right. destruct (take_ok g (4 * k) f pos c R) as [c' [E R']]; [lia|exact L|]. exists c'. split; [exact E|]. split; [exact R'|]. rewrite skipn_length in L. lia.
        + left. apply (take_throw g (4 * k) f pos c R); [lia|exact L]. }
    destruct X as [->|[c' [-> [R' L']]]]; [left; reflexivity|]. cbn [bind fst snd].
    destruct (IH _ c' Hb R' L' ltac:(intros x Hx; apply Hu; now right)) as [->|[lists [-> [Em [Ha [rest Er]]]]]]; [left; reflexivity|]. cbn [bind]. right.
    set (piece := firstn (N.to_nat (4 * k)) (skipn pos f)). assert (Lp : length piece = (4 * N.to_nat k)%nat) by (unfold piece; rewrite firstn_length, skipn_length; lia).
    assert (Bp : is_bytes piece) by (apply is_bytes_firstn, is_bytes_skipn, Hb).
    eexists. split; [reflexivity|]. split; [cbn [map]; rewrite dec_all_length, N2Nat.id, Em; reflexivity|]. split.
    + intros l [<-|Hl]; [now apply firstn4_u32|auto].
    + exists rest. cbn [concat]. rewrite enc_all_app, enc_all_dec by auto. rewrite <- app_assoc, <- Er, <- CacheProofs.skipn_skipn. symmetry. apply firstn_skipn.
Qed.

Lemma words_of : forall b, is_bytes b -> (exists k, length b = 4 * k)%nat -> exists l, b = enc_all 4 l /\ all_u32 l.
Proof.
  intros b Hb [k L]. exists (dec_all 4 k b). split; [symmetry; apply enc_all_dec; auto|now apply firstn4_u32].
Qed.

(** A stored range ground truth, possibly followed by words nobody reads. *)
Lemma load_range_only : forall g b, is_bytes b -> N.of_nat (length b) < 4611686018427387904 ->
  load_range_truthset g (Some b) = Throw \/ (load_range_truthset g (Some b) = UB /\ firstn 4 b = u32 0) \/
  exists lists extra, load_range_truthset g (Some b) = Ok lists /\ lists <> [] /\ N.of_nat (length lists) < 2147483648 /\ N.of_nat (length (concat lists) + length extra) < 2147483648 /\
    (forall l, In l lists -> all_u32 l) /\
    b = u32 (N.of_nat (length lists)) ++ u32 (N.of_nat (length (concat lists) + length extra)) ++ enc_all 4 (map (fun l => N.of_nat (length l)) lists) ++ enc_all 4 (concat lists) ++ enc_all 4 extra.
Proof.
  intros g b Hb HL. assert (HL' : N.of_nat (length b) < 18446744073709551616) by lia.
  destruct (Nat.le_gt_cases 8 (length b)) as [H8|H8].
  2:{ left. pose proof (header_short g b blk HL' H8) as X. unfold load_range_truthset. destruct (take g 4 (copen (Some b) blk)) as [r1| | | |]; cbn [bind] in X |- *; try discriminate; [|reflexivity]. rewrite X. reflexivity. }
  destruct (header_words g b blk HL' Hb H8) as (n & t & rest & c1 & c2 & Eb & Hn & Ht & E1 & E2 & R). unfold u32_range in Hn, Ht. change (2 ^ 32) with 4294967296 in *.
  assert (Er : rest = skipn 8 b) by (rewrite Eb, app_assoc; symmetry; apply skipn_len_app; reflexivity).
  assert (Lr : length rest = (length b - 8)%nat) by (rewrite Er; apply skipn_length).
  unfold load_range_truthset. rewrite copen_fsize, E1. cbn [bind fst snd]. rewrite E2. cbn [bind fst snd]. rewrite !dec_u32 by assumption.
  destruct (N.eqb_spec (N.of_nat (length b)) (wrap64 (8 + sext n * 4 + sext t * 4))) as [Sz|Sz]; [|left; reflexivity].
  destruct (N.leb_spec 2147483648 (sext n)) as [Bn|Bn]; [left; reflexivity|].
  assert (Sn : sext n = n /\ n < 2147483648). { revert Bn. unfold sext. destruct (N.ltb_spec n 2147483648); lia. } destruct Sn as [Sn Ln]. rewrite Sn in *. clear Bn.
  assert (St : sext t = t /\ t < 2147483648 \/ sext t = 18446744073709551616 - 4294967296 + t /\ 2147483648 <= t) by (unfold sext; destruct (N.ltb_spec t 2147483648); [left|right]; split; auto).
  destruct St as [[St Lt]|[St Lt]]; rewrite St in Sz.
  2:{ (* a negative total: the file is shorter than the counts *)
    left. assert (W : N.of_nat (length b) < 8 + n * 4).
    { revert Sz. unfold wrap64. set (m := 4294967296 - t). assert (Hm : 1 <= m <= 2147483648) by (unfold m; lia).
      replace (8 + n * 4 + (18446744073709551616 - 4294967296 + t) * 4) with (8 + n * 4 + (18446744073709551616 - m) * 4) by (unfold m; lia).
      destruct (N.le_gt_cases (m * 4) (8 + n * 4)) as [Q|Q].
      - replace (8 + n * 4 + (18446744073709551616 - m) * 4) with (8 + n * 4 - m * 4 + 4 * 18446744073709551616) by lia. rewrite N.mod_add by discriminate. rewrite N.mod_small by lia. lia.
      - replace (8 + n * 4 + (18446744073709551616 - m) * 4) with (18446744073709551616 - (m * 4 - (8 + n * 4)) + 3 * 18446744073709551616) by lia. rewrite N.mod_add by discriminate. rewrite N.mod_small by lia. lia. }
    rewrite (take_throw g (4 * n) b 8 c2 R); [reflexivity|lia|rewrite skipn_length; lia]. }
  rewrite wrap64_small in Sz by lia.
  destruct (take_ok g (4 * n) b 8 c2 R) as [c3 [E3 R3]]; [lia|rewrite skipn_length; lia|]. rewrite E3. cbn [bind fst snd].
  set (b1 := firstn (N.to_nat (4 * n)) (skipn 8 b)). assert (L1 : length b1 = (4 * N.to_nat n)%nat) by (unfold b1; rewrite firstn_length, skipn_length; lia).
  assert (B1 : is_bytes b1) by (apply is_bytes_firstn, is_bytes_skipn, Hb).
  destruct (N.eqb_spec n 0) as [->|Nn]; [right; left; split; [reflexivity|]; rewrite Eb; reflexivity|].
  destruct (range_lists_only g b (dec_all 4 (N.to_nat n) b1) (8 + N.to_nat (4 * n)) c3 Hb R3) as [->|[lists [El [Em [Ha [r Err]]]]]]; [lia|now apply firstn4_u32|left; reflexivity|].
  right. right. rewrite El. assert (Lc : length lists = N.to_nat n) by (rewrite <- (map_length (fun l => N.of_nat (length l)) lists), Em; apply dec_all_length).
  assert (Lx : length (skipn (8 + N.to_nat (4 * n)) b) = (4 * N.to_nat t)%nat) by (rewrite skipn_length; lia).
  assert (Lx' : (4 * length (concat lists) + length r = 4 * N.to_nat t)%nat) by (rewrite <- Lx, Err, app_length, enc_all_length; lia).
  assert (Br : is_bytes r) by (assert (X : is_bytes (skipn (8 + N.to_nat (4 * n)) b)) by (apply is_bytes_skipn, Hb); rewrite Err in X; apply is_bytes_app in X; tauto).
  destruct (words_of r Br) as [extra [Ex _]]; [exists (N.to_nat t - length (concat lists))%nat; lia|]. assert (Le : length r = (4 * length extra)%nat) by (rewrite Ex, enc_all_length; lia).
  exists lists, extra. split; [reflexivity|]. split; [intros ->; cbn in Lc; lia|]. split; [lia|]. split; [lia|]. split; [exact Ha|].
  replace (N.of_nat (length lists)) with n by lia. replace (N.of_nat (length (concat lists) + length extra)) with t by lia. rewrite Em, enc_all_dec by auto. rewrite <- Ex, <- Err.
  refine (eq_trans Eb _). f_equal. f_equal. rewrite Er, <- CacheProofs.skipn_skipn. symmetry. apply firstn_skipn.
Qed.
