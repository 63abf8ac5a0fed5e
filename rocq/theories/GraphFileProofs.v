(** * Lemmas about graph files. *)
From Coq Require Import NArith ZArith List Arith Lia Bool ZifyBool ZifyNat ZifyN.
From Verif Require Import Base Bytes StreamModel BinSpec BinProofs BinProofs2 GraphFileModel GraphFileSpec.
Import ListNotations.
Local Open Scope N_scope.

Lemma list_bytes_length : forall l, length (list_bytes l) = (4 + 4 * length l)%nat.
Proof. intros l. unfold list_bytes. rewrite app_length, u32_length, enc_all_length. lia. Qed.

Lemma write_list_ok : forall l, ids_ok l -> write_list l = list_bytes l.
Proof.
  intros l [H _]. unfold write_list, list_bytes. rewrite N.mod_small by exact H. rewrite Nat2N.id, firstn_all. reflexivity.
Qed.

Lemma write_lists_ok : forall lists pre, lists_ok lists ->
  write_lists (length lists) (length pre) (pre ++ lists) = Ok (lists_bytes lists).
Proof.
  induction lists as [|l lists IH]; intros pre H; cbn [length write_lists lists_bytes flat_map]; [reflexivity|].
  assert (E : rd (pre ++ l :: lists) (length pre) = Ok l).
  { apply rd_ok. rewrite nth_error_app2, Nat.sub_diag by lia. reflexivity. }
  rewrite E. cbn [bind]. specialize (IH (pre ++ [l])). rewrite app_length, <- app_assoc in IH. cbn [length app] in IH.
  rewrite Nat.add_1_r in IH. rewrite IH; [|intros x Hx; apply H; right; auto]. cbn [bind].
  rewrite write_list_ok by (apply H; left; auto). reflexivity.
Qed.

Lemma save_graph_ok : forall md st lists, lists_ok lists -> save_graph (length lists) md st lists = Ok (graph_file md st lists).
Proof.
  intros md st lists H. unfold save_graph. assert (E := write_lists_ok lists [] H). cbn [length app] in E. rewrite E. cbn [bind].
  unfold graph_file. f_equal. f_equal. f_equal. rewrite !app_length, !u32_length. lia.
Qed.

(** Reading fewer bytes *)
Lemma sread_short : forall k b, N.of_nat (length b) < k -> sread k (mkS b true false) = (b, mkS [] false true).
Proof. intros k b H. unfold sread. cbn [s_good s_left]. assert (E : k <=? N.of_nat (length b) = false) by (apply N.leb_gt; auto). rewrite E. reflexivity. Qed.

Lemma firstn_enc_dec : forall p k x, dec (firstn p (enc k x) ++ repeat 0 (k - p)) = x mod 256 ^ N.of_nat (min k p).
Proof.
  intros p k. revert p. induction k as [|k IH]; intros p x.
  - rewrite firstn_nil. cbn. rewrite N.mod_1_r. reflexivity.
  - destruct p as [|p].
    + cbn [firstn app Nat.sub Nat.min N.of_nat]. rewrite dec_zeros, N.pow_0_r, N.mod_1_r. reflexivity.
    + cbn [enc firstn app Nat.sub Nat.min dec]. rewrite IH. rewrite Nat2N.inj_succ, N.pow_succ_r'.
      rewrite N.mod_mul_r; [lia|lia|apply N.pow_nonzero; lia].
Qed.

Lemma dec_all_fill : forall l p, (p <= 4 * length l)%nat ->
  dec_all 4 (length l) (overlay (firstn p (enc_all 4 l)) (repeat 0 (4 * length l))) = zero_fill p l.
Proof.
  induction l as [|x l IH]; intros p Hp; [reflexivity|].
  cbn [length zero_fill dec_all]. unfold overlay. rewrite skipn_repeat'. rewrite firstn_length, enc_all_length.
  rewrite (Nat.min_l p) by (cbn [length] in *; lia). unfold enc_all. cbn [flat_map length]. fold (enc_all 4 l).
  rewrite (firstn_app p), enc_length.
  f_equal.
  - destruct (Nat.le_gt_cases 4 p) as [H|H].
    + rewrite (firstn_all2 (n := p)) by (rewrite enc_length; auto). rewrite <- app_assoc, firstn_len_app by apply enc_length.
      rewrite Nat.min_l by auto. rewrite dec_enc_mod. reflexivity.
    + replace (p - 4)%nat with 0%nat by lia. rewrite firstn_O, app_nil_r.
      replace (4 * S (length l) - p)%nat with ((4 - p) + 4 * length l)%nat by lia. rewrite repeat_app, app_assoc, firstn_len_app.
      * apply firstn_enc_dec.
      * rewrite app_length, firstn_length, enc_length, repeat_length. lia.
  - destruct (Nat.le_gt_cases 4 p) as [H|H].
    + rewrite (firstn_all2 (n := p)) by (rewrite enc_length; auto). rewrite <- app_assoc, skipn_len_app by apply enc_length.
      rewrite <- (IH (p - 4)%nat) by (cbn [length] in Hp; lia). unfold overlay. rewrite skipn_repeat'. rewrite firstn_length, enc_all_length.
      rewrite Nat.min_l by (cbn [length] in Hp; lia). do 3 f_equal. lia.
    + replace (p - 4)%nat with 0%nat by lia. rewrite firstn_O, app_nil_r.
      replace (4 * S (length l) - p)%nat with ((4 - p) + 4 * length l)%nat by lia. rewrite repeat_app, app_assoc, skipn_len_app.
      * rewrite <- (IH 0%nat) by lia. unfold overlay. cbn [firstn app length skipn]. reflexivity.
      * rewrite app_length, firstn_length, enc_length, repeat_length. lia.
Qed.

Lemma zero_fill_all : forall l p, (4 * length l <= p)%nat -> (forall x, In x l -> x < 2 ^ 32) -> zero_fill p l = l.
Proof.
  induction l as [|x l IH]; intros p Hp H; [reflexivity|]. cbn [zero_fill length] in *. rewrite Nat.min_l by lia. f_equal.
  - apply N.mod_small. exact (H x (or_introl eq_refl)).
  - apply IH; [lia|]. intros y Hy. apply H. right. auto.
Qed.

Lemma zero_fill_length : forall l p, length (zero_fill p l) = length l.
Proof. induction l as [|x l IH]; intros p; cbn; auto. Qed.

Lemma load_lists_eof : forall fuel b acc, (1 <= fuel)%nat -> load_lists fuel (mkS b false true) acc = Ok acc.
Proof. intros fuel b acc H. destruct fuel; [lia|]. reflexivity. Qed.

Lemma load_lists_cut : forall lists k fuel acc, lists_ok lists -> (k < fuel)%nat ->
  load_lists fuel (mkS (firstn k (lists_bytes lists)) true false) acc = Ok (acc ++ cut_lists k lists).
Proof.
  induction lists as [|l lists IH]; intros k fuel acc Hok Hf.
  - cbn [lists_bytes flat_map cut_lists]. rewrite firstn_nil, app_nil_r. destruct fuel as [|fuel]; [lia|]. cbn [load_lists s_eof].
    rewrite sread_short by (cbn; lia). reflexivity.
  - destruct (Hok l (or_introl eq_refl)) as [Hl Hx]. change (2 ^ 32) with 4294967296 in Hl.
    cbn [lists_bytes flat_map cut_lists]. fold (lists_bytes lists).
    destruct fuel as [|fuel]; [lia|]. cbn [load_lists s_eof].
    destruct (Nat.ltb k 4) eqn:E4; [apply Nat.ltb_lt in E4|apply Nat.ltb_ge in E4].
    + rewrite sread_short. { cbn [s_eof]. rewrite app_nil_r. reflexivity. }
      rewrite firstn_length. lia.
    + assert (Ef : firstn k (list_bytes l ++ lists_bytes lists) =
         u32 (N.of_nat (length l)) ++ firstn (k - 4) (enc_all 4 l ++ lists_bytes lists)).
      { unfold list_bytes. rewrite <- app_assoc, firstn_app, u32_length. rewrite firstn_all2 by (rewrite u32_length; auto). reflexivity. }
      rewrite Ef. rewrite sread_app by (rewrite u32_length; auto). cbn [s_eof]. rewrite u32_length. cbn [Nat.eqb negb].
      rewrite dec_u32 by exact Hl. rewrite Nat2N.id.
      replace (N.to_nat (N.of_nat (length l) * 4)) with (4 * length l)%nat by lia.
      destruct (Nat.ltb k (4 + 4 * length l)) eqn:E5; [apply Nat.ltb_lt in E5|apply Nat.ltb_ge in E5].
      * rewrite firstn_app, enc_all_length. replace (k - 4 - 4 * length l)%nat with 0%nat by lia. cbn [firstn]. rewrite app_nil_r.
        rewrite sread_short by (rewrite firstn_length, enc_all_length; lia).
        rewrite dec_all_fill by lia. rewrite load_lists_eof by lia. reflexivity.
      * rewrite firstn_app, enc_all_length. rewrite firstn_all2 by (rewrite enc_all_length; lia).
        rewrite sread_app by (rewrite enc_all_length; lia).
        assert (Ed := dec_all_fill l (4 * length l)%nat (le_n _)). rewrite firstn_all2 in Ed by (rewrite enc_all_length; lia).
        rewrite Ed. rewrite zero_fill_all by auto.
        rewrite IH; [|intros y Hy; apply Hok; right; auto|lia]. rewrite <- app_assoc. cbn [app].
        replace (k - 4 - 4 * length l)%nat with (k - (4 + 4 * length l))%nat by lia. reflexivity.
Qed.

Lemma cut_lists_all : forall lists k, (length (lists_bytes lists) <= k)%nat -> cut_lists k lists = lists.
Proof.
  induction lists as [|l lists IH]; intros k H; [reflexivity|]. cbn [lists_bytes flat_map] in H. fold (lists_bytes lists) in H.
  rewrite app_length, list_bytes_length in H. cbn [cut_lists].
  assert (E4 : Nat.ltb k 4 = false) by (apply Nat.ltb_ge; lia). rewrite E4.
  assert (E5 : Nat.ltb k (4 + 4 * length l) = false) by (apply Nat.ltb_ge; lia). rewrite E5.
  f_equal. apply IH. lia.
Qed.

(** The file cut at byte [k], with any 8 bytes in front. *)
Lemma load_graph_cut : forall npts md0 st0 lists0 h md st lists k, lists_ok lists -> u32_range md -> u32_range st -> length h = 8%nat ->
  (16 <= k)%nat ->
  load_graph npts md0 st0 lists0 (Some (firstn k (h ++ skipn 8 (graph_file md st lists)))) =
    Ok (md, st, lists0 ++ cut_lists (k - 16) lists, Nat.eqb (length (lists0 ++ cut_lists (k - 16) lists)) npts).
Proof.
  intros npts md0 st0 lists0 h md st lists k Hok Rm Rs Hh Hk. unfold load_graph. cbn [open_file].
  unfold graph_file. rewrite skipn_len_app by (unfold u64; apply enc_length).
  assert (E : firstn k (h ++ u32 md ++ u32 st ++ lists_bytes lists) = h ++ u32 md ++ u32 st ++ firstn (k - 16) (lists_bytes lists)).
  { rewrite !firstn_app, Hh, !u32_length. rewrite (firstn_all2 h) by lia. rewrite !(firstn_all2 (u32 _)) by (rewrite u32_length; lia).
    do 4 f_equal. lia. }
  rewrite E. rewrite (sread_app 8 h) by lia. rewrite (sread_app 4 (u32 md)) by reflexivity. rewrite (sread_app 4 (u32 st)) by reflexivity.
  assert (Hfuel : exists fuel, S (length (h ++ u32 md ++ u32 st ++ firstn (k - 16) (lists_bytes lists))) = fuel /\ (length (firstn (k - 16) (lists_bytes lists)) < fuel)%nat).
  { eexists. split; [reflexivity|]. rewrite !app_length. lia. }
  destruct Hfuel as [fuel [-> Hf]].
  assert (El : firstn (k - 16) (lists_bytes lists) = firstn (length (firstn (k - 16) (lists_bytes lists))) (lists_bytes lists)).
  { rewrite firstn_length. destruct (Nat.le_gt_cases (k - 16) (length (lists_bytes lists))) as [H|H].
    - rewrite Nat.min_l by auto. reflexivity.
    - rewrite Nat.min_r by lia. rewrite firstn_all. apply firstn_all2. lia. }
  rewrite El. rewrite load_lists_cut by auto. cbn [bind].
  rewrite !overlay_full by (rewrite !u32_length; auto). rewrite !dec_u32 by auto.
  assert (Ec : cut_lists (length (firstn (k - 16) (lists_bytes lists))) lists = cut_lists (k - 16) lists).
  { rewrite firstn_length. destruct (Nat.le_gt_cases (k - 16) (length (lists_bytes lists))) as [H|H].
    - rewrite Nat.min_l by auto. reflexivity.
    - rewrite Nat.min_r by lia. rewrite !cut_lists_all; auto; lia. }
  rewrite Ec. reflexivity.
Qed.

(** Cuts inside the header *)
Lemma load_graph_header_cut : forall npts md0 st0 lists0 b, u32_range md0 -> u32_range st0 -> is_bytes b -> (length b < 16)%nat ->
  exists md st, load_graph npts md0 st0 lists0 (Some b) = Ok (md, st, lists0, Nat.eqb (length lists0) npts) /\
    ((length b <= 8)%nat -> md = md0) /\ ((length b <= 12)%nat -> st = st0) /\
    ((12 <= length b)%nat -> md = dec (firstn 4 (skipn 8 b))).
Proof.
  intros npts md0 st0 lists0 b Rm Rs Hb Hl. unfold load_graph. cbn [open_file].
  destruct (Nat.le_gt_cases 8 (length b)) as [H8|H8].
  - rewrite sread_split by lia. change (N.to_nat 8) with 8%nat.
    destruct (Nat.le_gt_cases 12 (length b)) as [H12|H12].
    + rewrite sread_split by (rewrite skipn_length; lia). change (N.to_nat 4) with 4%nat.
      rewrite sread_short by (rewrite !skipn_length; lia). rewrite load_lists_eof by lia. cbn [bind].
      do 2 eexists. split; [reflexivity|]. split; [|split].
      * lia.
      * intros H. assert (Es : skipn 4 (skipn 8 b) = []).
        { apply length_zero_iff_nil. rewrite !skipn_length. lia. }
        rewrite Es. cbn [overlay app length skipn]. apply dec_u32. auto.
      * intros _. rewrite overlay_full; [reflexivity|]. rewrite firstn_length, skipn_length, u32_length. lia.
    + rewrite sread_short by (rewrite !skipn_length; lia).
      unfold sread at 1. cbn [s_good]. rewrite load_lists_eof by lia. cbn [bind].
      do 2 eexists. split; [reflexivity|]. split; [|split].
      * intros H. assert (Es : skipn 8 b = []).
        { apply length_zero_iff_nil. rewrite !skipn_length. lia. }
        rewrite Es. cbn [overlay app length skipn]. apply dec_u32. auto.
      * intros _. cbn [overlay app length skipn]. apply dec_u32. auto.
      * lia.
  - rewrite sread_short by lia. unfold sread at 1. cbn [s_good]. unfold sread at 1. cbn [s_good].
    rewrite load_lists_eof by lia. cbn [bind].
    do 2 eexists. split; [reflexivity|]. split; [|split].
    + intros _. cbn [overlay app length skipn]. apply dec_u32. auto.
    + intros _. cbn [overlay app length skipn]. apply dec_u32. auto.
    + lia.
Qed.

Lemma graph_file_length : forall md st lists, length (graph_file md st lists) = (16 + length (lists_bytes lists))%nat.
Proof. intros. unfold graph_file. rewrite !app_length, !u32_length. unfold u64. rewrite enc_length. lia. Qed.

Lemma load_graph_saved : forall npts md0 st0 lists0 md st lists, lists_ok lists -> u32_range md -> u32_range st ->
  load_graph npts md0 st0 lists0 (Some (graph_file md st lists)) =
    Ok (md, st, lists0 ++ lists, Nat.eqb (length (lists0 ++ lists)) npts).
Proof.
  intros npts md0 st0 lists0 md st lists Hok Rm Rs.
  assert (H := load_graph_cut npts md0 st0 lists0 (firstn 8 (graph_file md st lists)) md st lists (length (graph_file md st lists)) Hok Rm Rs).
  rewrite firstn_skipn, firstn_all in H. rewrite H.
  - rewrite graph_file_length. rewrite cut_lists_all by lia. reflexivity.
  - rewrite firstn_length, graph_file_length. lia.
  - rewrite graph_file_length. lia.
Qed.

Lemma graph_round_trip : forall md0 st0 md st lists, lists_ok lists -> u32_range md -> u32_range st ->
  16 + N.of_nat (length (lists_bytes lists)) < 2 ^ 64 ->
  exists b, save_graph (length lists) md st lists = Ok b /\
    load_graph (length lists) md0 st0 [] (Some b) = Ok (md, st, lists, true) /\
    dec (firstn 8 b) = N.of_nat (length b).
Proof.
  intros md0 st0 md st lists Hok Rm Rs Hs. exists (graph_file md st lists). split; [apply save_graph_ok; auto|]. split.
  - rewrite load_graph_saved by auto. cbn [app]. rewrite Nat.eqb_refl. reflexivity.
  - rewrite graph_file_length. unfold graph_file. rewrite firstn_len_app by (unfold u64; apply enc_length).
    unfold u64. rewrite dec_enc by exact Hs. lia.
Qed.

(** ** What survives a cut *)
Lemma cut_lists_prefix : forall lists k, (forall l, In l lists -> forall x, In x l -> x < 2 ^ 32) ->
  exists m last, cut_lists k lists = firstn m lists ++ last /\ (m + length last <= length lists)%nat /\ (length last <= 1)%nat /\
    (length (lists_bytes (firstn m lists)) <= k)%nat /\
    (m < length lists -> (k < length (lists_bytes (firstn (S m) lists)))%nat)%nat /\
    (forall l', last = [l'] -> exists l, nth_error lists m = Some l /\ length l' = length l /\
       l' = zero_fill (k - length (lists_bytes (firstn m lists)) - 4) l).
Proof.
  induction lists as [|l lists IH]; intros k H; cbn [cut_lists].
  - exists 0%nat, []. repeat split; auto; cbn; try lia. intros l' Hl. discriminate.
  - destruct (Nat.ltb k 4) eqn:E4; [apply Nat.ltb_lt in E4|apply Nat.ltb_ge in E4].
    + exists 0%nat, []. repeat split; cbn [firstn app length lists_bytes flat_map]; auto; try lia.
      * intros _. rewrite app_nil_r, list_bytes_length. lia.
      * intros l' Hl. discriminate.
    + destruct (Nat.ltb k (4 + 4 * length l)) eqn:E5; [apply Nat.ltb_lt in E5|apply Nat.ltb_ge in E5].
      * exists 0%nat, [zero_fill (k - 4) l]. repeat split; cbn [firstn app length lists_bytes flat_map]; auto; try lia.
        -- intros _. rewrite app_nil_r, list_bytes_length. lia.
        -- intros l' Hl. exists l. assert (l' = zero_fill (k - 4) l) by congruence. subst l'.
           split; [reflexivity|]. split; [apply zero_fill_length|]. f_equal. lia.
      * destruct (IH (k - (4 + 4 * length l))%nat) as [m [last [E [H1 [H2 [H3 [H4 H5]]]]]]]; [intros l1 Hl1; apply H; right; auto|].
        exists (S m), last. rewrite E.
        assert (Es : forall j, length (lists_bytes (firstn (S j) (l :: lists))) = (4 + 4 * length l + length (lists_bytes (firstn j lists)))%nat).
        { intros j. cbn [firstn lists_bytes flat_map]. fold (lists_bytes (firstn j lists)). rewrite app_length, list_bytes_length. reflexivity. }
        rewrite !Es. cbn [length]. repeat split; auto; try lia.
        -- intros l' Hl. destruct (H5 l' Hl) as [l1 [E1 [E2 E3]]]. exists l1. split; [exact E1|]. split; [exact E2|].
           rewrite E3. f_equal. lia.
Qed.

Lemma zero_fill_nth : forall l p j x, nth_error l j = Some x -> x < 2 ^ 32 ->
  exists y, nth_error (zero_fill p l) j = Some y /\
    ((4 * j + 4 <= p)%nat -> y = x) /\ ((p <= 4 * j)%nat -> y = 0) /\ y <= x.
Proof.
  induction l as [|z l IH]; intros p j x Hj Hx; [destruct j; discriminate|].
  destruct j as [|j]; cbn [nth_error zero_fill] in *.
  - assert (z = x) by congruence. subst z. eexists. split; [reflexivity|]. split; [|split].
    + intros Hp. rewrite Nat.min_l by lia. apply N.mod_small. exact Hx.
    + intros Hp. rewrite Nat.min_r by lia. replace p with 0%nat by lia. cbn [N.of_nat]. rewrite N.pow_0_r. apply N.mod_1_r.
    + apply N.mod_le. apply N.pow_nonzero. lia.
  - destruct (IH (p - 4)%nat j x Hj Hx) as [y [E [H1 [H2 H3]]]]. exists y. split; [exact E|]. split; [|split]; auto.
    + intros Hp. apply H1. lia.
    + intros Hp. apply H2. lia.
Qed.

Lemma cut_lists_last : forall pre l k, (length (lists_bytes pre) + 4 <= k < length (lists_bytes (pre ++ [l])))%nat ->
  cut_lists k (pre ++ [l]) = pre ++ [zero_fill (k - length (lists_bytes pre) - 4) l].
Proof.
  induction pre as [|a pre IH]; intros l k H; cbn [app cut_lists lists_bytes flat_map length] in *.
  - rewrite app_nil_r, list_bytes_length in H.
    assert (E4 : Nat.ltb k 4 = false) by (apply Nat.ltb_ge; lia). rewrite E4.
    assert (E5 : Nat.ltb k (4 + 4 * length l) = true) by (apply Nat.ltb_lt; lia). rewrite E5. do 2 f_equal. lia.
  - fold (lists_bytes pre) in *. fold (lists_bytes (pre ++ [l])) in *. rewrite !app_length, list_bytes_length in *.
    assert (E4 : Nat.ltb k 4 = false) by (apply Nat.ltb_ge; lia). rewrite E4.
    assert (E5 : Nat.ltb k (4 + 4 * length a) = false) by (apply Nat.ltb_ge; lia). rewrite E5.
    f_equal. rewrite IH by lia. do 3 f_equal. lia.
Qed.

Lemma load_graph_undetected : forall md0 st0 h md st pre l k, lists_ok (pre ++ [l]) -> u32_range md -> u32_range st -> length h = 8%nat ->
  (length (graph_file md st pre) + 4 <= k < length (graph_file md st (pre ++ [l])))%nat ->
  load_graph (length (pre ++ [l])) md0 st0 [] (Some (firstn k (h ++ skipn 8 (graph_file md st (pre ++ [l]))))) =
    Ok (md, st, pre ++ [zero_fill (k - length (graph_file md st pre) - 4) l], true).
Proof.
  intros md0 st0 h md st pre l k Hok Rm Rs Hh Hk. rewrite !graph_file_length in Hk.
  rewrite load_graph_cut by (auto; lia). cbn [app]. rewrite cut_lists_last by lia. rewrite graph_file_length.
  rewrite !app_length, Nat.eqb_refl. cbn [length]. do 4 f_equal. f_equal. f_equal. lia.
Qed.

Lemma load_graph_missing : forall npts md0 st0 lists0, load_graph npts md0 st0 lists0 None = UB.
Proof. reflexivity. Qed.

Lemma graph_cut_spec : forall npts md0 st0 h md st lists k, lists_ok lists -> u32_range md -> u32_range st -> length h = 8%nat -> (16 <= k)%nat ->
  exists m last, 
    load_graph npts md0 st0 [] (Some (firstn k (h ++ skipn 8 (graph_file md st lists)))) =
      Ok (md, st, firstn m lists ++ last, Nat.eqb (length (firstn m lists ++ last)) npts) /\
    (m + length last <= length lists)%nat /\ (length last <= 1)%nat /\
    (length (graph_file md st (firstn m lists)) <= k)%nat /\
    ((m < length lists)%nat -> (k < length (graph_file md st (firstn (S m) lists)))%nat) /\
    (forall l', last = [l'] -> exists l, nth_error lists m = Some l /\ length l' = length l /\
       forall j x, nth_error l j = Some x -> exists y, nth_error l' j = Some y /\ y <= x /\
         ((length (graph_file md st (firstn m lists)) + 4 + 4 * j + 4 <= k)%nat -> y = x) /\
         ((k <= length (graph_file md st (firstn m lists)) + 4 + 4 * j)%nat -> y = 0)).
Proof.
  intros npts md0 st0 h md st lists k Hok Rm Rs Hh Hk.
  destruct (cut_lists_prefix lists (k - 16)) as [m [last [E [H1 [H2 [H3 [H4 H5]]]]]]].
  { intros l Hl x Hx. apply (Hok l Hl). auto. }
  exists m, last. rewrite load_graph_cut by auto. cbn [app]. rewrite E. split; [reflexivity|]. split; [exact H1|]. split; [exact H2|].
  rewrite !graph_file_length. split; [lia|]. split; [lia|].
  intros l' Hl'. destruct (H5 l' Hl') as [l [E1 [E2 E3]]]. exists l. split; [exact E1|]. split; [exact E2|].
  intros j x Hj. assert (Hx : x < 2 ^ 32). { apply (Hok l (nth_error_In _ _ E1)). apply nth_error_In in Hj. auto. }
  destruct (zero_fill_nth l (k - 16 - length (lists_bytes (firstn m lists)) - 4) j x Hj Hx) as [y [Y1 [Y2 [Y3 Y4]]]].
  exists y. rewrite E3. split; [exact Y1|]. split; [exact Y4|]. split; intros H; [apply Y2|apply Y3]; lia.
Qed.
