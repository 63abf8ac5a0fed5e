(** * Whole files: bin to text and back. *)
From Coq Require Import ZArith NArith QArith Qabs Lia List Bool Arith SpecFloat.
From Verif Require Import Base Bytes Float32 FloatBits DivFacts StreamModel BinModel BinSpec BinProofs BinProofs2 ClosestModel ClosestProofs CacheProofs ConvertModel ConvertProofs TsvModel TsvSpec TsvProofs.
Import ListNotations.
Local Open Scope nat_scope.

(** ** Elements of the buffer *)

Definition fits (t : elem_type) (x : N) : Prop := (x < 256 ^ N.of_nat (width t))%N.

Lemma enc_all_app : forall k a b, enc_all k (a ++ b) = enc_all k a ++ enc_all k b.
Proof. intros. unfold enc_all. apply flat_map_app. Qed.

Lemma elem_at_ok : forall t xs junk i x, Forall (fits t) xs -> nth_error xs i = Some x ->
  elem_at t (map Some (enc_all (width t) xs) ++ junk) i = Ok x.
Proof.
  intros t xs junk i x F H. destruct (nth_error_split xs i H) as [l1 [l2 [-> L]]].
  rewrite enc_all_app. change (enc_all (width t) (x :: l2)) with (enc (width t) x ++ enc_all (width t) l2).
  rewrite !map_app, <- !app_assoc. unfold elem_at.
  rewrite skipn_len_app by (rewrite map_length, enc_all_length; lia).
  rewrite firstn_len_app by (rewrite map_length, enc_length; reflexivity).
  rewrite map_length, enc_length, Nat.ltb_irrefl. rewrite initialised_map. cbn [bind]. f_equal. apply dec_enc.
  rewrite Forall_forall in F. apply F. apply in_or_app. right. left. auto.
Qed.

(** ** Rows *)

Lemma tsv_row_ok : forall t buf nd i r d, d + length r = nd -> (forall j x, nth_error r j = Some x -> elem_at t buf (d + j + i * nd) = Ok x) ->
  tsv_row t buf nd i d (length r) = Ok (match r with [] => [] | _ => tabbed (map (show_elem t) r) ++ [10%N] end).
Proof.
  intros t buf nd i. induction r as [|x r IH]; intros d L H; [reflexivity|]. cbn [length tsv_row].
  pose proof (H 0 x eq_refl) as H0. rewrite Nat.add_0_r in H0. rewrite H0. cbn [bind].
  rewrite IH; [|cbn in L; lia|intros j y Hy; replace (S d + j) with (d + S j) by lia; apply H; exact Hy]. cbn [bind].
  destruct r as [|x' r].
  - cbn [length] in L. destruct (Nat.ltb_spec d (nd - 1)); [lia|]. reflexivity.
  - cbn [length] in L. destruct (Nat.ltb_spec d (nd - 1)); [|lia]. cbn [map tabbed]. rewrite <- !app_assoc. reflexivity.
Qed.

Lemma nth_concat : forall (A : Type) nd (tb : list (list A)) i r j x, Forall (fun r => length r = nd) tb -> nth_error tb i = Some r ->
  nth_error r j = Some x -> nth_error (concat tb) (j + i * nd) = Some x.
Proof.
  intros A nd. induction tb as [|r0 tb IH]; intros i r j x F Hi Hj; [destruct i; discriminate|].
  inversion F; subst. destruct i as [|i]; cbn [concat].
  - cbn in Hi. inversion Hi; subst. rewrite Nat.add_0_r. rewrite nth_error_app1; auto. apply nth_error_Some. congruence.
  - cbn in Hi. rewrite nth_error_app2 by (cbn; lia). replace (j + S i * length r0 - length r0) with (j + i * length r0) by (cbn; lia). eapply IH; eauto.
Qed.

(** [xs] starts with the rows of [tb]. *)
Lemma tsv_rows_ok : forall t buf nd tb i, 1 <= nd -> Forall (fun r => length r = nd) tb ->
  (forall a r j x, nth_error tb a = Some r -> nth_error r j = Some x -> elem_at t buf (j + (i + a) * nd) = Ok x) ->
  tsv_rows t buf nd i (length tb) = Ok (table_text (map (map (show_elem t)) tb)).
Proof.
  intros t buf nd. induction tb as [|r tb IH]; intros i Hn F H; [reflexivity|]. pose proof (Forall_inv F) as Fr. pose proof (Forall_inv_tail F) as Ft. cbn [length tsv_rows]. cbn beta in Fr.
  replace (tsv_row t buf nd i 0 nd) with (tsv_row t buf nd i 0 (length r)) by (rewrite Fr; reflexivity). rewrite tsv_row_ok.
  - cbn [bind]. rewrite IH; auto.
    + cbn [bind]. destruct r as [|x r]; [cbn in Fr; lia|]. reflexivity.
    + intros a r' j x Ha Hj. replace (S i + a) with (i + S a) by lia. apply (H (S a) r'); auto.
  - lia.
  - intros j x Hj. rewrite Nat.add_0_l. rewrite <- (Nat.add_0_r i). apply (H 0 r); auto.
Qed.

Lemma rows_in_buf : forall t tb nd xs junk, 1 <= nd -> Forall (fun r => length r = nd) tb -> Forall (fits t) (concat tb ++ xs) ->
  tsv_rows t (map Some (enc_all (width t) (concat tb ++ xs)) ++ junk) nd 0 (length tb) = Ok (table_text (map (map (show_elem t)) tb)).
Proof.
  intros t tb nd xs junk Hn F Fx. apply tsv_rows_ok; auto. intros a r j x Ha Hj. apply elem_at_ok; auto.
  rewrite Nat.add_0_l. pose proof (nth_concat _ nd tb a r j x F Ha Hj) as E. rewrite nth_error_app1; auto. apply nth_error_Some. congruence.
Qed.

Lemma concat_length : forall (A : Type) nd (tb : list (list A)), Forall (fun r => length r = nd) tb -> length (concat tb) = length tb * nd.
Proof. induction tb as [|r tb IH]; intros F; [reflexivity|]. inversion F; subst. cbn [concat length]. rewrite app_length, IH by auto. cbn. reflexivity. Qed.

Lemma Forall_firstn : forall (A : Type) (P : A -> Prop) n l, Forall P l -> Forall P (firstn n l).
Proof. intros A P n l H. rewrite <- (firstn_skipn n l) in H. apply Forall_app in H. apply H. Qed.
Lemma Forall_skipn : forall (A : Type) (P : A -> Prop) n l, Forall P l -> Forall P (skipn n l).
Proof. intros A P n l H. rewrite <- (firstn_skipn n l) in H. apply Forall_app in H. apply H. Qed.

Lemma table_text_app : forall a b, table_text (a ++ b) = table_text a ++ table_text b.
Proof. intros. unfold table_text. apply flat_map_app. Qed.

(** ** Blocks of floats *)

Lemma float_blocks : forall bs npts nd extra cnt i tb buf, 1 <= bs -> 1 <= nd -> Forall (fun r => length r = nd) tb -> Forall (fits Float) (concat tb) ->
  length tb = npts - i * bs -> npts <= (i + cnt) * bs -> 
  tsv_blocks Float bs npts nd i cnt buf (mkS (enc_all 4 (concat tb) ++ extra) true false) = Ok (table_text (map (map (show_elem Float)) tb)).
Proof.
  intros bs npts nd extra. induction cnt as [|cnt IH]; intros i tb buf Hbs Hn F Fx L C.
  - assert (length tb = 0) by lia. destruct tb; [reflexivity|discriminate].
  - cbn [tsv_blocks]. unfold tsv_block. set (c := min (npts - i * bs) bs). set (t1 := firstn c tb). set (t2 := skipn c tb).
    assert (Et : tb = t1 ++ t2) by (symmetry; apply firstn_skipn). assert (L1 : length t1 = c) by (unfold t1; rewrite firstn_length; unfold c in *; lia).
    assert (F1 : Forall (fun r => length r = nd) t1) by (apply Forall_firstn; auto). assert (F2 : Forall (fun r => length r = nd) t2) by (apply Forall_skipn; auto).
    rewrite Et, concat_app in Fx. apply Forall_app in Fx. destruct Fx as [Fx1 Fx2].
    replace (enc_all 4 (concat tb) ++ extra) with (enc_all 4 (concat t1) ++ (enc_all 4 (concat t2) ++ extra)) by (rewrite Et, concat_app, enc_all_app, <- app_assoc; reflexivity).
    rewrite sread_app by (rewrite enc_all_length, (concat_length _ nd) by auto; f_equal; rewrite L1; lia).
    pose proof (fun junk => rows_in_buf Float t1 nd [] junk Hn F1) as RB. rewrite app_nil_r, L1 in RB. rewrite RB by auto.
    cbn [bind]. rewrite IH; auto.
    + cbn [bind]. rewrite <- table_text_app, <- map_app, <- Et. reflexivity.
    + unfold t2. rewrite skipn_length. unfold c. cbn. lia.
    + replace (S i + cnt) with (i + S cnt) by lia. auto.
Qed.

Definition tb_file (t : elem_type) (nd : nat) (tb : list (list N)) : list N :=
  u32 (N.of_nat (length tb)) ++ u32 (N.of_nat nd) ++ enc_all (width t) (concat tb).

Lemma float_to_text : forall bs g1 g2 nd tb extra, 1 <= bs -> 1 <= nd -> length g1 = 4 -> length g2 = 4 ->
  u32_range (N.of_nat (length tb)) -> u32_range (N.of_nat nd) -> Forall (fun r => length r = nd) tb -> Forall (fits Float) (concat tb) ->
  bin_to_tsv Float bs g1 g2 (Some (tb_file Float nd tb ++ extra)) = Ok (table_text (map (map (show_elem Float)) tb)).
Proof.
  intros bs g1 g2 nd tb extra Hbs Hn G1 G2 U1 U2 F Fx. unfold bin_to_tsv, tb_file. cbn [open_file]. rewrite <- !app_assoc. rewrite read_header_app by auto.
  rewrite !Nat2N.id. destruct (n_blocks_bounds (length tb) bs Hbs) as [B1 B2]. apply float_blocks; auto; lia.
Qed.

(** ** One block of bytes *)

Lemma n_blocks_one : forall n bs, 1 <= n <= bs -> n_blocks n bs = 1.
Proof.
  intros n bs H. destruct (n_blocks_bounds n bs ltac:(lia)) as [B1 B2]. destruct (n_blocks n bs) as [|[|c]]; [lia|auto|]. cbn in B2. lia.
Qed.

Lemma enc_1 : forall xs, Forall (fits Byte) xs -> enc_all 1 xs = xs.
Proof.
  induction xs as [|x xs IH]; intros F; [reflexivity|]. inversion F as [|? ? Fx Ft]; subst. unfold enc_all in *. cbn [flat_map]. rewrite IH by auto.
  cbn. f_equal. apply N.mod_small. exact Fx.
Qed.

Lemma byte_to_text : forall bs g1 g2 nd tb extra, 1 <= bs -> 1 <= nd -> length g1 = 4 -> length g2 = 4 -> length tb <= bs ->
  u32_range (N.of_nat (length tb)) -> u32_range (N.of_nat nd) -> Forall (fun r => length r = nd) tb -> Forall (fits Byte) (concat tb) -> Forall (fits Byte) extra ->
  bin_to_tsv Byte bs g1 g2 (Some (tb_file Byte nd tb ++ extra)) = Ok (table_text (map (map (show_elem Byte)) tb)).
Proof.
  intros bs g1 g2 nd tb extra Hbs Hn G1 G2 Lb U1 U2 F Fx Fe. unfold bin_to_tsv, tb_file. cbn [open_file]. rewrite <- !app_assoc. rewrite read_header_app by auto.
  rewrite !Nat2N.id. destruct tb as [|r tb]; [unfold n_blocks; cbn; rewrite Nat.mod_0_l, Nat.div_0_l by lia; reflexivity|]. set (tb' := r :: tb) in *.
  rewrite n_blocks_one by (unfold tb' in *; cbn [length] in *; lia). cbn [tsv_blocks]. unfold tsv_block. rewrite Nat.mul_0_l, Nat.sub_0_r. rewrite (Nat.min_l _ _ Lb).
  change (width Byte) with 1. rewrite enc_1 by auto.
  assert (X : exists got rest s', sread (N.of_nat (length tb' * nd * 4)) (mkS (concat tb' ++ extra) true false) = (got, s') /\ got = concat tb' ++ rest /\ Forall (fits Byte) rest).
  { unfold sread. cbn [s_good s_left]. destruct (N.leb_spec (N.of_nat (length tb' * nd * 4)) (N.of_nat (length (concat tb' ++ extra)))) as [C|C].
    - rewrite Nat2N.id. rewrite firstn_app. rewrite firstn_all2 by (rewrite (concat_length _ nd) by auto; lia). eexists _, _, _. split; [reflexivity|]. split; [reflexivity|]. apply Forall_firstn. auto.
    - eexists _, _, _. split; [reflexivity|]. split; [reflexivity|]. auto. }
  destruct X as [got [rest [s' [-> [-> Fr]]]]]. assert (Fa : Forall (fits Byte) (concat tb' ++ rest)) by (apply Forall_app; auto).
  rewrite <- (enc_1 (concat tb' ++ rest)) at 1 by auto. rewrite (rows_in_buf Byte tb' nd rest) by auto. cbn [bind]. rewrite app_nil_r. reflexivity.
Qed.

(** More than one block: block 0 asks for four times its bytes and gets the whole file,
    the stream fails, and the next block writes the buffer again from its start. *)
Lemma byte_blocks_repeat : forall bs g1 g2 nd tb, 1 <= bs -> 1 <= nd -> length g1 = 4 -> length g2 = 4 -> bs < length tb <= 2 * bs ->
  u32_range (N.of_nat (length tb)) -> u32_range (N.of_nat nd) -> Forall (fun r => length r = nd) tb -> Forall (fits Byte) (concat tb) ->
  bin_to_tsv Byte bs g1 g2 (Some (tb_file Byte nd tb)) =
  Ok (table_text (map (map (show_elem Byte)) (firstn bs tb ++ firstn (length tb - bs) tb))).
Proof.
  intros bs g1 g2 nd tb Hbs Hn G1 G2 Lb U1 U2 F Fx. unfold bin_to_tsv, tb_file. cbn [open_file]. rewrite read_header_app by auto.
  rewrite !Nat2N.id. assert (E2 : n_blocks (length tb) bs = 2).
  { destruct (n_blocks_bounds (length tb) bs Hbs) as [B1 B2]. destruct (n_blocks (length tb) bs) as [|[|[|c]]]; cbn in B1, B2; try lia. }
  rewrite E2. cbn [tsv_blocks]. unfold tsv_block. rewrite Nat.mul_0_l, Nat.sub_0_r, Nat.mul_1_l. rewrite Nat.min_r by lia. rewrite Nat.min_l by lia.
  change (width Byte) with 1. rewrite enc_1 by auto.
  assert (Lc : length (concat tb) = length tb * nd) by (apply concat_length; auto).
  assert (X : length tb * nd <= 2 * bs * nd) by (apply Nat.mul_le_mono_r; lia). assert (Y : bs * nd < length tb * nd) by (apply Nat.mul_lt_mono_pos_r; lia).
  unfold sread at 1. cbn [s_good s_left]. destruct (N.leb_spec (N.of_nat (bs * nd * 4)) (N.of_nat (length (concat tb)))) as [C|C]; [lia|].
  assert (R : forall k (junk : list (option N)), k <= length tb -> tsv_rows Byte (map Some (concat tb) ++ junk) nd 0 k = Ok (table_text (map (map (show_elem Byte)) (firstn k tb)))).
  { intros k junk Hk. assert (Lk : length (firstn k tb) = k) by (rewrite firstn_length; lia). rewrite <- Lk at 1.
    rewrite <- (enc_1 (concat tb)) by auto. rewrite <- (firstn_skipn k tb) at 1. rewrite concat_app. apply rows_in_buf; [auto|apply Forall_firstn; auto|].
    rewrite <- concat_app, firstn_skipn. auto. }
  rewrite R by lia. cbn [bind]. unfold sread. cbn [s_good s_left]. cbn [map app length skipn]. rewrite R by lia. cbn [bind]. rewrite app_nil_r.
  rewrite map_app, table_text_app. reflexivity.
Qed.

(** ** Text to bin *)

(** A text as elements followed by one white-space character each. *)
Definition pieces_text (ps : list (list N * N)) : list N := flat_map (fun p => fst p ++ [snd p]) ps.

(** An element text and what it is read as. *)
Definition reads (t : elem_type) (txt : list N) (y : N) : Prop :=
  forall lead c rest val, Forall (fun c => is_ws c = true) lead -> is_ws c = true ->
    scan t (lead ++ txt ++ c :: rest, true) val = ((c :: rest, true), Some y).

Lemma tabbed_pieces : forall r, r <> [] -> exists ps, map fst ps = r /\ Forall (fun p => is_ws (snd p) = true) ps /\ tabbed r ++ [10%N] = pieces_text ps.
Proof.
  induction r as [|a r IH]; intros N; [contradiction|]. destruct r as [|b r].
  - exists [(a, 10%N)]. split; [reflexivity|]. split; [repeat constructor|]. unfold pieces_text. cbn. rewrite app_nil_r. reflexivity.
  - destruct (IH ltac:(discriminate)) as [ps [E [W T]]]. exists ((a, 9%N) :: ps). split; [cbn [map fst]; rewrite E; reflexivity|]. split; [constructor; auto|].
    change (tabbed (a :: b :: r)) with (a ++ [9%N] ++ tabbed (b :: r)). rewrite <- !app_assoc. rewrite T. unfold pieces_text. cbn [flat_map fst snd]. rewrite <- app_assoc. reflexivity.
Qed.

Lemma table_pieces : forall tb, Forall (fun r => r <> []) tb -> exists ps, map fst ps = concat tb /\ Forall (fun p => is_ws (snd p) = true) ps /\ table_text tb = pieces_text ps.
Proof.
  induction tb as [|r tb IH]; intros F; [exists []; repeat split; constructor|]. inversion F; subst. destruct (IH H2) as [ps [E [W T]]].
  destruct (tabbed_pieces r H1) as [qs [E' [W' T']]]. exists (qs ++ ps). split; [rewrite map_app, E, E'; reflexivity|]. split; [apply Forall_app; auto|].
  change (table_text (r :: tb)) with ((tabbed r ++ [10%N]) ++ table_text tb). rewrite T', T. unfold pieces_text. rewrite flat_map_app. reflexivity.
Qed.

Lemma scan_pieces : forall t ps ys lead rest val, Forall2 (fun p y => reads t (fst p) y) ps ys -> Forall (fun p => is_ws (snd p) = true) ps ->
  Forall (fun c => is_ws c = true) lead ->
  exists lead', Forall (fun c => is_ws c = true) lead' /\
  scan_n t (length ps) (lead ++ pieces_text ps ++ rest, true) val = (map Some ys, (lead' ++ rest, true)).
Proof.
  intros t. induction ps as [|[a c] ps IH]; intros ys lead rest val R W Hl; inversion R as [|? y ? ys' R1 R2]; subst.
  - exists lead. split; [auto|]. reflexivity.
  - inversion W as [|? ? W1 W2]; subst. cbn [fst snd] in *. cbn [length scan_n].
    unfold pieces_text. cbn [flat_map fst snd]. rewrite <- !app_assoc. change ([c] ++ flat_map (fun p => fst p ++ [snd p]) ps ++ rest) with (c :: (pieces_text ps ++ rest)).
    rewrite R1 by auto. destruct (IH ys' [c] rest (Some y) R2 W2 ltac:(constructor; auto)) as [lead' [L' E]]. cbn [app] in E. rewrite E. exists lead'. split; [auto|]. reflexivity.
Qed.

Lemma untsv_blocks_ok : forall t bs npts nd cnt i ps ys lead, 1 <= bs -> Forall2 (fun p y => reads t (fst p) y) ps ys -> Forall (fun p => is_ws (snd p) = true) ps ->
  Forall (fun c => is_ws c = true) lead -> length ps = (npts - i * bs) * nd -> npts <= (i + cnt) * bs ->
  untsv_blocks t bs npts nd i cnt (lead ++ pieces_text ps, true) = Ok (enc_all (width t) ys).
Proof.
  intros t bs npts nd. induction cnt as [|cnt IH]; intros i ps ys lead Hbs R W Hl L C.
  - replace (npts - i * bs) with 0 in L by lia. destruct ps; [|discriminate]. inversion R; subst. reflexivity.
  - cbn [untsv_blocks]. unfold untsv_block. set (c := min (npts - i * bs) bs). set (k := c * nd).
    assert (Hk : k <= length ps) by (rewrite L; unfold k; apply Nat.mul_le_mono_r; unfold c; lia).
    assert (Ep : ps = firstn k ps ++ skipn k ps) by (symmetry; apply firstn_skipn).
    rewrite Ep in R. apply Forall2_app_inv_l in R. destruct R as [y1 [y2 [R1 [R2 ->]]]].
    rewrite Ep in W. apply Forall_app in W. destruct W as [W1 W2].
    assert (Lk : length (firstn k ps) = k) by (rewrite firstn_length; lia).
    rewrite Ep at 1. unfold pieces_text. rewrite flat_map_app. fold (pieces_text (firstn k ps)). fold (pieces_text (skipn k ps)).
    destruct (scan_pieces t (firstn k ps) y1 lead (pieces_text (skipn k ps)) None R1 W1 Hl) as [lead' [L' E]]. rewrite Lk in E. rewrite E.
    rewrite initialised_map. cbn [bind fst snd]. rewrite IH with (ys := y2); auto.
    + cbn [bind]. rewrite enc_all_app. reflexivity.
    + rewrite skipn_length, L. unfold k. rewrite <- Nat.mul_sub_distr_r. f_equal. unfold c. cbn. lia.
    + replace (S i + cnt) with (i + S cnt) by lia. auto.
Qed.

Lemma text_to_bin : forall t bs nd tb ys, 1 <= bs -> 1 <= nd -> Forall (fun r => length r = nd) tb -> Forall2 (reads t) (concat tb) ys ->
  tsv_to_bin t bs (Some (table_text tb)) nd (length tb) = Ok (u32 (N.of_nat (length tb)) ++ u32 (N.of_nat nd) ++ enc_all (width t) ys).
Proof.
  intros t bs nd tb ys Hbs Hn F R. unfold tsv_to_bin.
  destruct (table_pieces tb) as [ps [E [W T]]]. { eapply Forall_impl; [|exact F]. intros r Hr ->. cbn in Hr. lia. }
  rewrite T. destruct (n_blocks_bounds (length tb) bs Hbs) as [B1 B2].
  change (pieces_text ps) with ([] ++ pieces_text ps). rewrite untsv_blocks_ok with (ys := ys); auto; try lia.
  - rewrite <- E in R. clear - R. revert ys R. induction ps as [|p ps IH]; intros ys R; inversion R; subst; constructor; auto.
  - rewrite Nat.mul_0_l, Nat.sub_0_r. rewrite <- (concat_length _ nd tb F). rewrite <- E, map_length. reflexivity.
Qed.

(** ** Round trips *)

(** Splitting a list like the rows of a table. *)
Lemma like_rows : forall (A B : Type) (P : A -> B -> Prop) (tb : list (list A)) ys, Forall2 P (concat tb) ys ->
  exists tc, concat tc = ys /\ Forall2 (Forall2 P) tb tc.
Proof.
  intros A B P. induction tb as [|r tb IH]; intros ys H.
  - cbn in H. inversion H; subst. exists []. split; [reflexivity|constructor].
  - cbn [concat] in H. apply Forall2_app_inv_l in H. destruct H as [y1 [y2 [H1 [H2 ->]]]]. destruct (IH y2 H2) as [tc [E T]].
    exists (y1 :: tc). split; [cbn; rewrite E; reflexivity|constructor; auto].
Qed.

Lemma Forall2_len : forall (A B : Type) (P : A -> B -> Prop) l l', Forall2 P l l' -> length l = length l'.
Proof. intros A B P l l' H. induction H; cbn; auto. Qed.

Lemma elems_reread : forall t xs, Forall (elem_ok t) xs -> exists ys, Forall2 (fun x y => kept t x y /\ fits t y /\ elem_ok t y) xs ys /\ Forall2 (reads t) (map (show_elem t) xs) ys.
Proof.
  intros t. induction xs as [|x xs IH]; intros F; [exists []; split; constructor|]. inversion F as [|? ? F1 F2]; subst.
  destruct (scan_elem t x F1) as [y [K [V [O S]]]]. destruct (IH F2) as [ys [A B]]. exists (y :: ys). split; constructor; auto. 
Qed.

Lemma fits_elem : forall t x, elem_ok t x -> fits t x.
Proof. intros [|] x [H _]; exact H. Qed.

Lemma map_concat_rows : forall (A B : Type) (f : A -> B) tb, concat (map (map f) tb) = map f (concat tb).
Proof. intros. rewrite concat_map. reflexivity. Qed.

Lemma same_rows : forall t tb tc, Forall2 (Forall2 (fun x y => show_elem t x = show_elem t y)) tb tc -> map (map (show_elem t)) tb = map (map (show_elem t)) tc.
Proof.
  intros t tb tc H. induction H as [|r s tb tc H1 H2 IH]; [reflexivity|]. cbn. rewrite IH. f_equal. clear - H1. induction H1; cbn; congruence.
Qed.

Lemma round_trip : forall t bs nd tb, 1 <= bs -> 1 <= nd -> Forall (fun r => length r = nd) tb -> Forall (elem_ok t) (concat tb) ->
  exists tc, Forall2 (Forall2 (fun x y => kept t x y /\ fits t y /\ elem_ok t y)) tb tc /\
    tsv_to_bin t bs (Some (table_text (map (map (show_elem t)) tb))) nd (length tb) = Ok (tb_file t nd tc) /\
    Forall (fun r => length r = nd) tc /\ length tc = length tb.
Proof.
  intros t bs nd tb Hbs Hn F Fx. destruct (elems_reread t (concat tb) Fx) as [ys [A B]]. destruct (like_rows _ _ _ tb ys A) as [tc [E T]].
  exists tc. split; [exact T|]. assert (Lt : length tc = length tb) by (symmetry; apply (Forall2_len _ _ _ _ _ T)). split; [|split; [|exact Lt]].
  - unfold tb_file. rewrite Lt, E. rewrite <- (map_length (map (show_elem t)) tb). apply text_to_bin; auto.
    + clear - F. induction F; cbn; constructor; auto. rewrite map_length. auto.
    + rewrite map_concat_rows. exact B.
  - clear - T F. revert F. induction T as [|r s tb tc H1 H2 IH]; intros F; constructor; inversion F; subst; auto. symmetry. apply (Forall2_len _ _ _ _ _ H1).
Qed.
