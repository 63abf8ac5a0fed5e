(** * Lemmas about aligned vector files. *)
From Coq Require Import NArith ZArith List Arith Lia Bool ZifyBool ZifyNat ZifyN.
From Verif Require Import Base Bytes StreamModel BinModel BinSpec BinProofs.
Import ListNotations.
Local Open Scope N_scope.
Ltac Zify.zify_post_hook ::= Z.div_mod_to_equations.

Lemma skipn_skipn : forall (A : Type) x y (l : list A), skipn x (skipn y l) = skipn (x + y) l.
Proof.
  intros A x y. revert x. induction y as [|y IH]; intros x l; [rewrite Nat.add_0_r; reflexivity|].
  destruct l as [|a l]; [rewrite !skipn_nil; reflexivity|]. rewrite Nat.add_succ_r. cbn [skipn]. apply IH.
Qed.

Lemma round_up_8 : forall d, d <= round_up d 8 < d + 8 /\ round_up d 8 mod 8 = 0.
Proof. intros d. unfold round_up. destruct (d mod 8 =? 0) eqn:E; [apply N.eqb_eq in E|apply N.eqb_neq in E]; lia. Qed.

Lemma round_up_le : forall d, d <= round_up d 8.
Proof. intros d. apply round_up_8. Qed.

(** A loaded row: the bytes of the file and zeros. *)
Definition padded (b : list N) (pad : nat) : list (option N) := map Some b ++ repeat (Some 0) pad.

(** The rows of [cnt] records of [k] bytes. *)
Fixpoint chunks (k cnt : nat) (b : list N) : list (list N) :=
  match cnt with
  | O => []
  | S cnt' => firstn k b :: chunks k cnt' (skipn k b)
  end.

Lemma chunks_length : forall k cnt b, length (chunks k cnt b) = cnt.
Proof. intros k cnt. induction cnt as [|cnt IH]; intros b; cbn; auto. Qed.

Lemma chunks_nth : forall k cnt b i, (i < cnt)%nat -> nth_error (chunks k cnt b) i = Some (firstn k (skipn (i * k) b)).
Proof.
  intros k cnt. induction cnt as [|cnt IH]; intros b i H; [lia|]. destruct i as [|i]; cbn [chunks nth_error Nat.mul]; [reflexivity|].
  rewrite IH by lia. f_equal. f_equal. rewrite skipn_skipn. f_equal. lia.
Qed.

Lemma chunks_concat : forall k cnt b, length b = (k * cnt)%nat -> concat (chunks k cnt b) = b.
Proof.
  intros k cnt. induction cnt as [|cnt IH]; intros b H.
  - rewrite Nat.mul_0_r in H. destruct b; [reflexivity|discriminate].
  - cbn [chunks concat]. rewrite IH; [apply firstn_skipn|]. rewrite skipn_length. nia.
Qed.

Lemma fill_rows_ok : forall w dim rdim alloc cnt i b, dim <= rdim ->
  N.of_nat (length b) = N.of_nat cnt * (dim * N.of_nat w) -> (i + N.of_nat cnt) * rdim * N.of_nat w <= alloc ->
  fill_rows w dim rdim alloc cnt i (mkS b true false) =
    Ok (map (fun r => padded r (N.to_nat ((rdim - dim) * N.of_nat w))) (chunks (N.to_nat (dim * N.of_nat w)) cnt b)).
Proof.
  intros w dim rdim alloc cnt. induction cnt as [|cnt IH]; intros i b Hd Hl Ha; cbn [fill_rows chunks map]; [reflexivity|].
  rewrite sread_split by nia.
  assert (Hlen : N.of_nat (length (firstn (N.to_nat (dim * N.of_nat w)) b)) = dim * N.of_nat w).
  { rewrite firstn_length_le; nia. }
  rewrite Hlen.
  assert (E : (0 <? dim * N.of_nat w) && (alloc <? i * rdim * N.of_nat w + dim * N.of_nat w)
     || (dim <? rdim) && (alloc <? (i + 1) * rdim * N.of_nat w) = false).
  { apply orb_false_iff. split; apply andb_false_iff; right; apply N.ltb_ge; nia. }
  rewrite E. rewrite IH; auto.
  - cbn [bind]. f_equal. f_equal. unfold padded. rewrite N.sub_diag. reflexivity.
  - rewrite skipn_length. nia.
  - nia.
Qed.

Lemma load_aligned_ok : forall w g1 g2 n d rest, length g1 = 4%nat -> length g2 = 4%nat ->
  u32_range n -> u32_range d -> N.of_nat (length rest) = n * d * N.of_nat w -> n * round_up d 8 * N.of_nat w + 8 < 2 ^ 64 ->
  load_aligned_bin w g1 g2 (Some (u32 n ++ u32 d ++ rest)) =
    Ok (n, d, round_up d 8, map (fun r => padded r (N.to_nat ((round_up d 8 - d) * N.of_nat w)))
      (chunks (N.to_nat (d * N.of_nat w)) (N.to_nat n) rest)).
Proof.
  intros w g1 g2 n d rest L1 L2 Rn Rd Hl Hs. unfold load_aligned_bin. cbn [open_file].
  rewrite read_header_app by auto. cbn [tell_end]. rewrite !app_length, !u32_length.
  pose proof (round_up_le d) as Hr. change (2 ^ 64) with 18446744073709551616 in Hs.
  assert (n * d * N.of_nat w <= n * round_up d 8 * N.of_nat w) by (apply N.mul_le_mono_r, N.mul_le_mono_l, Hr).
  rewrite wrap64_small by lia.
  assert (E : N.of_nat (4 + (4 + length rest)) =? n * d * N.of_nat w + 8 = true) by (apply N.eqb_eq; lia). rewrite E.
  rewrite (wrap64_small (n * round_up d 8 * N.of_nat w)) by lia. rewrite fill_rows_ok; auto.
  - rewrite Hl, N2Nat.id. lia.
  - rewrite N2Nat.id. lia.
Qed.

(** Elements of a padded row *)
Lemma known_map : forall b, known (map Some b) = Some b.
Proof. induction b as [|x b IH]; cbn; [auto|]. rewrite IH. auto. Qed.

Lemma padded_eq : forall b pad, padded b pad = map Some (b ++ repeat 0 pad).
Proof. intros b pad. unfold padded. rewrite map_app. f_equal. induction pad as [|p IH]; cbn; congruence. Qed.

Lemma dec_zeros : forall k, dec (repeat 0 k) = 0.
Proof. induction k as [|k IH]; cbn; [auto|]. rewrite IH. reflexivity. Qed.

Lemma skipn_map' : forall (A B : Type) (f : A -> B) k l, skipn k (map f l) = map f (skipn k l).
Proof. intros A B f k. induction k as [|k IH]; intros [|x l]; cbn; auto. Qed.

Lemma skipn_repeat' : forall (A : Type) (x : A) k m, skipn k (repeat x m) = repeat x (m - k).
Proof. intros A x k. induction k as [|k IH]; intros [|m]; cbn; auto. Qed.

Lemma firstn_repeat' : forall (A : Type) (x : A) k m, (k <= m)%nat -> firstn k (repeat x m) = repeat x k.
Proof. intros A x k. induction k as [|k IH]; intros [|m] H; cbn; auto; try lia. f_equal. apply IH. lia. Qed.

Lemma padded_elem : forall w b d pad j, length b = (d * w)%nat -> (j < d)%nat ->
  mem_elem w (padded b (pad * w)) j = Some (dec (firstn w (skipn (j * w) b))).
Proof.
  intros w b d pad j Hl Hj. unfold mem_elem. rewrite padded_eq, skipn_map', firstn_map, known_map.
  assert (Hlt : (j * w + w <= length b)%nat) by nia.
  rewrite skipn_app, firstn_app. rewrite skipn_length.
  replace (w - (length b - j * w))%nat with 0%nat by lia. cbn [firstn]. rewrite app_nil_r.
  assert (El : length (firstn w (skipn (j * w) b)) = w) by (rewrite firstn_length, skipn_length; lia).
  rewrite El, Nat.eqb_refl. reflexivity.
Qed.

Lemma padded_zero : forall w b d pad j, length b = (d * w)%nat -> (d <= j < d + pad)%nat ->
  mem_elem w (padded b (pad * w)) j = Some 0.
Proof.
  intros w b d pad j Hl Hj. unfold mem_elem. rewrite padded_eq, skipn_map', firstn_map, known_map.
  assert (Hge : (length b <= j * w)%nat) by nia.
  rewrite skipn_app. rewrite (skipn_all2 b) by lia. cbn [app]. rewrite skipn_repeat', firstn_repeat' by nia.
  rewrite repeat_length, Nat.eqb_refl, dec_zeros. reflexivity.
Qed.

(** Everything about an accepted file. *)
Lemma aligned_spec : forall w g1 g2 n d rest, length g1 = 4%nat -> length g2 = 4%nat ->
  u32_range n -> u32_range d -> N.of_nat (length rest) = n * d * N.of_nat w -> n * round_up d 8 * N.of_nat w + 8 < 2 ^ 64 ->
  exists rdim rows, load_aligned_bin w g1 g2 (Some (u32 n ++ u32 d ++ rest)) = Ok (n, d, rdim, rows) /\
    d <= rdim < d + 8 /\ rdim mod 8 = 0 /\ length rows = N.to_nat n /\
    forall i row, nth_error rows i = Some row ->
      length row = (N.to_nat rdim * w)%nat /\
      (forall j, (j < N.to_nat d)%nat -> mem_elem w row j = Some (file_elem w (u32 n ++ u32 d ++ rest) (i * N.to_nat d + j))) /\
      (forall j, (N.to_nat d <= j < N.to_nat rdim)%nat -> mem_elem w row j = Some 0).
Proof.
  intros w g1 g2 n d rest L1 L2 Rn Rd Hl Hs.
  exists (round_up d 8). eexists. split; [apply load_aligned_ok; auto|].
  destruct (round_up_8 d) as [HA HB]. split; [auto|]. split; [auto|].
  split; [rewrite map_length; apply chunks_length|].
  intros i row Hi. rewrite nth_error_map in Hi.
  assert (Hlt : (i < N.to_nat n)%nat).
  { destruct (nth_error (chunks (N.to_nat (d * N.of_nat w)) (N.to_nat n) rest) i) eqn:E; [|discriminate].
    rewrite <- (chunks_length (N.to_nat (d * N.of_nat w)) (N.to_nat n) rest). apply nth_error_Some. congruence. }
  rewrite chunks_nth in Hi by auto. cbn [option_map] in Hi.
  set (b := firstn (N.to_nat (d * N.of_nat w)) (skipn (i * N.to_nat (d * N.of_nat w)) rest)) in *.
  assert (Edw : N.to_nat (d * N.of_nat w) = (N.to_nat d * w)%nat) by lia.
  assert (Epw : N.to_nat ((round_up d 8 - d) * N.of_nat w) = ((N.to_nat (round_up d 8) - N.to_nat d) * w)%nat) by nia.
  assert (Hlr : length rest = (N.to_nat n * (N.to_nat d * w))%nat) by lia.
  assert (Hb : length b = (N.to_nat d * w)%nat).
  { unfold b. rewrite firstn_length, skipn_length, Edw. nia. }
  assert (row = padded b ((N.to_nat (round_up d 8) - N.to_nat d) * w)) by (rewrite <- Epw; congruence). subst row.
  split; [|split].
  - unfold padded. rewrite app_length, map_length, repeat_length, Hb. nia.
  - intros j Hj. rewrite (padded_elem w b (N.to_nat d)) by auto. f_equal. unfold file_elem, b. f_equal.
    rewrite skipn_firstn_comm, firstn_firstn, Edw. rewrite Nat.min_l by nia. f_equal.
    rewrite skipn_skipn. rewrite app_assoc.
    replace (8 + (i * N.to_nat d + j) * w)%nat with ((j * w + i * (N.to_nat d * w)) + 8)%nat by lia.
    rewrite <- (skipn_skipn _ (j * w + i * (N.to_nat d * w)) 8).
    rewrite (skipn_len_app _ 8) by (rewrite app_length, !u32_length; auto). reflexivity.
  - intros j Hj. apply (padded_zero w b (N.to_nat d)); auto. lia.
Qed.

(** Writing it again *)
Lemma initialised_map : forall b, initialised (map Some b) = Ok b.
Proof. induction b as [|x b IH]; cbn; [auto|]. rewrite IH. auto. Qed.

Lemma write_rows_ok : forall w d pad rs, (forall r, In r rs -> N.of_nat (length r) = d * N.of_nat w) ->
  write_rows w d (map (fun r => padded r pad) rs) = Ok (concat rs).
Proof.
  intros w d pad rs. induction rs as [|r rs IH]; intros H; cbn [map write_rows concat]; [auto|].
  rewrite padded_eq, firstn_map. rewrite (firstn_len_app _ (N.to_nat (d * N.of_nat w))) by (rewrite <- (H r) by (left; auto); lia).
  rewrite initialised_map. cbn [bind]. rewrite IH; [reflexivity|]. intros r' Hr. apply H. right. auto.
Qed.

Lemma chunks_In : forall k cnt b r, length b = (k * cnt)%nat -> In r (chunks k cnt b) -> length r = k.
Proof.
  intros k cnt. induction cnt as [|cnt IH]; intros b r Hl Hr; [destruct Hr|]. cbn [chunks] in Hr. destruct Hr as [<-|Hr].
  - rewrite firstn_length. nia.
  - eapply IH; [|eauto]. rewrite skipn_length. nia.
Qed.

Lemma aligned_resave : forall w g1 g2 n d rest, length g1 = 4%nat -> length g2 = 4%nat ->
  u32_range n -> u32_range d -> N.of_nat (length rest) = n * d * N.of_nat w -> n * round_up d 8 * N.of_nat w + 8 < 2 ^ 64 ->
  exists rdim rows, load_aligned_bin w g1 g2 (Some (u32 n ++ u32 d ++ rest)) = Ok (n, d, rdim, rows) /\
    save_orig w rows rdim d = Ok (Some (u32 n ++ u32 d ++ rest)).
Proof.
  intros w g1 g2 n d rest L1 L2 Rn Rd Hl Hs.
  exists (round_up d 8). eexists. split; [apply load_aligned_ok; auto|].
  unfold save_orig. assert (E : round_up d 8 <? d = false) by (apply N.ltb_ge; apply round_up_le). rewrite E.
  assert (Hlr : length rest = (N.to_nat (d * N.of_nat w) * N.to_nat n)%nat) by lia.
  rewrite write_rows_ok.
  - cbn [bind]. rewrite map_length, chunks_length, N2Nat.id, chunks_concat by auto. reflexivity.
  - intros r Hr. apply chunks_In in Hr; auto. rewrite Hr. lia.
Qed.

(** A subset of the rows *)
Lemma rd_all_ok : forall (A : Type) (a : list A) ids, (forall i, In i ids -> (i < length a)%nat) ->
  exists sel, rd_all a ids = Ok sel /\ length sel = length ids /\ forall k i, nth_error ids k = Some i -> nth_error sel k = nth_error a i.
Proof.
  intros A a ids. induction ids as [|i ids IH]; intros H; cbn [rd_all].
  - exists []. split; [auto|]. split; [auto|]. intros k j Hk. destruct k; discriminate.
  - destruct (rd_lt _ a i) as [x E]; [apply H; left; auto|]. rewrite E. cbn [bind]. apply rd_ok in E.
    destruct IH as [sel [-> [Hl Hn]]]; [intros j Hj; apply H; right; auto|]. cbn [bind].
    exists (x :: sel). split; [auto|]. split; [cbn; lia|]. intros [|k] j Hk; cbn in *; [congruence|auto].
Qed.

Lemma rd_all_map : forall (A B : Type) (f : A -> B) a ids sel, rd_all a ids = Ok sel -> rd_all (map f a) ids = Ok (map f sel).
Proof.
  intros A B f a ids. induction ids as [|i ids IH]; intros sel H; cbn [rd_all] in *; [inversion H; auto|].
  apply bind_ok in H. destruct H as [x [E H]]. apply rd_ok in E. apply bind_ok in H. destruct H as [r [Er H]].
  assert (sel = x :: r) by congruence. subst sel.
  assert (E' : rd (map f a) i = Ok (f x)) by (apply rd_ok; rewrite nth_error_map, E; auto). rewrite E'. cbn [bind].
  rewrite (IH _ Er). reflexivity.
Qed.

Lemma subset_ok : forall w g1 g2 h1 h2 n d rest ids, length g1 = 4%nat -> length g2 = 4%nat -> length h1 = 4%nat -> length h2 = 4%nat ->
  u32_range n -> u32_range d -> N.of_nat (length rest) = n * d * N.of_nat w -> n * round_up d 8 * N.of_nat w + 8 < 2 ^ 64 ->
  u32_range (N.of_nat (length ids)) -> N.of_nat (length ids) * round_up d 8 * N.of_nat w + 8 < 2 ^ 64 ->
  (forall i, In i ids -> (i < N.to_nat n)%nat) ->
  exists rdim rows sub rows', load_aligned_bin w g1 g2 (Some (u32 n ++ u32 d ++ rest)) = Ok (n, d, rdim, rows) /\
    save_subset w rows d rdim ids = Ok (Some sub) /\
    load_aligned_bin w h1 h2 (Some sub) = Ok (N.of_nat (length ids), d, rdim, rows') /\
    length rows' = length ids /\ forall k i, nth_error ids k = Some i -> nth_error rows' k = nth_error rows i.
Proof.
  intros w g1 g2 h1 h2 n d rest ids L1 L2 L3 L4 Rn Rd Hl Hs Ri Hsi Hids.
  exists (round_up d 8). eexists.
  set (k := N.to_nat (d * N.of_nat w)). set (pad := N.to_nat ((round_up d 8 - d) * N.of_nat w)).
  assert (Hlr : length rest = (k * N.to_nat n)%nat) by (unfold k; lia).
  destruct (rd_all_ok _ (chunks k (N.to_nat n) rest) ids) as [sel [Es [Ls Hn]]]; [rewrite chunks_length; auto|].
  assert (Hsel : forall r, In r sel -> length r = k).
  { intros r Hr. apply In_nth_error in Hr. destruct Hr as [j Hj].
    destruct (nth_error ids j) as [i|] eqn:Ei.
    - rewrite (Hn _ _ Ei) in Hj. apply nth_error_In in Hj. eapply chunks_In; eauto.
    - apply nth_error_None in Ei. assert (j < length sel)%nat by (apply nth_error_Some; congruence). lia. }
  exists (u32 (N.of_nat (length ids)) ++ u32 d ++ concat sel). eexists.
  split; [apply load_aligned_ok; auto|].
  split; [|split].
  - unfold save_subset. assert (E : round_up d 8 <? d = false) by (apply N.ltb_ge; apply round_up_le). rewrite E.
    fold k pad. rewrite (rd_all_map _ _ (fun r => padded r pad) _ _ _ Es). cbn [bind].
    rewrite write_rows_ok; [reflexivity|]. intros r Hr. apply Hsel in Hr. unfold k in Hr. lia.
  - apply load_aligned_ok; auto.
    assert (Hc : length (concat sel) = (k * length sel)%nat).
    { clear - Hsel. induction sel as [|r sel IH]; cbn; [lia|]. rewrite app_length, IH, (Hsel r); [lia|left; auto|intros; apply Hsel; right; auto]. }
    rewrite Hc, Ls. unfold k. lia.
  - fold k pad. rewrite Nat2N.id, map_length, chunks_length. split; [auto|].
    intros j i Hj. rewrite !nth_error_map. rewrite <- (Hn _ _ Hj). f_equal.
    assert (Hlt : (j < length sel)%nat) by (rewrite Ls; apply nth_error_Some; congruence).
    rewrite <- Ls. rewrite chunks_nth by auto.
    clear - Hsel Hlt. revert j Hlt. induction sel as [|r sel IH]; intros j Hlt; [cbn in Hlt; lia|].
    destruct j as [|j]; cbn [concat nth_error Nat.mul skipn].
    + rewrite firstn_len_app; [auto|apply Hsel; left; auto].
    + rewrite Nat.add_comm, <- skipn_skipn. rewrite (skipn_len_app _ k) by (apply Hsel; left; auto).
      apply IH; [intros; apply Hsel; right; auto|cbn in Hlt; lia].
Qed.

(** ** Rejection *)
Lemma aligned_cases : forall w g1 g2 f n d rdim rows, width w -> length g1 = 4%nat -> length g2 = 4%nat -> is_bytes g1 -> is_bytes g2 ->
  (forall b, f = Some b -> is_bytes b) -> load_aligned_bin w g1 g2 f = Ok (n, d, rdim, rows) ->
  n * d * N.of_nat w + 8 < 2 ^ 64 ->
  exists rest, f = Some (u32 n ++ u32 d ++ rest) /\ N.of_nat (length rest) = n * d * N.of_nat w.
Proof.
  intros w g1 g2 f n d rdim rows Hw L1 L2 B1 B2 Hf H Hs. unfold load_aligned_bin in H.
  destruct (read_header g1 g2 (open_file f)) as [[n' d'] s] eqn:Eh.
  destruct (header_bound _ _ _ _ _ _ L1 L2 B1 B2 Hf Eh) as [Rn Rd].
  destruct (tell_end f =? wrap64 (n' * d' * N.of_nat w + 8)) eqn:Et; [|discriminate]. apply N.eqb_eq in Et.
  apply bind_ok in H. destruct H as [rows' [_ H]]. assert (n' = n) by congruence. assert (d' = d) by congruence. subst n' d'.
  destruct f as [b|]; cbn [tell_end] in Et.
  - rewrite wrap64_small in Et by exact Hs.
    destruct (header_split b) as [n' [d' [rest [E [Rn' Rd']]]]]; [lia|auto|]. subst b. cbn [open_file] in Eh.
    rewrite read_header_app in Eh by auto. assert (n' = n) by congruence. assert (d' = d) by congruence. subst n' d'.
    rewrite !app_length, !u32_length in Et. exists rest. split; auto. lia.
  - exfalso. apply (tell_missing w n d Hw Rn Rd). congruence.
Qed.

Lemma aligned_wrong_size : forall w g1 g2 n d rest, length g1 = 4%nat -> length g2 = 4%nat -> u32_range n -> u32_range d ->
  n * d * N.of_nat w + 8 < 2 ^ 64 -> N.of_nat (length rest) <> n * d * N.of_nat w ->
  load_aligned_bin w g1 g2 (Some (u32 n ++ u32 d ++ rest)) = Throw.
Proof.
  intros w g1 g2 n d rest L1 L2 Rn Rd Hs Hne. unfold load_aligned_bin. cbn [open_file].
  rewrite read_header_app by auto. cbn [tell_end]. rewrite !app_length, !u32_length. rewrite wrap64_small by exact Hs.
  assert (E : N.of_nat (4 + (4 + length rest)) =? n * d * N.of_nat w + 8 = false) by (apply N.eqb_neq; lia). rewrite E. reflexivity.
Qed.

(** Rows read from a stream at its end. *)
Lemma fill_rows_empty : forall w dim alloc cnt i s, s_left s = [] -> 0 < dim * N.of_nat w ->
  fill_rows w dim dim alloc cnt i s = Ok (repeat (repeat None (N.to_nat (dim * N.of_nat w))) cnt).
Proof.
  intros w dim alloc cnt. induction cnt as [|cnt IH]; intros i s Hs Hd; cbn [fill_rows repeat]; [auto|].
  assert (E : exists s', sread (dim * N.of_nat w) s = ([], s') /\ s_left s' = []).
  { unfold sread. rewrite Hs. destruct (s_good s); [|eauto]. cbn [length N.of_nat].
    assert (E0 : dim * N.of_nat w <=? 0 = false) by (apply N.leb_gt; auto). rewrite E0. eauto. }
  destruct E as [s' [-> Hs']]. cbn [length N.of_nat].
  change (0 <? 0) with false. rewrite N.ltb_irrefl. cbn [andb orb]. rewrite IH by auto. cbn [bind map app].
  rewrite N.sub_0_r, N.sub_diag. cbn [N.mul N.to_nat repeat]. rewrite app_nil_r. reflexivity.
Qed.

(** An 8-byte file announcing n points of d dimensions, n * d * w a multiple of 2^64. *)
Lemma aligned_wrap : forall w g1 g2 n d, length g1 = 4%nat -> length g2 = 4%nat -> u32_range n -> u32_range d ->
  d mod 8 = 0 -> 0 < d -> (1 <= w)%nat -> n * d * N.of_nat w mod 2 ^ 64 = 0 ->
  exists rows, load_aligned_bin w g1 g2 (Some (u32 n ++ u32 d)) = Ok (n, d, d, rows) /\ length rows = N.to_nat n /\
    forall row, In row rows -> forall x, In x row -> x = None.
Proof.
  intros w g1 g2 n d L1 L2 Rn Rd Hd Hd0 Hw Hm. change (2 ^ 64) with 18446744073709551616 in Hm.
  eexists. unfold load_aligned_bin. cbn [open_file].
  assert (Eh := read_header_app g1 g2 n d [] L1 L2 Rn Rd). rewrite app_nil_r in Eh. rewrite Eh.
  cbn [tell_end]. rewrite app_length, !u32_length.
  assert (E : N.of_nat (4 + 4) =? wrap64 (n * d * N.of_nat w + 8) = true).
  { apply N.eqb_eq. unfold wrap64. rewrite <- N.add_mod_idemp_l by lia. rewrite Hm. reflexivity. }
  rewrite E. assert (Er : round_up d 8 = d).
  { unfold round_up. rewrite Hd. cbn [N.eqb]. lia. }
  rewrite Er. rewrite fill_rows_empty; [|reflexivity|nia]. cbn [bind].
  split; [reflexivity|]. split; [apply repeat_length|].
  intros row Hrow x Hx. apply repeat_spec in Hrow. subst row. apply repeat_spec in Hx. auto.
Qed.

Lemma aligned_wrong_size_saved : forall w g1 g2 n d data b', length g1 = 4%nat -> length g2 = 4%nat ->
  u32_range n -> u32_range d -> N.of_nat (length data) = n * d -> n * d * N.of_nat w + 8 < 2 ^ 64 ->
  length b' <> length (bin_file w n d data) ->
  (exists k, (8 <= k)%nat /\ b' = firstn k (bin_file w n d data)) \/ (exists more, b' = bin_file w n d data ++ more) ->
  load_aligned_bin w g1 g2 (Some b') = Throw.
Proof.
  intros w g1 g2 n d data b' L1 L2 Rn Rd Hl Hs Hne Hc. rewrite bin_file_length in Hne. unfold bin_file in Hc.
  destruct Hc as [[k [Hk ->]]|[more ->]].
  - rewrite app_assoc in *. rewrite firstn_app in *. rewrite (firstn_all2 (u32 n ++ u32 d)) in * by (rewrite app_length, !u32_length; lia).
    rewrite <- app_assoc in *. apply aligned_wrong_size; auto.
    rewrite !app_length, !u32_length in Hne. set (r := firstn _ _) in *. lia.
  - rewrite <- !app_assoc in *. apply aligned_wrong_size; auto. rewrite !app_length, !u32_length in Hne. rewrite app_length in *. lia.
Qed.

Lemma metadata_ok : forall g1 g2 n d rest, length g1 = 4%nat -> length g2 = 4%nat -> u32_range n -> u32_range d ->
  (get_bin_metadata g1 g2 (Some (u32 n ++ u32 d ++ rest)) = (n, d) <-> n < 2 ^ 31 /\ d < 2 ^ 31).
Proof.
  intros g1 g2 n d rest L1 L2 Rn Rd. unfold get_bin_metadata. cbn [open_file]. rewrite read_header_app by auto.
  unfold sign_extend. change (2 ^ 31) with 2147483648.
  destruct (n <? 2147483648) eqn:E1; destruct (d <? 2147483648) eqn:E2; split; intros H; try (split; lia); try reflexivity; try lia;
    exfalso; assert (H1 := f_equal fst H); assert (H2 := f_equal snd H); cbn [fst snd] in *; lia.
Qed.

Lemma aligned_wrap_ex : forall n d, n * d * N.of_nat 4 mod 2 ^ 64 = 0 -> u32_range n -> u32_range d -> d mod 8 = 0 -> 0 < d -> 0 < n ->
  exists n d rows, load_aligned_bin 4 [0;0;0;0] [0;0;0;0] (Some (u32 n ++ u32 d)) = Ok (n, d, d, rows) /\
    n * d * 4 <> 0 /\ length rows = N.to_nat n /\ (forall row, In row rows -> forall x, In x row -> x = None).
Proof.
  intros n d Hm Rn Rd H8 Hd Hn. exists n, d.
  destruct (aligned_wrap 4 [0;0;0;0] [0;0;0;0] n d eq_refl eq_refl Rn Rd H8 Hd ltac:(lia) Hm) as [rows [H1 [H2 H3]]].
  exists rows. split; [exact H1|]. split; [nia|]. split; [exact H2|exact H3].
Qed.

Lemma aligned_rejects_refuted :
  exists n d rows, load_aligned_bin 4 [0;0;0;0] [0;0;0;0] (Some (u32 n ++ u32 d)) = Ok (n, d, d, rows) /\
    n * d * 4 <> 0 /\ length rows = N.to_nat n /\ (forall row, In row rows -> forall x, In x row -> x = None).
Proof. apply (aligned_wrap_ex 2147483648 2147483648); vm_compute; reflexivity. Qed.
