(** * Lemmas about ground truth files. *)
From Coq Require Import Arith NArith List Bool Lia.
From Verif Require Import Base Bytes Float32 StreamModel BinModel BinSpec BinProofs CacheModel CacheProofs ListLemmas TruthModel TruthSpec.
Import ListNotations.
Local Open Scope N_scope.

Lemma settle_known : forall g l i, settle g i (map Some l) = l.
Proof. intros g. induction l as [|x l IH]; intros i; cbn; [auto|]. now rewrite IH. Qed.

Lemma take_ok : forall g n f pos c, rinv f pos c -> n < 18446744073709551616 -> n <= N.of_nat (length (skipn pos f)) ->
  exists c', take g n c = Ok (firstn (N.to_nat n) (skipn pos f), c') /\ rinv f (pos + N.to_nat n) c'.
Proof.
  intros g n f pos c R Hn H. destruct (cread_step f pos c n R Hn) as [_ X]. destruct (X H) as [c' [E R']]. exists c'. unfold take. rewrite E, settle_known. auto.
Qed.

Lemma take_throw : forall g n f pos c, rinv f pos c -> n < 18446744073709551616 -> N.of_nat (length (skipn pos f)) < n -> take g n c = Throw.
Proof. intros g n f pos c R Hn H. destruct (cread_step f pos c n R Hn) as [X _]. unfold take. now rewrite (X H). Qed.

(** Reading the next piece of a file made of pieces. *)
Lemma take_piece : forall g n pre a post c, rinv (pre ++ a ++ post) (length pre) c -> n = N.of_nat (length a) -> n < 18446744073709551616 ->
  exists c', take g n c = Ok (a, c') /\ rinv (pre ++ a ++ post) (length (pre ++ a)) c'.
Proof.
  intros g n pre a post c R -> Hn. destruct (take_ok g (N.of_nat (length a)) _ _ _ R Hn) as [c' [E R']].
  - rewrite skipn_len_app by auto. rewrite app_length. lia.
  - exists c'. rewrite skipn_len_app in E by auto. rewrite Nat2N.id in *. rewrite firstn_len_app in E by auto. split; [auto|]. rewrite app_length. exact R'.
Qed.

(** The two header words of a file of at least 8 bytes. *)
Lemma header_words : forall g b blk, N.of_nat (length b) < 18446744073709551616 -> is_bytes b -> (8 <= length b)%nat ->
  exists n d rest c1 c2, b = u32 n ++ u32 d ++ rest /\ u32_range n /\ u32_range d /\
    take g 4 (copen (Some b) blk) = Ok (u32 n, c1) /\ take g 4 c1 = Ok (u32 d, c2) /\ rinv b 8 c2.
Proof.
  intros g b bk HL Hb H8. destruct (header_split b H8 Hb) as (n & d & rest & E & Hn & Hd).
  exists n, d, rest. pose proof (copen_inv b bk HL) as R0. set (c := copen (Some b) bk) in *.
  pose proof R0 as R1. rewrite E in R1. destruct (take_piece g 4 [] (u32 n) (u32 d ++ rest) c R1 eq_refl eq_refl) as [c1 [E1 R2]].
  destruct (take_piece g 4 (u32 n) (u32 d) rest c1 R2 eq_refl eq_refl) as [c2 [E2 R3]].
  exists c1, c2. split; [auto|]. split; [auto|]. split; [auto|]. split; [auto|]. split; [auto|]. rewrite E. exact R3.
Qed.

Lemma header_short : forall g b bk, N.of_nat (length b) < 18446744073709551616 -> (length b < 8)%nat ->
  (do r1 <- take g 4 (copen (Some b) bk); take g 4 (snd r1)) = Throw.
Proof.
  intros g b bk HL H8. pose proof (copen_inv b bk HL) as R. destruct (Nat.le_gt_cases 4 (length b)) as [H4|H4].
  - destruct (take_ok g 4 b 0 _ R) as [c' [E R']]; [reflexivity|cbn [skipn]; lia|]. rewrite E. cbn [bind snd].
    apply (take_throw g 4 b _ c' R'); [reflexivity|]. rewrite skipn_length. change (0 + N.to_nat 4)%nat with 4%nat. lia.
  - rewrite (take_throw g 4 b 0 _ R); [reflexivity|reflexivity|cbn [skipn]; lia].
Qed.

Lemma nd_lt : forall n d, u32_range n -> u32_range d -> n * d < 18446744073709551616.
Proof. unfold u32_range. intros n d Hn Hd. change 18446744073709551616 with (2 ^ 32 * 2 ^ 32). apply N.mul_lt_mono; auto. Qed.

Lemma all_u32_enc : forall l, all_u32 l -> forall x, In x l -> x < 256 ^ N.of_nat 4.
Proof. intros l H x Hx. exact (H x Hx). Qed.

Lemma truth_len : forall n d ids dists, length (truth_file n d ids dists) = (8 + 4 * length ids + match dists with Some l => 4 * length l | None => 0 end)%nat.
Proof.
  intros n d ids dists. unfold truth_file. rewrite !app_length. unfold u32. rewrite !enc_length, enc_all_length.
  destruct dists as [l|]; [rewrite enc_all_length|cbn [length]]; lia.
Qed.

Lemma truth_bytes : forall n d ids dists, is_bytes (truth_file n d ids dists).
Proof.
  intros n d ids dists. unfold truth_file. rewrite !is_bytes_app. split; [apply enc_bytes|]. split; [apply enc_bytes|]. split; [apply enc_all_bytes|].
  destruct dists; [apply enc_all_bytes|constructor].
Qed.

Lemma copen_fsize : forall b bk, c_fsize (copen (Some b) bk) = N.of_nat (length b).
Proof. intros. apply copen_size. Qed.

Lemma load_truthset_ok : forall g n d ids dists, truth_ok n d ids dists ->
  load_truthset g (Some (truth_file n d ids dists)) = Ok (n, d, ids, dists).
Proof.
  intros g n d ids dists (Hn & Hd & Hnd & Li & Ui & HD). set (b := truth_file n d ids dists).
  assert (Lb : N.of_nat (length b) = 8 + n * d * 4 + match dists with Some _ => n * d * 4 | None => 0 end).
  { unfold b. rewrite truth_len. destruct dists as [l|]; [destruct HD as [HD _]|]; lia. }
  assert (HL : N.of_nat (length b) < 18446744073709551616) by (rewrite Lb; destruct dists; lia).
  unfold load_truthset. rewrite copen_fsize.
  pose proof (copen_inv b blk HL) as R0. set (c := copen (Some b) blk) in *.
  set (tail := match dists with Some l => enc_all 4 l | None => [] end).
  assert (Eb : b = u32 n ++ u32 d ++ enc_all 4 ids ++ tail) by reflexivity.
  rewrite Eb in R0. destruct (take_piece g 4 [] (u32 n) _ c R0 eq_refl eq_refl) as [c1 [E1 R1]]. rewrite E1. cbn [bind snd fst].
  destruct (take_piece g 4 (u32 n) (u32 d) _ c1 R1 eq_refl eq_refl) as [c2 [E2 R2]]. rewrite E2. cbn [bind snd fst].
  rewrite !dec_u32 by auto. rewrite !wrap64_small by lia. rewrite Lb.
  assert (Et : (if 8 + n * d * 4 + match dists with Some _ => n * d * 4 | None => 0 end =? n * d * 4 + 8 then 2
              else if 8 + n * d * 4 + match dists with Some _ => n * d * 4 | None => 0 end =? 2 * n * d * 4 + 8 then 1 else 0) =
              match dists with Some _ => 1 | None => 2 end).
  { destruct dists as [l|].
    - rewrite (proj2 (N.eqb_neq _ _)) by lia. rewrite (proj2 (N.eqb_eq _ _)) by lia. reflexivity.
    - rewrite (proj2 (N.eqb_eq _ _)) by lia. reflexivity. }
  rewrite Et. assert (Z : (match dists with Some _ => 1 | None => 2 end =? 0) = false) by (destruct dists; reflexivity). rewrite Z.
  rewrite (proj2 (N.leb_gt _ _)) by lia.
  assert (R2' : rinv ((u32 n ++ u32 d) ++ enc_all 4 ids ++ tail) (length (u32 n ++ u32 d)) c2) by (rewrite <- app_assoc; exact R2).
  destruct (take_piece g (n * d * 4) (u32 n ++ u32 d) (enc_all 4 ids) tail c2 R2') as [c3 [E3 R3]]; [rewrite enc_all_length; lia|lia|].
  rewrite E3. cbn [bind snd fst].
  assert (Di : dec_all 4 (N.to_nat (n * d)) (enc_all 4 ids) = ids).
  { rewrite <- Li, Nat2N.id. rewrite <- (app_nil_r (enc_all 4 ids)). apply dec_all_enc. now apply all_u32_enc. }
  rewrite Di. destruct dists as [l|]; [|reflexivity]. cbn [N.eqb Pos.eqb]. destruct HD as [Ll [Ul _]].
  assert (R3' : rinv (((u32 n ++ u32 d) ++ enc_all 4 ids) ++ tail ++ []) (length ((u32 n ++ u32 d) ++ enc_all 4 ids)) c3) by (rewrite app_nil_r, <- app_assoc; exact R3).
  destruct (take_piece g (n * d * 4) _ tail [] c3 R3') as [c4 [E4 _]]; [unfold tail; rewrite enc_all_length; lia|lia|].
  rewrite E4. cbn [bind fst]. unfold tail.
  assert (Dl : dec_all 4 (N.to_nat (n * d)) (enc_all 4 l) = l).
  { rewrite <- Ll, Nat2N.id. rewrite <- (app_nil_r (enc_all 4 l)). apply dec_all_enc. now apply all_u32_enc. }
  now rewrite Dl.
Qed.

Lemma firstn4_u32 : forall b cnt, is_bytes b -> length b = (4 * cnt)%nat -> all_u32 (dec_all 4 cnt b).
Proof. intros b cnt H HL x Hx. exact (dec_all_lt 4 cnt b H HL x Hx). Qed.

(** Whatever loads is a stored ground truth; nothing is undefined. *)
Lemma load_truthset_only : forall g b, is_bytes b -> N.of_nat (length b) < 4611686018427387904 ->
  load_truthset g (Some b) = Throw \/ exists n d ids dists, load_truthset g (Some b) = Ok (n, d, ids, dists) /\ truth_ok n d ids dists /\ b = truth_file n d ids dists.
Proof.
  intros g b Hb HL. assert (HL' : N.of_nat (length b) < 18446744073709551616) by lia.
  destruct (Nat.le_gt_cases 8 (length b)) as [H8|H8].
  - destruct (header_words g b blk HL' Hb H8) as (n & d & rest & c1 & c2 & Eb & Hn & Hd & E1 & E2 & R).
    pose proof (nd_lt n d Hn Hd) as ND.
    assert (Step : load_truthset g (Some b) =
       (let type := if N.of_nat (length b) =? wrap64 (n * d * 4 + 8) then 2 else if N.of_nat (length b) =? wrap64 (2 * n * d * 4 + 8) then 1 else 0 in
        if type =? 0 then Throw
        else if 2305843009213693952 <=? n * d then Throw
        else
          do r3 <- take g (n * d * 4) c2;
          let ids := dec_all 4 (N.to_nat (n * d)) (fst r3) in
          if type =? 1 then do r4 <- take g (n * d * 4) (snd r3); Ok (n, d, ids, Some (dec_all 4 (N.to_nat (n * d)) (fst r4)))
          else Ok (n, d, ids, None))).
    { unfold load_truthset. rewrite copen_fsize, E1. cbn [bind fst snd]. rewrite E2. cbn [bind fst snd]. rewrite !dec_u32 by auto. reflexivity. }
    rewrite Step. cbn zeta. clear Step.
    destruct (2305843009213693952 <=? n * d) eqn:Ebig; [left; destruct (_ =? wrap64 _); [reflexivity|destruct (_ =? wrap64 _); reflexivity]|].
    apply N.leb_gt in Ebig. rewrite (wrap64_small (n * d * 4 + 8)) by lia.
    assert (W : (N.of_nat (length b) =? wrap64 (2 * n * d * 4 + 8)) = (N.of_nat (length b) =? 2 * n * d * 4 + 8)).
    { destruct (N.lt_ge_cases (2 * n * d * 4 + 8) 18446744073709551616) as [Hs|Hs]; [now rewrite wrap64_small|].
      assert (Ex : 2 * n * d * 4 + 8 = 18446744073709551616) by lia. rewrite Ex. change (wrap64 18446744073709551616) with 0.
      rewrite !(proj2 (N.eqb_neq _ _)) by lia. reflexivity. }
    rewrite W. clear W.
    assert (Er : rest = skipn 8 b) by (rewrite Eb, app_assoc; symmetry; apply skipn_len_app; reflexivity).
    assert (Lr : length rest = (length b - 8)%nat) by (rewrite Er; apply skipn_length).
    assert (Br : is_bytes rest) by (rewrite Eb in Hb; rewrite !is_bytes_app in Hb; tauto).
    destruct (N.of_nat (length b) =? n * d * 4 + 8) eqn:T2.
    + apply N.eqb_eq in T2. cbn [N.eqb Pos.eqb]. right.
      destruct (take_ok g (n * d * 4) b 8 c2 R) as [c3 [E3 R3]]; [lia|rewrite skipn_length; lia|]. rewrite E3. cbn [bind fst snd].
      rewrite <- Er. rewrite firstn_all2 by lia.
      exists n, d, (dec_all 4 (N.to_nat (n * d)) rest), None. split; [reflexivity|]. split.
      * repeat (split; [first [assumption|lia|rewrite dec_all_length; lia|apply firstn4_u32; [assumption|lia]]|]). exact I.
      * unfold truth_file. rewrite enc_all_dec by (auto; lia). rewrite app_nil_r. exact Eb.
    + destruct (N.of_nat (length b) =? 2 * n * d * 4 + 8) eqn:T1; [|left; reflexivity].
      apply N.eqb_neq in T2. apply N.eqb_eq in T1. cbn [N.eqb Pos.eqb]. right.
      destruct (take_ok g (n * d * 4) b 8 c2 R) as [c3 [E3 R3]]; [lia|rewrite skipn_length; lia|]. rewrite E3. cbn [bind fst snd].
      destruct (take_ok g (n * d * 4) b _ c3 R3) as [c4 [E4 R4]]; [lia|rewrite skipn_length; lia|]. rewrite E4. cbn [bind fst snd].
      set (b1 := firstn (N.to_nat (n * d * 4)) rest). set (b2 := skipn (N.to_nat (n * d * 4)) rest).
      assert (E12 : rest = b1 ++ b2) by (symmetry; apply firstn_skipn).
      assert (Hb12 : is_bytes b1 /\ is_bytes b2) by (apply is_bytes_app; rewrite <- E12; auto). destruct Hb12 as [Hb1 Hb2].
      assert (L1 : length b1 = (4 * N.to_nat (n * d))%nat) by (unfold b1; rewrite firstn_length; lia).
      assert (L2 : length b2 = (4 * N.to_nat (n * d))%nat) by (unfold b2; rewrite skipn_length; lia).
      rewrite <- Er. fold b1.
      assert (X2 : firstn (N.to_nat (n * d * 4)) (skipn (8 + N.to_nat (n * d * 4)) b) = b2).
      { rewrite <- CacheProofs.skipn_skipn, <- Er. fold b2. apply firstn_all2. lia. }
      rewrite X2. exists n, d, (dec_all 4 (N.to_nat (n * d)) b1), (Some (dec_all 4 (N.to_nat (n * d)) b2)). split; [reflexivity|]. split.
      * split; [auto|]. split; [auto|]. split; [lia|]. split; [rewrite dec_all_length; lia|]. split; [now apply firstn4_u32|].
        split; [rewrite dec_all_length; lia|]. split; [now apply firstn4_u32|lia].
      * unfold truth_file. rewrite !enc_all_dec by auto. rewrite <- E12. exact Eb.
  - left. pose proof (header_short g b blk HL' H8) as X. unfold load_truthset. destruct (take g 4 (copen (Some b) blk)) as [r1| | | |]; cbn [bind] in X |- *; try discriminate; [|reflexivity].
    rewrite X. reflexivity.
Qed.

(** A missing file throws. *)
Definition missing_at (cache off : N) : cin := mkC (mkS [] false false) 0 cache (repeat None (N.to_nat cache)) off 18446744073709551615.

Lemma missing_open : forall cache, cache < 18446744073709551615 -> copen None cache = missing_at cache 0.
Proof.
  intros cache H. unfold copen, tell_end, open_file, file_bytes. rewrite N.min_l by lia. unfold sread. cbn [s_good map app length]. rewrite Nat.sub_0_r. reflexivity.
Qed.

Lemma missing_read : forall g n cache off, cache < 18446744073709551615 -> off + n <= cache ->
  exists b, take g n (missing_at cache off) = Ok (b, missing_at cache (off + n)).
Proof.
  intros g n cache off Hc H. unfold take, cread, missing_at. cbn [c_size c_off c_buf c_rd c_total c_fsize]. rewrite (sub64_le cache off) by lia.
  rewrite (proj2 (N.leb_le _ _)) by lia. unfold slice. rewrite repeat_length. rewrite (proj2 (N.leb_le _ _)) by lia. eexists. reflexivity.
Qed.

Lemma odd_size : forall a, 18446744073709551615 =? wrap64 (a * 4 + 8) = false.
Proof.
  intros a. apply N.eqb_neq. unfold wrap64. intros X.
  assert (Y : (a * 4 + 8) mod 2 = 18446744073709551615 mod 2).
  { rewrite X. change 18446744073709551616 with (2 * 9223372036854775808). rewrite N.mod_mul_r by discriminate.
    rewrite (N.mul_comm 2 (_ mod _)), N.mod_add, N.mod_mod by discriminate. reflexivity. }
  replace (a * 4 + 8) with ((a * 2 + 4) * 2) in Y by lia. rewrite N.mod_mul in Y by discriminate. discriminate.
Qed.

Lemma missing_header : forall g, exists b1 b2, take g 4 (copen None blk) = Ok (b1, missing_at blk 4) /\ take g 4 (missing_at blk 4) = Ok (b2, missing_at blk 8).
Proof.
  intros g. rewrite missing_open by reflexivity. destruct (missing_read g 4 blk 0) as [b1 E1]; [reflexivity|discriminate|].
  destruct (missing_read g 4 blk 4) as [b2 E2]; [reflexivity|discriminate|]. exists b1, b2. split; [exact E1|exact E2].
Qed.

Lemma missing_fsize : c_fsize (copen None blk) = 18446744073709551615.
Proof. rewrite missing_open by reflexivity. reflexivity. Qed.

Lemma load_truthset_missing : forall g, load_truthset g None = Throw.
Proof.
  intros g. unfold load_truthset. rewrite missing_fsize. destruct (missing_header g) as [b1 [b2 [-> E2]]]. cbn [bind fst snd]. rewrite E2. cbn [bind fst snd].
  rewrite (odd_size (dec b1 * dec b2)), (odd_size (2 * dec b1 * dec b2)). reflexivity.
Qed.

(** ** Pruning *)
Lemma skipn_nth_cons : forall (A : Type) (l : list A) k x, nth_error l k = Some x -> skipn k l = x :: skipn (S k) l.
Proof. intros A. induction l as [|y l IH]; intros [|k] x H; try discriminate; [cbn in H; injection H as ->; reflexivity|]. cbn [skipn]. now apply IH. Qed.

Lemma prune_row_ok : forall ids dists range cnt k, (k + cnt <= length ids)%nat -> (k + cnt <= length dists)%nat ->
  prune_row ids dists range k cnt = Ok (in_range range (firstn cnt (skipn k ids)) (firstn cnt (skipn k dists))).
Proof.
  intros ids dists range. induction cnt as [|cnt IH]; intros k Hi Hd; cbn [prune_row]; [reflexivity|].
  destruct (rd_lt _ dists k) as [d Ed]; [lia|]. destruct (rd_lt _ ids k) as [x Ex]; [lia|]. rewrite Ed, Ex. cbn [bind]. rewrite IH by lia. cbn [bind].
  apply rd_ok in Ed. apply rd_ok in Ex. rewrite (skipn_nth_cons _ ids k x Ex), (skipn_nth_cons _ dists k d Ed). unfold in_range. cbn [firstn combine filter snd].
  destruct (fle (f32_of_bits d) range); reflexivity.
Qed.

Lemma prune_rows_ok : forall ids dists range dim cnt i, ((i + cnt) * dim <= length ids)%nat -> ((i + cnt) * dim <= length dists)%nat ->
  prune_rows ids dists range dim i cnt = Ok (map (fun q => in_range range (matrix_row dim q ids) (matrix_row dim q dists)) (seq i cnt)).
Proof.
  intros ids dists range dim. induction cnt as [|cnt IH]; intros i Hi Hd; cbn [prune_rows seq map]; [reflexivity|].
  rewrite prune_row_ok by nia. cbn [bind]. rewrite IH by nia. reflexivity.
Qed.

Lemma prune_ok : forall g n d ids dists range, truth_ok n d ids (Some dists) ->
  prune_truthset g (Some (truth_file n d ids (Some dists))) range =
    Ok (map (fun q => in_range range (matrix_row (N.to_nat d) q ids) (matrix_row (N.to_nat d) q dists)) (seq 0 (N.to_nat n))).
Proof.
  intros g n d ids dists range (Hn & Hd & Hnd & Li & Ui & Ll & Ul & _). set (b := truth_file n d ids (Some dists)).
  assert (Lb : N.of_nat (length b) = 8 + 2 * (n * d * 4)) by (unfold b; rewrite truth_len; lia).
  assert (HL : N.of_nat (length b) < 18446744073709551616) by (rewrite Lb; lia).
  unfold prune_truthset. rewrite copen_fsize. pose proof (copen_inv b blk HL) as R0. set (c := copen (Some b) blk) in *.
  assert (Eb : b = u32 n ++ u32 d ++ enc_all 4 ids ++ enc_all 4 dists) by reflexivity.
  rewrite Eb in R0. destruct (take_piece g 4 [] (u32 n) _ c R0 eq_refl eq_refl) as [c1 [E1 R1]]. rewrite E1. cbn [bind snd fst].
  destruct (take_piece g 4 (u32 n) (u32 d) _ c1 R1 eq_refl eq_refl) as [c2 [E2 R2]]. rewrite E2. cbn [bind snd fst].
  rewrite !dec_u32 by auto. rewrite !wrap64_small by lia. rewrite Lb, (proj2 (N.eqb_eq _ _)) by lia. rewrite (proj2 (N.leb_gt _ _)) by lia.
  assert (R2' : rinv ((u32 n ++ u32 d) ++ enc_all 4 ids ++ enc_all 4 dists) (length (u32 n ++ u32 d)) c2) by (rewrite <- app_assoc; exact R2).
  destruct (take_piece g (n * d * 4) (u32 n ++ u32 d) (enc_all 4 ids) (enc_all 4 dists) c2 R2') as [c3 [E3 R3]]; [rewrite enc_all_length; lia|lia|].
  rewrite E3. cbn [bind snd fst].
  assert (R3' : rinv (((u32 n ++ u32 d) ++ enc_all 4 ids) ++ enc_all 4 dists ++ []) (length ((u32 n ++ u32 d) ++ enc_all 4 ids)) c3) by (rewrite app_nil_r, <- app_assoc; exact R3).
  destruct (take_piece g (n * d * 4) _ (enc_all 4 dists) [] c3 R3') as [c4 [E4 _]]; [rewrite enc_all_length; lia|lia|].
  rewrite E4. cbn [bind fst].
  assert (Di : forall l, N.of_nat (length l) = n * d -> all_u32 l -> dec_all 4 (N.to_nat (n * d)) (enc_all 4 l) = l).
  { intros l Hl Hu. rewrite <- Hl, Nat2N.id. rewrite <- (app_nil_r (enc_all 4 l)). apply dec_all_enc. now apply all_u32_enc. }
  rewrite !Di by auto. apply prune_rows_ok; cbn [plus]; rewrite <- N2Nat.inj_mul; lia.
Qed.

Lemma prune_missing : forall g range, prune_truthset g None range = Throw.
Proof.
  intros g range. unfold prune_truthset. rewrite missing_fsize. destruct (missing_header g) as [b1 [b2 [-> E2]]]. cbn [bind fst snd]. rewrite E2. cbn [bind fst snd].
  rewrite (odd_size (2 * dec b1 * dec b2)). reflexivity.
Qed.

(** ** Saving *)
Lemma save_load_truthset : forall g n d ids dists, truth_ok n d ids (Some dists) ->
  exists b, save_truthset ids dists n d = Ok b /\ load_truthset g (Some b) = Ok (n, d, ids, Some dists).
Proof.
  intros g n d ids dists T. exists (truth_file n d ids (Some dists)). split; [|now apply load_truthset_ok].
  destruct T as (Hn & Hd & Hnd & Li & Ui & Ll & Ul & _). unfold save_truthset. rewrite !(proj2 (N.ltb_ge _ _)) by lia.
  rewrite !firstn_all2 by lia. reflexivity.
Qed.

(** ** Range ground truth *)
Lemma range_lists_ok : forall g lists pre c, rinv (pre ++ enc_all 4 (concat lists)) (length pre) c ->
  (forall l, In l lists -> all_u32 l /\ N.of_nat (length l) < 2 ^ 32) ->
  range_lists g (map (fun l => N.of_nat (length l)) lists) c = Ok lists.
Proof.
  intros g. induction lists as [|l t IH]; intros pre c R H; cbn [map range_lists]; [reflexivity|].
  destruct (H l (or_introl eq_refl)) as [Hu Hl]. cbn [concat] in R. unfold enc_all in R. rewrite flat_map_app in R.
  change (flat_map (enc 4) l) with (enc_all 4 l) in R. change (flat_map (enc 4) (concat t)) with (enc_all 4 (concat t)) in R.
  assert (D : dec_all 4 (length l) (enc_all 4 l) = l) by (rewrite <- (app_nil_r (enc_all 4 l)); apply dec_all_enc; now apply all_u32_enc).
  assert (X : exists c', (if N.of_nat (length l) =? 0 then Ok ([], c) else take g (4 * N.of_nat (length l)) c) = Ok (enc_all 4 l, c') /\
             rinv ((pre ++ enc_all 4 l) ++ enc_all 4 (concat t)) (length (pre ++ enc_all 4 l)) c').
  { destruct (N.of_nat (length l) =? 0) eqn:E.
    - apply N.eqb_eq in E. destruct l; [|cbn in E; lia]. exists c. split; [reflexivity|]. cbn [enc_all flat_map]. rewrite app_nil_r. exact R.
    - destruct (take_piece g (4 * N.of_nat (length l)) pre (enc_all 4 l) (enc_all 4 (concat t)) c R) as [c' [E' R']]; [rewrite enc_all_length; lia|change (2 ^ 32) with 4294967296 in Hl; lia|].
      exists c'. split; [exact E'|]. rewrite <- app_assoc. exact R'. }
  destruct X as [c' [-> R']]. cbn [bind fst snd]. rewrite (IH _ c' R') by (intros; apply H; now right). cbn [bind]. rewrite Nat2N.id, D. reflexivity.
Qed.

Lemma load_range_ok : forall g lists, lists <> [] -> N.of_nat (length lists) < 2147483648 -> N.of_nat (length (concat lists)) < 2147483648 ->
  (forall l, In l lists -> all_u32 l) -> load_range_truthset g (Some (range_file lists)) = Ok lists.
Proof.
  intros g lists Hne Hn Ht Hu. set (n := N.of_nat (length lists)) in *. set (t := N.of_nat (length (concat lists))) in *.
  set (counts := map (fun l => N.of_nat (length l)) lists). set (b := range_file lists).
  assert (Eb : b = u32 n ++ u32 t ++ enc_all 4 counts ++ enc_all 4 (concat lists)) by reflexivity.
  assert (Lb : N.of_nat (length b) = 8 + n * 4 + t * 4).
  { rewrite Eb, !app_length. unfold u32. rewrite !enc_length, !enc_all_length. unfold counts. rewrite map_length. unfold n, t. lia. }
  assert (HL : N.of_nat (length b) < 18446744073709551616) by lia.
  assert (Hlen : forall l, In l lists -> N.of_nat (length l) <= t).
  { intros l Hl. unfold t. clear -Hl. induction lists as [|a r IH]; [destruct Hl|]. cbn [concat]. rewrite app_length. destruct Hl as [->|Hl]; [lia|specialize (IH Hl); lia]. }
  unfold load_range_truthset. rewrite copen_fsize. pose proof (copen_inv b blk HL) as R0. set (c := copen (Some b) blk) in *. rewrite Eb in R0.
  destruct (take_piece g 4 [] (u32 n) _ c R0 eq_refl eq_refl) as [c1 [E1 R1]]. rewrite E1. cbn [bind snd fst].
  destruct (take_piece g 4 (u32 n) (u32 t) _ c1 R1 eq_refl eq_refl) as [c2 [E2 R2]]. rewrite E2. cbn [bind snd fst].
  rewrite !dec_u32 by (unfold u32_range; change (2 ^ 32) with 4294967296; lia).
  assert (S1 : sext n = n) by (unfold sext; now rewrite (proj2 (N.ltb_lt _ _))). assert (S2 : sext t = t) by (unfold sext; now rewrite (proj2 (N.ltb_lt _ _))).
  rewrite S1, S2. rewrite wrap64_small by lia. rewrite Lb, N.eqb_refl. rewrite (proj2 (N.leb_gt _ _)) by lia.
  assert (R2' : rinv ((u32 n ++ u32 t) ++ enc_all 4 counts ++ enc_all 4 (concat lists)) (length (u32 n ++ u32 t)) c2) by (rewrite <- app_assoc; exact R2).
  destruct (take_piece g (4 * n) _ (enc_all 4 counts) _ c2 R2') as [c3 [E3 R3]]; [rewrite enc_all_length; unfold counts; rewrite map_length; unfold n; lia|lia|].
  rewrite E3. cbn [bind snd fst]. rewrite (proj2 (N.eqb_neq _ _)) by (unfold n; destruct lists; [congruence|cbn [length]; lia]).
  assert (D : dec_all 4 (N.to_nat n) (enc_all 4 counts) = counts).
  { replace (N.to_nat n) with (length counts) by (unfold counts; rewrite map_length; unfold n; lia). rewrite <- (app_nil_r (enc_all 4 counts)). apply dec_all_enc.
    intros x Hx. unfold counts in Hx. apply in_map_iff in Hx. destruct Hx as [l [<- Hl]]. specialize (Hlen l Hl). change (256 ^ N.of_nat 4) with 4294967296. lia. }
  rewrite D. apply (range_lists_ok g lists ((u32 n ++ u32 t) ++ enc_all 4 counts) c3); [rewrite <- app_assoc; exact R3|].
  intros l Hl. split; [now apply Hu|]. specialize (Hlen l Hl). change (2 ^ 32) with 4294967296. lia.
Qed.

(** Without queries the percentiles printed read an empty vector. *)
Lemma load_range_empty : forall g, load_range_truthset g (Some (range_file [])) = UB.
Proof. intros g. reflexivity. Qed.
