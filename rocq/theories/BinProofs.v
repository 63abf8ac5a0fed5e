(** * Lemmas about vector files. *)
From Coq Require Import NArith List Arith Lia Bool ZifyBool ZifyNat ZifyN.
From Verif Require Import Base Bytes StreamModel BinModel BinSpec.
Import ListNotations.
Local Open Scope N_scope.

Lemma overlay_full : forall got old, length got = length old -> overlay got old = got.
Proof. intros got old H. unfold overlay. rewrite H, skipn_all. apply app_nil_r. Qed.

Lemma sread_app : forall k a b, N.of_nat (length a) = k -> sread k (mkS (a ++ b) true false) = (a, mkS b true false).
Proof.
  intros k a b H. unfold sread. cbn [s_good s_left]. assert (E : k <=? N.of_nat (length (a ++ b)) = true).
  { apply N.leb_le. rewrite app_length. lia. }
  rewrite E. rewrite firstn_len_app, skipn_len_app by lia. reflexivity.
Qed.

Lemma sread_split : forall k b, k <= N.of_nat (length b) ->
  sread k (mkS b true false) = (firstn (N.to_nat k) b, mkS (skipn (N.to_nat k) b) true false).
Proof. intros k b H. unfold sread. cbn [s_good s_left]. apply N.leb_le in H. rewrite H. reflexivity. Qed.

Lemma u32_length : forall x, length (u32 x) = 4%nat.
Proof. intros. apply enc_length. Qed.

Lemma dec_u32 : forall x, u32_range x -> dec (u32 x) = x.
Proof. intros x H. unfold u32. apply dec_enc. exact H. Qed.

Lemma length4 : forall (l : list N), length l = 4%nat -> exists a b c d, l = [a; b; c; d].
Proof. intros [|a [|b [|c [|d [|e l]]]]] H; try discriminate. eauto. Qed.

Lemma read_header_app : forall g1 g2 n d rest, length g1 = 4%nat -> length g2 = 4%nat -> u32_range n -> u32_range d ->
  read_header g1 g2 (mkS (u32 n ++ u32 d ++ rest) true false) = (n, d, mkS rest true false).
Proof.
  intros g1 g2 n d rest H1 H2 Hn Hd. unfold read_header.
  rewrite (sread_app 4 (u32 n)) by reflexivity.
  rewrite (sread_app 4 (u32 d)) by reflexivity.
  rewrite !overlay_full by (rewrite u32_length; auto). rewrite !dec_u32 by auto. reflexivity.
Qed.

(** A file of at least eight bytes: the header is what its first eight bytes say. *)
Lemma header_split : forall b, (8 <= length b)%nat -> is_bytes b ->
  exists n d rest, b = u32 n ++ u32 d ++ rest /\ u32_range n /\ u32_range d.
Proof.
  intros b Hl Hb.
  assert (E1 : b = firstn 4 b ++ firstn 4 (skipn 4 b) ++ skipn 8 b).
  { rewrite <- (firstn_skipn 4 b) at 1. f_equal. rewrite <- (firstn_skipn 4 (skipn 4 b)) at 1. f_equal.
    destruct b as [|x0 [|x1 [|x2 [|x3 b]]]]; reflexivity. }
  assert (Hb' := Hb). rewrite E1 in Hb'. apply is_bytes_app in Hb'. destruct Hb' as [B1 B2]. apply is_bytes_app in B2. destruct B2 as [B2 _].
  assert (L1 : length (firstn 4 b) = 4%nat) by (rewrite firstn_length; lia).
  assert (L2 : length (firstn 4 (skipn 4 b)) = 4%nat) by (rewrite firstn_length, skipn_length; lia).
  exists (dec (firstn 4 b)), (dec (firstn 4 (skipn 4 b))), (skipn 8 b).
  assert (R1 := dec_bound _ B1). assert (R2 := dec_bound _ B2). rewrite L1 in R1. rewrite L2 in R2.
  split; [|split; [exact R1|exact R2]].
  unfold u32. assert (EA := enc_dec _ B1). assert (EB := enc_dec _ B2). rewrite L1 in EA. rewrite L2 in EB. rewrite EA, EB. exact E1.
Qed.

Lemma header_bound : forall g1 g2 f n d s, length g1 = 4%nat -> length g2 = 4%nat -> is_bytes g1 -> is_bytes g2 ->
  (forall b, f = Some b -> is_bytes b) -> read_header g1 g2 (open_file f) = (n, d, s) -> u32_range n /\ u32_range d.
Proof.
  intros g1 g2 f n d s L1 L2 B1 B2 Hf H. unfold read_header in H.
  assert (Hr : forall k st, is_bytes (s_left st) -> let (a, st') := sread k st in (N.of_nat (length a) <= k) /\ is_bytes a /\ is_bytes (s_left st')).
  { intros k st Hs. unfold sread. destruct (s_good st); [|cbn; repeat split; auto; [lia|constructor]].
    destruct (k <=? N.of_nat (length (s_left st))) eqn:E; cbn.
    - apply N.leb_le in E. split; [rewrite firstn_length; lia|].
      rewrite <- (firstn_skipn (N.to_nat k) (s_left st)) in Hs. apply is_bytes_app in Hs. tauto.
    - apply N.leb_gt in E. repeat split; auto; [lia|constructor]. }
  assert (Ho : forall a g, (length a <= 4)%nat -> length g = 4%nat -> is_bytes a -> is_bytes g -> u32_range (dec (overlay a g))).
  { intros a g Ha Hg Hb Hc. unfold u32_range.
    assert (Hlen : length (overlay a g) = 4%nat) by (unfold overlay; rewrite app_length, skipn_length; lia).
    assert (R : is_bytes (overlay a g)).
    { unfold overlay. apply is_bytes_app. split; auto. rewrite <- (firstn_skipn (length a) g) in Hc. apply is_bytes_app in Hc. tauto. }
    apply dec_bound in R. rewrite Hlen in R. exact R. }
  assert (Hs0 : is_bytes (s_left (open_file f))).
  { destruct f as [b|]; cbn; [apply Hf; auto|constructor]. }
  pose proof (Hr 4 _ Hs0) as H1. destruct (sread 4 (open_file f)) as [a s1]. destruct H1 as [A1 [A2 A3]].
  pose proof (Hr 4 _ A3) as H2. destruct (sread 4 s1) as [b s2]. destruct H2 as [B3 [B4 B5]].
  assert (n = dec (overlay a g1)) by congruence. assert (d = dec (overlay b g2)) by congruence. subst n d.
  split; apply Ho; auto; lia.
Qed.

Lemma bin_file_length : forall w n d e, length (bin_file w n d e) = (8 + w * length e)%nat.
Proof. intros. unfold bin_file. rewrite !app_length, enc_all_length, !u32_length. lia. Qed.

Lemma enc_all_bytes : forall k xs, is_bytes (enc_all k xs).
Proof. intros k xs. unfold enc_all. induction xs as [|x xs IH]; cbn; [constructor|]. apply is_bytes_app. split; [apply enc_bytes|auto]. Qed.

Lemma enc_all_dec : forall k cnt b, is_bytes b -> length b = (k * cnt)%nat -> enc_all k (dec_all k cnt b) = b.
Proof.
  intros k cnt. induction cnt as [|cnt IH]; intros b Hb Hl.
  - rewrite Nat.mul_0_r in Hl. destruct b; [reflexivity|discriminate].
  - cbn [dec_all]. unfold enc_all. cbn [flat_map].
    rewrite <- (firstn_skipn k b) in Hb. apply is_bytes_app in Hb. destruct Hb as [B1 B2].
    assert (L1 : length (firstn k b) = k) by (rewrite firstn_length; nia).
    assert (E := enc_dec _ B1). rewrite L1 in E. rewrite E. fold (enc_all k (dec_all k cnt (skipn k b))).
    rewrite IH; [apply firstn_skipn|auto|]. rewrite skipn_length. nia.
Qed.

Lemma dec_all_length : forall k cnt b, length (dec_all k cnt b) = cnt.
Proof. intros k cnt. induction cnt as [|cnt IH]; intros b; cbn; auto. Qed.

Lemma dec_all_lt : forall k cnt b, is_bytes b -> length b = (k * cnt)%nat -> forall x, In x (dec_all k cnt b) -> x < 256 ^ N.of_nat k.
Proof.
  intros k cnt. induction cnt as [|cnt IH]; intros b Hb Hl x Hx; [destruct Hx|]. cbn [dec_all] in Hx.
  rewrite <- (firstn_skipn k b) in Hb. apply is_bytes_app in Hb. destruct Hb as [B1 B2].
  assert (L1 : length (firstn k b) = k) by (rewrite firstn_length; nia).
  destruct Hx as [<-|Hx].
  - apply dec_bound in B1. rewrite L1 in B1. auto.
  - eapply IH; eauto. rewrite skipn_length. nia.
Qed.

(** ** load_bin *)
Lemma wrap64_small : forall x, x < 18446744073709551616 -> wrap64 x = x.
Proof. intros. unfold wrap64. apply N.mod_small. auto. Qed.

Lemma load_bin_right : forall w g1 g2 n d rest, length g1 = 4%nat -> length g2 = 4%nat ->
  u32_range n -> u32_range d -> n * d * N.of_nat w < 2 ^ 63 -> N.of_nat (length rest) = n * d * N.of_nat w ->
  load_bin w g1 g2 (Some (u32 n ++ u32 d ++ rest)) = Ok (n, d, dec_all w (N.to_nat (n * d)) rest).
Proof.
  intros w g1 g2 n d rest H1 H2 Hn Hd Hs Hl. unfold load_bin. cbn [open_file].
  rewrite read_header_app by auto. cbn [tell_end]. rewrite !app_length, !u32_length.
  change (2 ^ 63) with 9223372036854775808 in Hs.
  rewrite wrap64_small by lia.
  assert (E : N.of_nat (4 + (4 + length rest)) =? n * d * N.of_nat w + 8 = true) by (apply N.eqb_eq; lia). rewrite E.
  assert (E2 : 9223372036854775808 <=? n * d * N.of_nat w = false) by (apply N.leb_gt; auto). rewrite E2.
  rewrite <- (app_nil_r rest) at 1. rewrite sread_app by auto. rewrite Hl, N.eqb_refl. reflexivity.
Qed.

Lemma tell_missing : forall w n d, width w -> u32_range n -> u32_range d ->
  wrap64 (n * d * N.of_nat w + 8) <> 18446744073709551615.
Proof.
  intros w n d Hw Hn Hd. unfold u32_range in *. change (2 ^ 32) with 4294967296 in *. unfold wrap64.
  destruct Hw as [<-|[<-|[<-|[<-|[]]]]].
  - rewrite N.mod_small; nia.
  - intros E. pose proof (N.div_mod (n * d * N.of_nat 2 + 8) 18446744073709551616 ltac:(lia)). lia.
  - intros E. pose proof (N.div_mod (n * d * N.of_nat 4 + 8) 18446744073709551616 ltac:(lia)). lia.
  - intros E. pose proof (N.div_mod (n * d * N.of_nat 8 + 8) 18446744073709551616 ltac:(lia)). lia.
Qed.

(** A short read leaves fewer than eight bytes. *)
Lemma load_bin_cases : forall w g1 g2 f, width w -> length g1 = 4%nat -> length g2 = 4%nat -> is_bytes g1 -> is_bytes g2 ->
  (forall b, f = Some b -> is_bytes b) ->
  (exists n d rest, f = Some (u32 n ++ u32 d ++ rest) /\ u32_range n /\ u32_range d /\
     N.of_nat (length rest) = n * d * N.of_nat w /\ n * d * N.of_nat w < 2 ^ 63 /\
     load_bin w g1 g2 f = Ok (n, d, dec_all w (N.to_nat (n * d)) rest)) \/
  load_bin w g1 g2 f = Throw.
Proof.
  intros w g1 g2 f Hw L1 L2 B1 B2 Hf. unfold load_bin.
  destruct (read_header g1 g2 (open_file f)) as [[n d] s] eqn:Eh.
  destruct (header_bound _ _ _ _ _ _ L1 L2 B1 B2 Hf Eh) as [Rn Rd].
  destruct (tell_end f =? wrap64 (n * d * N.of_nat w + 8)) eqn:Et; [|right; auto]. apply N.eqb_eq in Et.
  destruct (9223372036854775808 <=? n * d * N.of_nat w) eqn:Eb; [right; auto|]. apply N.leb_gt in Eb.
  rewrite wrap64_small in Et by lia.
  destruct f as [b|]; cbn [tell_end] in Et.
  - left. destruct (header_split b) as [n' [d' [rest [E [Rn' Rd']]]]]; [lia|auto|]. subst b. cbn [open_file] in Eh.
    rewrite read_header_app in Eh by auto. assert (n' = n) by congruence. assert (d' = d) by congruence. subst n' d'.
    rewrite !app_length, !u32_length in Et.
    assert (Hl : N.of_nat (length rest) = n * d * N.of_nat w) by lia.
    exists n, d, rest. repeat (split; [solve [auto]|]).
    assert (Es : s = mkS rest true false) by congruence. rewrite Es.
    rewrite <- (app_nil_r rest) at 1. rewrite sread_app by auto. rewrite Hl, N.eqb_refl. reflexivity.
  - exfalso. apply (tell_missing w n d Hw Rn Rd). rewrite wrap64_small by lia. auto.
Qed.

Lemma save_bin_ok : forall w data n d, N.of_nat (length data) = n * d ->
  save_bin w data n d = Ok (bin_file w n d data).
Proof.
  intros w data n d H. unfold save_bin. assert (E : N.of_nat (length data) <? n * d = false) by (apply N.ltb_ge; lia). rewrite E.
  rewrite <- H, Nat2N.id, firstn_all. reflexivity.
Qed.

Lemma width_pos : forall w, width w -> (1 <= w <= 8)%nat.
Proof. intros w [<-|[<-|[<-|[<-|[]]]]]; lia. Qed.

Lemma bin_round_trip : forall w g1 g2 data n d, length g1 = 4%nat -> length g2 = 4%nat ->
  u32_range n -> u32_range d -> N.of_nat (length data) = n * d -> n * d * N.of_nat w < 2 ^ 63 ->
  (forall x, In x data -> x < 256 ^ N.of_nat w) ->
  save_bin w data n d = Ok (bin_file w n d data) /\ load_bin w g1 g2 (Some (bin_file w n d data)) = Ok (n, d, data).
Proof.
  intros w g1 g2 data n d L1 L2 Rn Rd Hl Hs Hx. split; [apply save_bin_ok; auto|].
  unfold bin_file. rewrite load_bin_right; auto.
  - rewrite <- Hl, Nat2N.id. rewrite <- (app_nil_r (enc_all w data)). rewrite dec_all_enc by auto. reflexivity.
  - rewrite enc_all_length. lia.
Qed.

Lemma bin_reload : forall w g1 g2 b n d data, width w -> length g1 = 4%nat -> length g2 = 4%nat -> is_bytes g1 -> is_bytes g2 ->
  is_bytes b -> load_bin w g1 g2 (Some b) = Ok (n, d, data) -> save_bin w data n d = Ok b.
Proof.
  intros w g1 g2 b n d data Hw L1 L2 B1 B2 Hb H.
  destruct (load_bin_cases w g1 g2 (Some b) Hw L1 L2 B1 B2) as [[n' [d' [rest [E [Rn [Rd [Hl [Hs E2]]]]]]]]|E2]; [|
    |rewrite E2 in H; discriminate].
  - intros b' Eb. assert (b' = b) by congruence. subst. auto.
  - rewrite E2 in H. assert (n' = n) by congruence. assert (d' = d) by congruence. subst n' d'.
    assert (data = dec_all w (N.to_nat (n * d)) rest) by congruence. subst data. clear H E2.
    assert (b = u32 n ++ u32 d ++ rest) by congruence. subst b.
    rewrite save_bin_ok; [|rewrite dec_all_length; lia]. unfold bin_file. f_equal. f_equal. f_equal.
    apply enc_all_dec; [|lia]. apply is_bytes_app in Hb. destruct Hb as [_ Hb]. apply is_bytes_app in Hb. tauto.
Qed.

Lemma bin_wrong_size : forall w g1 g2 n d data b', width w -> length g1 = 4%nat -> length g2 = 4%nat -> is_bytes g1 -> is_bytes g2 ->
  u32_range n -> u32_range d -> N.of_nat (length data) = n * d ->
  is_bytes b' -> length b' <> length (bin_file w n d data) ->
  (exists k, b' = firstn k (bin_file w n d data)) \/ (exists more, b' = bin_file w n d data ++ more) ->
  load_bin w g1 g2 (Some b') = Throw.
Proof.
  intros w g1 g2 n d data b' Hw L1 L2 B1 B2 Rn Rd Hl Hb Hne Hc.
  destruct (load_bin_cases w g1 g2 (Some b') Hw L1 L2 B1 B2) as [[n' [d' [rest [E [Rn' [Rd' [Hl' [Hs E2]]]]]]]]|E2]; [| |auto].
  - intros b Eb. assert (b = b') by congruence. subst. auto.
  - exfalso. assert (Eb : b' = u32 n' ++ u32 d' ++ rest) by congruence. clear E E2.
    rewrite bin_file_length in Hne. rewrite Eb in Hne. rewrite !app_length, !u32_length in Hne.
    assert (E8 : firstn 8 b' = u32 n ++ u32 d).
    { assert (F8 : firstn 8 (bin_file w n d data) = u32 n ++ u32 d).
      { unfold bin_file. rewrite app_assoc. apply firstn_len_app. rewrite app_length, !u32_length. reflexivity. }
      destruct Hc as [[k Hk]|[more Hm]].
      - assert (8 <= k)%nat.
        { assert (length b' <= k)%nat by (rewrite Hk; apply firstn_le_length). rewrite Eb in H. rewrite !app_length, !u32_length in H. lia. }
        rewrite Hk, firstn_firstn, Nat.min_l by lia. auto.
      - rewrite Hm. unfold bin_file. rewrite <- !app_assoc. rewrite app_assoc. apply firstn_len_app. rewrite app_length, !u32_length. reflexivity. }
    assert (E8' : firstn 8 b' = u32 n' ++ u32 d').
    { rewrite Eb, app_assoc. apply firstn_len_app. rewrite app_length, !u32_length. reflexivity. }
    rewrite E8 in E8'.
    assert (En : u32 n = u32 n').
    { apply (f_equal (firstn 4)) in E8'. rewrite !firstn_len_app in E8' by apply u32_length. auto. }
    assert (Ed : u32 d = u32 d').
    { rewrite En in E8'. apply app_inv_head in E8'. auto. }
    apply (f_equal dec) in En. apply (f_equal dec) in Ed. rewrite !dec_u32 in En, Ed by auto. subst n' d'. lia.
Qed.
