(** * Lemmas about buffered reading and writing. *)
From Coq Require Import Arith NArith List Bool Lia.
From Verif Require Import Bytes StreamModel ListLemmas BinProofs BinProofs2 CacheModel CacheSpec.
Import ListNotations.
Local Open Scope N_scope.

Lemma sub64_le : forall a b, b <= a -> a < 18446744073709551616 -> sub64 a b = a - b.
Proof.
  intros a b H Ha. unfold sub64. replace (a + 18446744073709551616 - b) with ((a - b) + 1 * 18446744073709551616) by lia.
  rewrite N.mod_add by discriminate. apply N.mod_small. lia.
Qed.

Lemma skipn_skipn : forall (A : Type) y x (l : list A), skipn x (skipn y l) = skipn (y + x) l.
Proof. intros. rewrite BinProofs2.skipn_skipn, Nat.add_comm. reflexivity. Qed.

(** The reader after [pos] bytes have been read. *)
Definition rinv (f : list N) (pos : nat) (c : cin) : Prop :=
  c_fsize c = N.of_nat (length f) /\ c_total c = N.of_nat (length f) /\ N.of_nat (length f) < 18446744073709551616 /\
  c_off c <= c_size c /\ c_size c <= N.of_nat (length f) /\ length (c_buf c) = N.to_nat (c_size c) /\
  (pos + N.to_nat (c_size c - c_off c) <= length f)%nat /\
  c_rd c = mkS (skipn (pos + N.to_nat (c_size c - c_off c)) f) true false /\
  skipn (N.to_nat (c_off c)) (c_buf c) = map Some (firstn (N.to_nat (c_size c - c_off c)) (skipn pos f)).

Lemma copen_inv : forall f cache, N.of_nat (length f) < 18446744073709551616 -> rinv f 0 (copen (Some f) cache).
Proof.
  intros f cache Hf. unfold copen, tell_end, file_bytes, open_file.
  set (m := N.min cache (N.of_nat (length f))). assert (Hm : m <= N.of_nat (length f)) by (unfold m; lia).
  rewrite sread_split by exact Hm. unfold rinv. cbn [c_fsize c_total c_off c_size c_buf c_rd].
  rewrite firstn_length, Nat.min_l by lia. replace (N.to_nat m - N.to_nat m)%nat with 0%nat by lia. cbn [repeat]. rewrite app_nil_r.
  rewrite N.sub_0_r. split; [auto|]. split; [auto|]. split; [auto|]. split; [lia|]. split; [auto|].
  split; [rewrite map_length, firstn_length; lia|]. split; [lia|]. split; [reflexivity|]. reflexivity.
Qed.

Lemma map_firstn_slice : forall (buf : list (option N)) f o k m, skipn o buf = map Some (firstn m f) -> (k <= m)%nat ->
  firstn k (skipn o buf) = map Some (firstn k f).
Proof. intros buf f o k m H Hk. rewrite H, firstn_map, firstn_firstn, Nat.min_l by lia. reflexivity. Qed.

Lemma firstn_add : forall (A : Type) (a b : nat) (l : list A), firstn (a + b) l = firstn a l ++ firstn b (skipn a l).
Proof. induction a as [|a IH]; intros b [|x l]; cbn; auto; [destruct b; auto|]. now rewrite IH. Qed.

Lemma cread_step : forall f pos c n, rinv f pos c -> n < 18446744073709551616 ->
  (N.of_nat (length (skipn pos f)) < n -> cread n c = (Threw, c)) /\
  (n <= N.of_nat (length (skipn pos f)) -> exists c', cread n c = (Got (map Some (firstn (N.to_nat n) (skipn pos f))), c') /\ rinv f (pos + N.to_nat n) c').
Proof.
  intros f pos c n (Hfs & Ht & Hf & Ho & Hs & Hb & Hp & Hr & Hbuf) Hn. rewrite skipn_length. unfold cread. set (cached := sub64 (c_size c) (c_off c)).
  assert (Ec : cached = c_size c - c_off c) by (apply sub64_le; lia).
  assert (Et : c_tell (c_rd c) (c_total c) = N.of_nat (pos + N.to_nat cached)).
  { unfold c_tell. rewrite Hr, Ht. cbn [s_good s_left]. rewrite skipn_length, Ec. lia. }
  rewrite Et, Hfs. rewrite sub64_le by lia.
  assert (Hsl : forall k, k <= cached -> slice (c_buf c) (c_off c) k = Some (map Some (firstn (N.to_nat k) (skipn pos f)))).
  { intros k Hk. unfold slice. rewrite (proj2 (N.leb_le _ _)) by lia. f_equal. apply (map_firstn_slice _ _ _ _ (N.to_nat (c_size c - c_off c))); [auto|lia]. }
  split.
  - intros Hlt. rewrite (proj2 (N.leb_gt _ _)) by lia. rewrite (sub64_le n) by lia. rewrite (proj2 (N.ltb_lt _ _)) by lia. reflexivity.
  - intros Hle. destruct (n <=? cached) eqn:E.
    + apply N.leb_le in E. rewrite Hsl by exact E. eexists. split; [reflexivity|].
      unfold rinv. cbn [c_fsize c_total c_off c_size c_buf c_rd].
      replace (pos + N.to_nat n + N.to_nat (c_size c - (c_off c + n)))%nat with (pos + N.to_nat (c_size c - c_off c))%nat by lia.
      repeat (split; [first [assumption|lia]|]).
      replace (N.to_nat (c_off c + n)) with (N.to_nat (c_off c) + N.to_nat n)%nat by lia.
      rewrite <- (skipn_skipn _ (N.to_nat (c_off c)) (N.to_nat n)), Hbuf, skipn_map. f_equal.
      replace (N.to_nat (c_size c - c_off c)) with (N.to_nat n + N.to_nat (c_size c - (c_off c + n)))%nat by lia.
      rewrite firstn_add, skipn_app, skipn_all2, firstn_length, skipn_skipn by (rewrite firstn_length; lia).
      rewrite Nat.min_l by (rewrite skipn_length; lia). now rewrite Nat.sub_diag.
    + apply N.leb_gt in E. rewrite (sub64_le n) by lia. rewrite (proj2 (N.ltb_ge _ _)) by lia. rewrite Hsl by lia.
      rewrite Hr. rewrite <- Ec. rewrite sread_split by (rewrite skipn_length; lia).
      set (P := (pos + N.to_nat n)%nat).
      assert (EP : skipn (N.to_nat (n - cached)) (skipn (pos + N.to_nat cached) f) = skipn P f) by (rewrite skipn_skipn; f_equal; unfold P; lia).
      rewrite EP.
      assert (Eout : map Some (firstn (N.to_nat cached) (skipn pos f)) ++
                fill (firstn (N.to_nat (n - cached)) (skipn (pos + N.to_nat cached) f)) (repeat None (N.to_nat (n - cached))) =
                map Some (firstn (N.to_nat n) (skipn pos f))).
      { unfold fill. rewrite (skipn_all2 (repeat None _)) by (rewrite repeat_length, firstn_length, skipn_length; lia). rewrite app_nil_r, <- map_app. f_equal.
        replace (N.to_nat n) with (N.to_nat cached + N.to_nat (n - cached))%nat by lia. rewrite firstn_add, skipn_skipn. reflexivity. }
      rewrite Eout.
      assert (Et2 : c_tell (mkS (skipn P f) true false) (c_total c) = N.of_nat P).
      { unfold c_tell. cbn [s_good s_left]. rewrite skipn_length, Ht. unfold P. lia. }
      rewrite Et2, sub64_le by (unfold P; lia).
      destruct (c_size c <=? N.of_nat (length f) - N.of_nat P) eqn:E2.
      * apply N.leb_le in E2. rewrite sread_split by (rewrite skipn_length; unfold P in *; lia). eexists. split; [reflexivity|].
        unfold rinv. cbn [c_fsize c_total c_off c_size c_buf c_rd]. rewrite N.sub_0_r.
        assert (Ef : fill (firstn (N.to_nat (c_size c)) (skipn P f)) (c_buf c) = map Some (firstn (N.to_nat (c_size c)) (skipn P f))).
        { unfold fill. rewrite (skipn_all2 (c_buf c)) by (rewrite firstn_length, skipn_length; unfold P in *; lia). apply app_nil_r. }
        rewrite Ef. repeat (split; [first [assumption|unfold P in *; lia]|]).
        split; [rewrite map_length, firstn_length, skipn_length; unfold P in *; lia|]. split; [unfold P in *; lia|]. split; [now rewrite skipn_skipn|reflexivity].
      * eexists. split; [reflexivity|]. unfold rinv. cbn [c_fsize c_total c_off c_size c_buf c_rd]. rewrite N.sub_diag. cbn [N.to_nat firstn map]. rewrite Nat.add_0_r.
        repeat (split; [first [assumption|unfold P in *; lia|reflexivity]|]). rewrite skipn_all2 by lia. reflexivity.
Qed.

Lemma creads_inv : forall ns f pos c, rinv f pos c -> (forall n, In n ns -> n < 18446744073709551616) ->
  fst (creads ns c) = plain_reads (skipn pos f) ns.
Proof.
  induction ns as [|n t IH]; intros f pos c H Hn; [reflexivity|]. cbn [creads plain_reads].
  destruct (cread_step f pos c n H) as [H1 H2]; [apply Hn; now left|].
  destruct (N.of_nat (length (skipn pos f)) <? n) eqn:E.
  - apply N.ltb_lt in E. rewrite (H1 E). rewrite <- (IH f pos c H) by (intros; apply Hn; now right). destruct (creads t c). reflexivity.
  - apply N.ltb_ge in E. destruct (H2 E) as [c' [-> H']]. rewrite skipn_skipn. rewrite <- (IH f _ c' H') by (intros; apply Hn; now right).
    destruct (creads t c'). reflexivity.
Qed.

Lemma creads_plain : forall f cache ns, N.of_nat (length f) < 18446744073709551616 -> (forall n, In n ns -> n < 18446744073709551616) ->
  fst (creads ns (copen (Some f) cache)) = plain_reads f ns.
Proof. intros f cache ns Hf Hn. apply (creads_inv ns f 0); [now apply copen_inv|auto]. Qed.

Lemma copen_size : forall f cache, c_fsize (copen (Some f) cache) = N.of_nat (length f).
Proof. intros f cache. unfold copen. cbn [tell_end open_file]. destruct (sread _ _). reflexivity. Qed.

(** A missing file: the first [cache] bytes read are uninitialised. *)
Lemma copen_missing : forall cache n, cache < 18446744073709551615 -> n < 18446744073709551616 ->
  (n <= cache -> fst (cread n (copen None cache)) = Got (repeat None (N.to_nat n))) /\
  (cache < n -> fst (cread n (copen None cache)) = Threw).
Proof.
  intros cache n Hc Hn. unfold copen, tell_end, open_file, file_bytes. rewrite N.min_l by lia.
  unfold sread. cbn [s_good]. cbn [map app length]. rewrite Nat.sub_0_r. unfold cread. cbn [c_size c_off c_buf c_rd c_total c_fsize]. rewrite (sub64_le cache 0) by lia. rewrite N.sub_0_r.
  unfold c_tell. cbn [s_good]. rewrite (sub64_le 18446744073709551615) by lia. rewrite N.sub_diag. split; intros H.
  - rewrite (proj2 (N.leb_le _ _)) by lia. unfold slice. rewrite repeat_length. rewrite (proj2 (N.leb_le _ _)) by lia.
    cbn [fst]. cbn [N.to_nat skipn]. f_equal. apply firstn_repeat'. lia.
  - rewrite (proj2 (N.leb_gt _ _)) by lia. rewrite sub64_le by lia. rewrite (proj2 (N.ltb_lt _ _)) by lia. reflexivity.
Qed.

(** ** Writing *)
Lemma disk_write_length : forall d pos b, (pos <= length d)%nat -> (pos + length b <= length (disk_write d pos b))%nat.
Proof. intros d pos b H. unfold disk_write. rewrite !app_length, firstn_length. lia. Qed.

Lemma disk_write_nil : forall d pos, disk_write d pos [] = d.
Proof. intros d pos. unfold disk_write. cbn [app length]. rewrite Nat.add_0_r. apply firstn_skipn. Qed.

Lemma disk_write_app : forall d pos a b, (pos <= length d)%nat ->
  disk_write (disk_write d pos a) (pos + length a) b = disk_write d pos (a ++ b).
Proof.
  intros d pos a b H. unfold disk_write. rewrite app_length.
  assert (E : length (firstn pos d) = pos) by (rewrite firstn_length; lia).
  rewrite (app_assoc (firstn pos d) a). rewrite firstn_app. rewrite firstn_all2 by (rewrite app_length; lia).
  rewrite app_length, E, Nat.sub_diag, firstn_O, app_nil_r, <- !app_assoc. do 3 f_equal.
  rewrite (app_assoc (firstn pos d)), skipn_app, skipn_all2 by (rewrite app_length; lia). cbn [app]. rewrite skipn_skipn, app_length, E. f_equal. lia.
Qed.

Definition winv (c : cout) : Prop :=
  o_size c < 18446744073709551616 /\ o_off c <= o_size c /\ length (o_buf c) = N.to_nat (o_size c) /\ (o_pos c <= length (o_disk c))%nat.

(** The file as if nothing were buffered. *)
Definition vdisk (c : cout) : list N := disk_write (o_disk c) (o_pos c) (firstn (N.to_nat (o_off c)) (o_buf c)).
Definition vpos (c : cout) : nat := (o_pos c + N.to_nat (o_off c))%nat.

Lemma vpos_len : forall c, winv c -> (vpos c <= length (vdisk c))%nat.
Proof.
  intros c (H0 & H1 & H2 & H3). unfold vpos, vdisk.
  pose proof (disk_write_length (o_disk c) (o_pos c) (firstn (N.to_nat (o_off c)) (o_buf c)) H3) as H.
  rewrite firstn_length, Nat.min_l in H by lia. lia.
Qed.

Lemma oflush_ok : forall c, winv c -> winv (oflush c) /\ o_disk (oflush c) = vdisk c /\ o_pos (oflush c) = vpos c /\ vdisk (oflush c) = vdisk c /\ vpos (oflush c) = vpos c /\
  o_fsize (oflush c) = o_fsize c + o_off c /\ o_off (oflush c) = 0 /\ o_size (oflush c) = o_size c.
Proof.
  intros c W. pose proof (vpos_len c W) as HL. destruct W as (H0 & H1 & H2 & H3).
  assert (EL : length (firstn (N.to_nat (o_off c)) (o_buf c)) = N.to_nat (o_off c)) by (rewrite firstn_length; lia).
  assert (EP : o_pos (oflush c) = vpos c) by (unfold oflush, vpos; cbn [o_pos]; now rewrite EL).
  split.
  - unfold winv. rewrite EP. unfold oflush. cbn [o_size o_off o_buf o_disk]. split; [auto|]. split; [lia|]. split; [apply repeat_length|].
    exact HL.
  - split; [reflexivity|]. split; [exact EP|]. split; [|split; [|auto]].
    + unfold vdisk at 1. unfold oflush at 3. cbn [o_off N.to_nat firstn]. apply disk_write_nil.
    + unfold vpos at 1. rewrite EP. unfold oflush. cbn [o_off N.to_nat]. apply Nat.add_0_r.
Qed.

Lemma firstn_disk_write : forall buf off b, (off <= length buf)%nat -> firstn (off + length b) (disk_write buf off b) = firstn off buf ++ b.
Proof.
  intros buf off b H. unfold disk_write. rewrite app_assoc. apply firstn_len_app. rewrite app_length, firstn_length. lia.
Qed.

Lemma owrite_ok : forall c b, winv c -> N.of_nat (length b) < 18446744073709551616 ->
  exists c', owrite b c = Some c' /\ winv c' /\ o_size c' = o_size c /\ vdisk c' = disk_write (vdisk c) (vpos c) b /\ vpos c' = (vpos c + length b)%nat /\
    o_fsize c' + o_off c' = o_fsize c + o_off c + N.of_nat (length b).
Proof.
  intros c b W Hb. pose proof W as (H0 & H1 & H2 & H3). unfold owrite. rewrite sub64_le by lia.
  destruct (N.of_nat (length b) <=? o_size c - o_off c) eqn:E.
  - apply N.leb_le in E. unfold buf_write. rewrite (proj2 (N.leb_le _ _)) by lia. eexists. split; [reflexivity|].
    assert (EN : N.to_nat (o_off c + N.of_nat (length b)) = (N.to_nat (o_off c) + length b)%nat) by lia.
    split; [|split; [reflexivity|split; [|split]]].
    + unfold winv. cbn [o_size o_off o_buf o_disk o_pos]. split; [auto|]. split; [lia|]. split; [|auto].
      unfold disk_write. rewrite !app_length, firstn_length, skipn_length. lia.
    + unfold vdisk, vpos. cbn [o_off o_buf o_disk o_pos]. rewrite EN, firstn_disk_write by lia.
      rewrite <- disk_write_app by auto. do 2 f_equal. rewrite firstn_length. lia.
    + unfold vpos. cbn [o_pos o_off]. lia.
    + cbn [o_fsize o_off]. lia.
  - destruct (oflush_ok c W) as (W' & Ed & Ep & _ & _ & Ef & Eo & Es). set (c1 := oflush c) in *. eexists. split; [reflexivity|].
    destruct W' as (W0 & W1 & W2 & W3). pose proof (vpos_len c W) as HL.
    split; [|split; [reflexivity|split; [|split]]].
    + unfold winv. cbn [o_size o_off o_buf o_disk o_pos]. split; [auto|]. split; [lia|]. split; [congruence|]. apply disk_write_length. auto.
    + unfold vdisk at 1. cbn [o_off o_buf o_disk o_pos]. cbn [N.to_nat firstn]. rewrite disk_write_nil. now rewrite Ed, Ep.
    + unfold vpos at 1. cbn [o_pos o_off]. cbn [N.to_nat]. rewrite Ep. lia.
    + cbn [o_fsize o_off]. rewrite Ef. lia.
Qed.

Lemma osteps_ok : forall os c, winv c -> (forall b, In (OWrite b) os -> N.of_nat (length b) < 18446744073709551616) ->
  exists c', osteps os c = Some c' /\ winv c' /\ vdisk c' = plain_writes os (vdisk c) (vpos c) /\
    o_fsize c' + o_off c' = o_fsize c + o_off c + N.of_nat (length (written os)).
Proof.
  induction os as [|o t IH]; intros c W Hb; [exists c; split; [reflexivity|]; split; [auto|]; split; [reflexivity|cbn [written length N.of_nat]; lia]|].
  assert (Hb' : forall b, In (OWrite b) t -> N.of_nat (length b) < 18446744073709551616) by (intros; apply Hb; now right).
  cbn [osteps]. destruct o as [b| |]; cbn [ostep plain_writes written].
  - destruct (owrite_ok c b W) as (c1 & -> & W1 & _ & Ed & Ep & Es); [apply Hb; now left|].
    destruct (IH c1 W1 Hb') as (c' & E & W' & Ed' & Es'). exists c'. split; [auto|]. split; [auto|]. split.
    + rewrite Ed', Ed, Ep. reflexivity.
    + rewrite app_length. lia.
  - destruct (oflush_ok c W) as (W1 & _ & _ & Ed & Ep & Ef & Eo & _). destruct (IH _ W1 Hb') as (c' & E & W' & Ed' & Es').
    exists c'. split; [auto|]. split; [auto|]. split; [now rewrite Ed', Ed, Ep|lia].
  - destruct (oflush_ok c W) as (W1 & Ed0 & Ep0 & Ed & Ep & Ef & Eo & Esz). destruct W1 as (V0 & V1 & V2 & V3).
    assert (W2 : winv (oreset c)).
    { unfold oreset. set (c1 := oflush c) in *. unfold winv. cbn [o_size o_off o_buf o_disk o_pos]. split; [auto|]. split; [auto|]. split; [auto|lia]. }
    destruct (IH _ W2 Hb') as (c' & E & W' & Ed' & Es'). exists c'. split; [auto|]. split; [auto|].
    assert (X1 : vdisk (oreset c) = vdisk c).
    { unfold vdisk at 1. unfold oreset. set (c1 := oflush c) in *. cbn [o_off o_buf o_disk o_pos]. rewrite Eo. cbn [N.to_nat firstn]. now rewrite disk_write_nil. }
    assert (X2 : vpos (oreset c) = 0%nat).
    { unfold vpos, oreset. set (c1 := oflush c) in *. cbn [o_off o_pos]. now rewrite Eo. }
    split; [now rewrite Ed', X1, X2|]. change (o_fsize (oreset c)) with (o_fsize (oflush c)) in Es'. change (o_off (oreset c)) with (o_off (oflush c)) in Es'. lia.
Qed.

Lemma oclose_v : forall c, winv c -> oclose c = vdisk c.
Proof.
  intros c W. unfold oclose. destruct (0 <? o_off c) eqn:E; [apply oflush_ok; auto|].
  apply N.ltb_ge in E. unfold vdisk. replace (o_off c) with 0 by lia. cbn [N.to_nat firstn]. now rewrite disk_write_nil.
Qed.

Lemma writes_plain : forall cache g os, sizes_ok cache os -> length g = N.to_nat cache ->
  exists c, osteps os (oopen cache g) = Some c /\ oclose c = plain_writes os [] 0 /\
    o_fsize (oflush c) = N.of_nat (length (written os)).
Proof.
  intros cache g os [Hc Hb] Hg.
  assert (W : winv (oopen cache g)) by (unfold winv, oopen; cbn; repeat split; auto; lia).
  destruct (osteps_ok os _ W Hb) as (c & E & W' & Ed & Es). exists c. split; [auto|]. split.
  - rewrite oclose_v by auto. rewrite Ed. reflexivity.
  - destruct (oflush_ok c W') as (_ & _ & _ & _ & _ & Ef & _). rewrite Ef, Es. cbn. lia.
Qed.

Lemma plain_writes_app : forall os d, no_reset os -> plain_writes os d (length d) = d ++ written os.
Proof.
  induction os as [|o t IH]; intros d H; cbn [plain_writes written]; [now rewrite app_nil_r|].
  assert (Ht : no_reset t) by (intros X; apply H; now right).
  destruct o as [b| |]; [|now apply IH|exfalso; apply H; now left].
  rewrite firstn_all, skipn_all2 by lia. rewrite app_nil_r, <- app_length, IH by auto. now rewrite app_assoc.
Qed.

Lemma writes_concat : forall cache g os, sizes_ok cache os -> length g = N.to_nat cache -> no_reset os ->
  exists c, osteps os (oopen cache g) = Some c /\ oclose c = written os /\ o_fsize (oflush c) = N.of_nat (length (written os)).
Proof.
  intros cache g os H Hg Hn. destruct (writes_plain cache g os H Hg) as (c & E & Ec & Ef). exists c. split; [auto|]. split; [|auto].
  rewrite Ec. apply (plain_writes_app os []). auto.
Qed.

(** Rewriting a header after [reset]. *)
Lemma reset_header : forall cache g h0 os h1, sizes_ok cache (OWrite h0 :: os ++ [OReset; OWrite h1]) -> length g = N.to_nat cache -> no_reset os ->
  length h1 = length h0 ->
  exists c, osteps (OWrite h0 :: os ++ [OReset; OWrite h1]) (oopen cache g) = Some c /\ oclose c = h1 ++ written os.
Proof.
  intros cache g h0 os h1 H Hg Hn HL. destruct (writes_plain cache g _ H Hg) as (c & E & Ec & _). exists c. split; [auto|]. rewrite Ec.
  assert (X : forall l d pos, no_reset l -> plain_writes (l ++ [OReset; OWrite h1]) d pos = plain_writes [OReset; OWrite h1] (plain_writes l d pos) 0).
  { induction l as [|o l IH]; intros d pos Hl; [reflexivity|]. assert (no_reset l) by (intros Y; apply Hl; now right).
    destruct o; cbn [app plain_writes]; [now apply IH|now apply IH|exfalso; apply Hl; now left]. }
  change (OWrite h0 :: os ++ [OReset; OWrite h1]) with ((OWrite h0 :: os) ++ [OReset; OWrite h1]).
  rewrite X by (intros [Y|Y]; [discriminate|auto]). 
  assert (Z : plain_writes (OWrite h0 :: os) [] 0 = h0 ++ written os) by (apply (plain_writes_app (OWrite h0 :: os) []); intros [Y|Y]; [discriminate|auto]).
  rewrite Z. cbn [app plain_writes written firstn]. f_equal. cbn [plus]. rewrite HL. apply skipn_len_app. reflexivity.
Qed.
