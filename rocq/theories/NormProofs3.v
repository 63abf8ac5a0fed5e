(** Scaling to unit norm: the files. *)
From Coq Require Import NArith ZArith Reals Lia List Arith Bool Permutation Floats.SpecFloat.
From Verif Require CacheProofs ToolProofs3.
From Verif Require Import Base Bytes Float32 FloatBits DivFacts DistSpec StreamModel BinModel BinSpec BinProofs ClosestModel ClosestProofs ConvertModel ConvertProofs FiltGtProofs FusedModel RealSpec NormModel NormSpec NormProofs NormProofs2.
Import ListNotations.

Definition in_range (w : nat) (vs : list (list N)) (d : nat) : Prop := forall v, In v vs -> length v = d /\ forall e, In e v -> (e < 256 ^ N.of_nat w)%N.

Lemma concat_length : forall (A : Type) (vs : list (list A)) d, (forall v, In v vs -> length v = d) -> length (concat vs) = length vs * d.
Proof. induction vs as [|v vs IH]; intros d H; cbn; [reflexivity|]. rewrite app_length, (IH d) by (intros; apply H; right; auto). rewrite (H v) by (left; auto). reflexivity. Qed.

Lemma rows_of_ok : forall w d vs rest, in_range w vs d -> rows_of w d (length vs) (enc_all w (concat vs) ++ rest) = vs.
Proof.
  intros w d vs rest. unfold rows_of. revert rest. induction vs as [|v vs IH]; intros rest H; [reflexivity|]. cbn [length seq map concat]. destruct (H v (or_introl eq_refl)) as [Lv Rv]. f_equal.
  - cbn [Nat.mul skipn]. rewrite enc_all_app, <- app_assoc, <- Lv. apply dec_all_enc. exact Rv.
  - rewrite <- seq_shift, map_map. rewrite <- (IH rest) at 2 by (intros x Hx; apply H; right; auto). apply map_ext. intros p.
    rewrite enc_all_app, <- app_assoc. replace (S p * d * w) with (length (enc_all w v) + p * d * w) by (rewrite enc_all_length, Lv; cbn; ring).
    rewrite skipn_app. rewrite skipn_all2 by lia. cbn [app]. f_equal. f_equal. lia.
Qed.

Lemma chunk : forall (vs : list (list N)) w d bs, in_range w vs d ->
  let pts := min (length vs) bs in
  enc_all w (concat vs) = enc_all w (concat (firstn bs vs)) ++ enc_all w (concat (skipn bs vs)) /\ length (firstn bs vs) = pts /\
  length (enc_all w (concat (firstn bs vs))) = pts * d * w /\ in_range w (firstn bs vs) d /\ in_range w (skipn bs vs) d.
Proof.
  intros vs w d bs H pts. assert (H1 : in_range w (firstn bs vs) d) by (intros v Hv; apply H; rewrite <- (firstn_skipn bs vs); apply in_or_app; auto).
  assert (H2 : in_range w (skipn bs vs) d) by (intros v Hv; apply H; rewrite <- (firstn_skipn bs vs); apply in_or_app; auto).
  assert (L : length (firstn bs vs) = pts) by (rewrite firstn_length; unfold pts; lia).
  split; [rewrite <- enc_all_app, <- concat_app, firstn_skipn; reflexivity|]. split; [exact L|]. split; [|auto].
  rewrite enc_all_length, (concat_length _ _ d), L by (intros v Hv; apply H1, Hv). ring.
Qed.

Lemma norm_blocks_ok : forall k f bs n d cnt i vs buf ns, in_range (kwidth k) vs d -> n - i * bs = length vs -> n <= (i + cnt) * bs ->
  map_res (fun v => sum_sq f (fvec k v)) vs = Ok ns ->
  exists buf', norm_blocks k f bs n d i cnt buf (mkS (enc_all (kwidth k) (concat vs)) true false) = Ok (ns, buf', mkS [] true false).
Proof.
  intros k f bs n d. induction cnt as [|cnt IH]; intros i vs buf ns H L C E.
  - assert (vs = []) by (destruct vs; auto; cbn in L; lia). subst vs. cbn in E. injection E as <-. exists buf. reflexivity.
  - cbn [norm_blocks]. rewrite L. destruct (chunk vs (kwidth k) d bs H) as [Eb [Lp [Le [H1 H2]]]]. set (pts := min (length vs) bs) in *.
    rewrite Eb, sread_app by (rewrite Le; reflexivity). unfold overlay. rewrite <- Lp, rows_of_ok by auto.
    rewrite <- (firstn_skipn bs vs), map_res_app in E. unfold fvec in E.
    destruct (map_res (fun v => sum_sq f (map (kval k) v)) (firstn bs vs)) as [n1| | | |] eqn:E1; cbn [bind] in E; try discriminate. cbn [bind].
    destruct (map_res (fun v => sum_sq f (map (kval k) v)) (skipn bs vs)) as [n2| | | |] eqn:E2; cbn [bind] in E; try discriminate. injection E as <-.
    destruct (IH (S i) (skipn bs vs) (enc_all (kwidth k) (concat (firstn bs vs)) ++ skipn (length (enc_all (kwidth k) (concat (firstn bs vs)))) buf) n2) as [b' Eq]; auto.
    + rewrite skipn_length. cbn. lia.
    + replace (S i + cnt) with (i + S cnt) by lia. auto.
    + rewrite Eq. cbn [bind]. eauto.
Qed.

Lemma map_res_pure : forall (A B : Type) (f : A -> res B) g l, (forall x, In x l -> f x = Ok (g x)) -> map_res f l = Ok (map g l).
Proof. intros A B f g l. induction l as [|x l IH]; intros H; [reflexivity|]. cbn [map_res map]. rewrite (H x) by (left; auto). cbn [bind]. rewrite IH by (intros; apply H; right; auto). reflexivity. Qed.

Definition out_rows (k : ktype) (M : f32) (norms : list f32) (vs : list (list N)) : list (list f32) := map (fun p => prep_row M (fst p) (fvec k (snd p))) (combine norms vs).

Lemma out_blocks_ok : forall k M norms bs n d cnt i vs buf, in_range (kwidth k) vs d -> n - i * bs = length vs -> length norms = n -> n <= (i + cnt) * bs ->
  out_blocks k M norms bs n d i cnt buf (mkS (enc_all (kwidth k) (concat vs)) true false) = Ok (enc_all 4 (map bits_of_f32 (concat (out_rows k M (skipn (i * bs) norms) vs)))).
Proof.
  intros k M norms bs n d. induction cnt as [|cnt IH]; intros i vs buf H L Ln C.
  - assert (vs = []) by (destruct vs; auto; cbn in L; lia). subst vs. unfold out_rows. rewrite combine_nil. reflexivity.
  - cbn [out_blocks]. rewrite L. destruct (chunk vs (kwidth k) d bs H) as [Eb [Lp [Le [H1 H2]]]]. set (pts := min (length vs) bs) in *.
    rewrite Eb, sread_app by (rewrite Le; reflexivity). unfold overlay. rewrite <- Lp, rows_of_ok by auto.
    assert (Em : map_res (fun pr => do nm <- rd norms (i * bs + fst pr); Ok (prep_row M nm (map (kval k) (snd pr)))) (combine (seq 0 (length (firstn bs vs))) (firstn bs vs)) =
                 Ok (out_rows k M (firstn (length (firstn bs vs)) (skipn (i * bs) norms)) (firstn bs vs))).
    { assert (Ls : length (firstn bs vs) <= length (skipn (i * bs) norms)) by (rewrite Lp, skipn_length; unfold pts; lia).
      assert (Hr : forall j, rd norms (i * bs + j) = rd (skipn (i * bs) norms) j) by (intros j; unfold rd; rewrite ToolProofs3.skipn_nth_error; reflexivity).
      clear - Ls Hr. revert Ls Hr. generalize (skipn (i * bs) norms). generalize (firstn bs vs). intros ws. generalize (i * bs). intros a. revert a. induction ws as [|v ws IH]; intros a l Ls Hr; [reflexivity|].
      destruct l as [|x l]; [cbn in Ls; lia|]. cbn [length seq combine map_res fst snd firstn out_rows map]. rewrite Hr. cbn [rd nth_error bind]. unfold out_rows. cbn [combine map fst snd].
      rewrite <- seq_shift. assert (Ec : forall (A : Type) (g : nat -> nat) (s : list nat) (t : list A), combine (map g s) t = map (fun p => (g (fst p), snd p)) (combine s t)).
      { intros A g. induction s as [|y s IHs]; intros [|z t]; cbn; try reflexivity. now rewrite IHs. }
      rewrite Ec. assert (Em : forall (A B C : Type) (h : A -> B) (g : B -> res C) s, map_res g (map h s) = map_res (fun x => g (h x)) s).
      { intros A B C h g. induction s as [|y s IHs]; cbn; [reflexivity|]. now rewrite IHs. }
      rewrite Em. cbn [fst snd].
      assert (Ex : forall s, map_res (fun x0 : nat * list N => do nm <- rd norms (a + S (fst x0)); Ok (prep_row M nm (map (kval k) (snd x0)))) s = map_res (fun pr : nat * list N => do nm <- rd norms (S a + fst pr); Ok (prep_row M nm (map (kval k) (snd pr)))) s).
      { induction s as [|y s IHs]; cbn [map_res]; [reflexivity|]. rewrite IHs. replace (a + S (fst y)) with (S a + fst y) by lia. reflexivity. }
      rewrite Ex. rewrite (IH (S a) l) by (try (cbn in Ls; lia); intros j; replace (S a + j) with (a + S j) by lia; exact (Hr (S j))). reflexivity. }
    rewrite Em. cbn [bind]. rewrite (IH (S i) (skipn bs vs)); auto.
    + cbn [bind]. f_equal. rewrite <- enc_all_app, <- map_app, <- concat_app. f_equal. f_equal. f_equal. unfold out_rows. rewrite <- map_app. f_equal.
      assert (En : length (firstn bs vs) < bs -> skipn bs vs = []) by (intros Hl; apply skipn_all2; rewrite firstn_length in Hl; lia).
      replace (skipn (S i * bs) norms) with (skipn bs (skipn (i * bs) norms)) by (rewrite CacheProofs.skipn_skipn; f_equal; lia).
      generalize (skipn (i * bs) norms). intros l. clear. revert l vs. induction bs as [|bs IH]; intros l vs; [cbn; now rewrite combine_nil || reflexivity|].
      destruct vs as [|v vs]; [cbn; rewrite ?combine_nil; reflexivity|]. destruct l as [|x l]; [cbn [firstn length skipn combine]; rewrite ?firstn_nil; cbn; reflexivity|].
      cbn [firstn length skipn combine app]. f_equal. apply IH.
    + rewrite skipn_length. cbn. lia.
    + replace (S i + cnt) with (i + S cnt) by lia. auto.
Qed.
