(** * The theorems on the text converters. *)
From Coq Require Import ZArith NArith QArith Qabs Lia List Bool Arith SpecFloat.
From Verif Require Import Base Bytes Float32 FloatBits DivFacts StreamModel BinModel BinSpec ClosestModel ClosestProofs TsvModel TsvSpec TsvProofs TsvProofs2.
Import ListNotations.
Local Open Scope nat_scope.

Lemma file_eq : forall t nd tb, table_file (width t) nd tb = tb_file t nd tb.
Proof. reflexivity. Qed.

Lemma elements_forall : forall (P : N -> Prop) tb, elements P tb -> Forall P (concat tb).
Proof. intros P tb H. apply Forall_forall. exact H. Qed.

Lemma float_elems : forall tb, elements (fun x => (x < 2 ^ 32)%N /\ finite (f32_of_bits x)) tb -> Forall (elem_ok Float) (concat tb).
Proof. intros tb H. apply elements_forall in H. exact H. Qed.

Lemma white_ws : forall c, ~ white c -> is_ws c = false.
Proof.
  intros c H. unfold is_ws. destruct ((c =? 32) || (9 <=? c) && (c <=? 13))%N eqn:E; auto. exfalso. apply H.
  apply orb_true_iff in E. unfold white. cbn [In]. destruct E as [E|E]; [apply N.eqb_eq in E; intuition lia|].
  apply andb_true_iff in E. destruct E as [E1 E2]. apply N.leb_le in E1. apply N.leb_le in E2. intuition lia.
Qed.

Lemma byte_elems : forall tb, elements (fun x => (x < 256)%N /\ ~ white x) tb -> Forall (elem_ok Byte) (concat tb).
Proof. intros tb H. apply elements_forall in H. eapply Forall_impl; [|exact H]. intros x [A B]. split; [exact A|apply white_ws; auto]. Qed.

Lemma ok_fits : forall t l, Forall (elem_ok t) l -> Forall (fits t) l.
Proof. intros t l H. eapply Forall_impl; [|exact H]. apply fits_elem. Qed.

Lemma entry_impl : forall (A B : Type) (P Q : A -> B -> Prop) tb tc, (forall x y, P x y -> Q x y) -> Forall2 (Forall2 P) tb tc -> Forall2 (Forall2 Q) tb tc.
Proof.
  intros A B P Q tb tc H F. induction F as [|r s tb tc F1 F2 IH]; constructor; auto. clear - F1 H. induction F1; constructor; auto.
Qed.

Lemma entry_right : forall (A B : Type) (P : A -> B -> Prop) (Q : B -> Prop) tb tc, (forall x y, P x y -> Q y) -> Forall2 (Forall2 P) tb tc -> Forall Q (concat tc).
Proof.
  intros A B P Q tb tc H F. induction F as [|r s tb tc F1 F2 IH]; [constructor|]. cbn. apply Forall_app. split; auto. clear - F1 H. induction F1; constructor; eauto.
Qed.

Lemma float_text_ok : forall bs g1 g2 nd tb extra, 1 <= bs -> 1 <= nd -> length g1 = 4 -> length g2 = 4 ->
  u32_range (N.of_nat (length tb)) -> u32_range (N.of_nat nd) -> table nd tb -> elements (fun x => (x < 2 ^ 32)%N /\ finite (f32_of_bits x)) tb ->
  exists texts, bin_to_tsv Float bs g1 g2 (Some (table_file 4 nd tb ++ extra)) = Ok (table_text texts) /\
    Forall2 (Forall2 (fun x t => exists q, closest_decimal (fvalue (f32_of_bits x)) q /\ notation_of t q)) tb texts.
Proof.
  intros bs g1 g2 nd tb extra Hbs Hn G1 G2 U1 U2 T E. exists (map (map (show_elem Float)) tb). split.
  - apply float_to_text; auto. apply ok_fits, float_elems. auto.
  - apply float_elems in E. clear - E. induction tb as [|r tb IH]; [constructor|]. cbn [concat] in E. apply Forall_app in E. destruct E as [E1 E2].
    cbn [map]. constructor; [|auto]. clear - E1. induction r as [|x r IH]; [constructor|]. inversion E1; subst. cbn [map]. constructor; [|auto].
    destruct (scan_elem Float x H1) as [y [[q [A [B _]]] _]]. eauto.
Qed.

Lemma float_round_trip : forall bs g1 g2 nd tb, 1 <= bs -> 1 <= nd -> length g1 = 4 -> length g2 = 4 ->
  u32_range (N.of_nat (length tb)) -> u32_range (N.of_nat nd) -> table nd tb -> elements (fun x => (x < 2 ^ 32)%N /\ finite (f32_of_bits x)) tb ->
  exists txt tc, bin_to_tsv Float bs g1 g2 (Some (table_file 4 nd tb)) = Ok txt /\
    tsv_to_bin Float bs (Some txt) nd (length tb) = Ok (table_file 4 nd tc) /\ table nd tc /\ length tc = length tb /\
    entrywise (fun x y => exists q, closest_decimal (fvalue (f32_of_bits x)) q /\ closest_float q (f32_of_bits y)) tb tc /\
    bin_to_tsv Float bs g1 g2 (Some (table_file 4 nd tc)) = Ok txt.
Proof.
  intros bs g1 g2 nd tb Hbs Hn G1 G2 U1 U2 T E. apply float_elems in E. destruct (round_trip Float bs nd tb Hbs Hn T E) as [tc [R [S [L Lt]]]].
  exists (table_text (map (map (show_elem Float)) tb)), tc.
  split. { rewrite <- (app_nil_r (table_file 4 nd tb)). apply float_to_text; auto. apply ok_fits. auto. }
  split; [exact S|]. split; [exact L|]. split; [exact Lt|]. split.
  - eapply entry_impl; [|exact R]. intros x y [[q [A [B [C D]]]] _]. eauto.
  - rewrite <- (app_nil_r (table_file 4 nd tc)). change 4 with (width Float) at 1. rewrite file_eq. rewrite float_to_text; auto.
    + f_equal. f_equal. symmetry. apply same_rows. eapply entry_impl; [|exact R]. intros x y [[q [A [B [C D]]]] _]. cbn [show_elem]. congruence.
    + rewrite Lt. auto.
    + eapply entry_right; [|exact R]. intros x y [_ [Y _]]. exact Y.
Qed.

Lemma byte_text_ok : forall bs g1 g2 nd tb extra, 1 <= bs -> 1 <= nd -> length g1 = 4 -> length g2 = 4 -> length tb <= bs ->
  u32_range (N.of_nat (length tb)) -> u32_range (N.of_nat nd) -> table nd tb -> elements (fun x => (x < 256)%N) tb -> Forall (fun x => (x < 256)%N) extra ->
  bin_to_tsv Byte bs g1 g2 (Some (table_file 1 nd tb ++ extra)) = Ok (table_text (map (map (fun x => [x])) tb)).
Proof.
  intros bs g1 g2 nd tb extra Hbs Hn G1 G2 Lb U1 U2 T E Fe. apply byte_to_text; auto. apply elements_forall in E. exact E.
Qed.

Lemma byte_round_trip : forall bs g1 g2 nd tb, 1 <= bs -> 1 <= nd -> length g1 = 4 -> length g2 = 4 -> length tb <= bs ->
  u32_range (N.of_nat (length tb)) -> u32_range (N.of_nat nd) -> table nd tb -> elements (fun x => (x < 256)%N /\ ~ white x) tb ->
  exists txt, bin_to_tsv Byte bs g1 g2 (Some (table_file 1 nd tb)) = Ok txt /\
    tsv_to_bin Byte bs (Some txt) nd (length tb) = Ok (table_file 1 nd tb).
Proof.
  intros bs g1 g2 nd tb Hbs Hn G1 G2 Lb U1 U2 T E. apply byte_elems in E. destruct (round_trip Byte bs nd tb Hbs Hn T E) as [tc [R [S [L Lt]]]].
  exists (table_text (map (map (show_elem Byte)) tb)). split.
  - rewrite <- (app_nil_r (table_file 1 nd tb)). apply byte_to_text; auto. apply ok_fits. auto.
  - rewrite S. assert (tb = tc); [|subst; reflexivity]. clear - R. induction R as [|r s tb tc H1 H2 IH]; [reflexivity|]. f_equal; auto.
    clear - H1. induction H1 as [|x y r s [H _] H1 IH]; [reflexivity|]. cbn in H. congruence.
Qed.

Lemma byte_blocks_wrong : forall bs g1 g2 nd tb, 1 <= bs -> 1 <= nd -> length g1 = 4 -> length g2 = 4 -> bs < length tb <= 2 * bs ->
  u32_range (N.of_nat (length tb)) -> u32_range (N.of_nat nd) -> table nd tb -> elements (fun x => (x < 256)%N) tb ->
  bin_to_tsv Byte bs g1 g2 (Some (table_file 1 nd tb)) = Ok (table_text (map (map (fun x => [x])) (firstn bs tb ++ firstn (length tb - bs) tb))).
Proof.
  intros bs g1 g2 nd tb Hbs Hn G1 G2 Lb U1 U2 T E. apply byte_blocks_repeat; auto. apply elements_forall in E. exact E.
Qed.

(** ** A text with too few numbers *)

Lemma scan_dead : forall t n l val, scan_n t n (l, false) val = (repeat val n, (l, false)).
Proof. induction n as [|n IH]; intros l val; [reflexivity|]. cbn [scan_n scan]. rewrite IH. reflexivity. Qed.

Lemma skip_all : forall lead, Forall (fun c => is_ws c = true) lead -> skip_ws lead = [].
Proof. intros lead H. induction H as [|c l H1 H2 IH]; [reflexivity|]. cbn. rewrite H1. exact IH. Qed.

Lemma scan_end : forall t n lead val, Forall (fun c => is_ws c = true) lead -> fst (scan_n t n (lead, true) val) = repeat val n.
Proof.
  intros t [|n] lead val H; [reflexivity|]. cbn [scan_n]. unfold scan. rewrite skip_all by auto. rewrite scan_dead. reflexivity.
Qed.

Lemma last_indep : forall (l : list (option N)) a b, l <> [] -> last l a = last l b.
Proof.
  induction l as [|x l IH]; intros a b N; [contradiction|]. destruct l as [|y l]; [reflexivity|].
  change (last (y :: l) a = last (y :: l) b). apply IH. discriminate.
Qed.

Lemma scan_n_app : forall t a b st val, scan_n t (a + b) st val =
  let '(v1, st1) := scan_n t a st val in let '(v2, st2) := scan_n t b st1 (last v1 val) in (v1 ++ v2, st2).
Proof.
  intros t. induction a as [|a IH]; intros b st val.
  - cbn [plus scan_n app last]. destruct (scan_n t b st val). reflexivity.
  - cbn [plus scan_n]. destruct (scan t st val) as [st' val']. rewrite IH. destruct (scan_n t a st' val') as [v1 st1].
    assert (E : last (val' :: v1) val = last v1 val') by (destruct v1 as [|x v1]; [reflexivity|apply (last_indep (x :: v1)); discriminate]).
    rewrite E. destruct (scan_n t b st1 (last v1 val')) as [v2 st2]. reflexivity.
Qed.

Lemma last_map_some : forall (l : list N) d e, l <> [] -> last (map Some l) e = Some (last l d).
Proof.
  induction l as [|x l IH]; intros d e N; [contradiction|]. destruct l as [|y l]; [reflexivity|].
  change (last (map Some (y :: l)) e = Some (last (y :: l) d)). apply IH. discriminate.
Qed.

Lemma map_some_repeat : forall n (x : N), map Some (repeat x n) = repeat (Some x) n.
Proof. induction n as [|n IH]; intros x; cbn; [reflexivity|]. rewrite IH. reflexivity. Qed.

Lemma short_text : forall t bs nd tb, 1 <= bs -> 1 <= nd -> table nd tb -> Forall (elem_ok t) (concat tb) -> tb <> [] ->
  exists ys, length ys = length (concat tb) /\
  tsv_to_bin t bs (Some (table_text (map (map (show_elem t)) tb))) nd (length tb) = Ok (u32 (N.of_nat (length tb)) ++ u32 (N.of_nat nd) ++ enc_all (width t) ys) /\
  Forall2 (fun x y => kept t x y /\ fits t y /\ elem_ok t y) (concat tb) ys /\
  forall nd' npts', npts' <= bs -> length ys <= npts' * nd' ->
  tsv_to_bin t bs (Some (table_text (map (map (show_elem t)) tb))) nd' npts' =
    Ok (u32 (N.of_nat npts') ++ u32 (N.of_nat nd') ++ enc_all (width t) (ys ++ repeat (last ys 0%N) (npts' * nd' - length ys))).
Proof.
  intros t bs nd tb Hbs Hn T E Ne. destruct (elems_reread t (concat tb) E) as [ys [K R]]. exists ys.
  assert (Tm : Forall (fun r => length r = nd) (map (map (show_elem t)) tb)) by (clear - T; induction T; cbn; constructor; auto; rewrite map_length; auto).
  assert (Ly : length ys = length (concat tb)) by (rewrite <- (Forall2_len _ _ _ _ _ R), map_length; reflexivity). split; [exact Ly|].
  split. { pose proof (text_to_bin t bs nd (map (map (show_elem t)) tb) ys Hbs Hn Tm) as Z. rewrite map_concat_rows, map_length in Z. auto. }
  split; [exact K|]. intros nd' npts' Hb Hle.
  unfold tsv_to_bin. destruct (table_pieces (map (map (show_elem t)) tb)) as [ps [Ep [W Tp]]].
  { eapply Forall_impl; [|exact Tm]. intros r Hr ->. cbn in Hr. lia. }
  rewrite Tp. rewrite map_concat_rows in Ep.
  assert (Lp : length ps = length ys) by (rewrite <- (map_length fst ps), Ep, map_length; lia).
  assert (Np : 1 <= length ys). { rewrite Ly, (concat_length _ nd) by auto. destruct tb; [contradiction|]. cbn. lia. }
  assert (N1 : 1 <= npts'). { destruct npts'; [cbn in Hle; lia|lia]. }
  rewrite n_blocks_one by lia. cbn [untsv_blocks]. unfold untsv_block. rewrite Nat.mul_0_l, Nat.sub_0_r, Nat.min_l by auto.
  replace (npts' * nd') with (length ps + (npts' * nd' - length ys)) at 1 by lia. rewrite scan_n_app.
  assert (R' : Forall2 (fun p y => reads t (fst p) y) ps ys) by (rewrite <- Ep in R; clear - R; revert ys R; induction ps; intros ys R; inversion R; subst; constructor; auto).
  destruct (scan_pieces t ps ys [] [] None R' W ltac:(constructor)) as [lead' [L' S]]. cbn [app] in S. rewrite !app_nil_r in S. rewrite S.
  rewrite (last_map_some ys 0%N) by (destruct ys; [cbn in Np; lia|discriminate]).
  pose proof (scan_end t (npts' * nd' - length ys) lead' (Some (last ys 0%N)) L') as SE. destruct (scan_n t _ (lead', true) _) as [v2 st2]. cbn [fst] in SE. subst v2.
  assert (I : initialised (map Some ys ++ repeat (Some (last ys 0%N)) (npts' * nd' - length ys)) = Ok (ys ++ repeat (last ys 0%N) (npts' * nd' - length ys))).
  { rewrite <- map_some_repeat. rewrite <- map_app. apply BinProofs2.initialised_map. }
  rewrite I. cbn [bind fst]. rewrite app_nil_r. reflexivity.
Qed.

Lemma short_text_byte : forall bs nd tb nd' npts', 1 <= bs -> 1 <= nd -> table nd tb -> elements (fun x => (x < 256)%N /\ ~ white x) tb -> tb <> [] ->
  npts' <= bs -> length (concat tb) <= npts' * nd' ->
  tsv_to_bin Byte bs (Some (table_text (map (map (fun x => [x])) tb))) nd' npts' =
    Ok (bin_file 1 (N.of_nat npts') (N.of_nat nd') (concat tb ++ repeat (last (concat tb) 0%N) (npts' * nd' - length (concat tb)))).
Proof.
  intros bs nd tb nd' npts' Hbs Hn T E Ne Hb Hle. apply byte_elems in E. destruct (short_text Byte bs nd tb Hbs Hn T E Ne) as [ys [L [_ [K S]]]].
  assert (concat tb = ys). { clear - K. induction K as [|x y r s [H _] H1 IH]; [reflexivity|]. cbn in H. congruence. }
  subst ys. apply S; auto.
Qed.

Lemma short_text_float : forall bs g1 g2 nd tb txt nd' npts', 1 <= bs -> 1 <= nd -> length g1 = 4 -> length g2 = 4 ->
  u32_range (N.of_nat (length tb)) -> u32_range (N.of_nat nd) -> table nd tb -> elements (fun x => (x < 2 ^ 32)%N /\ finite (f32_of_bits x)) tb -> tb <> [] ->
  bin_to_tsv Float bs g1 g2 (Some (table_file 4 nd tb)) = Ok txt -> npts' <= bs -> length (concat tb) <= npts' * nd' ->
  exists ys, tsv_to_bin Float bs (Some txt) nd (length tb) = Ok (bin_file 4 (N.of_nat (length tb)) (N.of_nat nd) ys) /\
    length ys = length (concat tb) /\
    tsv_to_bin Float bs (Some txt) nd' npts' =
      Ok (bin_file 4 (N.of_nat npts') (N.of_nat nd') (ys ++ repeat (last ys 0%N) (npts' * nd' - length ys))).
Proof.
  intros bs g1 g2 nd tb txt nd' npts' Hbs Hn G1 G2 U1 U2 T E Ne Et Hb Hle. apply float_elems in E. destruct (short_text Float bs nd tb Hbs Hn T E Ne) as [ys [L [S0 [K S]]]].
  assert (txt = table_text (map (map (show_elem Float)) tb)).
  { rewrite <- (app_nil_r (table_file 4 nd tb)) in Et. pose proof (float_to_text bs g1 g2 nd tb [] Hbs Hn G1 G2 U1 U2 T (ok_fits _ _ E)) as X.
    change (tb_file Float nd tb) with (table_file 4 nd tb) in X. congruence. }
  subst txt. exists ys. split; [exact S0|]. split; [exact L|]. apply S; [auto|lia].
Qed.

(** ** One point *)

Lemma one_point : forall t bs txt nd, 1 <= bs ->
  tsv_to_bin t bs (Some txt) nd 1 = (do r <- untsv_block t 1 nd (txt, true); Ok (u32 1 ++ u32 (N.of_nat nd) ++ fst r)).
Proof.
  intros t bs txt nd H. unfold tsv_to_bin. rewrite n_blocks_one by lia. cbn [untsv_blocks]. rewrite Nat.mul_0_l, Nat.sub_0_r, Nat.min_l by auto.
  destruct (untsv_block t 1 nd (txt, true)) as [r| | | |]; cbn [bind]; auto. rewrite app_nil_r. reflexivity.
Qed.

Lemma one_row_text : forall bs g nd r, 1 <= bs -> 1 <= nd -> length g = 4 -> u32_range (N.of_nat nd) -> length r = nd -> (forall x, In x r -> (x < 2 ^ 32)%N) ->
  bin_to_tsv Float bs g g (Some (table_file 4 nd [r])) = Ok (table_text [map (show_elem Float) r]).
Proof.
  intros bs g nd r Hbs Hn G U L F. rewrite <- (app_nil_r (table_file 4 nd [r])). apply float_to_text; auto; try reflexivity.
  cbn [concat]. rewrite app_nil_r. apply Forall_forall. exact F.
Qed.

Lemma float_digits_lost : forall bs g, 1 <= bs -> length g = 4 -> exists x y txt, f32_of_bits x = f32_of_Z 1234567 /\ f32_of_bits y = f32_of_Z 1234570 /\
  bin_to_tsv Float bs g g (Some (table_file 4 1 [[x]])) = Ok txt /\ tsv_to_bin Float bs (Some txt) 1 1 = Ok (table_file 4 1 [[y]]).
Proof.
  intros bs g Hbs G. exists 1234613304%N, 1234613328%N. eexists. split; [vm_compute; reflexivity|]. split; [vm_compute; reflexivity|].
  split; [apply one_row_text; auto; try reflexivity; intros x [<-|[]]; reflexivity|]. rewrite one_point by auto. vm_compute. reflexivity.
Qed.

Lemma float_infinity_lost : forall bs g, 1 <= bs -> length g = 4 -> exists txt,
  bin_to_tsv Float bs g g (Some (table_file 4 3 [[bits_of_f32 f32_one; bits_of_f32 (S754_infinity false); bits_of_f32 f32_one]])) = Ok txt /\
  tsv_to_bin Float bs (Some txt) 3 1 = Ok (table_file 4 3 [[bits_of_f32 f32_one; 0%N; 0%N]]).
Proof.
  intros bs g Hbs G. eexists. split; [apply one_row_text; auto; try lia; try reflexivity; intros x [<-|[<-|[<-|[]]]]; reflexivity|].
  rewrite one_point by auto. vm_compute. reflexivity.
Qed.

Lemma byte_white_lost : forall bs g, 1 <= bs -> length g = 4 -> exists txt,
  bin_to_tsv Byte bs g g (Some (table_file 1 3 [[7; 32; 5]%N])) = Ok txt /\ tsv_to_bin Byte bs (Some txt) 3 1 = Ok (table_file 1 3 [[7; 5; 5]%N]).
Proof.
  intros bs g Hbs G. eexists. split.
  - rewrite <- (app_nil_r (table_file 1 3 _)). apply byte_text_ok; auto; try lia; try reflexivity; [constructor; [reflexivity|constructor]| intros x [<-|[<-|[<-|[]]]]; reflexivity].
  - rewrite one_point by auto. vm_compute. reflexivity.
Qed.

Lemma byte_decimal : forall bs, 1 <= bs -> tsv_to_bin Byte bs (Some [49; 50; 9; 55; 10]%N) 2 1 = Ok (table_file 1 2 [[49; 50]%N]).
Proof. intros bs Hbs. rewrite one_point by auto. vm_compute. reflexivity. Qed.

Lemma malformed : forall bs, 1 <= bs ->
  tsv_to_bin Float bs (Some [45; 45; 53; 9; 55; 10]%N) 2 1 = Ok (table_file 4 2 [[0; 0]%N]) /\
  tsv_to_bin Float bs (Some [49; 46; 53; 46; 50; 53; 9; 55; 10]%N) 2 1 = Ok (table_file 4 2 [[bits_of_f32 (fdiv (f32_of_Z 3) (f32_of_Z 2)); bits_of_f32 (fdiv (f32_of_Z 1) (f32_of_Z 4))]]).
Proof. intros bs Hbs. rewrite !one_point by auto. vm_compute. auto. Qed.
