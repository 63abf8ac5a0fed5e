(** Numbers in text: what conv_u32 and stoul accept. *)
From Coq Require Import NArith Arith Ascii String List Bool Lia.
From Verif Require Import Base TextModel TextProofs ParamModel ParamSpec ParamProofs NumSpec IndexFileModel IndexFileSpec IndexFileProofs.
Import ListNotations.
Local Open Scope string_scope.
Local Open Scope N_scope.

Lemma white_is : forall a, white a <-> is_space a = true.
Proof.
  intros a. split.
  - unfold white. cbn [In]. intros H. decompose [or] H; subst; try reflexivity; contradiction.
  - destruct a as [[] [] [] [] [] [] [] []]; cbv; intro H; try discriminate; tauto.
Qed.
Lemma digit_char_is : forall a, decimal_digit a <-> is_digit a = true.
Proof.
  intros a. split.
  - unfold decimal_digit. cbn [In]. intros H. decompose [or] H; subst; try reflexivity; contradiction.
  - destruct a as [[] [] [] [] [] [] [] []]; cbv; intro H; try discriminate; tauto.
Qed.

Definition val_from (v : N) (s : string) : N := fold_left (fun v a => (10 * v + (N_of_ascii a - 48))%N) (chars s) v.

Lemma digits_run : forall ds rest acc cnt, (forall a, In a (chars ds) -> decimal_digit a) -> (forall a t, rest = String a t -> ~ decimal_digit a) ->
  digits (ds ++ rest) acc cnt = (val_from acc ds, (cnt + String.length ds)%nat, rest).
Proof.
  induction ds as [|a ds IH]; intros rest acc cnt Hd Hr; cbn [append String.length].
  - unfold val_from. cbn [chars list_ascii_of_string fold_left]. rewrite Nat.add_0_r. destruct rest as [|b t]; cbn [digits]; [reflexivity|].
    specialize (Hr b t eq_refl). rewrite digit_char_is in Hr. destruct (is_digit b); [now elim Hr|reflexivity].
  - cbn [digits]. assert (E : is_digit a = true) by (apply digit_char_is, Hd; now left). rewrite E, IH; [|intros b Hb; apply Hd; now right|exact Hr].
    unfold val_from. cbn [chars list_ascii_of_string fold_left]. rewrite (N.mul_comm acc). f_equal. f_equal. lia.
Qed.

Lemma digits_split : forall s, exists ds rest, s = (ds ++ rest)%string /\ (forall a, In a (chars ds) -> decimal_digit a) /\ (forall a t, rest = String a t -> ~ decimal_digit a).
Proof.
  induction s as [|a s IH].
  - exists "", "". split; [reflexivity|]. split; [intros b []|discriminate].
  - destruct (is_digit a) eqn:E.
    + destruct IH as [ds [rest [-> [Hd Hr]]]]. exists (String a ds), rest. split; [reflexivity|]. split; [|exact Hr]. intros b [<-|Hb]; [now apply digit_char_is|auto].
    + exists "", (String a s). split; [reflexivity|]. split; [intros b []|]. intros b t H. injection H as <- <-. rewrite digit_char_is, E. discriminate.
Qed.

Lemma skip_split : forall s, exists sp, s = (sp ++ skip_space s)%string /\ (forall a, In a (chars sp) -> white a) /\ (forall a t, skip_space s = String a t -> ~ white a).
Proof.
  induction s as [|a s IH]; cbn [skip_space].
  - exists "". split; [reflexivity|]. split; [intros b []|discriminate].
  - destruct (is_space a) eqn:E.
    + destruct IH as [sp [E1 [H1 H2]]]. exists (String a sp). split; [cbn [append]; congruence|]. split; [|exact H2]. intros b [<-|Hb]; [now apply white_is|auto].
    + exists "". split; [reflexivity|]. split; [intros b []|]. intros b t H. injection H as <- <-. rewrite white_is, E. discriminate.
Qed.

Lemma skip_run : forall sp s, (forall a, In a (chars sp) -> white a) -> (forall a t, s = String a t -> ~ white a) -> skip_space (sp ++ s) = s.
Proof.
  induction sp as [|a sp IH]; intros s H1 H2; cbn [append].
  - destruct s as [|b t]; [reflexivity|]. cbn [skip_space]. specialize (H2 b t eq_refl). rewrite white_is in H2. destruct (is_space b); [now elim H2|reflexivity].
  - cbn [skip_space]. assert (E : is_space a = true) by (apply white_is, H1; now left). rewrite E. apply IH; [intros b Hb; apply H1; now right|exact H2].
Qed.

Lemma sign_cases : forall s, let (neg, t) := sign s in exists sg, s = (sg ++ t)%string /\ (neg = true /\ sg = "-" \/ neg = false /\ (sg = "" \/ sg = "+")).
Proof.
  intros [|a t]; cbn [sign]; [exists ""; auto|].
  destruct (Ascii.eqb_spec a (chr 45)) as [->|_]; [exists "-"; auto|]. destruct (Ascii.eqb_spec a (chr 43)) as [->|_]; [exists "+"; auto|]. exists ""; auto.
Qed.

(** The number at the start of a text, if there is one. *)
Definition scan (s : string) : option (bool * N * string) :=
  let (neg, t) := sign (skip_space s) in let '(v, cnt, rest) := digits t 0 0 in if Nat.eqb cnt 0 then None else Some (neg, v, rest).

Lemma scan_iff : forall s neg n rest, scan s = Some (neg, n, rest) <-> numeral s neg n rest.
Proof.
  intros s neg n rest. unfold scan, numeral. split.
  - destruct (skip_split s) as [sp [E [H1 H2]]]. pose proof (sign_cases (skip_space s)) as S. destruct (sign (skip_space s)) as [ng t].
    destruct S as [sg [E2 Hs]]. destruct (digits_split t) as [ds [r [-> [Hd Hr]]]]. rewrite digits_run by assumption.
    destruct (Nat.eqb_spec (0 + String.length ds) 0) as [Z|Z]; [discriminate|]. intros X. injection X as <- <- <-.
    exists sp, sg, ds. split; [rewrite E, E2; reflexivity|]. split; [exact H1|]. split; [exact Hs|]. split; [intros ->; now elim Z|]. split; [exact Hd|]. split; [exact Hr|reflexivity].
  - intros (sp & sg & ds & -> & H1 & Hs & Hn & Hd & Hr & ->). rewrite (skip_run sp).
    + assert (S : sign (sg ++ ds ++ rest) = (neg, (ds ++ rest)%string)).
      { destruct Hs as [[-> ->]|[-> [->| ->]]]; try reflexivity. destruct ds as [|a ds]; [now elim Hn|]. cbn [append sign].
        assert (D : is_digit a = true) by (apply digit_char_is, Hd; now left). rewrite !(digit_no a) by (exact D || reflexivity). reflexivity. }
      rewrite S, digits_run by assumption. destruct (Nat.eqb_spec (0 + String.length ds) 0) as [Z|_]; [destruct ds; [now elim Hn|discriminate]|reflexivity].
    + exact H1.
    + intros a t E. rewrite white_is. assert (X : a = "-"%char \/ a = "+"%char \/ is_digit a = true).
      { destruct Hs as [[_ ->]|[_ [->| ->]]]; cbn [append] in E; try (injection E as <- _; auto). destruct ds as [|b ds]; [now elim Hn|]. cbn [append] in E. injection E as <- _. right. right. apply digit_char_is, Hd. now left. }
      destruct X as [->|[->|X]]; [discriminate|discriminate|rewrite digit_not_space by exact X; discriminate].
Qed.

Lemma scan_none : forall s, scan s = None -> ~ exists neg n rest, numeral s neg n rest.
Proof. intros s H [neg [n [rest X]]]. apply scan_iff in X. congruence. Qed.

(** Get<unsigned> of a text. *)
Lemma conv_u32_iff : forall s v, conv_u32 s = Val v <->
  exists neg n, numeral s neg n "" /\ n < 4294967296 /\ v = (if neg then (4294967296 - n) mod 4294967296 else n).
Proof.
  intros s v. assert (E : conv_u32 s = match scan s with None => BadText | Some (neg, n, rest) => if 4294967296 <=? n then BadText else match rest with EmptyString => Val (if neg then (4294967296 - n) mod 4294967296 else n) | _ => BadText end end).
  { unfold conv_u32, scan. destruct (sign (skip_space s)) as [ng t]. destruct (digits t 0 0) as [[x c] r]. destruct (Nat.eqb c 0); reflexivity. }
  rewrite E. split.
  - destruct (scan s) as [[[ng n] r]|] eqn:S; [|discriminate]. destruct (N.leb_spec 4294967296 n) as [|L]; [discriminate|]. destruct r; [|discriminate]. intros H. injection H as <-. exists ng, n. split; [now apply scan_iff|auto].
  - intros [ng [n [H [L ->]]]]. apply scan_iff in H. rewrite H. destruct (N.leb_spec 4294967296 n) as [|_]; [lia|reflexivity].
Qed.

Lemma get_text : forall pre name s post, untouched name post -> p_get conv_u32 name (prun (pre ++ SetT name s :: post)%list) = conv_u32 s.
Proof.
  intros pre name s post H. unfold p_get. pose proof (last_text pre (SetT name s) post s H eq_refl) as E. cbn [pname] in E. rewrite E. reflexivity.
Qed.

Lemma stoul_scan : forall s, stoul s = match scan s with None => Throw | Some (neg, n, _) => if 18446744073709551616 <=? n then Throw else Ok (if neg then (18446744073709551616 - n) mod 18446744073709551616 else n) end.
Proof.
  intro s. unfold stoul, scan. destruct (sign (skip_space s)) as [ng t]. destruct (digits t 0 0) as [[x c] r]. destruct (Nat.eqb c 0); reflexivity.
Qed.

(** One line of the entry point file. *)
Lemma medoid_line_ok : forall x t m, clean x -> clean t -> t <> "" ->
  match parse_medoids [x ++ String comma t] m with
  | Ok m' => exists neg n rest, numeral t neg n rest /\ n < 18446744073709551616 /\
      m' = map_set m x ((if neg then 18446744073709551616 - n else n) mod 4294967296)
  | Throw => forall neg n rest, numeral t neg n rest -> 18446744073709551616 <= n
  | _ => False
  end.
Proof.
  intros x t m Hx Ht Hne. cbn [parse_medoids].
  assert (E : line_tokens (x ++ String comma t) = [x; t]).
  { unfold line_tokens. destruct (proj1 (clean_has x) Hx) as [A [B C]]. destruct (proj1 (clean_has t) Ht) as [A' [B' C']]. rewrite getlines_app by auto. rewrite getlines_last by auto.
    cbn [map]. rewrite (erase_id LF x), (erase_id CR x), (erase_id LF t), (erase_id CR t) by auto. reflexivity. }
  rewrite E. cbn [medoid_tokens]. rewrite stoul_scan. destruct (scan t) as [[[ng n] r]|] eqn:S.
  - destruct (N.leb_spec 18446744073709551616 n) as [L|L]; cbn [bind fst snd].
    + intros neg n' rest H. apply scan_iff in H. rewrite S in H. injection H as -> -> ->. exact L.
    + exists ng, n, r. split; [now apply scan_iff|]. split; [exact L|]. f_equal. destruct ng; [|reflexivity].
      change 18446744073709551616 with (4294967296 * 4294967296) at 2. rewrite N.mod_mul_r by discriminate. rewrite N.mul_comm, N.mod_add by discriminate. now rewrite N.mod_mod.
  - cbn [bind]. intros neg n rest H. apply scan_iff in H. congruence.
Qed.
