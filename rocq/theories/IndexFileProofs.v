(** * Lemmas about label files and index files. *)
From Coq Require Import NArith ZArith Ascii String List Bool Arith Lia Sorting.Sorted Sorting.Permutation.
From Verif Require Import Base Bytes StreamModel BinModel BinSpec BinProofs BinProofs2 GraphFileModel GraphFileSpec GraphFileProofs
  TextModel TextProofs IndexFileModel IndexFileSpec.
Import ListNotations.
Local Open Scope string_scope.

(** ** Clean labels *)
Lemma has_In : forall c s, has c s = false <-> ~ In c (list_ascii_of_string s).
Proof.
  intros c s. induction s as [|a s IH]; cbn [has list_ascii_of_string In]; [tauto|].
  rewrite orb_false_iff, IH, Ascii.eqb_neq. tauto.
Qed.

Lemma clean_has : forall x, clean x <-> has comma x = false /\ has LF x = false /\ has CR x = false.
Proof.
  intros x. rewrite !has_In. unfold clean. change comma with "044"%char. change LF with "010"%char. change CR with "013"%char. split.
  - intros H. repeat split; intros Hi; destruct (H _ Hi) as [A [B C]]; congruence.
  - intros [A [B C]] a Ha. repeat split; intros ->; auto.
Qed.

(** ** One line *)
Lemma join_labels_ok : forall l, l <> [] -> exists s, join_labels l = Ok s.
Proof.
  induction l as [|x l IH]; intros H; [congruence|]. destruct l as [|y l]; [cbn; eauto|].
  destruct IH as [s E]; [discriminate|]. exists (x ++ String comma s).
  change (join_labels (x :: y :: l)) with (do r <- join_labels (y :: l); Ok (x ++ String comma r)). rewrite E. reflexivity.
Qed.

Lemma join_no : forall c l s, c <> comma -> join_labels l = Ok s -> (forall x, In x l -> has c x = false) -> has c s = false.
Proof.
  intros c l. induction l as [|x l IH]; intros s Hc H Hx; [discriminate|]. destruct l as [|y l].
  - cbn in H. assert (x = s) by congruence. subst. apply Hx. left. auto.
  - change (join_labels (x :: y :: l)) with (do r <- join_labels (y :: l); Ok (x ++ String comma r)) in H.
    apply bind_ok in H. destruct H as [r [E H]]. assert (s = x ++ String comma r) by congruence. subst s.
    rewrite has_app. rewrite (Hx x) by (left; auto). cbn [has orb]. apply orb_false_iff. split.
    + apply Ascii.eqb_neq. congruence.
    + eapply IH; eauto. intros z Hz. apply Hx. right. auto.
Qed.

(** A final empty label gets lost. *)
Lemma getlines_join : forall l s, join_labels l = Ok s -> (forall x, In x l -> has comma x = false) ->
  getlines comma s = if String.eqb (last l "") "" then removelast l else l.
Proof.
  induction l as [|x l IH]; intros s H Hx; [discriminate|]. destruct l as [|y l].
  - cbn in H. assert (x = s) by congruence. subst s. cbn [last removelast]. destruct (String.eqb x "") eqn:E.
    + apply String.eqb_eq in E. subst x. reflexivity.
    + apply String.eqb_neq in E. apply getlines_last; auto. apply Hx. left. auto.
  - change (join_labels (x :: y :: l)) with (do r <- join_labels (y :: l); Ok (x ++ String comma r)) in H.
    apply bind_ok in H. destruct H as [r [E H]]. assert (s = x ++ String comma r) by congruence. subst s.
    rewrite getlines_app by (apply Hx; left; auto). rewrite (IH r E) by (intros z Hz; apply Hx; right; auto).
    change (last (x :: y :: l) "") with (last (y :: l) ""). change (removelast (x :: y :: l)) with (x :: removelast (y :: l)).
    destruct (String.eqb (last (y :: l) "") ""); reflexivity.
Qed.

Lemma tokens_clean_id : forall l, (forall x, In x l -> clean x) -> map (fun t => erase CR (erase LF t)) l = l.
Proof.
  intros l H. rewrite <- (map_id l) at 2. apply map_ext_in. intros x Hx. destruct (proj1 (clean_has x) (H x Hx)) as [_ [A B]].
  rewrite (erase_id LF) by auto. apply erase_id. auto.
Qed.

Lemma removelast_In : forall (A : Type) (l : list A) x, In x (removelast l) -> In x l.
Proof.
  intros A l. induction l as [|a l IH]; intros x Hx; [destruct Hx|]. destruct l as [|b l]; [destruct Hx|].
  change (removelast (a :: b :: l)) with (a :: removelast (b :: l)) in Hx. destruct Hx as [<-|Hx]; [left; auto|right; auto].
Qed.

Lemma line_tokens_join : forall l s, join_labels l = Ok s -> (forall x, In x l -> clean x) ->
  line_tokens s = if String.eqb (last l "") "" then removelast l else l.
Proof.
  intros l s H Hc. unfold line_tokens. rewrite (getlines_join l s H).
  - apply tokens_clean_id. intros x Hx. apply Hc. destruct (String.eqb (last l "") ""); [apply removelast_In; auto|auto].
  - intros x Hx. apply Hc, clean_has in Hx. tauto.
Qed.

Lemma last_sorted : forall l x, labels_sorted l -> In x l -> label_order x (last l "").
Proof.
  induction l as [|a l IH]; intros x Hs Hx; [destruct Hx|]. inversion Hs as [|? ? Hs' Hf]. subst. destruct l as [|b l].
  - destruct Hx as [<-|[]]. apply sle_refl.
  - change (last (a :: b :: l) "") with (last (b :: l) ""). destruct Hx as [<-|Hx].
    + rewrite Forall_forall in Hf. eapply sle_trans; [apply Hf; left; reflexivity|]. apply IH; auto. left. auto.
    + apply IH; auto.
Qed.

Lemma last_nonempty : forall l, labels_sorted l -> (exists x, In x l /\ x <> "") -> String.eqb (last l "") "" = false.
Proof.
  intros l Hs [x [Hx Hne]]. apply String.eqb_neq. intros E. assert (H := last_sorted l x Hs Hx). rewrite E in H.
  apply Hne. apply sle_empty_r. exact H.
Qed.

Lemma saveable_line : forall l, saveable l -> exists s, join_labels l = Ok s /\ has LF s = false /\ line_tokens s = l /\ str_sort l = l.
Proof.
  intros l [Hs [Hc He]]. destruct (join_labels_ok l) as [s E]. { destruct He as [x [Hx _]]. intros ->. destruct Hx. }
  exists s. split; [auto|]. split.
  - eapply join_no; eauto. { discriminate. } intros x Hx. apply Hc, clean_has in Hx. tauto.
  - split; [|apply str_sort_id; exact Hs]. rewrite (line_tokens_join l s E Hc). rewrite last_nonempty by auto. reflexivity.
Qed.

(** ** The label set *)
Lemma set_insert_In : forall x s y, In y (set_insert x s) <-> y = x \/ In y s.
Proof.
  intros x s y. unfold set_insert. destruct (existsb (String.eqb x) s) eqn:E.
  - apply existsb_exists in E. destruct E as [z [Hz Ez]]. apply String.eqb_eq in Ez. subst z. split; [auto|]. intros [->|H]; auto.
  - rewrite in_app_iff. cbn. intuition.
Qed.

Lemma set_insert_all : forall l s y, In y (fold_left (fun s x => set_insert x s) l s) <-> In y l \/ In y s.
Proof.
  induction l as [|x l IH]; intros s y; cbn [fold_left]; [cbn; tauto|]. rewrite IH, set_insert_In. cbn. intuition.
Qed.

(** ** A saved label file *)
Lemma parse_saved : forall pts acc labs, (forall l, In l pts -> saveable l) ->
  exists txt labs', save_labels pts = Ok txt /\ parse_lines (getlines LF txt) acc labs = Ok ((acc ++ pts)%list, labs') /\
    (forall x, In x labs' <-> In x labs \/ exists l, In l pts /\ In x l).
Proof.
  induction pts as [|l pts IH]; intros acc labs H.
  - exists "", labs. split; [reflexivity|]. split; [rewrite app_nil_r; reflexivity|]. intros x. split; [auto|]. intros [Hx|[l [[] _]]]; auto.
  - destruct (saveable_line l) as [s [E1 [E2 [E3 E4]]]]; [apply H; left; auto|].
    assert (Hl : exists y l', l = y :: l').
    { destruct (H l (or_introl eq_refl)) as [_ [_ [x [Hx _]]]]. destruct l; [destruct Hx|eauto]. }
    destruct (IH (acc ++ [l])%list (fold_left (fun s x => set_insert x s) l labs)) as [txt [labs' [F1 [F2 F3]]]]; [intros k Hk; apply H; right; auto|].
    exists (s ++ String LF txt), labs'. split; [cbn [save_labels]; rewrite E1; cbn [bind]; rewrite F1; reflexivity|]. split.
    + rewrite getlines_app by auto. cbn [parse_lines]. rewrite E3. destruct Hl as [y [l' El]].
      assert (Em : forall (A : Type) (u : A) (v : string -> list string -> A), match l with [] => u | a :: b => v a b end = v y l') by (intros; rewrite El; reflexivity).
      rewrite Em. rewrite <- El. rewrite E4, F2. rewrite <- app_assoc. reflexivity.
    + intros x. rewrite F3, set_insert_all. split.
      * intros [[Hx|Hx]|[k [Hk Hx]]]; [right; exists l; split; [left; auto|auto]|auto|right; exists k; split; [right; auto|auto]].
      * intros [Hx|[k [[<-|Hk] Hx]]]; [auto|auto|right; exists k; auto].
Qed.

Lemma label_round_trip : forall pts a, (forall l, In l pts -> saveable l) -> a_pts a = [] -> a_n a = N.of_nat (length pts) ->
  exists txt a', save_labels pts = Ok txt /\ parse_label_file (Some (bytes_of txt)) a = Ok a' /\ a_pts a' = pts /\ a_filtered a' = true /\
    (forall x, In x (a_labels a') <-> In x (a_labels a) \/ exists l, In l pts /\ In x l).
Proof.
  intros pts a H Hp Hn. destruct (parse_saved pts [] (a_labels a) H) as [txt [labs [E1 [E2 E3]]]].
  exists txt. unfold parse_label_file. rewrite text_of_bytes_of, Hp, E2. cbn [bind app]. rewrite Hn, N.eqb_refl.
  eexists. split; [exact E1|]. split; [reflexivity|]. cbn [a_pts a_filtered a_labels]. auto.
Qed.

(** ** What parsing any file gives *)
Lemma line_tokens_clean : forall line x, In x (line_tokens line) -> clean x.
Proof.
  intros line x H. unfold line_tokens in H. apply in_map_iff in H. destruct H as [t [<- Ht]]. apply clean_has.
  rewrite !erase_has. change (Ascii.eqb CR comma) with false. change (Ascii.eqb LF comma) with false.
  change (Ascii.eqb CR LF) with false. change (Ascii.eqb LF LF) with true. change (Ascii.eqb CR CR) with true.
  split; [|auto]. eapply getlines_no; eauto.
Qed.

Lemma parse_lines_spec : forall lines acc labs pts labs', parse_lines lines acc labs = Ok (pts, labs') ->
  exists new, pts = (acc ++ new)%list /\ length new = length lines /\
    (forall l, In l new -> l <> [] /\ labels_sorted l /\ forall x, In x l -> clean x) /\
    (forall i line, nth_error lines i = Some line -> exists l, nth_error new i = Some l /\ Permutation (line_tokens line) l).
Proof.
  induction lines as [|line lines IH]; intros acc labs pts labs' H; cbn [parse_lines] in H.
  - exists []. assert (pts = acc) by congruence. subst. rewrite app_nil_r. split; [auto|]. split; [auto|]. split; [intros l []|].
    intros [|i] l Hl; discriminate.
  - destruct (line_tokens line) as [|t toks] eqn:Et; [discriminate|]. rewrite <- Et in H.
    destruct (IH _ _ _ _ H) as [new [E1 [E2 [E3 E4]]]]. exists (str_sort (line_tokens line) :: new).
    assert (HP := str_sort_perm (line_tokens line)).
    split; [rewrite E1, <- app_assoc; reflexivity|]. split; [cbn; auto|]. split.
    + intros l [<-|Hl]; [|auto]. split; [|split].
      * intros E. rewrite E in HP. apply Permutation_sym, Permutation_nil in HP. congruence.
      * apply str_sort_sorted.
      * intros x Hx. eapply line_tokens_clean. eapply Permutation_in; [apply Permutation_sym; exact HP|exact Hx].
    + intros [|i] l Hl; cbn [nth_error] in *.
      * exists (str_sort (line_tokens line)). split; [auto|]. assert (l = line) by congruence. subst. auto.
      * auto.
Qed.

(** Parse, save, parse again. *)
Lemma label_reload : forall f a a' b, parse_label_file f a = Ok a' -> a_pts a = [] ->
  (forall l, In l (a_pts a') -> exists x, In x l /\ x <> "") -> a_pts b = [] -> a_n b = a_n a ->
  exists txt b', save_labels (a_pts a') = Ok txt /\ parse_label_file (Some (bytes_of txt)) b = Ok b' /\ a_pts b' = a_pts a'.
Proof.
  intros f a a' b H Hp Hne Hb Hn. unfold parse_label_file in H. apply bind_ok in H. destruct H as [[pts labels] [E H]].
  destruct (N.eqb (N.of_nat (length pts)) (a_n a)) eqn:En; [|discriminate]. apply N.eqb_eq in En.
  assert (Ha : a_pts a' = pts) by (assert (Hx : a' = mkA (a_n a) (a_dim a) (a_adim a) (a_data a) (a_tags a) true pts labels (a_use_univ a) (a_univ a)) by congruence; subst a'; reflexivity).
  rewrite Ha in *. apply parse_lines_spec in E. destruct E as [new [E1 [E2 [E3 _]]]]. rewrite Hp in E1. cbn [app] in E1. subst new.
  destruct (label_round_trip pts b) as [txt [b' [F1 [F2 [F3 _]]]]]; auto.
  - intros l Hl. destruct (E3 l Hl) as [_ [S1 S2]]. split; [auto|]. split; auto.
  - rewrite Hn. auto.
  - exists txt, b'. auto.
Qed.

(** A point whose only label is empty *)
Lemma parse_lines_exit : forall lines acc labs, In "" lines -> parse_lines lines acc labs = Exit.
Proof.
  induction lines as [|line lines IH]; intros acc labs H; [destruct H|]. cbn [parse_lines]. destruct H as [->|H]; [reflexivity|].
  destruct (line_tokens line); [reflexivity|]. apply IH. auto.
Qed.

Lemma save_labels_lines : forall pts txt, save_labels pts = Ok txt -> (forall l x, In l pts -> In x l -> clean x) ->
  exists lines, getlines LF txt = lines /\ length lines = length pts /\
    forall i l, nth_error pts i = Some l -> exists s, join_labels l = Ok s /\ nth_error lines i = Some s.
Proof.
  induction pts as [|l pts IH]; intros txt H Hc; cbn [save_labels] in H.
  - exists []. assert (txt = "") by congruence. subst. repeat split. intros [|i] l Hl; discriminate.
  - apply bind_ok in H. destruct H as [s [Es H]]. apply bind_ok in H. destruct H as [rest [Er H]].
    assert (txt = s ++ String LF rest) by congruence. subst txt.
    destruct (IH rest Er) as [lines [E1 [E2 E3]]]; [intros l' x Hl Hx; apply (Hc l' x); auto; right; auto|].
    exists (s :: lines). split.
    + rewrite getlines_app; [rewrite E1; reflexivity|]. eapply join_no; eauto; [discriminate|].
      intros x Hx. assert (Hcx := Hc l x (or_introl eq_refl) Hx). apply clean_has in Hcx. tauto.
    + split; [cbn; auto|]. intros [|i] l' Hl'; cbn [nth_error] in *; [exists s; split; [congruence|auto]|auto].
Qed.

Lemma empty_label_lost : forall pts txt a, save_labels pts = Ok txt -> (forall l x, In l pts -> In x l -> clean x) -> In [""] pts ->
  parse_label_file (Some (bytes_of txt)) a = Exit.
Proof.
  intros pts txt a H Hc Hi. destruct (save_labels_lines pts txt H Hc) as [lines [E1 [E2 E3]]].
  apply In_nth_error in Hi. destruct Hi as [i Hi]. destruct (E3 i _ Hi) as [s [Es Hs]]. cbn in Es. assert (s = "") by congruence. subst s.
  unfold parse_label_file. rewrite text_of_bytes_of, E1. rewrite parse_lines_exit; [reflexivity|]. eapply nth_error_In; eauto.
Qed.

Lemma no_label_ub : forall pre rest, (forall l, In l pre -> l <> []) -> save_labels (pre ++ [] :: rest)%list = UB.
Proof.
  induction pre as [|l pre IH]; intros rest H; cbn [app save_labels]; [reflexivity|].
  destruct (join_labels_ok l) as [s E]; [apply H; left; auto|]. rewrite E. cbn [bind]. rewrite IH; [reflexivity|].
  intros k Hk. apply H. right. auto.
Qed.

(** ** Medoid file *)
Lemma medoid_tokens_line : forall x v, clean x -> (v < 2 ^ 32)%N ->
  medoid_tokens 0 (line_tokens (x ++ String comma (String " " (show v)))) "" 0 = Ok (x, v).
Proof.
  intros x v Hc Hv. assert (E : line_tokens (x ++ String comma (String " " (show v))) = [x; String " " (show v)]).
  { unfold line_tokens. assert (Hn : forall c, is_digit c = false -> c <> " "%char -> has c (String " " (show v)) = false).
    { intros c Hd Hs. cbn [has]. apply orb_false_iff. split; [apply Ascii.eqb_neq; congruence|apply digits_no; auto; apply show_digits]. }
    assert (Hx := proj1 (clean_has x) Hc). destruct Hx as [A [B C]].
    rewrite getlines_app by auto. rewrite getlines_last by (solve [discriminate | apply Hn; [reflexivity|discriminate]]).
    cbn [map]. rewrite (erase_id LF x), (erase_id CR x) by auto.
    rewrite (erase_id LF (String _ _)) by (apply Hn; [reflexivity|discriminate]).
    rewrite (erase_id CR (String _ _)) by (apply Hn; [reflexivity|discriminate]). reflexivity. }
  rewrite E. cbn [medoid_tokens]. rewrite stoul_space_show by (eapply N.lt_trans; [exact Hv|reflexivity]). cbn [bind].
  rewrite N.mod_small by exact Hv. reflexivity.
Qed.

Lemma map_set_new : forall m x v, ~ In x (map fst m) -> map_set m x v = (m ++ [(x, v)])%list.
Proof.
  induction m as [|[y u] m IH]; intros x v H; cbn [map_set app]; [reflexivity|]. cbn [map fst In] in H.
  destruct (String.eqb x y) eqn:E; [apply String.eqb_eq in E; subst; tauto|]. rewrite IH by tauto. reflexivity.
Qed.

Lemma parse_medoids_text : forall m acc, (forall x v, In (x, v) m -> clean x /\ (v < 2 ^ 32)%N) -> NoDup (map fst (acc ++ m)%list) ->
  parse_medoids (getlines LF (medoid_text m)) acc = Ok (acc ++ m)%list.
Proof.
  induction m as [|[x v] m IH]; intros acc H Hn; cbn [medoid_text fold_right].
  - cbn. rewrite app_nil_r. reflexivity.
  - fold (medoid_text m). destruct (H x v (or_introl eq_refl)) as [Hc Hv]. unfold medoid_line. cbn [fst snd].
    assert (E : (x ++ String comma (String " " (show v ++ String LF ""))) ++ medoid_text m =
      (x ++ String comma (String " " (show v))) ++ String LF (medoid_text m)).
    { rewrite !sapp_assoc. cbn [append]. rewrite sapp_assoc. cbn [append]. reflexivity. }
    rewrite E. rewrite getlines_app.
    + cbn [parse_medoids]. rewrite medoid_tokens_line by auto. cbn [bind fst snd].
      rewrite map_set_new.
      * rewrite IH; [rewrite <- app_assoc; reflexivity|intros; apply H; right; auto|]. rewrite <- app_assoc. exact Hn.
      * rewrite map_app in Hn. cbn [map fst] in Hn. apply NoDup_remove_2 in Hn. intros Hi. apply Hn. apply in_or_app. auto.
    + rewrite has_app. apply orb_false_iff. split; [apply clean_has in Hc; tauto|]. cbn [has].
      change (Ascii.eqb comma LF) with false. change (Ascii.eqb " " LF) with false. cbn [orb]. apply digits_no; [apply show_digits|reflexivity].
Qed.

Lemma medoid_round_trip : forall m, medoids_ok m -> parse_medoids (getlines LF (text_of (bytes_of (medoid_text m)))) [] = Ok m.
Proof.
  intros m [H1 H2]. rewrite text_of_bytes_of. apply (parse_medoids_text m []); auto.
Qed.
