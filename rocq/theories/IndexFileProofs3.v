(** * Lemmas about IVF index files. *)
From Coq Require Import NArith ZArith Ascii String List Bool Arith Lia.
From Verif Require Import Base Bytes StreamModel BinModel BinSpec BinProofs BinProofs2 GraphFileModel GraphFileSpec GraphFileProofs
  TextModel TextProofs IndexFileModel IndexFileSpec IndexFileProofs IndexFileProofs2.
Import ListNotations.
Local Open Scope string_scope.

Lemma overlay_all : forall got old, length old <= length got -> overlay got old = got.
Proof. intros got old H. unfold overlay. rewrite skipn_all2 by auto. apply app_nil_r. Qed.

Lemma load_inverted_ok : forall lists old, lists_ok lists ->
  load_inverted (length lists) (mkS (lists_bytes lists) true false) old = Ok lists.
Proof.
  induction lists as [|l lists IH]; intros old Hok; [reflexivity|]. destruct (Hok l (or_introl eq_refl)) as [Hl Hx].
  cbn [length load_inverted lists_bytes flat_map]. fold (lists_bytes lists). unfold list_bytes. rewrite <- !app_assoc.
  rewrite sread_app by (rewrite u32_length; auto). rewrite u32_length. cbn [Nat.eqb negb]. rewrite dec_u32 by exact Hl. rewrite Nat2N.id.
  rewrite sread_app by (rewrite enc_all_length; lia). rewrite IH by (intros y Hy; apply Hok; right; auto). cbn [bind].
  rewrite overlay_all.
  - assert (E := dec_all_enc 4 l []). rewrite app_nil_r in E. rewrite E; auto.
  - rewrite !enc_all_length. unfold vresize. rewrite app_length, firstn_length, repeat_length. lia.
Qed.

Lemma enc_all_skip : forall k l i, skipn (i * k) (enc_all k l) = enc_all k (skipn i l).
Proof.
  intros k l i. revert l. induction i as [|i IH]; intros l; [reflexivity|]. destruct l as [|x l].
  - cbn [skipn]. unfold enc_all. cbn [flat_map]. apply skipn_nil.
  - cbn [skipn]. rewrite <- IH. unfold enc_all. cbn [flat_map]. cbn [Nat.mul].
    rewrite Nat.add_comm, <- skipn_skipn. rewrite (skipn_len_app _ k) by apply enc_length. reflexivity.
Qed.

Lemma file_elem_bin : forall w n d data j x, nth_error data j = Some x -> (x < 256 ^ N.of_nat w)%N ->
  file_elem w (bin_file w n d data) j = x.
Proof.
  intros w n d data j x Hj Hx. unfold file_elem, bin_file. rewrite app_assoc.
  replace (8 + j * w) with (j * w + 8) by lia. rewrite <- skipn_skipn. rewrite (skipn_len_app _ 8) by (rewrite app_length, !u32_length; auto).
  rewrite enc_all_skip. destruct (skipn j data) as [|y t] eqn:E.
  - apply nth_error_split in Hj. destruct Hj as [l1 [l2 [-> Hl]]]. rewrite skipn_len_app in E by auto. discriminate.
  - assert (y = x).
    { apply nth_error_split in Hj. destruct Hj as [l1 [l2 [-> Hl]]]. rewrite skipn_len_app in E by auto. congruence. }
    subst y. unfold enc_all. cbn [flat_map]. rewrite firstn_len_app by apply enc_length. apply dec_enc. auto.
Qed.

Lemma adim_round : forall w a, data_loaded w a -> u32_range (a_adim a) -> round_up (a_adim a) 8 = a_adim a.
Proof.
  intros w a [_ [[g1 [g2 [b [_ [_ [_ [_ [_ H]]]]]]]] _]] _. unfold load_aligned_bin in H.
  destruct (read_header g1 g2 (open_file (Some b))) as [[n d] s]. destruct (tell_end _ =? _)%N; [|discriminate].
  apply bind_ok in H. destruct H as [rows [_ H]]. assert (E : a_adim a = round_up d 8) by congruence. rewrite E.
  destruct (round_up_8 d) as [_ Hm]. unfold round_up at 1. rewrite Hm. cbn [N.eqb]. rewrite N.add_0_r.
  pose proof (N.div_mod (round_up d 8) 8 ltac:(lia)). lia.
Qed.

Lemma ivf_round_trip : forall w g name x d dim adim k0 c0, garbage_ok g -> ivf_ok w x ->
  exists d' a' rows, save_ivf w name x d = Ok d' /\
    load_ivf w g name (mkIA (new_ann dim adim) k0 c0 []) d' = Ok (a', i_k x, rows, i_lists x) /\
    same_ann (i_ann x) a' /\ length rows = N.to_nat (i_k x) /\
    (forall i row, nth_error rows i = Some row -> length row = N.to_nat (a_adim (i_ann x)) * 4 /\
       forall j, j < N.to_nat (a_adim (i_ann x)) -> mem_elem 4 row j = nth_error (i_centers x) (i * N.to_nat (a_adim (i_ann x)) + j)) /\
    (forall m, ~ family ivf_suffixes name m -> d' m = d m).
Proof.
  intros w g name x d dim adim k0 c0 Hg [Ha [Rk [Hc [Hc2 [Hs [Rd [Hl Hok]]]]]]].
  destruct (save_ann_ok w name (i_ann x) d Ha) as [d1 [E1 [H1 F1]]].
  unfold save_ivf. rewrite E1. cbn [bind]. rewrite save_bin_ok by auto. cbn [bind].
  assert (Ew := write_lists_ok (i_lists x) [] Hok). cbn [length app] in Ew. rewrite Hl in Ew. rewrite Ew. cbn [bind].
  set (ad := a_adim (i_ann x)) in *. set (cf := bin_file 4 (i_k x) ad (i_centers x)).
  assert (Har : round_up ad 8 = ad) by (apply (adim_round w); [apply Ha|exact Rd]).
  assert (Hs2 : (i_k x * round_up ad 8 * N.of_nat 4 + 8 < 2 ^ 64)%N).
  { rewrite Har. eapply N.le_lt_trans; [|exact Hs]. change (N.of_nat 4) with 4%N. apply N.add_le_mono_r, N.mul_le_mono_r, N.mul_le_mono_l. lia. }
  destruct (aligned_spec 4 (g 4) (g 5) (i_k x) ad (enc_all 4 (i_centers x)) (proj1 (Hg 4)) (proj1 (Hg 5)) Rk Rd) as [rd [rows [L1 [L2 [L3 [L4 L5]]]]]]; [rewrite enc_all_length; lia|exact Hs2|].
  assert (rd = ad).
  { rewrite load_aligned_ok in L1; [rewrite Har in L1; congruence|apply Hg|apply Hg|auto|auto|rewrite enc_all_length; lia|auto]. }
  subst rd.
  set (d' := fs_set _ name _).
  assert (Hon : ann_on w (i_ann x) name d').
  { apply (ann_on_ext _ _ _ d1); auto. intros s Hsu. unfold d'. rewrite !fs_set_other; [auto| |].
    - rewrite eqb_app. cbn in Hsu. intuition (subst; reflexivity).
    - rewrite eqb_app_r. cbn in Hsu. intuition (subst; reflexivity). }
  destruct (load_ann_ok w g name (i_ann x) d' dim adim Hg Ha Hon) as [a' [E2 S2]].
  assert (Ec : d' (name ++ "_centers.bin") = Some cf).
  { unfold d'. rewrite fs_set_other by (rewrite eqb_app_r; reflexivity). apply fs_set_same. }
  assert (Eg : d' name = Some (lists_bytes (i_lists x))) by (unfold d'; apply fs_set_same).
  exists d', a', rows. split; [reflexivity|]. split.
  - unfold load_ivf. cbn [i_ann i_lists]. rewrite E2. cbn [bind]. rewrite Ec. unfold cf, bin_file. rewrite L1. cbn [bind].
    rewrite Eg. cbn [open_file]. rewrite <- Hl at 1. rewrite load_inverted_ok by auto. reflexivity.
  - split; [exact S2|]. split; [exact L4|]. split.
    + intros i row Hi. destruct (L5 i row Hi) as [R1 [R2 _]]. split; [exact R1|]. intros j Hj. rewrite (R2 j Hj).
      assert (Hi2 : i < N.to_nat (i_k x)) by (rewrite <- L4; apply nth_error_Some; congruence).
      destruct (nth_error (i_centers x) (i * N.to_nat ad + j)) as [c|] eqn:En.
      * f_equal. apply (file_elem_bin 4 (i_k x) ad); auto. apply Hc2. eapply nth_error_In; eauto.
      * exfalso. apply nth_error_None in En. nia.
    + intros m Hm. unfold d'. rewrite !fs_set_other.
      * apply F1. intros [s [Hsu ->]]. apply Hm. exists s. split; [right; right; auto|auto].
      * eapply not_family; [exact Hm|left; auto].
      * rewrite <- (sapp_nil name). eapply not_family; [exact Hm|right; left; auto].
Qed.
