(** Samples of a file, of training data and of the levels of HNSW. *)
From Coq Require Import NArith ZArith Reals Lra Lia String List Arith Bool Permutation Sorting.Sorted Floats.SpecFloat.
From Flocq Require Import Core.
From Verif Require Import Base Bytes Float32 DivFacts DistSpec RealSpec FloatReal L2ErrorProofs RealDistProofs NormProofs Float64Real LloydModel StatsProofs StatsProofs4 MeanProofs3 MeanProofs5 NormModel LloydSpec LloydProofs2 StreamModel CacheModel SliceModel ShardSpec SliceProofs IndexFileModel SystemModel CmdModel RandModel RandSpec RandProofs.
Import ListNotations.
Local Open Scope R_scope.

Lemma filter_SS : forall (f : nat -> bool) l, StronglySorted lt l -> StronglySorted lt (filter f l).
Proof.
  intros f l H. induction H as [|a l H IH F]; cbn [filter]; [constructor|]. destruct (f a); [|exact IH]. constructor; [exact IH|]. rewrite Forall_forall in *. intros x Hx. apply F. apply filter_In in Hx. tauto.
Qed.
Lemma seq_SS : forall n a, StronglySorted lt (seq a n).
Proof. induction n as [|n IH]; intros a; cbn [seq]; constructor; [apply IH|]. apply Forall_forall. intros x Hx. apply in_seq in Hx. lia. Qed.
Lemma filter_all : forall (f : nat -> bool) l, (forall x, In x l -> f x = true) -> filter f l = l.
Proof. intros f l. induction l as [|a l IH]; intros H; cbn [filter]; [reflexivity|]. rewrite (H a (or_introl eq_refl)), IH; auto. intros x Hx. apply H. now right. Qed.
Lemma filter_none : forall (f : nat -> bool) l, (forall x, In x l -> f x = false) -> filter f l = [].
Proof. intros f l. induction l as [|a l IH]; intros H; cbn [filter]; [reflexivity|]. rewrite (H a (or_introl eq_refl)), IH; auto. intros x Hx. apply H. now right. Qed.

Lemma rows_seq : forall (rows : list (list N)), map (fun p => nth p rows []) (seq 0 (length rows)) = rows.
Proof.
  intros rows. apply nth_ext with (d := []) (d' := []); [now rewrite map_length, seq_length|]. intros i Hi. rewrite map_length, seq_length in Hi.
  rewrite nth_indep with (d' := nth 0 rows []) by now rewrite map_length, seq_length. rewrite (map_nth (fun p => nth p rows []) (seq 0 (length rows)) 0%nat i). now rewrite seq_nth.
Qed.
Lemma rnd_fmt : forall x, f32_valid x = true -> rnd (real x) = real x.
Proof. intros x V. apply round_generic; [auto with typeclass_instances|apply real_format, V]. Qed.

Lemma uniform_unit : forall w, (w < 2 ^ 32)%N -> let u := uniform32 f32_zero f32_one w in finite u /\ f32_valid u = true /\ real u = real (canonical32 w).
Proof.
  intros w Hw u. destruct (unit32 w Hw) as [F [V [B _]]]. unfold u, uniform32. change (fsub f32_one f32_zero) with f32_one. set (c := canonical32 w) in *.
  assert (Bc : Rabs (real c) <= 1) by (rewrite Rabs_pos_eq by apply B; pose proof (bpow_gt_0 radix2 (-24)); lra).
  assert (B1 : 1 <= bpow radix2 127) by (change 1 with (bpow radix2 0); apply bpow_le; lia).
  assert (Fm : finite (fmul c f32_one)). { apply fmul_fin; [exact V|reflexivity|exact F|exact I|]. rewrite one_real, Rmult_1_r. apply rnd_small. lra. }
  destruct (fmul_rnd c f32_one V eq_refl Fm) as [Vm Rm]. rewrite one_real, Rmult_1_r, rnd_fmt in Rm by exact V.
  assert (Fa : finite (fadd (fmul c f32_one) f32_zero)). { apply fadd_fin; [exact Vm|reflexivity|exact Fm|exact I|]. cbn [real f32_zero]. rewrite Rm, Rplus_0_r. apply rnd_small. lra. }
  destruct (fadd_rnd _ f32_zero Vm eq_refl Fm I Fa) as [Va Ra]. split; [exact Fa|]. split; [exact Va|]. rewrite Ra, Rm. cbn [real f32_zero]. rewrite Rplus_0_r. now apply rnd_fmt.
Qed.

Lemma uniform_range : forall w, (w < 2 ^ 32)%N -> let u := uniform32 f32_zero f32_one w in
  finite u /\ 0 <= real u <= 1 - powerRZ 2 (-24) /\ Rabs (real u - fraction w) <= powerRZ 2 (-24).
Proof.
  intros w Hw u. destruct (uniform_unit w Hw) as [F [V R]]. destruct (unit32 w Hw) as [_ [_ [B D]]]. subst u. split; [exact F|]. unfold fraction. rewrite !pow_bp, R. auto.
Qed.

(** ** One point *)
Lemma flt_inf : forall x, finite x -> flt x (S754_infinity false) = true.
Proof. intros [s|s| |s m e] F; try (destruct F); reflexivity. Qed.

Lemma picked_all : forall rate w, (w < 2 ^ 32)%N -> f32_valid rate = true -> fle f32_one rate = true -> picked_file rate w = true.
Proof.
  intros rate w Hw V L. destruct (uniform_unit w Hw) as [F [Vu R]]. destruct (unit32 w Hw) as [_ [_ [B _]]]. unfold picked_file. set (u := uniform32 _ _ _) in *. destruct rate as [s|s| |s m e]; try discriminate.
  - destruct s; [discriminate|]. now apply flt_inf.
  - apply (flt_real u); [exact Vu|exact V|exact F|exact I|]. apply sle_real in L; [|reflexivity|exact V|exact I|exact I]. rewrite one_real in L. rewrite R. pose proof (bpow_gt_0 radix2 (-24)). lra.
Qed.
Lemma picked_none : forall rate w, (w < 2 ^ 32)%N -> f32_valid rate = true -> fle rate f32_zero = true -> picked_file rate w = false.
Proof.
  intros rate w Hw V L. destruct (uniform_unit w Hw) as [F [Vu R]]. destruct (unit32 w Hw) as [_ [_ [B _]]]. unfold picked_file. set (u := uniform32 _ _ _) in *. apply not_true_is_false. intros P. destruct rate as [s|s| |s m e]; try discriminate.
  - apply flt_real in P; [|exact Vu|exact V|exact F|exact I]. cbn [real] in P. lra.
  - destruct s; [|discriminate]. destruct u as [s|s| |s m e]; try (destruct F); destruct s; discriminate.
  - apply flt_real in P; [|exact Vu|exact V|exact F|exact I]. apply sle_real in L; [|exact V|reflexivity|exact I|exact I]. cbn [real f32_zero] in L. cbn [real] in P, L. lra.
Qed.
Lemma picked_real : forall rate w, (w < 2 ^ 32)%N -> f32_valid rate = true -> finite rate -> (picked_file rate w = true <-> real (canonical32 w) < real rate).
Proof. intros rate w Hw V Fr. destruct (uniform_unit w Hw) as [F [Vu R]]. unfold picked_file. rewrite flt_real by auto. now rewrite R. Qed.

Lemma picked_sample : forall rate words n, f32_valid rate = true -> finite rate -> (forall i, (words i < 2 ^ 32)%N) ->
  sample_at (real rate) words n (filter (fun i => picked_file rate (words i)) (seq 0 n)).
Proof.
  intros rate words n V F Hw. split; [apply filter_SS, seq_SS|]. split; [intros i Hi; apply filter_In in Hi; destruct Hi as [Hi _]; apply in_seq in Hi; lia|].
  split; intros i Hi.
  - intros H. apply filter_In. split; [apply in_seq; lia|]. apply picked_real; auto. destruct (unit32 (words i) (Hw i)) as [_ [_ [_ D]]]. unfold fraction in H. rewrite !pow_bp in H. apply Rabs_le_inv in D. lra.
  - intros H. apply filter_In in H. destruct H as [_ H]. apply picked_real in H; auto. destruct (unit32 (words i) (Hw i)) as [_ [_ [_ D]]]. unfold fraction in Hi. rewrite !pow_bp in Hi. apply Rabs_le_inv in D. lra.
Qed.

(** A greater rate keeps the sample. *)
Lemma flt_fle_trans : forall x a b, f32_valid x = true -> f32_valid a = true -> f32_valid b = true -> finite x -> flt x a = true -> fle a b = true -> flt x b = true.
Proof.
  intros x a b Vx Va Vb Fx H L. destruct b as [s|s| |s m e]; [| |destruct a as [sa|sa| |sa ma ea]; try discriminate; destruct sa; discriminate|].
  - destruct a as [sa|sa| |sa ma ea]; try discriminate; [|destruct sa; [|discriminate]; destruct x as [sx|sx| |sx mx ex]; try (destruct Fx); destruct sx; discriminate|];
      apply flt_real in H; auto; try exact I; apply sle_real in L; auto; try exact I; apply flt_real; auto; try exact I; lra.
  - destruct s; [|now apply flt_inf]. destruct a as [sa|sa| |sa ma ea]; try discriminate; destruct sa; try discriminate. destruct x as [sx|sx| |sx mx ex]; try (destruct Fx); destruct sx; discriminate.
  - destruct a as [sa|sa| |sa ma ea]; try discriminate; [|destruct sa; [|discriminate]; destruct x as [sx|sx| |sx mx ex]; try (destruct Fx); destruct sx; discriminate|];
      apply flt_real in H; auto; try exact I; apply sle_real in L; auto; try exact I; apply flt_real; auto; try exact I; lra.
Qed.
Lemma picked_more : forall r1 r2 w, (w < 2 ^ 32)%N -> f32_valid r1 = true -> f32_valid r2 = true -> fle r1 r2 = true -> picked_file r1 w = true -> picked_file r2 w = true.
Proof. intros r1 r2 w Hw V1 V2 L. destruct (uniform_unit w Hw) as [F [Vu R]]. unfold picked_file. intros P. now apply flt_fle_trans with (a := r1). Qed.

(** ** The command line *)
Lemma f32_of_f64_valid : forall x, f64_valid x = true -> f32_valid (f32_of_f64 x) = true.
Proof.
  intros [s|s| |s m e] V; try reflexivity. cbn [f32_of_f64]. rewrite normalize_equiv. apply B_valid.
Qed.

Lemma slice_main : forall atof g words argv d kt base prefix ra n dim rows,
  nth_error argv 1 <> None -> length argv = 5%nat -> (exists ty, nth_error argv 1 = Some ty /\ kind_of ty = Some kt) -> nth_error argv 2 = Some base -> nth_error argv 3 = Some prefix -> nth_error argv 4 = Some ra ->
  d base = Some (vector_file dim rows) -> rows_ok n (dim * kwidth kt) dim rows ->
  let ids := filter (fun i => picked_file (f32_of_f64 (atof ra)) (words i)) (seq 0 n) in
  gen_random_slice_main atof g words argv d = Ok (0%Z, fs_set (fs_set d (prefix ++ "_data.bin")%string (Some (shard_file dim rows ids))) (prefix ++ "_ids.bin")%string (Some (id_file ids))).
Proof.
  intros atof g words argv d kt base prefix ra n dim rows _ L [ty [E1 K]] E2 E3 E4 B R ids. unfold gen_random_slice_main, arg. rewrite L, E1. cbn [Nat.eqb negb bind]. rewrite K, E2, E3, E4. cbn [bind]. rewrite B.
  rewrite (slice_file_ok g (kwidth kt) n dim rows _ R). cbn [bind fst snd]. reflexivity.
Qed.

Lemma slice_main_sample : forall atof g words prog ty kt base prefix ra d n dim rows, kind_of ty = Some kt -> d base = Some (vector_file dim rows) -> rows_ok n (dim * kwidth kt) dim rows ->
  (forall i, (words i < 2 ^ 32)%N) -> let rate := f32_of_f64 (atof ra) in f64_valid (atof ra) = true -> finite rate ->
  exists ids, sample_at (real rate) words n ids /\
    gen_random_slice_main atof g words [prog; ty; base; prefix; ra] d = Ok (0%Z, fs_set (fs_set d (prefix ++ "_data.bin")%string (Some (shard_file dim rows ids))) (prefix ++ "_ids.bin")%string (Some (id_file ids))).
Proof.
  intros atof g words prog ty kt base prefix ra d n dim rows K B R Hw rate V F. eexists. split; [apply picked_sample; [apply f32_of_f64_valid, V|exact F|exact Hw]|]. apply (slice_main atof g words [prog; ty; base; prefix; ra] d kt base prefix ra n dim rows); auto; [discriminate|]. now exists ty.
Qed.

Lemma slice_main_all : forall atof g words prog ty kt base prefix ra d n dim rows, kind_of ty = Some kt -> d base = Some (vector_file dim rows) -> rows_ok n (dim * kwidth kt) dim rows ->
  (forall i, (words i < 2 ^ 32)%N) -> f64_valid (atof ra) = true -> fle f32_one (f32_of_f64 (atof ra)) = true ->
  gen_random_slice_main atof g words [prog; ty; base; prefix; ra] d = Ok (0%Z, fs_set (fs_set d (prefix ++ "_data.bin")%string (d base)) (prefix ++ "_ids.bin")%string (Some (id_file (seq 0 n)))).
Proof.
  intros atof g words prog ty kt base prefix ra d n dim rows K B R Hw V L. rewrite (slice_main atof g words [prog; ty; base; prefix; ra] d kt base prefix ra n dim rows); auto; [|discriminate|now exists ty].
  rewrite filter_all by (intros i _; apply picked_all; auto; apply f32_of_f64_valid, V). rewrite B. unfold shard_file. destruct R as [Ln _]. rewrite <- Ln at 1.
  replace (map (fun p : nat => nth p rows []) (seq 0 (length rows))) with rows; [reflexivity|]. symmetry. apply rows_seq.
Qed.

Lemma slice_main_none : forall atof g words prog ty kt base prefix ra d n dim rows, kind_of ty = Some kt -> d base = Some (vector_file dim rows) -> rows_ok n (dim * kwidth kt) dim rows ->
  (forall i, (words i < 2 ^ 32)%N) -> f64_valid (atof ra) = true -> fle (f32_of_f64 (atof ra)) f32_zero = true ->
  gen_random_slice_main atof g words [prog; ty; base; prefix; ra] d = Ok (0%Z, fs_set (fs_set d (prefix ++ "_data.bin")%string (Some (vector_file dim []))) (prefix ++ "_ids.bin")%string (Some (vector_file 1 []))).
Proof.
  intros atof g words prog ty kt base prefix ra d n dim rows K B R Hw V L. rewrite (slice_main atof g words [prog; ty; base; prefix; ra] d kt base prefix ra n dim rows); auto; [|discriminate|now exists ty].
  rewrite filter_none by (intros i _; apply picked_none; auto; apply f32_of_f64_valid, V). reflexivity.
Qed.

(** With the same words, a greater rate only adds points. *)
Lemma slice_main_more : forall atof g words prog ty kt base prefix r1 r2 d n dim rows, kind_of ty = Some kt -> d base = Some (vector_file dim rows) -> rows_ok n (dim * kwidth kt) dim rows ->
  (forall i, (words i < 2 ^ 32)%N) -> f64_valid (atof r1) = true -> f64_valid (atof r2) = true -> fle (f32_of_f64 (atof r1)) (f32_of_f64 (atof r2)) = true ->
  exists ids1 ids2, incl ids1 ids2 /\
    gen_random_slice_main atof g words [prog; ty; base; prefix; r1] d = Ok (0%Z, fs_set (fs_set d (prefix ++ "_data.bin")%string (Some (shard_file dim rows ids1))) (prefix ++ "_ids.bin")%string (Some (id_file ids1))) /\
    gen_random_slice_main atof g words [prog; ty; base; prefix; r2] d = Ok (0%Z, fs_set (fs_set d (prefix ++ "_data.bin")%string (Some (shard_file dim rows ids2))) (prefix ++ "_ids.bin")%string (Some (id_file ids2))).
Proof.
  intros atof g words prog ty kt base prefix r1 r2 d n dim rows K B R Hw V1 V2 L. eexists. eexists. split; [|split; [apply (slice_main atof g words [prog; ty; base; prefix; r1] d kt base prefix r1 n dim rows)|apply (slice_main atof g words [prog; ty; base; prefix; r2] d kt base prefix r2 n dim rows)]; auto; try discriminate; now exists ty].
  intros i Hi. apply filter_In in Hi. destruct Hi as [Hi P]. apply filter_In. split; [exact Hi|]. apply picked_more with (r1 := f32_of_f64 (atof r1)); auto; now apply f32_of_f64_valid.
Qed.

(** ** Training data *)
Lemma train_all : forall p w, (w < 2 ^ 32)%N -> SFltb p f64_one = false -> picked_train p w = true.
Proof.
  intros p w Hw P. unfold picked_train. rewrite P. destruct (uniform_unit w Hw) as [F [Vu R]]. destruct (unit32 w Hw) as [_ [_ [B _]]]. destruct (of_f32_any _ Vu F) as [F6 [V6 [R6 _]]]. destruct one64 as [F1 [V1 R1]].
  apply dlt_real; auto. rewrite R6, R, R1. pose proof (bpow_gt_0 radix2 (-24)). lra.
Qed.
Lemma training_all : forall g w conv n dim rows p words, rows_ok n (dim * w) dim rows -> (forall i, (words i < 2 ^ 32)%N) -> SFltb p f64_one = false ->
  slice_floats g w conv (fun i => picked_train p (words i)) (Some (vector_file dim rows)) = Ok (concat (map (fun r => map conv (dec_all w dim r)) rows), n, dim).
Proof.
  intros g w conv n dim rows p words R Hw P. rewrite (slice_floats_ok g w conv n dim rows _ R). rewrite filter_all by (intros i _; now apply train_all). rewrite seq_length. do 3 f_equal. destruct R as [<- _].
  rewrite <- (map_map (fun p => nth p rows []) (fun r => map conv (dec_all w dim r))). now rewrite rows_seq.
Qed.

(** ** Levels *)
Lemma level_value : forall r, let q := f32_of_f64 (f64_div (f64_of_f32 (f32_of_Z (Z.of_N (r mod 1000000)))) (f64_of_Z 1000000)) in finite q /\ f32_valid q = true /\ 0 <= real q < 1.
Proof.
  intros r q. subst q. assert (M : (r mod 1000000 < 1000000)%N) by (apply N.mod_lt; lia). set (m := (r mod 1000000)%N) in *. destruct (of_Z_rnd (Z.of_N m) ltac:(lia)) as [F [V R]].
  assert (Rm : rnd (IZR (Z.of_N m)) = IZR (Z.of_N m)). { apply round_generic; [auto with typeclass_instances|]. replace (IZR (Z.of_N m)) with (F2R (Float radix2 (Z.of_N m) 0)) by (unfold F2R; cbn; lra). apply generic_format_FLT. exists (Float radix2 (Z.of_N m) 0); cbn [Fnum Fexp]; [reflexivity|cbn; lia|lia]. }
  rewrite Rm in R. destruct (of_f32_any _ V F) as [F6 [V6 [R6 _]]]. rewrite R in R6. destruct (exact64 1000000 ltac:(cbn; lia)) as [Fk [Vk Rk]].
  assert (Hm : 0 <= IZR (Z.of_N m) <= 999999) by (split; apply IZR_le; lia).
  assert (Q : 0 <= IZR (Z.of_N m) / 1000000 <= 1 - / 1000000) by (split; [apply Rmult_le_pos; lra|]; unfold Rdiv; lra).
  assert (P1 : 1 <= bpow radix2 1000) by (change 1 with (bpow radix2 0); apply bpow_le; lia).
  assert (Fd : finite (f64_div (f64_of_f32 (f32_of_Z (Z.of_N m))) (f64_of_Z 1000000))). { apply ddiv_fin; auto; [rewrite Rk; lra|]. rewrite R6, Rk. apply small64. rewrite Rabs_pos_eq by apply Q. lra. }
  destruct (ddiv_rnd _ _ V6 Vk ltac:(rewrite Rk; lra) Fd) as [Vd Rd]. rewrite R6, Rk in Rd. set (x := f64_div _ _) in *.
  assert (G24 : generic_format radix2 (FLT_exp (-149) 24) (1 - bpow radix2 (-24))). { rewrite <- below_real. apply real_format. reflexivity. }
  assert (U : IZR (Z.of_N m) / 1000000 <= 1 - bpow radix2 (-24)). { apply Rle_trans with (1 := proj2 Q). assert (bpow radix2 (-24) <= / 1000000); [|lra]. change (bpow radix2 (-24)) with (/ IZR (Z.pow_pos 2 24)). apply Rinv_le; [lra|]. apply IZR_le. reflexivity || (cbn; lia). }
  assert (X : 0 <= real x <= 1 - bpow radix2 (-24)). { rewrite Rd. split; [rewrite <- rnd64_0; apply rnd64_le; lra|]. rewrite <- (rnd64_gen (1 - bpow radix2 (-24))) by (apply format_64, G24). now apply rnd64_le. }
  pose proof (bpow_gt_0 radix2 (-24)) as P24. assert (P127 : 1 <= bpow radix2 127) by (change 1 with (bpow radix2 0); apply bpow_le; lia).
  destruct (f32_of_f64_real x Fd) as [Fq [Vq Rq]]; [rewrite Rabs_pos_eq; lra|]. split; [exact Fq|]. split; [exact Vq|]. rewrite Rq. split; [rewrite <- rnd_0; apply rnd_le; lra|].
  apply Rle_lt_trans with (1 - bpow radix2 (-24)); [|lra]. assert (E : rnd (1 - bpow radix2 (-24)) = 1 - bpow radix2 (-24)) by (apply round_generic; [auto with typeclass_instances|exact G24]). rewrite <- E. apply rnd_le. lra.
Qed.
Lemma level_sorted : forall rate draws n, StronglySorted lt (level_points rate draws n) /\ forall i, In i (level_points rate draws n) -> (i < n)%nat.
Proof. intros. split; [apply filter_SS, seq_SS|]. intros i Hi. apply filter_In in Hi. destruct Hi as [Hi _]. apply in_seq in Hi. lia. Qed.
Lemma level_all : forall rate draws n, f32_valid rate = true -> fle f32_one rate = true -> level_points rate draws n = seq 0 n.
Proof.
  intros rate draws n V L. apply filter_all. intros i _. destruct (level_value (draws i)) as [F [Vq B]]. unfold picked_level. set (q := f32_of_f64 _) in *. destruct rate as [s|s| |s m e]; try discriminate.
  - destruct s; [discriminate|]. now apply flt_inf.
  - apply (flt_real q); [exact Vq|exact V|exact F|exact I|]. apply sle_real in L; [|reflexivity|exact V|exact I|exact I]. rewrite one_real in L. lra.
Qed.
Lemma level_none : forall rate draws n, f32_valid rate = true -> fle rate f32_zero = true -> level_points rate draws n = [].
Proof.
  intros rate draws n V L. apply filter_none. intros i _. destruct (level_value (draws i)) as [F [Vq B]]. unfold picked_level. set (q := f32_of_f64 _) in *. apply not_true_is_false. intros P. destruct rate as [s|s| |s m e]; try discriminate.
  - apply flt_real in P; [|exact Vq|exact V|exact F|exact I]. cbn [real] in P. lra.
  - destruct s; [|discriminate]. destruct q as [s|s| |s m e]; try (destruct F); destruct s; discriminate.
  - apply flt_real in P; [|exact Vq|exact V|exact F|exact I]. apply sle_real in L; [|exact V|reflexivity|exact I|exact I]. cbn [real f32_zero] in L. cbn [real] in P, L. lra.
Qed.

(** ** k-means++ *)
Lemma kmeans_pp_words : forall data pdist init words nc, (Z.of_nat (length data) <= 2 ^ 53)%Z ->
  (forall i j, (i < length data)%nat -> (j < length data)%nat -> finite (pdist i j) /\ f32_valid (pdist i j) = true /\ fle f32_zero (pdist i j) = true) ->
  (forall i, (i < length data)%nat -> feq (pdist i i) f32_zero = true) -> (forall k, (words k < 2 ^ 32)%N) -> (init < length data)%nat -> (1 <= nc)%nat ->
  exists picked flag centers, kmeans_pp (nc - 1) data pdist init (dart words) nc = Ok (Some (picked, flag, centers)).
Proof.
  intros data pdist init words nc Hn Hp H0 Hw Hi Hc. apply kmeans_pp_ends; auto; [intros i j Hi' Hj; apply (Hp i j Hi' Hj)|]. now apply darts_in_range.
Qed.

(** The distances of k-means++ are finite, not negative and zero from a point to itself. *)
Lemma calc_fold : forall l s k, (forall p, In p l -> finite (fst p) /\ f32_valid (fst p) = true /\ Rabs (real (fst p)) <= bpow radix2 49 /\ finite (snd p) /\ f32_valid (snd p) = true /\ Rabs (real (snd p)) <= bpow radix2 49) ->
  finite s -> f32_valid s = true -> (Z.of_nat k + Z.of_nat (length l) <= 2 ^ 24)%Z -> 0 <= real s <= INR k * bpow radix2 100 ->
  let r := fold_left (fun s p => fadd s (fmul (fsub (fst p) (snd p)) (fsub (fst p) (snd p)))) l s in finite r /\ f32_valid r = true /\ 0 <= real r.
Proof.
  induction l as [|p l IH]; intros s k Hl Fs Vs Hk Hb; cbn zeta; cbn [fold_left]; [tauto|]. cbn [length] in Hk. destruct (Hl p (or_introl eq_refl)) as [Fa [Va [Ba [Fb [Vb Bb]]]]]. set (a := fst p) in *. set (b := snd p) in *.
  assert (Gp : forall e, (-149 <= e)%Z -> rnd (bpow radix2 e) = bpow radix2 e) by (intros e He; apply round_generic; [auto with typeclass_instances|]; apply generic_format_bpow'; [auto with typeclass_instances|]; unfold FLT_exp; lia).
  assert (D : Rabs (rnd (real a - real b)) <= bpow radix2 50).
  { apply abs_round_le_generic; [auto with typeclass_instances|auto with typeclass_instances|apply generic_format_bpow'; [auto with typeclass_instances|]; unfold FLT_exp; lia|]. change 50%Z with (1 + 49)%Z. rewrite bpow_plus. change (bpow radix2 1) with 2. apply Rle_trans with (Rabs (real a) + Rabs (real b)); [|lra]. unfold Rminus. apply Rle_trans with (1 := Rabs_triang _ _). rewrite Rabs_Ropp. lra. }
  assert (Fd : finite (fsub a b)) by (apply fsub_fin; auto; apply Rle_lt_trans with (1 := D), bpow_lt; lia).
  destruct (fsub_rnd a b Va Vb Fa Fb Fd) as [Vd Rd]. rewrite <- Rd in D. set (x := fsub a b) in *.
  assert (Sq : 0 <= real x * real x <= bpow radix2 100).
  { split; [apply Rle_0_sqr|]. change 100%Z with (50 + 50)%Z. rewrite bpow_plus. rewrite <- (Rabs_pos_eq (real x * real x)) by apply Rle_0_sqr. rewrite Rabs_mult. apply Rmult_le_compat; auto; apply Rabs_pos. }
  assert (Sr : 0 <= rnd (real x * real x) <= bpow radix2 100) by (split; [rewrite <- rnd_0; apply rnd_le; lra|rewrite <- (Gp 100%Z) by lia; apply rnd_le; lra]).
  assert (Fm : finite (fmul x x)) by (apply fmul_fin; auto; rewrite Rabs_pos_eq by apply Sr; apply Rle_lt_trans with (1 := proj2 Sr), bpow_lt; lia).
  destruct (fmul_rnd x x Vd Vd Fm) as [Vm Rm]. rewrite <- Rm in Sr. set (y := fmul x x) in *.
  assert (Gk : rnd (INR (S k) * bpow radix2 100) = INR (S k) * bpow radix2 100).
  { apply round_generic; [auto with typeclass_instances|]. rewrite INR_IZR_INZ. destruct (Z_le_lt_eq_dec (Z.of_nat (S k)) (2 ^ 24) ltac:(lia)) as [Lt|E].
    - apply generic_format_FLT. exists (Float radix2 (Z.of_nat (S k)) 100); cbn [Fnum Fexp]; [reflexivity|change (radix2 ^ 24)%Z with (2 ^ 24)%Z; lia|lia].
    - rewrite E. change (2 ^ 24)%Z with (radix2 ^ 24)%Z. rewrite IZR_Zpower by lia. rewrite <- bpow_plus. apply generic_format_bpow'; [auto with typeclass_instances|]. unfold FLT_exp. lia. }
  assert (Us : 0 <= real s + real y <= INR (S k) * bpow radix2 100) by (rewrite S_INR, Rmult_plus_distr_r; lra).
  assert (Ur : 0 <= rnd (real s + real y) <= INR (S k) * bpow radix2 100) by (split; [rewrite <- rnd_0; apply rnd_le; lra|rewrite <- Gk; apply rnd_le; lra]).
  assert (Kb : INR (S k) <= bpow radix2 24) by (rewrite INR_IZR_INZ, <- (IZR_Zpower radix2 24) by lia; apply IZR_le; change (radix2 ^ 24)%Z with (2 ^ 24)%Z; lia).
  assert (Fr : finite (fadd s y)).
  { apply fadd_fin; auto. rewrite Rabs_pos_eq by apply Ur. apply Rle_lt_trans with (1 := proj2 Ur). apply Rle_lt_trans with (bpow radix2 24 * bpow radix2 100); [apply Rmult_le_compat_r; [apply bpow_ge_0|exact Kb]|]. rewrite <- bpow_plus. apply bpow_lt. lia. }
  destruct (fadd_rnd s y Vs Vm Fs Fm Fr) as [Vr Rr]. apply (IH (fadd s y) (S k)); auto; [intros q Hq; apply Hl; now right|lia|rewrite Rr; exact Ur].
Qed.

Lemma calc_self : forall l s, (forall x, In x l -> finite x) -> (s = S754_zero false \/ s = S754_zero true) ->
  feq (fold_left (fun s p => fadd s (fmul (fsub (fst p) (snd p)) (fsub (fst p) (snd p)))) (combine l l) s) f32_zero = true.
Proof.
  induction l as [|x l IH]; intros s Hl Hs; cbn [combine fold_left]; [destruct Hs as [-> | ->]; reflexivity|]. apply IH; [intros y Hy; apply Hl; now right|].
  cbn [fst snd]. assert (Z : fsub x x = S754_zero false \/ fsub x x = S754_zero true).
  { specialize (Hl x (or_introl eq_refl)). destruct x as [sx|sx| |sx m e]; try (destruct Hl); [destruct sx; cbv; auto|]. unfold fsub. cbn [SFsub]. rewrite Z.sub_diag. cbn. auto. }
  destruct Z as [-> | ->], Hs as [-> | ->]; cbv; auto.
Qed.

Lemma calc_ok : forall dim a b, (Z.of_nat dim <= 2 ^ 24)%Z -> length a = dim -> length b = dim ->
  (forall v, In v a -> finite v /\ f32_valid v = true /\ Rabs (real v) <= powerRZ 2 49) -> (forall v, In v b -> finite v /\ f32_valid v = true /\ Rabs (real v) <= powerRZ 2 49) ->
  finite (calc_distance a b) /\ f32_valid (calc_distance a b) = true /\ fle f32_zero (calc_distance a b) = true.
Proof.
  intros dim a b Hd La Lb Ha Hb. destruct (calc_fold (combine a b) f32_zero 0%nat) as [F [V R]]; [|exact I|reflexivity|rewrite combine_length; lia|cbn; lra|].
  - intros [x y] Hp. destruct (Ha x (in_combine_l _ _ _ _ Hp)) as [F1 [V1 B1]]. destruct (Hb y (in_combine_r _ _ _ _ Hp)) as [F2 [V2 B2]]. rewrite pow_bp in B1, B2. cbn [fst snd]. tauto.
  - split; [exact F|]. split; [exact V|]. apply sle_real; [reflexivity|exact V|exact I|exact F|]. exact R.
Qed.

Lemma kmeans_pp_calc : forall dim data init words nc, (Z.of_nat (length data) <= 2 ^ 23)%Z -> (Z.of_nat dim <= 2 ^ 24)%Z ->
  (forall x, In x data -> length x = dim /\ forall v, In v x -> finite v /\ f32_valid v = true /\ Rabs (real v) <= powerRZ 2 49) ->
  (forall k, (words k < 2 ^ 32)%N) -> (init < length data)%nat -> (1 <= nc)%nat ->
  exists picked flag centers, kmeans_pp (nc - 1) data (fun i j => calc_distance (nth i data []) (nth j data [])) init (dart words) nc = Ok (Some (picked, flag, centers)).
Proof.
  intros dim data init words nc Hn Hd Hx Hw Hi Hc. apply kmeans_pp_words; auto; [lia| |].
  - intros i j Li Lj. destruct (Hx _ (nth_In data [] Li)) as [L1 H1]. destruct (Hx _ (nth_In data [] Lj)) as [L2 H2]. now apply calc_ok with (dim := dim).
  - intros i Li. destruct (Hx _ (nth_In data [] Li)) as [L1 H1]. apply calc_self; [intros v Hv; apply (H1 v Hv)|now left].
Qed.

Lemma dart_range : forall words r, (forall k, (words k < 2 ^ 32)%N) -> finite (dart words r) /\ 0 <= real (dart words r) <= 1 - powerRZ 2 (-53).
Proof. intros words r H. destruct (unit64 (words (2 * r)%nat) (words (2 * r + 1)%nat) (H _) (H _)) as [F [_ B]]. rewrite pow_bp. split; [exact F|exact B]. Qed.

Lemma slice_unknown_type : forall atof g words prog ty base prefix ra d, kind_of ty = None -> gen_random_slice_main atof g words [prog; ty; base; prefix; ra] d = Ok (0%Z, d).
Proof. intros atof g words prog ty base prefix ra d K. unfold gen_random_slice_main. cbn [length Nat.eqb negb arg nth_error bind]. now rewrite K. Qed.
