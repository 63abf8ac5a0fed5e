(** * IVF and LSH searches depend on their candidates only. *)
From Coq Require Import NArith String List Arith Lia Bool.
From Verif Require Import Base Float32 PoolModel FilterSpec ClosestModel FlatModel IvfModel LshModel HideSpec LocalSpec2.
Import ListNotations.

Lemma loop_ext : forall n dist dist' accept accept' M l st, (forall x, In x l -> dist' x = dist x /\ accept' x = accept x) -> process_loop n dist' accept' M st l = process_loop n dist accept M st l.
Proof.
  intros n dist dist' accept accept' M l. induction l as [|id l IH]; intros st H; [reflexivity|]. cbn [process_loop]. destruct (H id (or_introl eq_refl)) as [D A].
  assert (E : process_one n dist' accept' M st id = process_one n dist accept M st id) by (unfold process_one; now rewrite D, A). rewrite E.
  destruct (process_one n dist accept M st id); cbn [bind]; try reflexivity. apply IH. intros x Hx. apply H. now right.
Qed.
Lemma same_test : forall lc lc' filters x, same_labels lc lc' x -> passes_filter lc' filters x = passes_filter lc filters x.
Proof. intros lc lc' filters x [E [U V]]. unfold passes_filter. destruct filters; [reflexivity|]. unfold rd. rewrite E, U, V. reflexivity. Qed.
Lemma flat_ext : forall n dist dist' lc lc' filters k l ind dst, (forall x, In x l -> dist' x = dist x /\ same_labels lc lc' x) ->
  flat_search n dist' (passes_filter lc' filters) k l ind dst = flat_search n dist (passes_filter lc filters) k l ind dst.
Proof.
  intros n dist dist' lc lc' filters k l ind dst H. unfold flat_search, process_candidates. rewrite (loop_ext n dist dist' (passes_filter lc filters) (passes_filter lc' filters)); [reflexivity|].
  intros x Hx. destruct (H x Hx) as [D S]. split; [exact D|now apply same_test].
Qed.
Lemma gather_ext : forall inv inv' cs, (forall c, In c cs -> nth_error inv' c = nth_error inv c) -> gather inv' cs = gather inv cs.
Proof.
  intros inv inv' cs. induction cs as [|c cs IH]; intros H; [reflexivity|]. cbn [gather]. unfold rd. rewrite (H c (or_introl eq_refl)). rewrite IH; [reflexivity|]. intros x Hx. apply H. now right.
Qed.
Lemma gather_in : forall inv cs l x, gather inv cs = Ok l -> In x l -> exists c s, In c cs /\ nth_error inv c = Some s /\ In x s.
Proof.
  intros inv cs. induction cs as [|c cs IH]; intros l x E Hx; cbn [gather] in E; [injection E as <-; destruct Hx|]. unfold rd in E. destruct (nth_error inv c) as [s|] eqn:Q; [|discriminate]. cbn [bind] in E.
  destruct (gather inv cs) as [t| | | |]; try discriminate. cbn [bind] in E. injection E as <-. apply in_app_or in Hx. destruct Hx as [Hx|Hx]; [exists c, s; split; [now left|now split]|].
  destruct (IH t x eq_refl Hx) as [c' [s' [A B]]]. exists c', s'. split; [now right|exact B].
Qed.

Lemma ivf_local : forall popf mbs n tags nc inv inv' lc lc' cdist dist dist' p k filters ind dst probed d,
  compute_closest popf mbs (fun _ => cdist) 1 nc p (one_point_order p) (repeat 0 p) None = Ok (probed, d) ->
  (forall c, In c probed -> nth_error inv' c = nth_error inv c) ->
  (forall c s x, In c probed -> nth_error inv c = Some s -> In x s -> dist' x = dist x /\ same_labels lc lc' x) ->
  ivf_search popf mbs (mkIvf n tags nc inv' lc') cdist dist' p k filters ind dst = ivf_search popf mbs (mkIvf n tags nc inv lc) cdist dist p k filters ind dst.
Proof.
  intros popf mbs n tags nc inv inv' lc lc' cdist dist dist' p k filters ind dst probed d C I H. unfold ivf_search, ivf_candidates. cbn [ivf_n ivf_nc ivf_inv ivf_labels]. rewrite C. cbn [bind fst].
  rewrite (gather_ext inv inv' probed I). destruct (gather inv probed) as [l| | | |] eqn:G; cbn [bind]; try reflexivity. apply flat_ext. intros x Hx.
  destruct (gather_in inv probed l x G Hx) as [c [s [A [B E]]]]. exact (H c s x A B E).
Qed.

Lemma lookup_ext : forall dotf q ts ts', Forall2 (fun t t' => t_hps t' = t_hps t /\ bucket t' (get_hash dotf t q) = bucket t (get_hash dotf t q)) ts ts' -> fst (lookup_all dotf q ts') = fst (lookup_all dotf q ts).
Proof.
  intros dotf q ts ts' F. induction F as [|t t' ts ts' [E B] F IH]; [reflexivity|]. cbn [lookup_all get_bucket]. assert (Q : get_hash dotf t' q = get_hash dotf t q) by (unfold get_hash; now rewrite E).
  rewrite Q. unfold bucket in B. destruct (lookup_all dotf q ts) as [ls r]. destruct (lookup_all dotf q ts') as [ls' r']. cbn [fst] in *. now rewrite B, IH.
Qed.
Lemma lookup_in : forall dotf q ts x, In x (fst (lookup_all dotf q ts)) -> exists t, In t ts /\ In x (bucket t (get_hash dotf t q)).
Proof.
  intros dotf q ts x. induction ts as [|t ts IH]; intros H; [destruct H|]. cbn [lookup_all get_bucket] in H. destruct (lookup_all dotf q ts) as [ls r]. cbn [fst] in *. apply in_app_or in H. destruct H as [H|H].
  - exists t. split; [now left|exact H].
  - destruct (IH H) as [u [A B]]. exists u. split; [now right|exact B].
Qed.
Lemma lsh_local : forall dotf n tags nt sz ts ts' lc lc' q dist dist' k filters ind dst,
  Forall2 (fun t t' => t_hps t' = t_hps t /\ bucket t' (get_hash dotf t q) = bucket t (get_hash dotf t q)) ts ts' ->
  (forall t x, In t ts -> In x (bucket t (get_hash dotf t q)) -> dist' x = dist x /\ same_labels lc lc' x) ->
  answer_of (lsh_search dotf (mkLsh n tags lc' nt sz ts') q dist' k filters ind dst) = answer_of (lsh_search dotf (mkLsh n tags lc nt sz ts) q dist k filters ind dst).
Proof.
  intros dotf n tags nt sz ts ts' lc lc' q dist dist' k filters ind dst F H. unfold lsh_search, answer_of. cbn [l_n l_labels l_tables]. pose proof (lookup_ext dotf q ts ts' F) as E. pose proof (lookup_in dotf q ts) as I.
  destruct (lookup_all dotf q ts) as [l r]. destruct (lookup_all dotf q ts') as [l' r']. cbn [fst] in *. subst l'.
  rewrite (flat_ext n dist dist' lc lc' filters k l ind dst); [destruct (flat_search _ _ _ _ _ _ _); reflexivity|]. intros x Hx. destruct (I x Hx) as [t [A B]]. exact (H t x A B).
Qed.
