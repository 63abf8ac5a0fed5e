(** Entry points of labels are spread over the points. *)
From Coq Require Import String List Arith Bool Lia Sorting.Sorted.
From Verif Require Import Base Float32 PoolModel GraphSpec SearchModel EntryModel EntrySpec BuildProofs EntryProofs.
Import ListNotations.

Definition counted (counts : list (nat * nat)) (med : list (label * nat)) : Prop :=
  forall k, match count_of counts k with Some c => c = serves med k | None => serves med k = 0 end.

Lemma draw_spread : forall pts med, pts <> [] -> forall rands cnd best bc counts (past : list nat), counted counts med ->
  ((cnd = 0 /\ bc = None /\ past = []) \/ (0 < cnd /\ bc = Some (serves med best) /\ In best past /\ forall q, In q past -> serves med best <= serves med q)) ->
  exists b counts', draw_loop pts rands cnd best bc counts = Ok (b, counts') /\ counted counts' med /\
    (past ++ rands <> [] -> let drawn := past ++ map (fun r => nth (r mod length pts) pts 0) rands in In b drawn /\ forall q, In q drawn -> serves med b <= serves med q).
Proof.
  intros pts med Hne. induction rands as [|r t IH]; intros cnd best bc counts past J H; cbn [draw_loop].
  - exists best, counts. split; [reflexivity|]. split; [exact J|]. intros Hp. cbv zeta. cbn [map]. rewrite !app_nil_r in *. destruct H as [[_ [_ ->]]|[_ [_ H]]]; [now elim Hp|exact H].
  - assert (Lp : r mod length pts < length pts) by (apply Nat.mod_upper_bound; destruct pts; [now elim Hne|discriminate]).
    rewrite (proj2 (rd_ok _ _ _ _) (nth_error_nth' pts 0 Lp)). cbn [bind]. set (cur := nth (r mod length pts) pts 0).
    assert (X : exists c1, (match count_of counts cur with None => (0, (cur, 0) :: counts) | Some c => (c, counts) end) = (serves med cur, c1) /\ counted c1 med).
    { pose proof (J cur) as Jc. destruct (count_of counts cur) as [c|] eqn:E.
      - exists counts. rewrite Jc. auto.
      - exists ((cur, 0) :: counts). rewrite Jc. split; [reflexivity|]. intro k. cbn [count_of]. destruct (Nat.eqb_spec cur k) as [<-|N]; [auto|apply J]. }
    destruct X as [c1 [-> J1]].
    set (go := match bc with None => true | Some b => serves med cur <? b end || (cnd =? 0)).
    assert (Y : exists nb, (if go then draw_loop pts t (S cnd) cur (Some (serves med cur)) c1 else draw_loop pts t (S cnd) best bc c1) = draw_loop pts t (S cnd) nb (Some (serves med nb)) c1 /\
      In nb (past ++ [cur]) /\ forall q, In q (past ++ [cur]) -> serves med nb <= serves med q).
    { unfold go. destruct H as [[-> [-> ->]]|[Hc [-> [Hb Hm]]]]; cbn [orb].
      - exists cur. split; [reflexivity|]. cbn [app]. split; [now left|]. intros q [<-|[]]. lia.
      - destruct (Nat.eqb_spec cnd 0) as [|_]; [lia|]. rewrite orb_false_r. destruct (Nat.ltb_spec (serves med cur) (serves med best)) as [L|L].
        + exists cur. split; [reflexivity|]. split; [apply in_or_app; right; now left|]. intros q Hq. apply in_app_or in Hq. destruct Hq as [Hq|[<-|[]]]; [specialize (Hm q Hq); lia|lia].
        + exists best. split; [reflexivity|]. split; [apply in_or_app; now left|]. intros q Hq. apply in_app_or in Hq. destruct Hq as [Hq|[<-|[]]]; [auto|lia]. }
    destruct Y as [nb [-> [Y1 Y2]]].
    destruct (IH (S cnd) nb (Some (serves med nb)) c1 (past ++ [cur]) J1) as [b [c' [E [J' Z]]]]; [right; split; [lia|auto]|].
    exists b, c'. split; [exact E|]. split; [exact J'|]. intros _. cbn [map]. fold cur. cbv zeta in Z |- *. rewrite <- app_assoc in Z. cbn [app] in Z. rewrite <- app_assoc in Z. cbn [app] in Z. apply Z. destruct past; discriminate.
Qed.

Lemma filtered_sorted : forall lc x l i, StronglySorted lt (filtered_points lc x i l).
Proof.
  intros lc x. induction l as [|ls l IH]; intro i; cbn [filtered_points]; [constructor|].
  destruct (_ || _); [|apply IH]. constructor; [apply IH|]. apply Forall_forall. intros y Hy. apply filtered_points_spec in Hy. destruct Hy as [? [H _]]. lia.
Qed.

Lemma step_counted : forall lc x rands st st', counted (ms_counts st) (ms_medoids st) -> label_medoid_step lc x rands st = Ok st' -> counted (ms_counts st') (ms_medoids st').
Proof.
  intros lc x rands st st' J H. unfold label_medoid_step in H. destruct (filtered_points lc x 0 (pts_to_labels lc)) as [|p pts]; [injection H as <-; exact J|].
  destruct (draw_spread (p :: pts) (ms_medoids st) ltac:(discriminate) rands 0 0 None (ms_counts st) [] J) as [b [c' [E [J' _]]]]; [left; auto|].
  rewrite E in H. cbn [bind] in H. injection H as <-. cbn [ms_counts ms_medoids]. intro k. cbn [count_of]. unfold serves. cbn [filter snd].
  pose proof (J' b) as Jb. destruct (Nat.eqb_spec b k) as [<-|N]; [|apply J']. cbn [length]. f_equal. fold (serves (ms_medoids st) b). destruct (count_of c' b); auto.
Qed.

Lemma medoids_counted : forall lc work st st', counted (ms_counts st) (ms_medoids st) -> label_medoids lc work st = Ok st' -> counted (ms_counts st') (ms_medoids st').
Proof.
  intros lc. induction work as [|[x r] w IH]; intros st st' J H; cbn [label_medoids] in H; [injection H as <-; exact J|].
  destruct (label_medoid_step lc x r st) as [s1| | | |] eqn:E; cbn [bind] in H; try discriminate. eapply IH; [|exact H]. eapply step_counted; eauto.
Qed.

Lemma label_medoids_app : forall lc w1 w2 st, label_medoids lc (w1 ++ w2) st = (do s <- label_medoids lc w1 st; label_medoids lc w2 s).
Proof.
  intros lc w1 w2. induction w1 as [|[x r] w IH]; intro st; cbn [app label_medoids]; [reflexivity|].
  destruct (label_medoid_step lc x r st); cbn [bind]; auto.
Qed.

Lemma label_medoids_spread : forall lc before x draws id0, draws <> [] -> (forall y r, In (y, r) before -> r <> []) ->
  (carries (pts_to_labels lc) id0 x \/ exists u, universal_of lc = Some u /\ carries (pts_to_labels lc) id0 u) ->
  exists st st' pts p, label_medoids lc before (mkMS [] []) = Ok st /\ label_medoids lc (before ++ [(x, draws)]) (mkMS [] []) = Ok st' /\
    StronglySorted lt pts /\ (forall id, In id pts <-> carries (pts_to_labels lc) id x \/ exists u, universal_of lc = Some u /\ carries (pts_to_labels lc) id u) /\
    ms_medoids st' = (x, p) :: ms_medoids st /\
    (exists r, In r draws /\ nth_error pts (r mod length pts) = Some p) /\
    (forall r q, In r draws -> nth_error pts (r mod length pts) = Some q -> serves (ms_medoids st) p <= serves (ms_medoids st) q).
Proof.
  intros lc before x draws id0 Hd Hb Hc.
  destruct (label_medoids_ok lc before (mkMS [] [])) as [st [E _]]; [auto|intros y id []|].
  assert (J : counted (ms_counts st) (ms_medoids st)) by (eapply medoids_counted; [|exact E]; intro k; reflexivity).
  set (pts := filtered_points lc x 0 (pts_to_labels lc)).
  assert (Hp : forall id, In id pts <-> carries (pts_to_labels lc) id x \/ exists u, universal_of lc = Some u /\ carries (pts_to_labels lc) id u).
  { intro id. unfold pts. rewrite filtered_points_spec. unfold eligible, carries. split.
    - intros [ls [_ [A [B|[u [B C]]]]]]; rewrite Nat.sub_0_r in A; [left; eauto|right; eauto].
    - intros [[ls [A B]]|[u [U [ls [A B]]]]]; exists ls; rewrite Nat.sub_0_r; (split; [lia|split; [exact A|]]); [now left|right; eauto]. }
  assert (Hne : pts <> []) by (apply Hp in Hc; intros X; rewrite X in Hc; destruct Hc).
  assert (Lp : 0 < length pts) by (destruct pts; [now elim Hne|cbn; lia]).
  destruct (draw_spread pts (ms_medoids st) Hne draws 0 0 None (ms_counts st) [] J) as [p [c' [Ed [_ Z]]]]; [left; auto|].
  specialize (Z Hd). cbv zeta in Z. cbn [app] in Z. destruct Z as [Z1 Z2].
  exists st. eexists. exists pts, p. split; [exact E|]. split.
  { rewrite label_medoids_app, E. cbn [bind label_medoids]. unfold label_medoid_step. fold pts. destruct pts as [|p0 pts0] eqn:Q; [now elim Hne|]. rewrite Ed. cbn [bind]. reflexivity. }
  split; [apply filtered_sorted|]. split; [exact Hp|]. split; [reflexivity|].
  assert (Hn : forall r, nth_error pts (r mod length pts) = Some (nth (r mod length pts) pts 0)) by (intro r; apply nth_error_nth', Nat.mod_upper_bound; lia).
  split.
  - apply in_map_iff in Z1. destruct Z1 as [r [R1 R2]]. exists r. split; [exact R2|]. rewrite Hn, R1. reflexivity.
  - intros r q Hr Hq. apply Z2. rewrite Hn in Hq. injection Hq as <-. apply in_map_iff. exists r. auto.
Qed.
