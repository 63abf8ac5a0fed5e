(** The ground truth tool: the four cases. *)
From Coq Require Import NArith ZArith Reals Lra Lia List Arith Bool Sorting.Sorted Permutation Floats.SpecFloat.
From Flocq Require Import Core.
From Verif Require Import Base Float32 DivFacts FloatBits DistSpec DistModel FusedModel RealSpec FloatReal L2ErrorProofs RealDistProofs ConvertModel NormModel NormSpec NormProofs NormProofs2 PqModel ClosestModel TopKSpec GtModel GtSpec HeapSpec GtProofs GtProofs2 GtProofs3 MeanProofs3
  BinSpec TruthModel TruthSpec BlasModel BlasSpec BlasProofs BlasProofs2 BlasProofs3 BlasProofs4 BlasProofs5 BlasProofs6 BlasProofs7 GtToolModel GtToolSpec GtToolProofs GtToolProofs2 GtToolProofs3.
Import ListNotations.
Local Open Scope R_scope.

Lemma tool_l2 : forall W pushf takef sortf bs ps kt gb1 gb2 gq1 gq2 dim k rows qrows orders, heap_ok pushf takef -> sorts_pairs sortf -> length gb1 = 4%nat -> length gb2 = 4%nat -> length gq1 = 4%nat -> length gq2 = 4%nat -> (1 <= bs)%nat -> (1 <= ps)%nat -> (1 <= k)%nat -> (k <= last_part (length rows) ps)%nat -> (forall p, batch_orders (length qrows) bs (orders p)) ->
  tool_input kt dim ps rows qrows -> ways_ok dim W -> (Z.of_nat dim <= 2 ^ 20)%Z -> (forall r, In r rows \/ In r qrows -> elem_sq kt r <= powerRZ 2 100) ->
  exists b ids dists, gt_tool W false pushf takef sortf bs ps kt gb1 gb2 gq1 gq2 (vector_file kt dim rows) (vector_file kt dim qrows) k orders = Ok b /\
    (forall g, load_truthset g (Some b) = Ok (N.of_nat (length qrows), N.of_nat k, ids, Some dists)) /\
    forall i, (i < length qrows)%nat -> nearest_within (length rows) k (fun p => elem_l2 kt (nth p rows []) (nth i qrows []))
      (fun p => (INR dim + 8) * powerRZ 2 (-22) * (elem_sq kt (nth p rows []) + elem_sq kt (nth i qrows [])) + (INR dim + 4) * powerRZ 2 (-147)) (truth_row k i ids dists).
Proof.
  intros W pushf takef sortf bs ps kt gb1 gb2 gq1 gq2 dim k rows qrows orders Hh Hs G1 G2 G3 G4 Hbs Hps Hk Hkl Ho [Nr [Lr [Nq [Lq [Qp [Ld HR]]]]]] HW D20 B100.
  destruct (tool_truth W false pushf takef sortf bs ps kt gb1 gb2 gq1 gq2 dim k rows qrows orders (fun i p => elem_l2 kt (nth p rows []) (nth i qrows []))
    (fun i p => (INR dim + 8) * powerRZ 2 (-22) * (elem_sq kt (nth p rows []) + elem_sq kt (nth i qrows [])) + (INR dim + 4) * powerRZ 2 (-147))) as [b [ids [dists [Hb [Hl Hi]]]]]; auto.
  { intros r Hr. destruct (HR r Hr) as [A B]. split; [exact A|]. intros x Hx. rewrite Forall_forall in B. apply elem_width, B, Hx. }
  { intros p q j Hp Hq Hj. set (prows := part_rows ps p rows). assert (Lp : length prows = min ps (length rows - p * ps)) by apply part_length. rewrite <- Lp.
    assert (Ip : forall r, In r prows -> In r rows) by (intros r; apply part_in). assert (Np : nth j prows [] = nth (p * ps + j) rows []) by (apply part_nth, Hj).
    assert (Lj : (j < length prows)%nat) by lia. assert (In1 : In (nth (p * ps + j) rows []) rows) by (apply nth_In; lia). assert (In2 : In (nth q qrows []) qrows) by (apply nth_In, Hq).
    destruct (HR _ (or_introl In1)) as [L1 F1]. destruct (HR _ (or_intror In2)) as [L2 F2].
    assert (Fr : forall r, In r (fvecs kt prows) \/ In r (fvecs kt qrows) -> exists e, (In e rows \/ In e qrows) /\ r = map (kval kt) e).
    { intros r [Hr|Hr]; apply fvec_in in Hr; destruct Hr as [e [He ->]]; exists e; auto. }
    assert (Gr : forall r, In r (fvecs kt prows) \/ In r (fvecs kt qrows) -> length r = dim /\ good r).
    { intros r Hr. destruct (Fr r Hr) as [e [He ->]]. destruct (HR e He) as [A B]. split; [rewrite map_length; exact A|]. apply vec_good, B. }
    rewrite part_l2 by exact Lj. rewrite <- (fvec_length kt prows), <- (fvec_length kt qrows) in *.
    destruct (gt_float (at_part W p) bs (length (fvecs kt prows)) dim (fvecs kt prows) (fvecs kt qrows)) with (q := q) (p := j) as [v [Hv [Nv Dv]]]; auto; [lia|now apply at_part_ok| |].
    { intros r Hr. destruct (Gr r Hr) as [A B]. split; [exact A|]. split; [exact B|]. destruct (Fr r Hr) as [e [He ->]]. destruct (HR e He) as [_ C]. rewrite vec_sq by exact C. apply B100, He. }
    exists v. split; [exact Hv|]. split; [exact Nv|]. rewrite !fvec_nth, Np, !vec_sq, vec_l2 in Dv by auto. exact Dv. }
  exists b, ids, dists. split; [exact Hb|]. split; [exact Hl|]. intros i Hq. destruct (Hi i Hq) as [row [Hn [_ ->]]]. rewrite written_id. exact Hn.
Qed.

Lemma tool_l2_bytes : forall W pushf takef sortf bs ps kt gb1 gb2 gq1 gq2 dim k rows qrows orders, heap_ok pushf takef -> sorts_pairs sortf -> length gb1 = 4%nat -> length gb2 = 4%nat -> length gq1 = 4%nat -> length gq2 = 4%nat -> (1 <= bs)%nat -> (1 <= ps)%nat -> (1 <= k)%nat -> (k <= last_part (length rows) ps)%nat -> (forall p, batch_orders (length qrows) bs (orders p)) ->
  tool_input kt dim ps rows qrows -> ways_ok dim W -> kt <> KFloat -> (dim <= 258)%nat ->
  exists b ids dists, gt_tool W false pushf takef sortf bs ps kt gb1 gb2 gq1 gq2 (vector_file kt dim rows) (vector_file kt dim qrows) k orders = Ok b /\
    (forall g, load_truthset g (Some b) = Ok (N.of_nat (length qrows), N.of_nat k, ids, Some dists)) /\
    forall i, (i < length qrows)%nat -> nearest_within (length rows) k (fun p => elem_l2 kt (nth p rows []) (nth i qrows [])) (fun _ => 0) (truth_row k i ids dists).
Proof.
  intros W pushf takef sortf bs ps kt gb1 gb2 gq1 gq2 dim k rows qrows orders Hh Hs G1 G2 G3 G4 Hbs Hps Hk Hkl Ho [Nr [Lr [Nq [Lq [Qp [Ld HR]]]]]] HW Kt D258.
  destruct (tool_truth W false pushf takef sortf bs ps kt gb1 gb2 gq1 gq2 dim k rows qrows orders (fun i p => elem_l2 kt (nth p rows []) (nth i qrows []))
    (fun _ _ => 0)) as [b [ids [dists [Hb [Hl Hi]]]]]; auto.
  { intros r Hr. destruct (HR r Hr) as [A B]. split; [exact A|]. intros x Hx. rewrite Forall_forall in B. apply elem_width, B, Hx. }
  { intros p q j Hp Hq Hj. set (prows := part_rows ps p rows). assert (Lp : length prows = min ps (length rows - p * ps)) by apply part_length. rewrite <- Lp.
    assert (Ip : forall r, In r prows -> In r rows) by (intros r; apply part_in). assert (Np : nth j prows [] = nth (p * ps + j) rows []) by (apply part_nth, Hj).
    assert (Lj : (j < length prows)%nat) by lia. assert (In1 : In (nth (p * ps + j) rows []) rows) by (apply nth_In; lia). assert (In2 : In (nth q qrows []) qrows) by (apply nth_In, Hq).
    destruct (HR _ (or_introl In1)) as [L1 F1]. destruct (HR _ (or_intror In2)) as [L2 F2].
    assert (Fr : forall r, In r (fvecs kt prows) \/ In r (fvecs kt qrows) -> exists e, (In e rows \/ In e qrows) /\ r = map (kval kt) e).
    { intros r [Hr|Hr]; apply fvec_in in Hr; destruct Hr as [e [He ->]]; exists e; auto. }
    assert (Gr : forall r, In r (fvecs kt prows) \/ In r (fvecs kt qrows) -> length r = dim /\ good r).
    { intros r Hr. destruct (Fr r Hr) as [e [He ->]]. destruct (HR e He) as [A B]. split; [rewrite map_length; exact A|]. apply vec_good, B. }
    rewrite part_l2 by exact Lj. rewrite <- (fvec_length kt prows), <- (fvec_length kt qrows) in *.
    assert (FI : forall l, (forall r, In r l -> In r rows \/ In r qrows) -> Forall2 holds_ints (fvecs kt l) (map (map (zelem kt)) l)).
    { intros l H. induction l as [|r l IH]; [constructor|]. cbn [fvecs map]. constructor; [apply vec_ints; auto; apply HR, H; left; auto|apply IH; intros; apply H; right; auto]. }
    assert (ZR : forall z, In z (map (map (zelem kt)) prows) \/ In z (map (map (zelem kt)) qrows) -> exists e, (In e rows \/ In e qrows) /\ z = map (zelem kt) e).
    { intros z [Hz|Hz]; apply in_map_iff in Hz; destruct Hz as [e [<- He]]; exists e; auto. }
    assert (ZB : forall z, In z (map (map (zelem kt)) prows) \/ In z (map (map (zelem kt)) qrows) -> length z = dim /\ forall x, In x z -> (Z.abs x <= 255 /\ (match kt with KInt8 => -128 | _ => 0 end) <= x <= (match kt with KInt8 => -128 | _ => 0 end) + 255)%Z).
    { intros z Hz. destruct (ZR z Hz) as [e [He ->]]. destruct (HR e He) as [A B]. split; [rewrite map_length; exact A|]. intros x Hx. apply in_map_iff in Hx. destruct Hx as [y [<- Hy]]. rewrite Forall_forall in B. destruct (zelem_ok kt y Kt (B y Hy)) as [_ [_ C]]. destruct kt; lia. }
    destruct (gt_exact (at_part W p) bs (length (fvecs kt prows)) dim (fvecs kt prows) (fvecs kt qrows) (map (map (zelem kt)) prows) (map (map (zelem kt)) qrows)) with (q := q) (p := j) as [v [Hv [Nv Dv]]]; auto; [lia|now apply at_part_ok| | |].
    { intros z Hz. destruct (ZB z Hz) as [A B]. eapply Z.le_trans; [apply (int_sq_le z 255); intros x Hx; apply (B x Hx)|]. lia. }
    { intros z y Hz Hy. destruct (ZB z (or_introl Hz)) as [A B]. destruct (ZB y (or_intror Hy)) as [A' B']. eapply Z.le_trans; [apply (sq_dist_le2 z y (match kt with KInt8 => -128 | _ => 0 end) ((match kt with KInt8 => -128 | _ => 0 end) + 255)); intros x [Hx|Hx]; [apply (B x Hx)|apply (B' x Hx)]|]. destruct kt; lia. }
    exists v. split; [exact Hv|]. split; [exact Nv|]. change (@nil Z) with (map (zelem kt) []) in Dv. rewrite !map_nth, Np, <- vec_zl2 in Dv by auto. exact Dv. }
  exists b, ids, dists. split; [exact Hb|]. split; [exact Hl|]. intros i Hq. destruct (Hi i Hq) as [row [Hn [_ ->]]]. rewrite written_id. exact Hn.
Qed.

Lemma tool_mips : forall W pushf takef sortf bs ps kt gb1 gb2 gq1 gq2 dim k rows qrows orders, heap_ok pushf takef -> sorts_pairs sortf -> length gb1 = 4%nat -> length gb2 = 4%nat -> length gq1 = 4%nat -> length gq2 = 4%nat -> (1 <= bs)%nat -> (1 <= ps)%nat -> (1 <= k)%nat -> (k <= last_part (length rows) ps)%nat -> (forall p, batch_orders (length qrows) bs (orders p)) ->
  tool_input kt dim ps rows qrows -> ways_ok dim W -> (Z.of_nat dim <= 2 ^ 20)%Z -> (forall r, In r rows \/ In r qrows -> elem_sq kt r <= powerRZ 2 100) ->
  exists b ids dists, gt_tool W true pushf takef sortf bs ps kt gb1 gb2 gq1 gq2 (vector_file kt dim rows) (vector_file kt dim qrows) k orders = Ok b /\
    (forall g, load_truthset g (Some b) = Ok (N.of_nat (length qrows), N.of_nat k, ids, Some dists)) /\
    forall i, (i < length qrows)%nat -> largest_within (length rows) k (fun p => elem_dot kt (nth p rows []) (nth i qrows []))
      (fun p => (INR dim + 4) * powerRZ 2 (-24) * (elem_sq kt (nth p rows []) + elem_sq kt (nth i qrows [])) + (INR dim + 4) * powerRZ 2 (-148)) (truth_row k i ids dists).
Proof.
  intros W pushf takef sortf bs ps kt gb1 gb2 gq1 gq2 dim k rows qrows orders Hh Hs G1 G2 G3 G4 Hbs Hps Hk Hkl Ho [Nr [Lr [Nq [Lq [Qp [Ld HR]]]]]] HW D20 B100.
  destruct (tool_truth W true pushf takef sortf bs ps kt gb1 gb2 gq1 gq2 dim k rows qrows orders (fun i p => - elem_dot kt (nth p rows []) (nth i qrows []))
    (fun i p => (INR dim + 4) * powerRZ 2 (-24) * (elem_sq kt (nth p rows []) + elem_sq kt (nth i qrows [])) + (INR dim + 4) * powerRZ 2 (-148))) as [b [ids [dists [Hb [Hl Hi]]]]]; auto.
  { intros r Hr. destruct (HR r Hr) as [A B]. split; [exact A|]. intros x Hx. rewrite Forall_forall in B. apply elem_width, B, Hx. }
  { intros p q j Hp Hq Hj. set (prows := part_rows ps p rows). assert (Lp : length prows = min ps (length rows - p * ps)) by apply part_length. rewrite <- Lp.
    assert (Ip : forall r, In r prows -> In r rows) by (intros r; apply part_in). assert (Np : nth j prows [] = nth (p * ps + j) rows []) by (apply part_nth, Hj).
    assert (Lj : (j < length prows)%nat) by lia. assert (In1 : In (nth (p * ps + j) rows []) rows) by (apply nth_In; lia). assert (In2 : In (nth q qrows []) qrows) by (apply nth_In, Hq).
    destruct (HR _ (or_introl In1)) as [L1 F1]. destruct (HR _ (or_intror In2)) as [L2 F2].
    assert (Fr : forall r, In r (fvecs kt prows) \/ In r (fvecs kt qrows) -> exists e, (In e rows \/ In e qrows) /\ r = map (kval kt) e).
    { intros r [Hr|Hr]; apply fvec_in in Hr; destruct Hr as [e [He ->]]; exists e; auto. }
    assert (Gr : forall r, In r (fvecs kt prows) \/ In r (fvecs kt qrows) -> length r = dim /\ good r).
    { intros r Hr. destruct (Fr r Hr) as [e [He ->]]. destruct (HR e He) as [A B]. split; [rewrite map_length; exact A|]. apply vec_good, B. }
    pose proof B100 as B100'. rewrite <- (fvec_length kt prows), <- (fvec_length kt qrows) in *.
    destruct (part_mip W p bs dim (fvecs kt prows) (fvecs kt qrows) (fun _ _ => True) (fun rp rq v => num v /\ Rabs (real v - - ip rp rq) <= (INR dim + 4) * powerRZ 2 (-24) * (sq rp + sq rq) + (INR dim + 4) * powerRZ 2 (-148))) with (q := q) (j := j) (rq := nth q (fvecs kt qrows) []) (rp := nth j (fvecs kt prows) []) as [v [Hv [Nv Dv]]]; auto.
    { intros r Hr. apply Gr; auto. } { intros r Hr. apply Gr; auto. }
    { intros t r fac Hr P F. destruct (Gr r Hr) as [A B]. destruct (Fr r Hr) as [e [He Er]]. destruct (HR e He) as [_ C]. pose proof (B100' e He) as Q. rewrite <- (vec_sq kt e C), <- Er, sq_sum, <- pw in Q. rewrite <- A in P, F.
      destruct (sdot_ok t r fac P B) as [v [Hv _]]; [rewrite A; unfold lim; lia|exact Q|exact F|]. exists v. auto. }
    { intros w p0 q0 fa fb Hp0 Hq0 Hw Fa Fb. destruct (Gr p0 (or_introl Hp0)) as [A B]. destruct (Gr q0 (or_intror Hq0)) as [A' B']. rewrite <- A in Hw, Fa, Fb |- *. apply mip_num; auto; [now rewrite A'|unfold lim; lia| |]; rewrite <- sq_sum, pw.
      - destruct (Fr p0 (or_introl Hp0)) as [e [He ->]]. rewrite vec_sq by (apply HR, He). apply B100, He.
      - destruct (Fr q0 (or_intror Hq0)) as [e [He ->]]. rewrite vec_sq by (apply HR, He). apply B100, He. }
    { apply nth_error_nth'. exact Hq. } { apply nth_error_nth'. exact Lj. }
    exists v. split; [exact Hv|]. split; [exact Nv|]. rewrite !fvec_nth, Np, ip_exact, <- !sq_sum, !vec_sq, vec_dot in Dv by (auto; rewrite !map_length; congruence). exact Dv. }
  exists b, ids, dists. split; [exact Hb|]. split; [exact Hl|]. intros i Hq. destruct (Hi i Hq) as [row [Hn [_ ->]]]. apply largest_of, Hn.
Qed.

Lemma tool_mips_bytes : forall W pushf takef sortf bs ps kt gb1 gb2 gq1 gq2 dim k rows qrows orders, heap_ok pushf takef -> sorts_pairs sortf -> length gb1 = 4%nat -> length gb2 = 4%nat -> length gq1 = 4%nat -> length gq2 = 4%nat -> (1 <= bs)%nat -> (1 <= ps)%nat -> (1 <= k)%nat -> (k <= last_part (length rows) ps)%nat -> (forall p, batch_orders (length qrows) bs (orders p)) ->
  tool_input kt dim ps rows qrows -> ways_ok dim W -> kt <> KFloat -> (dim <= 258)%nat ->
  exists b ids dists, gt_tool W true pushf takef sortf bs ps kt gb1 gb2 gq1 gq2 (vector_file kt dim rows) (vector_file kt dim qrows) k orders = Ok b /\
    (forall g, load_truthset g (Some b) = Ok (N.of_nat (length qrows), N.of_nat k, ids, Some dists)) /\
    forall i, (i < length qrows)%nat -> largest_within (length rows) k (fun p => elem_dot kt (nth p rows []) (nth i qrows [])) (fun _ => 0) (truth_row k i ids dists).
Proof.
  intros W pushf takef sortf bs ps kt gb1 gb2 gq1 gq2 dim k rows qrows orders Hh Hs G1 G2 G3 G4 Hbs Hps Hk Hkl Ho [Nr [Lr [Nq [Lq [Qp [Ld HR]]]]]] HW Kt D258.
  destruct (tool_truth W true pushf takef sortf bs ps kt gb1 gb2 gq1 gq2 dim k rows qrows orders (fun i p => - elem_dot kt (nth p rows []) (nth i qrows []))
    (fun _ _ => 0)) as [b [ids [dists [Hb [Hl Hi]]]]]; auto.
  { intros r Hr. destruct (HR r Hr) as [A B]. split; [exact A|]. intros x Hx. rewrite Forall_forall in B. apply elem_width, B, Hx. }
  { intros p q j Hp Hq Hj. set (prows := part_rows ps p rows). assert (Lp : length prows = min ps (length rows - p * ps)) by apply part_length. rewrite <- Lp.
    assert (Ip : forall r, In r prows -> In r rows) by (intros r; apply part_in). assert (Np : nth j prows [] = nth (p * ps + j) rows []) by (apply part_nth, Hj).
    assert (Lj : (j < length prows)%nat) by lia. assert (In1 : In (nth (p * ps + j) rows []) rows) by (apply nth_In; lia). assert (In2 : In (nth q qrows []) qrows) by (apply nth_In, Hq).
    destruct (HR _ (or_introl In1)) as [L1 F1]. destruct (HR _ (or_intror In2)) as [L2 F2].
    assert (Fr : forall r, In r (fvecs kt prows) \/ In r (fvecs kt qrows) -> exists e, (In e rows \/ In e qrows) /\ r = map (kval kt) e).
    { intros r [Hr|Hr]; apply fvec_in in Hr; destruct Hr as [e [He ->]]; exists e; auto. }
    assert (Gr : forall r, In r (fvecs kt prows) \/ In r (fvecs kt qrows) -> length r = dim /\ good r).
    { intros r Hr. destruct (Fr r Hr) as [e [He ->]]. destruct (HR e He) as [A B]. split; [rewrite map_length; exact A|]. apply vec_good, B. }
    rewrite <- (fvec_length kt prows), <- (fvec_length kt qrows) in *.
    assert (Sq : forall e, In e rows \/ In e qrows -> (zsq (map (zelem kt) e) <= 2 ^ 24)%Z).
    { intros e He. destruct (HR e He) as [A B]. rewrite zsq_int. eapply Z.le_trans; [apply (int_sq_le _ 255)|rewrite map_length; lia]. intros x Hx. apply in_map_iff in Hx. destruct Hx as [y [<- Hy]]. rewrite Forall_forall in B. destruct (zelem_ok kt y Kt (B y Hy)) as [_ [_ C]]. destruct kt; lia. }
    assert (Ab : forall e l, In e rows \/ In e qrows -> (Z.abs (zat (map (zelem kt) e) l) <= 2 ^ 24)%Z).
    { intros e l He. destruct (HR e He) as [_ B]. unfold zat. destruct (nth_in_or_default l (map (zelem kt) e) 0%Z) as [Hx| ->]; [|lia]. apply in_map_iff in Hx. destruct Hx as [y [<- Hy]]. rewrite Forall_forall in B. destruct (zelem_ok kt y Kt (B y Hy)) as [_ [_ C]]. destruct kt; lia. }
    destruct (part_mip W p bs dim (fvecs kt prows) (fvecs kt qrows) (fun _ _ => True) (fun rp rq v => forall ep eq0, rp = map (kval kt) ep -> rq = map (kval kt) eq0 -> (In ep rows \/ In ep qrows) -> (In eq0 rows \/ In eq0 qrows) -> num v /\ real v = IZR (- zip (map (zelem kt) ep) (map (zelem kt) eq0)))) with (q := q) (j := j) (rq := nth q (fvecs kt qrows) []) (rp := nth j (fvecs kt prows) []) as [v [Hv Dv]]; auto.
    { intros r Hr. apply Gr; auto. } { intros r Hr. apply Gr; auto. }
    { intros t r fac Hr P F. destruct (Fr r Hr) as [e [He ->]]. destruct (HR e He) as [A C]. assert (A' : length (map (kval kt) e) = dim) by (rewrite map_length; exact A). rewrite <- A' in P, F.
      destruct (norm_exact t _ (map (zelem kt) e) fac P) as [v [Hv _]]; [apply vec_good, C|apply vec_ints; auto|apply Sq, He|exact F|]. exists v. auto. }
    { intros w p0 q0 fa fb Hp0 Hq0 Hw Fa Fb. destruct (Fr p0 (or_introl Hp0)) as [ep [Hep ->]]. destruct (Fr q0 (or_intror Hq0)) as [eq0 [Heq ->]].
      destruct (HR ep Hep) as [A B]. destruct (HR eq0 Heq) as [A' B'].
      assert (Hd : forall e, length e = dim -> length (map (kval kt) e) = dim) by (intros; rewrite map_length; auto). assert (Hz : forall e, length e = dim -> length (map (zelem kt) e) = dim) by (intros; rewrite map_length; auto).
      destruct (mip_exact w dim fa fb (at_ (map (kval kt) ep)) (at_ (map (kval kt) eq0)) (zat (map (zelem kt) ep)) (zat (map (zelem kt) eq0)) Hw) as [r [Hr [Nrr Rr]]].
      - intros l Hl. split; [apply Fa, Hl|]. split; [apply Fb, Hl|]. split; [apply num_at; [apply vec_good, B|rewrite Hd; auto]|]. split; [apply num_at; [apply vec_good, B'|rewrite Hd; auto]|].
        split; [apply zat_real; [apply vec_ints; auto|rewrite Hd; auto]|]. split; [apply zat_real; [apply vec_ints; auto|rewrite Hd; auto]|apply Ab, Hep].
      - pose proof (zip_abs (map (zelem kt) ep) (map (zelem kt) eq0)) as Q. rewrite !Hz in Q by auto. specialize (Q eq_refl). pose proof (Sq ep Hep). pose proof (Sq eq0 Heq). lia.
      - exists r. split; [exact Hr|]. intros ep' eq0' E1 E2 Hep' Heq'. split; [exact Nrr|]. rewrite Rr. f_equal. f_equal.
        assert (U : forall e e', (In e rows \/ In e qrows) -> (In e' rows \/ In e' qrows) -> map (kval kt) e = map (kval kt) e' -> map (zelem kt) e = map (zelem kt) e').
        { intros e e' He He' Q. pose proof (vec_ints kt e Kt (proj2 (HR e He))) as U1. pose proof (vec_ints kt e' Kt (proj2 (HR e' He'))) as U2. rewrite <- Q in U2. clear - U1 U2. revert U2. generalize (map (zelem kt) e'). induction U1 as [|x k0 r z Hx A IH]; intros z' B; inversion B; subst; [reflexivity|]. f_equal; [|auto]. apply eq_IZR. destruct x; try contradiction; congruence. }
        rewrite <- (U ep ep' Hep Hep' E1), <- (U eq0 eq0' Heq Heq' E2). unfold zip. rewrite (Hz ep A). reflexivity. }
    { apply nth_error_nth'. exact Hq. } { apply nth_error_nth'. exact Lj. }
    rewrite !fvec_nth, Np in Dv. destruct (Dv _ _ eq_refl eq_refl (or_introl In1) (or_intror In2)) as [Nv Rv]. exists v. split; [exact Hv|]. split; [exact Nv|]. rewrite Rv, opp_IZR, <- vec_zdot by (auto; congruence). rewrite Rminus_diag_eq by reflexivity. rewrite Rabs_R0. lra. }
  exists b, ids, dists. split; [exact Hb|]. split; [exact Hl|]. intros i Hq. destruct (Hi i Hq) as [row [Hn [_ ->]]]. apply largest_of, Hn.
Qed.

