(** * Theorems: k-means (C66, C77, C78, C79).

    [cdist p y] is the computed distance of point p to a centre y, [rdist] and [pdist]
    those used for the residual and by k-means++.  [popf] is any priority queue
    ([pops]), [mbs] and [csz] any block sizes, [orders] any order of the parallel loops. *)
From Coq Require Import ZArith NArith SpecFloat List Arith Lia Bool Sorting.Permutation.
From Verif Require Import Base Float32 ClosestModel ClosestSpec PopInst PqModel PqSpec LloydModel LloydSpec LloydProofs LloydProofs2.
Import ListNotations.

(** C66.  One iteration assigns every point to its first nearest centre; the list of a
    cluster holds its points once each; the new centre is the mean of the points of its
    cluster, and zero for an empty cluster. *)
Theorem C66_lloyd_iteration : forall popf mbs csz cdist rdist n dim nc data orders centers assign0,
  pops popf -> 1 <= n -> 1 <= mbs -> 1 <= csz -> block_orders n 1 (min n mbs) orders -> rows_of n dim data -> length centers = nc ->
  usable_centers cdist n centers -> length assign0 = n ->
  exists (assign : nat -> nat) st, lloyd_iter popf mbs csz cdist rdist n dim nc data orders centers assign0 = Ok st /\
    ll_assign st = map assign (seq 0 n) /\ (forall p, p < n -> first_nearest (fun c => cdist p (nth c centers [])) nc (assign p)) /\
    length (ll_docs st) = nc /\ length (ll_centers st) = nc /\
    forall c, c < nc -> exists docs, nth_error (ll_docs st) c = Some docs /\ Permutation docs (filter (fun p => assign p =? c) (seq 0 n)) /\
      nth_error (ll_centers st) c = Some (centroid_of dim data docs).
Proof. exact lloyd_iter_nearest. Qed.
Print Assumptions C66_lloyd_iteration.

(** Five points of two dimensions and three centres, of which the last gets no point. *)
Definition ex_z (l : list Z) : list f32 := map f32_of_Z l.
Definition ex_data : list (list f32) := [ex_z [0; 0]; ex_z [10; 10]; ex_z [2; 4]; ex_z [12; 20]; ex_z [11; 30]]%Z.
Definition ex_centers : list (list f32) := [ex_z [1; 1]; ex_z [10; 15]; ex_z [100; 100]]%Z.
Definition ex_l2 (x y : list f32) : f32 := fold_left fadd (map (fun q => fmul (fsub (fst q) (snd q)) (fsub (fst q) (snd q))) (combine x y)) f32_zero.
Definition ex_cdist (p : nat) (y : list f32) : f32 := ex_l2 (nth p ex_data []) y.
Definition ex_orders (b : nat) : list (nat * nat) := rev (list_prod (seq (b * 2) (min 2 (5 - b * 2))) (seq 0 1)).

Example C66_case : block_orders 5 1 (min 5 2) ex_orders /\ rows_of 5 2 ex_data /\
  (forall p, p < 5 -> exists y, In y ex_centers /\ flt (ex_cdist p y) FLT_MAX = true) /\
  (match lloyd_iter pop_all 2 3 ex_cdist ex_l2 5 2 3 ex_data ex_orders ex_centers [0; 0; 0; 0; 0] with
   | Ok st => ll_assign st = [0; 1; 0; 1; 1] /\ ll_docs st = [[0; 2]; [1; 3; 4]; []] /\ ll_centers st = [ex_z [1; 2]; ex_z [11; 20]; ex_z [0; 0]]%Z /\ ll_res st = f32_of_Z 212
   | _ => False end).
Proof.
  split; [intros b; apply Permutation_sym, Permutation_rev|]. split; [|split; [|vm_compute; auto]].
  - split; [reflexivity|]. intros x Hx. cbn in Hx. repeat (destruct Hx as [<-|Hx]; [reflexivity|]). destruct Hx.
  - intros p Hp. exists (ex_z [1; 1]%Z). split; [now left|]. destruct p as [|[|[|[|[|p]]]]]; try lia; vm_compute; reflexivity.
Qed.

(** C66.  The residual it returns is the sum of the distances of the points to the new
    centre of their cluster. *)
Theorem C66_residual : forall popf mbs csz cdist rdist n dim nc data orders centers assign st, 1 <= csz ->
  lloyd_iter popf mbs csz cdist rdist n dim nc data orders centers assign = Ok st ->
  ll_res st = total_dist (fun p => rdist (nth p data []) (nth (nth p (ll_assign st) 0) (ll_centers st) [])) csz n.
Proof. exact lloyd_residual. Qed.
Print Assumptions C66_residual.
Example C66_residual_case :
  match lloyd_iter pop_all 2 3 ex_cdist ex_l2 5 2 3 ex_data ex_orders ex_centers [0; 0; 0; 0; 0] with
  | Ok st => ll_res st = total_dist (fun p => ex_l2 (nth p ex_data []) (nth (nth p (ll_assign st) 0) (ll_centers st) [])) 3 5 /\ flt f32_zero (ll_res st) = true
  | _ => False end.
Proof. vm_compute. auto. Qed.

(** C77.  run_lloyds runs at least one and at most max_reps iterations.  It stops after
    the first iteration that meets the stopping rule; what it leaves behind is the state
    after its last iteration. *)
Theorem C77_run_lloyds : forall popf mbs csz cdist rdist n dim nc max_reps data orders centers assign docs st,
  run_lloyds popf mbs csz cdist rdist n dim nc max_reps data orders centers assign docs = Ok st -> 1 <= max_reps ->
  exists r s, 1 <= r <= max_reps /\ s 0 = mkLl assign docs centers FLT_MAX /\ s r = st /\
    lloyd_run (fun j a b => lloyd_iter popf mbs csz cdist rdist n dim nc data (orders j) (ll_centers a) (ll_assign a) = Ok b) r s /\
    (forall j, S j < r -> ~ settled j (ll_res (s j)) (ll_res (s (S j)))) /\
    (r = max_reps \/ exists j, r = S j /\ settled j (ll_res (s j)) (ll_res (s r))).
Proof. exact run_lloyds_ok. Qed.
Print Assumptions C77_run_lloyds.

Example C77_case :
  match run_lloyds pop_all 2 3 ex_cdist ex_l2 5 2 3 10 ex_data (fun _ => ex_orders) ex_centers [0; 0; 0; 0; 0] [[]; []; []] with
  | Ok st => ll_assign st = [2; 0; 2; 1; 1] /\ nth_error (ll_centers st) 0 = Some (ex_z [10; 10]%Z) /\ nth_error (ll_centers st) 2 = Some (ex_z [1; 2]%Z)
  | _ => False end.
Proof. vm_compute. auto. Qed.

(** C78.  random_centers: centre i is the i-th point drawn, unless this point was drawn
    before; then the centre is never written. *)
Theorem C78_random_centers : forall data draw nc, (forall i, i < nc -> draw i < length data) ->
  exists out, random_centers data draw 0 nc [] (repeat None nc) = Ok out /\ length out = nc /\
    forall i, i < nc -> nth_error out i = Some (if existsb (Nat.eqb (draw i)) (map draw (seq 0 i)) then None else Some (nth (draw i) data [])).
Proof. exact random_centers_ok. Qed.
Print Assumptions C78_random_centers.

(** C78.  So with a repeated draw a centre stays uninitialised. *)
Theorem C78_all_written_refuted : exists out, random_centers ex_data (fun i => nth i [3; 1; 3] 0) 0 3 [] (repeat None 3) = Ok out /\ nth_error out 2 = Some None.
Proof. eexists. split; [vm_compute; reflexivity|]. reflexivity. Qed.
Print Assumptions C78_all_written_refuted.

(** C79.  When k-means++ ends, it has chosen as many points as centres were asked for and
    the centres are their vectors; the points are different unless the sum of the
    distances became zero. *)
Theorem C79_kmeans_pp : forall fuel data pdist init darts nc picked flag centers, init < length data -> 1 <= nc ->
  kmeans_pp fuel data pdist init darts nc = Ok (Some (picked, flag, centers)) ->
  length picked = nc /\ (forall p, In p picked -> p < length data) /\ (flag = false -> NoDup picked) /\ centers = map (fun p => Some (nth p data [])) picked.
Proof. exact kmeans_pp_result. Qed.
Print Assumptions C79_kmeans_pp.

(** C79.  It ends after nc - 1 rounds if distances are not negative and zero from a point
    to itself, and the darts fall below the sum of the distances. *)
Theorem C79_kmeans_pp_ends : forall data pdist init darts nc, (forall i j, i < length data -> j < length data -> fle f32_zero (pdist i j) = true) ->
  (forall i, i < length data -> feq (pdist i i) f32_zero = true) -> darts_ok (length data) pdist darts -> init < length data -> 1 <= nc ->
  exists picked flag centers, kmeans_pp (nc - 1) data pdist init darts nc = Ok (Some (picked, flag, centers)).
Proof. exact kmeans_pp_ends. Qed.
Print Assumptions C79_kmeans_pp_ends.

(** Two points, darts at one half. *)
Definition ex_two : list (list f32) := [ex_z [0; 0]; ex_z [3; 4]]%Z.
Definition ex_pd (i j : nat) : f32 := if i =? j then f32_zero else f32_of_Z 25.
Definition ex_half : spec_float := S754_finite false 4503599627370496 (-53).

Lemma ex_darts_ok : darts_ok 2 ex_pd (fun _ => ex_half).
Proof.
  intros r l Hl Hd. destruct l as [|a [|b [|c l]]]; try discriminate.
  destruct (Hd a ltac:(now left)) as [i [j [_ [_ Ea]]]]. destruct (Hd b ltac:(right; now left)) as [i' [j' [_ [_ Eb]]]]. subst a b. unfold ex_pd.
  destruct (i =? j), (i' =? j'); vm_compute; auto.
Qed.

Example C79_case : darts_ok 2 ex_pd (fun _ => ex_half) /\
  kmeans_pp 2 ex_two ex_pd 0 (fun _ => ex_half) 2 = Ok (Some ([0; 1], false, [Some (ex_z [0; 0]%Z); Some (ex_z [3; 4]%Z)])) /\
  kmeans_pp 2 ex_two ex_pd 0 (fun _ => ex_half) 3 = Ok (Some ([0; 1; 1], true, [Some (ex_z [0; 0]%Z); Some (ex_z [3; 4]%Z); Some (ex_z [3; 4]%Z)])).
Proof. split; [exact ex_darts_ok|]. split; vm_compute; reflexivity. Qed.
