(** * C89: a save that is interrupted. *)
From Coq Require Import NArith ZArith String List Bool Arith Lia.
From Verif Require Import Base Bytes GraphFileSpec GraphFileProofs IndexFileModel IndexFileSpec LshModel LshProofs ToolModel ToolSpec
  CrashModel CrashSpec CrashProofs CrashProofs2 CrashProofs3 PropIndexFile.
Import ListNotations.
Local Open Scope string_scope.

(** C89.  The operations are those the save functions do, one after the other. *)
Theorem C89_operations : forall w name d,
  (forall x, save_rng w name x d = (do ws <- rng_steps w name x; Ok (run_steps ws d))) /\
  (forall x, save_vamana w name x d = (do ws <- vamana_steps w name x; Ok (run_steps ws d))) /\
  (forall xs, save_hnsw w name 0 xs d = (do ws <- hnsw_steps w name 0 xs; Ok (run_steps ws d))) /\
  (forall x, save_ivf w name x d = (do ws <- ivf_steps w name x; Ok (run_steps ws d))) /\
  (forall x, save_lsh w name x d = (do ws <- lsh_steps w name x; Ok (run_steps ws d))).
Proof. exact all_steps. Qed.
Print Assumptions C89_operations.

(** C89.  Wherever a RelativeNG save under a new name stops: if loading works without an
    error message, all vectors, tags and labels, the maximum degree and the start node
    are those of the index, and so are the neighbours, except that ids at the end of the
    last point's list may read as zero or lack high bytes.  With the message, the lists
    of some points are missing. *)
Theorem C89_rng_interrupted : forall w g name x d ws d' dim adim st0 x' f, garbage_ok g -> gann_ok w x -> (1 <= a_n (g_ann x))%N -> d name = None ->
  rng_steps w name x = Ok ws -> interrupted ws d d' -> load_rng w g name (new_gann dim adim st0) d' = Ok (x', f) ->
  same_ann (g_ann x) (g_ann x') /\
  (f = true -> g_max x' = g_max x /\ g_start x' = g_start x /\ cut_tail (g_lists x) (g_lists x')) /\
  (f = false -> (length (g_lists x') < length (g_lists x))%nat).
Proof. exact rng_interrupted. Qed.
Print Assumptions C89_rng_interrupted.

Definition ex_cut : gann := mkGA (ex_ann false) 2 0 [[1]; [0; 1]]%N [].
Definition ex_dir : fs := fun _ => None.
(** The last 3 bytes of the graph are missing: the second neighbour is read as it is
    because the missing bytes are zero; with the last 4 missing it has become 0. *)
Definition ex_stop (k : nat) : option (list (list N) * bool) :=
  match save_rng 1 "ix" ex_cut ex_dir with
  | Ok d => match d "ix" with
            | Some b => match load_rng 1 ex_g "ix" (new_gann 0 0 9) (fs_set d "ix" (Some (firstn k (repeat 0%N 8 ++ skipn 8 b)))) with
                        | Ok (x, f) => Some (g_lists x, f)
                        | _ => None
                        end
            | None => None
            end
  | _ => None
  end.
Example C89_rng_interrupted_applies : gann_ok 1 ex_cut /\
  ex_stop 36 = Some ([[1]; [0; 1]], true)%N /\ ex_stop 33 = Some ([[1]; [0; 1]], true)%N /\ ex_stop 32 = Some ([[1]; [0; 0]], true)%N /\
  ex_stop 27 = Some ([[1]], false)%N /\ ex_stop 0 = Some ([], false).
Proof.
  split; [|vm_compute; auto]. split; [apply ex_ann_ok|]. split; [reflexivity|]. split; [|split; reflexivity].
  intros l Hl. cbn in Hl. destruct Hl as [<-|[<-|[]]]; (split; [reflexivity|]); intros x Hx; cbn in Hx; intuition (subst; reflexivity).
Qed.

(** C89.  Such a graph has lists of the same lengths, and every id in it is still the id
    of a point. *)
Theorem C89_cut_graph_safe : forall n lists lists', cut_tail lists lists' -> (forall l id, In l lists -> In id l -> (id < n)%N) -> (n < 2 ^ 32)%N ->
  map (@length N) lists' = map (@length N) lists /\ (forall l id, In l lists' -> In id l -> (id < n)%N).
Proof. exact cut_tail_safe. Qed.
Print Assumptions C89_cut_graph_safe.
Example C89_cut_graph_safe_applies : cut_tail [[1]; [0; 1]]%N [[1]; [0; 0]]%N.
Proof. exists [[1]]%N, [0; 1]%N, 4. split; reflexivity. Qed.

(** C89.  The same for Vamana, whose per-label entry points are complete as well. *)
Theorem C89_vamana_interrupted : forall w g name x d ws d' dim adim st0 x' f, garbage_ok g -> gann_ok w x -> (1 <= a_n (g_ann x))%N -> d name = None ->
  (if a_filtered (g_ann x) then medoids_ok (g_medoids x) /\ (g_medoids x = [] -> d (name ++ "_labels_to_medoids.txt") = None)
   else g_medoids x = [] /\ d (name ++ "_labels_to_medoids.txt") = None) ->
  vamana_steps w name x = Ok ws -> interrupted ws d d' -> load_vamana w g name (new_gann dim adim st0) d' = Ok (x', f) ->
  same_ann (g_ann x) (g_ann x') /\ g_medoids x' = g_medoids x /\
  (f = true -> g_max x' = g_max x /\ g_start x' = g_start x /\ cut_tail (g_lists x) (g_lists x')) /\
  (f = false -> (length (g_lists x') < length (g_lists x))%nat).
Proof. exact vamana_interrupted. Qed.
Print Assumptions C89_vamana_interrupted.
Example C89_vamana_interrupted_applies : garbage_ok ex_g /\ gann_ok 1 (ex_gann true) /\ medoids_ok (g_medoids (ex_gann true)) /\
  (exists ws, vamana_steps 1 "ix" (ex_gann true) = Ok ws /\ map target ws =
     ["ix_data.bin"; "ix_tags.bin"; "ix_labels.txt"; "ix_universal_label.txt"; "ix_labels_to_medoids.txt"; "ix"]).
Proof. split; [exact ex_g_ok|]. split; [apply ex_gann_ok|]. split; [exact ex_medoids_ok|]. eexists. split; vm_compute; reflexivity. Qed.

(** C89.  HNSW: every level but the last one written is complete. *)
Theorem C89_hnsw_interrupted : forall w g name levels d ws d' dim adim st0 rs, garbage_ok g ->
  (forall x, In x levels -> gann_ok w x /\ (1 <= a_n (g_ann x))%N) ->
  (forall i, (i < length levels)%nat -> d (level_name name (N.of_nat i)) = None) ->
  hnsw_steps w name 0 levels = Ok ws -> interrupted ws d d' ->
  load_hnsw w g name 0 (fresh_levels dim adim st0 levels) d' = Ok rs ->
  length rs = length levels /\
  forall i x, nth_error levels i = Some x -> exists x' f, nth_error rs i = Some (x', f) /\
    same_ann (g_ann x) (g_ann x') /\
    ((S i < length levels)%nat -> f = true /\ g_max x' = g_max x /\ g_start x' = g_start x /\ g_lists x' = g_lists x) /\
    (f = true -> g_max x' = g_max x /\ g_start x' = g_start x /\ cut_tail (g_lists x) (g_lists x')) /\
    (f = false -> (length (g_lists x') < length (g_lists x))%nat).
Proof. intros w g name levels. exact (hnsw_interrupted w g name levels 0). Qed.
Print Assumptions C89_hnsw_interrupted.
Example C89_hnsw_interrupted_applies : (forall x, In x [ex_gann false; ex_cut] -> gann_ok 1 x /\ (1 <= a_n (g_ann x))%N) /\
  (exists ws, hnsw_steps 1 "ix" 0 [ex_gann false; ex_cut] = Ok ws /\ length ws = 10%nat).
Proof.
  split; [|eexists; split; vm_compute; reflexivity]. intros x [<-|[<-|[]]]; (split; [|vm_compute; discriminate]); [apply ex_gann_ok|].
  apply C89_rng_interrupted_applies.
Qed.

(** C89.  IVF: if loading works, the index is that of the complete save except for ids
    at the end of the last cluster. *)
Theorem C89_ivf_interrupted : forall w g name x d ws d' dim adim k0 c0 a' k' rows lists', garbage_ok g -> ivf_ok w x -> (1 <= i_k x)%N ->
  d name = None -> d (name ++ "_centers.bin") = None ->
  ivf_steps w name x = Ok ws -> interrupted ws d d' ->
  load_ivf w g name (mkIA (new_ann dim adim) k0 c0 []) d' = Ok (a', k', rows, lists') ->
  same_ann (i_ann x) a' /\ k' = i_k x /\ cut_tail (i_lists x) lists' /\
  exists a2, load_ivf w g name (mkIA (new_ann dim adim) k0 c0 []) (run_steps ws d) = Ok (a2, k', rows, i_lists x).
Proof. exact ivf_interrupted. Qed.
Print Assumptions C89_ivf_interrupted.

(** Two clusters, the second with points 0 and 1; without its last 4 bytes the file is
    loaded without complaint, point 1 is lost and point 0 is there twice. *)
Definition ex_ivf2 : ivfann := mkIA (ex_ann false) 2 [1;2;3;4;5;6;7;8;11;12;13;14;15;16;17;18]%N [[]; [0;1]]%N.
Example C89_ivf_interrupted_applies : ivf_ok 1 ex_ivf2 /\
  match save_ivf 1 "ix" ex_ivf2 ex_dir with
  | Ok d => match d "ix" with
            | Some b => match load_ivf 1 ex_g "ix" (mkIA (new_ann 0 0) 0 [] []) (fs_set d "ix" (Some (firstn 12 b))) with
                        | Ok (_, _, _, lists) => Some (length b, lists)
                        | _ => None
                        end
            | None => None
            end
  | _ => None
  end = Some (16, [[]; [0; 0]]%N).
Proof.
  split; [|vm_compute; reflexivity]. split; [apply ex_ann_ok|]. split; [reflexivity|]. split; [reflexivity|]. split.
  - intros c Hc. cbn in Hc. repeat (destruct Hc as [<-|Hc]; [reflexivity|]). destruct Hc.
  - split; [reflexivity|]. split; [reflexivity|]. split; [reflexivity|].
    intros l [<-|[<-|[]]]; (split; [reflexivity|]); intros x Hx; cbn in Hx; intuition (subst; reflexivity).
Qed.

(** C89.  LSH: if loading works, the save was complete. *)
Theorem C89_lsh_interrupted : forall w g name x d ws d' x', ann_ok w (sh_ann x) -> lsh_writable (N.to_nat (a_adim (sh_ann x))) (lsh_view x) ->
  garbage_ok g -> d (name ++ "_index.bin") = None ->
  lsh_steps w name x = Ok ws -> interrupted ws d d' -> load_lsh w g name new_lsh d' = Ok x' ->
  same_ann (sh_ann x) (sh_ann x') /\ (forall m, d' m = run_steps ws d m).
Proof. exact lsh_interrupted_new. Qed.
Print Assumptions C89_lsh_interrupted.
Definition ex_lshann : lshann := mkLA (ex_ann false) 1 2 [mkT [[1;2;3;0;0;0;0;0]; [7;8;9;0;0;0;0;0]]%N [(0%N, [1]); (2%N, [0])]].
Example C89_lsh_interrupted_applies : lsh_writable 8 (lsh_view ex_lshann) /\
  match save_lsh 1 "ix" ex_lshann ex_dir with
  | Ok d => match load_lsh 1 ex_g "ix" new_lsh d with Ok x => sh_tables x | _ => [] end
  | _ => []
  end = sh_tables ex_lshann.
Proof.
  split; [|vm_compute; reflexivity]. split; [reflexivity|]. split; [reflexivity|]. split; [vm_compute; discriminate|].
  intros t [<-|[]]. split; [reflexivity|]. split.
  - intros hp [<-|[<-|[]]]; (split; [reflexivity|]); intros x Hx; cbn in Hx; repeat (destruct Hx as [<-|Hx]; [reflexivity|]); destruct Hx.
  - split; [repeat constructor|]. split; [reflexivity|].
    intros k l [E|[E|[]]]; assert (Ek := f_equal fst E); assert (El := f_equal snd E); cbn [fst snd] in Ek, El; subst k l;
      (split; [reflexivity|]); (split; [reflexivity|]); intros id [<-|[]]; reflexivity.
Qed.

(** C89.  No other file is touched at any point of a save. *)
Theorem C89_other_files : forall w name d d' m ws,
  (exists x, rng_steps w name x = Ok ws /\ ~ family rng_suffixes name m) \/
  (exists x, vamana_steps w name x = Ok ws /\ ~ family vamana_suffixes name m) \/
  (exists xs, hnsw_steps w name 0 xs = Ok ws /\ forall i, (i < length xs)%nat -> ~ family rng_suffixes (level_name name (N.of_nat i)) m) \/
  (exists x, ivf_steps w name x = Ok ws /\ ~ family ivf_suffixes name m) \/
  (exists x, lsh_steps w name x = Ok ws /\ ~ family lsh_suffixes name m) ->
  interrupted ws d d' -> d' m = d m.
Proof. exact other_files. Qed.
Print Assumptions C89_other_files.

(** C89.  Saving once more after an interrupted save gives the files of a save that was
    not interrupted. *)
Theorem C89_save_again : forall ws d d', interrupted ws d d' -> forall m, run_steps ws d' m = run_steps ws d m.
Proof. exact redo. Qed.
Print Assumptions C89_save_again.
Example C89_save_again_applies : interrupted [Write "a" [1; 2]; Remove "b"; WriteSized "c" [9; 0; 0; 0; 0; 0; 0; 0; 7]]%N ex_dir
  (fs_set (fs_set (fs_set ex_dir "a" (Some [1; 2])) "b" None) "c" (Some [0; 0; 0]))%N.
Proof. do 2 apply stopped_later. apply (stopped_within (WriteSized "c" _)). left. exists 3. reflexivity. Qed.

(** C89.  Saving over an index of the same name and number of points is not safe: the
    process can stop such that the new vectors, tags and labels are loaded together with
    the old graph, without an error message. *)
Theorem C89_overwrite_refuted : forall w g name x y d d1 ws dim adim st0, garbage_ok g -> gann_ok w x -> gann_ok w y ->
  a_n (g_ann x) = a_n (g_ann y) -> save_rng w name x d = Ok d1 -> rng_steps w name y = Ok ws ->
  exists d' z, interrupted ws d1 d' /\ load_rng w g name (new_gann dim adim st0) d' = Ok (z, true) /\
    same_ann (g_ann y) (g_ann z) /\ g_lists z = g_lists x /\ g_start z = g_start x /\ g_max z = g_max x.
Proof. exact overwrite_mixes. Qed.
Print Assumptions C89_overwrite_refuted.
Example C89_overwrite_refuted_applies : gann_ok 1 (ex_gann true) /\ gann_ok 1 ex_cut /\ a_n (g_ann (ex_gann true)) = a_n (g_ann ex_cut) /\
  g_lists (ex_gann true) <> g_lists ex_cut.
Proof. split; [apply ex_gann_ok|]. split; [apply C89_rng_interrupted_applies|]. split; [reflexivity|discriminate]. Qed.
