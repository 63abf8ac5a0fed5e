(** * Theorems: saving a loaded index again (C132).

    [gann_ok], [ivf_ok], [medoids_ok], [garbage_ok]: IndexFileSpec.v; [holds_rows]: ResaveSpec.v. *)
From Coq Require Import NArith Ascii String List Arith.
From Verif Require Import Base Bytes StreamModel BinModel BinSpec GraphFileModel GraphFileSpec TextModel IndexFileModel IndexFileSpec IndexFileProofs IndexFileProofs2 IndexFileProofs3
  PropIndexFile ResaveSpec ResaveProofs ResaveCases.
Import ListNotations.
Local Open Scope string_scope.

(** C132.  Vamana: the loaded index writes under every name and over every directory what the saved one writes; saved back where it came from, it changes no file. *)
Theorem C132_vamana : forall w g name x d dim adim st0, garbage_ok g -> gann_ok w x ->
  (if a_filtered (g_ann x) then medoids_ok (g_medoids x) /\ (g_medoids x = [] -> d (name ++ "_labels_to_medoids.txt") = None)
   else g_medoids x = [] /\ d (name ++ "_labels_to_medoids.txt") = None) ->
  exists d' x', save_vamana w name x d = Ok d' /\ load_vamana w g name (new_gann dim adim st0) d' = Ok (x', true) /\
    (forall name2 d2, save_vamana w name2 x' d2 = save_vamana w name2 x d2) /\ exists d'', save_vamana w name x' d' = Ok d'' /\ forall m, d'' m = d' m.
Proof. exact vamana_resave. Qed.
Print Assumptions C132_vamana.

Example C132_vamana_case : garbage_ok ex_g /\ gann_ok 1 (ex_gann true) /\ medoids_ok (g_medoids (ex_gann true)) /\
  exists l, again_vamana = Ok (l, l, l) /\ present l = [true; true; true; true; true; true].
Proof. exact again_vamana_case. Qed.

(** C132.  The same for RelativeNG. *)
Theorem C132_rng : forall w g name x d dim adim st0, garbage_ok g -> gann_ok w x ->
  exists d' x', save_rng w name x d = Ok d' /\ load_rng w g name (new_gann dim adim st0) d' = Ok (x', true) /\
    (forall name2 d2, save_rng w name2 x' d2 = save_rng w name2 x d2) /\ exists d'', save_rng w name x' d' = Ok d'' /\ forall m, d'' m = d' m.
Proof. exact rng_resave. Qed.
Print Assumptions C132_rng.

(** C132.  The same for the levels of HNSW. *)
Theorem C132_hnsw : forall w g name levels d dim adim st0, garbage_ok g -> (forall x, In x levels -> gann_ok w x) ->
  exists d' rs, save_hnsw w name 0 levels d = Ok d' /\ load_hnsw w g name 0 (fresh_levels dim adim st0 levels) d' = Ok rs /\
    (forall name2 d2, save_hnsw w name2 0 (map fst rs) d2 = save_hnsw w name2 0 levels d2) /\ exists d'', save_hnsw w name 0 (map fst rs) d' = Ok d'' /\ forall m, d'' m = d' m.
Proof. exact hnsw_resave. Qed.
Print Assumptions C132_hnsw.

Example C132_hnsw_case : (forall x, In x [ex_gann true; ex_gann false] -> gann_ok 1 x) /\
  exists l, again_hnsw = Ok (l, l) /\ present l = [true; true; true; true; true; false; true; true; true; false; false; false].
Proof. exact again_hnsw_case. Qed.

(** C132.  The same for IVF, whose loaded centres are the numbers in the rows it read. *)
Theorem C132_ivf : forall w g name x d dim adim k0 c0, garbage_ok g -> ivf_ok w x ->
  exists d' a' rows, save_ivf w name x d = Ok d' /\ load_ivf w g name (mkIA (new_ann dim adim) k0 c0 []) d' = Ok (a', i_k x, rows, i_lists x) /\
    holds_rows (N.to_nat (a_adim a')) rows (i_centers x) /\ forall c, holds_rows (N.to_nat (a_adim a')) rows c ->
      (forall name2 d2, save_ivf w name2 (mkIA a' (i_k x) c (i_lists x)) d2 = save_ivf w name2 x d2) /\ exists d'', save_ivf w name (mkIA a' (i_k x) c (i_lists x)) d' = Ok d'' /\ forall m, d'' m = d' m.
Proof. exact ivf_resave. Qed.
Print Assumptions C132_ivf.

Example C132_ivf_case : ivf_ok 1 ex_ivf /\ exists l, again_ivf = Ok (l, l) /\ present l = [true; true; true; true].
Proof. exact again_ivf_case. Qed.
