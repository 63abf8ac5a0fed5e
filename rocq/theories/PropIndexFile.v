(** * Theorems: label files, entry point files and whole index files (C44, C45, C46,
    C67, C74).

    [d] is any file system before saving, [g] the bytes of uninitialised variables. *)
From Coq Require Import NArith Ascii String List Sorting.Sorted Sorting.Permutation Lia.
From Verif Require Import Base Bytes StreamModel BinModel BinSpec GraphFileSpec TextModel IndexFileModel IndexFileSpec
  IndexFileProofs IndexFileProofs2 IndexFileProofs3 NumSpec NumProofs.
Import ListNotations.
Local Open Scope string_scope.

(** ** C45 *)

(** Writing label lists and parsing the file restores every list and the label set. *)
Theorem C45_label_round_trip : forall pts a, (forall l, In l pts -> saveable l) -> a_pts a = [] -> a_n a = N.of_nat (length pts) ->
  exists txt a', save_labels pts = Ok txt /\ parse_label_file (Some (bytes_of txt)) a = Ok a' /\ a_pts a' = pts /\ a_filtered a' = true /\
    (forall x, In x (a_labels a') <-> In x (a_labels a) \/ exists l, In l pts /\ In x l).
Proof. exact label_round_trip. Qed.
Print Assumptions C45_label_round_trip.

Lemma saveable_ab : saveable ["a"; "b c"].
Proof.
  split; [repeat constructor|]. split.
  - intros x [<-|[<-|[]]] a Ha; cbn in Ha; intuition (subst; discriminate).
  - exists "a". split; [left; auto|discriminate].
Qed.

Lemma saveable_ea : saveable [""; "a"].
Proof.
  split; [repeat constructor|]. split.
  - intros x [<-|[<-|[]]] a Ha; cbn in Ha; intuition (subst; discriminate).
  - exists "a". split; [right; left; auto|discriminate].
Qed.

Example C45_label_round_trip_applies : (forall l, In l [["a"; "b c"]; [""; "a"]] -> saveable l) /\
  save_labels [["a"; "b c"]; [""; "a"]] = Ok ("a,b c" ++ String LF (",a" ++ String LF "")).
Proof. split; [intros l [<-|[<-|[]]]; [exact saveable_ab|exact saveable_ea]|reflexivity]. Qed.

(** Whatever a label file contains, parsing it gives sorted, clean, non-empty lists,
    one per line, holding the labels of that line. *)
Theorem C45_parsed_labels : forall lines acc labs pts labs', parse_lines lines acc labs = Ok (pts, labs') ->
  exists new, pts = (acc ++ new)%list /\ length new = length lines /\
    (forall l, In l new -> l <> [] /\ labels_sorted l /\ forall x, In x l -> clean x) /\
    (forall i line, nth_error lines i = Some line -> exists l, nth_error new i = Some l /\ Permutation (line_tokens line) l).
Proof. exact parse_lines_spec. Qed.
Print Assumptions C45_parsed_labels.

Example C45_parsed_labels_applies : parse_lines (getlines LF ("b,a" ++ String CR (String LF "x,,y"))) [] [] = Ok ([["a"; "b"]; [""; "x"; "y"]], ["b"; "a"; "x"; ""; "y"]).
Proof. vm_compute. reflexivity. Qed.

(** Parsing a user's label file, saving and parsing again gives the same lists, if no
    point has only empty labels. *)
Theorem C45_label_reload : forall f a a' b, parse_label_file f a = Ok a' -> a_pts a = [] ->
  (forall l, In l (a_pts a') -> exists x, In x l /\ x <> "") -> a_pts b = [] -> a_n b = a_n a ->
  exists txt b', save_labels (a_pts a') = Ok txt /\ parse_label_file (Some (bytes_of txt)) b = Ok b' /\ a_pts b' = a_pts a'.
Proof. exact label_reload. Qed.
Print Assumptions C45_label_reload.

(** A point whose only label is empty makes the saved file unreadable: parsing it ends
    the process. *)
Theorem C45_empty_label_lost : forall pts txt a, save_labels pts = Ok txt -> (forall l x, In l pts -> In x l -> clean x) -> In [""] pts ->
  parse_label_file (Some (bytes_of txt)) a = Exit.
Proof. exact empty_label_lost. Qed.
Print Assumptions C45_empty_label_lost.

(** Such a point arises from a label file that loads. *)
Theorem C45_label_reload_refuted : exists f a a' txt, parse_label_file (Some (bytes_of f)) a = Ok a' /\ a_pts a = [] /\ a_n a = 2%N /\
  save_labels (a_pts a') = Ok txt /\ forall b, parse_label_file (Some (bytes_of txt)) b = Exit.
Proof.
  exists ("a" ++ String LF ("," ++ String LF "")), (mkA 2 1 8 [] [] false [] [] true "0"). do 2 eexists.
  split; [vm_compute; reflexivity|]. split; [reflexivity|]. split; [reflexivity|]. split; [vm_compute; reflexivity|].
  intros b. apply (empty_label_lost [["a"]; [""]]); [vm_compute; reflexivity| |right; left; reflexivity].
  intros l x [<-|[<-|[]]] [<-|[]] c Hc; cbn in Hc; [destruct Hc as [<-|[]]; repeat split; discriminate|destruct Hc].
Qed.
Print Assumptions C45_label_reload_refuted.

(** Saving a point without labels is undefined behaviour. *)
Theorem C45_no_label_undefined : forall pre rest, (forall l, In l pre -> l <> []) -> save_labels (pre ++ [] :: rest)%list = UB.
Proof. exact no_label_ub. Qed.
Print Assumptions C45_no_label_undefined.

(** ** C46.  Writing the entry points of labels and reading them back restores the map,
    for any order in which the map is written. *)
Theorem C46_medoid_round_trip : forall m, medoids_ok m -> parse_medoids (getlines LF (text_of (bytes_of (medoid_text m)))) [] = Ok m.
Proof. exact medoid_round_trip. Qed.
Print Assumptions C46_medoid_round_trip.

Lemma ex_medoids_ok : medoids_ok [("a", 1); ("b c", 0)]%N.
Proof.
  split; [repeat constructor; cbn; intuition discriminate|].
  intros x v H. destruct H as [H|[H|[]]]; injection H as <- <-; (split; [|reflexivity]); intros c Hc; cbn in Hc; intuition (subst; discriminate).
Qed.

Example C46_medoid_round_trip_applies : medoids_ok [("a", 1); ("b c", 0)]%N /\
  medoid_text [("a", 1); ("b c", 0)]%N = "a, 1" ++ String LF ("b c, 0" ++ String LF "").
Proof. split; [exact ex_medoids_ok|reflexivity]. Qed.

(** A label with a comma is not restored: here reading throws. *)
Theorem C46_comma_refuted : parse_medoids (getlines LF (medoid_text [("a,b", 1%N)])) [] = Throw.
Proof. vm_compute. reflexivity. Qed.
Print Assumptions C46_comma_refuted.

(** C46.  Any line "label,text" of an entry point file: if the text starts with a number below
    2^64, the label gets that number modulo 2^32, whatever follows it and negated after a
    minus sign; otherwise loading throws.  So a negative or too large entry point is not
    refused. *)
Theorem C46_any_line : forall x t m, clean x -> clean t -> t <> ""%string ->
  match parse_medoids [x ++ String comma t] m with
  | Ok m' => exists neg n rest, numeral t neg n rest /\ (n < 18446744073709551616)%N /\
      m' = map_set m x ((if neg then 18446744073709551616 - n else n) mod 4294967296)%N
  | Throw => forall neg n rest, numeral t neg n rest -> (18446744073709551616 <= n)%N
  | _ => False
  end.
Proof. exact medoid_line_ok. Qed.
Print Assumptions C46_any_line.

Example C46_any_line_case : parse_medoids ["a, -1 x"; "b,4294967297"]%string [] = Ok [("a", 4294967295); ("b", 1)]%string%N /\ parse_medoids ["a, x"]%string [] = Throw.
Proof. split; reflexivity. Qed.

(** ** C74.  Saving a Vamana index and loading it restores data, tags, labels, entry
    points and graph, on top of whatever files were there, and touches no file outside
    the index's family.  The hypothesis on the entry point file is needed, see below. *)
Theorem C74_vamana_round_trip : forall w g name x d dim adim st0, garbage_ok g -> gann_ok w x ->
  (if a_filtered (g_ann x) then medoids_ok (g_medoids x) /\ (g_medoids x = [] -> d (name ++ "_labels_to_medoids.txt") = None)
   else g_medoids x = [] /\ d (name ++ "_labels_to_medoids.txt") = None) ->
  exists d' x', save_vamana w name x d = Ok d' /\ load_vamana w g name (new_gann dim adim st0) d' = Ok (x', true) /\ same_graph x x' /\
    g_medoids x' = g_medoids x /\ (forall m, ~ family vamana_suffixes name m -> d' m = d m).
Proof. exact vamana_round_trip. Qed.
Print Assumptions C74_vamana_round_trip.

(** An index: two points of dimension 3, one byte per element. *)
Definition ex_rows : list (list (option N)) :=
  [[Some 1; Some 2; Some 3; Some 0; Some 0; Some 0; Some 0; Some 0]; [Some 4; Some 5; Some 6; Some 0; Some 0; Some 0; Some 0; Some 0]]%N.
Definition ex_ann (filtered : bool) : ann :=
  mkA 2 3 8 ex_rows [7; 300]%N filtered (if filtered then [["a"; "b c"]; [""; "a"]] else []) [] true "0".
Definition ex_gann (filtered : bool) : gann :=
  mkGA (ex_ann filtered) 2 1 [[1]; [0]]%N (if filtered then [("a", 1); ("b c", 0)]%N else []).

Lemma ex_data_loaded : forall f, data_loaded 1 (ex_ann f).
Proof.
  intros f. split; [left; auto|]. split; [|reflexivity].
  exists [0;0;0;0]%N, [0;0;0;0]%N, (bin_file 1 2 3 [1;2;3;4;5;6]%N).
  assert (Hz : is_bytes [0;0;0;0]%N) by (repeat constructor).
  split; [auto|]. split; [auto|]. split; [auto|]. split; [auto|]. split; [|vm_compute; reflexivity].
  repeat constructor.
Qed.

Lemma ex_ann_ok : forall f, ann_ok 1 (ex_ann f).
Proof.
  intros f. split; [apply ex_data_loaded|]. split; [reflexivity|]. split; [intros t [<-|[<-|[]]]; reflexivity|]. split; [reflexivity|].
  destruct f; cbn; [|auto]. split; [reflexivity|]. split.
  - intros l [<-|[<-|[]]]; [exact saveable_ab|exact saveable_ea].
  - split; [discriminate|]. intros a [<-|[]]. cbn. lia.
Qed.

Lemma ex_gann_ok : forall f, gann_ok 1 (ex_gann f).
Proof.
  intros f. split; [apply ex_ann_ok|]. split; [reflexivity|]. split; [|split; reflexivity].
  intros l [<-|[<-|[]]]; (split; [reflexivity|]); intros x [<-|[]]; reflexivity.
Qed.

Definition ex_g : nat -> list N := fun _ => [0;0;0;0]%N.
Lemma ex_g_ok : garbage_ok ex_g.
Proof. intros k. split; [reflexivity|repeat constructor]. Qed.

Example C74_vamana_round_trip_applies : garbage_ok ex_g /\ gann_ok 1 (ex_gann true) /\ medoids_ok (g_medoids (ex_gann true)) /\
  match save_vamana 1 "ix" (ex_gann true) (fun _ => None) with
  | Ok d => match load_vamana 1 ex_g "ix" (new_gann 0 0 9) d with
            | Ok (x, ok) => (g_lists x, g_medoids x, a_pts (g_ann x), a_tags (g_ann x), ok)
            | _ => ([], [], [], [], false)
            end
  | _ => ([], [], [], [], false)
  end = ([[1]; [0]], [("a", 1); ("b c", 0)], [["a"; "b c"]; [""; "a"]], [7; 300], true)%N.
Proof. split; [exact ex_g_ok|]. split; [apply ex_gann_ok|]. split; [exact ex_medoids_ok|]. vm_compute. reflexivity. Qed.

(** C74.  The same for RelativeNG. *)
Theorem C74_rng_round_trip : forall w g name x d dim adim st0, garbage_ok g -> gann_ok w x ->
  exists d' x', save_rng w name x d = Ok d' /\ load_rng w g name (new_gann dim adim st0) d' = Ok (x', true) /\ same_graph x x' /\
    (forall m, ~ family rng_suffixes name m -> d' m = d m).
Proof. exact rng_round_trip. Qed.
Print Assumptions C74_rng_round_trip.

Example C74_rng_round_trip_applies : garbage_ok ex_g /\ gann_ok 1 (ex_gann false).
Proof. split; [exact ex_g_ok|apply ex_gann_ok]. Qed.

(** C74.  Saving an unfiltered Vamana index over a filtered one leaves the old entry
    points behind, and loading takes them for its own. *)
Theorem C74_stale_entry_points : forall w g name x d dim adim st0 m, garbage_ok g -> gann_ok w x -> a_filtered (g_ann x) = false -> medoids_ok m ->
  d (name ++ "_labels_to_medoids.txt") = Some (bytes_of (medoid_text m)) ->
  exists d' x', save_vamana w name x d = Ok d' /\ load_vamana w g name (new_gann dim adim st0) d' = Ok (x', true) /\ g_medoids x' = m.
Proof. exact vamana_stale. Qed.
Print Assumptions C74_stale_entry_points.

(** So a saved index does not load as itself over every file system. *)
Theorem C74_overwrite_restores_refuted : exists d0 d1 d2 x', let name := "ix" in
  save_vamana 1 name (ex_gann true) d0 = Ok d1 /\ save_vamana 1 name (ex_gann false) d1 = Ok d2 /\
  load_vamana 1 ex_g name (new_gann 0 0 0) d2 = Ok (x', true) /\ a_filtered (g_ann x') = false /\ g_medoids x' <> g_medoids (ex_gann false).
Proof.
  exists (fun _ => None). do 3 eexists. cbn zeta. split; [vm_compute; reflexivity|]. split; [vm_compute; reflexivity|].
  split; [vm_compute; reflexivity|]. split; [reflexivity|discriminate].
Qed.
Print Assumptions C74_overwrite_restores_refuted.

(** ** C67.  The file names of different HNSW levels are different, *)
Theorem C67_levels_disjoint : forall name i j m,
  family rng_suffixes (level_name name i) m -> family rng_suffixes (level_name name j) m -> i = j.
Proof. exact level_disjoint. Qed.
Print Assumptions C67_levels_disjoint.

Example C67_levels_disjoint_applies : family rng_suffixes (level_name "ix" 12) "ix_12_data.bin".
Proof. exists "_data.bin". split; [right; left; auto|reflexivity]. Qed.

(** and none is a name of a Vamana or IVF index saved under the same name. *)
Theorem C67_levels_not_base : forall name i m, family rng_suffixes (level_name name i) m ->
  ~ family vamana_suffixes name m /\ ~ family ivf_suffixes name m.
Proof. exact level_not_base. Qed.
Print Assumptions C67_levels_not_base.

(** C67.  Saving an HNSW index of any number of levels and loading it restores every
    level. *)
Theorem C67_hnsw_round_trip : forall w g name levels d dim adim st0, garbage_ok g -> (forall x, In x levels -> gann_ok w x) ->
  exists d' rs, save_hnsw w name 0 levels d = Ok d' /\ load_hnsw w g name 0 (fresh_levels dim adim st0 levels) d' = Ok rs /\
    length rs = length levels /\
    (forall i x, nth_error levels i = Some x -> exists x', nth_error rs i = Some (x', true) /\ same_graph x x') /\
    (forall m, (forall i, (i < length levels)%nat -> ~ family rng_suffixes (level_name name (N.of_nat i)) m) -> d' m = d m).
Proof. exact hnsw_round_trip. Qed.
Print Assumptions C67_hnsw_round_trip.

Example C67_hnsw_round_trip_applies : garbage_ok ex_g /\ (forall x, In x [ex_gann false; ex_gann true] -> gann_ok 1 x).
Proof. split; [exact ex_g_ok|]. intros x [<-|[<-|[]]]; apply ex_gann_ok. Qed.

(** ** C44.  Saving an IVF index and loading it restores the shared part, the number of
    clusters, every coordinate of every center and every inverted list. *)
Theorem C44_ivf_round_trip : forall w g name x d dim adim k0 c0, garbage_ok g -> ivf_ok w x ->
  exists d' a' rows, save_ivf w name x d = Ok d' /\
    load_ivf w g name (mkIA (new_ann dim adim) k0 c0 []) d' = Ok (a', i_k x, rows, i_lists x) /\
    same_ann (i_ann x) a' /\ length rows = N.to_nat (i_k x) /\
    (forall i row, nth_error rows i = Some row -> length row = N.to_nat (a_adim (i_ann x)) * 4 /\
       forall j, j < N.to_nat (a_adim (i_ann x)) -> mem_elem 4 row j = nth_error (i_centers x) (i * N.to_nat (a_adim (i_ann x)) + j)) /\
    (forall m, ~ family ivf_suffixes name m -> d' m = d m).
Proof. exact ivf_round_trip. Qed.
Print Assumptions C44_ivf_round_trip.

Definition ex_ivf : ivfann := mkIA (ex_ann false) 2 [1;2;3;4;5;6;7;8;11;12;13;14;15;16;17;18]%N [[1;0]; []]%N.
Example C44_ivf_round_trip_applies : ivf_ok 1 ex_ivf.
Proof.
  split; [apply ex_ann_ok|]. split; [reflexivity|]. split; [reflexivity|]. split.
  - intros c Hc. cbn in Hc. repeat (destruct Hc as [<-|Hc]; [reflexivity|]). destruct Hc.
  - split; [reflexivity|]. split; [reflexivity|]. split; [reflexivity|].
    intros l [<-|[<-|[]]]; (split; [reflexivity|]); intros x Hx; cbn in Hx; intuition (subst; reflexivity).
Qed.
