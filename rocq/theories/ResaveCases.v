(** * Cases: a filtered Vamana index and an IVF index, loaded and saved again. *)
From Coq Require Import NArith Ascii String List Lia Arith.
From Verif Require Import Base Bytes StreamModel BinModel BinSpec GraphFileModel GraphFileSpec TextModel IndexFileModel IndexFileSpec PropIndexFile ResaveSpec.
Import ListNotations.
Local Open Scope string_scope.

(** A directory with an older file at the index's name and a file of somebody else. *)
Definition old_dir : fs := fun m => if String.eqb m "ix" then Some [1; 2; 3]%N else if String.eqb m "notes" then Some [9]%N else None.
Definition seen (r : res fs) (names : list string) : list (option (list N)) := match r with Ok d => map d names | _ => [] end.
Definition vamana_files (name : string) : list string := map (fun s => name ++ s) [""; "_data.bin"; "_tags.bin"; "_labels.txt"; "_universal_label.txt"; "_labels_to_medoids.txt"].
Definition present (l : list (option (list N))) : list bool := map (fun o => match o with Some (_ :: _) => true | _ => false end) l.

Definition again_vamana : res (list (option (list N)) * list (option (list N)) * list (option (list N))) :=
  do d <- save_vamana 1 "ix" (ex_gann true) old_dir;
  do r <- load_vamana 1 ex_g "ix" (new_gann 0 0 9) d;
  Ok (map d (vamana_files "ix"), seen (save_vamana 1 "iy" (fst r) d) (vamana_files "iy"), seen (save_vamana 1 "ix" (fst r) d) (vamana_files "ix")).
Lemma again_vamana_case : garbage_ok ex_g /\ gann_ok 1 (ex_gann true) /\ medoids_ok (g_medoids (ex_gann true)) /\
  exists l, again_vamana = Ok (l, l, l) /\ present l = [true; true; true; true; true; true].
Proof.
  split; [exact ex_g_ok|]. split; [apply ex_gann_ok|]. split; [exact ex_medoids_ok|]. eexists. split; [vm_compute; reflexivity|]. vm_compute. reflexivity.
Qed.

Definition ivf_files (name : string) : list string := map (fun s => name ++ s) [""; "_data.bin"; "_tags.bin"; "_centers.bin"].
Definition again_ivf : res (list (option (list N)) * list (option (list N))) :=
  do d <- save_ivf 1 "ix" ex_ivf old_dir;
  do r <- load_ivf 1 ex_g "ix" (mkIA (new_ann 0 0) 5 [] []) d;
  let '(a, k, rows, lists) := r in
  Ok (map d (ivf_files "ix"), seen (save_ivf 1 "iy" (mkIA a k (i_centers ex_ivf) lists) d) (ivf_files "iy")).
Lemma again_ivf_case : ivf_ok 1 ex_ivf /\ exists l, again_ivf = Ok (l, l) /\ present l = [true; true; true; true].
Proof. split; [exact C44_ivf_round_trip_applies|]. eexists. split; [vm_compute; reflexivity|]. vm_compute. reflexivity. Qed.

(** Two levels of HNSW. *)
Definition again_hnsw : res (list (option (list N)) * list (option (list N))) :=
  do d <- save_hnsw 1 "ix" 0 [ex_gann true; ex_gann false] old_dir;
  do rs <- load_hnsw 1 ex_g "ix" 0 [new_gann 0 0 9; new_gann 0 0 9] d;
  let files n := flat_map (fun k => vamana_files (level_name n k)) [0; 1]%N in
  Ok (map d (files "ix"), seen (save_hnsw 1 "iy" 0 (map fst rs) d) (files "iy")).
Lemma again_hnsw_case : (forall x, In x [ex_gann true; ex_gann false] -> gann_ok 1 x) /\
  exists l, again_hnsw = Ok (l, l) /\ present l = [true; true; true; true; true; false; true; true; true; false; false; false].
Proof. split; [intros x [<-|[<-|[]]]; apply ex_gann_ok|]. eexists. split; [vm_compute; reflexivity|]. vm_compute. reflexivity. Qed.
