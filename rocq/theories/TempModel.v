(** * Several processes that build HNSW indexes at the same time (tests/build_hnsw.cpp:16-48,
    src/hnsw.cpp:122-152).

    Every build writes the vectors of its inner level to the file /tmp/temp_data, makes
    the inner object from this file and removes it.  Here the file system is shared, and a
    schedule says which process takes the next step: reading the data file, writing the
    temporary file, making the object from it, removing it, building the graphs (which
    touches no file), saving the index.  Each is one step; a file half written by another
    process is not modelled. *)
From Coq Require Import NArith String List Arith Bool.
From Verif Require Import Base Float32 Bytes StreamModel BinModel PoolModel SearchModel PruneModel EntryModel BuildModel HnswModel IndexFileModel SystemModel ToolModel.
Import ListNotations.
Local Open Scope string_scope.

(** src/hnsw.cpp:148-265 for all levels, once the objects are made: those of the inner
    levels are built first.  [ToolModel.hnsw_objects] without the files. *)
Fixpoint build_graphs (sortf : list neighbor -> list neighbor) (pd : vec -> vec -> f32) (prm : bparams)
    (objects : list ann) (cs : list hchoice) : res (list gann) :=
  match objects, cs with
  | a :: objects', c :: rest =>
      do inner <- match rest with [] => Ok [] | _ :: _ => build_graphs sortf pd prm objects' rest end;
      do s <- calculate_medoid (N.to_nat (a_n a)) (hc_centroid c);
      let env := mkH (mkEnv sortf (space_view pd a) prm s []) (map graph_view inner) in
      do st <- h_run env (build_init (he_b env)) (hc_sched c);
      if all_done st then
        do gr <- h_cleanup env (bs_graph st) (hc_order c);
        Ok (built a (mkI (N.to_nat (a_n a)) (ids_view (a_tags a)) (labels_view a) [] s gr) hnsw_max_degree :: inner)
      else Fuel
  | _, _ => UB
  end.

(** The arguments of a run of the tool, as in [ToolModel.hnsw_tool]. *)
Record htool : Type := mkHT {
  ht_w : nat; ht_g : nat -> list N; ht_sortf : list neighbor -> list neighbor; ht_pd : vec -> vec -> f32;
  ht_data : string; ht_tags : list N; ht_prm : bparams; ht_cs : list hchoice; ht_path : string
}.

(** Where a process is.  [made]: the objects so far, innermost first; [cs]: the levels
    whose samples are not drawn yet. *)
Inductive hstate : Type :=
| HStart
| HLevel (a : ann) (cs : list hchoice) (made : list ann)
| HWritten (a : ann) (cs : list hchoice) (made : list ann)
| HMade (ai : ann) (cs : list hchoice) (made : list ann)
| HSave (levels : list gann)
| HDone (levels : list gann)
| HFailed (outcome : res unit).

Definition ended {A : Type} (r : res A) (d : fs) (k : A -> hstate * fs) : hstate * fs :=
  match r with
  | Ok x => k x
  | UB => (HFailed UB, d)
  | Throw => (HFailed Throw, d)
  | Exit => (HFailed Exit, d)
  | Fuel => (HFailed Fuel, d)
  end.

Definition h_step (t : htool) (s : hstate) (d : fs) : hstate * fs :=
  match s with
  | HStart => (* tests/build_hnsw.cpp:33, the constructor *)
      ended (construct (ht_w t) (ht_g t) (ht_data t) (ht_tags t) "" d) d (fun a => (HLevel a (ht_cs t) [], d))
  | HLevel a cs made => (* src/hnsw.cpp:128-139 *)
      match cs with
      | [] => (HFailed UB, d)
      | [_] => ended (build_graphs (ht_sortf t) (ht_pd t) (ht_prm t) (rev (a :: made)) (ht_cs t)) d (fun levels => (HSave levels, d))
      | c :: _ :: _ =>
          ended (save_subset (ht_w t) (a_data a) (a_dim a) (a_adim a) (hc_sample c)) d
            (fun f => (HWritten a cs made, match f with Some b => fs_set d temp_name (Some b) | None => d end))
      end
  | HWritten a cs made => (* src/hnsw.cpp:140-141 *)
      match cs with
      | [] => (HFailed UB, d)
      | c :: rest =>
          ended (construct (ht_w t) (ht_g t) temp_name (map N.of_nat (hc_sample c)) "" d) d (fun ai => (HMade ai rest (a :: made), d))
      end
  | HMade ai rest made => (HLevel ai rest made, fs_set d temp_name None) (* src/hnsw.cpp:142 *)
  | HSave levels => (* tests/build_hnsw.cpp:45 *)
      ended (save_hnsw (ht_w t) (ht_path t) 0 (rev levels) d) d (fun d' => (HDone levels, d'))
  | HDone _ | HFailed _ => (s, d)
  end.

(** All processes, the state of each by its number, and the file system they share. *)
Definition h_all (tools : list htool) (i : nat) (s : nat -> hstate) (d : fs) : (nat -> hstate) * fs :=
  match nth_error tools i with
  | Some t => let r := h_step t (s i) d in ((fun j => if Nat.eqb j i then fst r else s j), snd r)
  | None => (s, d)
  end.

Fixpoint h_sched (tools : list htool) (sched : list nat) (s : nat -> hstate) (d : fs) : (nat -> hstate) * fs :=
  match sched with
  | [] => (s, d)
  | i :: rest => let r := h_all tools i s d in h_sched tools rest (fst r) (snd r)
  end.

Definition h_together (tools : list htool) (sched : list nat) (d : fs) : (nat -> hstate) * fs := h_sched tools sched (fun _ => HStart) d.

(** The tool alone, as ToolModel has it. *)
Definition alone (t : htool) (d : fs) : res (list gann * fs) :=
  hnsw_tool (ht_w t) (ht_g t) (ht_sortf t) (ht_pd t) (ht_data t) (ht_tags t) (ht_prm t) (ht_cs t) (ht_path t) d.
