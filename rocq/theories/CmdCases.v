(** * Command lines of concrete sessions: points on a line, one byte each. *)
From Coq Require Import NArith ZArith QArith Ascii String List Arith Bool Lia Permutation Floats.SpecFloat.
From Verif Require Import Base Float32 FloatBits Bytes BinSpec StreamModel BinModel TextModel ParamModel ConvertModel TsvModel TsvSpec LloydModel NormModel DistModel RecallModel TruthModel StatsModel
  SortInst PopInst PoolModel GreedyModel SearchModel HnswModel PruneModel BuildModel EntryModel RngModel ClosestModel FlatModel IvfModel LshModel IndexFileModel SystemModel SystemWitness ToolModel ToolWitness CmdModel CmdSpec.
Import ListNotations.
Local Open Scope string_scope.

(** An atof for decimals: the quotient of two doubles, rounded once; 0 for other words. *)
Definition c_atof (s : string) : spec_float :=
  match parse_num (bytes_of s) with
  | Some (neg, D, q) =>
      let x := if (q <? 0)%Z then SFdiv 53 1024 (binary_normalize 53 1024 D 0 false) (binary_normalize 53 1024 (10 ^ (- q)) 0 false)
               else binary_normalize 53 1024 (D * 10 ^ q) 0 false in
      if neg then SFopp x else x
  | None => S754_zero false
  end.

(** Decimal numerals. *)
Lemma c_num : forall s n ds, ds <> [] -> Forall (fun d => (d <= 9)%N) ds -> s = string_of_list_ascii (map (fun d => ascii_of_N (48 + d)) ds) -> n = fold_left (fun a d => (a * 10 + d)%N) ds 0%N -> (n < 2 ^ 31)%N -> number_arg s n.
Proof. intros s n ds A B C D E. split; [exists ds; auto|exact E]. Qed.
Ltac num ds := apply (c_num _ _ ds); [discriminate|repeat constructor; discriminate|reflexivity|reflexivity|reflexivity].
Lemma num0 : number_arg "0" 0. Proof. num [0%N]. Qed.
Lemma num1 : number_arg "1" 1. Proof. num [1%N]. Qed.
Lemma num2 : number_arg "2" 2. Proof. num [2%N]. Qed.
Lemma num3 : number_arg "3" 3. Proof. num [3%N]. Qed.
Lemma num5 : number_arg "5" 5. Proof. num [5%N]. Qed.
Lemma num64 : number_arg "64" 64. Proof. num [6%N; 4%N]. Qed.
Lemma num007 : number_arg "007" 7. Proof. num [0%N; 0%N; 7%N]. Qed.

Definition c_pd (kt : ktype) (m : metric) : vec -> vec -> f32 := t_pd.
Definition c_cd (kt : ktype) : vec -> list (option N) -> f32 := t_pd.
Definition c_fv (kt : ktype) : vec -> list f32 := t_fv.
Definition c_draw (t i j : nat) : N := match j with O => if (i =? 0)%nat then 3%N else 6%N | _ => 0%N end.
Definition c_order (L : N) : list nat := [1; 0]%nat.
Definition c_choices (i : nat) : hchoice := nth i t_choices (mkHC [] [] [] []).

(** The truth about the queries 7 and 0, three neighbours each, without distances; one about
    one query; one with two neighbours each. *)
Definition c_truth : list N := bin_file 4 2 3 [7; 6; 8; 0; 1; 2]%N.
Definition c_short : list N := bin_file 4 1 3 [7; 6; 8]%N.
Definition c_narrow : list N := bin_file 4 2 2 [7; 6; 0; 1]%N.
Definition c_fs : fs := fs_set (fs_set (fs_set t_fs "truth.bin" (Some c_truth)) "short.bin" (Some c_short)) "narrow.bin" (Some c_narrow).
Definition h0 (i : nat) : N := 0%N.

Definition c_build_vamana := build_vamana_main c_atof s_g isort c_pd s_cent s_work s_sched (seq 0 10).
Definition c_search_vamana := search_vamana_main (s_g 0%nat) (s_g 1%nat) h0 s_g isort c_pd c_order.
Definition c_build_hnsw := build_hnsw_main c_atof s_g isort c_pd c_choices.
Definition c_search_hnsw := search_hnsw_main (s_g 0%nat) (s_g 1%nat) h0 s_g isort c_pd c_order.
Definition c_build_relng := build_relng_main s_g isort c_pd s_cent (seq 0 10).
Definition c_search_relng := search_relng_main (s_g 0%nat) (s_g 1%nat) h0 s_g s_g isort c_pd c_order.
Definition c_build_ivf := build_ivf_main c_atof s_g pop_all 1000 c_cd t_centers t_orders.
Definition c_search_ivf := search_ivf_main (s_g 0%nat) (s_g 1%nat) h0 s_g pop_all 1000 (fun _ => t_pd) c_cd c_order.
Definition c_build_lsh := build_lsh_main s_g t_dot c_fv c_draw.
Definition c_search_lsh := search_lsh_main (s_g 0%nat) (s_g 1%nat) h0 s_g t_dot c_fv (fun _ => t_pd) c_order.

(** Build, then search: the status, the contents of a file and the printed table. *)
Definition c_then (b : res (Z * fs)) (s : fs -> res (Z * fs * list (N * f32))) (name : string) : res (Z * Z * option (list N) * list (N * f32)) :=
  do x <- b; do y <- s (snd x); let '(z, d, t) := y in Ok (fst x, z, d name, t).

(** The double for 1.2, and a seventh digit of alpha. *)
Lemma c_12 : c_atof "1.2" = S754_finite false 5404319552844595 (-52).
Proof. vm_compute. reflexivity. Qed.
Lemma c_digits_lost : forall g sortf pd cent work sched order prog ty m data save r l t d,
  build_vamana_main c_atof g sortf pd cent work sched order [prog; ty; m; data; "0"; save; r; l; "1.234567"; t] d =
  build_vamana_main c_atof g sortf pd cent work sched order [prog; ty; m; data; "0"; save; r; l; "1.23457"; t] d.
Proof.
  intros g sortf pd cent work sched order prog ty m data save r l t d. assert (Ef : atoi "0" = Ok 0%Z) by reflexivity.
  unfold build_vamana_main, opt_arg, int_arg, arg. cbn [length Nat.ltb Nat.leb orb nth_error bind Nat.add]. rewrite Ef. cbn [bind Z.eqb fst snd nth_error Nat.add].
  assert (E : forall kt lab mm R L T, build_vamana_index g sortf pd cent work sched order kt data lab mm R L (f32_of_f64 (c_atof "1.234567")) save T d = build_vamana_index g sortf pd cent work sched order kt data lab mm R L (f32_of_f64 (c_atof "1.23457")) save T d).
  { intros kt lab mm R L T. unfold build_vamana_index, p_float. replace (show_float (f32_of_f64 (c_atof "1.234567"))) with (show_float (f32_of_f64 (c_atof "1.23457"))) by (vm_compute; reflexivity). reflexivity. }
  destruct (metric_of m); [|reflexivity]. destruct (atoi r) as [R| | | |]; [|reflexivity..]. cbn [bind]. destruct (atoi l) as [L| | | |]; [|reflexivity..]. cbn [bind]. destruct (atoi t) as [T| | | |]; [|reflexivity..]. cbn [bind]. destruct (kind_of ty); [|reflexivity]. now rewrite E.
Qed.

Definition c_vamana_args : list string := ["build_vamana"; type_word KUint8; metric_word L2; "data.bin"] ++ ["1"; "labels.txt"] ++ ["ix"; "5"; "64"; "1.2"; "2"].
Definition c_hnsw_args : list string := ["build_hnsw"; type_word KUint8; metric_word L2; "big.bin"; "ix"; "5"; "64"; "0"; "0.8"; "2"; "2"].
Definition c_relng_args : list string := ["build_relng"; type_word KUint8; metric_word L2; "data.bin"; "ix"; "2"].
Definition c_ivf_args : list string := ["build_ivf"; type_word KUint8; "data.bin"] ++ ["1"; "labels.txt"] ++ ["ix"; "2"; "0.5"].
Definition c_lsh_args : list string := ["build_lsh"; type_word KUint8; "data.bin"] ++ ["1"; "labels.txt"] ++ ["ix"; "1"; "2"].
Definition c_find_vamana (truth : string) : list string := ["search_vamana"; type_word KUint8; metric_word L2; "ix"; "2"; "query.bin"; truth; "3"; "res"] ++ ["1"; "a"] ++ ["2"; "5"].
Definition c_find_hnsw (truth : string) : list string := ["search_hnsw"; type_word KUint8; metric_word L2; "ix"; "2"; "2"; "query.bin"; truth; "3"; "res"] ++ ["2"; "5"].
Definition c_find_relng (truth : string) : list string := ["search_relng"; type_word KUint8; metric_word L2; "data.bin"; "ix"; "2"; "query.bin"; truth; "3"; "res"] ++ ["2"; "5"].
Definition c_find_ivf (truth : string) : list string := ["search_ivf"; type_word KUint8; "ix"; "2"; "query.bin"; truth; "3"; "res"] ++ ["0"] ++ ["1"; "2"].
Definition c_find_lsh (truth : string) : list string := ["search_lsh"; type_word KUint8; "ix"; "2"; "query.bin"; truth; "3"; "res"] ++ ["0"] ++ [].

Lemma c_labels : optional (Some "labels.txt") ["1"; "labels.txt"].
Proof. exists "1", 1%N. split; [reflexivity|]. split; [exact num1|discriminate]. Qed.
Lemma c_filter : optional (Some "a") ["1"; "a"].
Proof. exists "1", 1%N. split; [reflexivity|]. split; [exact num1|discriminate]. Qed.
Lemma c_plain : optional None ["0"].
Proof. exists "0". split; [reflexivity|exact num0]. Qed.
Lemma c_sizes : Forall2 number_arg ["2"; "5"] [2; 5]%N.
Proof. constructor; [exact num2|]. constructor; [exact num5|constructor]. Qed.
Lemma c_probes : Forall2 number_arg ["1"; "2"] [1; 2]%N.
Proof. constructor; [exact num1|]. constructor; [exact num2|constructor]. Qed.
Lemma c_rate : finite (f32_of_f64 (c_atof "1.2")) /\ finite (f32_of_f64 (c_atof "0.8")) /\ finite (f32_of_f64 (c_atof "0.5")).
Proof. split; [|split]; vm_compute; reflexivity. Qed.
Lemma c_room : room_for 3 (load_aligned_bin 1 (s_g 0%nat) (s_g 1%nat) (c_fs "query.bin")).
Proof. intros nq dim adim rows E. vm_compute in E. injection E as <- _ _ _. reflexivity. Qed.
Lemma c_truth_for : truth_for h0 c_truth 2 3.
Proof. exists 3%N, [7; 6; 8; 0; 1; 2]%N, None. split; [vm_compute; reflexivity|]. split; [discriminate|exact I]. Qed.
