(** * The main functions of the build and search tools, from the command line on.

    tests/build_vamana.cpp, build_hnsw.cpp, build_relng.cpp, build_ivf.cpp, build_lsh.cpp and
    tests/search_vamana.cpp, search_hnsw.cpp, search_relng.cpp, search_ivf.cpp, search_lsh.cpp.
    What is behind the arguments is in SystemModel.v and ToolModel.v.  Messages are left out;
    of the table a search prints, the columns L and recall are kept. *)
From Coq Require Import NArith ZArith String List Arith Bool Floats.SpecFloat.
From Verif Require Import Base Float32 FloatBits Bytes StreamModel BinModel TextModel ParamModel ConvertModel TsvModel LloydModel NormModel DistModel RecallModel TruthModel
  PoolModel GreedyModel SearchModel HnswModel PruneModel BuildModel EntryModel RngModel ClosestModel FlatModel IvfModel LshModel IndexFileModel SystemModel ToolModel.
Import ListNotations.
Local Open Scope string_scope.

(** ** Arguments *)

(** argv[i]: argv[argc] is a null pointer, which neither std::string nor atoi may be given. *)
Definition arg (argv : list string) (i : nat) : res string := match nth_error argv i with Some s => Ok s | None => UB end.

(** std::atoi: white space, a sign, digits; what follows is ignored, no digits give 0.  A
    value an int cannot hold is undefined. *)
Definition atoi (s : string) : res Z :=
  let (neg, t) := sign (skip_space s) in
  let '(v, _, _) := digits t 0 0 in
  let z := if neg then (- Z.of_N v)%Z else Z.of_N v in
  if ((-2147483648 <=? z) && (z <=? 2147483647))%Z then Ok z else UB.
Definition int_arg (argv : list string) (i : nat) : res Z := do s <- arg argv i; atoi s.

(** The conversions of an int to unsigned and to _u64. *)
Definition int_u32 (z : Z) : N := Z.to_N (z mod 4294967296).
Definition int_u64 (z : Z) : N := Z.to_N (z mod 18446744073709551616).

(** The comparisons of argv[1] and argv[2] in every main. *)
Definition kind_of (s : string) : option ktype :=
  if String.eqb s "int8" then Some KInt8 else if String.eqb s "uint8" then Some KUint8 else if String.eqb s "float" then Some KFloat else None.
Definition metric_of (s : string) : option metric :=
  if String.eqb s "mips" then Some INNER_PRODUCT else if String.eqb s "l2" then Some L2 else None.

(** tests/build_vamana.cpp:82-86, tests/search_vamana.cpp:60-64 and the like: a flag and, if it
    is not 0, one more argument; the position behind them. *)
Definition opt_arg (argv : list string) (ctr : nat) : res (option string * nat) :=
  do z <- int_arg argv ctr;
  if (z =? 0)%Z then Ok (None, S ctr) else do s <- arg argv (S ctr); Ok (Some s, S (S ctr)).

(** ** Parameters of type float *)

(** include/parameters.h:20-25, 48-57 for float: operator<< and operator>> as in TsvModel.v. *)
Definition p_float (name : string) (x : f32) (p : params) : params := p_text name (text_of (show_float x)) p.
Definition conv_f32 (s : string) : pres f32 :=
  match scan Float (bytes_of s, true) None with
  | (([], true), Some b) => Val (f32_of_bits b)
  | _ => BadText
  end.

(** A failing Get throws. *)
Definition param {A : Type} (r : pres A) : res A := match r with Val v => Ok v | _ => Throw end.

(** ** Building *)

(** src/index.cpp:41-69: byte types have no inner product. *)
Definition made_for (kt : ktype) (m : metric) : bool := match kt, m with KFloat, _ => true | _, L2 => true | _, _ => false end.

(** src/index.cpp:81-84: the data is read before the distance function is made. *)
Definition with_metric {A : Type} (kt : ktype) (m : metric) (g : nat -> list N) (data : string) (d : fs) (r : res A) : res A :=
  if made_for kt m then r else do _ <- load_aligned_bin (kwidth kt) (g 0%nat) (g 1%nat) (d data); Throw.

(** tests/build_vamana.cpp:16-51.  [pd] gives the distance function for a type and a metric;
    the other inputs are those of [vamana_tool]. *)
Definition build_vamana_index (g : nat -> list N) (sortf : list neighbor -> list neighbor) (pd : ktype -> metric -> vec -> vec -> f32)
    (cent : list f32) (work : list (label * list nat)) (sched order : list nat)
    (kt : ktype) (data labels : string) (m : metric) (R L : N) (alpha : f32) (save : string) (threads : N) (d : fs) : res fs :=
  let p := p_set "num_threads" threads (p_text "saturate_graph" "0" (p_float "alpha" alpha (p_set "C" 750 (p_set "L" L (p_set "R" R new_params))))) in
  do C <- param (p_get conv_u32 "C" p);
  do R1 <- param (p_get conv_u32 "R" p);
  do L1 <- param (p_get conv_u32 "L" p);
  do alpha1 <- param (p_get conv_f32 "alpha" p);
  do pr <- param (p_get conv_u32 "pruning_rule" p);
  do r <- with_metric kt m g data d
            (vamana_tool (kwidth kt) g sortf (pd kt m) data [] labels (mkB (N.to_nat L1) (N.to_nat R1) (N.to_nat C) alpha1 (N.to_nat pr)) cent work sched order save d);
  Ok (snd r).

(** tests/build_vamana.cpp:53-106: the exit status and the files.  [atof] is the library
    function; the result is converted to float. *)
Definition build_vamana_main (atof : string -> spec_float) (g : nat -> list N) (sortf : list neighbor -> list neighbor) (pd : ktype -> metric -> vec -> vec -> f32)
    (cent : list f32) (work : list (label * list nat)) (sched order : list nat) (argv : list string) (d : fs) : res (Z * fs) :=
  if ((length argv <? 10) || (11 <? length argv))%nat then Exit
  else
    do ms <- arg argv 2;
    match metric_of ms with
    | None => Ok ((-1)%Z, d)
    | Some m =>
        do data <- arg argv 3;
        do o <- opt_arg argv 4;
        let labels := match fst o with Some s => s | None => "" end in
        let c := snd o in
        do save <- arg argv c;
        do R <- int_arg argv (c + 1);
        do L <- int_arg argv (c + 2);
        do al <- arg argv (c + 3);
        do t <- int_arg argv (c + 4);
        do ty <- arg argv 1;
        match kind_of ty with
        | None => Ok (0%Z, d)
        | Some kt =>
            do d' <- build_vamana_index g sortf pd cent work sched order kt data labels m (int_u32 R) (int_u32 L) (f32_of_f64 (atof al)) save (int_u32 t) d;
            Ok (0%Z, d')
        end
    end.

(** tests/build_hnsw.cpp:16-43: [choices k] are the choices of level k, counted from the
    outermost.  alpha keeps its default.  The parameters are read in build, behind the
    constructor (src/hnsw.cpp:125-149). *)
Definition build_hnsw_index (g : nat -> list N) (sortf : list neighbor -> list neighbor) (pd : ktype -> metric -> vec -> vec -> f32) (choices : nat -> hchoice)
    (kt : ktype) (data : string) (m : metric) (R L rule : N) (rate : f32) (levels : N) (save : string) (threads : N) (d : fs) : res fs :=
  let p := p_set "num_threads" threads (p_text "saturate_graph" "0" (p_float "sampling_rate" rate (p_set "pruning_rule" rule (p_set "C" 750 (p_set "L" L (p_set "R" R new_params)))))) in
  do _ <- with_metric kt m g data d (construct (kwidth kt) g data [] "" d);
  do _ <- param (p_get conv_f32 "sampling_rate" p);
  do pr <- param (p_get conv_u32 "pruning_rule" p);
  do L1 <- param (p_get conv_u32 "L" p);
  do R1 <- param (p_get conv_u32 "R" p);
  do al <- param (p_get conv_f32 "alpha" p);
  do C <- param (p_get conv_u32 "C" p);
  do r <- hnsw_tool (kwidth kt) g sortf (pd kt m) data [] (mkB (N.to_nat L1) (N.to_nat R1) (N.to_nat C) al (N.to_nat pr))
            (map choices (seq 0 (S (N.to_nat (sub32 levels 1))))) save d;
  Ok (snd r).

(** tests/build_hnsw.cpp:45-94 *)
Definition build_hnsw_main (atof : string -> spec_float) (g : nat -> list N) (sortf : list neighbor -> list neighbor) (pd : ktype -> metric -> vec -> vec -> f32) (choices : nat -> hchoice)
    (argv : list string) (d : fs) : res (Z * fs) :=
  if negb (length argv =? 11)%nat then Exit
  else
    do ms <- arg argv 2;
    match metric_of ms with
    | None => Ok ((-1)%Z, d)
    | Some m =>
        do data <- arg argv 3;
        do save <- arg argv 4;
        do R <- int_arg argv 5;
        do L <- int_arg argv 6;
        do rule <- int_arg argv 7;
        do rate <- arg argv 8;
        do levels <- int_arg argv 9;
        do t <- int_arg argv 10;
        do ty <- arg argv 1;
        match kind_of ty with
        | None => Ok (0%Z, d)
        | Some kt =>
            do d' <- build_hnsw_index g sortf pd choices kt data m (int_u32 R) (int_u32 L) (int_u32 rule) (f32_of_f64 (atof rate)) (int_u32 levels) save (int_u32 t) d;
            Ok (0%Z, d')
        end
    end.

(** tests/build_relng.cpp:16-33 *)
Definition build_relng_index (g : nat -> list N) (sortf : list neighbor -> list neighbor) (pd : ktype -> metric -> vec -> vec -> f32) (cent : list f32) (order : list nat)
    (kt : ktype) (data : string) (m : metric) (save : string) (d : fs) : res fs :=
  do r <- with_metric kt m g data d (rng_tool (kwidth kt) g sortf (pd kt m) data [] cent order save d);
  Ok (snd r).

(** tests/build_relng.cpp:35-73 *)
Definition build_relng_main (g : nat -> list N) (sortf : list neighbor -> list neighbor) (pd : ktype -> metric -> vec -> vec -> f32) (cent : list f32) (order : list nat)
    (argv : list string) (d : fs) : res (Z * fs) :=
  if negb (length argv =? 6)%nat then Exit
  else
    do ms <- arg argv 2;
    match metric_of ms with
    | None => Ok ((-1)%Z, d)
    | Some m =>
        do data <- arg argv 3;
        do save <- arg argv 4;
        do _ <- int_arg argv 5;
        do ty <- arg argv 1;
        match kind_of ty with
        | None => Ok (0%Z, d)
        | Some kt => do d' <- build_relng_index g sortf pd cent order kt data m save d; Ok (0%Z, d')
        end
    end.

(** tests/build_ivf.cpp:16-35; the centres are those of the training. *)
Definition build_ivf_index (g : nat -> list N) (popf : list (nat * f32) -> list (nat * f32)) (mbs : nat) (cd : ktype -> vec -> list (option N) -> f32)
    (centers : list N) (orders : nat -> list (nat * nat))
    (kt : ktype) (data labels : string) (clusters : N) (rate : f32) (save : string) (d : fs) : res fs :=
  let p := p_float "training_rate" rate (p_set "num_clusters" clusters new_params) in
  do _ <- construct (kwidth kt) g data [] labels d;
  do nc <- param (p_get conv_u32 "num_clusters" p);
  do _ <- param (p_get conv_f32 "training_rate" p);
  do r <- ivf_tool (kwidth kt) g popf mbs (cd kt) data [] labels nc centers orders save d;
  Ok (snd r).

(** tests/build_ivf.cpp:37-69 *)
Definition build_ivf_main (atof : string -> spec_float) (g : nat -> list N) (popf : list (nat * f32) -> list (nat * f32)) (mbs : nat) (cd : ktype -> vec -> list (option N) -> f32)
    (centers : list N) (orders : nat -> list (nat * nat)) (argv : list string) (d : fs) : res (Z * fs) :=
  if ((length argv <? 7) || (8 <? length argv))%nat then Exit
  else
    do data <- arg argv 2;
    do o <- opt_arg argv 3;
    let labels := match fst o with Some s => s | None => "" end in
    let c := snd o in
    do save <- arg argv c;
    do nc <- int_arg argv (c + 1);
    do rate <- arg argv (c + 2);
    do ty <- arg argv 1;
    match kind_of ty with
    | None => Ok (0%Z, d)
    | Some kt => do d' <- build_ivf_index g popf mbs cd centers orders kt data labels (int_u32 nc) (f32_of_f64 (atof rate)) save d; Ok (0%Z, d')
    end.

(** src/lsh.cpp:27-40, generate_hps: [draw t i j] is the number drawn for coordinate j of
    hyperplane i of table t, any float. *)
Definition planes_of (draw : nat -> nat -> nat -> N) (tables size dim : nat) : list (list (list N)) :=
  map (fun t => map (fun i => map (draw t i) (seq 0 dim)) (seq 0 size)) (seq 0 tables).

(** tests/build_lsh.cpp:5-20.  Above 64 hyperplanes [lsh_tool] exits before any are used. *)
Definition build_lsh_index (g : nat -> list N) (dotf : list N -> list f32 -> f32) (fv : ktype -> vec -> list f32) (draw : nat -> nat -> nat -> N)
    (kt : ktype) (data labels : string) (tables size : N) (save : string) (d : fs) : res fs :=
  let p := p_set "table_size" size (p_set "num_tables" tables new_params) in
  do a <- construct (kwidth kt) g data [] labels d;
  do nt <- param (p_get conv_u32 "num_tables" p);
  do ts <- param (p_get conv_u32 "table_size" p);
  do r <- lsh_tool (kwidth kt) g dotf (fv kt) data [] labels ts (planes_of draw (N.to_nat nt) (N.to_nat ts) (N.to_nat (a_adim a))) save d;
  Ok (snd r).

(** tests/build_lsh.cpp:22-52 *)
Definition build_lsh_main (g : nat -> list N) (dotf : list N -> list f32 -> f32) (fv : ktype -> vec -> list f32) (draw : nat -> nat -> nat -> N)
    (argv : list string) (d : fs) : res (Z * fs) :=
  if ((length argv <? 7) || (8 <? length argv))%nat then Exit
  else
    do data <- arg argv 2;
    do o <- opt_arg argv 3;
    let labels := match fst o with Some s => s | None => "" end in
    let c := snd o in
    do save <- arg argv c;
    do nt <- int_arg argv (c + 1);
    do ts <- int_arg argv (c + 2);
    do ty <- arg argv 1;
    match kind_of ty with
    | None => Ok (0%Z, d)
    | Some kt => do d' <- build_lsh_index g dotf fv draw kt data labels (int_u32 nt) (int_u32 ts) save d; Ok (0%Z, d')
    end.

(** ** Searching *)

(** tests/search_vamana.cpp:141-145: the recall of one list size, 0 without a truth set.
    calculate_recall takes unsigned numbers, and the array of ids holds 32-bit ones. *)
Definition recall_of (truth : option (N * N * list N * option (list N))) (nq k : N) (ids : list nat) : res f32 :=
  match truth with
  | None => Ok f32_zero
  | Some (_, dim, gold, ds) =>
      let k32 := (k mod 4294967296)%N in
      do hs <- recall_hits gold (option_map (map f32_of_bits) ds) dim (map (fun i => (N.of_nat i mod 4294967296)%N) ids) k32 k32 (N.to_nat nq) 0;
      Ok (f32_of_f64 (recall_percent (N.of_nat (list_sum hs)) nq k32))
  end.

(** tests/search_vamana.cpp:116-176 for the values of L in turn: the ids and the recall.
    vector::resize throws from 2^61 elements on (recall_at * query_num, modulo 2^64; the
    product is below 2^63 or recall_at was negative and the remainder is above 2^63).  L
    is passed on as a 32-bit number. *)
Fixpoint run_queries (w : nat) (adim qadim : N) (mem : list vec) (srch : searcher) (truth : option (N * N * list N * option (list N))) (nq k : N) (Ls : list N) (order : N -> list nat)
  : res (list (N * list nat * f32)) :=
  match Ls with
  | [] => Ok []
  | L :: rest =>
      if (2305843009213693952 <=? (k * nq) mod 18446744073709551616)%N then Throw
      else
        do ids <- run_test w adim qadim mem srch (N.to_nat nq) (N.to_nat k) (N.to_nat (L mod 4294967296)) (order L);
        do r <- recall_of truth nq k ids;
        do t <- run_queries w adim qadim mem srch truth nq k rest order;
        Ok ((L, ids, r) :: t)
  end.

(** tests/search_vamana.cpp:69-190: the files and the printed table, [None] if no value of L
    is large enough.  A truth file that is not there is not read. *)
Definition search_files (w : nat) (g1 g2 : list N) (h : nat -> N) (query_name truth_name prefix : string) (k : N) (least : N) (args : list N)
    (order : N -> list nat) (load : fs -> res (N * searcher)) (d : fs) : res (option (fs * list (N * f32))) :=
  match filter (fun L => (least <=? L)%N) args with
  | [] => Ok None
  | Ls =>
      do r <- load_aligned_bin w g1 g2 (d query_name);
      let '(nq, _, qadim, mem) := r in
      do truth <- match d truth_name with
                  | None => Ok None
                  | Some b => do t <- load_truthset h (Some b); Ok (Some t)
                  end;
      do ix <- load d;
      let (adim, srch) := ix : N * searcher in
      do rs <- run_queries w adim qadim mem srch truth nq k Ls order;
      do d' <- save_results prefix nq k (map fst rs) d;
      Ok (Some (d', map (fun r => (fst (fst r), snd r)) rs))
  end.

(** The result of search_index is not looked at: the exit status is 0. *)
Definition shown (r : res (option (fs * list (N * f32)))) (d : fs) : res (Z * fs * list (N * f32)) :=
  do x <- r;
  match x with Some (d', t) => Ok (0%Z, d', t) | None => Ok (0%Z, d, []) end.

(** tests/search_vamana.cpp:21-97, 192-212. *)
Definition search_vamana_main (g1 g2 : list N) (h : nat -> N) (g : nat -> list N) (sortf : list neighbor -> list neighbor) (qd : ktype -> metric -> vec -> vec -> f32) (order : N -> list nat)
    (argv : list string) (d : fs) : res (Z * fs * list (N * f32)) :=
  if (length argv <? 11)%nat then Exit
  else
    do ty <- arg argv 1;
    match kind_of ty with
    | None => Ok (0%Z, d, [])
    | Some kt =>
        do ms <- arg argv 2;
        match metric_of ms with
        | None => Ok (0%Z, d, [])
        | Some m =>
            do file <- arg argv 3;
            do _ <- int_arg argv 4;
            do query <- arg argv 5;
            do truth <- arg argv 6;
            do k <- int_arg argv 7;
            do prefix <- arg argv 8;
            do o <- opt_arg argv 9;
            let filters := match fst o with Some s => [s] | None => [] end in
            do Ls <- map_res atoi (skipn (snd o) argv);
            let K := int_u64 k in
            shown (search_files (kwidth kt) g1 g2 h query truth prefix K K (map int_u64 Ls) order
              (fun d => if made_for kt m then load_for_vamana (kwidth kt) g sortf (qd kt m) filters (N.to_nat K) file d else Throw) d) d
        end
    end.

(** tests/search_hnsw.cpp:21-91, 186-206: the argument behind the prefix is the number of
    levels. *)
Definition search_hnsw_main (g1 g2 : list N) (h : nat -> N) (g : nat -> list N) (sortf : list neighbor -> list neighbor) (qd : ktype -> metric -> vec -> vec -> f32) (order : N -> list nat)
    (argv : list string) (d : fs) : res (Z * fs * list (N * f32)) :=
  if (length argv <? 11)%nat then Exit
  else
    do ty <- arg argv 1;
    match kind_of ty with
    | None => Ok (0%Z, d, [])
    | Some kt =>
        do ms <- arg argv 2;
        match metric_of ms with
        | None => Ok (0%Z, d, [])
        | Some m =>
            do file <- arg argv 3;
            do levels <- int_arg argv 4;
            do _ <- int_arg argv 5;
            do query <- arg argv 6;
            do truth <- arg argv 7;
            do k <- int_arg argv 8;
            do prefix <- arg argv 9;
            do Ls <- map_res atoi (skipn 10 argv);
            let K := int_u64 k in
            shown (search_files (kwidth kt) g1 g2 h query truth prefix K K (map int_u64 Ls) order
              (fun d => if made_for kt m then load_for_hnsw (kwidth kt) g sortf (qd kt m) (N.to_nat K) (S (N.to_nat (sub32 (int_u32 levels) 1))) file d else Throw) d) d
        end
    end.

(** tests/search_relng.cpp:21-92, 187-208: the object is made from the data file before the
    index is loaded into it. *)
Definition load_rng_over (kt : ktype) (m : metric) (gc g : nat -> list N) (sortf : list neighbor -> list neighbor) (qd : ktype -> metric -> vec -> vec -> f32)
    (k : nat) (data name : string) (d : fs) : res (N * searcher) :=
  do a <- with_metric kt m gc data d (construct (kwidth kt) gc data [] "" d);
  do r <- load_rng (kwidth kt) g name (mkGA a 0 0 [] []) d;
  Ok (a_adim (g_ann (fst r)), rng_searcher sortf (qd kt m) k (fst r)).
Definition search_relng_main (g1 g2 : list N) (h : nat -> N) (gc g : nat -> list N) (sortf : list neighbor -> list neighbor) (qd : ktype -> metric -> vec -> vec -> f32) (order : N -> list nat)
    (argv : list string) (d : fs) : res (Z * fs * list (N * f32)) :=
  if (length argv <? 11)%nat then Exit
  else
    do ty <- arg argv 1;
    match kind_of ty with
    | None => Ok (0%Z, d, [])
    | Some kt =>
        do ms <- arg argv 2;
        match metric_of ms with
        | None => Ok (0%Z, d, [])
        | Some m =>
            do data <- arg argv 3;
            do file <- arg argv 4;
            do _ <- int_arg argv 5;
            do query <- arg argv 6;
            do truth <- arg argv 7;
            do k <- int_arg argv 8;
            do prefix <- arg argv 9;
            do Ls <- map_res atoi (skipn 10 argv);
            let K := int_u64 k in
            shown (search_files (kwidth kt) g1 g2 h query truth prefix K K (map int_u64 Ls) order (load_rng_over kt m gc g sortf qd (N.to_nat K) data file) d) d
        end
    end.

(** tests/search_ivf.cpp:21-74, 170-190: no metric; probe widths from 1 on. *)
Definition search_ivf_main (g1 g2 : list N) (h : nat -> N) (g : nat -> list N) (popf : list (nat * f32) -> list (nat * f32)) (mbs : nat)
    (qd : ktype -> vec -> vec -> f32) (cd : ktype -> vec -> list (option N) -> f32) (order : N -> list nat)
    (argv : list string) (d : fs) : res (Z * fs * list (N * f32)) :=
  if (length argv <? 10)%nat then Exit
  else
    do ty <- arg argv 1;
    match kind_of ty with
    | None => Ok (0%Z, d, [])
    | Some kt =>
        do file <- arg argv 2;
        do _ <- int_arg argv 3;
        do query <- arg argv 4;
        do truth <- arg argv 5;
        do k <- int_arg argv 6;
        do prefix <- arg argv 7;
        do o <- opt_arg argv 8;
        let filters := match fst o with Some s => [s] | None => [] end in
        do Ls <- map_res atoi (skipn (snd o) argv);
        let K := int_u64 k in
        shown (search_files (kwidth kt) g1 g2 h query truth prefix K 1 (map int_u64 Ls) order
          (load_for_ivf (kwidth kt) g popf mbs (qd kt) (cd kt) filters (N.to_nat K) file) d) d
    end.

(** tests/search_lsh.cpp:18-76, 171-192: the only list size is 1; further arguments are not
    looked at. *)
Definition search_lsh_main (g1 g2 : list N) (h : nat -> N) (g : nat -> list N) (dotf : list N -> list f32 -> f32) (fv : ktype -> vec -> list f32)
    (qd : ktype -> vec -> vec -> f32) (order : N -> list nat) (argv : list string) (d : fs) : res (Z * fs * list (N * f32)) :=
  if (length argv <? 9)%nat then Exit
  else
    do ty <- arg argv 1;
    match kind_of ty with
    | None => Ok (0%Z, d, [])
    | Some kt =>
        do file <- arg argv 2;
        do _ <- int_arg argv 3;
        do query <- arg argv 4;
        do truth <- arg argv 5;
        do k <- int_arg argv 6;
        do prefix <- arg argv 7;
        do o <- opt_arg argv 8;
        let filters := match fst o with Some s => [s] | None => [] end in
        let K := int_u64 k in
        shown (search_files (kwidth kt) g1 g2 h query truth prefix K 1 [1%N] order
          (load_for_lsh (kwidth kt) g dotf (fv kt) (qd kt) filters (N.to_nat K) file) d) d
    end.
