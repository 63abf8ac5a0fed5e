(** * Random data: include/random_dist_gen.h, tests/build_random_dist.cpp (tests/dist_gen.cpp is the
    same text) and tests/load_random_dist.cpp.

    The generator is the one of libstdc++ (bits/random.tcc, mersenne_twister_engine::operator()): 624
    words and an index; all words used up, it makes 624 new ones ([regen], left open; not split
    into steps).  [mt_x] lists the words as they come out (tempering is a function of one word).
    seed() sets the index to 624. *)
From Coq Require Import NArith ZArith String List Arith Bool Floats.SpecFloat.
From Verif Require Import Base Bytes Float32 FloatBits StreamModel BinModel TsvModel NormModel IndexFileModel CmdModel RandModel.
Import ListNotations.

Definition mt_size : nat := 624.
Record mt := mkMt { mt_x : list N; mt_p : nat }.

(** ** The parallel loop of random_cube

    A draw is four steps of a thread: compare the index with 624 and renew the words, read the
    index, write it back incremented, read the word (and write the number made of it).  The steps
    of the threads interleave in any way. *)
Inductive draw_pc := Check | Load | Store (q : nat) | Use (q : nat).
Record thread := mkT { t_cells : list nat; t_pc : draw_pc }.
Record world := mkW { w_mt : mt; w_threads : list thread; w_data : list f32 }.

(** bits/random.tcc operator() and include/random_dist_gen.h:38: the cell at the head of the list is
    the one being drawn. *)
Definition thread_step (regen : list N -> list N) (dist : N -> f32) (w : world) (t : nat) : res world :=
  match nth_error (w_threads w) t with
  | None => Ok w
  | Some th =>
      match t_cells th with
      | [] => Ok w
      | c :: rest =>
          match t_pc th with
          | Check =>
              let m := if mt_size <=? mt_p (w_mt w) then mkMt (regen (mt_x (w_mt w))) 0 else w_mt w in
              do ts <- wr (w_threads w) t (mkT (c :: rest) Load); Ok (mkW m ts (w_data w))
          | Load => do ts <- wr (w_threads w) t (mkT (c :: rest) (Store (mt_p (w_mt w)))); Ok (mkW (w_mt w) ts (w_data w))
          | Store q => do ts <- wr (w_threads w) t (mkT (c :: rest) (Use q)); Ok (mkW (mkMt (mt_x (w_mt w)) (S q)) ts (w_data w))
          | Use q =>
              do x <- rd (mt_x (w_mt w)) q;
              do data <- wr (w_data w) c (dist x);
              do ts <- wr (w_threads w) t (mkT rest Check); Ok (mkW (w_mt w) ts data)
          end
      end
  end.
Fixpoint run_threads (regen : list N -> list N) (dist : N -> f32) (w : world) (sched : list nat) : res world :=
  match sched with
  | [] => Ok w
  | t :: rest => do w' <- thread_step regen dist w t; run_threads regen dist w' rest
  end.

(** include/random_dist_gen.h:35-40: schedule(static, 64) gives row ii to thread ii / 64 mod T; the
    index is a product and sum of _u32. *)
Definition row_cells (dim : N) (ii : nat) : list nat := map (fun jj => N.to_nat ((N.of_nat ii * dim + N.of_nat jj) mod 4294967296)) (seq 0 (N.to_nat dim)).
Definition rows_of (T : nat) (n : N) (t : nat) : list nat := filter (fun ii => (ii / 64) mod T =? t) (seq 0 (N.to_nat n)).
Definition thread_cells (T : nat) (n dim : N) (t : nat) : list nat := flat_map (row_cells dim) (rows_of T n t).

Definition finished (w : world) : bool := forallb (fun th => match t_cells th with [] => true | _ => false end) (w_threads w).

(** include/random_dist_gen.h:28-46 random_cube with T threads; [x0] are the words after seeding. *)
Definition cube_value (x : N) : f32 := uniform32 (fneg f32_one) f32_one x.
Definition random_cube (regen : list N -> list N) (x0 : list N) (T : nat) (sched : list nat) (n dim : N) : res (list N) :=
  let w0 := mkW (mkMt x0 mt_size) (map (fun t => mkT (thread_cells T n dim t) Check) (seq 0 T)) (repeat S754_nan (N.to_nat ((n * dim) mod 4294967296))) in
  do w <- run_threads regen cube_value w0 sched;
  if finished w then save_bin 4 (map bits_of_f32 (w_data w)) n dim else Fuel.

(** ** random_gaussian

    std::normal_distribution<float>::operator() (bits/random.tcc): pairs of words are points of a
    square; the first one in the disc and not at its centre gives two numbers, of which the second
    is kept for the next call.  [logf] is the logarithm of the library; [way]: the
    compiler may use a fused operation for the sum of the squares. *)
Definition polar_coord (w : N) : f32 := fsub (fmul (f32_of_Z 2) (canonical32 w)) f32_one.
Inductive sum_way := Plain | FuseX | FuseY.
Definition polar_r2 (way : sum_way) (x y : f32) : f32 :=
  match way with Plain => fadd (fmul x x) (fmul y y) | FuseX => FusedModel.ffma x x (fmul y y) | FuseY => FusedModel.ffma y y (fmul x x) end.
Definition polar_mult (logf : f32 -> f32) (r2 : f32) : f32 := fsqrt (fdiv (fmul (f32_of_Z (-2)) (logf r2)) r2).
Definition rejected (r2 : f32) : bool := flt f32_one r2 || SFeqb r2 f32_zero.
Definition normal_param (v : f32) : f32 := fadd (fmul v f32_one) f32_zero.

(** A call with [pos] words used before: the number, the words used, the number kept. *)
Fixpoint normal_call (logf : f32 -> f32) (way : sum_way) (words : nat -> N) (fuel pos : nat) (saved : option f32) : res (f32 * nat * option f32) :=
  match saved with
  | Some v => Ok (normal_param v, pos, None)
  | None =>
      match fuel with
      | O => Fuel
      | S fuel' =>
          let x := polar_coord (words pos) in
          let y := polar_coord (words (S pos)) in
          let r2 := polar_r2 way x y in
          if rejected r2 then normal_call logf way words fuel' (S (S pos)) None
          else Ok (normal_param (fmul y (polar_mult logf r2)), S (S pos), Some (fmul x (polar_mult logf r2)))
      end
  end.
Fixpoint normal_fill (logf : f32 -> f32) (way : sum_way) (words : nat -> N) (fuel cnt pos : nat) (saved : option f32) : res (list f32) :=
  match cnt with
  | O => Ok []
  | S cnt' =>
      do r <- normal_call logf way words fuel pos saved;
      let '(v, pos', saved') := r in
      do rest <- normal_fill logf way words fuel cnt' pos' saved';
      Ok (v :: rest)
  end.

(** include/random_dist_gen.h:7-26.  Two threads with rows to fill change the generator and the
    number kept without synchronisation: undefined.  Otherwise the cells are filled in order; they
    are more than were allocated if the product is 2^32 or more. *)
Definition random_gaussian (logf : f32 -> f32) (way : sum_way) (words : nat -> N) (fuel : nat) (T : nat) (n dim : N) : res (list N) :=
  if ((1 <? T) && (64 <? N.to_nat n))%nat then UB
  else
    if (4294967296 <=? n * dim)%N then UB
    else
      do data <- normal_fill logf way words fuel (N.to_nat n * N.to_nat dim) 0 None;
      save_bin 4 (map bits_of_f32 data) n dim.

(** ** The tools *)
Local Open Scope string_scope.

(** tests/build_random_dist.cpp: exit status and files. *)
Definition build_random_dist_main (regen : list N -> list N) (x0 : list N) (sched : list nat) (logf : f32 -> f32) (way : sum_way) (words : nat -> N) (fuel : nat) (T : nat) (argv : list string) (d : fs) : res (Z * fs) :=
  if negb (length argv =? 5)%nat then Ok (0%Z, d)
  else
    do ty <- arg argv 1;
    do n <- int_arg argv 2;
    do dim <- int_arg argv 3;
    do name <- arg argv 4;
    do b <- (if String.eqb ty "gaussian" then random_gaussian logf way words fuel T (int_u32 n) (int_u32 dim) else random_cube regen x0 T sched (int_u32 n) (int_u32 dim));
    Ok (0%Z, fs_set d name (Some b)).

(** tests/load_random_dist.cpp:15-20: the counters are ints; [print_row] prints [cnt] numbers from
    [pos] on. *)
Fixpoint print_row (data : list N) (pos cnt : nat) : res (list N) :=
  match cnt with
  | O => Ok [10%N]
  | S cnt' => do x <- rd data pos; do rest <- print_row data (S pos) cnt'; Ok (show_float (f32_of_bits x) ++ [32%N] ++ rest)%list
  end.
Fixpoint print_rows (data : list N) (dim i cnt : nat) : res (list N) :=
  match cnt with
  | O => Ok []
  | S cnt' => do r <- print_row data (i * dim) dim; do rest <- print_rows data dim (S i) cnt'; Ok (r ++ rest)%list
  end.

(** tests/load_random_dist.cpp: exit status and the text printed after the messages of load_bin. *)
Definition load_random_dist_main (g : nat -> list N) (argv : list string) (d : fs) : res (Z * list N) :=
  if negb (length argv =? 3)%nat then Ok (0%Z, [])
  else
    do ty <- arg argv 1;
    do name <- arg argv 2;
    do l <- (if String.eqb ty "gaussian" then load_bin 4 (g 0%nat) (g 1%nat) (d name) else load_bin 4 (g 0%nat) (g 1%nat) (d name));
    let '(npts, ndim, data) := l in
    if ((2147483648 <=? npts) || ((0 <? npts) && (2147483648 <=? ndim)))%N then UB
    else do t <- print_rows data (N.to_nat ndim) 0 (N.to_nat npts); Ok (0%Z, t).
