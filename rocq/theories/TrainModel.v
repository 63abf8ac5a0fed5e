(** * Building an IVF index, with the training of its centres (src/ivf.cpp:85-122). *)
From Coq Require Import NArith ZArith List Arith Bool Floats.SpecFloat.
From Verif Require Import Base Float32 ClosestModel PqModel SliceModel LloydModel RandModel BlasModel KmeansModel IvfModel PoolModel.
Import ListNotations.

(** What the random generators give: the words of the one that draws the sample, the first centre
    among so many points, the words of the darts of k-means++, the draws of random_centers
    among so many points. *)
Record draws : Type := mkDraws { dr_sample : nat -> N; dr_first : nat -> nat; dr_darts : nat -> N; dr_points : nat -> nat -> nat }.

(** MAX_K_MEANS_REPS (include/essentials.h:58) *)
Definition k_reps : nat := 10.

(** Centres in uninitialised memory must not be read. *)
Definition all_written (cs : list (option (list f32))) : res (list (list f32)) :=
  collect (fun o => match o with Some x => Ok x | None => UB end) cs.

(** src/math_utils.cpp:374-455 kmeans_plus_plus_centers: above 2^23 points random_centers is called
    instead.  [fuel] bounds the rounds. *)
Definition first_centers (fuel : nat) (dr : draws) (train : list (list f32)) (nc : nat) : res (list (list f32)) :=
  if (2 ^ 23 <? N.of_nat (length train))%N then
    do cs <- random_centers train (dr_points dr (length train)) 0 nc [] (repeat None nc);
    all_written cs
  else
    do r <- kmeans_pp fuel train (fun i j => calc_distance (nth i train []) (nth j train [])) (dr_first dr (length train)) (dart (dr_darts dr)) nc;
    match r with
    | None => Fuel
    | Some (_, _, cs) => all_written cs
    end.

(** The choices of BLAS and of the parallel loops: in the iterations of k-means, and in the
    assignment of all points. *)
Record machine : Type := mkM {
  m_nrm2 : list f32 -> f32;
  m_pop : list (nat * f32) -> list (nat * f32);
  m_train_ways : nat -> nat -> nat -> nat -> way;
  m_train_orders : nat -> nat -> nat -> list (nat * nat);   (* by the number of points *)
  m_junk : nat -> list nat;                                 (* closest_center, not initialised *)
  m_ways : nat -> nat -> nat -> way;
  m_orders : nat -> list (nat * nat)
}.

(** src/ivf.cpp:87-122: [data] is _data (the padded vectors, one after the other, of [n] points),
    [conv] the conversion of an element to float, [rate] the parameter training_rate (a float,
    passed as a double); [old] is what _inverted_index held.  The result: the centres and the
    lists.  [mbs] is MAX_BLOCK_SIZE, [csz] the CHUNK_SIZE of lloyds_iter. *)
Definition ivf_train_build (m : machine) (dr : draws) (fuel mbs csz : nat) (conv : N -> f32) (adim n nc : nat) (rate : f32) (data : list N) (old : list (list nat))
    : res (list (list f32) * list (list nat)) :=
  do train <- slice_memory conv adim (fun i => picked_train (f64_of_f32 rate) (dr_sample dr i)) data 0 n;
  do seeds <- first_centers fuel dr train nc;
  do st <- run_lloyds_on (m_nrm2 m) (m_train_ways m) (m_pop m) mbs csz calc_distance (length train) adim nc k_reps train (m_train_orders m (length train)) seeds (m_junk m (length train)) (repeat [] nc);
  do inv <- ivf_build_on (m_nrm2 m) (m_ways m) (m_pop m) mbs adim n nc (map conv data) (concat (ll_centers st)) (m_orders m) old;
  Ok (ll_centers st, inv).

(** src/ivf.cpp:126-169 search, with the distances to the centres computed from [query] (already
    converted to float) as compute_closest_centers does (src/math_utils.cpp:134-222): not at all
    when more lists are asked for than there are centres (139-144). *)
Definition ivf_search_from (nrm2 : list f32 -> f32) (ws : nat -> nat -> nat -> way) (popf : list (nat * f32) -> list (nat * f32)) (mbs adim : nat) (ix : ivf_index) (centers : list (list f32)) (query : list f32)
    (dist : nat -> f32) (probe res_count : nat) (filters : list label) (indices : list nat) (distances : option (list f32)) : res (list nat * option (list f32) * nat * nat) :=
  if (ivf_nc ix <? probe) then ivf_search popf mbs ix (fun _ => f32_zero) dist probe res_count filters indices distances
  else
    do dm <- closest_matrix nrm2 ws mbs adim 1 (ivf_nc ix) query (concat centers);
    ivf_search popf mbs ix (dm 0) dist probe res_count filters indices distances.
