(** * IVF index: src/ivf.cpp. *)
From Coq Require Import String List Arith Bool.
From Verif Require Import Base Float32 PoolModel ClosestModel FlatModel.
Import ListNotations.

(** vector<vector<_u32>>::resize. *)
Definition resize_lists (v : list (list nat)) (k : nat) : list (list nat) :=
  firstn k v ++ repeat [] (k - length v).

(** src/ivf.cpp:86-122 build, from the point where the cluster centres are trained:
    the training (random slice, k-means++, Lloyd) only decides the centres, which are
    arbitrary here; [dmat i c] is the computed distance of point i to centre c.
    [old] is the content of _inverted_index before the call (empty for a new index;
    resize does not clear it).  [orders] are the orders of the parallel copy loop. *)
Definition ivf_build (popf : list (nat * f32) -> list (nat * f32)) (mbs : nat) (dmat : nat -> nat -> f32)
    (n num_clusters : nat) (orders : nat -> list (nat * nat)) (old : list (list nat)) : res (list (list nat)) :=
  do r <- compute_closest popf mbs dmat n num_clusters 1 orders (repeat 0 n) (Some (resize_lists old num_clusters));
  match snd r with Some v => Ok v | None => UB end.

(** The state a search reads. *)
Record ivf_index : Type := mkIvf {
  ivf_n : nat;                      (* _num_points *)
  ivf_tags : list nat;              (* _tag_map *)
  ivf_nc : nat;                     (* _num_clusters *)
  ivf_inv : list (list nat);        (* _inverted_index *)
  ivf_labels : label_ctx            (* _pts_to_labels etc. *)
}.

(** src/ivf.cpp:141-145: the candidates, list by list. *)
Fixpoint gather (inv : list (list nat)) (centers : list nat) : res (list nat) :=
  match centers with
  | [] => Ok []
  | c :: rest => do l <- rd inv c; do t <- gather inv rest; Ok (l ++ t)
  end.

(** The copy loop of compute_closest_centers for a single point: one iteration of
    the parallel loop, so the inner loop runs in order. *)
Definition one_point_order (k : nat) (b : nat) : list (nat * nat) :=
  list_prod (seq b (1 - b)) (seq 0 k).

(** src/ivf.cpp:133-145: the lists probed.  [cdist c] is the computed distance of the
    query to centre c. *)
Definition ivf_candidates (popf : list (nat * f32) -> list (nat * f32)) (mbs : nat) (ix : ivf_index)
    (cdist : nat -> f32) (probe_width : nat) : res (list nat) :=
  do r <- compute_closest popf mbs (fun _ => cdist) 1 (ivf_nc ix) probe_width (one_point_order probe_width)
            (repeat 0 probe_width) None;
  gather (ivf_inv ix) (fst r).

(** src/ivf.cpp:126-169 search; [dist id] is the distance of the query to point id. *)
Definition ivf_search (popf : list (nat * f32) -> list (nat * f32)) (mbs : nat) (ix : ivf_index)
    (cdist dist : nat -> f32) (probe_width res_count : nat) (filters : list label)
    (indices : list nat) (distances : option (list f32)) : res (list nat * option (list f32) * nat * nat) :=
  do cands <- ivf_candidates popf mbs ix cdist probe_width;
  flat_search (ivf_n ix) dist (passes_filter (ivf_labels ix) filters) res_count cands indices distances.
