(** * The hash set and map (include/tsl/robin_hash.h, robin_growth_policy.h), as
    tsl::robin_set and tsl::robin_map use them with their default parameters: growth by
    two, maximum load one half, StoreHash false. *)
From Coq Require Import NArith ZArith SpecFloat List Arith Bool.
From Verif Require Import Base Float32 ConvertModel.
Import ListNotations.
Local Open Scope nat_scope.

(** KeySelect, KeyEqual and Hash; [k_store] is STORE_HASH (lines 344-355), true for labels
    (strings), false for ids; [k_limit] is the largest value of the 16-bit integers that
    distances are kept in, 32767 (line 136). *)
Record kind (A K : Type) := mkKind { k_key : A -> K; k_eq : K -> K -> bool; k_hash : K -> N; k_store : bool; k_limit : N }.
Arguments mkKind {A K}.
Arguments k_key {A K}.
Arguments k_eq {A K}.
Arguments k_hash {A K}.
Arguments k_store {A K}.
Arguments k_limit {A K}.

(** Lines 131-285, bucket_entry: the distance from the ideal bucket, the truncated hash
    and the value; [None] is an empty bucket.  The marker of the last bucket is not
    modelled: it says where the array ends. *)
Definition bucket (A : Type) := option (nat * N * A).

(** dist_from_ideal_bucket() + 1, which is 0 for an empty bucket. *)
Definition lv {A : Type} (b : bucket A) : nat := match b with Some (d, _, _) => S d | None => 0 end.

(** Line 136: counting past the limit gives a negative distance; what the table does from
    there is not modelled. *)
Definition bump (lim : N) (d : nat) : res nat := if (N.of_nat d <? lim)%N then Ok (S d) else UB.

(** Line 266 with lines 78-112: the hash as stored, 32 bits of it or nothing. *)
Definition truncated {A K : Type} (P : kind A K) (h : N) : N := if k_store P then (h mod 4294967296)%N else 0%N.

(** m_buckets with m_bucket_count, m_mask, m_nb_elements, m_grow_on_next_insert. *)
Record table (A : Type) := mkT { t_buckets : list (bucket A); t_mask : N; t_size : nat; t_grow : bool }.
Arguments mkT {A}.
Arguments t_buckets {A}.
Arguments t_mask {A}.
Arguments t_size {A}.
Arguments t_grow {A}.

(** include/tsl/robin_growth_policy.h:143-162.  The loop runs for i = 1, 2, 4, ..., 32. *)
Definition is_power_of_two (v : N) : bool := (negb (v =? 0) && (N.land v (v - 1) =? 0))%N.
Definition smear (v i : N) : N := N.lor v (N.shiftr v i).
Definition round_up (v : N) : N :=
  if is_power_of_two v then v
  else if (v =? 0)%N then 1%N
  else (fold_left smear [1; 2; 4; 8; 16; 32] (v - 1) + 1)%N.

(** robin_growth_policy.h:93-105 and robin_hash.h:485-519: a table of at least [n]
    buckets.  Running out of memory, and the length_error above 2^63 buckets, are not
    modelled. *)
Definition new_table {A : Type} (n : N) : table A :=
  let c := if (0 <? n)%N then round_up n else 0%N in
  mkT (repeat None (N.to_nat c)) (c - 1) 0 false.

(** robin_growth_policy.h:111-113; robin_hash.h:1033-1037. *)
Definition bucket_for_hash (mask h : N) : nat := N.to_nat (N.land h mask).
Definition next_bucket (mask : N) (i : nat) : nat := N.to_nat (N.land (N.of_nat i + 1) mask).

(** m_first_or_empty_bucket + i: without buckets, index 0 is a static empty bucket. *)
Definition peek {A : Type} (bs : list (bucket A)) (i : nat) : res (bucket A) :=
  match bs with [] => if i =? 0 then Ok None else UB | _ => rd bs i end.

(** Lines 1055-1071 find_impl and 1101-1115 in insert_impl: the bucket and distance at
    which the loop ends, and whether it found the key. *)
Fixpoint probe {A K : Type} (P : kind A K) (fuel : nat) (bs : list (bucket A)) (mask : N) (k : K) (i d : nat) : res (nat * nat * bool) :=
  match fuel with
  | O => Fuel
  | S fuel' =>
      do b <- peek bs i;
      if d <? lv b then
        match b with
        | Some (_, _, v) =>
            if k_eq P (k_key P v) k then Ok (i, d, true)
            else do d' <- bump (k_limit P) d; probe P fuel' bs mask k (next_bucket mask i) d'
        | None => UB
        end
      else Ok (i, d, false)
  end.

(** Lines 1118-1124: the same without looking at the keys. *)
Fixpoint skip {A : Type} (lim : N) (fuel : nat) (bs : list (bucket A)) (mask : N) (i d : nat) : res (nat * nat) :=
  match fuel with
  | O => Fuel
  | S fuel' =>
      do b <- peek bs i;
      if d <? lv b then do d' <- bump lim d; skip lim fuel' bs mask (next_bucket mask i) d'
      else Ok (i, d)
  end.

(** Lines 1205-1223, insert_value_on_rehash. *)
Fixpoint place {A : Type} (lim : N) (fuel : nat) (mask : N) (bs : list (bucket A)) (i d : nat) (h : N) (v : A) : res (list (bucket A)) :=
  match fuel with
  | O => Fuel
  | S fuel' =>
      do b <- rd bs i;
      if lv b <=? d then
        match b with
        | None => wr bs i (Some (d, h, v))
        | Some (d2, h2, v2) =>
            do bs' <- wr bs i (Some (d, h, v));
            do d3 <- bump lim d2;
            place lim fuel' mask bs' (next_bucket mask i) d3 h2 v2
        end
      else do d' <- bump lim d; place lim fuel' mask bs (next_bucket mask i) d' h v
  end.

(** Lines 1163-1171, with 969-975 load_factor and 1246-1247: many probes in a table that
    is not almost empty ask for growth.  0.15f is 10066330 / 2^26. *)
Definition many_probes (d size count : nat) : bool :=
  (128 <=? d) && fge (fdiv (f32_of_Z (Z.of_nat size)) (f32_of_Z (Z.of_nat count))) (S754_finite false 10066330 (-26)).

(** Lines 1161-1181: the loop of insert_value. *)
Fixpoint shift_in {A : Type} (lim : N) (fuel : nat) (mask : N) (size : nat) (bs : list (bucket A)) (i d : nat) (h : N) (v : A) (flag : bool) : res (list (bucket A) * bool) :=
  match fuel with
  | O => Fuel
  | S fuel' =>
      do b <- rd bs i;
      match b with
      | None => do bs' <- wr bs i (Some (d, h, v)); Ok (bs', flag)
      | Some (d2, h2, v2) =>
          if d2 <? d then
            do bs' <- wr bs i (Some (d, h, v));
            do d3 <- bump lim d2;
            shift_in lim fuel' mask size bs' (next_bucket mask i) d3 h2 v2 (flag || many_probes d size (length bs))
          else do d' <- bump lim d; shift_in lim fuel' mask size bs (next_bucket mask i) d' h v flag
      end
  end.

(** Lines 1154-1159: the value takes the bucket of a value closer to its ideal one. *)
Definition insert_value {A : Type} (lim : N) (mask : N) (size : nat) (bs : list (bucket A)) (i d : nat) (h : N) (v : A) (flag : bool) : res (list (bucket A) * bool) :=
  do b <- rd bs i;
  match b with
  | Some (d2, h2, v2) =>
      do bs' <- wr bs i (Some (d, h, v));
      do d3 <- bump lim d2;
      shift_in lim (length bs) mask size bs' (next_bucket mask i) d3 h2 v2 flag
  | None => UB
  end.

(** Lines 1184-1203, rehash_impl with lines 369-381: the old buckets in order; the stored
    hash is used if there is one and it has enough bits. *)
Definition move_all {A K : Type} (P : kind A K) (mask : N) (old new : list (bucket A)) : res (list (bucket A)) :=
  fold_left (fun r b =>
    do bs <- r;
    match b with
    | None => Ok bs
    | Some (_, th, v) =>
        let h := if k_store P && (mask <=? 4294967295)%N then th else k_hash P (k_key P v) in
        place (k_limit P) (length bs) mask bs (bucket_for_hash mask h) 0 (truncated P h) v
    end) old (Ok new).

Definition rehash_impl {A K : Type} (P : kind A K) (n : N) (t : table A) : res (table A) :=
  let nt := new_table n in
  do bs <- move_all P (t_mask nt) (t_buckets t) (t_buckets nt);
  Ok (mkT bs (t_mask nt) (t_size t) false).

(** Line 983: the load threshold.  float(count) * 0.5f is exact, as the count is a power
    of two or zero. *)
Definition threshold {A : Type} (t : table A) : nat := length (t_buckets t) / 2.

(** Lines 1128-1138 of insert_impl, from bucket [i]. *)
Definition insert_at {A K : Type} (P : kind A K) (t : table A) (i d : nat) (v : A) : res (table A) :=
  let h := truncated P (k_hash P (k_key P v)) in
  do b <- rd (t_buckets t) i;
  match b with
  | None => do bs <- wr (t_buckets t) i (Some (d, h, v)); Ok (mkT bs (t_mask t) (S (t_size t)) (t_grow t))
  | Some _ =>
      do r <- insert_value (k_limit P) (t_mask t) (t_size t) (t_buckets t) i d h v (t_grow t);
      Ok (mkT (fst r) (t_mask t) (S (t_size t)) (snd r))
  end.

(** Lines 1100-1144 insert_impl and 1229-1238 grow_on_high_load: the table, the bucket
    the returned iterator points to and whether the value was inserted. *)
Definition insert {A K : Type} (P : kind A K) (v : A) (t : table A) : res (table A * nat * bool) :=
  let h := k_hash P (k_key P v) in
  do r <- probe P (length (t_buckets t) + 2) (t_buckets t) (t_mask t) (k_key P v) (bucket_for_hash (t_mask t) h) 0;
  let '(i, d, found) := r in
  if found : bool then Ok (t, i, false)
  else if t_grow t || (threshold t <=? t_size t) then
    do t' <- rehash_impl P ((t_mask t + 1) * 2) t;
    do q <- skip (k_limit P) (length (t_buckets t') + 2) (t_buckets t') (t_mask t') (bucket_for_hash (t_mask t') h) 0;
    do t'' <- insert_at P t' (fst q) (snd q) v;
    Ok (t'', fst q, true)
  else do t'' <- insert_at P t i d v; Ok (t'', i, true).

(** Lines 1055-1071: find, as the value found. *)
Definition find {A K : Type} (P : kind A K) (k : K) (t : table A) : res (option A) :=
  do r <- probe P (length (t_buckets t) + 2) (t_buckets t) (t_mask t) k (bucket_for_hash (t_mask t) (k_hash P k)) 0;
  let '(i, d, found) := r in
  if found : bool then do b <- rd (t_buckets t) i; match b with Some (_, _, v) => Ok (Some v) | None => UB end
  else Ok None.

(** Lines 889-891: m[k] = x, for a map: [v] is the pair of k and a default, [set] writes x
    into it. *)
Definition assign {A K : Type} (P : kind A K) (v : A) (set : A -> A) (t : table A) : res (table A) :=
  do r <- insert P v t;
  let '(t', i, _) := r in
  do b <- rd (t_buckets t') i;
  match b with
  | Some (d, h, w) => do bs <- wr (t_buckets t') i (Some (d, h, set w)); Ok (mkT bs (t_mask t') (t_size t') (t_grow t'))
  | None => UB
  end.

(** Lines 1083-1097: the backward shift after erasing. *)
Fixpoint shift_back {A : Type} (fuel : nat) (mask : N) (bs : list (bucket A)) (prev cur : nat) : res (list (bucket A)) :=
  match fuel with
  | O => Fuel
  | S fuel' =>
      do b <- rd bs cur;
      match b with
      | Some (S d, h, v) =>
          do bs1 <- wr bs prev (Some (d, h, v));
          do bs2 <- wr bs1 cur None;
          shift_back fuel' mask bs2 cur (next_bucket mask cur)
      | _ => Ok bs
      end
  end.

(** Lines 821-836 erase(key) and 1073-1097 erase_from_bucket. *)
Definition erase {A K : Type} (P : kind A K) (k : K) (t : table A) : res (table A * nat) :=
  do r <- probe P (length (t_buckets t) + 2) (t_buckets t) (t_mask t) k (bucket_for_hash (t_mask t) (k_hash P k)) 0;
  let '(i, d, found) := r in
  if found : bool then
    do bs <- wr (t_buckets t) i None;
    do bs' <- shift_back (length bs + 1) (t_mask t) bs i (next_bucket (t_mask t) i);
    Ok (mkT bs' (t_mask t) (t_size t - 1) (t_grow t), 1)
  else Ok (t, 0).

(** Lines 646-653. *)
Definition clear {A : Type} (t : table A) : table A :=
  mkT (map (fun _ => None) (t_buckets t)) (t_mask t) 0 false.

(** Lines 986-993: ceil(float(n) / 0.5f), which is twice float(n). *)
Definition doubled (n : N) : N := match trunc (f32_of_Z (Z.of_N n)) with Some z => (2 * Z.to_N z)%N | None => 0%N end.
Definition reserve {A K : Type} (P : kind A K) (n : N) (t : table A) : res (table A) :=
  rehash_impl P (N.max (doubled n) (doubled (N.of_nat (t_size t)))) t.

(** Lines 593-623 and 450-462: what begin(), ++, ..., end() visits, in this order. *)
Definition items {A : Type} (bs : list (bucket A)) : list A := flat_map (fun b => match b with Some (_, _, v) => [v] | None => [] end) bs.
