(** * The distance functions on vectors in memory, for whole programs.

    [SystemModel.v] and [ToolModel.v] take any function of two vectors in memory; here are the
    ones the tools use with the L2 metric (src/index.cpp:19-66 picks the class by type). *)
From Coq Require Import NArith ZArith List Arith Bool Floats.SpecFloat.
From Verif Require Import Base Bytes Float32 ClosestModel ConvertModel BinSpec NormModel DistModel FusedModel SystemModel.
Import ListNotations.

(** The elements of a vector in memory, if all are initialised. *)
Fixpoint all_some {A : Type} (l : list (option A)) : option (list A) :=
  match l with
  | [] => Some []
  | Some x :: t => match all_some t with Some r => Some (x :: r) | None => None end
  | None :: _ => None
  end.
Definition mem_elems (kt : ktype) (v : vec) : option (list N) :=
  all_some (map (mem_elem (kwidth kt) v) (seq 0 (length v / kwidth kt))).

(** An element that fits its type and is not an infinity or NaN. *)
Definition elem_fine (kt : ktype) (e : N) : bool :=
  match kt with
  | KFloat => (e <? 4294967296)%N && match f32_of_bits e with S754_zero _ | S754_finite _ _ _ => true | _ => false end
  | _ => (e <? 256)%N
  end.

(** include/distance.h:39-80: compare of DistanceL2Int8, DistanceL2UInt8 and DistanceL2 on n
    elements.  The compiler chooses the order of additions [T n] and the contractions [F n]. *)
Definition l2_code (kt : ktype) (T : nat -> red) (F : nat -> fred) (n : nat) (a b : list N) : res f32 :=
  match kt with
  | KInt8 => l2_int8 (T n) (map int8_val a) (map int8_val b)
  | KUint8 => l2_uint8 (T n) (map Z.of_N a) (map Z.of_N b)
  | KFloat => l2_fused (F n) (map f32_of_bits a) (map f32_of_bits b)
  end.

(** The distance of two vectors in memory.  A total function is needed: 0 stands for what the
    code gives on vectors of different lengths, uninitialised or infinite elements, on
    overflow and on more than 2^31 elements; the theorems are about vectors where none of
    these happens. *)
Definition mem_l2 (kt : ktype) (T : nat -> red) (F : nat -> fred) (p q : vec) : f32 :=
  match mem_elems kt p, mem_elems kt q with
  | Some a, Some b =>
      if (length a =? length b) && (Z.of_nat (length a) <? 2 ^ 31)%Z && forallb (elem_fine kt) a && forallb (elem_fine kt) b then
        match l2_code kt T F (length a) a b with Ok r => if flt r FLT_MAX then r else f32_zero | _ => f32_zero end
      else f32_zero
  | _, _ => f32_zero
  end.

(** src/lsh.cpp:52-56: the inner product of a hyperplane and a vector, whose elements are
    converted to float ([mem_floats]). *)
Definition mem_floats (kt : ktype) (v : vec) : list f32 :=
  match mem_elems kt v with Some l => map (kval kt) l | None => [] end.
Definition hash_dot (F : nat -> fred) (hp : list N) (v : list f32) : f32 :=
  match ip_fused (F (length hp)) (map f32_of_bits hp) v with Ok r => r | _ => f32_zero end.
