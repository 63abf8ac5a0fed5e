(** * Text converters: tests/utils/bin_to_tsv.cpp and tests/utils/tsv_to_bin.cpp.

    Texts are byte lists.  The number formats are those of libstdc++ in the C locale:
    operator<< of a float is printf's %g (six significant digits), operator>> of a float
    collects the longest text that can start a number and hands it to strtof.  Both are
    exact integer arithmetic on the value of the float; flushing subnormal floats to
    zero, which -Ofast switches on, is not modelled. *)
From Coq Require Import NArith ZArith SpecFloat List Arith Bool.
From Verif Require Import Base Bytes Float32 FloatBits StreamModel BinModel ClosestModel LloydModel ConvertModel.
Import ListNotations.
Local Open Scope Z_scope.

(** ** Rounding of a positive fraction n / d *)

(** The nearest integer, ties to even. *)
Definition rne (n d : Z) : Z :=
  let q := (2 * n + d) / (2 * d) in
  if ((2 * n + d) mod (2 * d) =? 0) && Z.odd q then q - 1 else q.
(** b ^ k <= n / d, and n / d * b ^ k as a fraction; [k] of either sign. *)
Definition pow_le (b k n d : Z) : bool := if 0 <=? k then b ^ k * d <=? n else d <=? n * b ^ (- k).
Definition scale (b k n d : Z) : Z * Z := if 0 <=? k then (n * b ^ k, d) else (n, d * b ^ (- k)).

(** ** operator<<(float) *)

(** The exponent of the first significant decimal digit: the largest k' <= k with
    10 ^ k' <= n / d. *)
Fixpoint first_digit (fuel : nat) (k n d : Z) : Z :=
  match fuel with
  | O => k
  | S f => if pow_le 10 k n d then k else first_digit f (k - 1) n d
  end.

(** %e with six digits: the digits (100000 to 999999) and the exponent of the first one.
    A float is below 10^39 and at least 10^-45. *)
Definition dec6 (n d : Z) : Z * Z :=
  let k := first_digit 90 38 n d in
  let '(n', d') := scale 10 (5 - k) n d in
  let D := rne n' d' in
  if D =? 1000000 then (100000, k + 1) else (D, k).
Definition sci6 (m : positive) (e : Z) : Z * Z :=
  let '(n, d) := scale 2 e (Zpos m) 1 in dec6 n d.

(** The last [k] decimal digits of n, first one first. *)
Fixpoint digs (k : nat) (n : Z) : list Z :=
  match k with O => [] | S k' => (n / 10 ^ Z.of_nat k') mod 10 :: digs k' n end.
(** %g drops the zeros at the end of the fraction, and a point with nothing behind it. *)
Fixpoint strip0 (l : list Z) : list Z :=
  match l with
  | [] => []
  | d :: t => match strip0 t with [] => if d =? 0 then [] else [d] | t' => d :: t' end
  end.
Definition chars (l : list Z) : list N := map (fun d => Z.to_N (48 + d)) l.
Definition frac (l : list Z) : list N := match strip0 l with [] => [] | t => 46%N :: chars t end.

(** %g: scientific notation below 10^-4 and from 10^6 on, with an exponent of at least
    two digits. *)
Definition fmt_dec (D k : Z) : list N :=
  if (k <? -4) || (6 <=? k) then
    chars (firstn 1 (digs 6 D)) ++ frac (skipn 1 (digs 6 D)) ++ [101%N] ++
    [if k <? 0 then 45%N else 43%N] ++ chars (digs 2 (Z.abs k))
  else if 0 <=? k then
    chars (firstn (Z.to_nat (k + 1)) (digs 6 D)) ++ frac (skipn (Z.to_nat (k + 1)) (digs 6 D))
  else [48%N] ++ frac (repeat 0 (Z.to_nat (- k - 1)) ++ digs 6 D).

Definition minus (s : bool) : list N := if s then [45%N] else [].
(** The sign of a NaN is not kept. *)
Definition show_float (x : f32) : list N :=
  match x with
  | S754_zero s => minus s ++ [48%N]
  | S754_infinity s => minus s ++ [105%N; 110%N; 102%N]
  | S754_nan => [110%N; 97%N; 110%N]
  | S754_finite s m e => minus s ++ (let '(D, k) := sci6 m e in fmt_dec D k)
  end.

(** ** operator>>(float) *)

Definition digitc (c : N) : bool := ((48 <=? c) && (c <=? 57))%N.
Definition signc (c : N) : bool := ((c =? 43) || (c =? 45))%N.

(** The text a number can start with: digits, one point before the exponent, one e after
    a digit, signs at the start ([sgn]) and after the e. *)
Fixpoint take_num (sgn man dot sci : bool) (l : list N) : list N * list N :=
  match l with
  | [] => ([], [])
  | c :: t =>
      if sgn && signc c then let '(a, r) := take_num false man dot sci t in (c :: a, r)
      else if digitc c then let '(a, r) := take_num false true dot sci t in (c :: a, r)
      else if (c =? 46)%N && negb dot && negb sci then let '(a, r) := take_num false man true sci t in (c :: a, r)
      else if ((c =? 101) || (c =? 69))%N && negb sci && man then
        let '(a, r) := take_num true man dot true t in (c :: a, r)
      else ([], l)
  end.

(** Digits: the number they make (after [acc]), how many, the rest. *)
Fixpoint read_digits (acc cnt : Z) (l : list N) : Z * Z * list N :=
  match l with
  | c :: t => if digitc c then read_digits (acc * 10 + (Z.of_N c - 48)) (cnt + 1) t else (acc, cnt, l)
  | [] => (acc, cnt, [])
  end.
Definition read_sign (l : list N) : bool * list N :=
  match l with c :: t => if signc c then ((c =? 45)%N, t) else (false, l) | [] => (false, []) end.
Definition read_point (acc : Z) (l : list N) : Z * Z * list N :=
  match l with c :: t => if (c =? 46)%N then read_digits acc 0 t else (acc, 0, l) | [] => (acc, 0, []) end.
(** strtof must use up the whole text: sign, digits D and power of ten q; None if not. *)
Definition parse_num (l : list N) : option (bool * Z * Z) :=
  let '(s, l1) := read_sign l in
  let '(ip, ci, l2) := read_digits 0 0 l1 in
  let '(D, cf, l3) := read_point ip l2 in
  if ci + cf =? 0 then None
  else match l3 with
       | [] => Some (s, D, - cf)
       | c :: l4 =>
           if ((c =? 101) || (c =? 69))%N then
             let '(es, l5) := read_sign l4 in
             let '(E, ce, l6) := read_digits 0 0 l5 in
             match l6 with
             | [] => if ce =? 0 then None else Some (s, D, (if es then - E else E) - cf)
             | _ => None
             end
           else None
       end.

(** The exponent of the first binary digit of n / d. *)
Definition first_bit (n d : Z) : Z :=
  let k := Z.log2 n - Z.log2 d in if pow_le 2 k n d then k else k - 1.

(** strtof: the nearest float to D * 10 ^ q, ties to even.  None from 2^128 - 2^103 on
    (HUGE_VALF). *)
Definition round32 (s : bool) (n d : Z) : option f32 :=
  let e := Z.max (first_bit n d - 23) (-149) in
  let '(n', d') := scale 2 (- e) n d in
  let m := rne n' d' in
  let '(m', e') := if m =? 16777216 then (8388608, e + 1) else (m, e) in
  if 104 <? e' then None
  else match m' with Zpos p => Some (S754_finite s p e') | _ => Some (S754_zero s) end.
Definition strtof (s : bool) (D q : Z) : option f32 :=
  if D =? 0 then Some (S754_zero s)
  else let '(n, d) := scale 10 q D 1 in round32 s n d.

(** ** The element types *)

(** float, or a byte: int8_t and uint8_t are character types, written and read as one
    character. *)
Inductive elem_type : Set := Float | Byte.
Definition width (t : elem_type) : nat := match t with Float => 4 | Byte => 1 end.

Definition is_ws (c : N) : bool := ((c =? 32) || ((9 <=? c) && (c <=? 13)))%N.
Fixpoint skip_ws (l : list N) : list N :=
  match l with c :: t => if is_ws c then skip_ws t else l | [] => [] end.

(** writer << x, x given by its bits. *)
Definition show_elem (t : elem_type) (x : N) : list N :=
  match t with Float => show_float (f32_of_bits x) | Byte => [x] end.

(** reader >> val: the text left, whether the stream is still usable, and val.  Nothing
    left: val keeps its value.  Not a number: val becomes 0; too large: FLT_MAX; both
    stop the stream. *)
Definition scan (t : elem_type) (st : list N * bool) (val : option N) : (list N * bool) * option N :=
  let '(l, ok) := st in
  if ok then
    match skip_ws l with
    | [] => (([], false), val)
    | c :: r =>
        match t with
        | Byte => ((r, true), Some c)
        | Float =>
            let '(tok, rest) := take_num true false false false (c :: r) in
            match parse_num tok with
            | None => ((rest, false), Some 0%N)
            | Some (s, D, q) =>
                match strtof s D q with
                | Some x => ((rest, true), Some (bits_of_f32 x))
                | None => ((rest, false), Some (bits_of_f32 (S754_finite s 16777215 104)))
                end
            end
        end
    end
  else (st, val).

(** ** bin_to_tsv.cpp *)

(** read_buf[i] as a value of type T; a byte of the buffer is None as long as nothing was
    read into it. *)
Definition elem_at (t : elem_type) (buf : list (option N)) (i : nat) : res N :=
  let b := firstn (width t) (skipn (width t * i) buf) in
  if (length b <? width t)%nat then UB else do l <- initialised b; Ok (dec l).

(** Lines 13-19: the row [i]. *)
Fixpoint tsv_row (t : elem_type) (buf : list (option N)) (nd i d cnt : nat) : res (list N) :=
  match cnt with
  | O => Ok []
  | S cnt' =>
      do x <- elem_at t buf (d + i * nd);
      do r <- tsv_row t buf nd i (S d) cnt';
      Ok (show_elem t x ++ [if (d <? nd - 1)%nat then 9%N else 10%N] ++ r)
  end.
Fixpoint tsv_rows (t : elem_type) (buf : list (option N)) (nd i cnt : nat) : res (list N) :=
  match cnt with
  | O => Ok []
  | S cnt' => do r <- tsv_row t buf nd i 0 nd; do q <- tsv_rows t buf nd (S i) cnt'; Ok (r ++ q)
  end.

(** Lines 8-21, block_convert: always 4 bytes per element are asked for. *)
Definition tsv_block (t : elem_type) (npts nd : nat) (buf : list (option N)) (s : istream) : res (list N * list (option N) * istream) :=
  let '(got, s') := sread (N.of_nat (npts * nd * 4)) s in
  let buf' := map Some got ++ skipn (length got) buf in
  do out <- tsv_rows t buf' nd 0 npts;
  Ok (out, buf', s').

(** Lines 51-63. *)
Fixpoint tsv_blocks (t : elem_type) (bs npts nd i cnt : nat) (buf : list (option N)) (s : istream) : res (list N) :=
  match cnt with
  | O => Ok []
  | S cnt' =>
      do r <- tsv_block t (min (npts - i * bs) bs) nd buf s;
      let '(out, buf', s') := r in
      do q <- tsv_blocks t bs npts nd (S i) cnt' buf' s';
      Ok (out ++ q)
  end.

(** Lines 24-69, main: the text written.  [bs] is blk_size (131072).  Lines 31-35 only
    print a message; with any other type string the text is empty and is not modelled.
    Header variables as in [load_bin]. *)
Definition bin_to_tsv (t : elem_type) (bs : nat) (g1 g2 : list N) (f : file) : res (list N) :=
  let '(npts, nd, s) := read_header g1 g2 (open_file f) in
  let n := N.to_nat npts in
  let d := N.to_nat nd in
  tsv_blocks t bs n d 0 (n_blocks n bs) (repeat None (bs * d * 4)) s.

(** ** tsv_to_bin.cpp *)

(** Lines 15-21: the elements of a block, *cursor = val each time. *)
Fixpoint scan_n (t : elem_type) (cnt : nat) (st : list N * bool) (val : option N) : list (option N) * (list N * bool) :=
  match cnt with
  | O => ([], st)
  | S cnt' =>
      let '(st', val') := scan t st val in
      let '(vs, st'') := scan_n t cnt' st' val' in
      (val' :: vs, st'')
  end.

(** Lines 8-24, block_convert: val is a new, uninitialised variable for every block. *)
Definition untsv_block (t : elem_type) (npts nd : nat) (st : list N * bool) : res (list N * (list N * bool)) :=
  let '(vs, st') := scan_n t (npts * nd) st None in
  do l <- initialised vs;
  Ok (enc_all (width t) l, st').

(** Lines 57-67. *)
Fixpoint untsv_blocks (t : elem_type) (bs npts nd i cnt : nat) (st : list N * bool) : res (list N) :=
  match cnt with
  | O => Ok []
  | S cnt' =>
      do r <- untsv_block t (min (npts - i * bs) bs) nd st;
      do q <- untsv_blocks t bs npts nd (S i) cnt' (snd r);
      Ok (fst r ++ q)
  end.

(** Lines 26-71, main: the file written.  The numbers of points and of dimensions are
    arguments of the program, not taken from the text. *)
Definition tsv_to_bin (t : elem_type) (bs : nat) (f : file) (nd npts : nat) : res (list N) :=
  let st := match f with Some l => (l, true) | None => ([], false) end in
  do out <- untsv_blocks t bs npts nd 0 (n_blocks npts bs) st;
  Ok (u32 (N.of_nat npts) ++ u32 (N.of_nat nd) ++ out).
