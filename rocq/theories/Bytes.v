(** * Bytes, little-endian integers, IEEE-754 bit patterns.

    The code writes integers and floats with out.write((char * ) &x, sizeof x) on
    x86-64: little endian, 4 bytes for unsigned, int and float, 8 for size_t and
    _u64. *)
From Coq Require Import NArith ZArith SpecFloat List Lia Bool.
From Verif Require Import Float32.
Import ListNotations.
Local Open Scope N_scope.

(** A byte is a number below 256. *)
Definition is_byte (b : N) : Prop := b < 256.
Definition is_bytes (l : list N) : Prop := Forall is_byte l.

(** [k] bytes, least significant first. *)
Fixpoint enc (k : nat) (x : N) : list N :=
  match k with
  | O => []
  | S k' => x mod 256 :: enc k' (x / 256)
  end.

Fixpoint dec (l : list N) : N :=
  match l with
  | [] => 0
  | b :: t => b + 256 * dec t
  end.

Definition u32 (x : N) : list N := enc 4 x.
Definition u64 (x : N) : list N := enc 8 x.

Lemma enc_length : forall k x, length (enc k x) = k.
Proof. induction k as [|k IH]; intros x; cbn; auto. Qed.

Lemma enc_bytes : forall k x, is_bytes (enc k x).
Proof.
  induction k as [|k IH]; intros x; cbn; constructor; [apply N.mod_lt; lia|apply IH].
Qed.

Lemma dec_enc : forall k x, x < 256 ^ N.of_nat k -> dec (enc k x) = x.
Proof.
  induction k as [|k IH]; intros x H.
  - cbn in *. lia.
  - cbn [enc dec]. rewrite IH.
    + pose proof (N.div_mod x 256 ltac:(lia)). lia.
    + rewrite Nat2N.inj_succ, N.pow_succ_r' in H. apply N.div_lt_upper_bound; lia.
Qed.

Lemma dec_enc_mod : forall k x, dec (enc k x) = x mod 256 ^ N.of_nat k.
Proof.
  induction k as [|k IH]; intros x.
  - cbn. rewrite N.mod_1_r. reflexivity.
  - cbn [enc dec]. rewrite IH, Nat2N.inj_succ, N.pow_succ_r'. rewrite N.mod_mul_r; [lia|lia|]. apply N.pow_nonzero. lia.
Qed.

Lemma dec_bound : forall l, is_bytes l -> dec l < 256 ^ N.of_nat (length l).
Proof.
  induction l as [|b l IH]; intros H; cbn [dec length]; [cbn; lia|]. inversion H as [|? ? Hb Hl]. subst. specialize (IH Hl).
  rewrite Nat2N.inj_succ, N.pow_succ_r'. unfold is_byte in Hb. lia.
Qed.

Lemma enc_dec : forall l, is_bytes l -> enc (length l) (dec l) = l.
Proof.
  induction l as [|b l IH]; intros H; [reflexivity|]. inversion H as [|? ? Hb Hl]. subst. unfold is_byte in Hb. cbn [length enc dec].
  f_equal.
  - rewrite N.mul_comm, N.mod_add by lia. apply N.mod_small. auto.
  - replace ((b + 256 * dec l) / 256) with (dec l); [apply IH; auto|].
    rewrite N.mul_comm, N.div_add by lia. rewrite N.div_small by auto. lia.
Qed.

Lemma dec_app : forall a b, dec (a ++ b) = dec a + 256 ^ N.of_nat (length a) * dec b.
Proof.
  induction a as [|x a IH]; intros b; cbn [app dec length].
  - cbn [N.of_nat]. rewrite N.pow_0_r. lia.
  - rewrite IH, Nat2N.inj_succ, N.pow_succ_r'. lia.
Qed.

Lemma is_bytes_app : forall a b, is_bytes (a ++ b) <-> is_bytes a /\ is_bytes b.
Proof. intros. unfold is_bytes. apply Forall_app. Qed.

(** Every record of a vector written one after the other. *)
Definition enc_all (k : nat) (xs : list N) : list N := flat_map (enc k) xs.

Lemma enc_all_length : forall k xs, length (enc_all k xs) = (k * length xs)%nat.
Proof. intros k xs. unfold enc_all. induction xs as [|x xs IH]; cbn; [lia|]. rewrite app_length, enc_length, IH. lia. Qed.

(** Splitting a byte list into records of [k] bytes and decoding them. *)
Fixpoint dec_all (k cnt : nat) (l : list N) : list N :=
  match cnt with
  | O => []
  | S cnt' => dec (firstn k l) :: dec_all k cnt' (skipn k l)
  end.

Lemma firstn_len_app : forall (A : Type) (k : nat) (a b : list A), length a = k -> firstn k (a ++ b) = a.
Proof. intros A k a b <-. rewrite firstn_app, Nat.sub_diag, firstn_all. cbn. apply app_nil_r. Qed.

Lemma skipn_len_app : forall (A : Type) (k : nat) (a b : list A), length a = k -> skipn k (a ++ b) = b.
Proof. intros A k a b <-. rewrite skipn_app, Nat.sub_diag, skipn_all. reflexivity. Qed.

Lemma dec_all_enc : forall k xs tail, (forall x, In x xs -> x < 256 ^ N.of_nat k) ->
  dec_all k (length xs) (enc_all k xs ++ tail) = xs.
Proof.
  intros k xs. induction xs as [|x xs IH]; intros tail H; [reflexivity|].
  cbn [length dec_all]. unfold enc_all. cbn [flat_map]. rewrite <- app_assoc.
  rewrite firstn_len_app, skipn_len_app by apply enc_length. f_equal.
  - apply dec_enc. apply H. left. auto.
  - apply IH. intros y Hy. apply H. right. auto.
Qed.

(** The float with a given bit pattern (IEEE-754 binary32). *)
Definition f32_of_bits (b : N) : f32 :=
  let s := N.testbit b 31 in
  let e := (b / 2 ^ 23) mod 256 in
  let m := b mod 2 ^ 23 in
  if e =? 0 then match m with N0 => S754_zero s | Npos p => S754_finite s p (-149) end
  else if e =? 255 then (if m =? 0 then S754_infinity s else S754_nan)
  else match m + 2 ^ 23 with N0 => S754_zero s | Npos p => S754_finite s p (Z.of_N e - 150) end.

Example f32_of_bits_case :
  f32_of_bits 1065353216 = f32_one /\ f32_of_bits 3212836864 = fneg f32_one /\ f32_of_bits 2139095039 = FLT_MAX.
Proof. vm_compute. auto. Qed.
