(** Model of the crate gf2_192: GF(2^192) elements and polynomials over them.
    An i64 word is represented by its 64-bit pattern, a number in [0, 2^64). *)
From Coq Require Import NArith List.
From Verif Require Import Base GfTables.
Import ListNotations.
Open Scope N_scope.

(** gf2_192/src/gf2_192.rs:58-61 [struct Gf2_192]. *)
Record gf := Gf { w0 : N; w1 : N; w2 : N }.

(** 64-bit pattern of [w << k] on an i64. *)
Definition shl (w k : N) : N := N.land (N.shiftl w k) (N.ones 64).
(** gf2_192/src/lib.rs:36-38 [lrs_i64], 45-47 [lrs_i8]: logical right shift. *)
Definition lrs (w k : N) : N := N.shiftr w k.

(** gf2_192.rs:30 [IRRED_PENTANOMIAL] and 34-54 [IRRED_MULS]. *)
Definition irred_pentanomial : N :=
  N.lor (N.lor (N.lor (N.shiftl 1 7) (N.shiftl 1 2)) (N.shiftl 1 1)) 1.
Definition irred_muls : list N :=
  let p := irred_pentanomial in
  let p1 := N.shiftl p 1 in let p2 := N.shiftl p 2 in let p3 := N.shiftl p 3 in
  [0; p; p1; N.lxor p1 p;
   p2; N.lxor p2 p; N.lxor p2 p1; N.lxor (N.lxor p2 p1) p;
   p3; N.lxor p3 p; N.lxor p3 p1; N.lxor (N.lxor p3 p1) p;
   N.lxor p3 p2; N.lxor (N.lxor p3 p2) p; N.lxor (N.lxor p3 p2) p1;
   N.lxor (N.lxor (N.lxor p3 p2) p1) p].

(** gf2_192.rs:65-67 [new], 70-72 [is_zero], 75-77 [is_one]. *)
Definition gf_zero : gf := Gf 0 0 0.
Definition gf_one : gf := Gf 1 0 0.
Definition gf_is_zero (a : gf) : bool :=
  (N.eqb (w0 a) 0 && N.eqb (w1 a) 0 && N.eqb (w2 a) 0)%bool.
Definition gf_is_one (a : gf) : bool :=
  (N.eqb (w0 a) 1 && N.eqb (w1 a) 0 && N.eqb (w2 a) 0)%bool.

(** gf2_192.rs:285-294 [impl Add]. *)
Definition gf_add (a b : gf) : gf :=
  Gf (N.lxor (w0 a) (w0 b)) (N.lxor (w1 a) (w1 b)) (N.lxor (w2 a) (w2 b)).

(** gf2_192.rs:102-110, body of the loop computing a*x, a*x^2, a*x^3. *)
Definition times_x (p : gf) : gf :=
  Gf (N.lxor (shl (w0 p) 1) (nth (N.to_nat (lrs (w2 p) 63)) irred_muls 0))
     (N.lor (shl (w1 p) 1) (lrs (w0 p) 63))
     (N.lor (shl (w2 p) 1) (lrs (w1 p) 63)).

(** gf2_192.rs:87-129: the sixteen precomputed multiples (the three parallel arrays
    a0muls, a1muls, a2muls are kept as one array of triples). *)
Definition mul_table (a : gf) : list gf :=
  let m1 := a in
  let m2 := times_x m1 in
  let m4 := times_x m2 in
  let m8 := times_x m4 in
  let m3 := gf_add m1 m2 in
  let m5 := gf_add m4 m1 in let m6 := gf_add m4 m2 in let m7 := gf_add m4 m3 in
  [gf_zero; m1; m2; m3; m4; m5; m6; m7;
   m8; gf_add m8 m1; gf_add m8 m2; gf_add m8 m3;
   gf_add m8 m4; gf_add m8 m5; gf_add m8 m6; gf_add m8 m7].

(** gf2_192.rs:138-143: multiplication of the accumulator by x^4 with reduction. *)
Definition times_x4 (w : gf) : gf :=
  Gf (N.lxor (shl (w0 w) 4) (nth (N.to_nat (lrs (w2 w) 60)) irred_muls 0))
     (N.lor (shl (w1 w) 4) (lrs (w0 w) 60))
     (N.lor (shl (w2 w) 4) (lrs (w1 w) 60)).

(** gf2_192.rs:136-150: one iteration of the inner loop. *)
Definition mul_step (tbl : list gf) (multiplier : N) (w : gf) (i : N) : gf :=
  gf_add (times_x4 w) (nth (N.to_nat (N.land (lrs multiplier i) 15)) tbl gf_zero).

(** [(0..=60).rev().step_by(4)] *)
Definition nibble_shifts : list N :=
  [60; 56; 52; 48; 44; 40; 36; 32; 28; 24; 20; 16; 12; 8; 4; 0].

Definition mul_word (tbl : list gf) (multiplier : N) (w : gf) : gf :=
  fold_left (mul_step tbl multiplier) nibble_shifts w.

(** gf2_192.rs:82-152 [multiply]. *)
Definition gf_mul (a b : gf) : gf :=
  let tbl := mul_table a in
  mul_word tbl (w0 b) (mul_word tbl (w1 b) (mul_word tbl (w2 b) gf_zero)).

(** gf2_192.rs:160-170: one iteration of [mul_by_i8].  Products by the 0/1 values
    [t] and [w3] cannot overflow. *)
Definition mul_i8_step (a : gf) (b : N) (w : gf) (i : N) : gf :=
  let w3 := lrs (w2 w) 63 in
  let t := N.land (lrs b i) 1 in
  Gf (N.lxor (shl (w0 w) 1) (N.lxor (w0 a * t) (irred_pentanomial * w3)))
     (N.lxor (N.lor (shl (w1 w) 1) (lrs (w0 w) 63)) (w1 a * t))
     (N.lxor (N.lor (shl (w2 w) 1) (lrs (w1 w) 63)) (w2 a * t)).

(** gf2_192.rs:155-172 [mul_by_i8]; [b] is the 8-bit pattern of the i8. *)
Definition gf_mul_by_i8 (a : gf) (b : N) : gf :=
  fold_left (mul_i8_step a b) [7; 6; 5; 4; 3; 2; 1; 0] gf_zero.

(** gf2_192.rs:236-259: table driven linear map (branch k < 7).  [lin_word] is the
    inner while loop over the 64 bits of one word, starting at table index [i]. *)
Fixpoint lin_word (cnt : nat) (rows0 rows1 rows2 : list N) (w : N) (t : gf) : gf :=
  match cnt with
  | O => t
  | S cnt' =>
      let m := N.land w 1 in
      lin_word cnt' (tl rows0) (tl rows1) (tl rows2) (lrs w 1)
        (Gf (N.lxor (w0 t) (hd 0 rows0 * m))
            (N.lxor (w1 t) (hd 0 rows1 * m))
            (N.lxor (w2 t) (hd 0 rows2 * m)))
  end.

Definition lin_apply (r0 r1 r2 : list N) (z : gf) : gf :=
  lin_word 64 (skipn 128 r0) (skipn 128 r1) (skipn 128 r2) (w2 z)
    (lin_word 64 (skipn 64 r0) (skipn 64 r1) (skipn 64 r2) (w1 z)
      (lin_word 64 r0 r1 r2 (w0 z) gf_zero)).

Definition pow_small (z : gf) (k : nat) : gf :=
  lin_apply (nth k pow_table_0 []) (nth k pow_table_1 []) (nth k pow_table_2 []) z.

(** gf2_192.rs:211-262 [power_2_to_2_to_k]; the recursive calls are with k = 6. *)
Definition power_2_to_2_to_k (z : gf) (k : nat) : gf :=
  if (7 <=? k)%nat then
    let res := pow_small z 6 in
    if Nat.eqb (Nat.modulo k 2) 1 then pow_small res 6 else res
  else pow_small z k.

(** gf2_192.rs:204-206 [sqr]. *)
Definition gf_sqr (z : gf) : gf := power_2_to_2_to_k z 0.

(** gf2_192.rs:174-199 [invert]; one iteration of the while loop with the already
    incremented [k], on the state (z_to_2_to_k1s, z_to_2_to_k1s_2_to_k0s, res). *)
Definition inv_step (st : gf * gf * gf) (k : nat) : gf * gf * gf :=
  let '(s, t, res) := st in
  let s' := gf_mul t s in
  let t' := power_2_to_2_to_k s' k in
  (s', t', gf_mul res t').
Definition gf_invert (z : gf) : gf :=
  let r := gf_mul z z in
  let '(_, t, res) := fold_left inv_step [1; 2; 3; 4; 5; 6]%nat (z, r, r) in
  gf_mul res (power_2_to_2_to_k t 6).

(** gf2_192.rs:340-347 [From<i32>]: keeps the low 32 bits of the pattern. *)
Definition gf_from_i32 (v : Z) : gf := Gf (Z.to_N (wrapu 32 v)) 0 0.

(** ** Byte conversions *)

Definition byte_of_word (w : N) (i : N) : Z := Z.of_N (N.land (N.shiftr w (8 * i)) 255).
Definition word_bytes (w : N) : bytes := map (byte_of_word w) [0; 1; 2; 3; 4; 5; 6; 7].

(** gf2_192.rs:316-326 [From<Gf2_192> for [u8; 24]] (and 328-338 for [i8; 24], same
    bit patterns; 265-275 [to_i8_slice] writes the same bytes at an offset). *)
Definition gf_to_bytes (g : gf) : bytes :=
  word_bytes (w0 g) ++ word_bytes (w1 g) ++ word_bytes (w2 g).

Definition word_of_bytes (bs : bytes) : N :=
  fold_left (fun acc ib => N.lor acc (N.shiftl (N.land (Z.to_N (snd ib)) 255) (8 * fst ib)))
    (combine [0; 1; 2; 3; 4; 5; 6; 7] bs) 0.

(** gf2_192.rs:383-393 [From<[u8; 24]>]. *)
Definition gf_from_bytes24 (bs : bytes) : gf :=
  Gf (word_of_bytes (firstn 8 bs)) (word_of_bytes (firstn 8 (skipn 8 bs)))
     (word_of_bytes (firstn 8 (skipn 16 bs))).

(** gf2_192.rs:366-380 [TryFrom<&[u8]>] (349-364 for [&[i8]]): extra bytes are
    ignored, fewer than 24 are an error. *)
Definition gf_try_from_bytes (bs : bytes) : res gf :=
  if (Nat.ltb (length bs) 24) then Err "Gf2_192TryFromByteArrayError"
  else Ok (gf_from_bytes24 bs).

(** ** Polynomials: gf2_192poly.rs *)

(** gf2_192poly.rs:43-48. *)
Record poly := Poly { coefficients : list gf; degree : nat }.

Definition coeff (p : poly) (i : nat) : gf := nth i (coefficients p) gf_zero.

(** [v[i] = x] on a vector; out of range is excluded by the invariant
    [length coefficients > degree] (proved for every polynomial built here). *)
Fixpoint upd {A} (i : nat) (x : A) (l : list A) : list A :=
  match l, i with
  | [], _ => []
  | _ :: t, O => x :: t
  | h :: t, S i' => h :: upd i' x t
  end.

(** gf2_192poly.rs:170-180 [make_constant]. *)
Definition make_constant (max_degree : nat) (c : Z) : poly :=
  Poly (upd 0 (gf_from_i32 c) (repeat gf_zero (max_degree + 1))) 0.

(** gf2_192poly.rs:119-124: the loop for d = degree-1 downto 0. *)
Fixpoint eval_loop (d : nat) (cs : list gf) (x : N) (acc : gf) : gf :=
  match d with
  | O => acc
  | S d' => eval_loop d' cs x (gf_add (gf_mul_by_i8 acc x) (nth d' cs gf_zero))
  end.
(** gf2_192poly.rs:114-126 [evaluate]; [x] is a u8. *)
Definition evaluate (p : poly) (x : N) : gf :=
  eval_loop (degree p) (coefficients p) x (coeff p (degree p)).

(** gf2_192poly.rs:148-151: for i in 0..p.degree. *)
Fixpoint amc_loop (i cnt : nat) (pcs : list gf) (r : gf) (cs : list gf) : list gf :=
  match cnt with
  | O => cs
  | S cnt' =>
      amc_loop (S i) cnt' pcs r
        (upd i (gf_add (nth i cs gf_zero) (gf_mul (nth i pcs gf_zero) r)) cs)
  end.
(** gf2_192poly.rs:146-154 [add_monic_times_constant]. *)
Definition add_monic_times_constant (self p : poly) (r : gf) : poly :=
  Poly (upd (degree p) r (amc_loop 0 (degree p) (coefficients p) r (coefficients self)))
       (degree p).

(** gf2_192poly.rs:161-164: for i in (1..degree).rev(), with i running from [i] down
    to 1. *)
Fixpoint lb_loop (i : nat) (r : N) (cs : list gf) : list gf :=
  match i with
  | O => cs
  | S i' =>
      lb_loop i' r
        (upd i (gf_add (gf_mul_by_i8 (nth i cs gf_zero) r) (nth i' cs gf_zero)) cs)
  end.
(** gf2_192poly.rs:158-166 [multiply_by_linear_binomial]. *)
Definition multiply_by_linear_binomial (p : poly) (r : N) : poly :=
  let d := S (degree p) in
  let cs := upd d (gf_from_i32 1) (coefficients p) in
  let cs := lb_loop (d - 1) r cs in
  Poly (upd 0 (gf_mul_by_i8 (nth 0 cs gf_zero) r) cs) d.

(** gf2_192poly.rs:83-98: loop body over (points[i], values[i]). *)
Definition interp_step (st : poly * poly) (pv : N * gf) : poly * poly :=
  let '(result, vanishing) := st in
  let '(pt, v) := pv in
  let t := gf_add (evaluate result pt) v in
  let s := gf_invert (evaluate vanishing pt) in
  let t := gf_mul t s in
  (add_monic_times_constant result vanishing t, multiply_by_linear_binomial vanishing pt).

(** gf2_192poly.rs:69-111 [interpolate]. *)
Definition interpolate (points : list N) (values : list gf) (value_at_zero : gf) : res poly :=
  if Nat.eqb (length points) (length values) then
    let result_degree := length values in
    let '(result, vanishing) :=
      fold_left interp_step (combine points values)
        (make_constant result_degree 0, make_constant result_degree 1) in
    let t := gf_add (coeff result 0) value_at_zero in
    let s := gf_invert (coeff vanishing 0) in
    Ok (add_monic_times_constant result vanishing (gf_mul t s))
  else Err "InterpolatePointsAndValuesLengthDiffer".

(** gf2_192poly.rs:131-140 [to_bytes]: coefficients 1..=degree. *)
Definition poly_to_bytes (p : poly) : bytes :=
  flat_map (fun i => gf_to_bytes (coeff p i)) (seq 1 (degree p)).

(** gf2_192poly.rs:193-195. *)
Fixpoint poly_read (n : nat) (bs : bytes) : res (list gf) :=
  match n with
  | O => Ok []
  | S n' =>
      c <- gf_try_from_bytes bs ;;
      l <- poly_read n' (skipn 24 bs) ;;
      Ok (c :: l)
  end.
(** gf2_192poly.rs:183-201 [TryFrom<CoefficientsByteRepr>]. *)
Definition poly_from_bytes (coeff0 more_coeffs : bytes) : res poly :=
  let d := Nat.div (length more_coeffs) 24 in
  l <- poly_read d more_coeffs ;;
  Ok (Poly (gf_from_bytes24 coeff0 :: l) d).
