(** Model of the crate sigma-ser: VLQ and ZigZag codecs over byte streams. *)
From Verif Require Import Base.

(** ** zig_zag_encode.rs *)

(** sigma-ser/src/zig_zag_encode.rs:12-16 [encode_i32].
    [v << 1] drops the top bit (32-bit), [v >> 31] is arithmetic, the final
    [as u64] sign-extends the i32. *)
Definition encode_i32 (v : Z) : Z :=
  wrapu 64 (Z.lxor (wraps 32 (Z.shiftl v 1)) (Z.shiftr v 31)).

(** sigma-ser/src/zig_zag_encode.rs:20-23 [decode_u32]:
    [(v as u32 >> 1) as i32 ^ -(v as i32 & 1)]. *)
Definition decode_u32 (v : Z) : Z :=
  Z.lxor (wraps 32 (Z.shiftr (wrapu 32 v) 1)) (- (Z.land (wraps 32 v) 1)).

(** sigma-ser/src/zig_zag_encode.rs:30-33 [encode_i64]. *)
Definition encode_i64 (v : Z) : Z :=
  wrapu 64 (Z.lxor (wraps 64 (Z.shiftl v 1)) (Z.shiftr v 63)).

(** sigma-ser/src/zig_zag_encode.rs:37-40 [decode_u64]:
    [((v >> 1) ^ (-((v & 1) as i64)) as u64) as i64]. *)
Definition decode_u64 (v : Z) : Z :=
  wraps 64 (Z.lxor (Z.shiftr v 1) (wrapu 64 (- (Z.land v 1)))).

(** ** vlq_encode.rs: writers *)

(** vlq_encode.rs:41-43 [put_u8], 36-38 [put_i8]. The argument of [put_u8] is a
    [u8]; [as u8] on an [i8] wraps. *)
Definition put_u8 (v : Z) : res bytes := Ok [v].
Definition put_i8 (v : Z) : res bytes := Ok [wrapu 8 v].

(** vlq_encode.rs:89-107 [put_u64]: loop over a ten byte buffer.  Running past the
    buffer is an out-of-bounds index, i.e. a panic; [fuel] is the number of free
    buffer slots. *)
Fixpoint put_u64_loop (fuel : nat) (value : Z) : res bytes :=
  match fuel with
  | O => Panic
  | S fuel' =>
      if Z.land value (Z.lnot 127) =? 0 then Ok [wrapu 8 value]
      else
        tl <- put_u64_loop fuel' (Z.shiftr value 7) ;;
        Ok (wrapu 8 (Z.lor (Z.land (wraps 32 value) 127) 128) :: tl)
  end.
Definition put_u64 (v : Z) : res bytes := put_u64_loop 10 v.

(** vlq_encode.rs:51-53 [put_u16], 73-75 [put_u32]: the value is widened. *)
Definition put_u16 (v : Z) : res bytes := put_u64 v.
Definition put_u32 (v : Z) : res bytes := put_u64 v.

(** vlq_encode.rs:46-48 [put_i16]: zigzag as i32, truncated to u32. *)
Definition put_i16 (v : Z) : res bytes := put_u32 (wrapu 32 (encode_i32 v)).
(** vlq_encode.rs:68-70 [put_i32]. *)
Definition put_i32 (v : Z) : res bytes := put_u64 (encode_i32 v).
(** vlq_encode.rs:84-86 [put_i64]. *)
Definition put_i64 (v : Z) : res bytes := put_u64 (encode_i64 v).

(** vlq_encode.rs:56-59 [put_usize_as_u16_unwrapped], 62-65: panic out of range. *)
Definition put_usize_as_u16_unwrapped (v : Z) : res bytes :=
  if v <? 2 ^ 16 then put_u16 v else Panic.
Definition put_usize_as_u32_unwrapped (v : Z) : res bytes :=
  if v <? 2 ^ 32 then put_u32 v else Panic.

(** Big-endian bytes of the [n]-byte unsigned number [v] ([to_be_bytes]). *)
Fixpoint be_bytes (n : nat) (v : Z) : bytes :=
  match n with
  | O => []
  | S n' => be_bytes n' (v / 256) ++ [v mod 256]
  end.

(** Value of a big-endian byte string ([from_be_bytes]). *)
Definition be_value (bs : bytes) : Z := fold_left (fun acc b => acc * 256 + b) bs 0.

(** vlq_encode.rs:78-81 [put_u32_be_bytes]. *)
Definition put_u32_be_bytes (v : Z) : res bytes := Ok (be_bytes 4 v).
(** vlq_encode.rs:122-124 [put_i16_be_bytes]. *)
Definition put_i16_be_bytes (v : Z) : res bytes := Ok (be_bytes 2 (wrapu 16 v)).

(** vlq_encode.rs:110-119 [put_bits]: bits are packed least significant first
    ([BitVec<u8, Lsb0>]), the last byte is padded with zeros. *)
Fixpoint bits_value (bits : list bool) : Z :=
  match bits with
  | [] => 0
  | b :: l => (if b then 1 else 0) + 2 * bits_value l
  end.

Fixpoint put_bits_bytes (fuel : nat) (bits : list bool) : bytes :=
  match fuel with
  | O => []
  | S fuel' =>
      match bits with
      | [] => []
      | _ => bits_value (firstn 8 bits) :: put_bits_bytes fuel' (skipn 8 bits)
      end
  end.
(** [fuel] is the number of bits, an upper bound for the number of bytes. *)
Definition put_bits (bits : list bool) : res bytes :=
  Ok (put_bits_bytes (List.length bits) bits).

(** vlq_encode.rs:127-137 [put_short_string]: a Rust [&str] is represented by its
    UTF-8 bytes. *)
Definition put_short_string (s : bytes) : res bytes :=
  if Zlen s >? 255 then Err "string too long" else Ok (wrapu 8 (Zlen s) :: s).

(** vlq_encode.rs:140-153 [put_option]. *)
Definition put_option {A} (put_value : A -> res bytes) (o : option A) : res bytes :=
  match o with
  | Some s => b <- put_value s ;; Ok (1 :: b)
  | None => Ok [0]
  end.

(** ** vlq_encode.rs: readers *)

(** vlq_encode.rs:169-173 [get_u8]. *)
Definition get_u8 : reader Z :=
  fun bs => match bs with
            | [] => Err "UnexpectedEof"
            | b :: bs' => Ok (b, bs')
            end.
(** vlq_encode.rs:164-166 [get_i8]. *)
Definition get_i8 : reader Z :=
  fun bs => '(b, bs') <- get_u8 bs ;; Ok (wraps 8 b, bs').

(** vlq_encode.rs:208-222 [get_u64]: [shift] takes the values 0,7,..,63, so at most
    ten bytes are read; [result] is an i64, the last shift drops high bits. *)
Fixpoint get_u64_loop (fuel : nat) (shift result : Z) (bs : bytes) : res (Z * bytes) :=
  match fuel with
  | O => Err "VlqDecodingFailed"
  | S fuel' =>
      '(b, bs') <- get_u8 bs ;;
      let result' := Z.lor result (wraps 64 (Z.shiftl (Z.land b 127) shift)) in
      if Z.land b 128 =? 0 then Ok (wrapu 64 result', bs')
      else get_u64_loop fuel' (shift + 7) result' bs'
  end.
Definition get_u64 : reader Z := get_u64_loop 10 0 0.

(** vlq_encode.rs:184-188 [get_u16]; 196-200 [get_u32]. *)
Definition get_u16 : reader Z :=
  fun bs => '(v, bs') <- get_u64 bs ;;
            if v <? 2 ^ 16 then Ok (v, bs') else Err "TryFrom".
Definition get_u32 : reader Z :=
  fun bs => '(v, bs') <- get_u64 bs ;;
            if v <? 2 ^ 32 then Ok (v, bs') else Err "TryFrom".
(** vlq_encode.rs:176-181 [get_i16]; 191-193 [get_i32]; 203-205 [get_i64]. *)
Definition get_i16 : reader Z :=
  fun bs => '(v, bs') <- get_u64 bs ;;
            let vd := decode_u32 v in
            if (- 2 ^ 15 <=? vd) && (vd <? 2 ^ 15) then Ok (vd, bs') else Err "TryFrom".
Definition get_i32 : reader Z :=
  fun bs => '(v, bs') <- get_u64 bs ;; Ok (decode_u32 v, bs').
Definition get_i64 : reader Z :=
  fun bs => '(v, bs') <- get_u64 bs ;; Ok (decode_u64 v, bs').

(** The eight bits of a byte, least significant first. *)
Definition byte_bits (b : Z) : list bool :=
  [Z.testbit b 0; Z.testbit b 1; Z.testbit b 2; Z.testbit b 3;
   Z.testbit b 4; Z.testbit b 5; Z.testbit b 6; Z.testbit b 7].

(** vlq_encode.rs:225-233 [get_bits]. *)
Definition get_bits (size : nat) : reader (list bool) :=
  fun bs =>
    '(buf, bs') <- read_exact ((size + 7) / 8)%nat bs ;;
    Ok (firstn size (flat_map byte_bits buf), bs').

(** UTF-8 well-formedness (Unicode table 3-7), the check of
    [String::from_utf8]. *)
Definition cont (b : Z) : bool := (128 <=? b) && (b <=? 191).
Fixpoint utf8_valid (l : bytes) : bool :=
  match l with
  | [] => true
  | b0 :: t0 =>
      if b0 <? 128 then utf8_valid t0
      else match t0 with
      | [] => false
      | b1 :: t1 =>
          if (194 <=? b0) && (b0 <=? 223) then cont b1 && utf8_valid t1
          else match t1 with
          | [] => false
          | b2 :: t2 =>
              if (224 <=? b0) && (b0 <=? 239) then
                (if b0 =? 224 then (160 <=? b1) && (b1 <=? 191)
                 else if b0 =? 237 then (128 <=? b1) && (b1 <=? 159) else cont b1)
                && cont b2 && utf8_valid t2
              else match t2 with
              | [] => false
              | b3 :: t3 =>
                  if (240 <=? b0) && (b0 <=? 244) then
                    (if b0 =? 240 then (144 <=? b1) && (b1 <=? 191)
                     else if b0 =? 244 then (128 <=? b1) && (b1 <=? 143) else cont b1)
                    && cont b2 && cont b3 && utf8_valid t3
                  else false
              end
          end
      end
  end.

(** vlq_encode.rs:236-242 [get_short_string]. *)
Definition get_short_string : reader bytes :=
  fun bs =>
    '(n, bs1) <- get_u8 bs ;;
    '(s, bs2) <- read_exact (Z.to_nat n) bs1 ;;
    if utf8_valid s then Ok (s, bs2) else Err "VlqDecodingFailed".

(** vlq_encode.rs:245-255 [get_option]: errors of the element reader are turned into
    [None].  Simplification: after an inner failure the position of the Rust reader
    is unspecified; the model then reports the failure as an error of the whole
    reader. *)
Definition get_option {A} (get_value : reader A) : reader (option A) :=
  fun bs =>
    match get_u8 bs with
    | Ok (1, bs') => '(a, bs'') <- get_value bs' ;; Ok (Some a, bs'')
    | Ok (_, bs') => Ok (None, bs')
    | _ => Ok (None, bs)
    end.
