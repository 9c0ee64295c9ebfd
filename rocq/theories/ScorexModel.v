(** Model of the generic containers of the network format
    (sigma-ser/src/scorex_serialize.rs): lists, bounded lists and optional
    values of anything that can be written and read. *)
From Verif Require Import Base VlqModel.

(** The trait [ScorexSerializable] (scorex_serialize.rs 101-117). *)
Record codec (A : Type) := mk_codec {
  ser : A -> res bytes;
  par : reader A }.
Arguments mk_codec {A}. Arguments ser {A}. Arguments par {A}.

(** [try_for_each] over the items (scorex_serialize.rs 122). *)
Fixpoint ser_all {A} (c : codec A) (l : list A) : res bytes :=
  match l with
  | [] => Ok []
  | x :: l' => b <- ser c x ;; bs <- ser_all c l' ;; Ok (b ++ bs)
  end.

(** The loop of scorex_serialize.rs 128-130. *)
Fixpoint par_n {A} (c : codec A) (n : nat) (bs : bytes) : res (list A * bytes) :=
  match n with
  | O => Ok ([], bs)
  | S n' => '(x, bs1) <- par c bs ;; '(l, bs2) <- par_n c n' bs1 ;; Ok (x :: l, bs2)
  end.

(** How many items memory is asked for before the first is read
    (scorex_serialize.rs 126-127). *)
Definition reserved (bs : bytes) : res Z := '(n, _) <- get_u32 bs ;; Ok n.

(** scorex_serialize.rs 119-133.  [cap]: the greatest number of items of the
    type for which [Vec::with_capacity] does not panic, [isize::MAX] divided by
    the size of an item.  That the allocator may fail below it is not modelled. *)
Definition c_vec {A} (cap : Z) (c : codec A) : codec (list A) :=
  mk_codec
    (fun l => n <- put_u32 (wrapu 32 (Zlen l)) ;; bs <- ser_all c l ;; Ok (n ++ bs))
    (fun bs => '(n, bs1) <- get_u32 bs ;;
               if cap <? n then Panic else par_n c (Z.to_nat n) bs1).

(** scorex_serialize.rs 135-146; the bounded list is a list here, its bounds are
    checked when it is made. *)
Definition c_bounded {A} (cap lo hi : Z) (c : codec A) : codec (list A) :=
  mk_codec
    (ser (c_vec cap c))
    (fun bs => '(l, bs1) <- par (c_vec cap c) bs ;;
               if (lo <=? Zlen l) && (Zlen l <=? hi) then Ok (l, bs1)
               else Err "BoundedVecOutOfBounds").

(** scorex_serialize.rs 148-157 *)
Definition c_u32 : codec Z := mk_codec put_u32 get_u32.

(** scorex_serialize.rs 159-179 *)
Definition c_opt {A} (c : codec A) : codec (option A) :=
  mk_codec
    (fun o => match o with
              | Some v => t <- put_u8 1 ;; b <- ser c v ;; Ok (t ++ b)
              | None => put_u8 0
              end)
    (fun bs => '(tag, bs1) <- get_u8 bs ;;
               if negb (tag =? 0) then '(v, bs2) <- par c bs1 ;; Ok (Some v, bs2)
               else Ok (None, bs1)).

(** scorex_serialize.rs 108-112 *)
Definition to_bytes {A} (c : codec A) (v : A) : res bytes := ser c v.

(** scorex_serialize.rs 114-116: what is left over is dropped. *)
Definition of_bytes {A} (c : codec A) (bs : bytes) : res A := '(v, _) <- par c bs ;; Ok v.

(** scorex_serialize.rs 182-187 *)
Definition ser_roundtrip {A} (c : codec A) (v : A) : res A :=
  match ser c v with
  | Ok bs => match par c bs with Ok (v', _) => Ok v' | _ => Panic end
  | _ => Panic
  end.
