(** The discrete-logarithm group used by the sigma protocols.

    The repository delegates curve arithmetic to the [k256] crate.  The model
    takes any commutative group of prime order with a 33-byte encoding; every
    theorem is quantified over such a group.  A concrete group is given in
    GroupInstance.v so that the hypotheses are known to be satisfiable. *)
From Verif Require Import Base.
From Coq Require Import Znumtheory.

(** ergo-chain-types/src/ec_point.rs:19 [EcPoint]: the carrier with the
    operations the repository calls: 72-78 [Mul] ([gop]), 80-86 [Neg] and
    104-107 [inverse] ([ginv]), 89-92 [generator], 94-97 [identity], 70
    [PartialEq] ([geqb]).  [genc] is the 33-byte SEC1 form written at 119-130,
    [gdec] is [PublicKey::from_sec1_bytes] used at 136.
    [gord] is ergotree-ir/src/sigma_protocol/dlog_group.rs:104-112 [order]. *)
Record group := Group {
  gel :> Type;
  gop : gel -> gel -> gel;
  gid : gel;
  ginv : gel -> gel;
  ggen : gel;
  gord : Z;
  geqb : gel -> gel -> bool;
  genc : gel -> bytes;
  gdec : bytes -> option gel
}.
Arguments gop {g}. Arguments gid {g}. Arguments ginv {g}. Arguments ggen {g}.
Arguments geqb {g}. Arguments genc {g}. Arguments gdec {g}.

(** Scalar multiplication by an integer ([base.0 * exponent], ec_point.rs:113). *)
Definition gpow {G : group} (x : G) (n : Z) : G :=
  match n with
  | Z0 => gid
  | Zpos p => Pos.iter_op gop p x
  | Zneg p => ginv (Pos.iter_op gop p x)
  end.

(** ec_point.rs:99-102 [is_identity], 109-117 [exponentiate]. *)
Definition is_identity {G : group} (x : G) : bool := geqb x gid.
Definition exponentiate {G : group} (base : G) (e : Z) : G :=
  if negb (is_identity base) then gpow base e else base.

(** ec_point.rs:119-130 [scorex_serialize]: 33 zero bytes for the identity. *)
Definition ec_write {G : group} (x : G) : res bytes :=
  if is_identity x then Ok (repeat 0 33) else Ok (genc x).

(** ec_point.rs:132-144 [scorex_parse]. *)
Definition ec_read {G : group} : reader G :=
  fun bs =>
    '(buf, rest) <- read_exact 33 bs ;;
    if negb (hd 0 buf =? 0) then
      p <- of_option "failed to parse PK from bytes" (gdec buf) ;; Ok (p, rest)
    else Ok (gid, rest).

(** What is assumed of the group: commutative group laws, prime order, an
    equality test, and an encoding that decodes back to the same point. *)
Record group_ok (G : group) : Prop := {
  g_assoc : forall x y z : G, gop x (gop y z) = gop (gop x y) z;
  g_comm : forall x y : G, gop x y = gop y x;
  g_id : forall x : G, gop gid x = x;
  g_inv : forall x : G, gop (ginv x) x = gid;
  g_ord : forall x : G, gpow x (gord G) = gid;
  g_prime : prime (gord G);
  g_ord_bound : gord G < 2 ^ 256;
  g_eqb : forall x y : G, geqb x y = true <-> x = y;
  g_gen : @ggen G <> gid;
  g_enc_len : forall x : G, x <> gid -> length (genc x) = 33%nat;
  g_enc_ok : forall x : G, x <> gid -> bytes_ok (genc x);
  g_enc_hd : forall x : G, x <> gid -> hd 0 (genc x) <> 0;
  g_dec_enc : forall x : G, x <> gid -> gdec (genc x) = Some x
}.
