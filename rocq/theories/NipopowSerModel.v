(** Model of the byte formats of NIPoPoW proofs. *)
From Verif Require Import Base VlqModel GroupModel MerkleModel HeaderModel NipopowModel.
Local Open Scope list_scope.
Local Open Scope Z_scope.

Section Ser.
Context {G : group}.
Variable H : bytes -> bytes.

(** A [put_u32] of a length cast with [as u32], followed by the bytes. *)
Definition write_sized (bs : bytes) : res bytes :=
  n <- put_u32 (wrapu 32 (Zlen bs)) ;; Ok (n ++ bs).
(** [read_exact] into a buffer of the announced size. *)
Definition read_sized : reader bytes :=
  fun bs => '(n, r) <- get_u32 bs ;; read_exact (Z.to_nat n) r.

(** nipopow_proof.rs:240-254 [PoPowHeader::scorex_serialize]. *)
Definition popow_serialize (p : popow_header G) : res bytes :=
  hb <- header_serialize (ph_header p) ;;
  b1 <- write_sized hb ;;
  b2 <- put_u32 (wrapu 32 (Zlen (ph_interlinks p))) ;;
  b3 <- write_all (fun i => Ok i) (ph_interlinks p) ;;
  pb <- batch_serialize (ph_proof p) ;;
  b4 <- write_sized pb ;;
  Ok (b1 ++ b2 ++ b3 ++ b4).

(** nipopow_proof.rs:256-281 [PoPowHeader::scorex_parse].  Bytes left over inside the
    two sized buffers are ignored.  Simplified: when several parts are malformed the
    error reported is that of the first. *)
Definition popow_parse : reader (popow_header G) :=
  fun bs =>
    '(hb, r) <- read_sized bs ;;
    '(h, _) <- header_parse H hb ;;
    '(n, r) <- get_u32 r ;;
    '(links, r) <- read_n (Z.to_nat n) (read_exact 32) r ;;
    '(pb, r) <- read_sized r ;;
    '(pr, _) <- batch_parse pb ;;
    Ok (PoPow h links pr, r).

(** An element preceded by its size; the reader skips the size. *)
Definition write_elem {A} (w : A -> res bytes) (x : A) : res bytes :=
  bs <- w x ;; n <- put_u32 (wrapu 32 (Zlen bs)) ;; Ok (n ++ bs).
Definition read_elem {A} (rd : reader A) : reader A :=
  fun bs => '(_, r) <- get_u32 bs ;; rd r.

(** nipopow_proof.rs:138-157 [NipopowProof::scorex_serialize]. *)
Definition nproof_serialize (p : nproof G) : res bytes :=
  b1 <- put_u32 (np_m p) ;;
  b2 <- put_u32 (np_k p) ;;
  b3 <- put_u32 (wrapu 32 (Zlen (np_prefix p))) ;;
  b4 <- write_all (write_elem popow_serialize) (np_prefix p) ;;
  b5 <- write_elem popow_serialize (np_head p) ;;
  b6 <- put_u32 (wrapu 32 (Zlen (np_tail p))) ;;
  b7 <- write_all (write_elem header_serialize) (np_tail p) ;;
  Ok (b1 ++ b2 ++ b3 ++ b4 ++ b5 ++ b6 ++ b7).

(** nipopow_proof.rs:159-184 [NipopowProof::scorex_parse].  Simplified: line 173 drops
    an error of the size reader and goes on; here it is reported. *)
Definition nproof_parse : reader (nproof G) :=
  fun bs =>
    '(m, r) <- get_u32 bs ;;
    '(k, r) <- get_u32 r ;;
    '(n, r) <- get_u32 r ;;
    '(prefix, r) <- read_n (Z.to_nat n) (read_elem popow_parse) r ;;
    '(head, r) <- read_elem popow_parse r ;;
    '(t, r) <- get_u32 r ;;
    '(tail, r) <- read_n (Z.to_nat t) (read_elem (header_parse H)) r ;;
    Ok (NProof m k prefix head tail, r).
End Ser.
