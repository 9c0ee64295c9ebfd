(** Shared vocabulary of the model: results with explicit errors and panics,
    byte strings, machine-integer wrapping, byte-stream readers and writers. *)
From Coq Require Export String ZArith List Lia Bool.
From Coq Require Export ZifyBool ZifyNat ZifyN.
Export ListNotations.
#[global] Open Scope Z_scope.
#[global] Open Scope list_scope.

(** Rust [Result<A, E>] together with a panic outcome.  Error payloads are
    reduced to a descriptive name; the model never branches on them. *)
Inductive res (A : Type) : Type :=
| Ok (a : A)
| Err (e : string)
| Panic.
Arguments Ok {A} a.
Arguments Err {A} e%string.
Arguments Panic {A}.

Definition bind {A B} (r : res A) (k : A -> res B) : res B :=
  match r with
  | Ok a => k a
  | Err e => Err e
  | Panic => Panic
  end.

Declare Scope res_scope.
Delimit Scope res_scope with res.
Notation "x <- e1 ;; e2" := (bind e1 (fun x => e2))
  (at level 61, e1 at next level, right associativity) : res_scope.
Notation "' p <- e1 ;; e2" := (bind e1 (fun x => match x with p => e2 end))
  (at level 61, p pattern, e1 at next level, right associativity) : res_scope.
#[global] Open Scope res_scope.

Definition rmap {A B} (f : A -> B) (r : res A) : res B :=
  bind r (fun a => Ok (f a)).

Definition of_option {A} (e : string) (o : option A) : res A :=
  match o with Some a => Ok a | None => Err e end.

Definition is_ok {A} (r : res A) : bool :=
  match r with Ok _ => true | _ => false end.

(** Byte strings: Rust [Vec<u8>] / [&[u8]]. *)
Definition bytes := list Z.
Definition byte (b : Z) : Prop := 0 <= b < 256.
Definition bytes_ok (l : bytes) : Prop := Forall byte l.

(** Rust's [as uN] and [as iN] casts. *)
Definition wrapu (n : Z) (z : Z) : Z := z mod 2 ^ n.
Definition wraps (n : Z) (z : Z) : Z := (z + 2 ^ (n - 1)) mod 2 ^ n - 2 ^ (n - 1).

Definition u8 (z : Z) : Prop := 0 <= z < 2 ^ 8.
Definition u16 (z : Z) : Prop := 0 <= z < 2 ^ 16.
Definition u32 (z : Z) : Prop := 0 <= z < 2 ^ 32.
Definition u64 (z : Z) : Prop := 0 <= z < 2 ^ 64.
Definition i8 (z : Z) : Prop := - 2 ^ 7 <= z < 2 ^ 7.
Definition i16 (z : Z) : Prop := - 2 ^ 15 <= z < 2 ^ 15.
Definition i32 (z : Z) : Prop := - 2 ^ 31 <= z < 2 ^ 31.
Definition i64 (z : Z) : Prop := - 2 ^ 63 <= z < 2 ^ 63.

Definition u64_max : Z := 2 ^ 64 - 1.
Definition i64_max : Z := 2 ^ 63 - 1.
Definition i64_min : Z := - 2 ^ 63.

(** Readers consume a prefix of a byte stream. *)
Definition reader (A : Type) := bytes -> res (A * bytes).

(** Rust [Read::read_exact] into a buffer of [n] bytes. *)
Definition read_exact (n : nat) : reader bytes :=
  fun bs => if (Nat.leb n (List.length bs))%nat
            then Ok (firstn n bs, skipn n bs)
            else Err "UnexpectedEof".

Definition Zlen {A} (l : list A) : Z := Z.of_nat (List.length l).

(** Run a reader [n] times, collecting the results. *)
Fixpoint read_n {A} (n : nat) (r : reader A) (bs : bytes) : res (list A * bytes) :=
  match n with
  | O => Ok ([], bs)
  | S n' =>
      '(a, bs1) <- r bs ;;
      '(l, bs2) <- read_n n' r bs1 ;;
      Ok (a :: l, bs2)
  end.

(** Run a writer on every element, concatenating the output. *)
Fixpoint write_all {A} (w : A -> res bytes) (l : list A) : res bytes :=
  match l with
  | [] => Ok []
  | a :: l' =>
      b1 <- w a ;;
      b2 <- write_all w l' ;;
      Ok (b1 ++ b2)
  end.

(** A writer and a reader are inverse on [x] whatever follows in the stream.
    This is the specification used for every round-trip property. *)
Definition roundtrip {A} (w : A -> res bytes) (r : reader A) (x : A) : Prop :=
  exists bs, w x = Ok bs /\ forall rest, r (bs ++ rest) = Ok (x, rest).

(** Weaker form for writers that may refuse: whenever something was written,
    reading gives it back. *)
Definition roundtrip_if {A} (w : A -> res bytes) (r : reader A) (x : A) : Prop :=
  forall bs, w x = Ok bs -> forall rest, r (bs ++ rest) = Ok (x, rest).

(** ** Elementary lemmas *)

Ltac Zify.zify_post_hook ::= Z.div_mod_to_equations.

Lemma bind_ok : forall A B (r : res A) (k : A -> res B) b,
  bind r k = Ok b -> exists a, r = Ok a /\ k a = Ok b.
Proof. intros A B [a|e|] k b H; simpl in H; try discriminate. eauto. Qed.

Lemma Zlen_nil : forall A, Zlen (@nil A) = 0.
Proof. reflexivity. Qed.

Lemma Zlen_cons : forall A (a : A) l, Zlen (a :: l) = 1 + Zlen l.
Proof. intros. unfold Zlen. simpl List.length. lia. Qed.

Lemma Zlen_app : forall A (l1 l2 : list A), Zlen (l1 ++ l2) = Zlen l1 + Zlen l2.
Proof. intros. unfold Zlen. rewrite app_length. lia. Qed.

Lemma Zlen_nonneg : forall A (l : list A), 0 <= Zlen l.
Proof. intros. unfold Zlen. lia. Qed.

Lemma read_exact_app : forall n l rest,
  List.length l = n -> read_exact n (l ++ rest) = Ok (l, rest).
Proof.
  intros n l rest <-. unfold read_exact.
  replace (Nat.leb (List.length l) (List.length (l ++ rest))) with true.
  2: { symmetry. apply Nat.leb_le. rewrite app_length. lia. }
  rewrite firstn_app, Nat.sub_diag, firstn_all, firstn_O, app_nil_r.
  rewrite skipn_app, Nat.sub_diag, skipn_all. reflexivity.
Qed.

Lemma read_exact_inv : forall n bs l rest,
  read_exact n bs = Ok (l, rest) -> bs = l ++ rest /\ List.length l = n.
Proof.
  unfold read_exact. intros n bs l rest H.
  destruct (Nat.leb n (List.length bs)) eqn:E; [|discriminate].
  injection H as <- <-. apply Nat.leb_le in E.
  rewrite firstn_skipn. split; auto. rewrite firstn_length. lia.
Qed.

Lemma read_n_write_all : forall A (w : A -> res bytes) (r : reader A) l,
  (forall x, In x l -> roundtrip_if w r x) ->
  forall bs, write_all w l = Ok bs ->
  forall rest, read_n (List.length l) r (bs ++ rest) = Ok (l, rest).
Proof.
  induction l as [|a l IH]; intros Hrt bs Hw rest; simpl in *.
  - injection Hw as <-. reflexivity.
  - apply bind_ok in Hw. destruct Hw as [b1 [H1 Hw]].
    apply bind_ok in Hw. destruct Hw as [b2 [H2 Hw]].
    injection Hw as <-.
    rewrite <- app_assoc. rewrite (Hrt a (or_introl eq_refl) b1 H1). simpl.
    rewrite (IH (fun x h => Hrt x (or_intror h)) b2 H2). reflexivity.
Qed.

Lemma write_all_ok : forall A (w : A -> res bytes) l,
  (forall x, In x l -> exists bs, w x = Ok bs) ->
  exists bs, write_all w l = Ok bs.
Proof.
  induction l as [|a l IH]; intros H; simpl.
  - eauto.
  - destruct (H a (or_introl eq_refl)) as [b1 ->]. simpl.
    destruct IH as [b2 ->]. { intros; apply H; right; auto. }
    simpl. eauto.
Qed.

Lemma roundtrip_of_if : forall A (w : A -> res bytes) (r : reader A) x,
  (exists bs, w x = Ok bs) -> roundtrip_if w r x -> roundtrip w r x.
Proof. intros A w r x [bs H] Hif. exists bs. split; auto. Qed.

Lemma roundtrip_if_of : forall A (w : A -> res bytes) (r : reader A) x,
  roundtrip w r x -> roundtrip_if w r x.
Proof.
  intros A w r x [bs [H Hr]] bs' H' rest. rewrite H in H'. injection H' as <-. apply Hr.
Qed.
