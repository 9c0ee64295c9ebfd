(** C20: type descriptors survive serialisation. *)
From Verif Require Import Base VlqModel VlqProofs TypeModel TypeProofs.
Local Open Scope string_scope.
Local Open Scope list_scope.
Local Open Scope Z_scope.

(** The size bounds every [SType] value carries in Rust (bounded vectors): tuples
    have 2 to 255 items, type-variable names 1 to 254 bytes of UTF-8. *)
Inductive rust_type : stype -> Prop :=
| rt_var : forall n, bytes_ok n -> utf8_valid n = true -> 1 <= Zlen n <= 254 -> rust_type (STypeVar n)
| rt_prim : forall t, In t [SAny; SUnit; SBoolean; SByte; SShort; SInt; SLong; SBigInt;
    SGroupElement; SSigmaProp; SBox; SAvlTree; SContext; SHeader; SPreHeader; SGlobal] -> rust_type t
| rt_opt : forall t, rust_type t -> rust_type (SOption t)
| rt_coll : forall t, rust_type t -> rust_type (SColl t)
| rt_tuple : forall l, 2 <= Zlen l <= 255 -> (forall t, In t l -> rust_type t) -> rust_type (STuple l)
| rt_func : forall d r, (forall t, In t d -> rust_type t) -> rust_type r -> rust_type (SFunc d r).

(** A function type occurs in [t]. *)
Inductive has_func : stype -> Prop :=
| hf_here : forall d r, has_func (SFunc d r)
| hf_opt : forall t, has_func t -> has_func (SOption t)
| hf_coll : forall t, has_func t -> has_func (SColl t)
| hf_tuple : forall t l, In t l -> has_func t -> has_func (STuple l).

Lemma rust_type_wf : forall t, rust_type t <-> wf_type t.
Proof.
  split.
  - intro H. induction H as [n A B C | t Hin | t _ IH | t _ IH | l L _ IH | d r _ IH _ IHr]; cbn [wf_type]; auto.
    + cbn in Hin. repeat (destruct Hin as [<- | Hin]; [exact I|]). contradiction.
    + split; [exact L|]. apply fold_and_Forall. apply Forall_forall. exact IH.
    + split; [|exact IHr]. apply fold_and_Forall. apply Forall_forall. exact IH.
  - induction t using stype_ind'; cbn [wf_type]; intro W;
      try (apply rt_prim; cbn; tauto).
    + destruct W as (A & B & C); apply rt_var; assumption.
    + apply rt_opt; auto.
    + apply rt_coll; auto.
    + destruct W as [L W]. apply fold_and_Forall in W. rewrite Forall_forall in H, W.
      apply rt_tuple; [exact L | intros t Ht; apply H; auto].
    + destruct W as [W Wr]. apply fold_and_Forall in W. rewrite Forall_forall in H, W.
      apply rt_func; [intros t0 Ht; apply H; auto | auto].
Qed.

Lemma has_func_iff : forall t, fun_free t <-> ~ has_func t.
Proof.
  intro t; induction t using stype_ind'; cbn [fun_free];
    try (split; [intros _ Hf; inversion Hf | auto]; fail).
  - rewrite IHt. split; [intros N Hf; inversion Hf; subst; auto | intros N Hf; apply N; constructor; exact Hf].
  - rewrite IHt. split; [intros N Hf; inversion Hf; subst; auto | intros N Hf; apply N; constructor; exact Hf].
  - rewrite fold_and_Forall. rewrite Forall_forall in *. split.
    + intros A Hf; inversion Hf as [| | |t' l' Hin Hf']; subst. apply (H t' Hin); auto.
    + intros N x Hx. apply (H x Hx). intro Hf. apply N. eapply hf_tuple; eassumption.
  - split; [contradiction | intro N; apply N; constructor].
Qed.

(** Every type in which no function type occurs is written, and its bytes,
    followed by anything, parse back to it leaving the rest unread. *)
Theorem c20_type_roundtrip : forall t,
  rust_type t -> ~ has_func t ->
  exists bs, ser_type t = Ok bs /\ forall rest, parse_type (bs ++ rest) = Ok (t, rest).
Proof.
  intros t W F. apply rust_type_wf in W. apply has_func_iff in F.
  destruct (ser_type_ok t F) as [bs E]. exists bs. split; [exact E|]. intro rest.
  unfold parse_type. apply (parse_ser_type t bs W E). rewrite app_length. lia.
Qed.
Print Assumptions c20_type_roundtrip.

Example c20_hyps_met :
  let t := STuple [SColl (SColl SByte); STypeVar [84]; SOption (STuple [SShort; SShort]);
                   STuple [SBox; SInt; SUnit]; SColl (SOption SHeader)] in
  rust_type t /\ ~ has_func t /\
  ser_type t = Ok [96; 5; 26; 103; 1; 84; 36; 63; 3; 72; 99; 4; 98; 12; 36; 104].
Proof.
  cbv zeta. split; [|split].
  - apply rust_type_wf. cbn [wf_type fold_right]. repeat split; try (cbn; lia).
    repeat constructor; lia.
  - apply has_func_iff. cbn. tauto.
  - reflexivity.
Qed.

(** Function types are refused, never mangled. *)
Theorem c20_function_types_refused : forall t,
  has_func t -> exists e, ser_type t = Err e.
Proof.
  intros t Hf. destruct (ser_type t) as [bs|e|] eqn:E.
  - exfalso. apply ser_type_fun_free in E. apply has_func_iff in E. auto.
  - eauto.
  - exfalso. exact (ser_type_no_panic t E).
Qed.
Print Assumptions c20_function_types_refused.

Example c20_function_hyps_met :
  has_func (SColl (STuple [SInt; SFunc [SInt] SBoolean])).
Proof. apply hf_coll. eapply hf_tuple; [right; left; reflexivity | constructor]. Qed.

(** Any bytes whatsoever: the parser does not panic; what it accepts satisfies the
    bounds, contains no function type, consumed at least one byte, and is written
    again to bytes that denote the same type.  So parsing is a retraction onto the
    canonical encodings. *)
Theorem c20_parsed_types_reserialize : forall bs,
  bytes_ok bs ->
  parse_type bs <> Panic /\
  forall t rest, parse_type bs = Ok (t, rest) ->
    rust_type t /\ ~ has_func t /\
    (exists used, bs = used ++ rest /\ used <> []) /\
    exists canon, ser_type t = Ok canon /\
      forall rest', parse_type (canon ++ rest') = Ok (t, rest').
Proof.
  intros bs Hb. split; [apply parse_type_no_panic|]. intros t rest E.
  destruct (parse_type_inv _ _ _ _ Hb E) as (W & F & U).
  apply rust_type_wf in W. apply has_func_iff in F. split; [exact W|]. split; [exact F|].
  split; [exact U|]. apply c20_type_roundtrip; assumption.
Qed.
Print Assumptions c20_parsed_types_reserialize.

(** Distinct types have distinct encodings, none a prefix of another. *)
Theorem c20_type_encoding_prefix_free : forall t1 t2 b1 b2 rest1 rest2,
  rust_type t1 -> rust_type t2 ->
  ser_type t1 = Ok b1 -> ser_type t2 = Ok b2 ->
  b1 ++ rest1 = b2 ++ rest2 -> t1 = t2 /\ rest1 = rest2.
Proof.
  intros t1 t2 b1 b2 r1 r2 W1 W2 E1 E2 E. apply rust_type_wf in W1, W2.
  assert (P1 : parse_type_f (List.length (b1 ++ r1)) (b1 ++ r1) = Ok (t1, r1)).
  { apply (parse_ser_type t1 b1 W1 E1). rewrite app_length; lia. }
  assert (P2 : parse_type_f (List.length (b2 ++ r2)) (b2 ++ r2) = Ok (t2, r2)).
  { apply (parse_ser_type t2 b2 W2 E2). rewrite app_length; lia. }
  rewrite E in P1. rewrite P1 in P2. injection P2 as -> ->. auto.
Qed.
Print Assumptions c20_type_encoding_prefix_free.

(** Going through the library may change the bytes of a type: the symmetric code
    for a pair of shorts is accepted but never written. *)
Theorem c20_type_bytes_canonical_refuted :
  exists bs t, parse_type bs = Ok (t, []) /\ ser_type t <> Ok bs.
Proof. exists [87], (STuple [SShort; SShort]). split; [reflexivity | discriminate]. Qed.
Print Assumptions c20_type_bytes_canonical_refuted.
