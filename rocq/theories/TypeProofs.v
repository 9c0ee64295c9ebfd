(** Proofs about the type encoding. *)
From Verif Require Import Base VlqModel VlqProofs TypeModel.
Local Open Scope string_scope.
Local Open Scope list_scope.
Local Open Scope Z_scope.

(** Induction over types with the hypothesis available for every item. *)
Fixpoint stype_ind' (P : stype -> Prop)
  (Hvar : forall n, P (STypeVar n))
  (Hany : P SAny) (Hunit : P SUnit) (Hbool : P SBoolean) (Hbyte : P SByte)
  (Hshort : P SShort) (Hint : P SInt) (Hlong : P SLong) (Hbig : P SBigInt)
  (Hge : P SGroupElement) (Hsp : P SSigmaProp) (Hbox : P SBox) (Havl : P SAvlTree)
  (Hopt : forall t, P t -> P (SOption t)) (Hcoll : forall t, P t -> P (SColl t))
  (Htup : forall l, Forall P l -> P (STuple l))
  (Hfun : forall d r, Forall P d -> P r -> P (SFunc d r))
  (Hctx : P SContext) (Hhdr : P SHeader) (Hph : P SPreHeader) (Hglob : P SGlobal)
  (t : stype) {struct t} : P t :=
  let rec := stype_ind' P Hvar Hany Hunit Hbool Hbyte Hshort Hint Hlong Hbig Hge Hsp
               Hbox Havl Hopt Hcoll Htup Hfun Hctx Hhdr Hph Hglob in
  let go := fix go (l : list stype) : Forall P l :=
    match l with
    | [] => Forall_nil P
    | a :: l' => Forall_cons a (rec a) (go l')
    end in
  match t with
  | STypeVar n => Hvar n
  | SAny => Hany | SUnit => Hunit | SBoolean => Hbool | SByte => Hbyte
  | SShort => Hshort | SInt => Hint | SLong => Hlong | SBigInt => Hbig
  | SGroupElement => Hge | SSigmaProp => Hsp | SBox => Hbox | SAvlTree => Havl
  | SOption t => Hopt t (rec t) | SColl t => Hcoll t (rec t)
  | STuple l => Htup l (go l)
  | SFunc d r => Hfun d r (go d) (rec r)
  | SContext => Hctx | SHeader => Hhdr | SPreHeader => Hph | SGlobal => Hglob
  end.

Lemma wrapu_id : forall n z, 0 <= z < 2 ^ n -> wrapu n z = z.
Proof. intros; unfold wrapu; apply Z.mod_small; assumption. Qed.

Lemma list_eqb_spec : forall {A} (eqb : A -> A -> bool) (l1 l2 : list A),
  Forall (fun a => forall b, eqb a b = true <-> a = b) l1 ->
  (leqb eqb l1 l2 = true <-> l1 = l2).
Proof.
  intros A eqb l1. induction l1 as [|a l1 IH]; intros l2 HF.
  - destruct l2; cbn; split; congruence.
  - inversion HF as [|? ? Ha HF']; subst. destruct l2 as [|b l2]; cbn; [split; congruence|].
    rewrite andb_true_iff, Ha. fold (leqb eqb l1 l2). rewrite (IH l2 HF'). split.
    + intros [-> ->]; reflexivity.
    + intros E; injection E as -> ->; auto.
Qed.

Lemma stype_eqb_eq : forall a b, stype_eqb a b = true <-> a = b.
Proof.
  intro a; induction a using stype_ind'; intro b0; destruct b0; cbn [stype_eqb];
    try (split; congruence).
  - rewrite (list_eqb_spec Z.eqb).
    + split; [intros ->; reflexivity | congruence].
    + apply Forall_forall; intros; apply Z.eqb_eq.
  - rewrite IHa. split; [intros ->; reflexivity | congruence].
  - rewrite IHa. split; [intros ->; reflexivity | congruence].
  - rewrite (list_eqb_spec stype_eqb) by assumption.
    split; [intros ->; reflexivity | congruence].
  - rewrite andb_true_iff, (list_eqb_spec stype_eqb) by assumption. rewrite IHa.
    split; [intros [-> ->]; reflexivity | intros E; injection E as -> ->; auto].
Qed.

Lemma stype_eqb_refl : forall a, stype_eqb a a = true.
Proof. intro a; apply stype_eqb_eq; reflexivity. Qed.

Lemma stype_eqb_neq : forall a b, stype_eqb a b = false <-> a <> b.
Proof.
  intros a b. destruct (stype_eqb a b) eqn:E.
  - apply stype_eqb_eq in E. split; congruence.
  - split; [intros _ H; apply stype_eqb_eq in H; congruence | auto].
Qed.

Lemma stype_eq_dec : forall a b : stype, {a = b} + {a <> b}.
Proof.
  intros a b. destruct (stype_eqb a b) eqn:E.
  - left; apply stype_eqb_eq; exact E.
  - right; apply stype_eqb_neq; exact E.
Qed.

(** ** What a type value satisfies: the bounds its Rust representation enforces. *)
Fixpoint wf_type (t : stype) : Prop :=
  match t with
  | STypeVar n => bytes_ok n /\ utf8_valid n = true /\ 1 <= Zlen n <= 254
  | SOption e | SColl e => wf_type e
  | STuple l => 2 <= Zlen l <= 255 /\ fold_right (fun x acc => wf_type x /\ acc) True l
  | SFunc d r => fold_right (fun x acc => wf_type x /\ acc) True d /\ wf_type r
  | _ => True
  end.

(** No function type occurs. *)
Fixpoint fun_free (t : stype) : Prop :=
  match t with
  | SOption e | SColl e => fun_free e
  | STuple l => fold_right (fun x acc => fun_free x /\ acc) True l
  | SFunc _ _ => False
  | _ => True
  end.

Lemma fold_and_Forall : forall {A} (P : A -> Prop) l,
  fold_right (fun x acc => P x /\ acc) True l <-> Forall P l.
Proof.
  intros A P l; induction l as [|a l IH]; cbn.
  - split; auto.
  - rewrite IH. split; [intros [? ?]; constructor; auto | intros H; inversion H; auto].
Qed.

Lemma write_list_all : forall {A} (w : A -> res bytes) l, write_list w l = write_all w l.
Proof.
  intros A w l; induction l as [|a l IH]; [reflexivity|].
  cbn [write_list write_all]. fold (write_list w l). rewrite IH.
  destruct (w a); reflexivity.
Qed.

Lemma emb_code_type : forall t p, emb_code t = Some p -> emb_type p = Some t /\ 1 <= p <= 8.
Proof. intros t p; destruct t; cbn; intros E; try discriminate; injection E as <-; split; try reflexivity; lia. Qed.

Lemma emb_type_code : forall c t, emb_type c = Some t -> emb_code t = Some c /\ 1 <= c <= 8.
Proof.
  intros c t; unfold emb_type.
  repeat match goal with
  | |- context [if ?a =? ?b then _ else _] =>
      destruct (Z.eqb_spec a b) as [-> | ?];
      [intros E; injection E as <-; split; [reflexivity | lia]|]
  end. discriminate.
Qed.

Lemma emb_type_none : forall c, c < 1 \/ 8 < c -> emb_type c = None.
Proof.
  intros c Hc; unfold emb_type.
  repeat match goal with
  | |- context [if ?a =? ?b then _ else _] => destruct (Z.eqb_spec a b) as [-> | ?]; [lia|]
  end. reflexivity.
Qed.

Lemma emb_type_some : forall c, 1 <= c <= 8 -> exists t, emb_type c = Some t.
Proof.
  intros c Hc; unfold emb_type.
  repeat match goal with
  | |- context [if ?a =? ?b then _ else _] => destruct (Z.eqb_spec a b) as [-> | ?]; [eexists; reflexivity|]
  end. lia.
Qed.

(** Selecting the row of the code table. *)
Ltac tc_row :=
  repeat match goal with
  | |- context [if (?a =? ?b) then _ else _] =>
      destruct (Z.eqb_spec a b); [try lia|try lia]
  | |- context [if (?a <=? ?b) && (?c <=? ?d) then _ else _] =>
      destruct (Z.leb_spec a b); destruct (Z.leb_spec c d); cbn [andb]; try lia
  end.

Lemma get_u8_cons : forall c bs, get_u8 (c :: bs) = Ok (c, bs).
Proof. reflexivity. Qed.

Lemma of_option_some : forall {A} e (a : A), of_option e (Some a) = Ok a.
Proof. reflexivity. Qed.

Section Rows.
Variable rec : reader stype.

Lemma row_emb : forall c t bs, emb_type c = Some t -> parse_tc_with rec c bs = Ok (t, bs).
Proof. intros c t bs E; unfold parse_tc_with; rewrite E; reflexivity. Qed.

Lemma row_coll_emb : forall p t bs, emb_type p = Some t ->
  parse_tc_with rec (12 + p) bs = Ok (SColl t, bs).
Proof.
  intros p t bs E. destruct (emb_type_code _ _ E) as [_ Hp]. unfold parse_tc_with.
  rewrite emb_type_none by lia. replace (12 + p - 12) with p by lia. rewrite E. tc_row. reflexivity.
Qed.
Lemma row_coll2_emb : forall p t bs, emb_type p = Some t ->
  parse_tc_with rec (24 + p) bs = Ok (SColl (SColl t), bs).
Proof.
  intros p t bs E. destruct (emb_type_code _ _ E) as [_ Hp]. unfold parse_tc_with.
  rewrite emb_type_none by lia. replace (24 + p - 24) with p by lia. rewrite E. tc_row. reflexivity.
Qed.
Lemma row_opt_emb : forall p t bs, emb_type p = Some t ->
  parse_tc_with rec (36 + p) bs = Ok (SOption t, bs).
Proof.
  intros p t bs E. destruct (emb_type_code _ _ E) as [_ Hp]. unfold parse_tc_with.
  rewrite emb_type_none by lia. replace (36 + p - 36) with p by lia. rewrite E. tc_row. reflexivity.
Qed.
Lemma row_optcoll_emb : forall p t bs, emb_type p = Some t ->
  parse_tc_with rec (48 + p) bs = Ok (SOption (SColl t), bs).
Proof.
  intros p t bs E. destruct (emb_type_code _ _ E) as [_ Hp]. unfold parse_tc_with.
  rewrite emb_type_none by lia. replace (48 + p - 48) with p by lia. rewrite E. tc_row. reflexivity.
Qed.
Lemma row_pair1_emb : forall p t bs, emb_type p = Some t ->
  parse_tc_with rec (60 + p) bs = ('(t2, r) <- rec bs ;; Ok (STuple [t; t2], r)).
Proof.
  intros p t bs E. destruct (emb_type_code _ _ E) as [_ Hp]. unfold parse_tc_with.
  rewrite emb_type_none by lia. replace (60 + p - 60) with p by lia. rewrite E. tc_row. reflexivity.
Qed.
Lemma row_pair2_emb : forall p t bs, emb_type p = Some t ->
  parse_tc_with rec (72 + p) bs = ('(t1, r) <- rec bs ;; Ok (STuple [t1; t], r)).
Proof.
  intros p t bs E. destruct (emb_type_code _ _ E) as [_ Hp]. unfold parse_tc_with.
  rewrite emb_type_none by lia. replace (72 + p - 72) with p by lia. rewrite E. tc_row. reflexivity.
Qed.
Lemma row_sym_emb : forall p t bs, emb_type p = Some t ->
  parse_tc_with rec (84 + p) bs = Ok (STuple [t; t], bs).
Proof.
  intros p t bs E. destruct (emb_type_code _ _ E) as [_ Hp]. unfold parse_tc_with.
  rewrite emb_type_none by lia. replace (84 + p - 84) with p by lia. rewrite E. tc_row. reflexivity.
Qed.
End Rows.

Lemma read_n_S : forall {A} n (r : reader A) bs,
  read_n (S n) r bs = ('(a, b1) <- r bs ;; '(l, b2) <- read_n n r b1 ;; Ok (a :: l, b2)).
Proof. reflexivity. Qed.

Lemma write_list_read_n : forall {A} (w : A -> res bytes) (r : reader A) l bs rest,
  write_list w l = Ok bs ->
  (forall a b rest', In a l -> w a = Ok b -> (List.length b <= List.length bs)%nat ->
     r (b ++ rest') = Ok (a, rest')) ->
  read_n (List.length l) r (bs ++ rest) = Ok (l, rest).
Proof.
  intros A w r l; induction l as [|a l IH]; intros bs rest E H.
  - cbn in E. injection E as <-. reflexivity.
  - cbn [write_list] in E. fold (write_list w l) in E.
    destruct (bind_ok _ _ _ _ _ E) as [b1 [E1 E']]. destruct (bind_ok _ _ _ _ _ E') as [b2 [E2 E3]].
    injection E3 as <-. cbn [List.length]. rewrite read_n_S, <- app_assoc.
    rewrite (H a b1 _ (or_introl eq_refl) E1) by (rewrite app_length; lia).
    cbn [bind]. rewrite (IH b2 rest E2).
    + reflexivity.
    + intros a' b' rest' Hin Ew Hl. apply H; [right; exact Hin|exact Ew|rewrite app_length; lia].
Qed.

Ltac inv_bind E :=
  match type of E with
  | bind ?e _ = Ok _ =>
      let b := fresh "b" in let Eb := fresh "Eb" in let E' := fresh "E" in
      destruct (bind_ok _ _ _ _ _ E) as [b [Eb E']]; clear E; rename E' into E
  end.

(** Every well-formed type that was serialized is read back, with any fuel of at
    least the number of bytes written. *)
Lemma parse_ser_type : forall t bs, wf_type t -> ser_type t = Ok bs ->
  forall fuel rest, (List.length bs <= fuel)%nat ->
  parse_type_f fuel (bs ++ rest) = Ok (t, rest).
Proof.
  assert (one : forall c t fuel rest, emb_type c = Some t -> (1 <= fuel)%nat ->
            parse_type_f fuel ([c] ++ rest) = Ok (t, rest)).
  { intros c t fuel rest E Hf. destruct fuel; [lia|]. cbn [app parse_type_f].
    rewrite get_u8_cons. cbn [bind]. apply row_emb. exact E. }
  intro t; induction t using stype_ind'; intros bs Hwf E fuel rest Hf; cbn [ser_type] in E;
    try (injection E as <-; apply one; [reflexivity | exact Hf]);
    try (injection E as <-; destruct fuel; [cbn in Hf; lia|]; reflexivity).
  - (* type variable *)
    injection E as <-. destruct Hwf as (Hb & Hu & Hl). destruct fuel; [cbn in Hf; lia|].
    cbn [app parse_type_f]. rewrite get_u8_cons. cbn [bind].
    unfold parse_tc_with. cbn [emb_type Z.eqb Pos.eqb Z.leb Z.compare Pos.compare Pos.compare_cont andb].
    unfold typevar_read, typevar_write. cbn [app]. rewrite get_u8_cons. cbn [bind].
    rewrite (wrapu_id 8) by (change (2 ^ 8) with 256; lia).
    replace (Z.to_nat (Zlen n)) with (List.length n) by (unfold Zlen; lia).
    rewrite read_exact_app by reflexivity. cbn [bind]. rewrite Hu. cbn [negb].
    destruct (Z.leb_spec 1 (Zlen n)); [|lia]. destruct (Z.leb_spec (Zlen n) 254); [|lia]. reflexivity.
  - (* option *)
    cbn [wf_type] in Hwf. destruct (emb_code t) as [p|] eqn:Ep.
    + injection E as <-. destruct (emb_code_type _ _ Ep) as [Et Hp].
      destruct fuel; [cbn in Hf; lia|]. cbn [app parse_type_f]. rewrite get_u8_cons. cbn [bind].
      apply row_opt_emb. exact Et.
    + assert (gen : forall bs, (b <- ser_type t ;; Ok (36 :: b)) = Ok bs ->
                (List.length bs <= fuel)%nat ->
                parse_type_f fuel (bs ++ rest) = Ok (SOption t, rest)).
      { clear E Hf bs. intros bs E Hf. inv_bind E. injection E as <-. cbn in Hf.
        destruct fuel; [lia|]. cbn [app parse_type_f]. rewrite get_u8_cons. cbn [bind].
        change (parse_tc_with (parse_type_f fuel) 36 (b ++ rest))
          with ('(t, r) <- parse_type_f fuel (b ++ rest) ;; Ok (SOption t, r)).
        rewrite (IHt b Hwf Eb fuel rest) by lia. reflexivity. }
      destruct t; try (apply gen; [exact E | exact Hf]).
      destruct (emb_code t) as [p|] eqn:Ei; [|apply gen; [exact E | exact Hf]].
      injection E as <-. destruct (emb_code_type _ _ Ei) as [Et Hp].
      destruct fuel; [cbn in Hf; lia|]. cbn [app parse_type_f]. rewrite get_u8_cons. cbn [bind].
      apply row_optcoll_emb. exact Et.
  - (* collection *)
    cbn [wf_type] in Hwf. destruct (emb_code t) as [p|] eqn:Ep.
    + injection E as <-. destruct (emb_code_type _ _ Ep) as [Et Hp].
      destruct fuel; [cbn in Hf; lia|]. cbn [app parse_type_f]. rewrite get_u8_cons. cbn [bind].
      apply row_coll_emb. exact Et.
    + assert (gen : forall bs, (b <- ser_type t ;; Ok (12 :: b)) = Ok bs ->
                (List.length bs <= fuel)%nat ->
                parse_type_f fuel (bs ++ rest) = Ok (SColl t, rest)).
      { clear E Hf bs. intros bs E Hf. inv_bind E. injection E as <-. cbn in Hf.
        destruct fuel; [lia|]. cbn [app parse_type_f]. rewrite get_u8_cons. cbn [bind].
        change (parse_tc_with (parse_type_f fuel) 12 (b ++ rest))
          with ('(t, r) <- parse_type_f fuel (b ++ rest) ;; Ok (SColl t, r)).
        rewrite (IHt b Hwf Eb fuel rest) by lia. reflexivity. }
      destruct t; try (apply gen; [exact E | exact Hf]).
      destruct (emb_code t) as [p|] eqn:Ei; [|apply gen; [exact E | exact Hf]].
      injection E as <-. destruct (emb_code_type _ _ Ei) as [Et Hp].
      destruct fuel; [cbn in Hf; lia|]. cbn [app parse_type_f]. rewrite get_u8_cons. cbn [bind].
      apply row_coll2_emb. exact Et.
  - (* tuple *)
    cbn [wf_type] in Hwf. destruct Hwf as [Hlen Hall]. apply fold_and_Forall in Hall.
    assert (gen : forall bs, (b <- write_list ser_type l ;; Ok (96 :: wrapu 8 (Zlen l) :: b)) = Ok bs ->
              (List.length bs <= fuel)%nat ->
              parse_type_f fuel (bs ++ rest) = Ok (STuple l, rest)).
    { clear E Hf bs. intros bs E Hf. inv_bind E. injection E as <-. cbn in Hf.
      destruct fuel; [lia|]. cbn [app parse_type_f]. rewrite get_u8_cons. cbn [bind].
      rewrite (wrapu_id 8) by (change (2 ^ 8) with 256; lia).
      assert (R : forall k, parse_tc_with (parse_type_f fuel) 96 (k :: b ++ rest)
        = ('(items, r2) <- read_n (Z.to_nat k) (parse_type_f fuel) (b ++ rest) ;;
           if (2 <=? Zlen items) && (Zlen items <=? 255) then Ok (STuple items, r2)
           else Err "TupleItemsOutOfBounds")) by (intro; reflexivity).
      rewrite R. replace (Z.to_nat (Zlen l)) with (List.length l) by (unfold Zlen; lia).
      rewrite (write_list_read_n ser_type (parse_type_f fuel) l b rest Eb).
      - cbn [bind]. destruct (Z.leb_spec 2 (Zlen l)); [|lia].
        destruct (Z.leb_spec (Zlen l) 255); [|lia]. reflexivity.
      - intros a b' rest' Hin Ew Hlb. rewrite Forall_forall in H, Hall.
        apply (H a Hin b' (Hall a Hin) Ew). lia. }
    destruct l as [|t1 [|t2 [|t3 [|t4 [|t5 l]]]]]; try (apply gen; [exact E | exact Hf]); clear gen.
    + (* pair *)
      inversion H as [|? ? H1 H']; subst. inversion H' as [|? ? H2 _]; subst.
      inversion Hall as [|? ? W1 W']; subst. inversion W' as [|? ? W2 _]; subst. clear H H' Hall W'.
      destruct (emb_code t1) as [p|] eqn:E1; destruct (emb_code t2) as [q|] eqn:E2.
      * destruct (emb_code_type _ _ E1) as [T1 P1]. destruct (emb_code_type _ _ E2) as [T2 P2].
        destruct ((p =? q) && negb (p =? 3)) eqn:Es.
        -- injection E as <-. apply andb_true_iff in Es. destruct Es as [Es _].
           apply Z.eqb_eq in Es. subst q. rewrite T1 in T2. injection T2 as <-.
           destruct fuel; [cbn in Hf; lia|]. cbn [app parse_type_f]. rewrite get_u8_cons. cbn [bind].
           apply row_sym_emb. exact T1.
        -- inv_bind E. injection E as <-. cbn in Hf.
           destruct fuel; [lia|]. cbn [app parse_type_f]. rewrite get_u8_cons. cbn [bind].
           rewrite (row_pair1_emb _ _ _ _ T1). rewrite (H2 b W2 Eb) by lia. reflexivity.
      * destruct (emb_code_type _ _ E1) as [T1 P1]. inv_bind E. injection E as <-. cbn in Hf.
        destruct fuel; [lia|]. cbn [app parse_type_f]. rewrite get_u8_cons. cbn [bind].
        rewrite (row_pair1_emb _ _ _ _ T1). rewrite (H2 b W2 Eb) by lia. reflexivity.
      * destruct (emb_code_type _ _ E2) as [T2 P2]. inv_bind E. injection E as <-. cbn in Hf.
        destruct fuel; [lia|]. cbn [app parse_type_f]. rewrite get_u8_cons. cbn [bind].
        rewrite (row_pair2_emb _ _ _ _ T2). rewrite (H1 b W1 Eb) by lia. reflexivity.
      * inv_bind E. inv_bind E. injection E as <-. cbn in Hf. rewrite app_length in Hf.
        destruct fuel; [lia|]. cbn [app parse_type_f]. rewrite get_u8_cons. cbn [bind].
        assert (R : forall bs, parse_tc_with (parse_type_f fuel) 60 bs
          = ('(t1, r1) <- parse_type_f fuel bs ;; '(t2, r2) <- parse_type_f fuel r1 ;;
             Ok (STuple [t1; t2], r2))) by (intro; reflexivity).
        rewrite R, <- app_assoc. rewrite (H1 b W1 Eb) by lia. cbn [bind].
        rewrite (H2 b0 W2 Eb0) by lia. reflexivity.
    + (* triple *)
      inversion H as [|? ? H1 H']; subst. inversion H' as [|? ? H2 H'']; subst.
      inversion H'' as [|? ? H3 _]; subst.
      inversion Hall as [|? ? W1 W']; subst. inversion W' as [|? ? W2 W'']; subst.
      inversion W'' as [|? ? W3 _]; subst.
      inv_bind E. inv_bind E. inv_bind E. injection E as <-. cbn in Hf. rewrite !app_length in Hf.
      destruct fuel; [lia|]. cbn [app parse_type_f]. rewrite get_u8_cons. cbn [bind].
      assert (R : forall bs, parse_tc_with (parse_type_f fuel) 72 bs
        = ('(t1, r1) <- parse_type_f fuel bs ;; '(t2, r2) <- parse_type_f fuel r1 ;;
           '(t3, r3) <- parse_type_f fuel r2 ;;
           Ok (STuple [t1; t2; t3], r3))) by (intro; reflexivity).
      rewrite R, <- !app_assoc. rewrite (H1 b W1 Eb) by lia. cbn [bind].
      rewrite (H2 b0 W2 Eb0) by lia. cbn [bind]. rewrite (H3 b1 W3 Eb1) by lia. reflexivity.
    + (* quadruple *)
      inversion H as [|? ? H1 H']; subst. inversion H' as [|? ? H2 H'']; subst.
      inversion H'' as [|? ? H3 H''']; subst. inversion H''' as [|? ? H4 _]; subst.
      inversion Hall as [|? ? W1 W']; subst. inversion W' as [|? ? W2 W'']; subst.
      inversion W'' as [|? ? W3 W''']; subst. inversion W''' as [|? ? W4 _]; subst.
      inv_bind E. inv_bind E. inv_bind E. inv_bind E. injection E as <-. cbn in Hf. rewrite !app_length in Hf.
      destruct fuel; [lia|]. cbn [app parse_type_f]. rewrite get_u8_cons. cbn [bind].
      assert (R : forall bs, parse_tc_with (parse_type_f fuel) 84 bs
        = ('(t1, r1) <- parse_type_f fuel bs ;; '(t2, r2) <- parse_type_f fuel r1 ;;
           '(t3, r3) <- parse_type_f fuel r2 ;; '(t4, r4) <- parse_type_f fuel r3 ;;
           Ok (STuple [t1; t2; t3; t4], r4))) by (intro; reflexivity).
      rewrite R, <- !app_assoc. rewrite (H1 b W1 Eb) by lia. cbn [bind].
      rewrite (H2 b0 W2 Eb0) by lia. cbn [bind]. rewrite (H3 b1 W3 Eb1) by lia. cbn [bind].
      rewrite (H4 b2 W4 Eb2) by lia. reflexivity.
  - discriminate.
Qed.

Lemma write_list_ok : forall {A} (w : A -> res bytes) l,
  (forall a, In a l -> exists b, w a = Ok b) -> exists bs, write_list w l = Ok bs.
Proof.
  intros A w l; induction l as [|a l IH]; intros H; [eexists; reflexivity|].
  destruct (H a (or_introl eq_refl)) as [b1 E1].
  destruct IH as [b2 E2]; [intros; apply H; right; assumption|].
  exists (b1 ++ b2). cbn [write_list]. fold (write_list w l). rewrite E1, E2. reflexivity.
Qed.

Lemma write_list_err : forall {A} (w : A -> res bytes) l,
  (forall a, In a l -> w a <> Panic) ->
  (exists a e, In a l /\ w a = Err e) -> exists e, write_list w l = Err e.
Proof.
  intros A w l; induction l as [|a l IH]; intros HP (x & e & Hin & He); [contradiction|].
  cbn [write_list]. fold (write_list w l).
  destruct (w a) as [b| e' |] eqn:Ea.
  - destruct Hin as [-> | Hin]; [congruence|].
    destruct IH as [e'' E'']; [intros; apply HP; right; assumption | eauto |].
    exists e''. cbn [bind]. rewrite E''. reflexivity.
  - exists e'. reflexivity.
  - exfalso. apply (HP a (or_introl eq_refl) Ea).
Qed.

(** Function-free types are always written; others always refused. *)
Lemma ser_type_ok : forall t, fun_free t -> exists bs, ser_type t = Ok bs.
Proof.
  intro t; induction t using stype_ind'; intro Hff; cbn [ser_type fun_free] in *;
    try (eexists; reflexivity); try contradiction.
  - destruct (emb_code t); [eexists; reflexivity|].
    destruct (IHt Hff) as [b Eb].
    assert (gen : exists bs, (b <- ser_type t ;; Ok (36 :: b)) = Ok bs)
      by (rewrite Eb; eexists; reflexivity).
    destruct t; try exact gen. destruct (emb_code t); [eexists; reflexivity | exact gen].
  - destruct (emb_code t); [eexists; reflexivity|].
    destruct (IHt Hff) as [b Eb].
    assert (gen : exists bs, (b <- ser_type t ;; Ok (12 :: b)) = Ok bs)
      by (rewrite Eb; eexists; reflexivity).
    destruct t; try exact gen. destruct (emb_code t); [eexists; reflexivity | exact gen].
  - apply fold_and_Forall in Hff.
    assert (HF : Forall (fun t => exists b, ser_type t = Ok b) l).
    { rewrite Forall_forall in *. intros x Hx. apply H; auto. }
    assert (gen : exists bs, (b <- write_list ser_type l ;; Ok (96 :: wrapu 8 (Zlen l) :: b)) = Ok bs).
    { rewrite Forall_forall in HF. destruct (write_list_ok ser_type l HF) as [b Eb].
      rewrite Eb. eexists; reflexivity. }
    destruct l as [|t1 [|t2 [|t3 [|t4 [|t5 l]]]]]; try exact gen; clear gen H Hff;
      repeat match goal with
      | H : Forall _ (_ :: _) |- _ => inversion H; subst; clear H
      | H : exists b, ser_type ?t = Ok b |- _ => destruct H as [? ?]
      end;
      repeat match goal with H : ser_type _ = Ok _ |- _ => rewrite H; clear H end;
      cbn [bind]; try (eexists; reflexivity).
    destruct (emb_code t1); destruct (emb_code t2); try (eexists; reflexivity).
    destruct (_ && _); eexists; reflexivity.
Qed.

Lemma ser_type_no_panic : forall t, ser_type t <> Panic.
Proof.
  assert (B : forall (r : res bytes) (k : bytes -> res bytes), r <> Panic ->
           (forall b, k b <> Panic) -> bind r k <> Panic).
  { intros r k Hr Hk; destruct r; cbn; auto; congruence. }
  intro t; induction t using stype_ind'; cbn [ser_type]; try discriminate.
  - destruct (emb_code t); [discriminate|].
    assert (gen : (b <- ser_type t ;; Ok (36 :: b)) <> Panic) by (apply B; [exact IHt | discriminate]).
    destruct t; try exact gen. destruct (emb_code t); [discriminate | exact gen].
  - destruct (emb_code t); [discriminate|].
    assert (gen : (b <- ser_type t ;; Ok (12 :: b)) <> Panic) by (apply B; [exact IHt | discriminate]).
    destruct t; try exact gen. destruct (emb_code t); [discriminate | exact gen].
  - assert (gen : (b <- write_list ser_type l ;; Ok (96 :: wrapu 8 (Zlen l) :: b)) <> Panic).
    { apply B; [|discriminate]. clear - H B. induction l as [|a l IH]; [discriminate|].
      inversion H; subst. cbn [write_list]. fold (write_list ser_type l).
      apply B; [assumption|]. intro. apply B; [auto | discriminate]. }
    destruct l as [|t1 [|t2 [|t3 [|t4 [|t5 l]]]]]; try exact gen; clear gen;
      repeat match goal with
      | H : Forall _ (_ :: _) |- _ => inversion H; subst; clear H
      end.
    + destruct (emb_code t1); destruct (emb_code t2);
        try (apply B; [assumption | intro; try discriminate]);
        [destruct (_ && _); [discriminate|]; apply B; [assumption | discriminate] |].
      apply B; [assumption | discriminate].
    + apply B; [assumption|intro]. apply B; [assumption|intro]. apply B; [assumption|discriminate].
    + apply B; [assumption|intro]. apply B; [assumption|intro].
      apply B; [assumption|intro]. apply B; [assumption|discriminate].
Qed.

Lemma emb_fun_free : forall t p, emb_code t = Some p -> fun_free t.
Proof. intros t p; destruct t; cbn; try discriminate; auto. Qed.

Lemma ser_type_fun_free : forall t bs, ser_type t = Ok bs -> fun_free t.
Proof.
  intro t; induction t using stype_ind'; intros bs E; cbn [ser_type fun_free] in *; auto; try discriminate.
  - destruct (emb_code t) eqn:Ep; [eapply emb_fun_free; eassumption|].
    assert (gen : forall bs, (b <- ser_type t ;; Ok (36 :: b)) = Ok bs -> fun_free t).
    { clear E bs. intros bs E. inv_bind E. eauto. }
    destruct t; try (eapply gen; exact E).
    destruct (emb_code t) eqn:Ei; [cbn; eapply emb_fun_free; eassumption | eapply gen; exact E].
  - destruct (emb_code t) eqn:Ep; [eapply emb_fun_free; eassumption|].
    assert (gen : forall bs, (b <- ser_type t ;; Ok (12 :: b)) = Ok bs -> fun_free t).
    { clear E bs. intros bs E. inv_bind E. eauto. }
    destruct t; try (eapply gen; exact E).
    destruct (emb_code t) eqn:Ei; [cbn; eapply emb_fun_free; eassumption | eapply gen; exact E].
  - assert (gen : forall bs, (b <- write_list ser_type l ;; Ok (96 :: wrapu 8 (Zlen l) :: b)) = Ok bs ->
              Forall fun_free l).
    { clear E bs. intros bs E. inv_bind E. clear E. revert b Eb. clear bs.
      induction l as [|a l IH]; intros b Eb; [constructor|].
      cbn [write_list] in Eb. fold (write_list ser_type l) in Eb. inversion H; subst.
      inv_bind Eb. inv_bind Eb. constructor; eauto. }
    apply fold_and_Forall.
    destruct l as [|t1 [|t2 [|t3 [|t4 [|t5 l]]]]]; try (eapply gen; exact E); clear gen;
      repeat match goal with
      | H : Forall _ (_ :: _) |- _ => inversion H; subst; clear H
      | H : Forall _ [] |- _ => clear H
      end.
    + destruct (emb_code t1) eqn:E1; destruct (emb_code t2) eqn:E2.
      * repeat constructor; eapply emb_fun_free; eassumption.
      * inv_bind E. repeat constructor; [eapply emb_fun_free; eassumption | eauto].
      * inv_bind E. repeat constructor; [eauto | eapply emb_fun_free; eassumption].
      * inv_bind E. inv_bind E. repeat constructor; eauto.
    + inv_bind E. inv_bind E. inv_bind E. repeat constructor; eauto.
    + inv_bind E. inv_bind E. inv_bind E. inv_bind E. repeat constructor; eauto.
Qed.

Lemma ser_type_nonempty : forall t bs, ser_type t = Ok bs -> (1 <= List.length bs)%nat.
Proof.
  intros t bs E. destruct t; cbn [ser_type] in E;
    try (injection E as <-; cbn; lia); try discriminate.
  - destruct (emb_code t); [injection E as <-; cbn; lia|].
    destruct t; try (inv_bind E; injection E as <-; cbn; lia).
    destruct (emb_code t); [injection E as <-; cbn; lia|]. inv_bind E; injection E as <-; cbn; lia.
  - destruct (emb_code t); [injection E as <-; cbn; lia|].
    destruct t; try (inv_bind E; injection E as <-; cbn; lia).
    destruct (emb_code t); [injection E as <-; cbn; lia|]. inv_bind E; injection E as <-; cbn; lia.
  - destruct items as [|t1 [|t2 [|t3 [|t4 [|t5 l]]]]];
      try (inv_bind E; injection E as <-; cbn; lia).
    + destruct (emb_code t1); destruct (emb_code t2); try (inv_bind E; injection E as <-; cbn; lia);
        [destruct (_ && _); [injection E as <-; cbn; lia|]; inv_bind E; injection E as <-; cbn; lia|].
      inv_bind E; inv_bind E; injection E as <-; cbn; lia.
    + inv_bind E; inv_bind E; inv_bind E; injection E as <-; cbn; lia.
    + inv_bind E; inv_bind E; inv_bind E; inv_bind E; injection E as <-; cbn; lia.
Qed.

(** ** What the parser accepts *)

Definition type_inv (bs : bytes) (t : stype) (rest : bytes) : Prop :=
  wf_type t /\ fun_free t /\ exists used, bs = used ++ rest /\ used <> [].

Lemma emb_wf : forall c t, emb_type c = Some t -> wf_type t /\ fun_free t.
Proof.
  intros c t E; destruct (emb_type_code _ _ E) as [E' _]; destruct t; cbn in E' |- *;
    try discriminate; auto.
Qed.

Lemma read_n_inv : forall {A} (r : reader A) (P : A -> Prop) n bs l rest,
  (forall bs a rest, bytes_ok bs -> r bs = Ok (a, rest) -> P a /\ exists used, bs = used ++ rest) ->
  bytes_ok bs ->
  read_n n r bs = Ok (l, rest) ->
  List.length l = n /\ Forall P l /\ exists used, bs = used ++ rest.
Proof.
  intros A r P n; induction n as [|n IH]; intros bs l rest H Hb E.
  - cbn in E. injection E as <- <-. split; [reflexivity|]. split; [constructor|]. exists []; reflexivity.
  - rewrite read_n_S in E. destruct (bind_ok _ _ _ _ _ E) as [[a b1] [E1 E2]].
    destruct (bind_ok _ _ _ _ _ E2) as [[l' b2] [E3 E4]]. injection E4 as <- <-.
    destruct (H _ _ _ Hb E1) as [Pa [u1 U1]]. subst bs. apply Forall_app in Hb.
    destruct (IH _ _ _ H (proj2 Hb) E3) as (L & F & u2 & U2).
    split; [cbn; lia|]. split; [constructor; assumption|]. exists (u1 ++ u2). subst b1.
    rewrite app_assoc; reflexivity.
Qed.

Lemma read_exact_split : forall n bs x rest,
  read_exact n bs = Ok (x, rest) -> bs = x ++ rest /\ List.length x = n.
Proof. intros n bs x rest E. apply read_exact_inv in E. destruct E; split; assumption. Qed.

Lemma parse_type_inv : forall fuel bs t rest,
  bytes_ok bs -> parse_type_f fuel bs = Ok (t, rest) -> type_inv bs t rest.
Proof.
  unfold type_inv. intro fuel; induction fuel as [|fuel IH]; intros bs t rest Hb E; [discriminate|].
  cbn [parse_type_f] in E. destruct bs as [|c bs]; [discriminate|].
  rewrite get_u8_cons in E. cbn [bind] in E. inversion Hb as [|? ? Hc Hb']; subst.
  assert (IH' : forall bs t rest, bytes_ok bs -> parse_type_f fuel bs = Ok (t, rest) ->
            (wf_type t /\ fun_free t) /\ exists used, bs = used ++ rest).
  { intros b t' r Hb0 E0. destruct (IH _ _ _ Hb0 E0) as (A & B & u & U & _). eauto. }
  assert (fin : forall t u (r : bytes), wf_type t -> fun_free t -> bs = u ++ r ->
            wf_type t /\ fun_free t /\ exists used, c :: bs = used ++ r /\ used <> []).
  { intros t' u r W F U. split; [exact W|]. split; [exact F|]. exists (c :: u).
    split; [rewrite U; reflexivity | discriminate]. }
  unfold parse_tc_with in E.
  destruct (emb_type c) as [te|] eqn:Ee.
  { injection E as <- <-. destruct (emb_wf _ _ Ee). apply (fin te []); auto. }
  repeat match type of E with
  | (if ?b then _ else _) = _ => destruct b eqn:?
  end;
  try (injection E as <- <-; apply (fin _ []); cbn; auto; fail);
  try discriminate.
  Ltac sub E IH' Hb :=
    match type of E with
    | bind (parse_type_f _ ?bs) _ = Ok _ =>
        let t := fresh "t" in let r := fresh "r" in let E1 := fresh "E1" in let E2 := fresh "E2" in
        let W := fresh "W" in let F := fresh "F" in let u := fresh "u" in let U := fresh "U" in
        destruct (bind_ok _ _ _ _ _ E) as [[t r] [E1 E2]]; clear E; rename E2 into E;
        destruct (IH' _ _ _ Hb E1) as [[W F] [u U]]; subst bs;
        let Hb1 := fresh "Hb" in let Hb2 := fresh "Hb" in
        apply Forall_app in Hb; destruct Hb as [Hb1 Hb2]; clear Hb1; rename Hb2 into Hb
    end.
  - sub E IH' Hb'. injection E as <- <-. apply (fin _ u); auto.
  - destruct (emb_type (c - 12)) eqn:Et; [|discriminate]. injection E as <- <-.
    destruct (emb_wf _ _ Et). apply (fin _ []); auto.
  - destruct (emb_type (c - 24)) eqn:Et; [|discriminate]. injection E as <- <-.
    destruct (emb_wf _ _ Et). apply (fin _ []); auto.
  - sub E IH' Hb'. injection E as <- <-. apply (fin _ u); auto.
  - destruct (emb_type (c - 36)) eqn:Et; [|discriminate]. injection E as <- <-.
    destruct (emb_wf _ _ Et). apply (fin _ []); auto.
  - destruct (emb_type (c - 48)) eqn:Et; [|discriminate]. injection E as <- <-.
    destruct (emb_wf _ _ Et). apply (fin _ []); auto.
  - sub E IH' Hb'. sub E IH' Hb'. injection E as <- <-. apply (fin _ (u ++ u0)).
    + cbn. split; [lia | auto].
    + cbn. auto.
    + rewrite app_assoc; reflexivity.
  - destruct (emb_type (c - 60)) eqn:Et; [|discriminate]. cbn [of_option bind] in E.
    destruct (emb_wf _ _ Et). sub E IH' Hb'. injection E as <- <-. apply (fin _ u); cbn; auto.
    split; [lia | auto].
  - sub E IH' Hb'. sub E IH' Hb'. sub E IH' Hb'. injection E as <- <-. apply (fin _ (u ++ u0 ++ u1)).
    + cbn. split; [lia | auto].
    + cbn. auto.
    + rewrite <- !app_assoc; reflexivity.
  - destruct (emb_type (c - 72)) eqn:Et; [|discriminate]. cbn [of_option bind] in E.
    destruct (emb_wf _ _ Et). sub E IH' Hb'. injection E as <- <-. apply (fin _ u); cbn; auto.
    split; [lia | auto].
  - sub E IH' Hb'. sub E IH' Hb'. sub E IH' Hb'. sub E IH' Hb'. injection E as <- <-.
    apply (fin _ (u ++ u0 ++ u1 ++ u2)).
    + cbn. split; [lia | auto].
    + cbn. auto 6.
    + rewrite <- !app_assoc; reflexivity.
  - destruct (emb_type (c - 84)) eqn:Et; [|discriminate]. injection E as <- <-.
    destruct (emb_wf _ _ Et). apply (fin _ []); cbn; auto. split; [lia | auto].
  - destruct bs as [|k bs]; [discriminate|]. rewrite get_u8_cons in E. cbn [bind] in E.
    destruct (bind_ok _ _ _ _ _ E) as [[items r2] [E1 E2]]. clear E.
    inversion Hb' as [|? ? Hk Hb'']; subst.
    destruct (read_n_inv _ (fun t => wf_type t /\ fun_free t) _ _ _ _ IH' Hb'' E1) as (L & F & u & U).
    destruct ((2 <=? Zlen items) && (Zlen items <=? 255)) eqn:El; [|discriminate].
    injection E2 as <- <-. apply andb_true_iff in El. destruct El as [L1 L2].
    apply (fin _ (k :: u)).
    + cbn [wf_type]. split; [lia|]. apply fold_and_Forall. eapply Forall_impl; [|exact F]. intros x [? ?]; assumption.
    + cbn [fun_free]. apply fold_and_Forall. eapply Forall_impl; [|exact F]. intros x [? ?]; assumption.
    + rewrite U. reflexivity.
  - unfold typevar_read in E. destruct bs as [|k bs]; [discriminate|]. rewrite get_u8_cons in E.
    cbn [bind] in E. destruct (bind_ok _ _ _ _ _ E) as [[n r2] [E1 E2]]. clear E.
    destruct (read_exact_split _ _ _ _ E1) as [U Ln].
    destruct (utf8_valid n) eqn:Eu; [|discriminate]. cbn [negb] in E2.
    destruct ((1 <=? Zlen n) && (Zlen n <=? 254)) eqn:El; [|discriminate]. injection E2 as <- <-.
    apply andb_true_iff in El. destruct El as [L1 L2]. apply (fin _ (k :: n)).
    + cbn. inversion Hb' as [|? ? Hk Hb'']; subst. apply Forall_app in Hb''.
      split; [exact (proj1 Hb'')|]. split; [exact Eu | lia].
    + exact I.
    + rewrite U. reflexivity.
Qed.

(** The fuel bound of [parse_type] is never what stops it. *)
Lemma read_n_ext : forall {A} (r1 r2 : reader A) n bs m,
  (List.length bs <= m)%nat ->
  (forall bs, (List.length bs <= m)%nat -> r1 bs = r2 bs) ->
  (forall bs a rest, r2 bs = Ok (a, rest) -> (List.length rest <= List.length bs)%nat) ->
  read_n n r1 bs = read_n n r2 bs.
Proof.
  intros A r1 r2 n; induction n as [|n IH]; intros bs m Hm He Hl; [reflexivity|].
  rewrite !read_n_S, (He bs Hm). destruct (r2 bs) as [[a b1]| |] eqn:E; [|reflexivity|reflexivity].
  cbn [bind]. rewrite (IH b1 m); [reflexivity| |exact He|exact Hl].
  pose proof (Hl _ _ _ E). lia.
Qed.

Lemma read_n_len : forall {A} (r : reader A) n bs l rest,
  (forall bs a rest, r bs = Ok (a, rest) -> (List.length rest <= List.length bs)%nat) ->
  read_n n r bs = Ok (l, rest) -> (List.length rest <= List.length bs)%nat.
Proof.
  intros A r n; induction n as [|n IH]; intros bs l rest H E.
  - cbn in E. injection E as <- <-. lia.
  - rewrite read_n_S in E. inv_bind E. destruct b as [a b1]. inv_bind E. destruct b as [l' b2].
    injection E as <- <-. pose proof (H _ _ _ Eb). pose proof (IH _ _ _ H Eb0). lia.
Qed.

Ltac destruct_if E := match type of E with (if ?b then _ else _) = _ => destruct b eqn:? end.

Lemma parse_tc_len : forall (rec : reader stype) c bs t rest,
  (forall bs a rest, rec bs = Ok (a, rest) -> (List.length rest <= List.length bs)%nat) ->
  parse_tc_with rec c bs = Ok (t, rest) -> (List.length rest <= List.length bs)%nat.
Proof.
  intros rec c bs t rest H E. unfold parse_tc_with in E.
  destruct (emb_type c); [injection E as <- <-; lia|].
  repeat match type of E with
  | (if ?b then _ else _) = _ => destruct b eqn:?
  end; try discriminate;
  try (injection E as <- <-; lia);
  try (match type of E with bind (of_option _ ?o) _ = _ => destruct o; [|discriminate] end;
       cbn [of_option bind] in E; try (injection E as <- <-; lia));
  try (repeat match type of E with
       | bind (rec _) _ = Ok _ =>
           let E1 := fresh "E" in
           destruct (bind_ok _ _ _ _ _ E) as [[? ?] [E1 E']]; clear E; rename E' into E;
           apply H in E1
       end; injection E as <- <-; lia).
  - destruct bs as [|k bs]; [discriminate|]. rewrite get_u8_cons in E. cbn [bind] in E.
    inv_bind E. destruct b as [items r2]. destruct_if E; [|discriminate]. injection E as <- <-.
    apply (read_n_len _ _ _ _ _ H) in Eb. cbn; lia.
  - unfold typevar_read in E. destruct bs as [|k bs]; [discriminate|]. rewrite get_u8_cons in E.
    cbn [bind] in E. inv_bind E. destruct b as [n r2]. apply read_exact_split in Eb. destruct Eb as [-> _].
    destruct_if E; [discriminate|]. destruct_if E; [|discriminate]. injection E as <- <-.
    cbn. rewrite app_length. lia.
Qed.

Lemma parse_type_f_len : forall fuel bs t rest,
  parse_type_f fuel bs = Ok (t, rest) -> (List.length rest < List.length bs)%nat.
Proof.
  intro fuel; induction fuel as [|fuel IH]; intros bs t rest E; [discriminate|].
  cbn [parse_type_f] in E. destruct bs as [|c bs]; [discriminate|]. rewrite get_u8_cons in E.
  cbn [bind] in E. apply parse_tc_len in E; [cbn; lia|].
  intros b a r E'. apply IH in E'. lia.
Qed.

Lemma parse_type_f_fuel : forall n1 n2 bs,
  (List.length bs < n1)%nat -> (List.length bs < n2)%nat ->
  parse_type_f n1 bs = parse_type_f n2 bs.
Proof.
  intro n1; induction n1 as [|n1 IH]; intros n2 bs H1 H2; [lia|].
  destruct n2 as [|n2]; [lia|]. cbn [parse_type_f].
  destruct bs as [|c bs]; [reflexivity|]. rewrite get_u8_cons. cbn [bind]. cbn [List.length] in H1, H2.
  assert (EX : forall b, (List.length b <= List.length bs)%nat -> parse_type_f n1 b = parse_type_f n2 b).
  { intros b Hb. apply IH; lia. }
  assert (LN : forall b a r, parse_type_f n2 b = Ok (a, r) -> (List.length r <= List.length b)%nat).
  { intros b a r E. apply parse_type_f_len in E. lia. }
  clear IH H1 H2. unfold parse_tc_with.
  destruct (emb_type c); [reflexivity|].
  repeat match goal with
  | |- (if ?b then _ else _) = _ => destruct b
  end; try reflexivity;
  try (match goal with |- bind (of_option _ ?o) _ = _ => destruct o; [|reflexivity] end;
       cbn [of_option bind]);
  try reflexivity;
  try (repeat match goal with
       | |- bind (parse_type_f n1 ?b) _ = _ =>
           rewrite (EX b) by lia;
           let E1 := fresh "E" in
           destruct (parse_type_f n2 b) as [[? ?]| |] eqn:E1; [|reflexivity|reflexivity];
           apply LN in E1; cbn [bind]
       end; reflexivity).
  destruct bs as [|k bs]; [reflexivity|]. rewrite get_u8_cons. cbn [bind].
  rewrite (read_n_ext (parse_type_f n1) (parse_type_f n2) _ bs (List.length (k :: bs)));
    [reflexivity | cbn; lia | exact EX | exact LN].
Qed.

Lemma parse_type_total_fuel : forall n bs, (List.length bs < n)%nat ->
  parse_type_f n bs = parse_type bs.
Proof. intros n bs H. unfold parse_type. apply parse_type_f_fuel; lia. Qed.

Lemma parse_type_no_panic : forall n bs, parse_type_f n bs <> Panic.
Proof.
  assert (B : forall {A C} (r : res A) (k : A -> res C), r <> Panic ->
           (forall b, k b <> Panic) -> bind r k <> Panic).
  { intros A C r k Hr Hk; destruct r; cbn; auto; congruence. }
  intro n; induction n as [|n IH]; intros bs; cbn [parse_type_f]; [discriminate|].
  destruct bs as [|c bs]; [discriminate|]. rewrite get_u8_cons. cbn [bind]. unfold parse_tc_with.
  destruct (emb_type c); [discriminate|].
  repeat match goal with
  | |- (if ?b then _ else _) <> _ => destruct b
  end; try discriminate;
  try (match goal with |- bind (of_option _ ?o) _ <> _ => destruct o; [|discriminate] end;
       cbn [of_option bind]); try discriminate;
  try (repeat (apply B; [apply IH | intros [? ?]]); discriminate).
  - destruct bs as [|k bs]; [discriminate|]. rewrite get_u8_cons. cbn [bind].
    apply B.
    + generalize (Z.to_nat k) as m. intro m. revert bs. induction m as [|m IHm]; intro bs; [discriminate|].
      rewrite read_n_S. apply B; [apply IH | intros [? ?]]. apply B; [apply IHm | intros [? ?]; discriminate].
    + intros [items r]. destruct (_ && _); discriminate.
  - unfold typevar_read. destruct bs as [|k bs]; [discriminate|]. rewrite get_u8_cons. cbn [bind].
    apply B.
    + unfold read_exact. destruct (_ <=? _)%nat; discriminate.
    + intros [m r]. destruct (negb _); [discriminate|]. destruct (_ && _); discriminate.
Qed.
