(** C116: constants from JavaScript values and back; C117: extraction of values. *)
From Verif Require Import Base VlqModel VlqProofs IntBytes GfModel GroupModel SigmaModel ProverModel BigIntModel TypeModel MethodModel IrModel SerModel ChainModel
  WalletModel TxModel SignModel HeaderModel MerkleModel JsonModel JsConvModel WalletProps DeriveProps JsonProofs JsonHintProofs SigmaProofs TypeProofs.
Local Open Scope string_scope.
Local Open Scope list_scope.
Local Open Scope Z_scope.

(** ** Specification *)

(** The text of an integer in decimal. *)
Definition decimal_of (s : bytes) (z : Z) : Prop :=
  exists ds, ds <> [] /\ Forall (fun d => 48 <= d <= 57) ds /\
    (((s = ds \/ s = 43 :: ds) /\ z = number_of ds) \/ (s = 45 :: ds /\ z = - number_of ds)).

(** The documented meaning of a value of JavaScript (ast.rs 290-295): a whole number is an
    Int, a text a Long, a BigInt a BigInt, bytes a collection of bytes, an array of values
    of one type a collection, and [array_as_tuple] a tuple. *)
Inductive js_means {G : group} : jsval -> stype -> lit G -> Prop :=
| jm_int : forall z d, i32 z -> js_means (VNum (Fin (z * Z.pos d) d)) SInt (LInt z)
| jm_long : forall s z, decimal_of s z -> i64 z -> js_means (VStr s) SLong (LLong z)
| jm_big : forall z, b256 z -> js_means (VBig z) SBigInt (LBigInt z)
| jm_bytes : forall l, Forall i8 l -> js_means (VBytes (map (fun z => z mod 256) l)) (SColl SByte) (LCollBytes l)
| jm_array : forall t l vs, l <> [] -> js_items l (map (fun _ => t) l) vs -> js_means (VArr l) (SColl t) (LColl t vs)
| jm_tuple : forall l ts vs, 2 <= Zlen l <= 255 -> js_items l ts vs -> js_means (array_as_tuple l) (STuple ts) (LTup vs)
with js_items {G : group} : list jsval -> list stype -> list (lit G) -> Prop :=
| ji_nil : js_items [] [] []
| ji_cons : forall j l t ts v vs, js_means j t v -> js_items l ts vs -> js_items (j :: l) (t :: ts) (v :: vs).
Scheme js_means_min := Minimality for js_means Sort Prop
with js_items_min := Minimality for js_items Sort Prop.
Combined Scheme js_both from js_means_min, js_items_min.

(** The literal has the type and its numbers are in their ranges.  Collections of bytes
    are native. *)
Fixpoint has {G : group} (v : lit G) (t : stype) {struct v} : Prop :=
  match v with
  | LUnit => t = SUnit
  | LBool _ => t = SBoolean
  | LByte z => t = SByte /\ i8 z
  | LShort z => t = SShort /\ i16 z
  | LInt z => t = SInt /\ i32 z
  | LLong z => t = SLong /\ i64 z
  | LBigInt z => t = SBigInt /\ b256 z
  | LSigma _ => t = SSigmaProp
  | LGroup _ => t = SGroupElement
  | LAvl _ => t = SAvlTree
  | LBox _ => t = SBox
  | LCollBytes l => t = SColl SByte /\ Forall i8 l
  | LColl u items => u <> SByte /\ t = SColl u /\ fold_right (fun x P => has x u /\ P) True items
  | LOpt o => match t with SOption u => match o with Some x => has x u | None => True end | _ => False end
  | LTup items =>
      match t with
      | STuple ts => 2 <= Zlen items <= 255 /\
          (fix go l ts := match l, ts with
                          | [], [] => True
                          | x :: l', u :: ts' => has x u /\ go l' ts'
                          | _, _ => False
                          end) items ts
      | _ => False
      end
  end.
(** No collection in it is empty, except of bytes, and no option is. *)
Fixpoint full {G : group} (v : lit G) : Prop :=
  match v with
  | LColl _ items => items <> [] /\ fold_right (fun x P => full x /\ P) True items
  | LOpt o => match o with Some x => full x | None => False end
  | LTup items => fold_right (fun x P => full x /\ P) True items
  | _ => True
  end.
(** Types whose values JavaScript tells apart. *)
Inductive js_ty : stype -> Prop :=
| jt_int : js_ty SInt
| jt_long : js_ty SLong
| jt_big : js_ty SBigInt
| jt_bytes : js_ty (SColl SByte)
| jt_coll : forall t, js_ty t -> js_ty (SColl t).

(** ** Induction *)
Lemma lit_deep : forall (G : group) (P : lit G -> Prop),
  (forall v, (forall u l, v = LColl u l -> Forall P l) -> (forall l, v = LTup l -> Forall P l) -> (forall x, v = LOpt (Some x) -> P x) -> P v) -> forall v, P v.
Proof.
  intros G P H. fix F 1. intros v. apply H; destruct v; try discriminate.
  - intros u l E. injection E as <- <-. induction items as [|x items IH]; constructor; [apply F|exact IH].
  - intros l E. injection E as <-. induction items as [|x items IH]; constructor; [apply F|exact IH].
  - intros x E. destruct o as [y|]; [|discriminate]. injection E as <-. apply F.
Qed.
Lemma jsval_deep : forall P : jsval -> Prop, (forall v, (forall l, v = VArr l -> Forall P l) -> P v) -> forall v, P v.
Proof.
  intros P H. fix F 1. intros v. apply H; destruct v; try discriminate.
  intros l' E. injection E as <-. induction l as [|x l IH]; constructor; [apply F|exact IH].
Qed.

(** The conversions of lists. *)
Section Lists.
Context {G : group}.
Definition js_list : list jsval -> res (list (const G)) := traverse of_js.
Lemma of_js_array : forall l : list jsval, of_js (G := G) (VArr l) =
  match l with
  | VStr s :: r =>
      if SigmaModel.bytes_eqb s tuple_token then cs <- js_list r ;; tuple_of cs
      else match longs_of_js l with
           | Ok vs => Ok (MkConst (SColl SLong) (LColl SLong vs))
           | Err _ => Err "NotSupported"
           | Panic => Panic
           end
  | _ => cs <- js_list l ;; array_of cs
  end.
Proof.
  intros l. cbn [of_js].
  set (f := fix items (l : list jsval) : res (list (const G)) := match l with [] => Ok [] | x :: l' => c <- of_js x ;; cs <- items l' ;; Ok (c :: cs) end).
  assert (E : forall l, f l = js_list l). { induction l0 as [|x l' IH]; [reflexivity|]. cbn [f]. fold f. unfold js_list. cbn [traverse]. rewrite IH. reflexivity. }
  destruct l as [|x r]; [rewrite E; reflexivity|]. destruct x; rewrite ?E; reflexivity.
Qed.
Lemma js_of_coll : forall t u (items : list (lit G)), js_of (SColl t) (LColl u items) = (l <- traverse (js_of u) items ;; Ok (VArr l)).
Proof.
  intros t u items. cbn [js_of]. f_equal. induction items as [|x l IH]; [reflexivity|]. cbn [traverse]. rewrite IH. reflexivity.
Qed.
Lemma has_coll : forall u (items : list (lit G)) t, has (LColl u items) t <-> u <> SByte /\ t = SColl u /\ Forall (fun x => has x u) items.
Proof. intros u items t. cbn [has]. rewrite (fold_Forall _ (fun x => has x u)). tauto. Qed.
Lemma has_tup : forall (items : list (lit G)) t, has (LTup items) t <-> exists ts, t = STuple ts /\ 2 <= Zlen items <= 255 /\ Forall2 has items ts.
Proof.
  intros items t. cbn [has].
  assert (E : forall items ts, (fix go (l : list (lit G)) (ts : list stype) : Prop := match l, ts with
                          | [], [] => True
                          | x :: l', u :: ts' => has x u /\ go l' ts'
                          | _, _ => False
                          end) items ts <-> Forall2 has items ts).
  { induction items0 as [|x l IH]; intros [|u ts]; split; intros H; try (constructor; fail); try contradiction; try (inversion H; fail).
    - destruct H as [H1 H2]. constructor; [exact H1|apply IH; exact H2].
    - inversion H; subst. split; [assumption|apply IH; assumption]. }
  destruct t; split; intros H; try contradiction; try (destruct H as (ts & X & _); discriminate).
  - destruct H as [H1 H2]. exists items0. split; [reflexivity|]. split; [exact H1|apply E; exact H2].
  - destruct H as (ts & X & H1 & H2). injection X as <-. split; [exact H1|apply E; exact H2].
Qed.
Lemma full_coll : forall u (items : list (lit G)), full (LColl u items) <-> items <> [] /\ Forall full items.
Proof. intros u items. cbn [full]. rewrite (fold_Forall _ full). tauto. Qed.
Lemma full_tup : forall items : list (lit G), full (LTup items) <-> Forall full items.
Proof. intros items. cbn [full]. apply (fold_Forall _ full). Qed.

(** ** Numbers *)
Lemma i64_decimal : forall s z, decimal_of s z -> i64 z -> i64_of_text s = Some z.
Proof.
  intros s z (ds & N & F & D) H. unfold i64 in H.
  assert (P : 0 <= number_of ds). { pose proof (digits_value_spec ds 0 F) as E. apply digits_value_acc in E; [exact E|lia]. }
  destruct ds as [|d ds]; [congruence|]. inversion F as [|x y Hd _]; subst. destruct D as [[[->| ->] ->]|[-> ->]]; unfold i64_of_text.
  - replace (d =? 45) with false by lia. apply digits_parse; auto. lia.
  - change (43 =? 45) with false. cbv iota. unfold unsigned_of_text. cbn [strip_plus]. change (43 =? 43) with true. cbv iota. rewrite digits_value_spec by exact F.
    change (fold_left (fun n d => 10 * n + (d - 48)) (d :: ds) 0) with (number_of (d :: ds)). replace (number_of (d :: ds) <? 2 ^ 63) with true by lia. reflexivity.
  - change (45 =? 45) with true. cbv iota. rewrite digits_value_spec by exact F.
    change (fold_left (fun n d => 10 * n + (d - 48)) (d :: ds) 0) with (number_of (d :: ds)). replace (number_of (d :: ds) <=? 2 ^ 63) with true by lia. reflexivity.
Qed.
Lemma digits_value_inv : forall s a v, digits_value a s = Some v -> Forall (fun d => 48 <= d <= 57) s.
Proof.
  induction s as [|c s IH]; intros a v E; [constructor|]. cbn [digits_value] in E. destruct ((48 <=? c) && (c <=? 57)) eqn:Q; [|discriminate].
  constructor; [lia|exact (IH _ _ E)].
Qed.
Lemma i64_text_inv : forall s z, i64_of_text s = Some z -> decimal_of s z /\ i64 z.
Proof.
  intros s z E. unfold i64_of_text in E. destruct s as [|c r]; [discriminate|]. unfold i64. destruct (Z.eqb_spec c 45) as [->|Nc].
  - destruct r as [|d r]; [discriminate|]. destruct (digits_value 0 (d :: r)) as [v|] eqn:D; [|discriminate]. destruct (v <=? 2 ^ 63) eqn:L; [|discriminate]. injection E as <-.
    pose proof (digits_value_inv _ _ _ D) as F. pose proof (digits_value_acc _ _ _ (Z.le_refl 0) D) as P. split; [|lia]. exists (d :: r). split; [discriminate|]. split; [exact F|].
    right. split; [reflexivity|]. f_equal. rewrite digits_value_spec in D by exact F. injection D as <-. reflexivity.
  - unfold unsigned_of_text in E. destruct (strip_plus (c :: r)) as [|d ds] eqn:S; [discriminate|]. destruct (digits_value 0 (d :: ds)) as [v|] eqn:D; [|discriminate].
    destruct (v <? 2 ^ 63) eqn:L; [|discriminate]. injection E as <-.
    pose proof (digits_value_inv _ _ _ D) as F. pose proof (digits_value_acc _ _ _ (Z.le_refl 0) D) as P. split; [|lia]. exists (d :: ds). split; [discriminate|]. split; [exact F|].
    left. rewrite digits_value_spec in D by exact F. injection D as <-. split; [|reflexivity]. cbn [strip_plus] in S. destruct (Z.eqb_spec c 43) as [->|]; [right|left]; congruence.
Qed.
Lemma int_text_decimal : forall z, decimal_of (int_text z) z.
Proof.
  intros z. unfold int_text, bigint_text. destruct (dec_text_spec (S (Z.to_nat (Z.log2 (Z.abs z)))) (Z.abs z)) as (V & F & N).
  { split; [lia|]. apply digits_bound. lia. }
  { lia. }
  set (ds := dec_text _ _) in *. exists ds. split; [exact N|]. split; [exact F|]. destruct (Z.ltb_spec z 0); [right|left]; (split; [auto|lia]).
Qed.
Lemma not_token : forall s z, decimal_of s z -> SigmaModel.bytes_eqb s tuple_token = false.
Proof.
  intros s z (ds & N & F & D). destruct (SigmaModel.bytes_eqb s tuple_token) eqn:E; [|reflexivity]. exfalso. apply SigmaProofs.bytes_eqb_spec in E.
  destruct ds as [|d ds]; [congruence|]. apply Forall_inv in F. unfold tuple_token in E.
  destruct D as [[[E'|E'] _]|[E' _]]; rewrite E' in E; inversion E. lia.
Qed.
Lemma bytes_as_u8 : forall l, Forall i8 l -> map (wraps 8) (map (fun z => z mod 256) l) = l.
Proof.
  intros l F. rewrite map_map. rewrite <- (map_id l) at 2. apply map_ext_in. intros z Hz. rewrite Forall_forall in F. specialize (F z Hz). unfold i8 in F.
  unfold wraps. change (2 ^ 8) with 256. change (2 ^ (8 - 1)) with 128. rewrite Z.add_mod_idemp_l by lia. rewrite Z.mod_small by lia. lia.
Qed.
End Lists.

(** ** C116 *)

(** A value of JavaScript is converted to what it means. *)
Lemma items_traverse : forall (G : group) l ts (vs : list (lit G)), js_items l ts vs ->
  (forall j t (v : lit G), In j l -> js_means j t v -> of_js j = Ok (MkConst t v)) -> js_list l = Ok (map (fun p => MkConst (fst p) (snd p)) (combine ts vs)).
Proof.
  intros G l ts vs I H. induction I as [|j l t ts v vs M I IH]; [reflexivity|]. unfold js_list in *. cbn [traverse combine map fst snd].
  rewrite (H j t v) by (auto; left; reflexivity). cbn [bind]. rewrite IH; [reflexivity|]. intros. apply H; [right; assumption|assumption].
Qed.
Lemma items_len : forall (G : group) l ts (vs : list (lit G)), js_items l ts vs -> List.length l = List.length ts /\ List.length l = List.length vs.
Proof. intros G l ts vs I. induction I as [|j l t ts v vs M I [I1 I2]]; [split; reflexivity|]. cbn [List.length]. split; congruence. Qed.
Lemma map_combine : forall A B (ts : list A) (vs : list B), List.length ts = List.length vs -> map fst (combine ts vs) = ts /\ map snd (combine ts vs) = vs.
Proof. intros A B. induction ts as [|t ts IH]; intros [|v vs] L; try discriminate; [split; reflexivity|]. injection L as L. destruct (IH _ L) as [E1 E2]. cbn [combine map fst snd]. rewrite E1, E2. split; reflexivity. Qed.
Theorem c116_from_js : forall (G : group) j t (v : lit G), js_means j t v -> of_js j = Ok (MkConst t v).
Proof.
  intros G. induction j as [j IH] using jsval_deep. intros t v M. destruct M as [z d Hz|s z D Hz|z Hz|l F|t l vs N I|l ts vs L I].
  - cbn [of_js]. do 3 f_equal. unfold as_i32. rewrite Z.quot_mul by lia. unfold i32 in Hz. lia.
  - cbn [of_js]. rewrite (i64_decimal s z D Hz). reflexivity.
  - cbn [of_js]. unfold int_text. rewrite bigint_rt. cbn [of_option bind]. unfold b256_of_bigint. destruct Hz. replace (z <? b256_min) with false by lia. replace (b256_max <? z) with false by lia. reflexivity.
  - cbn [of_js]. rewrite bytes_as_u8 by exact F. reflexivity.
  - specialize (IH l eq_refl). rewrite Forall_forall in IH. rewrite of_js_array. destruct (items_len _ _ _ _ I) as [L1 L2].
    assert (T : js_list l = Ok (map (MkConst t) vs)).
    { rewrite (items_traverse _ _ _ _ I) by (intros; apply IH; assumption). f_equal. clear - L2. revert vs L2. induction l as [|x l IHl]; intros [|v vs] L; try discriminate; [reflexivity|].
      injection L as L. cbn [map combine fst snd]. rewrite IHl by exact L. reflexivity. }
    assert (A : forall cs, cs = map (MkConst t) vs -> array_of cs = Ok (MkConst (SColl t) (LColl t vs))).
    { intros cs ->. destruct vs as [|v vs]; [destruct l; [congruence|discriminate]|]. cbn [map array_of c_tpe c_val]. rewrite map_map, map_id. reflexivity. }
    destruct l as [|x r]; [congruence|]. destruct x; try (rewrite T; cbn [bind]; apply A; reflexivity).
    assert (D : forall y (v' : lit G), js_means y t v' -> y = VStr s -> t = SLong /\ SigmaModel.bytes_eqb s tuple_token = false).
    { intros y v' My E. subst y. inversion My; subst. split; [reflexivity|]. eapply not_token; eassumption. }
    cbn [map] in I. inversion I as [|j' l' t' ts' v' vs' M' I']; subst. destruct (D _ _ M' eq_refl) as [-> K]. rewrite K.
    assert (Lg : forall l (vs : list (lit G)), js_items l (map (fun _ => SLong) l) vs -> longs_of_js (G := G) l = Ok vs \/ False).
    { clear. intros l. induction l as [|x l IHl]; intros vs I; cbn [map] in I; inversion I as [|j' l' t' ts' v' vs' M' I']; subst; [left; reflexivity|].
      inversion M'; subst. cbn [longs_of_js]. rewrite (i64_decimal s z) by assumption. cbn [of_option bind]. destruct (IHl _ I') as [->|[]]. left. reflexivity. }
    destruct (Lg _ _ I) as [->|[]]. reflexivity.
  - unfold array_as_tuple in IH |- *. specialize (IH _ eq_refl). inversion IH as [|a b _ IHr]; subst. rewrite Forall_forall in IHr. rewrite of_js_array.
    change (SigmaModel.bytes_eqb tuple_token tuple_token) with true. cbv iota. destruct (items_len _ _ _ _ I) as [L1 L2].
    rewrite (items_traverse _ _ _ _ I) by (intros; apply IHr; assumption). cbn [bind]. unfold tuple_of.
    assert (Len : Zlen (map (fun p => MkConst (G := G) (fst p) (snd p)) (combine ts vs)) = Zlen l).
    { unfold Zlen. rewrite map_length, combine_length. rewrite <- L1, <- L2, Nat.min_id. reflexivity. }
    rewrite Len. replace ((2 <=? Zlen l) && (Zlen l <=? 255)) with true by lia. rewrite !map_map. cbn [c_tpe c_val].
    destruct (map_combine _ _ ts vs) as [E1 E2]; [congruence|]. f_equal. f_equal; [f_equal; exact E1|f_equal; exact E2].
Qed.

(** Conversely, where numbers are whole and in range, a constant with a type is what the
    value means: nothing else is made up.  (Partial: other numbers, and arrays of values of
    several types, are accepted too.) *)
Fixpoint exact (j : jsval) : Prop :=
  match j with
  | VNum n => exists z d, n = Fin (z * Z.pos d) d /\ i32 z
  | VBytes b => Forall byte b
  | VArr l => fold_right (fun x P => exact x /\ P) True l
  | _ => True
  end.
Lemma exact_arr : forall l, exact (VArr l) <-> Forall exact l.
Proof. intros l. cbn [exact]. apply (fold_Forall _ exact). Qed.
Lemma js_list_inv : forall (G : group) l (cs : list (const G)), js_list l = Ok cs -> Forall2 (fun j c => of_js j = Ok c) l cs.
Proof. intros G. unfold js_list. induction l as [|x l IH]; intros cs E; cbn [traverse] in E; [injection E as <-; constructor|]. inv_bind E. inv_bind E. injection E as <-. constructor; auto. Qed.
Definition typed_right {G : group} (j : jsval) : Prop := exact j -> forall (c : const G) u, of_js j = Ok c -> has (c_val c) u -> c_tpe c = u /\ js_means j u (c_val c).
Lemma items_right : forall (G : group) l (cs : list (const G)) ts, Forall2 (fun j c => of_js j = Ok c) l cs -> Forall exact l -> Forall (@typed_right G) l ->
  Forall2 has (map c_val cs) ts -> map c_tpe cs = ts /\ js_items l ts (map c_val cs).
Proof.
  intros G l cs ts F. revert ts. induction F as [|j c l cs E _ IH]; intros ts X R H; cbn [map] in *; inversion H as [|a y b ys Ha Hb]; subst; [split; [reflexivity|constructor]|].
  inversion X; subst. inversion R; subst. destruct (IH ys) as [E1 E2]; auto. match goal with K : typed_right j |- _ => destruct (K ltac:(assumption) c y E ltac:(assumption)) as [E3 E4] end.
  split; [congruence|]. constructor; assumption.
Qed.
Lemma longs_right : forall (G : group) l (vs : list (lit G)), longs_of_js l = Ok vs -> js_items l (map (fun _ => SLong) l) vs.
Proof.
  intros G. induction l as [|x l IH]; intros vs E; cbn [longs_of_js] in E; [injection E as <-; constructor|]. destruct x; try discriminate. inv_bind E. inv_bind E. injection E as <-.
  cbn [map]. constructor; [|apply IH; assumption]. destruct (i64_of_text s) as [z|] eqn:T; [|discriminate]. cbn [of_option] in Eb. injection Eb as <-. destruct (i64_text_inv _ _ T). constructor; assumption.
Qed.
Lemma same_types : forall (G : group) l (cs : list (const G)) t, Forall2 (fun j c => of_js j = Ok c) l cs -> Forall (fun x => has x t) (map c_val cs) ->
  Forall2 has (map c_val cs) (map (fun _ => t) l).
Proof. intros G l cs t F. induction F as [|x y l l' E F IH]; intros Fh; cbn [map] in *; [constructor|]. inversion Fh; subst. constructor; auto. Qed.
Theorem c116_accepted_partial : forall (G : group) j (c : const G) u, exact j -> of_js j = Ok c -> has (c_val c) u -> c_tpe c = u /\ js_means j u (c_val c).
Proof.
  intros G. assert (K : forall j, @typed_right G j); [|intros j c u X; exact (K j X c u)].
  induction j as [j IH] using jsval_deep. intros X c u E H. destruct j as [b|l|n|s|z|b|]; try discriminate.
  - cbn [of_js] in E. injection E as <-. cbn [c_val c_tpe has exact] in *. destruct H as [-> F]. split; [reflexivity|].
    replace b with (map (fun z => z mod 256) (map (wraps 8) b)) at 1; [constructor; exact F|]. rewrite map_map. rewrite <- (map_id b) at 2. apply map_ext_in. intros z Hz.
    rewrite Forall_forall in X. specialize (X z Hz). unfold byte in X. unfold wraps. change (2 ^ 8) with 256. change (2 ^ (8 - 1)) with 128. rewrite Zminus_mod_idemp_l. replace (z + 128 - 128) with z by lia. apply Z.mod_small. lia.
  - specialize (IH l eq_refl). rewrite exact_arr in X. rewrite of_js_array in E.
    assert (A : forall cs, js_list l = Ok cs -> array_of cs = Ok c -> c_tpe c = u /\ js_means (VArr l) u (c_val c)).
    { intros cs El Ea. pose proof (js_list_inv _ _ _ El) as F. destruct cs as [|c0 cs]; [discriminate|]. cbn [array_of] in Ea. injection Ea as <-. cbn [c_tpe c_val] in *.
      rewrite has_coll in H. destruct H as (_ & -> & Fh). split; [reflexivity|].
      assert (F2 : Forall2 has (map c_val (c0 :: cs)) (map (fun _ => c_tpe c0) l)).
      { exact (same_types _ _ _ _ F Fh). }
      destruct (items_right _ _ _ _ F X IH F2) as [_ I]. apply jm_array; [inversion F; discriminate|exact I]. }
    destruct l as [|x r]; [unfold js_list in E; cbn [traverse bind array_of] in E; discriminate E|].
    destruct x; try (inv_bind E; exact (A _ Eb E)).
    destruct (SigmaModel.bytes_eqb s tuple_token) eqn:Q.
    + inv_bind E. apply SigmaProofs.bytes_eqb_spec in Q. subst s. unfold tuple_of in E. destruct ((2 <=? Zlen b) && (Zlen b <=? 255)) eqn:L; [|discriminate]. injection E as <-. cbn [c_tpe c_val] in *.
      pose proof (js_list_inv _ _ _ Eb) as F. rewrite has_tup in H. destruct H as (ts & -> & _ & F2). inversion X; subst. inversion IH; subst.
      destruct (items_right _ _ _ _ F ltac:(assumption) ltac:(assumption) F2) as [E1 I]. split; [congruence|]. apply (jm_tuple r); [|exact I].
      unfold Zlen in *. rewrite (Forall2_length' _ _ _ _ _ F). lia.
    + destruct (longs_of_js (VStr s :: r)) as [vs|e|] eqn:Lg; try discriminate. injection E as <-. cbn [c_tpe c_val] in *. rewrite has_coll in H. destruct H as (_ & -> & _).
      split; [reflexivity|]. apply jm_array; [discriminate|]. apply longs_right. exact Lg.
  - cbn [of_js] in E. injection E as <-. cbn [c_tpe c_val has exact] in *. destruct H as [-> _]. split; [reflexivity|]. destruct X as (z & d & -> & Hz).
    replace (as_i32 (Fin (z * Z.pos d) d)) with z; [constructor; exact Hz|]. unfold as_i32. rewrite Z.quot_mul by lia. unfold i32 in Hz. lia.
  - cbn [of_js] in E. destruct (i64_of_text s) as [z|] eqn:T; [|discriminate]. cbn [of_option bind] in E. injection E as <-. cbn [c_tpe c_val has] in *. destruct H as [-> _]. split; [reflexivity|].
    destruct (i64_text_inv _ _ T). constructor; assumption.
  - cbn [of_js] in E. unfold int_text in E. rewrite bigint_rt in E. cbn [of_option bind] in E. unfold b256_of_bigint in E. destruct (z <? b256_min); [discriminate|]. destruct (b256_max <? z); [discriminate|]. cbn [of_option bind] in E. injection E as <-.
    cbn [c_tpe c_val has] in *. destruct H as [-> H]. split; [reflexivity|]. constructor. exact H.
Qed.

(** Int, Long, BigInt, bytes and collections of these come back as they were. *)
Lemma to_js_means : forall (G : group) (v : lit G) t, js_ty t -> has v t -> full v -> exists j, js_of t v = Ok j /\ js_means j t v.
Proof.
  intros G. induction v as [v IHc _ _] using lit_deep. intros t T H F.
  destruct v; cbn [has] in H.
  all: try (subst t; inversion T; fail).
  all: try (destruct H as [-> _]; inversion T; fail).
  - destruct H as [-> H]. eexists. split; [reflexivity|]. pose proof (@jm_int G z 1 H) as K. rewrite Z.mul_1_r in K. exact K.
  - destruct H as [-> H]. eexists. split; [reflexivity|]. constructor; [apply int_text_decimal|exact H].
  - destruct H as [-> H]. eexists. split; [reflexivity|]. constructor. exact H.
  - destruct H as [-> H]. eexists. split; [reflexivity|]. constructor. exact H.
  - assert (H' : has (LColl t0 items) t) by exact H. clear H. rename H' into H. rewrite has_coll in H. destruct H as (N & -> & Fh). rewrite full_coll in F. destruct F as [Ne Ff].
    assert (Te : js_ty t0) by (inversion T; subst; [congruence|assumption]).
    specialize (IHc _ _ eq_refl). rewrite js_of_coll.
    assert (K : exists l, traverse (js_of t0) items = Ok l /\ js_items l (map (fun _ => t0) l) items).
    { clear - IHc Fh Ff Te. induction items as [|x items IH]; [exists []; split; [reflexivity|constructor]|]. inversion IHc; subst. inversion Fh; subst. inversion Ff; subst.
      destruct IH as (l & E & I); auto. match goal with K : forall t, _ |- _ => destruct (K t0 Te ltac:(assumption) ltac:(assumption)) as (j & Ej & M) end.
      exists (j :: l). cbn [traverse]. rewrite Ej. cbn [bind]. rewrite E. split; [reflexivity|]. cbn [map]. constructor; assumption. }
    destruct K as (l & E & I). rewrite E. cbn [bind]. eexists. split; [reflexivity|]. apply jm_array; [|exact I]. inversion I; subst; congruence.
  - destruct t; try contradiction. inversion T.
  - destruct t; try contradiction. inversion T.
Qed.
Theorem c116_roundtrip_partial : forall (G : group) t (v : lit G), js_ty t -> has v t -> full v -> exists j, const_to_js (MkConst t v) = Ok j /\ of_js j = Ok (MkConst t v).
Proof.
  intros G t v T H F. destruct (to_js_means G v t T H F) as (j & E & M). exists j. split; [exact E|]. apply c116_from_js. exact M.
Qed.

(** The conversion panics only over an array without items or a tuple without two to 255. *)
Inductive inside : jsval -> jsval -> Prop :=
| in_self : forall j, inside j j
| in_item : forall i j l, In j l -> inside i j -> inside i (VArr l).
Lemma js_list_panic : forall (G : group) l, js_list (G := G) l = Panic -> exists j, In j l /\ of_js (G := G) j = Panic.
Proof.
  intros G. unfold js_list. induction l as [|x l IH]; intros E; cbn [traverse] in E; [discriminate|]. destruct (of_js (G := G) x) as [c|e|] eqn:Ex; cbn [bind] in E; try discriminate.
  - destruct (traverse of_js l) as [cs|e|] eqn:El; cbn [bind] in E; try discriminate. destruct (IH eq_refl) as (j & Hj & Ej). exists j. split; [right; exact Hj|exact Ej].
  - exists x. split; [left; reflexivity|exact Ex].
Qed.
Lemma longs_no_panic : forall (G : group) l, longs_of_js (G := G) l <> Panic.
Proof.
  intros G. induction l as [|x l IH]; cbn [longs_of_js]; [discriminate|]. destruct x; try discriminate. destruct (i64_of_text s); cbn [of_option bind]; [|discriminate].
  destruct (longs_of_js l); cbn [bind]; try discriminate. congruence.
Qed.
Theorem c116_no_panic_partial : forall (G : group) j, of_js (G := G) j = Panic ->
  exists l, inside (VArr l) j /\ (l = [] \/ exists r, VArr l = array_as_tuple r /\ ~ 2 <= Zlen r <= 255).
Proof.
  intros G. induction j as [j IH] using jsval_deep. intros E. destruct j as [b|l|n|s|z|b|]; try discriminate.
  - specialize (IH l eq_refl). rewrite Forall_forall in IH. rewrite of_js_array in E.
    assert (K : forall r, (forall x, In x r -> In x l) -> js_list (G := G) r = Panic ->
      exists l0, inside (VArr l0) (VArr l) /\ (l0 = [] \/ exists r, VArr l0 = array_as_tuple r /\ ~ 2 <= Zlen r <= 255)).
    { intros r Hr Er. destruct (js_list_panic _ _ Er) as (x & Hx & Ex). destruct (IH x (Hr x Hx) Ex) as (l0 & I0 & P). exists l0. split; [|exact P]. econstructor; [apply Hr; exact Hx|exact I0]. }
    assert (A : (cs <- js_list l ;; array_of cs) = Panic (A := const G) -> exists l0, inside (VArr l0) (VArr l) /\ (l0 = [] \/ exists r, VArr l0 = array_as_tuple r /\ ~ 2 <= Zlen r <= 255)).
    { intros Ea. destruct (js_list (G := G) l) as [cs|e|] eqn:El; cbn [bind] in Ea; try discriminate; [|apply (K l); auto].
      destruct cs as [|c cs]; [|discriminate]. exists l. split; [constructor|]. left. pose proof (js_list_inv _ _ _ El) as F. inversion F. reflexivity. }
    destruct l as [|x r]; [apply A; exact E|]. destruct x; try (apply A; exact E).
    destruct (SigmaModel.bytes_eqb s tuple_token) eqn:Q.
    + apply SigmaProofs.bytes_eqb_spec in Q. subst s. destruct (js_list (G := G) r) as [cs|e|] eqn:El; cbn [bind] in E; try discriminate; [|apply (K r); [intros; right; assumption|exact El]].
      unfold tuple_of in E. destruct ((2 <=? Zlen cs) && (Zlen cs <=? 255)) eqn:L; [discriminate|]. exists (VStr tuple_token :: r). split; [constructor|]. right. exists r. split; [reflexivity|].
      pose proof (js_list_inv _ _ _ El) as F. unfold Zlen in *. rewrite (Forall2_length' _ _ _ _ _ F). lia.
    + pose proof (longs_no_panic G (VStr s :: r)). destruct (longs_of_js (VStr s :: r)); congruence.
  - cbn [of_js] in E. destruct (i64_of_text s); discriminate.
  - cbn [of_js] in E. destruct (bigint_of_text (int_text z)); cbn [of_option bind] in E; [|discriminate]. destruct (b256_of_bigint z0); discriminate.
Qed.

(** ** What goes wrong *)

(** Tuples are written without the token, so a pair of numbers comes back as a
    collection, and a pair of different things as a collection of the first. *)
Theorem c116_tuple_refuted : forall (G : group) a b, i32 a -> i32 b -> exists j,
  const_to_js (G := G) (MkConst (STuple [SInt; SInt]) (LTup [LInt a; LInt b])) = Ok j /\
  of_js (G := G) j = Ok (MkConst (SColl SInt) (LColl SInt [LInt a; LInt b])).
Proof.
  intros G a b Ha Hb. exists (VArr [whole a; whole b]). split; [reflexivity|]. apply (c116_from_js G (VArr [whole a; whole b]) (SColl SInt) (LColl SInt [LInt a; LInt b])).
  apply jm_array; [discriminate|]. unfold whole. constructor; [|constructor; [|constructor]].
  - pose proof (@jm_int G a 1 Ha) as K. rewrite Z.mul_1_r in K. exact K.
  - pose proof (@jm_int G b 1 Hb) as K. rewrite Z.mul_1_r in K. exact K.
Qed.
(** Booleans are not taken back; bytes and shorts come back as integers. *)
Theorem c116_boolean_refuted : forall (G : group) b, exists j, const_to_js (G := G) (MkConst SBoolean (LBool b)) = Ok j /\ of_js (G := G) j = Err "NotSupported".
Proof. intros G b. exists (VBool b). split; reflexivity. Qed.
Theorem c116_small_refuted : forall (G : group) z, i8 z ->
  (exists j, const_to_js (G := G) (MkConst SByte (LByte z)) = Ok j /\ of_js (G := G) j = Ok (MkConst SInt (LInt z))) /\
  (exists j, const_to_js (G := G) (MkConst SShort (LShort z)) = Ok j /\ of_js (G := G) j = Ok (MkConst SInt (LInt z))).
Proof.
  intros G z Hz. pose proof (@jm_int G z 1) as K. rewrite Z.mul_1_r in K. split; exists (whole z); (split; [reflexivity|]); apply c116_from_js, K; unfold i8, i32 in *; lia.
Qed.
(** Numbers that are no Int are taken for another number without an error. *)
Theorem c116_number_refuted : forall (G : group),
  (forall z, 2 ^ 31 <= z -> of_js (G := G) (whole z) = Ok (MkConst SInt (LInt (2 ^ 31 - 1)))) /\
  of_js (G := G) (VNum (Fin 3 2)) = Ok (MkConst SInt (LInt 1)) /\
  of_js (G := G) (VNum NaN) = Ok (MkConst SInt (LInt 0)).
Proof.
  intros G. split; [|split; reflexivity]. intros z Hz. unfold whole. cbn [of_js as_i32]. rewrite Z.quot_1_r. do 3 f_equal. lia.
Qed.
Theorem c116_empty_refuted : forall (G : group) j, of_js (G := G) (VArr []) = Panic /\ of_js (G := G) (array_as_tuple []) = Panic /\
  (forall c, of_js (G := G) j = Ok c -> of_js (G := G) (array_as_tuple [j]) = Panic).
Proof.
  intros G j. split; [reflexivity|]. split; [reflexivity|]. intros c E. unfold array_as_tuple. rewrite of_js_array.
  change (SigmaModel.bytes_eqb tuple_token tuple_token) with true. cbv iota. unfold js_list. cbn [traverse]. rewrite E. reflexivity.
Qed.
(** An array of several types is accepted: [[1, 5n]] becomes a constant that has no type;
    written and read it is the collection of 1 and -1. *)
Theorem c116_mixed_refuted : forall (G : group), exists j (c : const G) b, of_js j = Ok c /\ (forall u, ~ has (c_val c) u) /\
  ser_const c = Ok b /\ SerModel.from_bytes (G := G) parse_const b = Ok (MkConst (SColl SInt) (LColl SInt [LInt 1; LInt (-1)])).
Proof.
  intros G. exists (VArr [whole 1; VBig 5]), (MkConst (SColl SInt) (LColl SInt [LInt 1; LBigInt 5])), [16; 2; 2; 1; 5].
  split; [reflexivity|]. split; [|split; vm_compute; reflexivity].
  intros u H. cbn [c_val] in H. rewrite has_coll in H. destruct H as (_ & _ & F). inversion F as [|x l _ F']; subst. inversion F' as [|y l' X _]; subst. cbn [has] in X. destruct X as [X _]. discriminate X.
Qed.

(** ** C117: extraction *)

(** The type a Rust type stands for. *)
Fixpoint xty (x : target) : stype :=
  match x with
  | XUnit => SUnit | XBool => SBoolean | XI8 => SByte | XI16 => SShort | XI32 => SInt | XI64 => SLong | XBigInt => SBigInt
  | XSigma => SSigmaProp | XGroup => SGroupElement | XAvl => SAvlTree | XBox => SBox | XBytes => SColl SByte
  | XVec u => SColl (xty u)
  | XOpt u => SOption (xty u)
  | XTuple us => STuple (map xty us)
  end.
(** A vector of bytes is [XBytes]. *)
Fixpoint wf_target (x : target) : Prop :=
  match x with
  | XVec u => u <> XI8 /\ wf_target u
  | XOpt u => wf_target u
  | XTuple us => fold_right (fun u P => wf_target u /\ P) True us
  | _ => True
  end.
Fixpoint no_tuple (x : target) : Prop :=
  match x with
  | XVec u | XOpt u => no_tuple u
  | XTuple _ => False
  | _ => True
  end.
(** The Rust type fits the type, where a tuple may have more items than are asked for. *)
Inductive covers : target -> stype -> Prop :=
| cv_leaf : forall x, match x with XVec _ | XOpt _ | XTuple _ => False | _ => True end -> covers x (xty x)
| cv_vec : forall x t, covers x t -> t <> SByte -> covers (XVec x) (SColl t)
| cv_opt : forall x t, covers x t -> covers (XOpt x) (SOption t)
| cv_tuple : forall us ts, covers_all us ts -> covers (XTuple us) (STuple ts)
with covers_all : list target -> list stype -> Prop :=
| ca_rest : forall ts, covers_all [] ts
| ca_cons : forall u us t ts, covers u t -> covers_all us ts -> covers_all (u :: us) (t :: ts).

Lemma target_deep : forall P : target -> Prop, (forall x, (forall u, x = XVec u \/ x = XOpt u -> P u) -> (forall us, x = XTuple us -> Forall P us) -> P x) -> forall x, P x.
Proof.
  intros P H. fix F 1. intros x. apply H; destruct x; try (intros u [X|X]; discriminate X); try (intros us X; discriminate X).
  - intros u [X|X]; [injection X as <-; apply F|discriminate X].
  - intros u [X|X]; [discriminate X|injection X as <-; apply F].
  - intros us X. injection X as <-. induction ts as [|y ts IH]; constructor; [apply F|exact IH].
Qed.
Section Extract.
Context {G : group}.
Fixpoint extract_all (us : list target) (l : list (lit G)) : res (list (lit G)) :=
  match us with
  | [] => Ok []
  | u :: us' => match l with x :: l' => y <- extract u x ;; r <- extract_all us' l' ;; Ok (y :: r) | [] => Err "not enough items in STuple" end
  end.
Lemma extract_vec : forall u w (items : list (lit G)), extract (XVec u) (LColl w items) = (l <- traverse (extract u) items ;; Ok (LColl w l)).
Proof. intros u w items. cbn [extract]. f_equal. induction items as [|x l IH]; [reflexivity|]. cbn [traverse]. rewrite IH. reflexivity. Qed.
Lemma extract_tuple : forall us (items : list (lit G)), extract (XTuple us) (LTup items) = (l <- extract_all us items ;; Ok (LTup l)).
Proof. reflexivity. Qed.
Lemma wf_tuple : forall us, wf_target (XTuple us) <-> Forall wf_target us.
Proof. intros us. cbn [wf_target]. apply (fold_Forall _ wf_target). Qed.
Lemma traverse_same : forall A (f : A -> res A) l, Forall (fun x => f x = Ok x) l -> traverse f l = Ok l.
Proof. intros A f l F. induction F as [|x l E _ IH]; [reflexivity|]. cbn [traverse]. rewrite E. cbn [bind]. rewrite IH. reflexivity. Qed.
End Extract.

(** A value of the type that is asked for is given out. *)
Theorem c117_extract : forall (G : group) x (v : lit G), wf_target x -> has v (xty x) -> extract x v = Ok v.
Proof.
  intros G. induction x as [x IH1 IHt] using target_deep. intros v W H. destruct x; cbn [xty] in H.
  all: destruct v; cbn [has] in H; try discriminate H; try (destruct H as (_ & X & _); discriminate X); try (destruct H as [X _]; discriminate X); try contradiction; try reflexivity.
  - destruct H as (N & X & _). injection X as <-. congruence.
  - cbn [xty] in H. destruct H as [X _]. destruct W as [N _]. destruct x; try discriminate X. congruence.
  - assert (H' : has (LColl t items) (SColl (xty x))) by exact H. rewrite has_coll in H'. destruct H' as (_ & X & F). injection X as <-. destruct W as [_ W]. rewrite extract_vec, traverse_same; [reflexivity|].
    rewrite Forall_forall in *. intros y Hy. apply (IH1 x); auto.
  - destruct o as [y|]; [|reflexivity]. cbn [extract]. rewrite (IH1 x) by auto. reflexivity.
  - assert (H' : has (LTup items) (STuple (map xty ts))) by exact H. rewrite has_tup in H'. destruct H' as (ts' & X & _ & F). injection X as <-. apply wf_tuple in W. specialize (IHt _ eq_refl).
    rewrite extract_tuple. replace (extract_all ts items) with (Ok items); [reflexivity|]. symmetry. clear - IHt W F. revert items F. induction ts as [|u ts IH]; intros items F; inversion F as [|y a l b Hy Hl]; subst; [reflexivity|].
    inversion IHt; subst. inversion W; subst. cbn [extract_all]. match goal with K : forall v, wf_target u -> _ |- _ => rewrite K by assumption end. cbn [bind]. rewrite IH by assumption. reflexivity.
Qed.
(** For Rust types without tuples: exactly the values of the type, as they are. *)
Theorem c117_exact : forall (G : group) x t (v y : lit G), wf_target x -> no_tuple x -> has v t -> full v -> (extract x v = Ok y <-> t = xty x /\ y = v).
Proof.
  intros G x t v y W N H F. split.
  2: { intros [-> ->]. apply c117_extract; assumption. }
  revert t v y W N H F. induction x as [x IH1 _] using target_deep. intros t v y W N H F E. destruct x; destruct v; cbn [extract] in E; try discriminate E.
  all: try (injection E as <-; cbn [has] in H; first [subst t|destruct H as [-> _]]; split; reflexivity).
  - assert (H' : has (LColl t0 items) t) by exact H. rewrite has_coll in H'. destruct H' as (Nb & -> & Fh). rewrite full_coll in F. destruct F as [Ne Ff]. destruct W as [_ W].
    fold (@extract G (XVec x) (LColl t0 items)) in E. change (extract (XVec x) (LColl t0 items) = Ok y) in E. rewrite extract_vec in E. inv_bind E. injection E as <-.
    assert (K : (items <> [] -> t0 = xty x) /\ b = items).
    { clear Ne. revert b Eb. induction items as [|z items IH]; intros b Eb; cbn [traverse] in Eb; [injection Eb as <-; split; [congruence|reflexivity]|].
      inv_bind Eb. inv_bind Eb. injection Eb as <-. inversion Fh; subst. inversion Ff; subst. destruct (IH1 x (or_introl eq_refl) t0 z b0) as [-> ->]; auto.
      destruct IH with (b := b1) as [_ ->]; auto. cbn [has fold_right] in *. tauto. }
    destruct K as [K ->]. rewrite K by exact Ne. split; reflexivity.
  - cbn [has] in H. destruct t; try contradiction. destruct o as [z|]; [|contradiction F]. inv_bind E. injection E as <-. cbn [full] in F.
    destruct (IH1 x (or_intror eq_refl) t z b) as [-> ->]; auto.
  - contradiction N.
Qed.
(** With tuples: exactly when the Rust type fits, up to further items of tuples. *)
Theorem c117_tuple_partial : forall (G : group) x t (v : lit G), wf_target x -> has v t -> full v -> ((exists y, extract x v = Ok y) <-> covers x t).
Proof.
  intros G. induction x as [x IH1 IHt] using target_deep. intros t v W H F. split.
  - intros [y E]. destruct x; destruct v; cbn [extract] in E; try discriminate E.
    all: try (cbn [has] in H; first [subst t|destruct H as [-> _]]; match goal with |- covers ?x _ => exact (cv_leaf x Logic.I) end).
    + assert (H' : has (LColl t0 items) t) by exact H. rewrite has_coll in H'. destruct H' as (Nb & -> & Fh). rewrite full_coll in F. destruct F as [Ne Ff]. destruct W as [_ W].
      change (extract (XVec x) (LColl t0 items) = Ok y) in E. rewrite extract_vec in E. inv_bind E. destruct items as [|z items]; [congruence|]. cbn [traverse] in Eb. inv_bind Eb.
      apply cv_vec; [|exact Nb]. inversion Fh; subst. inversion Ff; subst. apply (IH1 x (or_introl eq_refl) t0 z); auto. eexists. exact Eb0.
    + cbn [has] in H. destruct t; try contradiction. destruct o as [z|]; [|contradiction F]. inv_bind E. apply cv_opt. apply (IH1 x (or_intror eq_refl) t z); auto. eexists. exact Eb.
    + assert (H' : has (LTup items) t) by exact H. rewrite has_tup in H'. destruct H' as (us & -> & _ & Fh). apply cv_tuple. rewrite full_tup in F. apply wf_tuple in W. specialize (IHt _ eq_refl).
      change (extract (XTuple ts) (LTup items) = Ok y) in E. rewrite extract_tuple in E. inv_bind E. clear E H. revert us items b Fh F Eb. induction ts as [|u ts IH]; intros us items b Fh F Eb; [constructor|].
      destruct items as [|z items]; [discriminate|]. cbn [extract_all] in Eb. inv_bind Eb. inv_bind Eb. inversion Fh; subst. inversion F; subst. inversion W; subst. inversion IHt; subst. constructor.
      * match goal with K : forall t v, wf_target u -> _ |- _ => apply (K _ z); auto end. eexists. eassumption.
      * eapply IH; eauto. intros u' [X|X]; discriminate X.
  - intros C. destruct C as [x L|x t0 C Nb|x t0 C|us ts C].
    + exists v. apply c117_extract; assumption.
    + destruct v; cbn [has] in H; try discriminate H; try (destruct H as (_ & X & _); discriminate X); try (destruct H as [X _]; discriminate X); try contradiction.
      * destruct H as [X _]. injection X as X. congruence.
      * assert (H' : has (LColl t items) (SColl t0)) by exact H. rewrite has_coll in H'. destruct H' as (_ & X & Fh). injection X as ->. rewrite full_coll in F. destruct F as [_ Ff]. destruct W as [_ W].
        rewrite extract_vec. assert (K : exists l, traverse (extract x) items = Ok l); [|destruct K as [l ->]; eexists; reflexivity].
        clear H. induction items as [|z items IH]; [eexists; reflexivity|]. inversion Fh; subst. inversion Ff; subst. destruct IH as [l El]; auto.
        destruct (IH1 x (or_introl eq_refl) t z) as [_ K]; auto. destruct (K C) as [y Ey]. exists (y :: l). cbn [traverse]. rewrite Ey. cbn [bind]. rewrite El. reflexivity.
    + destruct v; cbn [has] in H; try discriminate H; try (destruct H as (_ & X & _); discriminate X); try (destruct H as [X _]; discriminate X); try contradiction.
      * destruct o as [z|]; [|contradiction F]. cbn [full] in F. destruct (IH1 x (or_intror eq_refl) t0 z) as [_ K]; auto. destruct (K C) as [y Ey]. cbn [extract]. rewrite Ey. eexists. reflexivity.
    + destruct v; cbn [has] in H; try discriminate H; try (destruct H as (_ & X & _); discriminate X); try (destruct H as [X _]; discriminate X); try contradiction.
      * assert (H' : has (LTup items) (STuple ts)) by exact H. rewrite has_tup in H'. destruct H' as (ts' & X & _ & Fh). injection X as <-. rewrite full_tup in F. apply wf_tuple in W. specialize (IHt _ eq_refl).
        rewrite extract_tuple. assert (K : exists l, extract_all us items = Ok l); [|destruct K as [l ->]; eexists; reflexivity].
        clear H IH1. revert items Fh F. induction C as [ts|u us t ts C1 C2 IH]; intros items Fh F; [eexists; reflexivity|].
        inversion Fh as [|z a l b Hz Hl]; subst. inversion F; subst. inversion W; subst. inversion IHt; subst. cbn [extract_all].
        match goal with K : forall t v, wf_target u -> _ |- _ => destruct (K t z) as [_ K']; auto end. destruct (K' C1) as [y ->]. cbn [bind].
        destruct (IH ltac:(assumption) ltac:(assumption) l) as [l' ->]; auto. eexists. reflexivity.
Qed.
(** A triple passes for a pair, its last item is dropped. *)
Theorem c117_more_items_refuted : forall (G : group) a b (c : lit G), extract (XTuple [XI32; XI32]) (LTup [LInt a; LInt b; c]) = Ok (LTup [LInt a; LInt b]).
Proof. reflexivity. Qed.
(** An empty collection of one type passes for a vector of any other. *)
Theorem c117_empty_refuted : forall (G : group) t u, t <> SByte -> has (@LColl G t []) (SColl t) /\ extract (G := G) (XVec u) (LColl t []) = Ok (LColl t []).
Proof. intros G t u N. split; [|reflexivity]. rewrite has_coll. auto. Qed.

(** ** The hypotheses are met *)
Example c116_hyps_met : forall G : group,
  js_means (G := G) (array_as_tuple [VArr [VNum (Fin 14 2); whole 3]; VStr (txt "-5000000000")]) (STuple [SColl SInt; SLong]) (LTup [LColl SInt [LInt 7; LInt 3]; LLong (-5000000000)]) /\
  js_ty (SColl (SColl SByte)) /\ has (G := G) (LColl (SColl SByte) [LCollBytes [1; -1]; LCollBytes []]) (SColl (SColl SByte)) /\ full (G := G) (LColl (SColl SByte) [LCollBytes [1; -1]; LCollBytes []]) /\
  exact (VArr [VNum (Fin 14 2); whole 3]).
Proof.
  intros G. split; [|split; [|split; [|split]]].
  - apply jm_tuple; [cbn; lia|]. constructor; [|constructor; [|constructor]].
    + apply jm_array; [discriminate|]. constructor; [exact (jm_int 7 2 ltac:(unfold i32; lia))|]. constructor; [exact (jm_int 3 1 ltac:(unfold i32; lia))|constructor].
    + constructor; [|unfold i64; lia]. exists (txt "5000000000"). split; [discriminate|]. split; [apply Forall_forall; intros d Hd; cbn [txt map In] in Hd; vm_compute in Hd; intuition lia|]. right. split; reflexivity.
  - apply jt_coll. apply jt_bytes.
  - rewrite has_coll. split; [discriminate|]. split; [reflexivity|]. repeat constructor; unfold i8; lia.
  - rewrite full_coll. split; [discriminate|]. repeat constructor.
  - rewrite exact_arr. constructor; [exists 7, 2%positive; split; [reflexivity|unfold i32; lia]|]. constructor; [exists 3, 1%positive; split; [reflexivity|unfold i32; lia]|constructor].
Qed.
Example c117_hyps_met : forall G : group, wf_target (XVec (XTuple [XI32; XBytes])) /\
  has (G := G) (LColl (STuple [SInt; SColl SByte]) [LTup [LInt 3; LCollBytes [4]]]) (xty (XVec (XTuple [XI32; XBytes]))) /\ full (G := G) (LColl (STuple [SInt; SColl SByte]) [LTup [LInt 3; LCollBytes [4]]]) /\
  no_tuple (XVec (XOpt XI64)) /\ covers (XVec (XTuple [XI32])) (SColl (STuple [SInt; SColl SByte])).
Proof.
  intros G. split; [cbn; intuition discriminate|]. split; [|split; [|split]].
  - rewrite has_coll. split; [discriminate|]. split; [reflexivity|]. constructor; [|constructor]. rewrite has_tup. eexists. split; [reflexivity|]. split; [cbn; lia|]. repeat constructor; unfold i32, i8; lia.
  - rewrite full_coll. split; [discriminate|]. repeat constructor.
  - exact Logic.I.
  - apply cv_vec; [|discriminate]. apply cv_tuple. constructor; [exact (cv_leaf XI32 Logic.I)|constructor].
Qed.

Print Assumptions c116_from_js.
Print Assumptions c116_accepted_partial.
Print Assumptions c116_roundtrip_partial.
Print Assumptions c116_no_panic_partial.
Print Assumptions c116_tuple_refuted.
Print Assumptions c116_boolean_refuted.
Print Assumptions c116_small_refuted.
Print Assumptions c116_number_refuted.
Print Assumptions c116_empty_refuted.
Print Assumptions c116_mixed_refuted.
Print Assumptions c117_extract.
Print Assumptions c117_exact.
Print Assumptions c117_tuple_partial.
Print Assumptions c117_more_items_refuted.
Print Assumptions c117_empty_refuted.
