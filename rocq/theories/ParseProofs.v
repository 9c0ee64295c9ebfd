(** What the parsers of expressions, constants, scripts, registers and boxes return
    on arbitrary bytes: never a panic, and only well-formed results, whose encoding
    is at most twice as long as the bytes read. *)
From Verif Require Import Base VlqModel VlqProofs IntBytes GroupModel SigmaModel SigmaProofs SbProofs TypeModel MethodModel BigIntModel BigIntProps IrModel SerModel SerSpec SerLocal SerProofs GroupProofs TypeProofs ReadProofs.
Local Open Scope string_scope.
Local Open Scope list_scope.
Local Open Scope Z_scope.

Lemma need_no_panic : forall b t, need b t <> Panic.
Proof. intros b t. unfold need. destruct b; discriminate. Qed.
Lemma op_ty_no_panic : forall k p ts d, op_ty k p ts d <> Panic.
Proof.
  intros k p ts d. unfold op_ty.
  destruct k, p; try discriminate;
  repeat match goal with
  | |- need _ _ <> Panic => apply need_no_panic
  | |- of_option _ ?o <> Panic => destruct o; discriminate
  | |- Ok _ <> Panic => discriminate
  | |- Err _ <> Panic => discriminate
  | |- context [match ?x with _ => _ end] => destruct x
  end; try discriminate; try apply need_no_panic.
Qed.
Lemma apply_ty_no_panic : forall f args, apply_ty f args <> Panic.
Proof. intros f args. unfold apply_ty. destruct f; try discriminate. apply need_no_panic. Qed.
Lemma seq_ty_no_panic : forall q ts, seq_ty q ts <> Panic.
Proof. intros q ts. unfold seq_ty. destruct q; try discriminate; apply need_no_panic. Qed.

Lemma ts_merge_no_panic : forall s acc, ts_merge acc s <> Panic.
Proof.
  induction s as [|[n t] s IH]; intros acc; cbn [ts_merge]; [discriminate|].
  destruct (ts_get acc n); [destruct (stype_eqb s0 t); [apply IH|discriminate]|apply IH].
Qed.
Lemma bind_no_panic : forall A B (r : res A) (k : A -> res B),
  r <> Panic -> (forall a, k a <> Panic) -> bind r k <> Panic.
Proof. intros A B [a|e|] k Hr Hk; cbn [bind]; auto; discriminate. Qed.
Lemma unify_list_no_panic : forall u l1, Forall (fun a => forall b, u a b <> Panic) l1 ->
  forall acc l2, unify_list u acc l1 l2 <> Panic.
Proof.
  intros u l1 H. induction H as [|a l1 Ha Hl IH]; intros acc [|b l2]; cbn [unify_list]; try discriminate.
  apply bind_no_panic; [apply Ha|]. intros s. apply bind_no_panic; [apply ts_merge_no_panic|]. intros acc'. apply IH.
Qed.
Lemma unify_one_no_panic : forall t1 t2, unify_one t1 t2 <> Panic.
Proof.
  intros t1. induction t1 using stype_ind'; intros t2; cbn [unify_one]; cbv zeta.
  all: destruct t2; try discriminate; try apply IHt1;
    try (apply unify_list_no_panic; assumption);
    try (repeat match goal with |- (if ?b then _ else _) <> _ => destruct b end; discriminate).
  apply bind_no_panic; [apply unify_list_no_panic; assumption|]. intros s.
  apply bind_no_panic; [apply IHt1|]. intros s'. apply ts_merge_no_panic.
Qed.
Lemma unify_many_no_panic : forall l1 l2, unify_many l1 l2 <> Panic.
Proof. intros. apply unify_list_no_panic. apply Forall_forall. intros x _. apply unify_one_no_panic. Qed.

Lemma from_ids_inv : forall c i m, from_ids c i = Ok m -> sm_code m = c /\ sm_id m = i.
Proof.
  intros c i m. unfold from_ids. destruct (existsb (Z.eqb c) companion_codes); [|discriminate].
  destruct (find _ method_table) as [m'|] eqn:E; [|discriminate]. intros X. injection X as <-.
  apply find_some in E. destruct E as [_ E]. lia.
Qed.
Lemma from_ids_no_panic : forall c i, from_ids c i <> Panic.
Proof. intros c i. unfold from_ids. destruct (existsb _ _); [|discriminate]. destruct (find _ _); discriminate. Qed.
Lemma method_of_no_panic : forall c i o l, (m <- from_ids c i ;; specialize_for m o l) <> Panic.
Proof.
  intros. apply bind_no_panic; [apply from_ids_no_panic|]. intros m. unfold specialize_for.
  apply bind_no_panic; [apply unify_many_no_panic|]. discriminate.
Qed.
Lemma method_of_inv : forall c i o l m, (m <- from_ids c i ;; specialize_for m o l) = Ok m ->
  sm_code m = c /\ sm_id m = i /\ exists m0, from_ids (sm_code m) (sm_id m) = Ok m0 /\ specialize_for m0 o l = Ok m.
Proof.
  intros c i o l m E. inv_bind E. pose proof (from_ids_inv _ _ _ Eb) as [E1 E2].
  assert (sm_code m = sm_code b /\ sm_id m = sm_id b).
  { unfold specialize_for in E. inv_bind E. injection E as <-. split; reflexivity. }
  destruct H as [H1 H2]. split; [congruence|]. split; [congruence|]. exists b. rewrite H1, H2, E1, E2. auto.
Qed.
Lemma types_match_eq : forall m o l, method_types_match m o l = true -> sm_dom m = o :: l.
Proof.
  intros m o l E. unfold method_types_match in E. apply (list_eqb_spec stype_eqb) in E; [exact E|].
  apply Forall_forall. intros x _ y. apply stype_eqb_eq.
Qed.

Lemma reads_rmap_ex : forall A B (f : A -> B) (r : reader A) (Q : A -> bytes -> Prop),
  reads r Q -> reads (rmap_reader f r) (fun b u => exists a, b = f a /\ Q a u).
Proof. intros A B f r Q H. eapply reads_rmap; [exact H|]. intros a u _ HQ. eauto. Qed.

Section Parse.
Context {G : group} (HG : group_ok G).
Notation P := (@P G).
Notation rst := (@rst G).
Notation PX := (@parse_expr G).

(** ** Outcomes of parsers *)
Definition outp {A} (bs : bytes) (x : res (A * rst * bytes)) (Q : A -> rst -> bytes -> Prop) : Prop :=
  match x with
  | Ok (a, st', rest) => rs_subst st' = false /\
      exists u, bs = u ++ rest /\ bytes_ok u /\ bytes_ok rest /\ Q a st' u
  | Err _ => True
  | Panic => False
  end.
Definition sat {A} (k : nat) (st : rst) (p : P A) (Q : A -> rst -> bytes -> Prop) : Prop :=
  rs_subst st = false -> forall bs, bytes_ok bs -> (List.length bs <= k)%nat -> outp bs (p st bs) Q.

Lemma sat_bind : forall A B k st (p : P A) (f : A -> P B) Q R,
  sat k st p Q ->
  (forall a st1 u, bytes_ok u -> (List.length u <= k)%nat -> Q a st1 u ->
     sat k st1 (f a) (fun b st2 v => R b st2 (u ++ v))) ->
  sat k st (pbind p f) R.
Proof.
  intros A B k st p f Q R Hp Hf Hs bs Hb Hk. specialize (Hp Hs bs Hb Hk). unfold pbind.
  destruct (p st bs) as [[[a st1] rest]|e|]; cbn [outp] in *; auto.
  destruct Hp as (Hs1 & u & -> & Hu & Hr & HQ). rewrite app_length in Hk.
  specialize (Hf a st1 u Hu ltac:(lia) HQ Hs1 rest Hr ltac:(lia)).
  destruct (f a st1 rest) as [[[b st2] r2]|e|]; cbn [outp] in *; auto.
  destruct Hf as (Hs2 & v & -> & Hv & Hr2 & HR). split; [exact Hs2|]. exists (u ++ v).
  rewrite <- app_assoc. repeat split; auto. apply Forall_app. auto.
Qed.
Lemma sat_ret : forall A k st (a : A) (Q : A -> rst -> bytes -> Prop), Q a st [] -> sat k st (pret a) Q.
Proof. intros A k st a Q H Hs bs Hb Hk. cbn. split; [exact Hs|]. exists []. repeat split; auto. constructor. Qed.
Lemma sat_lift : forall A k st (r : reader A) Q, reads r Q -> sat k st (lift r) (fun a st' u => st' = st /\ Q a u).
Proof.
  intros A k st r Q H Hs bs Hb Hk. specialize (H bs Hb). unfold lift.
  destruct (r bs) as [[a rest]|e|]; cbn [out outp bind] in *; auto.
  destruct H as (u & -> & Hu & Hr & HQ). split; [exact Hs|]. exists u. auto.
Qed.
Lemma sat_res : forall A k st (r : res A) (Q : A -> rst -> bytes -> Prop), r <> Panic -> (forall a, r = Ok a -> Q a st []) ->
  sat k st (of_res r) Q.
Proof.
  intros A k st r Q Hp H Hs bs Hb Hk. unfold of_res. destruct r as [a|e|]; cbn [bind outp]; auto.
  split; [exact Hs|]. exists []. repeat split; auto. constructor.
Qed.
Lemma sat_err : forall A k st e (Q : A -> rst -> bytes -> Prop), sat k st (of_res (Err e)) Q.
Proof. intros A k st e Q Hs bs Hb Hk. exact I. Qed.
Lemma sat_conseq : forall A k st (p : P A) (Q R : A -> rst -> bytes -> Prop), sat k st p Q ->
  (forall a st' u, bytes_ok u -> (List.length u <= k)%nat -> Q a st' u -> R a st' u) -> sat k st p R.
Proof.
  intros A k st p Q R H K Hs bs Hb Hk. specialize (H Hs bs Hb Hk).
  destruct (p st bs) as [[[a st'] rest]|e|]; cbn [outp] in *; auto.
  destruct H as (Hs' & u & -> & Hu & Hr & HQ). split; [exact Hs'|]. exists u. rewrite app_length in Hk.
  repeat split; auto. apply K; auto. lia.
Qed.
Lemma sat_state : forall k st (Q : rst -> rst -> bytes -> Prop), Q st st [] -> sat k st pstate Q.
Proof. intros k st Q H Hs bs Hb Hk. cbn. split; [exact Hs|]. exists []. repeat split; auto. constructor. Qed.
Lemma sat_set : forall k st st' (Q : unit -> rst -> bytes -> Prop), (rs_subst st = false -> rs_subst st' = false) ->
  Q tt st' [] -> sat k st (pset st') Q.
Proof. intros k st st' Q H1 H Hs bs Hb Hk. cbn. split; [auto|]. exists []. repeat split; auto. constructor. Qed.
Lemma sat_le : forall A k k' st (p : P A) Q, sat k st p Q -> (k' <= k)%nat -> sat k' st p Q.
Proof. intros A k k' st p Q H L Hs bs Hb Hk. apply H; auto. lia. Qed.

Lemma sat_n : forall A k (p : P A) (Q : rst -> A -> rst -> bytes -> Prop) (QL : rst -> list A -> rst -> bytes -> Prop),
  (forall st, sat k st p (Q st)) -> (forall st, QL st [] st []) ->
  (forall st a st1 l st2 u v, Q st a st1 u -> QL st1 l st2 v -> QL st (a :: l) st2 (u ++ v)) ->
  forall n st, sat k st (pread_n n p) (fun l st' u => List.length l = n /\ QL st l st' u).
Proof.
  intros A k p Q QL Hp Hn Hc n. induction n as [|n IH]; intros st; cbn [pread_n].
  - apply sat_ret. auto.
  - eapply sat_bind; [apply Hp|]. intros a st1 u _ _ HQ. eapply sat_bind; [apply IH|].
    intros l st2 v _ _ [HL HQL]. apply sat_ret. rewrite app_nil_r. cbn [List.length]. split; [lia|]. eauto.
Qed.

(** ** Sizes of written expressions *)
Definition wsz (w : @W G) (n : Z) : Prop := exists x, w None = Ok (x, None) /\ Zlen x <= n /\ bytes_ok x.
Lemma wsz_le : forall w n m, wsz w n -> n <= m -> wsz w m.
Proof. intros w n m (x & E & L & B) H. exists x. split; [exact E|]. split; [lia|exact B]. Qed.
Lemma wsz_ret : forall l n, Zlen l <= n -> bytes_ok l -> wsz (wret l) n.
Proof. intros l n H B. exists l. split; [reflexivity|auto]. Qed.
Lemma wsz_put : forall r n, rsz r n -> wsz (wput r) n.
Proof. intros r n (x & -> & L). exists x. split; [reflexivity|exact L]. Qed.
Lemma wsz_cat : forall a b n m, wsz a n -> wsz b m -> wsz (wcat a b) (n + m).
Proof.
  intros a b n m (x & E & L) (y & F & M). exists (x ++ y). split; [eapply wcat_step; eassumption|]. split; [rewrite Zlen_app; lia|bts].
Qed.
Ltac wok := apply wsz_ret; [|bts].
Lemma wsz_run : forall w n, wsz w n -> rsz (wrun w) n.
Proof. intros w n (x & E & L). exists x. unfold wrun. rewrite E. auto. Qed.

(** ** Results *)
Definition QB st b st' (u : bytes) := ok_box (G := G) st b st' /\ rsz (ser_box b) (2 * Zlen u).
Definition QV t st v st' (u : bytes) := ok_lit (G := G) st t v st' /\ rsz (ser_lit v) (2 * Zlen u).
Definition QVs t st l st' (u : bytes) := ok_lits (G := G) st t l st' /\ rsz (write_list ser_lit l) (2 * Zlen u).
Definition QIs ts st l st' (u : bytes) := ok_items (G := G) st ts l st' /\ rsz (write_list ser_lit l) (2 * Zlen u).
Definition QK st c st' (u : bytes) := ok_const (G := G) st c st' /\ rsz (ser_const c) (2 * Zlen u).
Definition QKs st l st' (u : bytes) := ok_consts (G := G) st l st' /\ rsz (write_list ser_const l) (2 * Zlen u).
Definition QE st e st' (u : bytes) := ok_expr (G := G) false st e st' /\ wsz (ser_expr e) (2 * Zlen u) /\
  (is_bools e -> hd 0 u = code_bools) /\ 1 <= Zlen u.
Definition QEs st l st' (u : bytes) := ok_exprs (G := G) false st l st' /\ wsz (wall ser_expr l) (2 * Zlen u).
Definition QTr st t st' (u : bytes) := ok_tree (G := G) st t st' /\ rsz (ser_tree t) (2 * Zlen u).
Definition QR st r st' (u : bytes) := ok_reg (G := G) st r st' /\ rsz (ser_reg r) (2 * Zlen u).
Definition QRs st l st' (u : bytes) := ok_regs (G := G) st l st' /\ rsz (write_list ser_reg l) (2 * Zlen u).
Definition QC st c st' (u : bytes) := ok_cand (G := G) st c st' /\ rsz (ser_cand None c) (2 * Zlen u).
(** An expression whose first byte has been read. *)
Definition QTag tag st e st' (u : bytes) := ok_expr (G := G) false st e st' /\ wsz (ser_expr e) (2 * (1 + Zlen u)) /\
  (is_bools e -> tag = code_bools).

(** ** Literals *)
Lemma ser_lit_coll : forall t (l : list (lit G)) n k, t <> SBoolean -> Zlen l = n -> u16 n -> rsz (put_u16 n) k ->
  forall m, rsz (write_list ser_lit l) m -> rsz (ser_lit (LColl t l)) (k + m).
Proof.
  intros t l n k Ht HL Hn Sn m Hl.
  assert (E : ser_lit (LColl t l) = (n <- put_usize_as_u16_unwrapped (Zlen l) ;; b <- write_list ser_lit l ;; Ok (n ++ b)))
    by (destruct t; try reflexivity; congruence).
  rewrite E, HL. unfold put_usize_as_u16_unwrapped. replace (n <? 2 ^ 16) with true by (unfold u16 in Hn; lia).
  apply rsz_app; assumption.
Qed.

Lemma ok_lits_bools : forall st l, ok_lits (G := G) st SBoolean (map LBool l) st.
Proof. intros st l. induction l as [|b l IH]; [apply ok_lits_nil|]. cbn [map]. eapply ok_lits_cons; [apply ok_bool|exact IH]. Qed.

Ltac dlen := pose proof (Zlen_nonneg Z) as Zn; repeat match goal with u : bytes |- _ => pose proof (Zn u); revert u end; intros; lia.

Lemma sat_lit : forall k pbox, (forall st, sat k st pbox (QB st)) ->
  forall t st, sat k st (parse_lit pbox t) (QV t st).
Proof.
  intros k pbox HB t. induction t using stype_ind'; intros st; cbn [parse_lit]; try apply sat_err.
  - apply sat_ret. split; [apply ok_unit|rok; reflexivity].
  - eapply sat_conseq; [apply sat_lift; apply reads_rmap_ex, reads_u8|].
    intros v st' u _ _ (-> & a & -> & _ & ->). split; [apply ok_bool|]. destruct (negb (a =? 0)); rok; vm_compute; discriminate.
  - eapply sat_conseq; [apply sat_lift; apply reads_rmap_ex, reads_i8|].
    intros v st' u _ _ (-> & a & -> & Hi & HL). split; [apply ok_byte; exact Hi|]. rok. rewrite Zlen_cons, Zlen_nil. lia.
  - eapply sat_conseq; [apply sat_lift; apply reads_rmap_ex, reads_i16|].
    intros v st' u _ _ (-> & a & -> & Hi & HL). split; [apply ok_short; exact Hi|]. eapply rsz_le; [exact HL|]. pose proof (Zlen_nonneg _ u). lia.
  - eapply sat_conseq; [apply sat_lift; apply reads_rmap_ex, reads_i32|].
    intros v st' u _ _ (-> & a & -> & Hi & HL). split; [apply ok_int; exact Hi|]. exact HL.
  - eapply sat_conseq; [apply sat_lift; apply reads_rmap_ex, reads_i64|].
    intros v st' u _ _ (-> & a & -> & Hi & HL). split; [apply ok_long; exact Hi|]. eapply rsz_le; [exact HL|]. pose proof (Zlen_nonneg _ u). lia.
  - eapply sat_conseq; [apply sat_lift; apply reads_bigint|].
    intros v st' u _ _ (-> & z & -> & Hz & HL). split; [apply ok_bigint; exact Hz|exact HL].
  - eapply sat_conseq; [apply sat_lift; apply reads_rmap_ex, reads_ec|].
    intros v st' u _ _ (-> & a & -> & HL). split; [apply ok_group|]. cbn [ser_lit]. eapply rsz_le; [apply (ec_write_sz HG)|lia].
  - eapply sat_conseq; [apply sat_lift; apply reads_rmap_ex, (reads_sb_parse HG)|].
    intros v st' u _ _ (-> & a & -> & Hw & HL & _). split; [apply ok_sigma; exact Hw|]. eapply rsz_le; [exact HL|]. pose proof (Zlen_nonneg _ u). lia.
  - eapply sat_bind; [apply HB|]. intros b st1 u _ _ [H1 H2]. apply sat_ret. rewrite app_nil_r.
    split; [apply ok_lbox; exact H1|exact H2].
  - eapply sat_conseq; [apply sat_lift; apply reads_rmap_ex, reads_avl|].
    intros v st' u _ _ (-> & a & -> & Hw & HL). split; [apply ok_avl; exact Hw|]. eapply rsz_le; [exact HL|]. pose proof (Zlen_nonneg _ u). lia.
  - (* collections *)
    assert (GEN : t <> SByte -> t <> SBoolean ->
      sat k st (pbind (lift get_u16) (fun n => pbind (pread_n (Z.to_nat n) (parse_lit pbox t)) (fun l => pret (LColl t l))))
        (QV (SColl t) st)).
    { intros N1 N2. eapply sat_bind; [apply sat_lift, reads_u16|]. intros n st1 u _ _ (-> & Hn & Sn & _).
      eapply sat_bind; [apply (sat_n _ k _ (QV t) (QVs t)); [exact IHt| |]|].
      - intros st0. split; [apply ok_lits_nil|rok; reflexivity].
      - intros st0 a st1 l st2 v w [A1 A2] [B1 B2]. split; [eapply ok_lits_cons; eassumption|].
        eapply rsz_le; [apply write_list_cons_sz; eassumption|]. rewrite Zlen_app. lia.
      - intros l st2 v _ _ [HL [H1 H2]]. apply sat_ret. rewrite app_nil_r.
        assert (HZ : Zlen l = n) by (unfold Zlen; rewrite HL; unfold u16 in Hn; lia).
        split; [apply ok_coll; [exact N1|rewrite HZ; unfold u16 in Hn; lia|exact H1]|].
        eapply rsz_le; [eapply ser_lit_coll; eassumption|]. rewrite Zlen_app. pose proof (Zlen_nonneg _ u). lia. }
    destruct t; try (apply GEN; discriminate).
    + eapply sat_conseq; [apply sat_lift; apply reads_coll_bools|].
      intros v st' u _ _ (-> & l & -> & Hl & HS). split; [|eapply rsz_le; [exact HS|]; pose proof (Zlen_nonneg _ u); lia].
      apply ok_coll; [discriminate| |apply ok_lits_bools]. unfold Zlen in *. rewrite map_length. exact Hl.
    + eapply sat_conseq; [apply sat_lift; apply reads_coll_bytes|].
      intros v st' u _ _ (-> & l & -> & Hf & Hl & HS). split; [|eapply rsz_le; [exact HS|]; pose proof (Zlen_nonneg _ u); lia].
      apply ok_bytes_coll; assumption.
  - (* tuples *)
    assert (IT : forall st, sat k st (peach (parse_lit pbox) l) (QIs l st)).
    { clear st. induction H as [|t l Ht Hl IH]; intros st; cbn [peach].
      - apply sat_ret. split; [apply ok_items_nil|rok; reflexivity].
      - eapply sat_bind; [apply Ht|]. intros v st1 u _ _ [A1 A2]. eapply sat_bind; [apply IH|].
        intros l' st2 w _ _ [B1 B2]. apply sat_ret. rewrite app_nil_r. split; [eapply ok_items_cons; eassumption|].
        eapply rsz_le; [apply write_list_cons_sz; eassumption|]. rewrite Zlen_app. lia. }
    eapply sat_bind; [apply IT|]. intros l' st1 u _ _ [A1 A2]. unfold pbounded, bounded.
    destruct ((2 <=? Zlen l') && (Zlen l' <=? 255)) eqn:E.
    + eapply sat_bind; [apply (sat_res _ _ _ _ (fun a s w => a = l' /\ s = st1 /\ w = [])); [discriminate|intros a X; injection X as <-; auto]|].
      intros a st2 w _ _ (-> & -> & ->). apply sat_ret. rewrite !app_nil_r. split; [apply ok_tup; [lia|exact A1]|exact A2].
    + eapply sat_bind; [apply (sat_err _ _ _ _ (fun _ _ _ => False))|]. intros ? ? ? ? ? [].
Qed.

(** ** Parsers over an expression parser that behaves on shorter input *)
Section Rec.
Variable k : nat.
Hypothesis Hk : Z.of_nat k < 2 ^ 31.
Hypothesis Hrec : forall st, sat k st PX (QE st).

Lemma sat_exprs : forall n st, sat k st (pread_n n PX) (fun l st' u => List.length l = n /\ QEs st l st' u).
Proof.
  apply (sat_n _ k PX QE QEs Hrec).
  - intros st. split; [apply ok_exprs_nil|]. wok. reflexivity.
  - intros st a st1 l st2 u v (A1 & A2 & _) [B1 B2]. split; [eapply ok_exprs_cons; eassumption|].
    cbn [wall]. fold (wall (@ser_expr G)). eapply wsz_le; [apply wsz_cat; eassumption|]. rewrite Zlen_app. lia.
Qed.

Lemma const_sz : forall c n, wsz (ser_expr (EConst c)) n -> rsz (@ser_const G c) n.
Proof.
  intros c n (x & E & L). rewrite se_const in E. unfold put_const in E.
  destruct (ser_const c) as [b| |]; try discriminate E. cbn [bind] in E. injection E as <-. apply rsz_ok; apply L.
Qed.
Lemma const_wsz : forall c n, rsz (@ser_const G c) n -> wsz (ser_expr (EConst c)) n.
Proof. intros c n (x & E & L). exists x. rewrite se_const. unfold put_const. rewrite E. auto. Qed.

Lemma sat_const : forall st, sat k st (const_of PX) (QK st).
Proof.
  intros st Hs bs Hb Hl. unfold const_of. destruct bs as [|c bs]; [exact I|].
  destruct (is_type_code c); [|exact I]. pose proof (Hrec st Hs (c :: bs) Hb Hl) as H.
  destruct (PX st (c :: bs)) as [[[e st'] rest]|e|]; cbn [outp] in *; auto.
  destruct H as (Hs' & u & E & Hu & Hr & (H1 & H2 & _)). destruct e; try exact I.
  split; [exact Hs'|]. exists u. repeat split; auto.
  - inversion H1; subst; assumption.
  - apply const_sz. exact H2.
Qed.

Lemma sat_constants : forall st, sat k st (parse_constants PX) (fun cs st1 u =>
  Zlen cs <= max_constants /\ ok_consts st cs st1 /\
  rsz (n <- put_usize_as_u32_unwrapped (Zlen cs) ;; b <- write_list ser_const cs ;; Ok (n ++ b)) (2 * Zlen u)).
Proof.
  intros st. unfold parse_constants. eapply sat_bind; [apply sat_lift, reads_u32|].
  intros n st1 u _ _ (-> & Hn & Sn & _). destruct (max_constants <? n) eqn:E; [apply sat_err|].
  eapply sat_conseq; [apply (sat_n _ k _ QK QKs sat_const)|].
  - intros st0. split; [apply ok_consts_nil|rok; reflexivity].
  - intros st0 a st1 l st2 v w [A1 A2] [B1 B2]. split; [eapply ok_consts_cons; eassumption|].
    eapply rsz_le; [apply write_list_cons_sz; eassumption|]. rewrite Zlen_app. lia.
  - intros l st1 v _ _ [HL [H1 H2]].
    assert (HZ : Zlen l = n) by (unfold Zlen; rewrite HL; unfold u32 in Hn; lia).
    rewrite HZ. split; [lia|]. split; [exact H1|]. unfold put_usize_as_u32_unwrapped.
    replace (n <? 2 ^ 32) with true by (unfold u32 in Hn; lia).
    eapply rsz_le; [apply rsz_app; eassumption|]. rewrite Zlen_app. pose proof (Zlen_nonneg _ u). lia.
Qed.

Definition QBody h st t st' (u : bytes) : Prop := exists cs root st1 n m,
  t = Parsed h cs root /\ ok_seg (G := G) h st cs st1 /\ ok_expr false (set_store cs st1) root st' /\
  rsz (ser_seg h cs) n /\ wsz (ser_expr root) m /\ n + m <= 2 * Zlen u.

Lemma sat_body : forall h st, sat k st (parse_body PX h) (QBody h st).
Proof.
  intros h st. unfold parse_body.
  eapply sat_bind with (Q := fun cs st1 u => ok_seg h st cs st1 /\ rsz (ser_seg h cs) (2 * Zlen u)).
  { unfold ser_seg. destruct (th_seg h) eqn:Eh.
    - eapply sat_conseq; [apply sat_constants|]. intros cs st1 u _ _ (H1 & H2 & H3).
      split; [apply ok_seg_yes; assumption|exact H3].
    - apply sat_ret. split; [apply ok_seg_no; exact Eh|rok; reflexivity]. }
  intros cs st1 u _ _ [H1 H2].
  eapply sat_bind; [apply (sat_state _ _ (fun a s v => a = st1 /\ s = st1 /\ v = [])); auto|].
  intros a st2 v _ _ (-> & -> & ->).
  eapply sat_bind; [apply (sat_set _ _ _ (fun _ s v => s = set_store cs st1 /\ v = [])); auto|].
  intros [] st2 v _ _ (-> & ->).
  eapply sat_bind; [apply Hrec|]. intros root st2 v _ _ (R1 & R2 & _).
  apply sat_ret. rewrite app_nil_r. cbn [app]. unfold QBody. rewrite Zlen_app.
  exists cs, root, st1, (2 * Zlen u), (2 * Zlen v). repeat split; auto; lia.
Qed.

Lemma header_byte : forall h, header_ok h -> byte (th_serialized h).
Proof.
  intros [v s z] H. destruct H as [H|H]; cbn [th_version] in H; subst v; destruct s, z; vm_compute; split; discriminate || reflexivity.
Qed.
Lemma sat_tree : forall st, sat k st (parse_tree PX) (QTr st).
Proof.
  intros st. unfold parse_tree. eapply sat_bind; [apply sat_lift, reads_header|].
  intros h st1 u0 _ _ (-> & Hh & L0). pose proof (header_byte h Hh) as Hby. destruct (th_size h) eqn:Eh.
  2: { eapply sat_conseq; [apply sat_body|].
    intros t st' u _ _ (cs & root & st1 & n & m & -> & H1 & H2 & H3 & H4 & H5).
    split; [eapply ok_unsized; eassumption|]. rewrite st_parsed, Eh.
    destruct H3 as (c & -> & Lc). cbn [bind]. apply wsz_run in H4. destruct H4 as (r & -> & Lr). cbn [bind].
    rok. rewrite Zlen_cons, !Zlen_app, Zlen_nil. lia. }
  eapply sat_bind; [apply sat_lift, reads_u32|]. intros n st1 u1 _ _ (-> & Hn & Sn & _).
  eapply sat_bind; [apply sat_lift, reads_exact|]. intros buf st1 u2 Hu2 Lu2 (-> & -> & HL).
  assert (HZ : Zlen u2 = n) by (unfold Zlen; rewrite HL; unfold u32 in Hn; lia).
  pose proof (sat_body h fresh eq_refl u2 Hu2 Lu2) as HB.
  destruct (parse_body PX h fresh u2) as [[[t st'] r]|e|] eqn:EB; cbn [outp] in HB.
  - destruct HB as (_ & v & Ev & Hv & Hr & (cs & root & st1 & x & y & -> & H1 & H2 & H3 & H4 & H5)).
    apply sat_ret. rewrite app_nil_r. unfold QTr. rewrite !Zlen_app.
    assert (LV : Zlen v <= n) by (rewrite <- HZ, Ev, Zlen_app; pose proof (Zlen_nonneg _ r); lia).
    assert (LN : n < 2 ^ 31) by (unfold Zlen in HZ; lia).
    destruct H3 as (c & Ec & Lc). pose proof (wsz_run _ _ H4) as (b & Eb & Lb).
    assert (TOT : 0 <= Zlen (c ++ b) <= 2 * n) by (rewrite Zlen_app; pose proof (Zlen_nonneg _ c); pose proof (Zlen_nonneg _ b); lia).
    split.
    + eapply ok_sized; [exact Hh|exact Eh|exact H1|exact H2|].
      intros bs E. rewrite st_parsed in E. change (ser_seg (THeader (th_version h) (th_seg h) false) cs) with (ser_seg h cs) in E.
      rewrite Ec in E. cbn [bind] in E. rewrite Eb in E. cbn [bind th_size] in E. injection E as <-.
      rewrite Zlen_cons. cbn [app]. change (2 ^ 32) with (2 * 2 ^ 31). lia.
    + rewrite st_parsed, Ec, Eb, Eh. cbn [bind]. unfold put_usize_as_u32_unwrapped.
      replace (Zlen (c ++ b) <? 2 ^ 32) with true by (change (2 ^ 32) with (2 * 2 ^ 31); lia).
      destruct (put_double n (Zlen (c ++ b)) (Zlen u1) TOT Hn Sn) as (nb & En & Ln).
      change (put_u32 ?x) with (put_u64 x). rewrite En. cbn [bind]. rok.
      rewrite Zlen_cons, Zlen_app. lia.
  - destruct Sn as (nb & En & Ln).
    eapply sat_bind; [apply (sat_res _ _ _ _ (fun a s w => a = nb /\ s = st /\ w = [])); [congruence|intros a X; split; [congruence|auto]]|].
    intros a st1 w _ _ (-> & -> & ->). apply sat_ret. rewrite !app_nil_r.
    split; [eapply ok_unparsed; eauto; rewrite HZ; auto|].
    rok. rewrite Zlen_cons, !Zlen_app. pose proof (Zlen_nonneg _ u1). pose proof (Zlen_nonneg _ u2). lia.
  - destruct HB.
Qed.

Lemma reg_tuple_sz : forall l n, wsz (ser_expr (ESeq QTuple l)) n -> rsz (@ser_reg G (RTuple l)) n.
Proof.
  intros l n (x & E & L). rewrite se_seq in E. rewrite sr_tuple. unfold wcat, wput, wrun in *.
  destruct (seq_prefix QTuple (Zlen l)) as [a| |]; try discriminate E. cbn [bind] in *.
  destruct (wall ser_expr l None) as [[b s]| |]; try discriminate E. cbn [bind] in *. injection E as <- _.
  apply rsz_ok; apply L.
Qed.
Lemma sat_reg : forall st, sat k st (parse_reg PX) (QR st).
Proof.
  intros st. unfold parse_reg. eapply sat_bind; [apply Hrec|]. intros e st1 u _ _ (H1 & H2 & _).
  apply sat_res.
  - unfold reg_of. destruct e; try discriminate. destruct q; try discriminate. destruct (tuple_to_constant items); discriminate.
  - intros r E. rewrite app_nil_r. unfold reg_of in E. destruct e; try discriminate E.
    + injection E as <-. split; [apply ok_reg_const; inversion H1; subst; assumption|]. apply const_sz. exact H2.
    + destruct q; try discriminate E. destruct (tuple_to_constant items) eqn:ET; try discriminate E. injection E as <-.
      split; [|apply reg_tuple_sz; exact H2]. inversion H1; subst. eapply ok_reg_tuple; eauto.
Qed.
Lemma sat_regs : forall st, sat k st (parse_regs PX) (fun l st' u => Zlen l <= max_regs /\ ok_regs st l st' /\
  rsz (write_list ser_reg l) (2 * (Zlen u - 1))).
Proof.
  intros st. unfold parse_regs. eapply sat_bind; [apply sat_lift, reads_u8|]. intros n st1 u _ _ (-> & Hn & ->).
  eapply sat_bind; [apply (sat_n _ k _ QR QRs sat_reg)|].
  - intros st0. split; [apply ok_regs_nil|rok; reflexivity].
  - intros st0 a st1 l st2 v w [A1 A2] [B1 B2]. split; [eapply ok_regs_cons; eassumption|].
    eapply rsz_le; [apply write_list_cons_sz; eassumption|]. rewrite Zlen_app. lia.
  - intros l st1 v _ _ [HL [H1 H2]]. destruct (Zlen l <=? max_regs) eqn:E; [|apply sat_err].
    apply sat_ret. rewrite app_nil_r, Zlen_app. split; [lia|]. split; [exact H1|]. eapply rsz_le; [exact H2|].
    change (Zlen [n]) with 1. lia.
Qed.

Lemma sat_cand : forall st, sat k st (parse_cand PX None) (QC st).
Proof.
  intros st. unfold parse_cand. eapply sat_bind; [apply sat_lift, reads_value|]. intros v st1 u1 _ _ (-> & Hv & Sv).
  eapply sat_bind; [apply sat_tree|]. intros t st1 u2 _ _ [Ht St].
  eapply sat_bind; [apply sat_lift, reads_u32|]. intros h st2 u3 _ _ (-> & Hh & Sh & _).
  eapply sat_bind; [apply sat_lift, reads_tokens|]. intros tk st2 u4 _ _ (-> & Htk & Ltk & Stk).
  eapply sat_bind; [apply sat_regs|]. intros rg st2 u5 _ _ (Lrg & Hrg & Srg).
  apply sat_ret. rewrite app_nil_r. split; [eapply ok_candidate; eassumption|].
  assert (byte (Zlen tk)) by (unfold byte, max_tokens in *; pose proof (Zlen_nonneg _ tk); lia).
  assert (byte (Zlen rg)) by (unfold byte, max_regs in *; pose proof (Zlen_nonneg _ rg); lia).
  rewrite sc_cand. destruct St as (tb & -> & Lt), Sv as (vb & -> & Lv), Sh as (hb & -> & Lh). cbn [bind].
  replace (Zlen tk <=? 255) with true by (unfold max_tokens in Ltk; lia). cbn [put_u8 bind].
  destruct Stk as (kb & -> & Lk), Srg as (rb & -> & Lr). cbn [bind]. rok.
  rewrite !Zlen_app, !Zlen_cons, !Zlen_nil.
  pose proof (Zlen_nonneg _ kb). pose proof (Zlen_nonneg _ u1). pose proof (Zlen_nonneg _ u3). lia.
Qed.

Lemma sat_box : forall st, sat k st (parse_box PX) (QB st).
Proof.
  intros st. unfold parse_box. eapply sat_bind; [apply sat_cand|]. intros c st1 u1 _ _ [Hc Sc].
  eapply sat_bind; [apply sat_lift, reads_exact|]. intros txid st2 u2 Hu2 _ (-> & -> & HL).
  eapply sat_bind; [apply sat_lift, reads_u16|]. intros i st2 u3 _ _ (-> & Hi & Si & _).
  assert (SB : rsz (ser_box (MkBox c u2 i)) (2 * (Zlen u1 + Zlen u2 + Zlen u3))).
  { rewrite sb_box. destruct Sc as (cb & -> & Lc), Si as (ib & -> & Li). cbn [bind]. rok. rewrite !Zlen_app.
    pose proof (Zlen_nonneg _ u2). pose proof (Zlen_nonneg _ u3). lia. }
  destruct SB as (x & Ex & Lx).
  eapply sat_bind; [apply (sat_res _ _ _ _ (fun _ s w => s = st1 /\ w = [])); [congruence|auto]|].
  intros a st2 w _ _ (-> & ->). apply sat_ret. rewrite !app_nil_r. split; [apply ok_ergo_box; assumption|].
  exists x. split; [exact Ex|]. split; [rewrite !Zlen_app; lia|apply Lx].
Qed.

(** ** Expressions after their first byte *)
Lemma sat_const_tag : forall tag st, sat k st (parse_const_tag PX tag) (QTag tag st).
Proof.
  intros tag st. unfold parse_const_tag. eapply sat_bind; [apply sat_lift, reads_with_type_code|].
  intros t st1 u _ _ (-> & Ht & St). eapply sat_bind; [apply (sat_lit k _ sat_box)|]. intros v st1 w _ _ [Hv Sv].
  apply sat_ret. rewrite app_nil_r. split; [apply ok_inline, ok_constant; assumption|]. split; [|intros []].
  apply const_wsz. cbn [ser_const]. eapply rsz_le; [apply rsz_app; eassumption|]. rewrite Zlen_app. lia.
Qed.

Lemma sat_placeholder : forall tag st, sat k st parse_placeholder (QTag tag st).
Proof.
  intros tag st. unfold parse_placeholder. eapply sat_bind; [apply sat_lift, reads_u32|]. intros id st1 u _ _ (-> & Hi & Si & _).
  intros Hs bs Hb Hl. cbn [pbind pstate]. unfold pbind, pstate.
  destruct (nth_error (rs_store st) (Z.to_nat id)) as [c|] eqn:E; [|exact I]. cbn [pret]. unfold pret. rewrite Hs.
  cbn [outp]. split; [exact Hs|]. exists [].
  split; [reflexivity|]. split; [constructor|]. split; [exact Hb|]. split; [|split].
  - eapply ok_placeholder; eassumption.
  - rewrite app_nil_r. eapply wsz_le; [apply wsz_cat; [wok|apply wsz_put; exact Si]; reflexivity|].
    pose proof (Zlen_nonneg _ u). change (Zlen [code_placeholder]) with 1. lia.
  - intros [].
Qed.

Lemma sat_val_use : forall tag st, sat k st parse_val_use (QTag tag st).
Proof.
  intros tag st. unfold parse_val_use. eapply sat_bind; [apply sat_lift, reads_u32|]. intros id st1 u _ _ (-> & Hi & Si & _).
  eapply sat_bind; [apply (sat_state _ _ (fun a s v => a = st /\ s = st /\ v = [])); auto|].
  intros a st2 v _ _ (-> & -> & ->). destruct (ty_lookup (rs_types st) id) as [t|] eqn:E; [|apply sat_err].
  apply sat_ret. rewrite !app_nil_r. split; [apply ok_val_use; assumption|]. split; [|intros []].
  change (ser_expr (EValUse id t)) with (wcat (@wret G [code_val_use]) (wput (put_u32 id))).
  eapply wsz_le; [apply wsz_cat; [wok; apply Z.le_refl|apply wsz_put; exact Si]|].
  pose proof (Zlen_nonneg _ u). change (Zlen [code_val_use]) with 1. lia.
Qed.

Lemma sat_val_def : forall tag st, sat k st (parse_val_def PX) (QTag tag st).
Proof.
  intros tag st. unfold parse_val_def. eapply sat_bind; [apply sat_lift, reads_u32|]. intros id st1 u _ _ (-> & Hi & Si & _).
  eapply sat_bind; [apply Hrec|]. intros rhs st1 v _ _ (R1 & R2 & _).
  eapply sat_bind; [apply (sat_state _ _ (fun a s v => a = st1 /\ s = st1 /\ v = [])); auto|].
  intros a st2 w _ _ (-> & -> & ->).
  eapply sat_bind; [apply (sat_set _ _ _ (fun _ s v => s = insert_type id (tpe rhs) st1 /\ v = [])); auto|].
  intros [] st2 w _ _ (-> & ->). apply sat_ret. rewrite !app_nil_r. split; [apply ok_val_def; assumption|]. split; [|intros []].
  rewrite se_val_def. eapply wsz_le; [apply wsz_cat; [wok; apply Z.le_refl|apply wsz_cat; [apply wsz_put; exact Si|exact R2]]|].
  rewrite Zlen_app. pose proof (Zlen_nonneg _ u). change (Zlen [code_val_def]) with 1. lia.
Qed.

Lemma subst_insert_args : forall l (st : rst), rs_subst (insert_args l st) = rs_subst st.
Proof. unfold insert_args. induction l as [|a l IH]; intros st; [reflexivity|]. cbn [fold_left]. rewrite IH. reflexivity. Qed.

Lemma sat_func : forall tag st, sat k st (parse_func PX) (QTag tag st).
Proof.
  intros tag st. unfold parse_func. eapply sat_bind; [apply sat_lift, reads_args|]. intros args st1 u _ _ (-> & Ha & La & Sa).
  eapply sat_bind; [apply (sat_state _ _ (fun a s v => a = st /\ s = st /\ v = [])); auto|].
  intros a st2 w _ _ (-> & -> & ->).
  eapply sat_bind; [apply (sat_set _ _ _ (fun _ s v => s = insert_args args st /\ v = [])); [intros E; rewrite subst_insert_args; exact E|auto]|].
  intros [] st2 w _ _ (-> & ->). eapply sat_bind; [apply Hrec|]. intros body st2 v _ _ (R1 & R2 & _).
  apply sat_ret. rewrite !app_nil_r. cbn [app]. split; [apply ok_func; assumption|]. split; [|intros []].
  rewrite se_func. eapply wsz_le; [apply wsz_cat; [wok; apply Z.le_refl|apply wsz_cat; [apply wsz_put; exact Sa|exact R2]]|].
  rewrite Zlen_app. change (Zlen [code_func]) with 1. lia.
Qed.

Definition QVec st l st' (u : bytes) : Prop := ok_exprs (G := G) false st l st' /\ Zlen l < 2 ^ 32 /\
  wsz (wcat (wput (put_u32 (wrapu 32 (Zlen l)))) (wall ser_expr l)) (2 * Zlen u).
Lemma sat_vec : forall st, sat k st (pvec PX) (QVec st).
Proof.
  intros st. unfold pvec. eapply sat_bind; [apply sat_lift, reads_u32|]. intros n st1 u _ _ (-> & Hn & Sn & _).
  eapply sat_conseq; [apply sat_exprs|]. intros l st1 v _ _ [HL [H1 H2]].
  assert (HZ : Zlen l = n) by (unfold Zlen; rewrite HL; unfold u32 in Hn; lia).
  split; [exact H1|]. rewrite HZ. split; [unfold u32 in Hn; lia|]. rewrite wrapu_id by exact Hn.
  eapply wsz_le; [apply wsz_cat; [apply wsz_put; exact Sn|exact H2]|]. rewrite Zlen_app. pose proof (Zlen_nonneg _ u). lia.
Qed.

Lemma wsz_assoc : forall a b c n, wsz (wcat (wcat a b) c) n -> wsz (wcat a (wcat b c)) n.
Proof.
  intros a b c n (x & E & L). exists x. split; [|exact L]. revert E. unfold wcat.
  destruct (a None) as [[xa sa]| |]; cbn [bind]; try discriminate.
  destruct (b sa) as [[xb sb]| |]; cbn [bind]; try discriminate.
  destruct (c sb) as [[xc sc]| |]; cbn [bind]; try discriminate. rewrite app_assoc. auto.
Qed.

Lemma sat_block : forall tag st, sat k st (parse_block PX) (QTag tag st).
Proof.
  intros tag st. unfold parse_block. eapply sat_bind; [apply sat_vec|]. intros items st1 u _ _ (H1 & H2 & H3).
  eapply sat_bind; [apply Hrec|]. intros r st2 v _ _ (R1 & R2 & _).
  apply sat_ret. rewrite app_nil_r. split; [eapply ok_block; eassumption|]. split; [|intros []].
  rewrite se_block. eapply wsz_le; [apply wsz_cat; [wok; apply Z.le_refl|apply wsz_assoc, wsz_cat; [exact H3|exact R2]]|].
  rewrite Zlen_app. change (Zlen [code_block]) with 1. lia.
Qed.

Lemma sat_apply : forall tag st, sat k st (parse_apply PX) (QTag tag st).
Proof.
  intros tag st. unfold parse_apply. eapply sat_bind; [apply Hrec|]. intros f st1 u _ _ (R1 & R2 & _).
  eapply sat_bind; [apply sat_vec|]. intros args st2 v _ _ (H1 & H2 & H3).
  eapply sat_bind; [apply (sat_res _ _ _ _ (fun t s w => apply_ty (tpe f) (map tpe args) = Ok t /\ s = st2 /\ w = [])); [apply apply_ty_no_panic|auto]|].
  intros t st3 w _ _ (Et & -> & ->). apply sat_ret. rewrite !app_nil_r. split; [eapply ok_apply; eassumption|]. split; [|intros []].
  rewrite se_apply. eapply wsz_le; [apply wsz_cat; [wok; apply Z.le_refl|apply wsz_cat; [exact R2|exact H3]]|].
  rewrite Zlen_app. change (Zlen [code_apply]) with 1. lia.
Qed.

Lemma sat_method : forall tag st, sat k st (parse_method PX) (QTag tag st).
Proof.
  intros tag st. unfold parse_method. eapply sat_bind; [apply sat_lift, reads_type_code|]. intros c st1 u0 _ _ (-> & Hc & Bc & L0).
  eapply sat_bind; [apply sat_lift, reads_u8|]. intros mid st1 u1 _ _ (-> & Hm & ->).
  eapply sat_bind; [apply Hrec|]. intros obj st1 u _ _ (R1 & R2 & _).
  eapply sat_bind; [apply sat_vec|]. intros args st2 v _ _ (H1 & H2 & H3).
  eapply sat_bind; [apply (sat_res _ _ _ _ (fun m s w => (m <- from_ids c mid ;; specialize_for m (tpe obj) (map tpe args)) = Ok m /\ s = st2 /\ w = []));
    [apply method_of_no_panic|auto]|].
  intros m st3 w _ _ (Em & -> & ->). destruct (method_types_match m (tpe obj) (map tpe args)) eqn:EM; [|apply sat_err].
  apply types_match_eq in EM. apply method_of_inv in Em. destruct Em as (Ec & Ei & m0 & E0 & E1).
  rewrite <- Ec in Bc. rewrite <- Ei in Hm.
  apply sat_ret. rewrite !app_nil_r. split; [eapply ok_method; eassumption|]. split; [|intros []].
  rewrite se_method. eapply wsz_le; [apply wsz_cat; [wok; apply Z.le_refl|apply wsz_cat; [exact R2|exact H3]]|].
  rewrite !Zlen_app, !Zlen_cons, Zlen_nil. lia.
Qed.
Lemma sat_prop : forall tag st, sat k st (parse_prop PX) (QTag tag st).
Proof.
  intros tag st. unfold parse_prop. eapply sat_bind; [apply sat_lift, reads_type_code|]. intros c st1 u0 _ _ (-> & Hc & Bc & L0).
  eapply sat_bind; [apply sat_lift, reads_u8|]. intros mid st1 u1 _ _ (-> & Hm & ->).
  eapply sat_bind; [apply Hrec|]. intros obj st1 u _ _ (R1 & R2 & _).
  eapply sat_bind; [apply (sat_res _ _ _ _ (fun m s w => (m <- from_ids c mid ;; specialize_for m (tpe obj) []) = Ok m /\ s = st1 /\ w = []));
    [apply method_of_no_panic|auto]|].
  intros m st3 w _ _ (Em & -> & ->). destruct (method_types_match m (tpe obj) []) eqn:EM; [|apply sat_err].
  apply types_match_eq in EM. apply method_of_inv in Em. destruct Em as (Ec & Ei & m0 & E0 & E1).
  rewrite <- Ec in Bc. rewrite <- Ei in Hm.
  apply sat_ret. rewrite !app_nil_r. split; [eapply ok_prop; eassumption|]. split; [|intros []].
  rewrite se_prop. eapply wsz_le; [apply wsz_cat; [wok; apply Z.le_refl|exact R2]|].
  rewrite !Zlen_app, !Zlen_cons, Zlen_nil. lia.
Qed.

Lemma sat_bounded : forall A (l : list A) st, sat k st (pbounded l) (fun a s w => a = l /\ s = st /\ w = [] /\ 2 <= Zlen l <= 255).
Proof.
  intros A l st. unfold pbounded, bounded. destruct ((2 <=? Zlen l) && (Zlen l <=? 255)) eqn:E; [|apply sat_err].
  apply sat_res; [discriminate|]. intros a X. injection X as <-. repeat split; lia.
Qed.

Lemma sat_tuple : forall tag st, sat k st (parse_tuple PX) (QTag tag st).
Proof.
  intros tag st. unfold parse_tuple. eapply sat_bind; [apply sat_lift, reads_u8|]. intros n st1 u _ _ (-> & Hn & ->).
  eapply sat_bind; [apply sat_exprs|]. intros l st1 v _ _ [HL [H1 H2]].
  eapply sat_bind; [apply sat_bounded|]. intros l' st2 w _ _ (-> & -> & -> & HB).
  apply sat_ret. rewrite !app_nil_r. split; [eapply ok_seq; [exact HB|reflexivity|exact H1]|]. split; [|intros []].
  rewrite se_seq. eapply wsz_le; [apply wsz_cat; [apply wsz_put; rok; cbn [put_u8]; apply Z.le_refl|exact H2]|].
  rewrite !Zlen_app, !Zlen_cons, Zlen_nil. lia.
Qed.

Lemma sat_sigma_seq : forall tag q st, q = QSigmaAnd \/ q = QSigmaOr -> sat k st (parse_sigma_seq PX q) (QTag tag st).
Proof.
  intros tag q st Hq. unfold parse_sigma_seq. eapply sat_bind; [apply sat_vec|]. intros l st1 u _ _ (H1 & H2 & H3).
  eapply sat_bind; [apply (sat_res _ _ _ _ (fun t s w => seq_ty q (map tpe l) = Ok t /\ s = st1 /\ w = [])); [apply seq_ty_no_panic|auto]|].
  intros t st2 w _ _ (Et & -> & ->).
  eapply sat_bind; [apply sat_bounded|]. intros l' st2 w _ _ (-> & -> & -> & HB).
  apply sat_ret. rewrite !app_nil_r. split; [eapply ok_seq; [destruct Hq as [-> | ->]; exact HB|exact Et|exact H1]|]. split; [|intros []].
  rewrite se_seq. destruct H3 as (x & E & L). unfold wcat, wput in E.
  destruct (put_u32 (wrapu 32 (Zlen l))) as [nb| |] eqn:En; try discriminate E. cbn [bind] in E.
  destruct (wall ser_expr l None) as [[b s]| |] eqn:Ew; try discriminate E. cbn [bind] in E. injection E as E1 E2.
  exists ((if match q with QSigmaAnd => true | _ => false end then code_sigma_and else code_sigma_or) :: x).
  split; [|split; [rewrite Zlen_cons; lia|constructor; [destruct q; vm_compute; split; discriminate || reflexivity|apply L]]]. unfold wcat, wput. destruct Hq as [-> | ->]; cbn [seq_prefix]; rewrite En; cbn [bind]; rewrite Ew; cbn [bind app];
    rewrite E1, E2; reflexivity.
Qed.

Lemma sat_coll : forall tag st, sat k st (parse_coll PX) (QTag tag st).
Proof.
  intros tag st. unfold parse_coll. eapply sat_bind; [apply sat_lift, reads_u16|]. intros n st1 u _ _ (-> & Hn & Sn & _).
  eapply sat_bind; [apply sat_lift, reads_type|]. intros t st1 v _ _ (-> & Ht & St & _).
  eapply sat_bind; [apply sat_exprs|]. intros l st1 w _ _ [HL [H1 H2]].
  assert (HZ : Zlen l = n) by (unfold Zlen; rewrite HL; unfold u16 in Hn; lia).
  apply sat_ret. rewrite !app_nil_r. split; [eapply ok_seq; [split; [rewrite HZ; unfold u16 in Hn; lia|exact Ht]|reflexivity|exact H1]|]. split; [|intros []].
  rewrite se_seq. destruct Sn as (nb & En & Ln), St as (tb & Et & Lt).
  eapply wsz_le; [apply wsz_cat; [apply wsz_put|exact H2]|].
  - cbn [seq_prefix]. rewrite HZ, wrapu_id by exact Hn. rewrite En. cbn [bind]. rewrite Et. cbn [bind]. rok. apply Z.le_refl.
  - rewrite !Zlen_app, !Zlen_cons, !Zlen_app. pose proof (Zlen_nonneg _ u). lia.
Qed.

Lemma sat_bools : forall st, sat k st parse_bools (QTag code_bools st).
Proof.
  intros st. unfold parse_bools. eapply sat_bind; [apply sat_lift, reads_u16|]. intros n st1 u _ _ (-> & Hn & Sn & _).
  eapply sat_bind; [apply sat_lift, reads_bits|]. intros l st1 v _ _ (-> & HL & SB).
  assert (HZ : Zlen l = n) by (unfold Zlen; rewrite HL; unfold u16 in Hn; lia).
  apply sat_ret. rewrite !app_nil_r. split; [apply ok_bools; rewrite HZ; unfold u16 in Hn; lia|]. split; [|reflexivity].
  cbn [ser_expr]. rewrite HZ, wrapu_id by exact Hn. apply wsz_put. destruct Sn as (nb & -> & Ln), SB as (b & -> & Lb). cbn [bind].
  rok. rewrite Zlen_cons, !Zlen_app. pose proof (Zlen_nonneg _ u). pose proof (Zlen_nonneg _ v). lia.
Qed.

Lemma sat_opt : forall st, sat k st (popt PX) (fun d st' u => ok_opt false st d st' /\
  wsz (match d with Some x => wcat (wret [1]) (ser_expr x) | None => wret [0] end) (2 * Zlen u)).
Proof.
  intros st. unfold popt. eapply sat_bind; [apply sat_lift, reads_u8|]. intros t st1 u _ _ (-> & Ht & ->).
  destruct (t =? 0).
  - apply sat_ret. split; [apply ok_none|]. wok. vm_compute. discriminate.
  - eapply sat_bind; [apply Hrec|]. intros e st1 v _ _ (R1 & R2 & _). apply sat_ret. rewrite app_nil_r.
    split; [apply ok_some; exact R1|]. eapply wsz_le; [apply wsz_cat; [wok; apply Z.le_refl|exact R2]|].
    rewrite Zlen_app, !Zlen_cons, Zlen_nil. lia.
Qed.

Lemma sat_op : forall tag o st, sat k st (parse_op PX o) (QTag tag st).
Proof.
  intros tag o st. unfold parse_op. eapply sat_bind; [apply sat_exprs|]. intros args st1 u _ _ [HL [H1 H2]].
  eapply sat_bind; [apply sat_lift, reads_payload|]. intros p st2 v _ _ (-> & Kp & Hp & Sp).
  eapply sat_bind with (Q := fun d st' w => (op_has_opt o = false -> d = None) /\ ok_opt false st1 d st' /\
    wsz (if op_has_opt o then match d with Some x => wcat (wret [1]) (ser_expr x) | None => wret [0] end else wret []) (2 * Zlen w)).
  { destruct (op_has_opt o).
    - eapply sat_conseq; [apply sat_opt|]. intros d st' w _ _ [A B]. split; [discriminate|]. auto.
    - apply sat_ret. split; [reflexivity|]. split; [apply ok_none|]. wok. reflexivity. }
  intros d st2 w _ _ (Hd & Od & Sd).
  eapply sat_bind; [apply (sat_res _ _ _ _ (fun t s z => op_ty o p (map tpe args) (otpe d) = Ok t /\ s = st2 /\ z = [])); [apply op_ty_no_panic|auto]|].
  intros t st3 z _ _ (Et & -> & ->). apply sat_ret. rewrite !app_nil_r. split; [|split; [|intros []]].
  - eapply ok_op; eauto.
  - assert (byte (op_code o)) by (destruct o; vm_compute; split; discriminate || reflexivity).
    rewrite se_op. eapply wsz_le; [apply wsz_cat; [wok; apply Z.le_refl|apply wsz_cat; [exact H2|apply wsz_cat; [apply wsz_put; exact Sp|exact Sd]]]|].
    rewrite !Zlen_app, !Zlen_cons, Zlen_nil. lia.
Qed.

(** Two Boolean constants have no effect on the reader. *)
Lemma bool_const_inv : forall st e st', ok_expr (G := G) false st e st' -> is_bool_const e -> st' = st /\ exists b, e = bool_const b.
Proof.
  intros st e st' H HB. destruct e; try destruct HB. destruct c as [t v]. destruct t; try destruct HB.
  inversion H; subst. match goal with X : ok_const _ _ _ |- _ => inversion X; subst end.
  match goal with X : ok_lit _ _ _ _ |- _ => inversion X; subst end. split; [reflexivity|]. eexists. reflexivity.
Qed.
Lemma is_bool_const_dec : forall e : expr G, {is_bool_const e} + {~ is_bool_const e}.
Proof. intros e. destruct e; try (right; intros []; fail). destruct c as [t v]. destruct t; try (right; intros []; fail). left. exact I. Qed.
Lemma bool_consts_none : forall l r : expr G, ~ (is_bool_const l /\ is_bool_const r) -> bool_consts l r = None.
Proof.
  intros l r H. unfold bool_consts. destruct l; try reflexivity. destruct c as [t v]. destruct t; try reflexivity.
  destruct r; try reflexivity. destruct c as [t' v']. destruct t'; try reflexivity. exfalso. apply H. split; exact I.
Qed.

Lemma sat_bin : forall tag b st, sat k st (parse_bin PX b) (QTag tag st).
Proof.
  intros tag b st Hs bs Hb Hl. assert (Bb : byte (bin_code b)) by (destruct b; vm_compute; split; discriminate || reflexivity). unfold parse_bin. destruct bs as [|c bs]; [exact I|].
  assert (S2 : forall x y n, 2 <= n -> wsz (ser_expr (EBin b (@bool_const G x) (bool_const y))) (1 + n)).
  { intros x y n Hn. rewrite se_bin. apply wsz_cat; [wok; vm_compute; discriminate|]. apply wsz_put.
    destruct x, y; (apply rsz_ok; [rewrite Zlen_cons; cbn; change (Zlen [_]) with 1; lia|
      repeat (apply Forall_cons; [vm_compute; split; discriminate || reflexivity|]); apply Forall_nil]). }
  destruct (Z.eqb_spec c code_bools) as [Ec|Ec].
  - assert (HS : sat k st (pbind (lift (get_bits 2)) (fun l => match l with
        | [x; y] => pret (EBin b (EConst (MkConst SBoolean (LBool x))) (EConst (MkConst SBoolean (LBool y))))
        | _ => of_res Panic end)) (fun e st' u => st' = st /\ exists x y, e = EBin b (@bool_const G x) (bool_const y))).
    { eapply sat_bind; [apply sat_lift, reads_bits|]. intros l st1 u _ _ (-> & HL & _).
      destruct l as [|x [|y [|]]]; try discriminate HL. apply sat_ret. split; [reflexivity|]. exists x, y. reflexivity. }
    inversion Hb; subst. cbn [List.length] in Hl. specialize (HS Hs bs ltac:(assumption) ltac:(lia)).
    match type of HS with outp _ ?x _ => destruct x as [[[e st'] rest]|e|] end; cbn [outp] in *; auto.
    destruct HS as (Hs' & u & -> & Hu & Hr & (-> & x & y & ->)). split; [exact Hs'|]. exists (code_bools :: u). split; [reflexivity|].
    split; [constructor; assumption|]. split; [exact Hr|]. split; [apply ok_bin_bools|]. split; [|intros []].
    eapply wsz_le; [apply (S2 x y 2); lia|]. rewrite Zlen_cons. pose proof (Zlen_nonneg _ u). lia.
  - unfold pbind at 1. pose proof (Hrec st Hs (c :: bs) Hb Hl) as HL1.
    destruct (PX st (c :: bs)) as [[[l st1] r1]|e|]; cbn [outp] in *; auto.
    destruct HL1 as (Hs1 & u & Eu & Hu & Hr1 & (L1 & L2 & L3 & L4)).
    assert (NB : ~ is_bools l).
    { intros X. apply L3 in X. destruct u as [|x u]; [unfold Zlen in L4; cbn in L4; lia|]. cbn [hd] in X. injection Eu as -> _. congruence. }
    assert (Lr1 : (List.length r1 <= k)%nat).
    { apply (f_equal (@List.length Z)) in Eu. rewrite app_length in Eu. lia. }
    unfold pbind. pose proof (Hrec st1 Hs1 r1 Hr1 Lr1) as HR1.
    destruct (PX st1 r1) as [[[r st2] r2]|e|]; cbn [outp] in *; auto.
    destruct HR1 as (Hs2 & v & Ev & Hv & Hr2 & (R1 & R2 & _ & R4)).
    cbn [pret outp]. unfold pret. cbn [outp]. split; [exact Hs2|]. exists (u ++ v). split; [rewrite Eu, Ev, app_assoc; reflexivity|].
    split; [apply Forall_app; auto|]. split; [exact Hr2|].
    destruct (is_bool_const_dec l) as [Dl|Dl]; [destruct (is_bool_const_dec r) as [Dr|Dr]|].
    + destruct (bool_const_inv _ _ _ L1 Dl) as (-> & x & ->). destruct (bool_const_inv _ _ _ R1 Dr) as (-> & y & ->).
      split; [apply ok_bin_bools|]. split; [|intros []]. eapply wsz_le; [apply (S2 x y 2); lia|]. rewrite Zlen_app. lia.
    + split; [eapply ok_bin; eauto; intros [? ?]; contradiction|]. split; [|intros []].
      rewrite se_bin, bool_consts_none by (intros [? ?]; contradiction).
      eapply wsz_le; [apply wsz_cat; [wok; apply Z.le_refl|apply wsz_cat; eassumption]|]. rewrite Zlen_app, Zlen_cons, Zlen_nil. lia.
    + split; [eapply ok_bin; eauto; intros [? ?]; contradiction|]. split; [|intros []].
      rewrite se_bin, bool_consts_none by (intros [? ?]; contradiction).
      eapply wsz_le; [apply wsz_cat; [wok; apply Z.le_refl|apply wsz_cat; eassumption]|]. rewrite Zlen_app, Zlen_cons, Zlen_nil. lia.
Qed.

Lemma sat_tag : forall tag st, sat k st (parse_tag PX tag) (QTag tag st).
Proof.
  intros tag st. unfold parse_tag.
  destruct (tag <=? last_constant_code); [apply sat_const_tag|].
  destruct (tag =? code_placeholder); [apply sat_placeholder|].
  destruct (tag =? code_val_use); [apply sat_val_use|].
  destruct (tag =? code_val_def); [apply sat_val_def|].
  destruct (tag =? code_func); [apply sat_func|].
  destruct (tag =? code_block); [apply sat_block|].
  destruct (tag =? code_apply); [apply sat_apply|].
  destruct (tag =? code_method); [apply sat_method|].
  destruct (tag =? code_prop); [apply sat_prop|].
  destruct (tag =? code_tuple); [apply sat_tuple|].
  destruct (tag =? code_coll); [apply sat_coll|].
  destruct (Z.eqb_spec tag code_bools) as [->|]; [apply sat_bools|].
  destruct (tag =? code_sigma_and); [apply sat_sigma_seq; auto|].
  destruct (tag =? code_sigma_or); [apply sat_sigma_seq; auto|].
  destruct (bin_of_code tag); [apply sat_bin|].
  destruct (op_of_code tag); [apply sat_op|]. apply sat_err.
Qed.
End Rec.

Lemma sat_expr : forall k, Z.of_nat k < 2 ^ 31 -> forall st, sat k st PX (QE st).
Proof.
  induction k as [|k IH]; intros Hk st Hs bs Hb Hl.
  - destruct bs; [|cbn in Hl; lia]. exact I.
  - rewrite parse_expr_eq. unfold step, pbind, lift. destruct bs as [|c bs]; [exact I|]. cbn [get_u8 bind].
    inversion Hb; subst. cbn [List.length] in Hl.
    pose proof (sat_tag k ltac:(lia) (IH ltac:(lia)) c st Hs bs ltac:(assumption) ltac:(lia)) as H.
    destruct (parse_tag PX c st bs) as [[[e st'] rest]|e|]; cbn [outp] in *; auto.
    destruct H as (Hs' & u & -> & Hu & Hr & (T1 & T2 & T3)). split; [exact Hs'|]. exists (c :: u).
    split; [reflexivity|]. split; [constructor; assumption|]. split; [exact Hr|]. split; [exact T1|].
    rewrite Zlen_cons. split; [exact T2|]. split; [exact T3|]. pose proof (Zlen_nonneg _ u). lia.
Qed.

End Parse.
