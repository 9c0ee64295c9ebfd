(** C100: the room reserved while reading. *)
From Verif Require Import Base VlqModel VlqProofs IntBytes GroupModel GroupProofs SigmaModel TypeModel TypeProofs MethodModel BigIntModel IrModel SerModel SerLocal ParseProps AllocModel.
Local Open Scope string_scope.
Local Open Scope list_scope.
Local Open Scope Z_scope.

Lemma u32_bound : forall bs n r, get_u32 bs = Ok (n, r) -> n < 2 ^ 32.
Proof.
  intros bs n r E. unfold get_u32 in E. inv_bind E. destruct b as [v b].
  destruct (v <? 2 ^ 32) eqn:L; [|discriminate]. injection E as <- <-. lia.
Qed.

Section Faithful.
Context {G : group}.
Notation P := (@P G).
Variable lim : Z.

(** The limited reader gives what the reader gives, or runs out of room. *)
Definition same {A} (x y : res A) : Prop := y = x \/ (lim < 2 ^ 32 - 1 /\ y = Panic).
Definition aft {A} (p q : P A) : Prop := forall st bs, same (p st bs) (q st bs).

Lemma aft_refl : forall A (p : P A), aft p p.
Proof. intros A p st bs. left. reflexivity. Qed.
Lemma aft_bind : forall A B (p q : P A) (f g : A -> P B), aft p q -> (forall a, aft (f a) (g a)) ->
  aft (pbind p f) (pbind q g).
Proof.
  intros A B p q f g H K st bs. unfold pbind, same. destruct (H st bs) as [E|[L E]]; rewrite E; [|auto].
  destruct (p st bs) as [[[a s] r]|e|]; [apply K|auto|auto].
Qed.
Lemma aft_reserve : forall A B (f g : A -> P B) (k : A -> Z) (r : reader A),
  (forall bs a rest, r bs = Ok (a, rest) -> k a < 2 ^ 32) -> (forall a, aft (f a) (g a)) ->
  aft (pbind (lift r) f) (pbind (lift r) (fun a => pbind (reserve lim (k a)) (fun _ => g a))).
Proof.
  intros A B f g k r Hk K st bs. unfold pbind, lift, reserve. destruct (r bs) as [[a rest]|e|] eqn:E; cbn [bind]; [|left; reflexivity..].
  destruct (lim <? k a) eqn:L; cbn; [|apply K]. right. split; [|reflexivity]. apply Hk in E. lia.
Qed.
Lemma aft_read_n : forall A n (p q : P A), aft p q -> aft (pread_n n p) (pread_n n q).
Proof.
  intros A n p q H; induction n as [|n IH]; cbn [pread_n]; [apply aft_refl|].
  apply aft_bind; [exact H|]. intros a. apply aft_bind; [exact IH|]. intros l. apply aft_refl.
Qed.
Lemma aft_each : forall A B (f g : A -> P B) l, (forall a, In a l -> aft (f a) (g a)) -> aft (peach f l) (peach g l).
Proof.
  intros A B f g l; induction l as [|x l IH]; intros H; cbn [peach]; [apply aft_refl|].
  apply aft_bind; [apply H; now left|]. intros a. apply aft_bind; [apply IH; intros; apply H; now right|]. intros. apply aft_refl.
Qed.
Ltac aftt :=
  repeat first
    [ assumption
    | match goal with H : forall x, aft _ _ |- _ => simple apply H end
    | simple apply aft_refl
    | simple apply aft_read_n
    | simple apply aft_bind; [|intro]
    | match goal with
      | |- aft (if ?b then _ else _) (if ?b then _ else _) => destruct b
      | |- aft (match ?x with _ => _ end) (match ?x with _ => _ end) => destruct x
      end ].
Lemma aft_lit : forall p q, aft p q -> forall t, aft (parse_lit p t) (parse_lit q t).
Proof.
  intros p q H t. induction t using stype_ind'; cbn [parse_lit]; try (aftt; fail).
  apply aft_bind; [|intros ?; apply aft_refl]. apply aft_each. intros a Ha. rewrite Forall_forall in H0. auto.
Qed.

Section Two.
Variables (r1 r2 : P (expr G)).
Hypothesis HR : aft r1 r2.
Lemma aft_const : aft (const_of r1) (const_of r2).
Proof.
  intros st bs. unfold const_of. destruct bs as [|c bs]; [left; reflexivity|]. destruct (is_type_code c); [|left; reflexivity].
  destruct (HR st (c :: bs)) as [E|[L E]]; rewrite E; [left; reflexivity|right; auto].
Qed.
Lemma aft_body : forall h, aft (parse_body r1 h) (parse_body r2 h).
Proof. pose proof aft_const. intros h. unfold parse_body, parse_constants. aftt. Qed.
Lemma aft_tree : aft (parse_tree r1) (parse_tree_r lim false r2).
Proof.
  pose proof aft_body as AB. unfold parse_tree, parse_tree_r. apply aft_bind; [aftt|]. intros h.
  destruct (th_size h); [|apply AB]. apply (aft_reserve _ _ _ _ (fun n => n)); [exact u32_bound|]. intros n.
  apply aft_bind; [aftt|]. intros buf.
  destruct (AB h fresh buf) as [E|[L E]]; rewrite E; [destruct (parse_body r1 h fresh buf) as [[[t s] r]|e|]; apply aft_refl|].
  intros st bs. right. auto.
Qed.
Lemma aft_box : aft (parse_box r1) (parse_box_r lim false r2).
Proof.
  pose proof aft_tree. unfold parse_box, parse_box_r, parse_cand, parse_cand_r, parse_regs, parse_reg. aftt.
Qed.
Lemma aft_vec : aft (pvec r1) (pvec_r lim r2).
Proof. unfold pvec, pvec_r. apply (aft_reserve _ _ _ _ (fun n => n)); [exact u32_bound|]. intros n. aftt. Qed.
Lemma lift_read : forall A B n (r : reader A) (f : list A -> P B) st bs,
  pbind (lift (fun bs => '(n, bs) <- n bs ;; read_n (Z.to_nat n) r bs)) f st bs =
  pbind (lift n) (fun n => pbind (lift (read_n (Z.to_nat n) r)) f) st bs.
Proof. intros. unfold pbind, lift. destruct (n bs) as [[k r']|e|]; reflexivity. Qed.
Lemma aft_args : aft (lift parse_args) (parse_args_r lim).
Proof.
  unfold parse_args_r, parse_args. intros st bs.
  pose proof (aft_reserve _ _ (fun n => lift (read_n (Z.to_nat n) parse_arg)) (fun n => lift (read_n (Z.to_nat n) parse_arg))
    (fun n => n) get_u32 u32_bound (fun a => aft_refl _ _) st bs) as X.
  assert (E : lift (fun bs => '(n, bs) <- get_u32 bs ;; read_n (Z.to_nat n) parse_arg bs) st bs =
    pbind (@lift G _ get_u32) (fun n => lift (read_n (Z.to_nat n) parse_arg)) st bs).
  { unfold pbind, lift. destruct (get_u32 bs) as [[k r']|e|]; reflexivity. }
  rewrite E. exact X.
Qed.
Lemma aft_bin : forall b, aft (parse_bin r1 b) (parse_bin r2 b).
Proof.
  intros b st bs. unfold parse_bin. destruct bs as [|c bs]; [left; reflexivity|]. destruct (c =? code_bools); [left; reflexivity|].
  match goal with |- same (?p st (c :: bs)) (?q st (c :: bs)) => assert (A : aft p q) by aftt end. apply A.
Qed.
Lemma aft_tag : forall tag, aft (parse_tag r1 tag) (parse_tag_r lim false r2 tag).
Proof.
  pose proof aft_vec as AV. pose proof aft_args as AA. pose proof aft_bin as AN. pose proof aft_box as AB.
  pose proof (aft_lit _ _ AB) as AL. intros tag. unfold parse_tag_r.
  destruct (tag <=? last_constant_code) eqn:L0.
  { unfold parse_tag. rewrite L0. unfold parse_const_tag, parse_const_tag_r. aftt. }
  destruct (tag =? code_func) eqn:C1.
  { apply Z.eqb_eq in C1. subst tag. change (parse_tag r1 code_func) with (parse_func r1). unfold parse_func, parse_func_r. aftt. }
  destruct (tag =? code_block) eqn:C2.
  { apply Z.eqb_eq in C2. subst tag. change (parse_tag r1 code_block) with (parse_block r1). unfold parse_block, parse_block_r. aftt. }
  destruct (tag =? code_apply) eqn:C3.
  { apply Z.eqb_eq in C3. subst tag. change (parse_tag r1 code_apply) with (parse_apply r1). unfold parse_apply, parse_apply_r. aftt. }
  destruct (tag =? code_method) eqn:C4.
  { apply Z.eqb_eq in C4. subst tag. change (parse_tag r1 code_method) with (parse_method r1). unfold parse_method, parse_method_r. aftt. }
  destruct (tag =? code_sigma_and) eqn:C5.
  { apply Z.eqb_eq in C5. subst tag. change (parse_tag r1 code_sigma_and) with (parse_sigma_seq r1 QSigmaAnd).
    unfold parse_sigma_seq, parse_sigma_seq_r, pbounded. aftt. }
  destruct (tag =? code_sigma_or) eqn:C6.
  { apply Z.eqb_eq in C6. subst tag. change (parse_tag r1 code_sigma_or) with (parse_sigma_seq r1 QSigmaOr).
    unfold parse_sigma_seq, parse_sigma_seq_r, pbounded. aftt. }
  unfold parse_tag. rewrite L0, C1, C2, C3, C4, C5, C6.
  unfold parse_placeholder, parse_val_use, parse_val_def, parse_prop, parse_tuple, parse_coll, parse_bools, parse_op, pbounded, popt.
  repeat match goal with |- aft (if ?b then _ else _) _ => destruct b end; aftt.
Qed.
Lemma aft_step : aft (step r1) (step_r lim false r2).
Proof. pose proof aft_tag. unfold step, step_r. aftt. Qed.
End Two.

Lemma aft_fuel : forall n, aft (parse_expr_f n) (parse_expr_rf lim false n).
Proof. induction n as [|n IH]; cbn [parse_expr_f parse_expr_rf]; [apply aft_refl|apply aft_step; exact IH]. Qed.
Lemma aft_expr : aft parse_expr (parse_expr_r lim false).
Proof. intros st bs. apply aft_fuel. Qed.
Lemma same_tree : forall bs, same (@tree_of_bytes G bs) (tree_of_bytes_r lim false bs).
Proof.
  intros bs. pose proof (aft_body _ _ aft_expr) as AB. unfold tree_of_bytes, tree_of_bytes_r.
  destruct (parse_header bs) as [[h r]|e|]; [|left; reflexivity..]. destruct (th_size h).
  - destruct (get_u32 r) as [[n r']|e|] eqn:E; cbn [bind]; [|left; reflexivity..].
    destruct (lim <? n) eqn:L; cbn [bind]; [right; apply u32_bound in E; split; [lia|reflexivity]|].
    destruct (read_exact (Z.to_nat n) r') as [[buf r'']|e|]; cbn [bind]; [|left; reflexivity..].
    destruct (AB h fresh buf) as [X|[L' X]]; rewrite X; [left; reflexivity|right; auto].
  - destruct (AB h fresh r) as [X|[L' X]]; rewrite X; [left; reflexivity|right; auto].
Qed.
End Faithful.

(** ** Bytes that are read without an unreadable script need no more room than their length *)
Section Accepted.
Context {G : group}.
Notation P := (@P G).
Variable lim : Z.

Definition acc {A} (p q : P A) : Prop := forall st bs a st' r, Zlen bs <= lim -> p st bs = Ok (a, st', r) ->
  q st bs = Ok (a, st', r) /\ exists u, bs = u ++ r.
(** The same for a reader that takes at least a byte. *)
Definition acc1 {A} (p q : P A) : Prop := forall st bs a st' r, Zlen bs <= lim -> p st bs = Ok (a, st', r) ->
  q st bs = Ok (a, st', r) /\ exists u, bs = u ++ r /\ 1 <= Zlen u.
Lemma acc1_acc : forall A (p q : P A), acc1 p q -> acc p q.
Proof. intros A p q H st bs a st' r L E. destruct (H _ _ _ _ _ L E) as (X & u & Y & _). eauto. Qed.

Lemma acc_lift : forall A (r : reader A), consumes r -> acc (lift r) (lift r).
Proof.
  intros A r H st bs a st' rest L E. split; [exact E|]. unfold lift in E. inv_bind E. destruct b as [x b].
  injection E as <- <- <-. eapply H; eauto.
Qed.
Lemma acc_ret : forall A (a : A), acc (pret a) (pret a).
Proof. intros A a st bs x st' rest L E. split; [exact E|]. injection E as <- <- <-. exists []. reflexivity. Qed.
Lemma acc_res : forall A (r : res A), acc (of_res r) (of_res r).
Proof.
  intros A r st bs x st' rest L E. split; [exact E|]. unfold of_res in E. inv_bind E. injection E as <- <- <-. exists []. reflexivity.
Qed.
Lemma acc_err : forall A e (q : P A), acc (of_res (Err e)) q.
Proof. intros A e q st bs a st' r L E. discriminate. Qed.
Lemma acc_state : acc pstate pstate.
Proof. intros st bs x st' rest L E. split; [exact E|]. injection E as <- <- <-. exists []. reflexivity. Qed.
Lemma acc_set : forall s, acc (pset s) (pset s).
Proof. intros s st bs x st' rest L E. split; [exact E|]. injection E as <- <- <-. exists []. reflexivity. Qed.
Lemma acc_bind : forall A B (p q : P A) (f g : A -> P B), acc p q -> (forall a, acc (f a) (g a)) -> acc (pbind p f) (pbind q g).
Proof.
  intros A B p q f g H K st bs b st2 r2 L E. apply pbind_ok in E. destruct E as (a & st1 & r1 & E1 & E2).
  destruct (H _ _ _ _ _ L E1) as [Q (u & ->)]. rewrite Zlen_app in L. pose proof (Zlen_nonneg _ u).
  destruct (K a st1 r1 b st2 r2 ltac:(lia) E2) as [Q2 (v & ->)]. split; [unfold pbind; rewrite Q; exact Q2|].
  exists (u ++ v). now rewrite app_assoc.
Qed.
Lemma acc_read_n : forall A n (p q : P A), acc p q -> acc (pread_n n p) (pread_n n q).
Proof.
  intros A n p q H; induction n as [|n IH]; cbn [pread_n]; [apply acc_ret|].
  apply acc_bind; [exact H|]. intros a. apply acc_bind; [exact IH|]. intros l. apply acc_ret.
Qed.
Lemma acc_each : forall A B (f g : A -> P B) l, (forall a, In a l -> acc (f a) (g a)) -> acc (peach f l) (peach g l).
Proof.
  intros A B f g l; induction l as [|x l IH]; intros H; cbn [peach]; [apply acc_ret|].
  apply acc_bind; [apply H; now left|]. intros a. apply acc_bind; [apply IH; intros; apply H; now right|]. intros. apply acc_ret.
Qed.
(** Reading [n] items that take a byte each takes [n] bytes. *)
Lemma read_n_len : forall A n (p q : P A), acc1 p q -> forall st bs l st' r, Zlen bs <= lim ->
  pread_n n p st bs = Ok (l, st', r) -> Z.of_nat n <= Zlen bs.
Proof.
  intros A n p q H. induction n as [|n IH]; intros st bs l st' r L E; [pose proof (Zlen_nonneg _ bs); lia|].
  cbn [pread_n] in E. apply pbind_ok in E. destruct E as (a & st1 & r1 & E1 & E2).
  apply pbind_ok in E2. destruct E2 as (l' & st2 & r2 & E2 & _).
  destruct (H _ _ _ _ _ L E1) as [_ (u & -> & U)]. rewrite Zlen_app in *. specialize (IH st1 r1 _ _ _ ltac:(lia) E2). lia.
Qed.
Ltac acct :=
  repeat first
    [ assumption
    | match goal with H : forall x, acc _ _ |- _ => simple apply H end
    | simple apply acc_ret | simple apply acc_res | simple apply acc_state | simple apply acc_set
    | simple apply acc_lift; [solve [eauto with consumes]]
    | simple apply acc_read_n
    | simple apply acc_bind; [|intro]
    | match goal with
      | |- acc (if ?b then _ else _) (if ?b then _ else _) => destruct b
      | |- acc (match ?x with _ => _ end) (match ?x with _ => _ end) => destruct x
      end ].
Lemma acc_lit : forall p q, acc p q -> forall t, acc (parse_lit p t) (parse_lit q t).
Proof.
  intros p q H t. induction t using stype_ind'; cbn [parse_lit]; try (acct; fail).
  apply acc_bind; [|intros ?; unfold pbounded; acct]. apply acc_each. intros a Ha. rewrite Forall_forall in H0. auto.
Qed.

Section Two.
Variables (r1 r2 : P (expr G)).
Hypothesis HR1 : acc1 r1 r2.
Let HR : acc r1 r2 := acc1_acc _ _ _ HR1.
Notation big := (2 ^ 32 - 1).
Lemma acc_const : acc (const_of r1) (const_of r2).
Proof.
  intros st bs a st' r L E. unfold const_of in *. destruct bs as [|c bs]; [discriminate|]. destruct (is_type_code c); [|discriminate].
  destruct (r1 st (c :: bs)) as [[[x s1] q1]|e|] eqn:E1; try discriminate. destruct (HR _ _ _ _ _ L E1) as [Q U]. rewrite Q.
  split; [exact E|]. destruct x; try discriminate. injection E as <- <- <-. exact U.
Qed.
Lemma acc_body : forall h, acc (parse_body r1 h) (parse_body r2 h).
Proof. pose proof acc_const. intros h. unfold parse_body, parse_constants. acct. Qed.
(** A reservation for what is read behind it. *)
Lemma acc_reserve : forall A B (f g : Z -> P A) (k : Z -> P B) (k' : Z -> P B),
  (forall n st bs b st' r, Zlen bs <= lim -> k n st bs = Ok (b, st', r) -> n <= lim) ->
  (forall n, acc (k n) (k' n)) ->
  acc (pbind (lift get_u32) (fun n => pbind (reserve big n) (fun _ => k n)))
      (pbind (lift get_u32) (fun n => pbind (reserve lim n) (fun _ => k' n))).
Proof.
  intros A B _ _ k k' Hn K. apply acc_bind; [acct|]. intros n st bs b st' r L E.
  apply pbind_ok in E. destruct E as (a & st1 & q1 & E1 & E2). unfold reserve in E1.
  destruct (big <? n); [discriminate|]. injection E1 as <- <- <-. destruct (K _ _ _ _ _ _ L E2) as [Q U].
  split; [|exact U]. unfold pbind, reserve. pose proof (Hn _ _ _ _ _ _ L E2). destruct (lim <? n) eqn:X; [lia|]. exact Q.
Qed.
Lemma acc_vec : acc (pvec_r big r1) (pvec_r lim r2).
Proof.
  unfold pvec_r. apply (acc_reserve unit _ (fun _ => pret tt) (fun _ => pret tt)); [|intros n; acct].
  intros n st bs b st' r L E. pose proof (read_n_len _ _ _ _ HR1 _ _ _ _ _ L E). lia.
Qed.
Lemma loop_takes : forall n sh res c bs v r, get_u64_loop (S n) sh res (c :: bs) = Ok (v, r) -> exists u, bs = u ++ r.
Proof.
  intros n sh res c bs v r E. cbn [get_u64_loop get_u8 bind] in E. cbv zeta in E.
  match type of E with (if ?x then _ else _) = _ => destruct x end.
  - injection E as _ <-. exists []. reflexivity.
  - eapply consumes_get_u64_loop. exact E.
Qed.
Lemma u32_takes : forall c bs n r, get_u32 (c :: bs) = Ok (n, r) -> exists u, bs = u ++ r.
Proof.
  intros c bs n r E. unfold get_u32, get_u64 in E. inv_bind E. destruct b as [q b]. destruct (q <? 2 ^ 32); [|discriminate].
  injection E as <- <-. eapply loop_takes. exact Eb.
Qed.
Lemma arg_len : forall n bs l r, read_n n parse_arg bs = Ok (l, r) -> Z.of_nat n <= Zlen bs.
Proof.
  induction n as [|n IH]; intros bs l r E; [pose proof (Zlen_nonneg _ bs); lia|]. cbn [read_n] in E. inv_bind E. destruct b as [x b].
  inv_bind E. destruct b0 as [l' b0]. apply IH in Eb0. unfold parse_arg in Eb. inv_bind Eb. destruct b1 as [i b1]. inv_bind Eb.
  destruct b2 as [t b2]. injection Eb as <- <-. destruct bs as [|c bs]; [discriminate|]. rewrite Zlen_cons.
  destruct (u32_takes _ _ _ _ Eb1) as [u ->]. destruct (consumes_parse_type _ _ _ Eb2) as [v ->].
  rewrite !Zlen_app. pose proof (Zlen_nonneg _ u). pose proof (Zlen_nonneg _ v). lia.
Qed.
Lemma acc_args : acc (parse_args_r big) (parse_args_r lim).
Proof.
  unfold parse_args_r. apply (acc_reserve unit _ (fun _ => pret tt) (fun _ => pret tt)); [|intros n; acct].
  intros n st bs b st' r L E. unfold lift in E. inv_bind E. destruct b0 as [x y]. apply arg_len in Eb. lia.
Qed.
Lemma acc_tree : acc (parse_tree_r big true r1) (parse_tree_r lim false r2).
Proof.
  pose proof acc_body as AB. unfold parse_tree_r. apply acc_bind; [acct|]. intros h. destruct (th_size h); [|apply AB].
  apply (acc_reserve unit _ (fun _ => pret tt) (fun _ => pret tt)).
  - intros n st bs b st' r L E. apply pbind_ok in E. destruct E as (a & st1 & q1 & E1 & _). unfold lift in E1. inv_bind E1.
    destruct b0 as [x y]. apply read_exact_split in Eb. destruct Eb as [-> HL]. rewrite Zlen_app in L. pose proof (Zlen_nonneg _ y).
    unfold Zlen in L at 1. lia.
  - intros n st bs b st' r L E. apply pbind_ok in E. destruct E as (a & st1 & q1 & E1 & E2). pose proof E1 as E1'. unfold lift in E1.
    inv_bind E1. destruct b0 as [x y]. injection E1 as <- <- <-. apply read_exact_split in Eb. destruct Eb as [-> HL].
    destruct (parse_body r1 h fresh x) as [[[t s] q]|e|] eqn:EB; try discriminate.
    assert (Lx : Zlen x <= lim) by (rewrite Zlen_app in L; pose proof (Zlen_nonneg _ y); lia).
    destruct (AB h _ _ _ _ _ Lx EB) as [Q _]. split; [unfold pbind; rewrite E1', Q; exact E2|]. injection E2 as <- <- <-. eauto.
Qed.
Lemma acc_box : acc (parse_box_r big true r1) (parse_box_r lim false r2).
Proof. pose proof acc_tree. unfold parse_box_r, parse_cand_r, parse_regs, parse_reg. acct. Qed.
Lemma acc_bin : forall b, acc (parse_bin r1 b) (parse_bin r2 b).
Proof.
  intros b st bs a st' r L E. unfold parse_bin in *. destruct bs as [|c bs]; [discriminate|]. rewrite Zlen_cons in L.
  destruct (c =? code_bools).
  - match type of E with ?p st bs = _ => assert (A : acc p p) by acct end. assert (Lb : Zlen bs <= lim) by lia.
    destruct (A st bs a st' r Lb E) as [Q (u & ->)]. split; [exact E|]. exists (c :: u). reflexivity.
  - match goal with |- ?q st (c :: bs) = _ /\ _ => match type of E with ?p st (c :: bs) = _ => assert (A : acc p q) by acct end end.
    apply A; [rewrite Zlen_cons; lia|exact E].
Qed.
Lemma acc_tag : forall tag, acc (parse_tag_r big true r1 tag) (parse_tag_r lim false r2 tag).
Proof.
  pose proof acc_vec as AV. pose proof acc_args as AA. pose proof acc_bin as AN. pose proof acc_box as AB.
  pose proof (acc_lit _ _ AB) as AL. pose proof acc_body. intros tag.
  unfold parse_tag_r, parse_const_tag_r, parse_func_r, parse_block_r, parse_apply_r, parse_method_r, parse_sigma_seq_r, pbounded.
  destruct (tag <=? last_constant_code) eqn:L0; [acct|].
  destruct (tag =? code_func) eqn:C1; [acct|]. destruct (tag =? code_block) eqn:C2; [acct|].
  destruct (tag =? code_apply) eqn:C3; [acct|]. destruct (tag =? code_method) eqn:C4; [acct|].
  destruct (tag =? code_sigma_and) eqn:C5; [acct|]. destruct (tag =? code_sigma_or) eqn:C6; [acct|].
  unfold parse_tag. rewrite L0, C1, C2, C3, C4, C5, C6.
  unfold parse_placeholder, parse_val_use, parse_val_def, parse_prop, parse_tuple, parse_coll, parse_bools, parse_op, pbounded, popt.
  repeat match goal with |- acc (if ?b then _ else _) _ => destruct b end; acct.
Qed.
Lemma acc_step : acc1 (step_r big true r1) (step_r lim false r2).
Proof.
  intros st bs a st' r L E. unfold step_r in *. destruct bs as [|c bs]; [discriminate|]. unfold pbind, lift in *. cbn [get_u8 bind] in *.
  rewrite Zlen_cons in L. destruct (acc_tag c st bs a st' r ltac:(lia) E) as [Q (u & ->)]. split; [exact Q|]. exists (c :: u).
  split; [reflexivity|]. rewrite Zlen_cons. pose proof (Zlen_nonneg _ u). lia.
Qed.
End Two.
Lemma acc_fuel : forall n, acc1 (parse_expr_rf (2 ^ 32 - 1) true n) (parse_expr_rf lim false n).
Proof. induction n as [|n IH]; cbn [parse_expr_rf]; [intros st bs a st' r L E; discriminate|apply acc_step; exact IH]. Qed.
End Accepted.

(** ** C100 *)
(** The reader that reserves room gives what the reader of SerModel gives, unless it has too
    little room; with room for 2^32 - 1 elements it always does. *)
Theorem c100_faithful : forall G lim st bs,
  (parse_expr_r lim false st bs = @parse_expr G st bs \/ (lim < 2 ^ 32 - 1 /\ @parse_expr_r G lim false st bs = Panic)) /\
  (tree_of_bytes_r lim false bs = @tree_of_bytes G bs \/ (lim < 2 ^ 32 - 1 /\ @tree_of_bytes_r G lim false bs = Panic)).
Proof. intros G lim st bs. split; [apply aft_expr|apply same_tree]. Qed.

(** Bytes that are read, and hold no script that cannot be read, need no more room than
    their length. *)
Theorem c100_accepted_partial : forall G st bs e st' r lim, Zlen bs <= lim ->
  @parse_expr_r G (2 ^ 32 - 1) true st bs = Ok (e, st', r) ->
  parse_expr_r lim false st bs = Ok (e, st', r) /\ parse_expr st bs = Ok (e, st', r).
Proof.
  intros G st bs e st' r lim L E. destruct (acc_fuel lim _ _ _ _ _ _ L E) as [Q _]. split; [exact Q|].
  destruct (aft_expr lim st bs) as [X|[_ X]]; [rewrite <- X; exact Q|]. unfold parse_expr_r in X. rewrite X in Q. discriminate.
Qed.

(** Six bytes make the reader reserve room for 2^32 - 1 expressions; a script of seven bytes
    does so too, and is accepted as an unreadable script where there is room. *)
Definition greedy : bytes := [216; 255; 255; 255; 255; 15].
Theorem c100_reserved_refuted : forall G lim, lim < 2 ^ 32 - 1 ->
  @parse_expr_r G lim false fresh greedy = Panic /\
  @tree_of_bytes_r G lim false (0 :: greedy) = Panic /\
  @tree_of_bytes G (0 :: greedy) = Ok (Unparsed (0 :: greedy)).
Proof.
  intros G lim L.
  assert (E : forall n, @parse_expr_rf G lim false (S n) fresh greedy = Panic).
  { intros n. cbn [parse_expr_rf]. unfold step_r, greedy, pbind at 1, lift at 1. cbn [get_u8 bind].
    change (parse_tag_r lim false (parse_expr_rf lim false n) 216) with (parse_block_r lim (@parse_expr_rf G lim false n)).
    unfold parse_block_r, pvec_r. unfold pbind at 1 2, lift at 1. 
    change (get_u32 [255; 255; 255; 255; 15]) with (@Ok (Z * bytes) (4294967295, [])). cbn [bind].
    unfold pbind, reserve. destruct (lim <? 4294967295) eqn:X; [reflexivity|lia]. }
  assert (ES : forall st n, st = fresh -> @parse_expr_rf G lim false (S n) st greedy = Panic) by (intros st n ->; apply E).
  split; [apply E|]. split.
  - unfold tree_of_bytes_r. change (parse_header (0 :: greedy)) with (@Ok (theader * bytes) (th_v0 false, greedy)).
    change (th_size (th_v0 false)) with false. cbv iota. unfold parse_body. change (th_seg (th_v0 false)) with false. cbv iota.
    unfold pbind, pret, pstate, pset. unfold parse_expr_r. rewrite ES; reflexivity.
  - reflexivity.
Qed.

(** With room for 2^32 - 1 elements reading never fails for want of room. *)
Theorem c100_enough : forall G, group_ok G -> forall lim bs, input_ok bs -> 2 ^ 32 - 1 <= lim ->
  @parse_expr_r G lim false fresh bs <> Panic /\ @tree_of_bytes_r G lim false bs <> Panic.
Proof.
  intros G HG lim bs Hi L. destruct (c100_faithful G lim fresh bs) as [[A|[A _]] [B|[B _]]]; try lia. rewrite A, B. split.
  - exact (c82_expression G HG fresh bs Hi eq_refl).
  - exact (proj1 (c82_tree G HG bs Hi)).
Qed.

(** A block with one definition, read with room for as many elements as it has bytes. *)
Example c100_hyps_met : forall G : group,
  @parse_expr_r G (2 ^ 32 - 1) true fresh [216; 1; 214; 1; 4; 2; 114; 1] =
    Ok (EBlock [EValDef 1 (EConst (MkConst SInt (LInt 1)))] (EValUse 1 SInt), insert_type 1 SInt fresh, []) /\
  @parse_expr_r G 8 false fresh [216; 1; 214; 1; 4; 2; 114; 1] = parse_expr fresh [216; 1; 214; 1; 4; 2; 114; 1].
Proof. intros G. split; vm_compute; reflexivity. Qed.

Print Assumptions c100_faithful.
Print Assumptions c100_accepted_partial.
Print Assumptions c100_reserved_refuted.
Print Assumptions c100_enough.
