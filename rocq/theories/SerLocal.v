(** The expression parser only reads forward, and its fuel does not matter: it
    satisfies the equation of the recursive function in the code. *)
From Verif Require Import Base VlqModel VlqProofs IntBytes GroupModel SigmaModel TypeModel TypeProofs MethodModel BigIntModel IrModel SerModel.
Local Open Scope string_scope.
Local Open Scope list_scope.
Local Open Scope Z_scope.

(** ** Readers move forward *)
Definition consumes {A} (r : reader A) : Prop :=
  forall bs a rest, r bs = Ok (a, rest) -> exists used, bs = used ++ rest.

Lemma app_used : forall (bs u1 u2 r1 r2 : bytes), bs = u1 ++ r1 -> r1 = u2 ++ r2 -> exists u, bs = u ++ r2.
Proof. intros. subst. exists (u1 ++ u2). now rewrite app_assoc. Qed.

Lemma consumes_read_exact : forall n, consumes (read_exact n).
Proof. intros n bs a rest E. apply read_exact_split in E. destruct E as [-> _]. eauto. Qed.

Lemma consumes_get_u8 : consumes get_u8.
Proof. intros [|c bs] a rest E; [discriminate|]. injection E as <- <-. exists [c]. reflexivity. Qed.

Lemma consumes_get_u64_loop : forall n s r, consumes (get_u64_loop n s r).
Proof.
  induction n as [|n IH]; intros s r bs a rest E; [discriminate|]. cbn [get_u64_loop] in E.
  destruct (get_u8 bs) as [[b bs']|e|] eqn:E1; cbn [bind] in E; try discriminate.
  apply consumes_get_u8 in E1. destruct E1 as [u ->].
  match type of E with (if ?b then _ else _) = _ => destruct b end.
  - injection E as <- <-. eauto.
  - apply IH in E. destruct E as [v ->]. exists (u ++ v). now rewrite app_assoc.
Qed.
Lemma consumes_get_u64 : consumes get_u64.
Proof. apply consumes_get_u64_loop. Qed.

Lemma consumes_read_n : forall A (r : reader A) n, consumes r -> consumes (read_n n r).
Proof.
  intros A r n Hr; induction n as [|n IH]; intros bs a rest E.
  - injection E as <- <-. exists []. reflexivity.
  - rewrite read_n_S in E. inv_bind E. destruct b as [x b1]. inv_bind E. destruct b as [l b2].
    injection E as <- <-. apply Hr in Eb. apply IH in Eb0. destruct Eb as [u ->].
    destruct Eb0 as [v ->]. exists (u ++ v). now rewrite app_assoc.
Qed.

#[export] Hint Resolve consumes_read_exact consumes_get_u8 consumes_get_u64 consumes_read_n : consumes.

(** Peel one [bind] after another off an equation [E] about a reader. *)
Ltac cons_step E :=
  match type of E with
  | Ok _ = Ok _ => injection E as <- <-
  | Err _ = _ => discriminate E
  | Panic = _ => discriminate E
  | (if ?b then _ else _) = _ => destruct b
  | bind (of_option _ ?o) _ = _ => destruct o; [cbn [of_option bind] in E|discriminate E]
  | bind (if ?b then _ else _) _ = _ => destruct b; cbn [bind] in E
  | bind (Ok _) _ = _ => cbn [bind] in E
  | bind (bind _ _) _ = _ =>
      let b := fresh "b" in let Eb := fresh "Eb" in
      destruct (bind_ok _ _ _ _ _ E) as [b [Eb E']]; clear E; rename E' into E;
      destruct b; repeat cons_step Eb
  | bind _ _ = Ok _ =>
      let b := fresh "b" in let Eb := fresh "Eb" in let E' := fresh "E" in
      destruct (bind_ok _ _ _ _ _ E) as [b [Eb E']]; clear E; rename E' into E;
      try (destruct b as [? ?])
  end.
Ltac cons_finish :=
  repeat match goal with
  | H : ?r ?bs = Ok (_, _) |- _ =>
      let C := fresh "C" in
      assert (C : consumes r) by eauto with consumes;
      apply C in H; clear C; let u := fresh "u" in destruct H as [u ->]
  end;
  first [ exists []; reflexivity
        | eexists; reflexivity
        | rewrite !app_assoc; eexists; reflexivity ].
Ltac cons_tac := intros bs ? rest E; cbv beta in E; repeat cons_step E; cons_finish.

Lemma consumes_get_i8 : consumes get_i8.
Proof. unfold get_i8. cons_tac. Qed.
Lemma consumes_get_u16 : consumes get_u16.
Proof. unfold get_u16. cons_tac. Qed.
Lemma consumes_get_u32 : consumes get_u32.
Proof. unfold get_u32. cons_tac. Qed.
#[export] Hint Resolve consumes_get_u16 consumes_get_u32 consumes_get_i8 : consumes.
Lemma consumes_get_i16 : consumes get_i16.
Proof. unfold get_i16. cons_tac. Qed.
Lemma consumes_get_i32 : consumes get_i32.
Proof. unfold get_i32. cons_tac. Qed.
Lemma consumes_get_i64 : consumes get_i64.
Proof. unfold get_i64. cons_tac. Qed.
Lemma consumes_get_bits : forall n, consumes (get_bits n).
Proof. intros n. unfold get_bits. cons_tac. Qed.
#[export] Hint Resolve consumes_get_i16 consumes_get_i32 consumes_get_i64 consumes_get_bits : consumes.

Lemma consumes_ec_read : forall (G : group), consumes (@ec_read G).
Proof. intros G. unfold ec_read. cons_tac. Qed.
#[export] Hint Resolve consumes_ec_read : consumes.

Lemma consumes_dlog_read : forall (G : group), consumes (@dlog_read G).
Proof. intros G. unfold dlog_read. cons_tac. Qed.
Lemma consumes_dht_read : forall (G : group), consumes (@dht_read G).
Proof. intros G. unfold dht_read. cons_tac. Qed.
#[export] Hint Resolve consumes_dlog_read consumes_dht_read : consumes.

Lemma consumes_sb_read : forall (G : group) n, consumes (@sb_read G n).
Proof.
  intros G n; induction n as [|n IH]; intros bs a rest E; [discriminate|]. cbn [sb_read] in E.
  assert (IHn : forall m, consumes (read_n m (@sb_read G n))) by (intros; apply consumes_read_n; auto).
  cons_step E. cbv beta zeta in E. repeat cons_step E; cons_finish.
Qed.
#[export] Hint Resolve consumes_sb_read : consumes.
Lemma consumes_sb_parse : forall (G : group), consumes (@sb_parse G).
Proof. intros G bs a rest E. eapply consumes_sb_read; eauto. Qed.
#[export] Hint Resolve consumes_sb_parse : consumes.

Lemma consumes_typevar_read : consumes typevar_read.
Proof. unfold typevar_read. cons_tac. Qed.
#[export] Hint Resolve consumes_typevar_read : consumes.

Lemma consumes_parse_tc : forall rec c, consumes rec -> consumes (parse_tc_with rec c).
Proof.
  intros rec c H bs a rest E. unfold parse_tc_with in E.
  destruct (emb_type c); [injection E as <- <-; exists []; reflexivity|].
  repeat cons_step E; cons_finish.
Qed.
Lemma consumes_parse_type_f : forall n, consumes (parse_type_f n).
Proof.
  induction n as [|n IH]; intros bs a rest E; [discriminate|]. cbn [parse_type_f] in E.
  pose proof (consumes_parse_tc _ 0 IH) as X. clear X.
  cons_step E. apply consumes_get_u8 in Eb. destruct Eb as [u ->].
  apply (consumes_parse_tc _ _ IH) in E. destruct E as [v ->]. exists (u ++ v). now rewrite app_assoc.
Qed.
Lemma consumes_parse_type : consumes parse_type.
Proof. intros bs a rest E. eapply consumes_parse_type_f; eauto. Qed.
#[export] Hint Resolve consumes_parse_type_f consumes_parse_type : consumes.
Lemma consumes_parse_with_type_code : forall c, consumes (parse_with_type_code c).
Proof.
  intros c bs a rest E. unfold parse_with_type_code in E.
  try (match type of E with (if ?b then _ else _) = _ => destruct b; [|discriminate] end).
  eapply consumes_parse_tc; [|exact E]. intros b x r. apply consumes_parse_type_f.
Qed.
#[export] Hint Resolve consumes_parse_with_type_code : consumes.

Lemma consumes_parse_avl : consumes parse_avl.
Proof. unfold parse_avl. cons_tac. Qed.
Lemma consumes_parse_bigint : forall G, consumes (@parse_bigint G).
Proof. intros G. unfold parse_bigint. cons_tac. Qed.
Lemma consumes_parse_coll_bytes : forall G, consumes (@parse_coll_bytes G).
Proof. intros G. unfold parse_coll_bytes. cons_tac. Qed.
Lemma consumes_parse_coll_bools : forall G, consumes (@parse_coll_bools G).
Proof. intros G. unfold parse_coll_bools. cons_tac. Qed.
Lemma consumes_rmap : forall A B (f : A -> B) r, consumes r -> consumes (rmap_reader f r).
Proof.
  intros A B f r H bs a rest E. unfold rmap_reader in E. cons_step E. injection E as <- <-.
  eapply H; eauto.
Qed.
Lemma consumes_parse_header : consumes parse_header.
Proof.
  intros bs a rest E. unfold parse_header in E. cons_step E.
  destruct (th_new z) eqn:T; cbn [bind] in E; try discriminate. injection E as <- <-.
  eapply consumes_get_u8; eauto.
Qed.
Lemma consumes_parse_token : forall ids, consumes (parse_token ids).
Proof.
  intros ids bs a rest E. unfold parse_token in E. inv_bind E. destruct b as [id b1].
  inv_bind E. destruct b as [v b2]. inv_bind E. injection E as <- <-.
  apply consumes_get_u64 in Eb0. destruct Eb0 as [u ->].
  assert (X : exists w, bs = w ++ (u ++ b2)).
  { destruct ids as [l|].
    - inv_bind Eb. destruct b0 as [i b0]. inv_bind Eb. injection Eb as <- <-.
      eapply consumes_get_u32; eauto.
    - eapply consumes_read_exact; eauto. }
  destruct X as [w ->]. exists (w ++ u). now rewrite app_assoc.
Qed.
#[export] Hint Resolve consumes_parse_avl consumes_parse_bigint consumes_parse_coll_bytes
  consumes_parse_coll_bools consumes_rmap consumes_parse_header consumes_parse_token : consumes.
Lemma consumes_parse_tokens : forall ids, consumes (parse_tokens ids).
Proof. intros ids. unfold parse_tokens. cons_tac. Qed.
Lemma consumes_parse_value : consumes parse_value.
Proof.
  intros bs a rest E. unfold parse_value in E. cons_step E. inv_bind E. injection E as <- <-.
  eapply consumes_get_u64; eauto.
Qed.
Lemma consumes_parse_payload : forall k, consumes (parse_payload k).
Proof. intros []; unfold parse_payload; cons_tac. Qed.
Lemma consumes_parse_arg : consumes parse_arg.
Proof. unfold parse_arg. cons_tac. Qed.
#[export] Hint Resolve consumes_parse_tokens consumes_parse_value consumes_parse_payload consumes_parse_arg : consumes.
Lemma consumes_parse_args : consumes parse_args.
Proof. unfold parse_args. cons_tac. Qed.
Lemma consumes_parse_type_code : consumes parse_type_code.
Proof. unfold parse_type_code. cons_tac. Qed.
#[export] Hint Resolve consumes_parse_args consumes_parse_type_code : consumes.

(** ** Agreement of two parsers on short inputs *)
Section Agree.
Context {G : group}.
Notation P := (@P G).

Definition agree {A} (k : nat) (p q : P A) : Prop :=
  forall st bs, (List.length bs <= k)%nat ->
    p st bs = q st bs /\
    forall a st' rest, p st bs = Ok (a, st', rest) -> exists used, bs = used ++ rest.

Lemma agree_weaken : forall A k j (p q : P A), (j <= k)%nat -> agree k p q -> agree j p q.
Proof. intros A k j p q Hk H st bs Hb. apply H. lia. Qed.

Lemma agree_lift : forall A k (r : reader A), consumes r -> agree k (lift r) (lift r).
Proof.
  intros A k r H st bs Hb. split; [reflexivity|]. intros a st' rest E. unfold lift in E.
  inv_bind E. destruct b as [x b]. injection E as <- <- <-. eapply H; eauto.
Qed.
Lemma agree_ret : forall A k (a : A), agree k (pret a) (pret a).
Proof.
  intros A k a st bs Hb. split; [reflexivity|]. intros x st' rest E. injection E as <- <- <-.
  exists []. reflexivity.
Qed.
Lemma agree_res : forall A k (r : res A), agree k (of_res r) (of_res r).
Proof.
  intros A k r st bs Hb. split; [reflexivity|]. intros x st' rest E. unfold of_res in E.
  inv_bind E. injection E as <- <- <-. exists []. reflexivity.
Qed.
Lemma agree_state : forall k, agree k pstate pstate.
Proof.
  intros k st bs Hb. split; [reflexivity|]. intros x st' rest E. injection E as <- <- <-.
  exists []. reflexivity.
Qed.
Lemma agree_set : forall k s, agree k (pset s) (pset s).
Proof.
  intros k s st bs Hb. split; [reflexivity|]. intros x st' rest E. injection E as <- <- <-.
  exists []. reflexivity.
Qed.

Lemma pbind_ok : forall A B (p : P A) (f : A -> P B) st bs b st2 r2,
  pbind p f st bs = Ok (b, st2, r2) ->
  exists a st1 r1, p st bs = Ok (a, st1, r1) /\ f a st1 r1 = Ok (b, st2, r2).
Proof.
  intros A B p f st bs b st2 r2 E. unfold pbind in E.
  destruct (p st bs) as [[[a st1] r1]|e|] eqn:E1; try discriminate. eauto 6.
Qed.

Lemma agree_bind' : forall A B k (p q : P A) (f g : A -> P B), agree k p q ->
  (forall a st bs st' rest, (List.length bs <= k)%nat -> p st bs = Ok (a, st', rest) -> agree k (f a) (g a)) ->
  agree k (pbind p f) (pbind q g).
Proof.
  intros A B k p q f g H1 H2 st bs Hb. unfold pbind.
  destruct (H1 st bs Hb) as [E1 C1]. rewrite <- E1.
  destruct (p st bs) as [[[a st1] r1]|e|] eqn:Ep; [|split; [reflexivity|discriminate]|split; [reflexivity|discriminate]].
  destruct (C1 _ _ _ eq_refl) as [u ->]. rewrite app_length in Hb.
  assert (Hr : (List.length r1 <= k)%nat) by lia.
  assert (H2' : agree k (f a) (g a)) by (eapply H2; [|exact Ep]; rewrite app_length; lia).
  destruct (H2' st1 r1 Hr) as [E2 C2].
  split; [exact E2|]. intros b st2 r2 E. apply C2 in E. destruct E as [v ->].
  exists (u ++ v). now rewrite app_assoc.
Qed.
Lemma agree_bind : forall A B k (p q : P A) (f g : A -> P B), agree k p q ->
  (forall a, agree k (f a) (g a)) -> agree k (pbind p f) (pbind q g).
Proof. intros. eapply agree_bind'; eauto. Qed.

Lemma agree_read_n : forall A k n (p q : P A), agree k p q -> agree k (pread_n n p) (pread_n n q).
Proof.
  intros A k n p q H; induction n as [|n IH]; cbn [pread_n]; [apply agree_ret|].
  apply agree_bind; [exact H|]. intros a. apply agree_bind; [exact IH|]. intros l. apply agree_ret.
Qed.

Lemma agree_each : forall A B k (f g : A -> P B) l, (forall a, In a l -> agree k (f a) (g a)) ->
  agree k (peach f l) (peach g l).
Proof.
  intros A B k f g l; induction l as [|x l IH]; intros H; cbn [peach]; [apply agree_ret|].
  apply agree_bind; [apply H; now left|]. intros a.
  apply agree_bind; [apply IH; intros; apply H; now right|]. intros. apply agree_ret.
Qed.

Hint Resolve agree_lift agree_ret agree_res agree_state agree_set agree_read_n : agree.
Hint Extern 3 (consumes _) => eauto with consumes : agree.
Ltac agr :=
  repeat first
    [ assumption
    | simple apply agree_bind; [|intro]
    | simple apply agree_ret | simple apply agree_res | simple apply agree_state | simple apply agree_set
    | simple apply agree_lift; [solve [eauto with consumes]]
    | simple apply agree_read_n
    | match goal with H : forall x, agree _ _ _ |- _ => simple apply H end
    | match goal with
      | |- agree _ (if ?b then _ else _) (if ?b then _ else _) => destruct b
      | |- agree _ (match ?x with _ => _ end) (match ?x with _ => _ end) => destruct x
      end ].

Lemma agree_lit : forall k p q, agree k p q -> forall t, agree k (parse_lit p t) (parse_lit q t).
Proof.
  intros k p q H t. induction t using stype_ind'; cbn [parse_lit]; try (agr; fail).
  - apply agree_bind; [|intros ?; unfold pbounded; agr].
    apply agree_each. intros a Ha. rewrite Forall_forall in H0. auto.
Qed.

Section Two.
Variables (k : nat) (r1 r2 : P (expr G)).
Hypothesis HR : agree k r1 r2.

Lemma agree_const : agree k (const_of r1) (const_of r2).
Proof.
  intros st bs Hb. unfold const_of. destruct bs as [|c bs].
  - split; [reflexivity|discriminate].
  - destruct (is_type_code c); [|split; [reflexivity|discriminate]].
    destruct (HR st (c :: bs) Hb) as [E C]. rewrite <- E.
    destruct (r1 st (c :: bs)) as [[[e st1] rest1]|e|] eqn:E1;
      [|split; [reflexivity|discriminate]|split; [reflexivity|discriminate]].
    split; [reflexivity|]. intros a st' rest. destruct e; try discriminate. intros X.
    injection X as <- <- <-. eapply C; reflexivity.
Qed.
Hint Resolve agree_const : agree.

Lemma agree_constants : agree k (parse_constants r1) (parse_constants r2).
Proof. pose proof agree_const. unfold parse_constants. agr. Qed.
Lemma agree_body : forall h, agree k (parse_body r1 h) (parse_body r2 h).
Proof. pose proof agree_constants. intros h. unfold parse_body. agr. Qed.
Lemma agree_tree : agree k (parse_tree r1) (parse_tree r2).
Proof.
  pose proof agree_body as AB. unfold parse_tree. apply agree_bind; [agr|]. intros h.
  destruct (th_size h); [|apply AB].
  apply agree_bind; [agr|]. intros n.
  eapply agree_bind'; [agr|]. intros buf st bs st' rest Hb E. unfold lift in E.
  destruct (read_exact (Z.to_nat n) bs) as [[x y]|e|] eqn:ER; try discriminate. cbn [bind] in E.
  injection E as <- <- <-. apply read_exact_split in ER. destruct ER as [-> HL].
  rewrite app_length in Hb.
  destruct (AB h fresh x) as [EB _]; [lia|]. rewrite <- EB.
  destruct (parse_body r1 h fresh x) as [[[t s] r]|e|]; agr.
Qed.
Lemma agree_reg : agree k (parse_reg r1) (parse_reg r2).
Proof. unfold parse_reg. agr. Qed.
Lemma agree_regs : agree k (parse_regs r1) (parse_regs r2).
Proof. pose proof agree_reg. unfold parse_regs. agr. Qed.
Lemma agree_cand : forall ids, agree k (parse_cand r1 ids) (parse_cand r2 ids).
Proof. pose proof agree_tree. pose proof agree_regs. intros ids. unfold parse_cand. agr. Qed.
Lemma agree_box : agree k (parse_box r1) (parse_box r2).
Proof. pose proof (agree_cand None). unfold parse_box. agr. Qed.

Lemma agree_vec : agree k (pvec r1) (pvec r2).
Proof. unfold pvec. agr. Qed.
Lemma agree_opt : agree k (popt r1) (popt r2).
Proof. unfold popt. agr. Qed.

Lemma agree_bin : forall b, agree k (parse_bin r1 b) (parse_bin r2 b).
Proof.
  intros b st bs Hb. unfold parse_bin. destruct bs as [|c bs].
  - split; [reflexivity|discriminate].
  - destruct (c =? code_bools).
    + match goal with |- ?p st bs = _ /\ _ => assert (A : agree k p p) by agr end.
      assert (Hb' : (List.length bs <= k)%nat) by (cbn in Hb; lia).
      destruct (A st bs Hb') as [_ C].
      split; [reflexivity|]. intros a st' rest E. apply C in E. destruct E as [u ->].
      exists (c :: u). reflexivity.
    + match goal with |- ?p st (c :: bs) = ?q st (c :: bs) /\ _ => assert (A : agree k p q) by agr end.
      apply A. exact Hb.
Qed.

Lemma agree_tag : forall tag, agree k (parse_tag r1 tag) (parse_tag r2 tag).
Proof.
  pose proof agree_vec. pose proof agree_opt. pose proof agree_bin. pose proof agree_box.
  intros tag. unfold parse_tag, parse_const_tag, parse_placeholder, parse_val_use, parse_val_def,
    parse_func, parse_block, parse_apply, parse_method, parse_prop, parse_tuple, parse_coll,
    parse_bools, parse_sigma_seq, parse_op, pbounded.
  pose proof (agree_lit k _ _ H2) as AL.
  repeat match goal with |- agree _ (if ?b then _ else _) _ => destruct b end; try (agr; fail).
Qed.

Lemma agree_step : agree (S k) (step r1) (step r2).
Proof.
  intros st bs Hb. unfold step. destruct bs as [|c bs].
  - split; [reflexivity|discriminate].
  - unfold pbind, lift. cbn [get_u8 bind].
    assert (Hb' : (List.length bs <= k)%nat) by (cbn in Hb; lia).
    destruct (agree_tag c st bs Hb') as [E C]. split; [exact E|].
    intros a st' rest X. apply C in X. destruct X as [u ->]. exists (c :: u). reflexivity.
Qed.
End Two.

Lemma agree_fuel : forall k n m, (k < n)%nat -> (k < m)%nat -> agree k (@parse_expr_f G n) (parse_expr_f m).
Proof.
  induction k as [|k IH]; intros n m Hn Hm.
  - destruct n as [|n]; [lia|]. destruct m as [|m]; [lia|]. intros st [|c bs] Hb; [|cbn in Hb; lia].
    split; [reflexivity|discriminate].
  - destruct n as [|n]; [lia|]. destruct m as [|m]; [lia|]. cbn [parse_expr_f].
    apply agree_step. apply IH; lia.
Qed.

Lemma agree_expr : forall k n, (k < n)%nat -> agree k (@parse_expr_f G n) parse_expr.
Proof.
  intros k n Hn st bs Hb. unfold parse_expr.
  destruct (agree_fuel (List.length bs) n (S (List.length bs))) with (st := st) (bs := bs) as [E C]; try lia.
  split; [exact E|exact C].
Qed.

(** The recursive equation of the parser. *)
Theorem parse_expr_eq : forall st bs, @parse_expr G st bs = step parse_expr st bs.
Proof.
  intros st bs. unfold parse_expr at 1. cbn [parse_expr_f].
  destruct bs as [|c bs]; [reflexivity|].
  apply (agree_step (List.length bs)); [|cbn; lia].
  apply agree_expr. cbn. lia.
Qed.

Lemma agree_refl_expr : forall k, agree k (@parse_expr G) parse_expr.
Proof.
  intros k st bs Hb. split; [reflexivity|].
  destruct (agree_fuel (List.length bs) (S (List.length bs)) (S (List.length bs))) with (st := st) (bs := bs) as [_ C]; try lia.
  exact C.
Qed.

End Agree.
