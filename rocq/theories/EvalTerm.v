(** Termination: an expression whose calls go to functions written in place or to
    functions bound, in advance, to smaller identifiers has one result, whatever
    the number of steps beyond some bound. *)
From Verif Require Import Base VlqModel IntBytes GroupModel SigmaModel BigIntModel TypeModel
  MethodModel IrModel SerModel ChainModel HeaderModel TxModel EqModel PrintModel EvalModel TypeProofs EqProofs EvalProofs
  EvalScope.
Local Open Scope list_scope.
Local Open Scope Z_scope.

Section Term.
Context {G : group}.
Variables H sha : bytes -> bytes.
Variable fits : Z -> bool.
Variable avlv : avl_verifier.
Variable c : context G (chain_state G).
Notation value := (value G).
Notation env := (env G).
Notation expr := (expr G).
Notation eval_step := (eval_step H sha fits avlv c).

(** A number of steps, and what is assumed about the evaluations beyond them. *)
Definition budget : Type := nat * (expr -> env -> res (value * env)).
Definition upto (n : nat) (b : expr -> env -> res (value * env)) : expr -> env -> res (value * env) :=
  Nat.iter n eval_step b.
Definition run (p : budget) : expr -> env -> res (value * env) := upto (fst p) (snd p).
Definition more (p : budget) : budget := (S (fst p), snd p).
Notation eval := run.

(** The identifiers that are bound to functions. *)
Variable F : Z -> bool.
Definition plain_args (args : list (Z * stype)) : Prop := Forall (fun a => F (fst a) = false) args.
(** What may be called at level [L]: a function in place, or one bound below. *)
Definition callee (L : Z) (f : expr) : Prop :=
  match f with EFunc _ _ => True | EValUse j _ => F j = true /\ 0 <= j < L | _ => False end.
(** The operations and methods that call their operand. *)
Definition call_ok (L : Z) (k : opk) (l : list expr) : Prop :=
  match k, l with
  | (OExists | OForAll | OFilter | OMap), [_; f] => callee L f
  | OFold, [_; _; f] => callee L f
  | (ODeserializeContext | ODeserializeRegister), _ => False
  | _, _ => True
  end.
Definition method_ok (L : Z) (m : smethod) (args : list expr) : Prop :=
  if ((sm_code m =? 12) && (sm_id m =? 15)) || ((sm_code m =? 36) && ((sm_id m =? 7) || (sm_id m =? 8)))
  then match args with f :: _ => callee L f | [] => True end
  else True.
Fixpoint fine (L : Z) (x : expr) : Prop :=
  let each := fix go l := match l with [] => True | y :: l' => fine L y /\ go l' end in
  match x with
  | EConst _ | EPlaceholder _ _ | EBools _ | EValUse _ _ => True
  | EOp k _ l d => call_ok L k l /\ each l /\ match d with Some y => fine L y | None => True end
  | EBin _ a b => fine L a /\ fine L b
  | ESeq _ l => each l
  | EFunc args b => plain_args args /\ fine L b
  | EValDef i r =>
      if F i then match r with EFunc args b => plain_args args /\ fine i b | _ => False end else fine L r
  | EBlock l r => each l /\ fine L r
  | EApply f l => callee L f /\ fine L f /\ each l
  | EMethod m o l => method_ok L m l /\ fine L o /\ each l
  | EProp _ o => fine L o
  end.
Lemma each_fine L l : (fix go (l : list expr) := match l with [] => True | y :: l' => fine L y /\ go l' end) l <-> Forall (fine L) l.
Proof.
  induction l as [|x l IH]; [split; [constructor|trivial]|]. rewrite IH. split.
  - intros [A B]. now constructor.
  - intros Q. inversion Q. auto.
Qed.

(** Function identifiers hold functions whose calls go further down. *)
Definition inv (e : env) : Prop :=
  forall i v, F i = true -> env_get e i = Some v ->
  exists args b, v = VLambda args b /\ plain_args args /\ fine i b.

(** A family of results, indexed by the number of steps and by what lies beyond, that
    settles: from some number of steps on it is the same whatever lies beyond. *)
Definition conv {A} (R : A -> Prop) (f : budget -> res (A * env)) : Prop :=
  exists n r, (forall m, (n <= fst m)%nat -> f m = r) /\ hok (fun p => R (fst p) /\ inv (snd p)) r.
Lemma conv_bind {A B} (R : A -> Prop) (Q : B -> Prop) f (k : budget -> A * env -> res (B * env)) :
  conv R f -> (forall a e, R a -> inv e -> conv Q (fun m => k m (a, e))) -> conv Q (fun m => bind (f m) (k m)).
Proof.
  intros (n & r & E & Hr) K. destruct r as [[a e]|x|].
  - destruct Hr as [Ra Ie]. destruct (K a e Ra Ie) as (n' & r' & E' & Hr').
    exists (n + n')%nat, r'. split; [|exact Hr']. intros m M. rewrite E by lia. cbn. apply E'. lia.
  - exists n, (Err x). split; [|exact I]. intros m M. now rewrite E.
  - exists n, Panic. split; [|exact I]. intros m M. now rewrite E.
Qed.
Lemma conv_pure {A B} (Q : B -> Prop) (r : res A) (k : budget -> A -> res (B * env)) :
  (forall a, conv Q (fun m => k m a)) -> conv Q (fun m => bind r (k m)).
Proof.
  intros K. destruct r as [a|x|]; cbn [bind]; [apply K| |].
  - exists O, (Err x). split; [reflexivity|exact I].
  - exists O, Panic. split; [reflexivity|exact I].
Qed.
Lemma conv_pure_hok {A B} (P : A -> Prop) (Q : B -> Prop) (r : res A) (k : budget -> A -> res (B * env)) :
  hok P r -> (forall a, P a -> conv Q (fun m => k m a)) -> conv Q (fun m => bind r (k m)).
Proof.
  intros Hr K. destruct r as [a|x|]; cbn [bind]; [apply K, Hr| |].
  - exists O, (Err x). split; [reflexivity|exact I].
  - exists O, Panic. split; [reflexivity|exact I].
Qed.
Lemma conv_const {A} (Q : A -> Prop) (r : res (A * env)) : hok (fun p => Q (fst p) /\ inv (snd p)) r -> conv Q (fun _ => r).
Proof. intros Hr. exists O, r. auto. Qed.
Lemma conv_ret {A} (Q : A -> Prop) (a : A) e : Q a -> inv e -> conv Q (fun _ => Ok (a, e)).
Proof. intros. apply conv_const. cbn. auto. Qed.
Lemma conv_err {A} (Q : A -> Prop) s : conv Q (fun _ => Err s). Proof. apply conv_const. exact I. Qed.
Lemma conv_weaken {A} (P Q : A -> Prop) f : conv P f -> (forall a, P a -> Q a) -> conv Q f.
Proof.
  intros (n & r & E & Hr) W. exists n, r. split; [exact E|]. eapply hok_impl; [exact Hr|]. intros p []. auto.
Qed.

Lemma inv_insert_plain e i v : F i = false -> inv e -> inv (env_insert e i v).
Proof.
  intros N I j w Fj. rewrite get_insert. destruct (i =? j) eqn:Q; [|now apply I].
  apply Z.eqb_eq in Q. congruence.
Qed.
Lemma inv_insert_old e e' i v : env_get e i = Some v -> inv e -> inv e' -> inv (env_insert e' i v).
Proof.
  intros E Ie I' j w Fj. rewrite get_insert. destruct (i =? j) eqn:Q; [|now apply I'].
  apply Z.eqb_eq in Q. subst j. intros [= <-]. now apply (Ie i v).
Qed.
Lemma inv_remove e i : inv e -> inv (env_remove e i).
Proof. intros Ie j w Fj. rewrite get_remove. destruct (i =? j); [discriminate|now apply Ie]. Qed.
Lemma inv_restore e fresh saved : inv e -> inv saved -> inv (restore e fresh saved).
Proof.
  intros Ie Is j w Fj. rewrite get_restore. destruct (env_get saved j) eqn:E; [intros [= <-]; now apply (Is j v)|].
  destruct (existsb _ _); [discriminate|now apply Ie].
Qed.
Definition bindable (i : Z) (v : value) : Prop :=
  F i = true -> exists args b, v = VLambda args b /\ plain_args args /\ fine i b.
Lemma inv_insert e i v : bindable i v -> inv e -> inv (env_insert e i v).
Proof.
  intros B Ie j w Fj. rewrite get_insert. destruct (i =? j) eqn:Q; [|now apply Ie].
  apply Z.eqb_eq in Q. subst j. intros [= <-]. auto.
Qed.
Lemma inv_bind_var i v s : bindable i v -> inv (fst (fst s)) -> inv (snd s) ->
  inv (fst (fst (bind_var i v s))) /\ inv (snd (bind_var i v s)).
Proof.
  destruct s as [[e fr] sv]. intros B Ie Is. cbn [fst snd] in *. unfold bind_var.
  destruct (env_get e i) eqn:E; cbn [fst snd]; (split; [now apply inv_insert|]); [|exact Is].
  eapply inv_insert_old; eauto.
Qed.

Definition any {A} (_ : A) : Prop := True.
(** A value whose calls settle. *)
Definition callable (v : value) : Prop :=
  match v with
  | VLambda args b => plain_args args /\ forall e, inv e -> conv any (fun m => eval m b e)
  | _ => True
  end.

Section Level.
Variable L : Z.
Hypothesis Lower : forall i, 0 <= i < L -> forall x e, fine i x -> inv e -> conv any (fun m => eval m x e).

Definition settles (x : expr) : Prop := forall e, inv e -> conv any (fun m => eval m x e).
(** The induction hypothesis: for a function in place also about its body. *)
Definition Pe (x : expr) : Prop :=
  fine L x -> settles x /\ match x with EFunc _ b => settles b | EValDef i r => F i = false -> settles r | _ => True end.

Lemma conv_shift {A} (Q : A -> Prop) (f : budget -> res (A * env)) : conv Q (fun m => f (more m)) -> conv Q f.
Proof.
  intros (n & r & E & Hr). exists (S n), r. split; [|exact Hr]. intros [m b] M. cbn in M. destruct m; [lia|]. apply (E (m, b)). cbn. lia.
Qed.
Lemma conv_step (Q : value -> Prop) x e : conv Q (fun m => eval_step (eval m) x e) -> conv Q (fun m => eval m x e).
Proof. intros C. apply conv_shift. exact C. Qed.
Lemma callee_conv f : Pe f -> callee L f -> fine L f -> forall e, inv e -> conv callable (fun m => eval m f e).
Proof.
  intros P C Ff e Ie. destruct f; try contradiction.
  - apply conv_step. cbn [EvalModel.eval_step]. apply conv_ret; [|exact Ie].
    destruct (P Ff) as [_ Sb]. destruct Ff as [Pl _]. split; [exact Pl|exact Sb].
  - destruct C as [Fj Lj]. apply conv_step. cbn [EvalModel.eval_step].
    apply conv_const. destruct (env_get e id) as [v|] eqn:E; [|exact I]. cbn. split; [|exact Ie].
    destruct (Ie id v Fj E) as (args & b & -> & Pl & Fb). split; [exact Pl|]. intros e' Ie'. now apply (Lower id).
Qed.
Lemma eval_list_conv l : Forall settles l -> forall e, inv e -> conv any (fun m => eval_list (eval m) l e).
Proof.
  induction 1 as [|x l X Fl IH]; intros e Ie; cbn [eval_list]; [apply conv_ret; [exact I|exact Ie]|].
  eapply conv_bind; [apply X, Ie|]. intros v e1 _ I1. cbv beta iota.
  eapply conv_bind; [apply IH, I1|]. intros vs e2 _ I2. cbv beta iota. apply conv_ret; [exact I|exact I2].
Qed.
(** With the first value callable. *)
Lemma eval_list_conv1 f l : (forall e, inv e -> conv callable (fun m => eval m f e)) -> Forall settles l ->
  forall e, inv e -> conv (fun vs => match vs with v :: _ => callable v | [] => True end) (fun m => eval_list (eval m) (f :: l) e).
Proof.
  intros Cf Fl e Ie. cbn [eval_list]. eapply conv_bind; [apply Cf, Ie|]. intros v e1 V I1. cbv beta iota.
  eapply conv_bind; [apply eval_list_conv; [exact Fl|exact I1]|]. intros vs e2 _ I2. cbv beta iota.
  apply conv_ret; [exact V|exact I2].
Qed.
Lemma call1_conv f v : callable f -> forall e, inv e -> conv any (fun m => call1 (eval m) f v e).
Proof.
  intros C e Ie. unfold call1. destruct f; try apply conv_err. destruct args as [|[i t] args]; [apply conv_err|].
  destruct C as [Pl Sb]. assert (Fi : F i = false) by (inversion Pl; assumption).
  eapply conv_bind; [apply Sb; now apply inv_insert_plain|]. intros r e' _ I'. cbv beta iota.
  apply conv_ret; [exact I|]. destruct (env_get e i) eqn:E; [eapply inv_insert_old; eauto|now apply inv_remove].
Qed.
Ltac ccall := eapply conv_bind; [apply call1_conv; assumption|]; intros ? ? _ ?; cbv beta iota.
Lemma map_loop_conv f l : callable f -> forall e, inv e -> conv any (fun m => map_loop (eval m) f l e).
Proof.
  intros C. induction l as [|x l IH]; intros e Ie; cbn [map_loop]; [apply conv_ret; [exact I|exact Ie]|].
  ccall. eapply conv_bind; [apply IH; assumption|]. intros vs e2 _ I2. cbv beta iota. apply conv_ret; [exact I|exact I2].
Qed.
Lemma filter_loop_conv f l : callable f -> forall e, inv e -> conv any (fun m => filter_loop (eval m) f l e).
Proof.
  intros C. induction l as [|x l IH]; intros e Ie; cbn [filter_loop]; [apply conv_ret; [exact I|exact Ie]|].
  ccall. apply conv_pure. intros b. eapply conv_bind; [apply IH; assumption|]. intros vs e2 _ I2. cbv beta iota.
  apply conv_ret; [exact I|exact I2].
Qed.
Lemma exists_loop_conv f l : callable f -> forall e, inv e -> conv any (fun m => exists_loop (eval m) f l e).
Proof.
  intros C. induction l as [|x l IH]; intros e Ie; cbn [exists_loop]; [apply conv_ret; [exact I|exact Ie]|].
  ccall. apply conv_pure. intros b. destruct b; [apply conv_ret; [exact I|assumption]|now apply IH].
Qed.
Lemma forall_loop_conv f l : callable f -> forall e, inv e -> conv any (fun m => forall_loop (eval m) f l e).
Proof.
  intros C. induction l as [|x l IH]; intros e Ie; cbn [forall_loop]; [apply conv_ret; [exact I|exact Ie]|].
  ccall. apply conv_pure. intros b. destruct b; [now apply IH|apply conv_ret; [exact I|assumption]].
Qed.
Lemma fold_loop_conv f l : callable f -> forall acc e, inv e -> conv any (fun m => fold_loop (eval m) f acc l e).
Proof.
  intros C. induction l as [|x l IH]; intros acc e Ie; cbn [fold_loop]; [apply conv_ret; [exact I|exact Ie]|].
  ccall. now apply IH.
Qed.
Ltac cev := eapply conv_bind; [eauto|]; intros ? ? _ ?; cbv beta iota.
Ltac done := apply conv_ret; [exact I|assumption].
Lemma eval_lambda_op_conv k a f : settles a -> (forall e, inv e -> conv callable (fun m => eval m f e)) ->
  forall e, inv e -> conv any (fun m => eval_lambda_op (eval m) k a f e).
Proof.
  intros A C e Ie. unfold eval_lambda_op. cev. eapply conv_bind; [apply C; assumption|]. intros fv e2 Cf I2. cbv beta iota.
  destruct k; try apply conv_err.
  - apply conv_pure. intros t. apply conv_pure. intros l.
    eapply conv_bind; [apply exists_loop_conv; assumption|]. intros b e3 _ I3. cbv beta iota. done.
  - apply conv_pure. intros t. apply conv_pure. intros l.
    eapply conv_bind; [apply forall_loop_conv; assumption|]. intros b e3 _ I3. cbv beta iota. done.
  - apply conv_pure. intros t. apply conv_pure. intros l.
    eapply conv_bind; [apply filter_loop_conv; assumption|]. intros b e3 _ I3. cbv beta iota.
    apply conv_pure. intros r. done.
  - assert (M : forall t u, conv any (fun m => l <- typed_items t a0 ;; '(vs, e) <- map_loop (eval m) fv l e2 ;; r <- from_vec u vs ;; Ok (r, e))).
    { intros t u. apply conv_pure. intros l.
      eapply conv_bind; [apply map_loop_conv; assumption|]. intros b e3 _ I3. cbv beta iota. apply conv_pure. intros r. done. }
    destruct (tpe f); try apply conv_err. destruct dom; [apply conv_err|apply M].
Qed.
Lemma arg0_callable (args : list value) : match args with v :: _ => callable v | [] => True end -> hok callable (arg args 0).
Proof. destruct args; cbn; auto. Qed.
Lemma eval_method_conv m o (args : list value) :
  (((sm_code m =? 12) && (sm_id m =? 15)) || ((sm_code m =? 36) && ((sm_id m =? 7) || (sm_id m =? 8))) = true ->
   match args with v :: _ => callable v | [] => True end) ->
  forall e, inv e -> conv any (fun n => eval_method H avlv c (eval n) m o args e).
Proof.
  intros Q e Ie. unfold eval_method. destruct ((sm_code m =? 12) && (sm_id m =? 15)) eqn:T1.
  { unfold flat_map. apply (conv_pure_hok callable); [apply arg0_callable; apply Q; reflexivity|]. intros f C.
    destruct f; try apply conv_err. destruct (1 <? _); [apply conv_err|]. destruct (negb _); [apply conv_err|].
    destruct args0 as [|[i t] args0]; [apply conv_err|]. apply conv_pure. intros l.
    eapply conv_bind; [apply map_loop_conv; assumption|]. intros vs e3 _ I3. cbv beta iota. apply conv_pure. intros r. done. }
  destruct ((sm_code m =? 36) && (sm_id m =? 7)) eqn:T2.
  { unfold option_map_m. apply (conv_pure_hok callable); [apply arg0_callable; apply Q|].
    { apply andb_true_iff in T2 as [-> ->]. reflexivity. }
    intros f C. destruct f; try apply conv_err. destruct o; try apply conv_err. destruct o as [x|]; [|done].
    ccall. done. }
  destruct ((sm_code m =? 36) && (sm_id m =? 8)) eqn:T3.
  { unfold option_filter_m. apply (conv_pure_hok callable); [apply arg0_callable; apply Q|].
    { apply andb_true_iff in T3 as [-> ->]. rewrite orb_true_r. reflexivity. }
    intros f C. destruct f; try apply conv_err. destruct o; try apply conv_err. destruct o as [x|]; [|done].
    ccall. apply conv_pure. intros b. done. }
  apply conv_pure. intros v. done.
Qed.
Lemma eval_bin_conv k l r : settles l -> settles r -> forall e, inv e -> conv any (fun n => eval_bin fits (eval n) k l r e).
Proof.
  intros A B e Ie. unfold eval_bin. eapply conv_bind; [apply A, Ie|]. intros lv e1 _ I1. cbv beta iota.
  assert (AR : conv any (fun n => '(n0, a) <- of_option "numeric" (num_of lv) ;; '(rv, e2) <- eval n r e1 ;;
     b <- get_num n0 rv ;; z <- of_option "ArithmeticException" (arith fits k n0 a b) ;; Ok (mk_num (G := G) n0 z, e2))).
  { apply conv_pure. intros [n a]. cbv beta iota. cev. apply conv_pure. intros b. apply conv_pure. intros z. done. }
  assert (CR : conv any (fun n => '(rv, e2) <- eval n r e1 ;; '(n0, a) <- of_option "numeric" (num_of lv) ;;
     b <- get_num n0 rv ;; Ok (VBool (G := G) (compare_op k a b), e2))).
  { cev. apply conv_pure. intros [n a']. cbv beta iota. apply conv_pure. intros b. done. }
  destruct k; try exact AR; try exact CR.
  - cev. done.
  - cev. done.
  - apply conv_pure. intros [|]; [cev; apply conv_pure; intros b; done|done].
  - apply conv_pure. intros [|]; [done|cev; apply conv_pure; intros b; done].
  - apply conv_pure. intros a. cev. apply conv_pure. intros b. done.
Qed.
(** The definitions of a block. *)
Definition def_ok (x : expr) : Prop :=
  match x with
  | EValDef i rhs => forall e, inv e -> conv (bindable i) (fun m => eval m rhs e)
  | _ => True
  end.
Lemma block_top_conv items : Forall def_ok items -> forall e, inv e ->
  conv any (fun m => e <- block_top (eval m) items e ;; Ok (tt, e)).
Proof.
  induction 1 as [|x items X Fi IH]; intros e Ie; cbn [block_top]; [cbn; done|].
  destruct x as [| | | | | | |i rhs| | | | |]; try (cbn; apply conv_err).
  destruct (X e Ie) as (n & r & E & Hr). destruct r as [[v e1]|s|].
  - destruct Hr as [B I1]. cbn [fst snd] in *. destruct (IH (env_insert e1 i v) (inv_insert _ _ _ B I1)) as (n' & r' & E' & Hr').
    exists (n + n')%nat, r'. split; [|exact Hr']. intros m M. rewrite E by lia. cbn [bind]. apply E'. lia.
  - exists n, (Err s). split; [|exact I]. intros m M. rewrite E by lia. reflexivity.
  - exists n, Panic. split; [|exact I]. intros m M. rewrite E by lia. reflexivity.
Qed.
Lemma block_nested_conv items : Forall def_ok items -> forall s, inv (fst (fst s)) -> inv (snd s) ->
  exists n r, (forall m, (n <= fst m)%nat -> block_nested (eval m) items s = r) /\
              hok (fun s' => inv (fst (fst s')) /\ inv (snd s')) r.
Proof.
  induction 1 as [|x items X Fi IH]; intros s Ie Is; cbn [block_nested].
  { exists O, (Ok s). split; [reflexivity|]. cbn. auto. }
  destruct x as [| | | | | | |i rhs| | | | |];
    try (exists O; eexists; split; [reflexivity|exact I]).
  destruct s as [[e fr] sv]. cbn [fst snd] in *. destruct (X e Ie) as (n & r & E & Hr). destruct r as [[v e1]|t|].
  - destruct Hr as [B I1]. cbn [fst snd] in *.
    destruct (inv_bind_var i v (e1, fr, sv) B I1 Is) as [J1 J2].
    destruct (IH _ J1 J2) as (n' & r' & E' & Hr').
    exists (n + n')%nat, r'. split; [|exact Hr']. intros m M. rewrite E by lia. cbn [bind]. apply E'. lia.
  - exists n, (Err t). split; [|exact I]. intros m M. rewrite E by lia. reflexivity.
  - exists n, Panic. split; [|exact I]. intros m M. rewrite E by lia. reflexivity.
Qed.
Lemma inv_nil : inv []. Proof. intros i v _ E. discriminate. Qed.
Lemma eval_block_conv items r : Forall def_ok items -> settles r -> forall e, inv e ->
  conv any (fun m => eval_block (eval m) items r e).
Proof.
  intros D R e Ie. unfold eval_block. destruct (env_is_empty e).
  - destruct (block_top_conv items D e Ie) as (n & q & E & Hq). destruct q as [[u e1]|t|].
    + destruct Hq as [_ I1]. cbn [snd] in I1. destruct (R e1 I1) as (n' & r' & E' & Hr').
      exists (n + n')%nat, r'. split; [|exact Hr']. intros m M. specialize (E m ltac:(lia)).
      destruct (block_top (eval m) items e); cbn [bind] in *; try discriminate E. injection E as _ ->. apply E'. lia.
    + exists n, (Err t). split; [|exact I]. intros m M. specialize (E m M).
      destruct (block_top (eval m) items e); cbn [bind] in *; congruence.
    + exists n, Panic. split; [|exact I]. intros m M. specialize (E m M).
      destruct (block_top (eval m) items e); cbn [bind] in *; congruence.
  - destruct (block_nested_conv items D (e, [], []) Ie inv_nil) as (n & q & E & Hq). destruct q as [[[e1 fr] sv]|t|].
    + destruct Hq as [I1 I2]. cbn [fst snd] in *.
      assert (K : conv any (fun m => '(v, e2) <- eval m r e1 ;; Ok (v, restore e2 fr sv))).
      { eapply conv_bind; [apply R, I1|]. intros v e2 _ I3. cbv beta iota. apply conv_ret; [exact I|now apply inv_restore]. }
      destruct K as (n' & r' & E' & Hr').
      exists (n + n')%nat, r'. split; [|exact Hr']. intros m M. rewrite E by lia. cbn [bind]. apply E'. lia.
    + exists n, (Err t). split; [|exact I]. intros m M. rewrite E by lia. reflexivity.
    + exists n, Panic. split; [|exact I]. intros m M. rewrite E by lia. reflexivity.
Qed.
Lemma bind_args_inv params : plain_args params -> forall vs s, inv (fst (fst s)) -> inv (snd s) ->
  let s' := fold_left (fun s p => bind_var (fst p) (snd p) s) (combine (map fst params) vs) s in
  inv (fst (fst s')) /\ inv (snd s').
Proof.
  induction 1 as [|[i t] params Pi Pl IH]; intros vs s I1 I2; cbn [map combine fold_left]; [auto|].
  destruct vs as [|v vs]; cbn [fold_left]; [auto|]. cbn [fst snd] in *.
  destruct (inv_bind_var i v s) as [J1 J2]; auto. intros Q. congruence.
Qed.
Lemma eval_apply_conv f args : (forall e, inv e -> conv callable (fun m => eval m f e)) -> Forall settles args ->
  forall e, inv e -> conv any (fun m => eval_apply (eval m) f args e).
Proof.
  intros C A e Ie. unfold eval_apply. eapply conv_bind; [apply C, Ie|]. intros fv e1 Cf I1. cbv beta iota.
  eapply conv_bind; [apply eval_list_conv; [exact A|exact I1]|]. intros vs e2 _ I2. cbv beta iota.
  destruct fv; try apply conv_err. destruct Cf as [Pl Sb].
  pose proof (bind_args_inv args0 Pl vs (e2, [], []) I2 inv_nil) as J.
  destruct (fold_left (fun s p => bind_var (fst p) (snd p) s) (combine (map fst args0) vs) (e2, [], [])) as [[e3 fr] sv].
  destruct J as [J1 J2]. cbn [fst snd] in *.
  eapply conv_bind; [apply Sb, J1|]. intros v e4 _ I4. cbv beta iota. apply conv_ret; [exact I|now apply inv_restore].
Qed.
Lemma eval_as_conv {A} (g : value -> res A) x : settles x -> forall e, inv e -> conv any (fun m => eval_as (eval m) g x e).
Proof. intros S e Ie. unfold eval_as. cev. apply conv_pure. intros b. done. Qed.
Ltac cas := eapply conv_bind; [apply eval_as_conv; assumption|]; intros ? ? _ ?; cbv beta iota.

Lemma pe_settles l : Forall Pe l -> Forall (fine L) l -> Forall settles l.
Proof.
  intros A B. rewrite Forall_forall in *. intros x X. apply (A x X), B, X.
Qed.
Definition shape_call (s : shape expr) : Prop :=
  match s with
  | ShContext _ _ | ShRegister _ _ _ => False
  | ShLambda _ _ f | ShFold _ _ f => callee L f
  | _ => True
  end.
Lemma shape_of_call k p l d : call_ok L k l -> shape_call (shape_of k p l d).
Proof.
  destruct l as [|x1 l]; [|destruct l as [|x2 l]; [|destruct l as [|x3 l]; [|destruct l as [|x4 l]; [|destruct l]]]];
    destruct k; cbn; try tauto; destruct p; cbn; tauto.
Qed.
Lemma eval_shape_conv s : shape_call s -> shape_all Pe s -> shape_all (fine L) s -> forall e, inv e ->
  conv any (fun m => eval_shape H sha avlv c (eval m) s e).
Proof.
  intros C P Ff e Ie. destruct s; cbn [shape_all shape_call] in *; try contradiction; cbn [eval_shape].
  - destruct P as (P1 & P2 & P3), Ff as (F1 & F2 & F3). destruct (P1 F1) as [S1 _], (P2 F2) as [S2 _], (P3 F3) as [S3 _].
    unfold eval_if. cev. apply conv_pure. intros [|]; auto.
  - destruct P as (P1 & P2 & P3), Ff as (F1 & F2 & F3). destruct (P1 F1) as [S1 _], (P2 F2) as [S2 _].
    unfold eval_fold. cev. cev. eapply conv_bind; [apply (callee_conv f); assumption|]. intros fv e3 Cf I3. cbv beta iota.
    apply conv_pure. intros [t l]. cbv beta iota. now apply fold_loop_conv.
  - destruct P as (P1 & P2 & P3), Ff as (F1 & F2 & F3). destruct (P1 F1) as [S1 _], (P2 F2) as [S2 _].
    unfold eval_by_index. cev. cev. apply conv_pure. intros [t l]. cbv beta iota.
    eapply (conv_bind any).
    + destruct d as [y|]; [|done]. destruct (P3 F3) as [S3 _]. cev. done.
    + intros o e3 _ I3. cbv beta iota. apply conv_pure. intros n. apply conv_pure. intros v. done.
  - destruct P as (P1 & P2 & P3), Ff as (F1 & F2 & F3). destruct (P1 F1) as [S1 _], (P2 F2) as [S2 _], (P3 F3) as [S3 _].
    unfold eval_tree_lookup. cas. cas. cas. apply conv_pure. intros r. done.
  - destruct P as (P1 & P2 & P3 & P4), Ff as (F1 & F2 & F3 & F4).
    destruct (P1 F1) as [S1 _], (P2 F2) as [S2 _], (P3 F3) as [S3 _].
    unfold eval_create_avl. cas. cas. cas. eapply (conv_bind any).
    + destruct d as [y|]; [|done]. destruct (P4 F4) as [S4 _]. cas. done.
    + intros o e4 _ I4. cbv beta iota. apply conv_pure. intros dg. done.
  - destruct P as (P1 & P2 & P3 & P4), Ff as (F1 & F2 & F3 & F4).
    destruct (P1 F1) as [S1 _], (P2 F2) as [S2 _], (P3 F3) as [S3 _], (P4 F4) as [S4 _].
    unfold eval_dh_tuple. cas. cas. cas. cas. done.
  - destruct P as (P1 & P2), Ff as (F1 & F2). destruct (P1 F1) as [S1 _].
    apply eval_lambda_op_conv; auto. now apply callee_conv.
  - apply conv_pure. intros v. done.
  - destruct (P Ff) as [S1 _]. cev. apply conv_pure. intros v. done.
  - destruct P as (P1 & P2), Ff as (F1 & F2). destruct (P1 F1) as [S1 _], (P2 F2) as [S2 _].
    cev. cev. apply conv_pure. intros v. done.
  - destruct P as (P1 & P2 & P3), Ff as (F1 & F2 & F3). destruct (P1 F1) as [S1 _], (P2 F2) as [S2 _], (P3 F3) as [S3 _].
    cev. cev. cev. apply conv_pure. intros v. done.
  - apply conv_err.
Qed.

Lemma pe_all x : Pe x.
Proof.
  assert (K : (forall l : lit G, True) /\ (forall k : const G, True) /\ (forall x : expr, Pe x) /\
              (forall t : tree G, True) /\ (forall r : regval G, True) /\ (forall d : cand G, True) /\ (forall b : box G, True)).
  { apply ir_ind; intros; try exact I; intros Ff.
    all: split; [intros e Ie; apply conv_step; cbn [EvalModel.eval_step]|try exact I].
    - done.
    - apply conv_err.
    - destruct Ff as (Fc & Fl & Fd). apply each_fine in Fl.
      assert (Fd' : oall (fine L) d) by exact Fd.
      setoid_rewrite eval_op_shape || idtac.
      assert (Q : conv any (fun m => eval_shape H sha avlv c (eval m) (shape_of k p l d) e)).
      { apply eval_shape_conv; auto using shape_of_call, shape_of_all. }
      destruct Q as (n & r & E & Hr). exists n, r. split; [|exact Hr]. intros m M. rewrite ?eval_op_shape. now apply E.
    - destruct Ff as [F1 F2]. destruct (H0 F1), (H1 F2). now apply eval_bin_conv.
    - done.
    - cbn [fine] in Ff. apply each_fine in Ff.
      eapply conv_bind; [apply eval_list_conv; [now apply pe_settles|exact Ie]|]. intros vs e2 _ I2. cbv beta iota.
      apply conv_pure. intros v. done.
    - done.
    - destruct Ff as [_ Fb]. apply (H0 Fb).
    - apply conv_err.
    - intros Fi. cbn [fine] in Ff. rewrite Fi in Ff. apply (H0 Ff).
    - apply conv_pure. intros v. done.
    - destruct Ff as [Fl Fr]. apply each_fine in Fl. destruct (H1 Fr) as [S1 _].
      apply eval_block_conv; auto. rewrite Forall_forall in *. intros y X.
      pose proof (Fl y X) as Fx. destruct (H0 y X Fx) as [_ Px0]. destruct y as [| | | | | | |i rhs| | | | |]; try exact I.
      cbn [fine] in Fx. intros e' Ie'. destruct (F i) eqn:Fi.
      + destruct rhs; try contradiction. destruct Fx as [Pl Fb]. apply conv_step. cbn [EvalModel.eval_step].
        apply conv_ret; [|exact Ie']. intros _. eauto.
      + eapply conv_weaken; [apply (Px0 eq_refl e' Ie')|]. intros a _ Q. congruence.
    - destruct Ff as (Fc & Ff & Fl). apply each_fine in Fl. apply eval_apply_conv; auto using pe_settles, callee_conv.
    - destruct Ff as (Fm & Fo & Fl). apply each_fine in Fl. destruct (H0 Fo) as [So _]. cev.
      assert (St : Forall settles l) by now apply pe_settles.
      unfold method_ok in Fm. destruct (_ || _) eqn:T in Fm.
      + eapply (conv_bind (fun vs => match vs with v :: _ => callable v | [] => True end)).
        * destruct l as [|f l]; [apply conv_ret; [exact I|assumption]|].
          apply eval_list_conv1; [|now inversion St|assumption].
          inversion H1; subst. inversion Fl; subst. now apply callee_conv.
        * intros vs e2 Cv I2. cbv beta iota. now apply eval_method_conv.
      + eapply conv_bind; [now apply eval_list_conv|]. intros vs e2 _ I2. cbv beta iota. apply eval_method_conv; [congruence|assumption].
    - destruct (H0 Ff) as [So _]. cev. apply eval_method_conv; auto. }
  apply K.
Qed.
End Level.

Theorem fine_settles : forall n L x e, Z.to_nat L = n -> fine L x -> inv e -> conv any (fun m => eval m x e).
Proof.
  intros n. induction n as [n IH] using lt_wf_ind. intros L x e E Fx Ie.
  apply (pe_all L); auto. intros i Hi y f Fy If. apply (IH (Z.to_nat i)) with (L := i); auto. lia.
Qed.

(** The bounded evaluation is the one that assumes a lack of steps beyond. *)
Lemma eval_upto n : EvalModel.eval H sha fits avlv c n = upto n (fun _ _ => Err fuel_err).
Proof. induction n as [|n IH]; [reflexivity|]. cbn. now rewrite IH. Qed.
End Term.
