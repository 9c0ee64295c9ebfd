(** Facts about evaluation: more steps do not change a result, and the
    environments and values that evaluation produces. *)
From Verif Require Import Base VlqModel IntBytes GroupModel SigmaModel BigIntModel TypeModel
  MethodModel IrModel SerModel ChainModel HeaderModel TxModel EqModel PrintModel EvalModel TypeProofs EqProofs.
Local Open Scope list_scope.
Local Open Scope Z_scope.

(** ** More steps *)

(** The first result is the second, or only for lack of steps is it not. *)
Definition rle {A} (r s : res A) : Prop := r = Err fuel_err \/ r = s.
Lemma rle_refl {A} (r : res A) : rle r r. Proof. now right. Qed.
Lemma rle_bind {A B} (r s : res A) (f g : A -> res B) :
  rle r s -> (forall a, rle (f a) (g a)) -> rle (bind r f) (bind s g).
Proof.
  intros [->| ->] F; [now left|]. destruct s; cbn; [apply F|now right|now right].
Qed.
Lemma rle_trans {A} (r s t : res A) : rle r s -> rle s t -> rle r t.
Proof. intros [->| ->]; [now left|auto]. Qed.

(** Monotone in the evaluator of the parts. *)
Ltac rstep :=
  first
  [ apply rle_refl
  | assumption
  | simple apply rle_bind; [|intro]
  | match goal with
    | |- rle (match ?x with _ => _ end) _ => destruct x
    | |- rle (let '(_, _) := ?x in _) _ => destruct x
    | |- forall _, _ => intro
    end ].
Ltac rmono := repeat (rstep; cbv beta iota).

(** ** The kinds of operation nodes *)
Inductive shape (E : Type) :=
| ShContext (t : stype) (id : Z)
| ShRegister (r : Z) (t : stype) (d : option E)
| ShIf (b t f : E)
| ShFold (a z f : E)
| ShIndex (a i : E) (d : option E)
| ShLookup (t k p : E)
| ShAvl (f g l : E) (d : option E)
| ShTuple (g h u v : E)
| ShLambda (k : opk) (a f : E)
| Sh0 (k : opk) (p : payload)
| Sh1 (k : opk) (p : payload) (a : E)
| Sh2 (k : opk) (a b : E)
| Sh3 (k : opk) (a b x : E)
| ShNone.
Arguments ShContext {E}. Arguments ShRegister {E}. Arguments ShIf {E}. Arguments ShFold {E}.
Arguments ShIndex {E}. Arguments ShLookup {E}. Arguments ShAvl {E}. Arguments ShTuple {E}.
Arguments ShLambda {E}. Arguments Sh0 {E}. Arguments Sh1 {E}. Arguments Sh2 {E}. Arguments Sh3 {E}.
Arguments ShNone {E}.

Definition shape_of {E} (k : opk) (p : payload) (args : list E) (d : option E) : shape E :=
  match args with
  | [] =>
      match k, p with
      | ODeserializeContext, PTypeU8 t id => ShContext t id
      | ODeserializeRegister, PU8Type r t => ShRegister r t d
      | _, _ => Sh0 k p
      end
  | [a] => Sh1 k p a
  | [a; b] =>
      match k with
      | OByIndex => ShIndex a b d
      | _ => if is_lambda_op k then ShLambda k a b else Sh2 k a b
      end
  | [a; b; x] =>
      match k with
      | OIf => ShIf a b x
      | OFold => ShFold a b x
      | OTreeLookup => ShLookup a b x
      | OCreateAvlTree => ShAvl a b x d
      | _ => Sh3 k a b x
      end
  | [g; h; u; v] => match k with OCreateProveDhTuple => ShTuple g h u v | _ => ShNone end
  | _ => ShNone
  end.
Definition shape_all {E} (P : E -> Prop) (s : shape E) : Prop :=
  match s with
  | ShContext _ _ | Sh0 _ _ | ShNone => True
  | ShRegister _ _ d => oall P d
  | ShIf a b x | ShFold a b x | ShLookup a b x | Sh3 _ a b x => P a /\ P b /\ P x
  | ShIndex a b d => P a /\ P b /\ oall P d
  | ShAvl a b x d => P a /\ P b /\ P x /\ oall P d
  | ShTuple a b x y => P a /\ P b /\ P x /\ P y
  | ShLambda _ a b | Sh2 _ a b => P a /\ P b
  | Sh1 _ _ a => P a
  end.
Lemma shape_of_all {E} (P : E -> Prop) k p args d : Forall P args -> oall P d -> shape_all P (shape_of k p args d).
Proof.
  intros F D. unfold shape_of.
  do 5 (try (destruct args as [|? args]; [|apply Forall_cons_iff in F as [? F]])); try exact I;
    repeat (match goal with |- shape_all _ (match ?x with _ => _ end) => destruct x end); cbn; auto.
Qed.

Section Shape.
Context {G : group}.
Variables H sha : bytes -> bytes.
Variable avlv : avl_verifier.
Variable c : context G (chain_state G).
Variable rec : expr G -> env G -> res (value G * env G).

Definition eval_shape (s : shape (expr G)) (e : env G) : res (value G * env G) :=
  match s with
  | ShContext t id => eval_deser_context c rec t id e
  | ShRegister r t d => eval_deser_register c rec r t d e
  | ShIf b t f => eval_if rec b t f e
  | ShFold a z f => eval_fold rec a z f e
  | ShIndex a i d => eval_by_index rec a i d e
  | ShLookup t k p => eval_tree_lookup avlv rec t k p e
  | ShAvl f g l d => eval_create_avl rec f g l d e
  | ShTuple g h u v => eval_dh_tuple rec g h u v e
  | ShLambda k a f => eval_lambda_op rec k a f e
  | Sh0 k p => v <- op0 H c k p ;; Ok (v, e)
  | Sh1 k p a => '(v, e) <- rec a e ;; r <- op1 H sha k p v ;; Ok (r, e)
  | Sh2 k a b => '(v, e) <- rec a e ;; '(w, e) <- rec b e ;; r <- op2 k v w ;; Ok (r, e)
  | Sh3 k a b x =>
      '(v, e) <- rec a e ;; '(w, e) <- rec b e ;; '(y, e) <- rec x e ;; r <- op3 k v w y ;; Ok (r, e)
  | ShNone => Err "no such node"
  end.
Lemma eval_op_shape k p args d e : eval_op H sha avlv c rec k p args d e = eval_shape (shape_of k p args d) e.
Proof.
  destruct args as [|a1 args]; [|destruct args as [|a2 args]; [|destruct args as [|a3 args];
    [|destruct args as [|a4 args]; [|destruct args as [|a5 args]]]]];
    destruct k; try reflexivity; destruct p; reflexivity.
Qed.
End Shape.

Section Mono.
Context {G : group}.
Variables H sha : bytes -> bytes.
Variable fits : Z -> bool.
Variable avlv : avl_verifier.
Variable c : context G (chain_state G).
Variables rec rec' : expr G -> env G -> res (value G * env G).
Hypothesis R : forall x e, rle (rec x e) (rec' x e).

Lemma eval_list_le l : forall e, rle (eval_list rec l e) (eval_list rec' l e).
Proof. induction l; intros e; cbn [eval_list]; rmono; try apply R; try apply IHl. Qed.
Lemma call1_le f v e : rle (call1 rec f v e) (call1 rec' f v e).
Proof. unfold call1. rmono. apply R. Qed.
Lemma map_loop_le f l : forall e, rle (map_loop rec f l e) (map_loop rec' f l e).
Proof. induction l; intros e; cbn [map_loop]; rmono; try apply call1_le; try apply IHl. Qed.
Lemma filter_loop_le f l : forall e, rle (filter_loop rec f l e) (filter_loop rec' f l e).
Proof. induction l; intros e; cbn [filter_loop]; rmono; try apply call1_le; try apply IHl. Qed.
Lemma exists_loop_le f l : forall e, rle (exists_loop rec f l e) (exists_loop rec' f l e).
Proof. induction l; intros e; cbn [exists_loop]; rmono; try apply call1_le; try apply IHl. Qed.
Lemma forall_loop_le f l : forall e, rle (forall_loop rec f l e) (forall_loop rec' f l e).
Proof. induction l; intros e; cbn [forall_loop]; rmono; try apply call1_le; try apply IHl. Qed.
Lemma fold_loop_le f l : forall acc e, rle (fold_loop rec f acc l e) (fold_loop rec' f acc l e).
Proof. induction l; intros acc e; cbn [fold_loop]; rmono; try apply call1_le; try apply IHl. Qed.
Lemma block_top_le l : forall e, rle (block_top rec l e) (block_top rec' l e).
Proof. induction l as [|x l IHl]; intros e; cbn [block_top]; [apply rle_refl|]. destruct x; rmono; try apply R; try apply IHl. Qed.
Lemma block_nested_le l : forall s, rle (block_nested rec l s) (block_nested rec' l s).
Proof. induction l as [|x l IHl]; intros s; cbn [block_nested]; [apply rle_refl|]. destruct x; rmono; try apply R; try apply IHl. Qed.
Lemma eval_method_le m o a e : rle (eval_method H avlv c rec m o a e) (eval_method H avlv c rec' m o a e).
Proof.
  unfold eval_method, flat_map, option_map_m, option_filter_m. rmono; try apply call1_le; try apply map_loop_le.
Qed.
Lemma eval_bin_le k l r e : rle (eval_bin fits rec k l r e) (eval_bin fits rec' k l r e).
Proof. unfold eval_bin. rmono; try apply R. Qed.
Lemma eval_as_le {A} (f : value G -> res A) x e : rle (eval_as rec f x e) (eval_as rec' f x e).
Proof. unfold eval_as. rmono. apply R. Qed.
Lemma eval_lambda_op_le k a f e : rle (eval_lambda_op rec k a f e) (eval_lambda_op rec' k a f e).
Proof.
  unfold eval_lambda_op. rmono; try apply R; try apply exists_loop_le; try apply forall_loop_le;
    try apply filter_loop_le; try apply map_loop_le.
Qed.
Lemma eval_shape_le s e : rle (eval_shape H sha avlv c rec s e) (eval_shape H sha avlv c rec' s e).
Proof.
  destruct s; cbn [eval_shape].
  - unfold eval_deser_context. rmono; apply R.
  - unfold eval_deser_register, eval_default. rmono; apply R.
  - unfold eval_if. rmono; apply R.
  - unfold eval_fold. rmono; try apply R. apply fold_loop_le.
  - unfold eval_by_index. rmono; apply R.
  - unfold eval_tree_lookup. rmono; apply eval_as_le.
  - unfold eval_create_avl. rmono; apply eval_as_le.
  - unfold eval_dh_tuple. rmono; apply eval_as_le.
  - apply eval_lambda_op_le.
  - rmono.
  - rmono; apply R.
  - rmono; apply R.
  - rmono; apply R.
  - rmono.
Qed.
Lemma eval_step_le x e : rle (eval_step H sha fits avlv c rec x e) (eval_step H sha fits avlv c rec' x e).
Proof.
  destruct x; cbn [eval_step].
  - rmono.
  - rmono.
  - rewrite !eval_op_shape. apply eval_shape_le.
  - apply eval_bin_le.
  - rmono.
  - rmono. apply eval_list_le.
  - rmono.
  - rmono.
  - rmono.
  - unfold eval_block. rmono; try apply R; try apply block_top_le; try apply block_nested_le.
  - unfold eval_apply. rmono; try apply R; try apply eval_list_le.
  - rmono; try apply R; try apply eval_list_le; try apply eval_method_le.
  - rmono; try apply R; try apply eval_method_le.
Qed.
End Mono.

Section Fuel.
Context {G : group}.
Variables H sha : bytes -> bytes.
Variable fits : Z -> bool.
Variable avlv : avl_verifier.
Variable c : context G (chain_state G).
Notation eval := (eval H sha fits avlv c).

Lemma eval_more n m : (n <= m)%nat -> forall x e, rle (eval n x e) (eval m x e).
Proof.
  intros L. assert (S1 : forall n x e, rle (eval n x e) (eval (S n) x e)).
  { clear. intros n. induction n as [|n IH]; intros x e; [now left|].
    change (eval (S (S n)) x e) with (eval_step H sha fits avlv c (eval (S n)) x e).
    cbn [EvalModel.eval]. apply eval_step_le. exact IH. }
  induction L as [|m L IH]; intros x e; [apply rle_refl|]. eapply rle_trans; [apply IH|apply S1].
Qed.
Lemma eval_ok_more n m x e r : (n <= m)%nat -> eval n x e = Ok r -> eval m x e = Ok r.
Proof. intros L E. destruct (eval_more n m L x e) as [Q|Q]; congruence. Qed.
End Fuel.

(** ** Results that satisfy a predicate *)
Definition hok {A} (Q : A -> Prop) (r : res A) : Prop := match r with Ok a => Q a | _ => True end.
Lemma hok_bind {A B} (P : A -> Prop) (Q : B -> Prop) (r : res A) (f : A -> res B) :
  hok P r -> (forall a, P a -> hok Q (f a)) -> hok Q (bind r f).
Proof. destruct r; cbn; auto. Qed.
Lemma hok_any {A B} (Q : B -> Prop) (r : res A) (f : A -> res B) :
  (forall a, hok Q (f a)) -> hok Q (bind r f).
Proof. destruct r; cbn; auto. Qed.
Lemma hok_ok {A} (Q : A -> Prop) (r : res A) a : hok Q r -> r = Ok a -> Q a.
Proof. intros R ->. exact R. Qed.
Lemma hok_of {A} (Q : A -> Prop) (r : res A) : (forall a, r = Ok a -> Q a) -> hok Q r.
Proof. destruct r; cbn; auto. Qed.
Lemma hok_impl {A} (P Q : A -> Prop) (r : res A) : hok P r -> (forall a, P a -> Q a) -> hok Q r.
Proof. destruct r; cbn; auto. Qed.

(** Results that contain nothing of interest. *)
Ltac ground :=
  repeat (cbv beta iota;
    first
    [ exact I
    | match goal with
      | |- hok _ (Ok _) => cbn [hok]
      | |- hok _ (Err _) => exact I
      | |- hok _ Panic => exact I
      | |- hok _ (bind _ _) => simple apply hok_any; intros ?
      | |- hok _ (match ?x with _ => _ end) => destruct x
      end ]).

(** ** The functions inside values *)
Section Values.
Context {G : group}.
Variables H sha : bytes -> bytes.
Variable fits : Z -> bool.
Variable avlv : avl_verifier.
Variable c : context G (chain_state G).
Notation value := (value G).
Notation env := (env G).
Notation expr := (expr G).

(** [P] holds of every function that the value contains. *)
Variable P : list (Z * stype) -> expr -> Prop.
Fixpoint vall (v : value) : Prop :=
  match v with
  | VColl _ l | VTup l => (fix go l := match l with [] => True | x :: l' => vall x /\ go l' end) l
  | VOpt (Some x) => vall x
  | VLambda a b => P a b
  | _ => True
  end.
Lemma vall_list l :
  (fix go (l : list value) := match l with [] => True | x :: l' => vall x /\ go l' end) l <-> Forall vall l.
Proof.
  induction l as [|x l IH]; [split; [constructor|trivial]|]. rewrite IH. split.
  - intros [A B]. now constructor.
  - intros F. inversion F. auto.
Qed.
Lemma vall_coll t l : vall (VColl t l) <-> Forall vall l. Proof. apply vall_list. Qed.
Lemma vall_tup l : vall (VTup l) <-> Forall vall l. Proof. apply vall_list. Qed.
Definition eall (e : env) : Prop := Forall (fun p => vall (snd p)) e.

Lemma lit_vall l : vall (value_of_lit H l).
Proof.
  pose (T := fun _ : lit G => True).
  assert (K : (forall l : lit G, vall (value_of_lit H l)) /\ (forall k : const G, True) /\ (forall x : expr, True) /\
              (forall t : tree G, True) /\ (forall r : regval G, True) /\ (forall d : cand G, True) /\ (forall b : box G, True)).
  { apply ir_ind; intros; try exact I.
    - cbn [value_of_lit]. apply vall_coll. apply Forall_map. exact H0.
    - cbn [value_of_lit]. destruct o as [x|]; [exact H0|exact I].
    - cbn [value_of_lit]. apply vall_tup. apply Forall_map. exact H0. }
  apply K.
Qed.
Lemma get_coll_vall v : vall v -> hok (fun p => Forall vall (snd p)) (get_coll v).
Proof.
  intros V. destruct v; cbn; try exact I.
  - apply Forall_map. apply Forall_forall. intros; exact I.
  - now apply vall_coll in V.
Qed.
Lemma from_vec_vall t l : Forall vall l -> hok vall (from_vec t l).
Proof. intros F. unfold from_vec. destruct t; cbn [hok]; try (now apply vall_coll). ground. Qed.
Lemma get_all_vall l : Forall vall l -> hok (Forall (Forall vall)) (get_all (get_vec (fun v => Ok v)) l).
Proof.
  assert (Id : forall l : list value, get_all (fun v => Ok v) l = Ok l).
  { clear. induction l as [|x l IH]; cbn; [reflexivity|now rewrite IH]. }
  induction 1 as [|v l V F IH]; cbn [get_all]; [constructor|].
  apply (hok_bind (Forall vall)).
  - destruct v; cbn [get_vec]; try exact I. rewrite Id. now apply vall_coll in V.
  - intros a A. apply (hok_bind (Forall (Forall vall))); [exact IH|]. intros r R. cbn. now constructor.
Qed.
Lemma from_vec_vec_vall t l : Forall vall l -> hok vall (from_vec_vec t l).
Proof.
  intros F. unfold from_vec_vec.
  destruct t; try (apply (hok_bind (Forall (Forall vall)));
    [now apply get_all_vall|intros a A; cbn [hok]; apply vall_coll; now apply Forall_concat]).
  ground.
Qed.
Lemma arg_vall args n : Forall vall args -> hok vall (arg args n).
Proof.
  intros F. unfold arg. destruct (nth_error args n) eqn:E; cbn; [|exact I].
  rewrite Forall_forall in F. apply F. now apply nth_error_In in E.
Qed.
Lemma znth_in {A} (l : list A) : forall i x, znth l i = Some x -> In x l.
Proof.
  induction l as [|y l IH]; cbn; [discriminate|]. intros i x. destruct (i =? 0); [intros [= ->]; auto|eauto].
Qed.
Lemma zset_forall {A} (Q : A -> Prop) (l : list A) v : Q v -> forall i r, Forall Q l -> zset l i v = Some r -> Forall Q r.
Proof.
  intros V. induction l as [|y l IH]; cbn; [discriminate|]. intros i r F E. inversion F; subst.
  destruct (i =? 0); [injection E as <-; now constructor|].
  destruct (zset l (i - 1) v) eqn:Z; [|discriminate]. injection E as <-. constructor; eauto.
Qed.
Lemma ztake_forall {A} (Q : A -> Prop) (l : list A) : forall n, Forall Q l -> Forall Q (ztake n l).
Proof.
  induction l as [|y l IH]; cbn; [constructor|]. intros n F. inversion F; subst. destruct (n <=? 0); constructor; auto.
Qed.
Lemma zskip_forall {A} (Q : A -> Prop) (l : list A) : forall n, Forall Q l -> Forall Q (zskip n l).
Proof.
  induction l as [|y l IH]; cbn; [constructor|]. intros n F. inversion F; subst. destruct (n <=? 0); auto.
Qed.

Lemma op1_vall k p v : vall v -> hok vall (op1 H sha k p v).
Proof.
  intros V. destruct k; try (cbn [op1]; ground; fail); cbn [op1].
  - unfold bit_inversion. apply hok_any. intros [k z]. destruct k; exact I.
  - unfold negation. apply hok_any. intros [k z]. apply hok_any. intros w. destruct k; exact I.
  - apply hok_any. intros b. destruct (creation_info (snd b)). cbn. auto.
  - destruct v; try exact I. destruct o; [exact V|exact I].
  - destruct p; try exact I. apply hok_any. intros b. apply hok_any. intros id. unfold reg_value.
    apply hok_any. intros [k|]; cbn [hok vall]; [apply lit_vall|exact I].
  - destruct p; try exact I. unfold upcast. ground.
  - destruct p; try exact I. unfold downcast, narrow. ground.
  - destruct p; try exact I. destruct v; try exact I. apply vall_tup in V.
    destruct (znth items (i - 1)) eqn:E; cbn; [|exact I]. apply znth_in in E. rewrite Forall_forall in V. auto.
Qed.
Lemma append_vall a b : vall a -> vall b -> hok vall (append a b).
Proof.
  intros A B. unfold append. apply (hok_bind _ _ _ _ (get_coll_vall a A)). intros [t x] X.
  apply (hok_bind _ _ _ _ (get_coll_vall b B)). intros [u y] Y. destruct (stype_eqb t u); [|exact I].
  apply from_vec_vall. now apply Forall_app.
Qed.
Lemma op2_vall k a b : vall a -> vall b -> hok vall (op2 k a b).
Proof.
  intros A B. destruct k; try exact I; cbn [op2].
  - unfold atleast. ground.
  - now apply append_vall.
  - destruct a; try exact I. destruct o; [exact A|exact B].
  - ground.
  - unfold exponentiate_v. ground.
  - ground.
Qed.
Lemma slice_vall v f u : vall v -> hok vall (slice v f u).
Proof.
  intros V. unfold slice. apply (hok_bind _ _ _ _ (get_coll_vall v V)). intros [t l] L.
  destruct (_ && _); apply from_vec_vall; [|constructor]. now apply ztake_forall, zskip_forall.
Qed.
Lemma op3_vall k a b x : vall a -> hok vall (op3 k a b x).
Proof.
  intros A. destruct k; try exact I; cbn [op3].
  - apply hok_any. intros q. apply hok_any. intros f. apply hok_any. intros u. now apply slice_vall.
  - unfold subst_constants. ground.
Qed.
Lemma combine_forall {A} (Q : A -> Prop) (x y : list A) : Forall Q x -> Forall Q y ->
  Forall (fun p => Q (fst p) /\ Q (snd p)) (combine x y).
Proof.
  intros X. revert y. induction X; intros y Y; cbn; [constructor|]. destruct Y; constructor; auto.
Qed.
Lemma combine_snd {A B} (Q : B -> Prop) (x : list A) (y : list B) : Forall Q y -> Forall (fun p => Q (snd p)) (combine x y).
Proof.
  intros Y. revert x. induction Y as [|b y Qb Y IH]; intros [|z w]; cbn; constructor; auto.
Qed.
Lemma update_all_vall us n : Forall (fun p => vall (snd p)) us -> forall l, Forall vall l -> hok (Forall vall) (update_all l n us).
Proof.
  induction 1 as [|[i v] us V F IH]; intros l L; cbn [update_all]; [exact L|].
  destruct (n <=? i); [exact I|]. destruct (zset l i v) eqn:E; [|exact I]. apply IH.
  eapply zset_forall; eauto.
Qed.
Lemma indices_vall l : forall i, hok (Forall vall) (indices_from i l).
Proof.
  induction l as [|x l IH]; intros i; cbn [indices_from]; [constructor|]. destruct (_ <? _); [|exact I].
  apply (hok_bind _ _ _ _ (IH (i + 1))). intros r R. cbn. constructor; [exact I|exact R].
Qed.
Lemma method_value_vall m o args : vall o -> Forall vall args -> hok vall (method_value H avlv c m o args).
Proof.
  intros O F. unfold method_value.
  repeat match goal with |- hok _ (if ?b then _ else _) => destruct b end; try exact I.
  - unfold avl_method, avl_modify, opt_bytes. apply hok_any. intros a.
    repeat match goal with |- hok _ (if ?b then _ else _) => destruct b; [try (ground; fail)|] end; ground;
      try match goal with |- vall (VOpt (match ?x with _ => _ end)) => destruct x; exact I end.
    apply vall_coll. apply Forall_map. apply Forall_forall. intros [y|] _; exact I.
  - unfold context_method. destruct o; try exact I.
    repeat match goal with |- hok _ (if ?b then _ else _) => destruct b; [try (ground; fail)|] end; ground;
      apply vall_coll; apply Forall_map; apply Forall_forall; intros; exact I.
  - unfold box_method.
    repeat match goal with |- hok _ (if ?b then _ else _) => destruct b end; try (ground; fail).
    + do 4 (apply hok_any; intros ?). unfold reg_value. apply hok_any. intros [k|]; cbn [hok vall]; [apply lit_vall|exact I].
    + apply hok_any. intros b. cbn [hok]. apply lit_vall.
  - unfold index_of. ground.
  - unfold zip_coll. apply (hok_bind _ _ _ _ (get_coll_vall o O)). intros [t x] X.
    apply (hok_bind _ _ _ _ (arg_vall args 0 F)). intros b B.
    apply (hok_bind _ _ _ _ (get_coll_vall b B)). intros [u y] Y. apply from_vec_vall.
    apply Forall_map. eapply Forall_impl; [|exact (combine_forall _ _ _ X Y)].
    intros [p q] [Q1 Q2]. cbn in *. auto.
  - unfold indices. apply hok_any. intros [t l].
    apply (hok_bind _ _ _ _ (indices_vall l 0)). intros r R. now apply from_vec_vall.
  - unfold patch. apply (hok_bind _ _ _ _ (get_coll_vall o O)). intros [t l] L.
    apply hok_any. intros f. apply (hok_bind _ _ _ _ (arg_vall args 1 F)). intros p Pp.
    apply hok_any. intros r. apply hok_any. intros f'. apply hok_any. intros r'.
    apply (hok_bind _ _ _ _ (get_coll_vall p Pp)). intros [u q] Q. cbv zeta. apply from_vec_vall.
    apply Forall_app. split; [now apply ztake_forall|]. apply Forall_app. split; [exact Q|now apply zskip_forall].
  - unfold updated. apply (hok_bind _ _ _ _ (get_coll_vall o O)). intros [t l] L.
    apply hok_any. intros i. apply (hok_bind _ _ _ _ (arg_vall args 1 F)). intros v V.
    apply hok_any. intros i'. destruct (zset l _ v) eqn:E; [|exact I]. apply from_vec_vall.
    eapply zset_forall; eauto.
  - unfold update_many. apply (hok_bind _ _ _ _ (get_coll_vall o O)). intros [t l] L.
    apply hok_any. intros is. apply (hok_bind _ _ _ _ (arg_vall args 1 F)). intros us U.
    apply (hok_bind _ _ _ _ (get_coll_vall us U)). intros [u us'] U'. apply hok_any. intros is'. cbv zeta.
    destruct (negb _); [exact I|]. destruct (negb _); [exact I|].
    eapply hok_bind; [apply update_all_vall; [|exact L]|intros r R; now apply from_vec_vall].
    now apply combine_snd.
  - unfold group_method. ground.
  - unfold header_method. ground.
  - unfold preheader_method. ground.
  - unfold global_method. ground.
Qed.

Lemma env_get_vall e i v : eall e -> env_get e i = Some v -> vall v.
Proof.
  induction 1 as [|[j w] e W F IH]; cbn; [discriminate|]. destruct (j =? i); [intros [= <-]; exact W|exact IH].
Qed.
Lemma env_remove_vall e i : eall e -> eall (env_remove e i).
Proof.
  unfold eall, env_remove. rewrite !Forall_forall. intros F x X. apply filter_In in X. apply F, X.
Qed.
Lemma env_insert_vall e i v : eall e -> vall v -> eall (env_insert e i v).
Proof. intros E V. constructor; [exact V|now apply env_remove_vall]. Qed.
Lemma remove_all_vall l : forall e, eall e -> eall (fold_left env_remove l e).
Proof. induction l; cbn; intros e E; [exact E|]. apply IHl. now apply env_remove_vall. Qed.
Lemma restore_vall e fresh saved : eall e -> eall saved -> eall (restore e fresh saved).
Proof.
  intros E S. unfold restore. induction S as [|[i v] s V S IH]; cbn [fold_right fst snd]; [now apply remove_all_vall|].
  now apply env_insert_vall.
Qed.
Lemma bind_var_vall i v e fresh saved : eall e -> eall saved -> vall v ->
  let '(e', _, s') := bind_var i v (e, fresh, saved) in eall e' /\ eall s'.
Proof.
  intros E S V. unfold bind_var. destruct (env_get e i) eqn:Q.
  - split; apply env_insert_vall; auto. exact (env_get_vall e i _ E Q).
  - split; [apply env_insert_vall|]; auto.
Qed.
End Values.
