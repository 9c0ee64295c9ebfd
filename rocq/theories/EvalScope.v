(** The environment after evaluation: when no identifier is bound twice in one
    block or parameter list, evaluation gives back the environment it was given. *)
From Verif Require Import Base VlqModel IntBytes GroupModel SigmaModel BigIntModel TypeModel
  MethodModel IrModel SerModel ChainModel HeaderModel TxModel EqModel PrintModel EvalModel TypeProofs EqProofs EvalProofs.
Local Open Scope list_scope.
Local Open Scope Z_scope.

Section Sub.
Context {G : group}.
(** [Q] holds of the expression and of every expression inside it. *)
Variable Q : expr G -> Prop.
Fixpoint all_sub (x : expr G) : Prop :=
  let each := fix go l := match l with [] => True | y :: l' => all_sub y /\ go l' end in
  Q x /\
  match x with
  | EConst _ | EPlaceholder _ _ | EBools _ | EValUse _ _ => True
  | EOp _ _ l d => each l /\ match d with Some y => all_sub y | None => True end
  | EBin _ a b => all_sub a /\ all_sub b
  | ESeq _ l => each l
  | EFunc _ b => all_sub b
  | EValDef _ r => all_sub r
  | EBlock l r => each l /\ all_sub r
  | EApply f l => all_sub f /\ each l
  | EMethod _ o l => all_sub o /\ each l
  | EProp _ o => all_sub o
  end.
Lemma each_sub l : (fix go (l : list (expr G)) := match l with [] => True | y :: l' => all_sub y /\ go l' end) l <-> Forall all_sub l.
Proof.
  induction l as [|x l IH]; [split; [constructor|trivial]|]. rewrite IH. split.
  - intros [A B]. now constructor.
  - intros F. inversion F. auto.
Qed.
Lemma sub_op k p l d : all_sub (EOp k p l d) -> Forall all_sub l /\ oall all_sub d.
Proof. intros [_ [A B]]. apply each_sub in A. auto. Qed.
Lemma sub_seq q l : all_sub (ESeq q l) -> Forall all_sub l.
Proof. intros [_ A]. now apply each_sub in A. Qed.
Lemma sub_block l r : all_sub (EBlock l r) -> Forall all_sub l /\ all_sub r.
Proof. intros [_ [A B]]. apply each_sub in A. auto. Qed.
Lemma sub_apply f l : all_sub (EApply f l) -> all_sub f /\ Forall all_sub l.
Proof. intros [_ [A B]]. apply each_sub in B. auto. Qed.
Lemma sub_method m f l : all_sub (EMethod m f l) -> all_sub f /\ Forall all_sub l.
Proof. intros [_ [A B]]. apply each_sub in B. auto. Qed.
End Sub.

Section Scope.
Context {G : group}.
Variables H sha : bytes -> bytes.
Variable fits : Z -> bool.
Variable avlv : avl_verifier.
Variable c : context G (chain_state G).
Notation value := (value G).
Notation env := (env G).
Notation expr := (expr G).

Definition def_ids (items : list expr) : list Z :=
  List.concat (map (fun x => match x with EValDef i _ => [i] | _ => [] end) items).
(** No identifier is bound twice by the definitions of a block or the parameters of
    a function. *)
Definition tidy (x : expr) : Prop :=
  match x with
  | EBlock items _ => NoDup (def_ids items)
  | EFunc args _ => NoDup (map fst args)
  | _ => True
  end.
Definition tidy_fun (args : list (Z * stype)) (body : expr) : Prop :=
  NoDup (map fst args) /\ all_sub tidy body.
(** The scripts that deserialization nodes can read are tidy as well. *)
Definition scripts_tidy : Prop :=
  (forall id k b x, ext_get (c_ext c) id = Some k -> script_const k = Ok b -> from_bytes parse_expr b = Ok x ->
     all_sub tidy x) /\
  (forall id k b x, get_register (snd (c_self c)) id = Ok (Some k) -> script_const k = Ok b ->
     from_bytes parse_expr b = Ok x -> all_sub tidy x).

(** The same bindings. *)
Definition same (e e' : env) : Prop := forall i, env_get e i = env_get e' i.
Definition bound (e : env) : Prop := exists i v, env_get e i = Some v.
Lemma same_refl e : same e e. Proof. now intros i. Qed.
Lemma same_trans a b d : same a b -> same b d -> same a d.
Proof. intros X Y i. now rewrite X. Qed.
Lemma same_bound e e' : same e e' -> bound e -> bound e'.
Proof. intros S (i & v & E). exists i, v. now rewrite <- S. Qed.
Lemma bound_not_empty e : bound e -> env_is_empty e = false.
Proof. intros (i & v & E). destruct e; [discriminate E|reflexivity]. Qed.

Lemma get_remove (e : env) i j : env_get (env_remove e i) j = if i =? j then None else env_get e j.
Proof.
  induction e as [|[k v] e IH]; [cbn; now destruct (i =? j)|].
  change (env_remove ((k, v) :: e) i) with (if negb (k =? i) then (k, v) :: env_remove e i else env_remove e i).
  cbn [env_get]. destruct (k =? i) eqn:K; cbn [negb].
  - rewrite IH. apply Z.eqb_eq in K. subst k. destruct (i =? j); reflexivity.
  - cbn [env_get]. rewrite IH. destruct (k =? j) eqn:J; [|reflexivity].
    apply Z.eqb_eq in J. subst k. rewrite Z.eqb_sym in K. now rewrite K.
Qed.
Lemma get_insert (e : env) i v j : env_get (env_insert e i v) j = if i =? j then Some v else env_get e j.
Proof. cbn [env_insert env_get]. rewrite get_remove. now destruct (i =? j). Qed.
Lemma get_remove_all l : forall (e : env) j, env_get (fold_left env_remove l e) j =
  if existsb (Z.eqb j) l then None else env_get e j.
Proof.
  induction l as [|i l IH]; intros e j; cbn [fold_left existsb]; [reflexivity|].
  rewrite IH, get_remove. rewrite (Z.eqb_sym j i). destruct (i =? j); cbn [orb]; [now destruct (existsb _ l)|reflexivity].
Qed.
Lemma get_restore (e : env) fresh saved j : env_get (restore e fresh saved) j =
  match env_get saved j with
  | Some v => Some v
  | None => if existsb (Z.eqb j) fresh then None else env_get e j
  end.
Proof.
  unfold restore. induction saved as [|[i v] s IH]; cbn [fold_right fst snd]; [apply get_remove_all|].
  rewrite get_insert. cbn [env_get]. destruct (i =? j); [reflexivity|exact IH].
Qed.

(** The state of a block or call: [B] lists what it has bound so far. *)
Definition frame (e0 : env) (B : list Z) (s : env * list Z * env) : Prop :=
  let '(e, fresh, saved) := s in
  (forall i, ~ In i B -> env_get e i = env_get e0 i /\ env_get saved i = None /\ ~ In i fresh) /\
  (forall i, In i B -> env_get saved i = env_get e0 i /\ (env_get e0 i = None -> In i fresh)).
Lemma frame_start e : frame e [] (e, [], []).
Proof. split; [intros i _; cbn; auto|intros i []]. Qed.
Lemma frame_env e0 B e e' fresh saved : same e e' -> frame e0 B (e, fresh, saved) -> frame e0 B (e', fresh, saved).
Proof. intros S [F1 F2]. split; [|exact F2]. intros i I. rewrite <- S. now apply F1. Qed.
Lemma frame_bind e0 B s j v : ~ In j B -> frame e0 B s -> frame e0 (j :: B) (bind_var j v s).
Proof.
  destruct s as [[e fresh] saved]. intros J [F1 F2]. unfold bind_var.
  destruct (F1 j J) as (Ej & Sj & Fj). destruct (env_get e j) as [old|] eqn:O.
  - split.
    + intros i I. assert (j <> i /\ ~ In i B) as [N I'] by (cbn in I; tauto).
      rewrite !get_insert. apply Z.eqb_neq in N. rewrite N. now apply F1.
    + intros i I. rewrite get_insert. destruct (j =? i) eqn:Q.
      * apply Z.eqb_eq in Q. subst i. rewrite <- Ej. split; [reflexivity|discriminate].
      * apply F2. destruct I as [->|I]; [rewrite Z.eqb_refl in Q; discriminate|exact I].
  - split.
    + intros i I. assert (j <> i /\ ~ In i B) as [N I'] by (cbn in I; tauto).
      rewrite !get_insert. pose proof N as N'. apply Z.eqb_neq in N. rewrite N. destruct (F1 i I') as (A1 & A2 & A3).
      split; [exact A1|]. split; [exact A2|]. rewrite in_app_iff. cbn. intuition.
    + intros i I. destruct (Z.eq_dec j i) as [->|N].
      * rewrite Sj, <- Ej. split; [reflexivity|]. intros _. apply in_or_app. right. now left.
      * destruct I as [->|I]; [congruence|]. destruct (F2 i I) as [A1 A2]. split; [exact A1|].
        intros A. apply in_or_app. left. auto.
Qed.
Lemma frame_end e0 B e fresh saved : frame e0 B (e, fresh, saved) -> same e0 (restore e fresh saved).
Proof.
  intros [F1 F2] j. rewrite get_restore. destruct (in_dec Z.eq_dec j B) as [I|I].
  - destruct (F2 j I) as [A1 A2]. rewrite A1. destruct (env_get e0 j) eqn:E; [reflexivity|].
    specialize (A2 eq_refl). assert (existsb (Z.eqb j) fresh = true) as ->; [|reflexivity].
    apply existsb_exists. exists j. split; [exact A2|apply Z.eqb_refl].
  - destruct (F1 j I) as (A1 & A2 & A3). rewrite A2.
    assert (existsb (Z.eqb j) fresh = false) as ->; [|now symmetry].
    apply not_true_is_false. intros X. apply existsb_exists in X as (k & K & Q). apply Z.eqb_eq in Q. now subst k.
Qed.

Notation vall := (vall tidy_fun).
Notation eall := (eall tidy_fun).
Hypothesis Scripts : scripts_tidy.

Definition good {A} (R : A -> Prop) (e : env) (p : A * env) : Prop :=
  R (fst p) /\ eall (snd p) /\ same e (snd p).

Section Step.
Variable rec : expr -> env -> res (value * env).
Hypothesis Rec : forall x e, all_sub tidy x -> eall e -> bound e -> hok (good vall e) (rec x e).

Lemma good_trans {A} (R : A -> Prop) e e' p : same e e' -> good R e' p -> good R e p.
Proof. intros S (X & Y & Z). split; [exact X|]. split; [exact Y|eapply same_trans; eauto]. Qed.

(** Sequencing. *)
Lemma step_bind {A B} (R : A -> Prop) (T : B -> Prop) e r (k : A * env -> res (B * env)) :
  bound e -> hok (good R e) r ->
  (forall a e', R a -> eall e' -> bound e' -> hok (good T e') (k (a, e'))) ->
  hok (good T e) (bind r k).
Proof.
  intros Be Hr K. apply (hok_bind _ _ _ _ Hr). intros [a e'] (X & Y & Z). cbn [fst snd] in *.
  pose proof (K a e' X Y (same_bound _ _ Z Be)) as Q. eapply hok_impl; [exact Q|].
  intros p Pp. eapply good_trans; eauto.
Qed.
Lemma step_ret {A} (R : A -> Prop) e (r : res A) : eall e -> hok R r -> hok (good R e) (v <- r ;; Ok (v, e)).
Proof.
  intros E Hr. apply (hok_bind _ _ _ _ Hr). intros a Ra. cbn. split; [exact Ra|]. split; [exact E|apply same_refl].
Qed.
Lemma ret {A} (R : A -> Prop) e (a : A) : eall e -> R a -> hok (good R e) (Ok (a, e)).
Proof. intros E Ra. cbn. split; [exact Ra|]. split; [exact E|apply same_refl]. Qed.

Lemma eval_list_good l : Forall (all_sub tidy) l -> forall e, eall e -> bound e ->
  hok (good (Forall vall) e) (eval_list rec l e).
Proof.
  induction 1 as [|x l X F IH]; intros e E Be; cbn [eval_list]; [apply ret; auto|].
  eapply step_bind; [exact Be|apply Rec; auto|]. intros v e1 V E1 B1. cbv beta iota.
  eapply step_bind; [exact B1|apply IH; auto|]. intros vs e2 VS E2 B2. cbv beta iota. apply ret; auto.
Qed.
Lemma call1_good f v e : vall f -> vall v -> eall e -> hok (good vall e) (call1 rec f v e).
Proof.
  intros F V E. unfold call1. destruct f; try exact I. destruct args as [|[i t] args]; [exact I|].
  destruct F as [ND Sb].
  assert (Ei : eall (env_insert e i v)) by (apply env_insert_vall; assumption).
  assert (Bi : bound (env_insert e i v)) by (exists i, v; rewrite get_insert, Z.eqb_refl; reflexivity).
  apply (hok_bind _ _ _ _ (Rec body _ Sb Ei Bi)). intros [r e'] (X & Y & Z). cbn [fst snd hok] in *.
  destruct (env_get e i) as [old|] eqn:O; cbn [hok].
  - split; [exact X|]. cbn [snd fst]. split.
    + apply env_insert_vall; [exact Y|]. eapply env_get_vall; [exact E|exact O].
    + intros j. rewrite get_insert, <- Z, get_insert. destruct (i =? j) eqn:Q; [|reflexivity].
      apply Z.eqb_eq in Q. now subst j.
  - split; [exact X|]. cbn [snd fst]. split; [now apply env_remove_vall|].
    intros j. rewrite get_remove, <- Z, get_insert. destruct (i =? j) eqn:Q; [|reflexivity].
    apply Z.eqb_eq in Q. now subst j.
Qed.
Ltac call := eapply step_bind; [eassumption|apply call1_good; assumption|]; intros ? ? ? ? ?; cbv beta iota.
Lemma map_loop_good f l : vall f -> Forall vall l -> forall e, eall e -> bound e ->
  hok (good (Forall vall) e) (map_loop rec f l e).
Proof.
  intros F. induction 1 as [|x l X L IH]; intros e E Be; cbn [map_loop]; [apply ret; auto|].
  call. eapply step_bind; [eassumption|apply IH; auto|]. intros vs e2 VS E2 B2. cbv beta iota. apply ret; auto.
Qed.
Lemma filter_loop_good f l : vall f -> Forall vall l -> forall e, eall e -> bound e ->
  hok (good (Forall vall) e) (filter_loop rec f l e).
Proof.
  intros F. induction 1 as [|x l X L IH]; intros e E Be; cbn [filter_loop]; [apply ret; auto|].
  call. apply hok_any. intros b.
  eapply step_bind; [eassumption|apply IH; auto|]. intros vs e2 VS E2 B2. cbv beta iota. apply ret; [exact E2|].
  destruct b; auto.
Qed.
Lemma exists_loop_good f l : vall f -> Forall vall l -> forall e, eall e -> bound e ->
  hok (good (fun _ => True) e) (exists_loop rec f l e).
Proof.
  intros F. induction 1 as [|x l X L IH]; intros e E Be; cbn [exists_loop]; [apply ret; auto|].
  call. apply hok_any. intros b. destruct b; [apply ret; auto|apply IH; auto].
Qed.
Lemma forall_loop_good f l : vall f -> Forall vall l -> forall e, eall e -> bound e ->
  hok (good (fun _ => True) e) (forall_loop rec f l e).
Proof.
  intros F. induction 1 as [|x l X L IH]; intros e E Be; cbn [forall_loop]; [apply ret; auto|].
  call. apply hok_any. intros b. destruct b; [apply IH; auto|apply ret; auto].
Qed.
Lemma fold_loop_good f l : vall f -> Forall vall l -> forall acc e, vall acc -> eall e -> bound e ->
  hok (good vall e) (fold_loop rec f acc l e).
Proof.
  intros F. induction 1 as [|x l X L IH]; intros acc e A E Be; cbn [fold_loop]; [apply ret; auto|].
  eapply step_bind; [exact Be|apply call1_good; auto|].
  - apply vall_tup. repeat constructor; auto.
  - intros v e1 V E1 B1. cbv beta iota. apply IH; auto.
Qed.
Lemma typed_items_good t v : vall v -> hok (Forall vall) (typed_items t v).
Proof.
  intros V. unfold typed_items. apply (hok_bind _ _ _ _ (get_coll_vall tidy_fun v V)). intros [u l] L.
  destruct (stype_eqb u t); [exact L|exact I].
Qed.
Ltac ev := eapply step_bind; [eassumption|apply Rec; assumption|]; intros ? ? ? ? ?; cbv beta iota.
Lemma eval_lambda_op_good k a f e : all_sub tidy a -> all_sub tidy f -> eall e -> bound e ->
  hok (good vall e) (eval_lambda_op rec k a f e).
Proof.
  intros A F E Be. unfold eval_lambda_op. ev. ev. destruct k; try exact I.
  - apply hok_any. intros t. apply (hok_bind _ _ _ _ (typed_items_good t _ H0)). intros l L.
    eapply step_bind; [eassumption|apply exists_loop_good; auto|]. intros b e3 _ E3 B3. cbv beta iota. apply ret; [exact E3|exact I].
  - apply hok_any. intros t. apply (hok_bind _ _ _ _ (typed_items_good t _ H0)). intros l L.
    eapply step_bind; [eassumption|apply forall_loop_good; auto|]. intros b e3 _ E3 B3. cbv beta iota. apply ret; [exact E3|exact I].
  - apply hok_any. intros t. apply (hok_bind _ _ _ _ (typed_items_good t _ H0)). intros l L.
    eapply step_bind; [eassumption|apply filter_loop_good; auto|]. intros vs e3 VS E3 B3. cbv beta iota.
    apply step_ret; [exact E3|now apply from_vec_vall].
  - destruct (tpe f); try exact I.
    match goal with |- hok _ (match ?d with [] => _ | _ => _ end) => destruct d as [|t ?]; [exact I|] end.
    apply (hok_bind _ _ _ _ (typed_items_good t _ H0)). intros l L.
    eapply step_bind; [eassumption|apply map_loop_good; auto|]. intros vs e3 VS E3 B3. cbv beta iota.
    apply step_ret; [exact E3|now apply from_vec_vall].
Qed.
Lemma eval_method_good m o args e : vall o -> Forall vall args -> eall e -> bound e ->
  hok (good vall e) (eval_method H avlv c rec m o args e).
Proof.
  intros O F E Be. unfold eval_method. destruct (_ && _).
  - unfold flat_map. apply (hok_bind _ _ _ _ (arg_vall tidy_fun args 0 F)). intros f Vf.
    destruct f as [| | | | | | | | | | | | | | |fargs body| | | |]; try exact I.
    destruct (1 <? Zlen fargs); [exact I|]. destruct (negb _); [exact I|]. destruct fargs as [|[i t] fargs]; [exact I|].
    apply (hok_bind _ _ _ _ (typed_items_good t _ O)). intros l L.
    eapply step_bind; [eassumption|apply map_loop_good; auto|]. intros vs e3 VS E3 B3. cbv beta iota.
    apply step_ret; [exact E3|now apply from_vec_vec_vall].
  - destruct (_ && _).
    + unfold option_map_m. apply (hok_bind _ _ _ _ (arg_vall tidy_fun args 0 F)). intros f Vf.
      destruct f; try exact I. destruct o; try exact I. destruct o as [x|]; [|apply ret; auto].
      call. apply ret; [assumption|]. assumption.
    + destruct (_ && _).
      * unfold option_filter_m. apply (hok_bind _ _ _ _ (arg_vall tidy_fun args 0 F)). intros f Vf.
        destruct f; try exact I. destruct o; try exact I. destruct o as [x|]; [|apply ret; auto].
        call. apply hok_any. intros b. apply ret; [assumption|]. destruct b; [exact O|exact I].
      * apply step_ret; [exact E|now apply method_value_vall].
Qed.
Lemma eval_bin_good k l r e : all_sub tidy l -> all_sub tidy r -> eall e -> bound e ->
  hok (good vall e) (eval_bin fits rec k l r e).
Proof.
  intros L R E Be. unfold eval_bin. ev. rename a into lv.
  assert (AR : hok (good vall e')
    ('(n, a) <- of_option "numeric" (num_of lv) ;; '(rv, e1) <- rec r e' ;; b <- get_num n rv ;;
     z <- of_option "ArithmeticException" (arith fits k n a b) ;; Ok (mk_num n z, e1))).
  { apply hok_any. intros [n a]. ev. do 2 (apply hok_any; intros ?). apply ret; [assumption|destruct n; exact I]. }
  assert (CR : forall g : Z -> Z -> bool, hok (good vall e')
    ('(rv, e1) <- rec r e' ;; '(n, a) <- of_option "numeric" (num_of lv) ;; b <- get_num n rv ;;
     Ok (VBool (g a b), e1))).
  { intros g. ev. apply hok_any. intros [n a']. apply hok_any. intros ?. apply ret; [assumption|exact I]. }
  destruct k; try exact AR; try apply (CR (compare_op _)).
  - ev. apply ret; [assumption|exact I].
  - ev. apply ret; [assumption|exact I].
  - apply hok_any. intros [|]; [ev; apply hok_any; intros ?; apply ret; [assumption|exact I]|apply ret; [assumption|exact I]].
  - apply hok_any. intros [|]; [apply ret; [assumption|exact I]|ev; apply hok_any; intros ?; apply ret; [assumption|exact I]].
  - apply hok_any. intros a. ev. apply hok_any. intros ?. apply ret; [assumption|exact I].
Qed.
Lemma block_nested_good items : Forall (all_sub tidy) items -> forall e0 B e fresh saved,
  NoDup (def_ids items) -> (forall i, In i B -> ~ In i (def_ids items)) ->
  frame e0 B (e, fresh, saved) -> eall e -> eall saved -> bound e ->
  hok (fun s => exists B', frame e0 B' s /\ eall (fst (fst s)) /\ eall (snd s) /\ bound (fst (fst s)))
      (block_nested rec items (e, fresh, saved)).
Proof.
  induction 1 as [|x items X F IH]; intros e0 B e fresh saved ND Dis Fr E Sv Be; cbn [block_nested].
  { cbn. eauto. }
  destruct x as [| | | | | | |i rhs| | | | |]; try exact I.
  assert (XR : all_sub tidy rhs) by apply X.
  change (def_ids (EValDef i rhs :: items)) with (i :: def_ids items) in *.
  apply (hok_bind _ _ _ _ (Rec rhs e XR E Be)). intros [v e'] (V & E' & S'). cbn [fst snd] in *.
  assert (NB : ~ In i B) by (intros Q; apply (Dis i Q); now left).
  inversion ND as [|? ? NI ND']; subst.
  pose proof (frame_bind e0 B (e', fresh, saved) i v NB (frame_env _ _ _ _ _ _ S' Fr)) as Fr'.
  pose proof (bind_var_vall tidy_fun i v e' fresh saved E' Sv V) as W.
  assert (BB : bound (fst (fst (bind_var i v (e', fresh, saved))))).
  { exists i, v. unfold bind_var. destruct (env_get e' i); cbn [fst]; rewrite get_insert, Z.eqb_refl; reflexivity. }
  destruct (bind_var i v (e', fresh, saved)) as [[e2 fresh2] saved2]. destruct W as [W1 W2]. cbn [fst] in BB.
  apply (IH e0 (i :: B)); auto. intros j [<-|J]; [exact NI|]. intros Q. apply (Dis j J). now right.
Qed.
Lemma eval_block_good items r e : Forall (all_sub tidy) items -> all_sub tidy r -> NoDup (def_ids items) ->
  eall e -> bound e -> hok (good vall e) (eval_block rec items r e).
Proof.
  intros F R ND E Be. unfold eval_block. rewrite (bound_not_empty e Be).
  eapply hok_bind.
  - apply (block_nested_good items F e [] e [] []); auto using frame_start. constructor.
  - intros [[e1 fresh] saved] (B & Fr & E1 & Sv & B1). cbn [fst snd] in *.
    apply (hok_bind _ _ _ _ (Rec r e1 R E1 B1)). intros [v e2] (V & E2 & S2). cbn [fst snd hok] in *.
    split; [exact V|]. split; [cbn [snd]; now apply restore_vall|]. cbn [snd].
    eapply frame_end. eapply frame_env; [exact S2|exact Fr].
Qed.
Lemma bind_args_good e0 : forall params vs B e fresh saved,
  NoDup params -> (forall i, In i B -> ~ In i params) -> Forall vall vs ->
  frame e0 B (e, fresh, saved) -> eall e -> eall saved -> bound e ->
  let s := fold_left (fun s p => bind_var (fst p) (snd p) s) (combine params vs) (e, fresh, saved) in
  exists B', frame e0 B' s /\ eall (fst (fst s)) /\ eall (snd s) /\ bound (fst (fst s)).
Proof.
  induction params as [|i params IH]; intros vs B e fresh saved ND Dis F Fr E Sv Be; cbn [combine fold_left].
  { exists B. auto. }
  destruct vs as [|v vs]; cbn [fold_left]; [exists B; auto|].
  inversion ND as [|? ? NI ND']; subst. inversion F as [|? ? V F']; subst. cbn [fst snd].
  assert (NB : ~ In i B) by (intros Q; apply (Dis i Q); now left).
  pose proof (frame_bind e0 B (e, fresh, saved) i v NB Fr) as Fr'.
  pose proof (bind_var_vall tidy_fun i v e fresh saved E Sv V) as W.
  assert (BB : bound (fst (fst (bind_var i v (e, fresh, saved))))).
  { exists i, v. unfold bind_var. destruct (env_get e i); cbn [fst]; rewrite get_insert, Z.eqb_refl; reflexivity. }
  destruct (bind_var i v (e, fresh, saved)) as [[e2 fresh2] saved2]. destruct W as [W1 W2]. cbn [fst] in BB.
  apply (IH vs (i :: B)); auto. intros j [<-|J]; [exact NI|]. intros Q. apply (Dis j J). now right.
Qed.
Lemma eval_apply_good f args e : all_sub tidy f -> Forall (all_sub tidy) args -> eall e -> bound e ->
  hok (good vall e) (eval_apply rec f args e).
Proof.
  intros F A E Be. unfold eval_apply. ev. rename a into fv.
  eapply step_bind; [eassumption|apply eval_list_good; assumption|]. intros vs e2 VS E2 B2. cbv beta iota.
  destruct fv as [| | | | | | | | | | | | | | |params body| | | |]; try exact I. destruct H0 as [ND Sb].
  destruct (bind_args_good e2 (map fst params) vs [] e2 [] []) as (B & Fr & E3 & Sv & B3); auto using frame_start.
  { constructor. }
  destruct (fold_left _ _ _) as [[e3 fresh] saved]. cbn [fst snd] in *.
  apply (hok_bind _ _ _ _ (Rec body e3 Sb E3 B3)). intros [v e4] (V & E4 & S4). cbn [fst snd hok] in *.
  split; [exact V|]. split; [cbn [snd]; now apply restore_vall|]. cbn [snd].
  eapply frame_end. eapply frame_env; [exact S4|exact Fr].
Qed.
Lemma eval_as_good {A} (f : value -> res A) x e : all_sub tidy x -> eall e -> bound e ->
  hok (good (fun _ => True) e) (eval_as rec f x e).
Proof. intros X E Be. unfold eval_as. ev. apply hok_any. intros ?. apply ret; auto. Qed.
Ltac ea := eapply step_bind; [eassumption|apply eval_as_good; assumption|]; intros ? ? _ ? ?; cbv beta iota.
Lemma eval_shape_good s e : shape_all (all_sub tidy) s -> eall e -> bound e ->
  hok (good vall e) (eval_shape H sha avlv c rec s e).
Proof.
  intros S E Be. destruct s; cbn [eval_shape]; cbn [shape_all] in S.
  - unfold eval_deser_context. destruct (ext_get (c_ext c) id) as [k|] eqn:K; [|exact I].
    destruct (script_const k) as [b| |] eqn:Sc; try exact I. cbn [bind].
    destruct (from_bytes parse_expr b) as [x| |] eqn:Px; try exact I. cbn [bind].
    destruct (stype_eqb (tpe x) t); [|exact I]. apply Rec; auto. eapply (proj1 Scripts); eauto.
  - unfold eval_deser_register. apply hok_any. intros id.
    assert (D : hok (good vall e) (eval_default rec t d e)).
    { unfold eval_default. destruct d as [y|]; [|exact I]. destruct (stype_eqb _ _); [|exact I]. apply Rec; auto. }
    destruct (get_register (snd (c_self c)) id) as [[k|]| |] eqn:K; auto; [|exact I].
    destruct (script_const k) as [b| |] eqn:Sc; try exact I. cbn [bind].
    destruct (from_bytes parse_expr b) as [x| |] eqn:Px; try exact I. cbn [bind].
    destruct (stype_eqb (tpe x) t); [|destruct (pretty_print x); exact I]. apply Rec; auto. eapply (proj2 Scripts); eauto.
  - destruct S as (S1 & S2 & S3). unfold eval_if. ev. apply hok_any. intros [|]; apply Rec; auto.
  - destruct S as (S1 & S2 & S3). unfold eval_fold. ev. ev. ev.
    apply (hok_bind _ _ _ _ (get_coll_vall tidy_fun _ H0)). intros [u l] L. apply fold_loop_good; auto.
  - destruct S as (S1 & S2 & S3). unfold eval_by_index. ev. ev.
    apply (hok_bind _ _ _ _ (get_coll_vall tidy_fun _ H0)). intros [u l] L. cbn [snd] in L.
    eapply (step_bind (oall vall)); [eassumption| |].
    + destruct d as [y|]; [|apply ret; [assumption|exact I]]. ev. apply ret; assumption.
    + intros o e3 O E3 B3. cbv beta iota. apply hok_any. intros n. apply step_ret; [exact E3|].
      unfold by_index. destruct (znth l (as_usize n)) eqn:Z.
      * cbn. apply znth_in in Z. rewrite Forall_forall in L. auto.
      * destruct o; [exact O|exact I].
  - destruct S as (S1 & S2 & S3). unfold eval_tree_lookup. ea. ea. ea. apply hok_any. intros [r|]; apply ret; auto; exact I.
  - destruct S as (S1 & S2 & S3 & S4). unfold eval_create_avl. ea. ea. ea.
    eapply (step_bind (fun _ => True)); [eassumption| |].
    + destruct d as [y|]; [|apply ret; auto]. ea. apply ret; auto.
    + intros o e4 _ E4 B4. cbv beta iota. apply hok_any. intros dg. apply ret; [exact E4|exact I].
  - destruct S as (S1 & S2 & S3 & S4). unfold eval_dh_tuple. ea. ea. ea. ea. apply ret; [assumption|exact I].
  - destruct S. now apply eval_lambda_op_good.
  - apply step_ret; [exact E|]. destruct k; cbn [op0]; ground;
      try (apply vall_coll; apply Forall_map; apply Forall_forall; intros; exact I).
    cbn [vall]. apply lit_vall.
  - ev. apply step_ret; [assumption|now apply op1_vall].
  - destruct S. ev. ev. apply step_ret; [assumption|now apply op2_vall].
  - destruct S as (S1 & S2 & S3). ev. ev. ev. apply step_ret; [assumption|now apply op3_vall].
  - exact I.
Qed.
Lemma eval_step_good x e : all_sub tidy x -> eall e -> bound e ->
  hok (good vall e) (eval_step H sha fits avlv c rec x e).
Proof.
  intros X E Be. destruct x; cbn [eval_step].
  - apply ret; [exact E|apply lit_vall].
  - exact I.
  - rewrite eval_op_shape. apply sub_op in X as [X1 X2]. apply eval_shape_good; auto. now apply shape_of_all.
  - destruct X as (_ & X1 & X2). now apply eval_bin_good.
  - apply ret; [exact E|]. apply vall_coll. apply Forall_map. apply Forall_forall. intros; exact I.
  - apply sub_seq in X. eapply step_bind; [eassumption|apply eval_list_good; assumption|].
    intros vs e2 VS E2 B2. cbv beta iota. apply step_ret; [exact E2|].
    destruct q; cbn [seq_value]; ground; [now apply vall_tup|now apply from_vec_vall].
  - apply ret; [exact E|]. split; [apply X|]. apply X.
  - exact I.
  - apply step_ret; [exact E|]. destruct (env_get e id) eqn:Q; [|exact I]. cbn. eapply env_get_vall; [exact E|exact Q].
  - pose proof X as [T _]. apply sub_block in X as [X1 X2]. now apply eval_block_good.
  - apply sub_apply in X as [X1 X2]. now apply eval_apply_good.
  - apply sub_method in X as [X1 X2]. ev. eapply step_bind; [eassumption|apply eval_list_good; assumption|].
    intros vs e2 VS E2 B2. cbv beta iota. now apply eval_method_good.
  - destruct X as [_ X]. ev. now apply eval_method_good.
Qed.
End Step.

Lemma eval_good n : forall x e, all_sub tidy x -> eall e -> bound e -> hok (good vall e) (eval H sha fits avlv c n x e).
Proof.
  induction n as [|n IH]; intros x e X E Be; [exact I|]. cbn [EvalModel.eval]. now apply eval_step_good.
Qed.
End Scope.
