(** Evaluation depends on the bindings of the environment only, not on how they
    are stored. *)
From Verif Require Import Base VlqModel IntBytes GroupModel SigmaModel BigIntModel TypeModel
  MethodModel IrModel SerModel ChainModel HeaderModel TxModel EqModel PrintModel EvalModel TypeProofs EqProofs EvalProofs
  EvalScope.
Local Open Scope list_scope.
Local Open Scope Z_scope.

Section Same.
Context {G : group}.
Variables H sha : bytes -> bytes.
Variable fits : Z -> bool.
Variable avlv : avl_verifier.
Variable c : context G (chain_state G).
Notation value := (value G).
Notation env := (env G).
Notation expr := (expr G).

Definition rsim {A} (r s : res (A * env)) : Prop :=
  match r, s with
  | Ok (a, e), Ok (b, f) => a = b /\ same e f
  | Err x, Err y => x = y
  | Panic, Panic => True
  | _, _ => False
  end.
Lemma rsim_bind {A B} (r s : res (A * env)) (k l : A * env -> res (B * env)) :
  rsim r s -> (forall a e f, same e f -> rsim (k (a, e)) (l (a, f))) -> rsim (bind r k) (bind s l).
Proof.
  destruct r as [[a e]| |], s as [[b f]| |]; cbn; try tauto.
  intros [<- S] K. auto.
Qed.
Lemma rsim_pure {A B} (r : res A) (k l : A -> res (B * env)) :
  (forall a, rsim (k a) (l a)) -> rsim (bind r k) (bind r l).
Proof. destruct r; cbn; auto. Qed.
Lemma rsim_ret {A} (a : A) e f : same e f -> rsim (Ok (a, e)) (Ok (a, f)).
Proof. cbn. auto. Qed.

Lemma same_insert (e f : env) i v : same e f -> same (env_insert e i v) (env_insert f i v).
Proof. intros S j. rewrite !get_insert, S. reflexivity. Qed.
Lemma same_remove (e f : env) i : same e f -> same (env_remove e i) (env_remove f i).
Proof. intros S j. rewrite !get_remove, S. reflexivity. Qed.
Lemma same_empty (e f : env) : same e f -> env_is_empty e = env_is_empty f.
Proof.
  intros S. destruct e as [|[i v] e], f as [|[j w] f]; try reflexivity; exfalso.
  - specialize (S j). cbn in S. rewrite Z.eqb_refl in S. discriminate.
  - specialize (S i). cbn in S. rewrite Z.eqb_refl in S. discriminate.
Qed.
Lemma same_restore (e f : env) fresh saved saved' : same e f -> same saved saved' ->
  same (restore e fresh saved) (restore f fresh saved').
Proof. intros S T j. now rewrite !get_restore, S, T. Qed.

Definition ssim (s t : env * list Z * env) : Prop :=
  same (fst (fst s)) (fst (fst t)) /\ snd (fst s) = snd (fst t) /\ same (snd s) (snd t).
Lemma bind_var_sim i v s t : ssim s t -> ssim (bind_var i v s) (bind_var i v t).
Proof.
  destruct s as [[e fr] sv], t as [[e' fr'] sv']. intros (S1 & S2 & S3). cbn [fst snd] in *. subst fr'.
  unfold bind_var. rewrite <- S1. destruct (env_get e i); split; cbn [fst snd]; auto using same_insert.
Qed.

Section Step.
Variable rec : expr -> env -> res (value * env).
Hypothesis R : forall x e f, same e f -> rsim (rec x e) (rec x f).

Ltac sstep :=
  match goal with
  | |- rsim (Err _) (Err _) => reflexivity
  | |- rsim Panic Panic => exact I
  | |- rsim (Ok (_, _)) (Ok (_, _)) => apply rsim_ret; assumption
  | |- rsim (rec _ _) (rec _ _) => apply R; assumption
  | |- rsim (bind ?r _) (bind ?r _) => apply rsim_pure; intros ?
  | |- rsim (bind (rec _ _) _) (bind (rec _ _) _) => apply rsim_bind; [apply R; assumption|intros ? ? ? ?]
  | |- rsim (match ?x with _ => _ end) (match ?x with _ => _ end) => destruct x
  end.
Ltac sim := repeat (sstep; cbv beta iota zeta).

Lemma eval_list_sim l : forall e f, same e f -> rsim (eval_list rec l e) (eval_list rec l f).
Proof.
  induction l; intros e f S; cbn [eval_list]; [sim|]. sstep. cbv beta iota.
  apply rsim_bind; [now apply IHl|intros; sim].
Qed.
Lemma call1_sim g v e f : same e f -> rsim (call1 rec g v e) (call1 rec g v f).
Proof.
  intros S. unfold call1. destruct g; try reflexivity. destruct args as [|[i t] args]; [reflexivity|].
  apply rsim_bind; [apply R; now apply same_insert|]. intros a e1 f1 S1. cbv beta iota. rewrite S.
  apply rsim_ret. destruct (env_get f i); [now apply same_insert|now apply same_remove].
Qed.
Ltac scall := apply rsim_bind; [apply call1_sim; assumption|intros ? ? ? ?; cbv beta iota].
Lemma map_loop_sim g l : forall e f, same e f -> rsim (map_loop rec g l e) (map_loop rec g l f).
Proof.
  induction l; intros e f S; cbn [map_loop]; [sim|]. scall. apply rsim_bind; [now apply IHl|intros; sim].
Qed.
Lemma filter_loop_sim g l : forall e f, same e f -> rsim (filter_loop rec g l e) (filter_loop rec g l f).
Proof.
  induction l; intros e f S; cbn [filter_loop]; [sim|]. scall. apply rsim_pure. intros b.
  apply rsim_bind; [now apply IHl|intros; sim].
Qed.
Lemma exists_loop_sim g l : forall e f, same e f -> rsim (exists_loop rec g l e) (exists_loop rec g l f).
Proof.
  induction l; intros e f S; cbn [exists_loop]; [sim|]. scall. apply rsim_pure. intros b.
  destruct b; [sim|now apply IHl].
Qed.
Lemma forall_loop_sim g l : forall e f, same e f -> rsim (forall_loop rec g l e) (forall_loop rec g l f).
Proof.
  induction l; intros e f S; cbn [forall_loop]; [sim|]. scall. apply rsim_pure. intros b.
  destruct b; [now apply IHl|sim].
Qed.
Lemma fold_loop_sim g l : forall acc e f, same e f -> rsim (fold_loop rec g acc l e) (fold_loop rec g acc l f).
Proof.
  induction l; intros acc e f S; cbn [fold_loop]; [sim|]. scall. now apply IHl.
Qed.
Lemma eval_lambda_op_sim k a g e f : same e f -> rsim (eval_lambda_op rec k a g e) (eval_lambda_op rec k a g f).
Proof.
  intros S. unfold eval_lambda_op. sstep. cbv beta iota. sstep. cbv beta iota.
  destruct k; sim.
  all: apply rsim_bind; [first [apply exists_loop_sim|apply forall_loop_sim|apply filter_loop_sim|apply map_loop_sim];
    assumption|intros; sim].
Qed.
Lemma eval_method_sim m o args e f : same e f ->
  rsim (eval_method H avlv c rec m o args e) (eval_method H avlv c rec m o args f).
Proof.
  intros S. unfold eval_method, flat_map, option_map_m, option_filter_m. sim.
  all: first [apply rsim_bind; [first [apply map_loop_sim|apply call1_sim]; assumption|intros; sim] | idtac].
Qed.
Lemma eval_bin_sim k l r e f : same e f -> rsim (eval_bin fits rec k l r e) (eval_bin fits rec k l r f).
Proof. intros S. unfold eval_bin. sstep. cbv beta iota. destruct k; sim. Qed.
Lemma block_top_sim items : forall e f, same e f -> 
  rsim (e <- block_top rec items e ;; Ok (tt, e)) (e <- block_top rec items f ;; Ok (tt, e)).
Proof.
  induction items as [|x items IH]; intros e f S; cbn [block_top]; [cbn; auto|].
  destruct x as [| | | | | | |i rhs| | | | |]; try reflexivity.
  pose proof (R rhs e f S) as Q. destruct (rec rhs e) as [[v e1]| |], (rec rhs f) as [[w f1]| |]; cbn in Q |- *; try tauto.
  destruct Q as [<- S1]. apply IH. now apply same_insert.
Qed.
Lemma block_nested_sim items : forall s t, ssim s t ->
  match block_nested rec items s, block_nested rec items t with
  | Ok s', Ok t' => ssim s' t'
  | Err x, Err y => x = y
  | Panic, Panic => True
  | _, _ => False
  end.
Proof.
  induction items as [|x items IH]; intros s t S; cbn [block_nested]; [exact S|].
  destruct x as [| | | | | | |i rhs| | | | |]; try reflexivity.
  destruct s as [[e fr] sv], t as [[e' fr'] sv']. pose proof S as (S1 & S2 & S3). cbn [fst snd] in S1, S2, S3.
  pose proof (R rhs e e' S1) as Q.
  destruct (rec rhs e) as [[v e1]| |], (rec rhs e') as [[w f1]| |]; cbn [rsim bind] in *; try tauto.
  destruct Q as [<- Q]. apply IH. apply bind_var_sim. split; [exact Q|]. split; [exact S2|exact S3].
Qed.
Lemma eval_block_sim items r e f : same e f -> rsim (eval_block rec items r e) (eval_block rec items r f).
Proof.
  intros S. unfold eval_block. rewrite <- (same_empty e f S). destruct (env_is_empty e).
  - pose proof (block_top_sim items e f S) as Q.
    destruct (block_top rec items e) as [e1| |], (block_top rec items f) as [f1| |]; cbn in Q |- *; try tauto.
    apply R. tauto.
  - assert (S0 : ssim (e, [], []) (f, [], [])) by (split; [exact S|split; [reflexivity|apply same_refl]]).
    pose proof (block_nested_sim items _ _ S0) as Q. clear S0.
    destruct (block_nested rec items (e, [], [])) as [[[e1 fr] sv]| |], (block_nested rec items (f, [], [])) as [[[f1 fr'] sv']| |];
      cbn [bind]; try contradiction; try exact Q.
    destruct Q as (Q1 & Q2 & Q3). cbn [fst snd] in *. subst fr'.
    apply rsim_bind; [now apply R|]. intros v e2 f2 S2. cbv beta iota. apply rsim_ret. now apply same_restore.
Qed.
Lemma bind_args_sim l : forall s t, ssim s t ->
  ssim (fold_left (fun s p => bind_var (fst p) (snd p) s) l s) (fold_left (fun s p => bind_var (fst p) (snd p) s) l t).
Proof. induction l as [|[i v] l IH]; intros s t S; cbn [fold_left]; [exact S|]. apply IH. now apply bind_var_sim. Qed.
Lemma eval_apply_sim g args e f : same e f -> rsim (eval_apply rec g args e) (eval_apply rec g args f).
Proof.
  intros S. unfold eval_apply. sstep. cbv beta iota. apply rsim_bind; [now apply eval_list_sim|].
  intros vs e2 f2 S2. cbv beta iota. destruct a; try reflexivity.
  pose proof (bind_args_sim (combine (map fst args0) vs) (e2, [], []) (f2, [], [])) as Q.
  match type of Q with _ -> ssim ?a ?b => destruct a as [[e3 fr] sv], b as [[f3 fr'] sv'] end.
  destruct Q as (Q1 & Q2 & Q3); [split; [exact S2|split; [reflexivity|apply same_refl]]|]. cbn [fst snd] in *. subst fr'.
  apply rsim_bind; [now apply R|]. intros v e4 f4 S4. cbv beta iota. apply rsim_ret. now apply same_restore.
Qed.
Lemma eval_as_sim {A} (g : value -> res A) x e f : same e f -> rsim (eval_as rec g x e) (eval_as rec g x f).
Proof. intros S. unfold eval_as. sim. Qed.
Ltac sas := apply rsim_bind; [apply eval_as_sim; assumption|intros ? ? ? ?; cbv beta iota].
Lemma eval_shape_sim s e f : same e f -> rsim (eval_shape H sha avlv c rec s e) (eval_shape H sha avlv c rec s f).
Proof.
  intros S. destruct s; cbn [eval_shape].
  - unfold eval_deser_context. sim.
  - unfold eval_deser_register, eval_default. sim.
  - unfold eval_if. sim.
  - unfold eval_fold. sim. now apply fold_loop_sim.
  - unfold eval_by_index. sim. apply rsim_bind; [sim|intros; sim].
  - unfold eval_tree_lookup. sas. sas. sas. sim.
  - unfold eval_create_avl. sas. sas. sas. apply rsim_bind; [|intros; sim].
    destruct d as [y|]; [|sim]. sas. sim.
  - unfold eval_dh_tuple. sas. sas. sas. sas. sim.
  - now apply eval_lambda_op_sim.
  - sim.
  - sim.
  - sim.
  - sim.
  - sim.
Qed.
Lemma eval_step_sim x e f : same e f -> rsim (eval_step H sha fits avlv c rec x e) (eval_step H sha fits avlv c rec x f).
Proof.
  intros S. destruct x; cbn [eval_step].
  - sim.
  - sim.
  - rewrite !eval_op_shape. now apply eval_shape_sim.
  - now apply eval_bin_sim.
  - sim.
  - apply rsim_bind; [now apply eval_list_sim|intros; sim].
  - sim.
  - sim.
  - rewrite S. sim.
  - now apply eval_block_sim.
  - now apply eval_apply_sim.
  - sstep. cbv beta iota. apply rsim_bind; [now apply eval_list_sim|intros; cbv beta iota; now apply eval_method_sim].
  - sstep. cbv beta iota. now apply eval_method_sim.
Qed.
End Step.

Lemma eval_same n : forall x e f, same e f -> rsim (eval H sha fits avlv c n x e) (eval H sha fits avlv c n x f).
Proof.
  induction n as [|n IH]; intros x e f S; [reflexivity|]. cbn [EvalModel.eval]. now apply eval_step_sim.
Qed.
End Same.
