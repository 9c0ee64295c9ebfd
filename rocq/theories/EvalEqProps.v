(** Equality in scripts. *)
From Verif Require Import Base VlqModel IntBytes GroupModel SigmaModel BigIntModel TypeModel
  MethodModel IrModel SerModel ChainModel HeaderModel TxModel EqModel PrintModel EvalModel ProverProofs TypeProofs EqProofs
  EvalProofs EvalScope EvalSame EvalEq EvalCollProps.
Local Open Scope string_scope.
Local Open Scope list_scope.
Local Open Scope Z_scope.

Section Equality.
Context {G : group}.
Hypothesis HG : group_ok G.
Variables H sha : bytes -> bytes.
Variable fits : Z -> bool.
Variable avlv : avl_verifier.
Variable c : context G (chain_state G).
Notation value := (value G).
Notation env := (env G).
Notation expr := (expr G).
Notation eval := (eval H sha fits avlv c).

(** ** C78 *)

(** Whatever the operands are, == holds exactly of equal values and != of the others. *)
Theorem c78_equality : forall n l r (e e1 e2 : env) v w,
  eval n l e = Ok (v, e1) -> eval n r e1 = Ok (w, e2) ->
  exists b, eval (S n) (EBin BEq l r) e = Ok (VBool b, e2) /\
            eval (S n) (EBin BNEq l r) e = Ok (VBool (negb b), e2) /\ (b = true <-> v = w).
Proof.
  intros n l r e e1 e2 v w L R. exists (value_eqb v w). cbn [EvalModel.eval eval_step]. unfold eval_bin. rewrite L. cbn [bind]. rewrite R. cbn [bind].
  split; [reflexivity|]. split; [reflexivity|]. exact (value_eqb_spec HG v w).
Qed.
(** Collections are equal when they have the same type and the same items in the same
    positions. *)
Theorem c78_collections : forall n l r (e e1 e2 : env) v w t u p q,
  eval n l e = Ok (v, e1) -> eval n r e1 = Ok (w, e2) -> coll t p v -> coll u q w ->
  exists b, eval (S n) (EBin BEq l r) e = Ok (VBool b, e2) /\ (b = true <-> t = u /\ forall i, at_ p i = at_ q i).
Proof.
  intros n l r e e1 e2 v w t u p q L R Cv Cw. destruct (c78_equality n l r e e1 e2 v w L R) as (b & E & _ & B).
  exists b. split; [exact E|]. rewrite B. clear - Cv Cw. split.
  - intros ->. destruct w; cbn in *; try tauto.
    + destruct Cv as [-> ->], Cw as [-> ->]. auto.
    + destruct Cv as (_ & -> & ->), Cw as (_ & -> & ->). auto.
  - intros [-> A]. apply at_ext in A. subst q. destruct v, w; cbn in *; try tauto.
    + destruct Cv as [_ ->], Cw as [_ E]. f_equal. clear - E. revert l0 E.
      induction l as [|x l IH]; intros [|y m] E; try discriminate; [reflexivity|]. injection E as -> E. f_equal. now apply IH.
    + destruct Cv as [-> _], Cw as (N & E & _). congruence.
    + destruct Cw as [-> _], Cv as (N & E & _). congruence.
    + destruct Cv as (_ & -> & ->), Cw as (_ & -> & ->). reflexivity.
Qed.
(** Equality is reflexive, symmetric and transitive for operands that are values. *)
Theorem c78_constants : forall n x y z (e : env), 
  (exists e1, eval (S (S n)) (EBin BEq (EConst x) (EConst x)) e = Ok (VBool true, e1)) /\
  (forall b, eval (S (S n)) (EBin BEq (EConst x) (EConst y)) e = Ok (VBool b, e) ->
             eval (S (S n)) (EBin BEq (EConst y) (EConst x)) e = Ok (VBool b, e)) /\
  (eval (S (S n)) (EBin BEq (EConst x) (EConst y)) e = Ok (VBool true, e) ->
   eval (S (S n)) (EBin BEq (EConst y) (EConst z)) e = Ok (VBool true, e) ->
   eval (S (S n)) (EBin BEq (EConst x) (EConst z)) e = Ok (VBool true, e)).
Proof.
  intros n x y z e. 
  assert (V : forall k, eval (S n) (EConst k) e = Ok (value_of_lit H (c_val k), e)) by reflexivity.
  pose proof (fun p q => c78_equality (S n) (EConst p) (EConst q) e e e _ _ (V p) (V q)) as K.
  split; [|split].
  - destruct (K x x) as (b & E & _ & B). exists e. rewrite E. now rewrite (proj2 B eq_refl).
  - intros b. destruct (K x y) as (b1 & -> & _ & B1), (K y x) as (b2 & -> & _ & B2). intros [= <-].
    destruct b1, b2; try reflexivity.
    + exfalso. assert (false = true) by (apply B2; symmetry; now apply B1). discriminate.
    + exfalso. assert (false = true) by (apply B1; symmetry; now apply B2). discriminate.
  - destruct (K x y) as (b1 & -> & _ & B1), (K y z) as (b2 & -> & _ & B2), (K x z) as (b3 & -> & _ & B3).
    intros [= ->] [= ->]. repeat f_equal. apply B3. etransitivity; [now apply B1|now apply B2].
Qed.
End Equality.

Example c78_hyps_met : forall (G : group) (HG : group_ok G) H sha fits avlv (c : context G (chain_state G)),
  exists b, eval H sha fits avlv c 3 (EBin BEq (ints [1; 2]) (ints [1; 3])) [] = Ok (VBool b, []) /\
            (b = true <-> SInt = SInt /\ forall i, at_ (map (@VInt G) [1; 2]) i = at_ (map VInt [1; 3]) i).
Proof.
  intros G HG H sha fits avlv c. eapply (c78_collections HG H sha fits avlv c 2); [reflexivity|reflexivity| |]; (split; [discriminate|split; reflexivity]).
Qed.
Print Assumptions c78_equality.
Print Assumptions c78_collections.
Print Assumptions c78_constants.
