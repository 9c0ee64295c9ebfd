(** How the compiler groups the operators of a source.

    The specification is a tree of terms and operators ([gtree]), what it reads as from
    left to right ([flat]), and the usual rule: * and / bind tighter than + and -, and
    operators of one rank group from the left ([proper]). *)
From Verif Require Import Base TypeModel JsonModel CompilerModel CompilerProofs CompilerProps.
Import CompilerModel CompilerProofs.
Local Open Scope string_scope.
Local Open Scope list_scope.
Local Open Scope Z_scope.

Inductive gtree := GTerm (t : term) | GOp (o : Z) (l r : gtree).
Fixpoint first_term (g : gtree) : term := match g with GTerm t => t | GOp _ l _ => first_term l end.
Fixpoint rest_terms (g : gtree) : list (Z * term) :=
  match g with GTerm _ => [] | GOp o l r => rest_terms l ++ (o, first_term r) :: rest_terms r end.
(** 1 for + and -, 2 for * and /; 3 for a term. *)
Definition rank (o : Z) : Z := if (o =? 43) || (o =? 45) then 1 else 2.
Definition top (g : gtree) : Z := match g with GTerm _ => 3 | GOp o _ _ => rank o end.
Fixpoint proper (g : gtree) : Prop :=
  match g with GTerm _ => True | GOp o l r => proper l /\ proper r /\ rank o <= top l /\ rank o < top r end.
(** The high-level expression of a tree, before names and types are assigned. *)
Definition hop_char (o : hop) : Z := match o with HPlus => 43 | HMinus => 45 | HMultiply => 42 | HDivide => 47 end.
Inductive shape : hexpr -> gtree -> Prop :=
| sh_term h t : hatom t h -> shape h (GTerm t)
| sh_op op l r sp t a b : shape l a -> shape r b -> shape (HBin op l r sp t) (GOp (hop_char op) a b).

Lemma op_facts : forall o, In o [43; 45; 42; 47] -> exists op, binding_power (op_kind o) = Some (2 * rank o - 1, 2 * rank o) /\
  hop_of (op_kind o) = Some op /\ hop_char op = o /\ 1 <= rank o <= 2.
Proof. intros o [<-|[<-|[<-|[<-|[]]]]]; cbn; eexists; repeat split; lia. Qed.
Definition reads (n : node) (g : gtree) : Prop := exists h, hir_expr n = Some (COk h) /\ shape h g /\ exists k c, n = NNode k c.
Definition waits (min : Z) (us : list (Z * term)) : Prop := match us with (o, _) :: _ => 2 * rank o - 1 < min | [] => True end.
Definition fits (us : list (Z * term)) (g : gtree) : Prop := match us with (o, _) :: _ => rank o <= top g | [] => True end.
Lemma tree_parse : forall ls f,
  (forall min u l ts us, 0 <= min <= 4 -> term_token u (fst l) -> op_terms us (map fst ts) -> (List.length (l :: ts) < f)%nat ->
     exists n r us1 us2 g, expr_bp ls f min (l :: ts) = (true, ([n], [], r)) /\ reads n g /\ proper g /\ min <= 2 * top g - 1 /\
       first_term g = u /\ rest_terms g = us1 /\ us = us1 ++ us2 /\ op_terms us2 (map fst r) /\ waits min us2 /\ (List.length r <= List.length ts)%nat) /\
  (forall min lhs g0 ts us, 0 <= min <= 4 -> reads lhs g0 -> proper g0 -> min <= 2 * top g0 - 1 -> fits us g0 ->
     op_terms us (map fst ts) -> (List.length ts < f)%nat ->
     exists n r us1 us2 g, climb ls f min lhs [] ts = (true, ([n], [], r)) /\ reads n g /\ proper g /\ min <= 2 * top g - 1 /\
       first_term g = first_term g0 /\ rest_terms g = rest_terms g0 ++ us1 /\ us = us1 ++ us2 /\ op_terms us2 (map fst r) /\ waits min us2 /\
       (List.length r <= List.length ts)%nat).
Proof.
  intros ls. induction f as [|f [IHe IHc]]; [split; intros; lia|]. split.
  - intros min u l ts us M T O L. cbn [List.length] in L. rewrite expr_bp_S.
    assert (A : exists k, atom_kind k (tok_kind (fst l)) /\ forall X, 
      match tok_kind (fst l) with
      | KInt => climb ls f min (NNode NIntNumber [NTok l]) [] ts
      | KLong => climb ls f min (NNode NLongNumber [NTok l]) [] ts
      | KIdent => climb ls f min (NNode NIdent [NTok l]) [] ts
      | _ => X end = climb ls f min (NNode k [NTok l]) [] ts).
    { destruct (term_kind _ _ T) as [K|[K|K]]; rewrite K; eexists; (split; [|reflexivity]); exact I. }
    destruct A as (k & A & Q).
    assert (Gk : reads (NNode k [NTok l]) (GTerm u)).
    { destruct (hir_term _ _ _ A T) as (h & E & Hh). exists h. split; [exact E|]. split; [now constructor|eauto]. }
    assert (Fk : fits us (GTerm u)). { destruct O as [|o u' us p k' ks Io _ _ _]; [exact I|]. destruct (op_facts _ Io) as (_ & _ & _ & _ & R). cbn. lia. }
    destruct (IHc min _ (GTerm u) ts us M Gk I ltac:(cbn; lia) Fk O ltac:(lia)) as (n & r & us1 & us2 & g & E & R & P & Tg & F1 & R1 & R2).
    exists n, r, us1, us2, g. split; [|now rewrite F1, R1]. rewrite <- E, <- (Q (false, p_error ls (l :: ts))).
    destruct (term_kind _ _ T) as [K|[K|K]]; rewrite K; reflexivity.
  - intros min lhs g0 ts us M Gl P0 T0 F0 O L. rewrite climb_S.
    destruct ts as [|q ts].
    { inversion O; subst. exists lhs, [], [], [], g0. split; [reflexivity|]. rewrite app_nil_r. repeat split; auto. }
    inversion O as [|o u us' pt k ks Io Ko T O']; subst. destruct ts as [|l ts]; [discriminate|].
    match goal with Q : _ :: _ = map fst _ |- _ => cbn [map] in Q; injection Q as -> -> end.
    destruct (op_facts _ Io) as (op & B & OP & OC & RK). rewrite Ko, B.
    destruct (Z.ltb_spec (2 * rank o - 1) min) as [LT|GE].
    { exists lhs, (q :: l :: ts), [], ((o, u) :: us'), g0. split; [reflexivity|]. rewrite app_nil_r. repeat split; auto. }
    cbn [List.length] in L. cbn [fits] in F0.
    destruct (IHe (2 * rank o) u l ts us' ltac:(lia) T O' ltac:(cbn [List.length]; lia)) as (n & r & us1 & us2 & g & E & Gn & Pg & Tg & F1 & R1 & -> & O2 & W2 & Lr).
    rewrite E. cbn [app].
    assert (Gi : reads (NNode NInfix [lhs; NTok q; n]) (GOp o g0 g)).
    { destruct Gl as (hl & El & Pl & NL), Gn as (hn & En & Pn & NN).
      rewrite <- Ko in B, OP. exists (HBin op hl hn (node_span (NNode NInfix [lhs; NTok q; n])) None). split; [|split; [|eauto]].
      - rewrite (hir_infix _ _ _ _ _ _ B OP NL NN), El, En. reflexivity.
      - rewrite <- OC. now constructor. }
    assert (Pi : proper (GOp o g0 g)) by (cbn [proper]; repeat split; auto; lia).
    assert (Fi : fits us2 (GOp o g0 g)). { destruct us2 as [|[o2 u2] us2]; [exact I|]. cbn [waits] in W2. cbn [fits top]. lia. }
    destruct (IHc min _ (GOp o g0 g) r us2 M Gi Pi GE Fi O2 ltac:(unfold cleaf in *; lia)) as (n' & r' & us3 & us4 & g' & E' & G' & P' & T' & F' & R' & -> & O4 & W4 & Lr').
    exists n', r', ((o, u) :: us1 ++ us3), us4, g'. split; [exact E'|]. split; [exact G'|]. split; [exact P'|]. split; [exact T'|].
    cbn [first_term rest_terms] in F', R'. rewrite F1, R1 in R'. split; [exact F'|].
    split; [rewrite R'; rewrite <- app_assoc; reflexivity|]. split; [cbn [app]; now rewrite app_assoc|].
    split; [exact O4|]. split; [exact W4|]. cbn [List.length]. unfold cleaf in *. lia.
Qed.

(** The tree of an arithmetic source, in any layout and with any comments, holds its
    terms and operators in order, grouped by the usual rule. *)
Theorem c98_grouping : forall t us s, arith_source t us s ->
  exists h g, compile_hir s = COk h /\ shape h g /\ first_term g = t /\ rest_terms g = us /\ proper g.
Proof.
  intros t us s A. destruct (source_lex _ _ _ A) as (k & ks & Q & T & O). unfold compile_hir. destruct (parse s) as [root e] eqn:P.
  destruct (parse_eq _ _ _ P) as (lead & ls & c & -> & L & S & K & F & Q'). rewrite Q in Q'. destruct ls as [|l ls]; [discriminate|].
  cbn [map] in Q'. injection Q' as -> ->. cbn [List.length stmts] in S. unfold stmt in S.
  assert (kind_eqb (tok_kind (fst l)) KVal = false) as KV by (destruct (term_kind _ _ T) as [X|[X|X]]; rewrite X; reflexivity).
  rewrite KV in S.
  destruct (proj1 (tree_parse (last_range (lex s)) (Datatypes.S (List.length (l :: ls)))) 0 t l ls us ltac:(lia) T O (le_n _))
    as (n & r & us1 & us2 & g & E & (h & Eh & Sh & _) & Pg & _ & F1 & R1 & -> & O2 & W2 & _).
  assert (us2 = []) as ->. { destruct us2 as [|[o u] us2]; [reflexivity|]. cbn in W2. unfold rank in W2. destruct ((o =? 43) || (o =? 45)); lia. }
  assert (r = []) as -> by (destruct r; [reflexivity|inversion O2]). rewrite app_nil_r.
  unfold cleaf in *. cbn [List.length] in E, S. rewrite E in S. cbn [snd] in S.
  assert (stmts (last_range (lex s)) (List.length ls) [] = ([], [])) as X by (destruct ls; reflexivity). unfold cleaf in X. rewrite X in S.
  injection S as <- <-. rewrite root_eq. cbn [map somes]. rewrite Eh. exists h, g. auto.
Qed.
(** There is only one such tree. *)
Lemma proper_ranks : forall g, proper g -> Forall (fun x => top g <= rank (fst x)) (rest_terms g).
Proof.
  induction g as [t|o l IHl r IHr]; [constructor|]. intros (Pl & Pr & Rl & Rr). cbn [rest_terms top]. apply Forall_app. split.
  - specialize (IHl Pl). revert IHl. apply Forall_impl. intros a. lia.
  - constructor; [cbn; lia|]. specialize (IHr Pr). revert IHr. apply Forall_impl. intros a. lia.
Qed.
Lemma last_split : forall A B A' B' (o o' : Z) (x x' : term), A ++ (o, x) :: B = A' ++ (o', x') :: B' ->
  Forall (fun y => rank o < rank (fst y)) B -> Forall (fun y => rank o' < rank (fst y)) B' -> rank o = rank o' ->
  A = A' /\ o = o' /\ x = x' /\ B = B'.
Proof.
  induction A as [|a A IH]; intros B [|a' A'] B' o o' x x' E F F' R; cbn [app] in E.
  - injection E as -> -> ->. auto.
  - injection E as <- ->. exfalso. apply Forall_app in F as [_ F]. inversion F; subst. cbn in *. lia.
  - injection E as -> <-. exfalso. apply Forall_app in F' as [_ F']. inversion F'; subst. cbn in *. lia.
  - injection E as -> E. destruct (IH _ _ _ _ _ _ _ E F F' R) as (-> & -> & -> & ->). auto.
Qed.
Theorem c98_grouping_unique : forall g g', proper g -> proper g' -> first_term g = first_term g' -> rest_terms g = rest_terms g' -> g = g'.
Proof.
  induction g as [t|o l IHl r IHr]; intros [t'|o' l' r'] P P' F R; cbn [first_term rest_terms] in *.
  - now subst.
  - destruct (rest_terms l'); discriminate.
  - destruct (rest_terms l); discriminate.
  - pose proof (proper_ranks _ P) as Q. pose proof (proper_ranks _ P') as Q'. cbn [rest_terms top] in Q, Q'.
    destruct P as (Pl & Pr & Rl & Rr), P' as (Pl' & Pr' & Rl' & Rr').
    assert (rank o = rank o') as RK.
    { rewrite R in Q. rewrite <- R in Q'. apply Forall_app in Q as [_ Q], Q' as [_ Q']. inversion Q; inversion Q'; subst. cbn in *. lia. }
    destruct (last_split _ _ _ _ _ _ _ _ R) as (E1 & -> & E2 & E3); [| |exact RK|].
    + pose proof (proper_ranks _ Pr) as X. revert X. apply Forall_impl. intros a. lia.
    + pose proof (proper_ranks _ Pr') as X. revert X. apply Forall_impl. intros a. lia.
    + f_equal; [now apply IHl|now apply IHr].
Qed.

(** "1 + 2 // two" on a line and "*3 - 4//" on the next. *)
Example c98_grouping_met : exists (s : bytes) (h : hexpr), s = txt "1 + 2 // two" ++ 10 :: txt "*3 - 4//" /\
  arith_source (TmInt 1) [(43, TmInt 2); (42, TmInt 3); (45, TmInt 4)] s /\ compile_hir s = COk h /\
  shape h (GOp 45 (GOp 43 (GTerm (TmInt 1)) (GOp 42 (GTerm (TmInt 2)) (GTerm (TmInt 3)))) (GTerm (TmInt 4))).
Proof.
  assert (D : forall z, 0 <= z <= 9 -> term_text (TmInt z) [48 + z]).
  { intros z Z. split; [split; [discriminate|constructor; [lia|constructor]]|]. split; [|lia]. unfold decimal. cbn [fold_left]. lia. }
  assert (S1 : blank [32]) by (apply bl_space; [now left|constructor]).
  eexists. eexists. split; [reflexivity|]. split; [|split; [vm_compute; reflexivity|]].
  - exists [], [49], (txt " + 2 // two" ++ 10 :: txt "*3 - 4//"). split; [reflexivity|]. split; [constructor|]. split; [apply (D 1); lia|].
    apply (at_more [32] 43 [32] [50] _ _ (txt " // two" ++ 10 :: txt "*3 - 4//")); [exact S1|now left|exact S1|discriminate|apply (D 2); lia|].
    apply (at_more (txt " // two" ++ [10]) 42 [] [51] _ _ (txt " - 4//")); [|now right; right; left|constructor|discriminate|apply (D 3); lia|].
    + apply bl_space; [now left|]. apply (bl_comment (txt " two") []); [|constructor]. repeat apply Forall_cons; try apply Forall_nil; cbn; lia.
    + apply (at_more [32] 45 [32] [52] _ [] (txt "//")); [exact S1|now right; left|exact S1|discriminate|apply (D 4); lia|].
      apply (at_comment [] []); constructor.
  - apply (sh_op HMinus); [apply (sh_op HPlus); [|apply (sh_op HMultiply)]|]; constructor; reflexivity.
Qed.

Print Assumptions c98_grouping.
Print Assumptions c98_grouping_unique.
