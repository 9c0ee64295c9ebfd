(** Induction over the intermediate representation, and the proof that the
    derived equality decides equality. *)
From Verif Require Import Base VlqModel GroupModel SigmaModel SigmaProofs ProverModel ProverProofs TypeModel TypeProofs MethodModel
  IrModel HeaderModel EqModel.
Local Open Scope list_scope.
Local Open Scope Z_scope.

Definition oall {A} (P : A -> Prop) (o : option A) : Prop := match o with Some x => P x | None => True end.

Section Ind.
Context {G : group}.
Variable Pl : lit G -> Prop.
Variable Pc : const G -> Prop.
Variable Pe : expr G -> Prop.
Variable Pt : tree G -> Prop.
Variable Pr : regval G -> Prop.
Variable Pd : cand G -> Prop.
Variable Pb : box G -> Prop.
Hypothesis Hunit : Pl LUnit.
Hypothesis Hbool : forall b, Pl (LBool b).
Hypothesis Hbyte : forall z, Pl (LByte z).
Hypothesis Hshort : forall z, Pl (LShort z).
Hypothesis Hint : forall z, Pl (LInt z).
Hypothesis Hlong : forall z, Pl (LLong z).
Hypothesis Hbig : forall z, Pl (LBigInt z).
Hypothesis Hsigma : forall s, Pl (LSigma s).
Hypothesis Hgroup : forall p, Pl (LGroup p).
Hypothesis Havl : forall a, Pl (LAvl a).
Hypothesis Hlbox : forall b, Pb b -> Pl (LBox b).
Hypothesis Hbytes : forall l, Pl (LCollBytes l).
Hypothesis Hcoll : forall t l, Forall Pl l -> Pl (LColl t l).
Hypothesis Hopt : forall o, oall Pl o -> Pl (LOpt o).
Hypothesis Htup : forall l, Forall Pl l -> Pl (LTup l).
Hypothesis Hconst : forall t v, Pl v -> Pc (MkConst t v).
Hypothesis Heconst : forall c, Pc c -> Pe (EConst c).
Hypothesis Hplace : forall i t, Pe (EPlaceholder i t).
Hypothesis Hop : forall k p l d, Forall Pe l -> oall Pe d -> Pe (EOp k p l d).
Hypothesis Hbin : forall k l r, Pe l -> Pe r -> Pe (EBin k l r).
Hypothesis Hbools : forall bs, Pe (EBools bs).
Hypothesis Hseq : forall q l, Forall Pe l -> Pe (ESeq q l).
Hypothesis Hfunc : forall a b, Pe b -> Pe (EFunc a b).
Hypothesis Hdef : forall i r, Pe r -> Pe (EValDef i r).
Hypothesis Huse : forall i t, Pe (EValUse i t).
Hypothesis Hblock : forall l r, Forall Pe l -> Pe r -> Pe (EBlock l r).
Hypothesis Happly : forall f l, Pe f -> Forall Pe l -> Pe (EApply f l).
Hypothesis Hmethod : forall m o l, Pe o -> Forall Pe l -> Pe (EMethod m o l).
Hypothesis Hprop : forall m o, Pe o -> Pe (EProp m o).
Hypothesis Hunparsed : forall b, Pt (Unparsed b).
Hypothesis Hparsed : forall h cs r, Forall Pc cs -> Pe r -> Pt (Parsed h cs r).
Hypothesis Hrparsed : forall c, Pc c -> Pr (RParsed c).
Hypothesis Hrtuple : forall l, Forall Pe l -> Pr (RTuple l).
Hypothesis Hrinvalid : forall b, Pr (RInvalid b).
Hypothesis Hcand : forall v t k r h, Pt t -> Forall Pr r -> Pd (MkCand v t k r h).
Hypothesis Hbox : forall c t i, Pd c -> Pb (MkBox c t i).

Definition each {A} (P : A -> Prop) (f : forall x, P x) : forall l, Forall P l :=
  fix go l := match l with [] => Forall_nil P | x :: l' => Forall_cons x (f x) (go l') end.
Definition eacho {A} (P : A -> Prop) (f : forall x, P x) (o : option A) : oall P o :=
  match o with Some x => f x | None => I end.

Fixpoint lit_ir (v : lit G) : Pl v :=
  match v with
  | LUnit => Hunit | LBool b => Hbool b | LByte z => Hbyte z | LShort z => Hshort z
  | LInt z => Hint z | LLong z => Hlong z | LBigInt z => Hbig z | LSigma s => Hsigma s
  | LGroup p => Hgroup p | LAvl a => Havl a | LBox b => Hlbox b (box_ir b)
  | LCollBytes l => Hbytes l
  | LColl t l => Hcoll t l (each Pl lit_ir l)
  | LOpt o => Hopt o (eacho Pl lit_ir o)
  | LTup l => Htup l (each Pl lit_ir l)
  end
with const_ir (c : const G) : Pc c := match c with MkConst t v => Hconst t v (lit_ir v) end
with expr_ir (e : expr G) : Pe e :=
  match e with
  | EConst c => Heconst c (const_ir c)
  | EPlaceholder i t => Hplace i t
  | EOp k p l d => Hop k p l d (each Pe expr_ir l) (eacho Pe expr_ir d)
  | EBin k l r => Hbin k l r (expr_ir l) (expr_ir r)
  | EBools bs => Hbools bs
  | ESeq q l => Hseq q l (each Pe expr_ir l)
  | EFunc a b => Hfunc a b (expr_ir b)
  | EValDef i r => Hdef i r (expr_ir r)
  | EValUse i t => Huse i t
  | EBlock l r => Hblock l r (each Pe expr_ir l) (expr_ir r)
  | EApply f l => Happly f l (expr_ir f) (each Pe expr_ir l)
  | EMethod m o l => Hmethod m o l (expr_ir o) (each Pe expr_ir l)
  | EProp m o => Hprop m o (expr_ir o)
  end
with tree_ir (t : tree G) : Pt t :=
  match t with
  | Unparsed b => Hunparsed b
  | Parsed h cs r => Hparsed h cs r (each Pc const_ir cs) (expr_ir r)
  end
with regval_ir (r : regval G) : Pr r :=
  match r with
  | RParsed c => Hrparsed c (const_ir c)
  | RTuple l => Hrtuple l (each Pe expr_ir l)
  | RInvalid b => Hrinvalid b
  end
with cand_ir (c : cand G) : Pd c :=
  match c with MkCand v t k r h => Hcand v t k r h (tree_ir t) (each Pr regval_ir r) end
with box_ir (b : box G) : Pb b := match b with MkBox c t i => Hbox c t i (cand_ir c) end.

Lemma ir_ind : (forall v, Pl v) /\ (forall c, Pc c) /\ (forall e, Pe e) /\ (forall t, Pt t) /\
  (forall r, Pr r) /\ (forall c, Pd c) /\ (forall b, Pb b).
Proof.
  exact (conj lit_ir (conj const_ir (conj expr_ir (conj tree_ir (conj regval_ir (conj cand_ir box_ir)))))).
Qed.
End Ind.

(** ** Equality *)
Definition deq {A} (f : A -> A -> bool) (a : A) : Prop := forall b, f a b = true <-> a = b.

Lemma deq_list {A} (f : A -> A -> bool) (l : list A) : Forall (deq f) l -> forall m, leqb f l m = true <-> l = m.
Proof.
  induction 1 as [|x l Hx Hl IH]; intros [|y m]; cbn [leqb]; split; intros E; try discriminate; auto.
  - apply andb_true_iff in E. destruct E as [E1 E2]. apply Hx in E1. apply IH in E2. congruence.
  - injection E as -> ->. apply andb_true_iff. split; [apply Hx|apply IH]; reflexivity.
Qed.
Lemma deq_opt {A} (f : A -> A -> bool) (o : option A) : oall (deq f) o -> forall p, opt_eqb f o p = true <-> o = p.
Proof.
  destruct o as [x|]; intros Hx [y|]; cbn [opt_eqb]; split; intros E; try discriminate; auto.
  - apply Hx in E. congruence.
  - injection E as ->. apply Hx. reflexivity.
Qed.
Lemma deq_all {A} (f : A -> A -> bool) : (forall a, deq f a) -> forall l m, leqb f l m = true <-> l = m.
Proof. intros H l. apply deq_list. apply Forall_forall. intros x _. apply H. Qed.
Lemma deq_Z (a : Z) : deq Z.eqb a. Proof. intros b. apply Z.eqb_eq. Qed.
Lemma deq_bytes (l m : list Z) : leqb Z.eqb l m = true <-> l = m.
Proof. apply deq_all. exact deq_Z. Qed.
Lemma deq_bool (a : bool) : deq Bool.eqb a. Proof. intros b. apply Bool.eqb_true_iff. Qed.
Lemma deq_type (t : stype) : deq stype_eqb t. Proof. intros u. apply stype_eqb_eq. Qed.
Lemma deq_types (l m : list stype) : leqb stype_eqb l m = true <-> l = m.
Proof. apply deq_all. exact deq_type. Qed.

Lemma op_code_inj : forall a b, op_code a = op_code b -> a = b.
Proof.
  intros a b E. assert (K : forall k, op_of_code (op_code k) = Some k) by (intros []; reflexivity).
  pose proof (K a) as Ka. rewrite E, K in Ka. congruence.
Qed.
Lemma bin_code_inj : forall a b, bin_code a = bin_code b -> a = b.
Proof.
  intros a b E. assert (K : forall k, bin_of_code (bin_code k) = Some k) by (intros []; reflexivity).
  pose proof (K a) as Ka. rewrite E, K in Ka. congruence.
Qed.
Lemma deq_opk (a : opk) : deq opk_eqb a.
Proof. intros b. unfold opk_eqb. rewrite Z.eqb_eq. split; [apply op_code_inj|congruence]. Qed.
Lemma deq_bink (a : bink) : deq bink_eqb a.
Proof. intros b. unfold bink_eqb. rewrite Z.eqb_eq. split; [apply bin_code_inj|congruence]. Qed.

Ltac beq := repeat rewrite ?andb_true_iff, ?Z.eqb_eq, ?Bool.eqb_true_iff, ?deq_bytes, ?deq_types, ?stype_eqb_eq.
Lemma deq_payload (a : payload) : deq payload_eqb a.
Proof.
  intros b. destruct a, b; cbn [payload_eqb]; beq; split; intros E; try discriminate; auto;
    try (destruct E; congruence); try (injection E; intros; subst; auto); congruence.
Qed.
Lemma deq_seqk (a : seqk) : deq seqk_eqb a.
Proof. intros b. destruct a, b; cbn [seqk_eqb]; beq; split; intros E; try discriminate; auto; congruence. Qed.
Lemma deq_smethod (a : smethod) : deq smethod_eqb a.
Proof.
  intros b. destruct a, b; unfold smethod_eqb; cbn; beq. split; [intros [[[-> ->] ->] ->]; reflexivity|].
  intros E. injection E as -> -> -> ->. auto.
Qed.
Lemma deq_avl (a : avl) : deq avl_eqb a.
Proof.
  intros b. destruct a as [d f k v], b as [d' f' k' v']; unfold avl_eqb; cbn.
  beq. assert (Ho : opt_eqb Z.eqb v v' = true <-> v = v') by (apply deq_opt; destruct v; cbn; auto using deq_Z).
  rewrite Ho. split; [intros [[[-> ->] ->] ->]; reflexivity|].
  intros E. injection E as -> -> -> ->. auto.
Qed.
Lemma deq_theader (a : theader) : deq theader_eqb a.
Proof.
  intros b. destruct a, b; unfold theader_eqb; cbn; beq.
  split; [intros [[-> ->] ->]; reflexivity|]. intros E. injection E as -> -> ->. auto.
Qed.
Lemma deq_arg (a : Z * stype) : deq arg_eqb a.
Proof.
  intros b. destruct a, b; unfold arg_eqb; cbn [fst snd]; beq.
  split; [intros [-> ->]; reflexivity|]. intros E. injection E as -> ->. auto.
Qed.
Lemma deq_token (a : bytes * Z) : deq token_eqb a.
Proof.
  intros b. destruct a, b; unfold token_eqb; cbn [fst snd]; beq.
  split; [intros [-> ->]; reflexivity|]. intros E. injection E as -> ->. auto.
Qed.

Section EqSpec.
Context {G : group}.
Hypothesis HG : group_ok G.

Lemma ir_eqb_spec :
  (forall v : lit G, deq lit_eqb v) /\ (forall c : const G, deq const_eqb c) /\ (forall e : expr G, deq expr_eqb e) /\
  (forall t : tree G, deq tree_eqb t) /\ (forall r : regval G, deq regval_eqb r) /\ (forall c : cand G, deq cand_eqb c) /\
  (forall b : box G, deq box_eqb b).
Proof.
  apply ir_ind; unfold deq; intros;
    match goal with |- _ <-> _ = ?b => destruct b end;
    cbn [lit_eqb const_eqb expr_eqb tree_eqb regval_eqb cand_eqb box_eqb];
    rewrite ?andb_true_iff;
    repeat match goal with
      | |- context [opk_eqb ?a ?b = true] => rewrite (deq_opk a b)
      | |- context [bink_eqb ?a ?b = true] => rewrite (deq_bink a b)
      | |- context [payload_eqb ?a ?b = true] => rewrite (deq_payload a b)
      | |- context [seqk_eqb ?a ?b = true] => rewrite (deq_seqk a b)
      | |- context [smethod_eqb ?a ?b = true] => rewrite (deq_smethod a b)
      | |- context [avl_eqb ?a ?b = true] => rewrite (deq_avl a b)
      | |- context [theader_eqb ?a ?b = true] => rewrite (deq_theader a b)
      | |- context [leqb arg_eqb ?a ?b = true] => rewrite (deq_all _ deq_arg a b)
      | |- context [leqb token_eqb ?a ?b = true] => rewrite (deq_all _ deq_token a b)
      | |- context [leqb Bool.eqb ?a ?b = true] => rewrite (deq_all _ deq_bool a b)
      | |- context [leqb Z.eqb ?a ?b = true] => rewrite (deq_bytes a b)
      | |- context [sbool_eqb ?a ?b = true] => rewrite (sbool_eqb_spec HG a b)
      | |- context [geqb ?a ?b = true] => rewrite (g_eqb _ HG a b)
      | |- context [stype_eqb ?a ?b = true] => rewrite (stype_eqb_eq a b)
      | H : Forall _ ?l |- context [leqb _ ?l ?m = true] => rewrite (deq_list _ l H m)
      | H : oall _ ?l |- context [opt_eqb _ ?l ?m = true] => rewrite (deq_opt _ l H m)
      | |- context [Z.eqb ?a ?b = true] => rewrite (Z.eqb_eq a b)
      | |- context [Bool.eqb ?a ?b = true] => rewrite (Bool.eqb_true_iff a b)
      | H : forall b, ?f ?x b = true <-> ?x = b |- context [?f ?x ?y = true] => rewrite (H y)
      end;
    try (split; intros E; [discriminate E|discriminate E]);
    try (split; intros E; congruence);
    try (split; intros E; [decompose [and] E; subst; reflexivity|injection E; intros; subst; repeat split; reflexivity]).
Qed.
End EqSpec.
