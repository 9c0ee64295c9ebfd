(** Printed scripts and positions (C119), positions of errors (C120). *)
From Verif Require Import Base VlqModel GroupModel SigmaModel TypeModel MethodModel IrModel SerModel ChainModel HeaderModel TxModel
  EqModel PrintModel EvalModel WalletModel JsonModel SerSeg TypeProofs PrintProofs PrintTextModel PrintTextProofs.
Local Open Scope string_scope.
Local Open Scope list_scope.
Local Open Scope Z_scope.

(** The part of a text that a position names. *)
Definition slice (t : bytes) (o l : Z) : bytes := firstn (Z.to_nat l) (skipn (Z.to_nat o) t).
Lemma slice_mid (a b c : bytes) : slice (a ++ b ++ c) (Zlen a) (Zlen b) = b.
Proof.
  unfold slice, Zlen. rewrite !Nat2Z.id. rewrite skipn_app, skipn_all, Nat.sub_diag. cbn [skipn app].
  rewrite firstn_app, firstn_all, Nat.sub_diag. cbn. apply app_nil_r.
Qed.

Section Spec.
Context {G : group}.
Notation expr := (expr G).
Variable lit_text : lit G -> bytes.
Variable name : smethod -> bytes.
Notation print_text := (print_text lit_text name).
Notation pretty := (pretty lit_text name).

(** A node of a script together with its positions. *)
Inductive node : expr -> marks -> expr -> marks -> Prop :=
| node_here e m : node e m e m
| node_down e m n y k x j : nth_error (operands e) n = Some y -> nth_error (m_kids m) n = Some k -> node y k x j -> node e m x j.

(** The text of a script on its own, when the indentation is [i]. *)
Definition text_at (i : Z) (x : expr) (t : bytes) : Prop :=
  exists j m, print_text x (Writer [] 0 i) = Ok (Writer t (Zlen t) j, m).

Lemma text_at_ok i x w m : print_text x (Writer [] 0 i) = Ok (w, m) -> text_at i x (w_buf w).
Proof.
  intros E. exists (w_ind w), m. rewrite E. pose proof (print_places lit_text name _ _ _ _ E) as [(t & T1 & T2) _]. cbn in T1, T2.
  destruct w as [b p j]. cbn in *. now subst.
Qed.

(** Nodes whose position is that of their whole text, and those whose position
    begins after their first operand. *)
Definition whole (x : expr) : Prop :=
  match x with
  | EBlock _ _ | EValDef _ _ | EBin _ _ _ | EMethod _ _ _ | EProp _ _ => True
  | EOp k _ _ _ => In k [OAppend; OOptionIsDefined; OExtractRegisterAs; OSelectField; OOptionGet; OSubstConstants;
      OOptionGetOrElse; OSlice; OForAll; OTreeLookup]
  | _ => False
  end.
Definition after_first (x : expr) : Prop :=
  match x with EOp k _ _ _ => In k [OByIndex; OMap; OExists; OFold; OFilter] | _ => False end.

(** ** Positions *)

Lemma within_node e m x k a b : node e m x k -> within a b m -> within a b k.
Proof.
  induction 1 as [|e m n y k x j O K _ IH]; [auto|]. intros W. apply IH. destruct m as [s ks]. apply within_eq in W as [_ W].
  rewrite Forall_forall in W. apply W. now apply nth_error_In in K.
Qed.
Lemma pretty_ok e m t : pretty e = Ok (m, t) -> exists j, print_text e new_writer = Ok (Writer t (Zlen t) j, m).
Proof.
  unfold PrintTextModel.pretty. destruct (print_text e new_writer) as [[w m0]| |] eqn:E; cbn [bind]; [|discriminate|discriminate].
  intros [= <- <-]. pose proof (print_places lit_text name _ _ _ _ E) as [(t & T1 & T2) _]. cbn in T1, T2.
  exists (w_ind w). destruct w as [b p i]. cbn in *. now subst.
Qed.
Theorem c119_positions_inside e m t : pretty e = Ok (m, t) -> forall x k, node e m x k -> span_in 0 (Zlen t) (m_at k).
Proof.
  intros E x k N. apply pretty_ok in E as (j & E). apply (print_places lit_text name) in E as [_ W]. cbn in W.
  apply (within_node _ _ _ _ _ _ N) in W. destruct k as [s ks]. now apply within_eq in W.
Qed.

Lemma nodes_print e m x k : node e m x k -> every arity_ok e -> forall w w', print_text e w = Ok (w', m) ->
  exists w1 w2, print_text x w1 = Ok (w2, k) /\ extends w w1 /\ extends w2 w' /\ every arity_ok x.
Proof.
  induction 1 as [e m|e m n y k x j O K _ IH]; intros A w w' E.
  - exists w, w'. auto using extends_refl.
  - pose proof (emit_kids lit_text name e w w' m (every_here _ _ A) E) as (_ & _ & Q).
    apply Q in K as (x0 & w1 & w2 & X & P & L & R). assert (x0 = y) by congruence. subst x0.
    apply IH in P as (v1 & v2 & P1 & P2 & P3 & P4).
    + exists v1, v2. split; [exact P1|]. split; [now apply extends_trans with w1|]. split; [now apply extends_trans with w2|exact P4].
    + apply every_operands in A. rewrite Forall_forall in A. apply A. now apply nth_error_In in O.
Qed.

Ltac nomark := repeat (first [apply Forall_nil | apply Forall_cons; [discriminate|] | apply Forall_app; split]).
Lemma each_unmarked f n : (forall i, unmarked (f i)) -> unmarked (for_each f n).
Proof.
  intros Hf. unfold for_each. generalize (seq 0 n). intros l. induction l as [|i l IH]; [constructor|]. cbn [map concat]. apply Forall_app. split; [apply Hf|exact IH].
Qed.
Lemma whole_pieces x : whole x -> exists l, pieces lit_text name x = Start :: l /\ unmarked l.
Proof.
  destruct x; cbn [whole]; try contradiction; intros W.
  - cbn [In] in W. repeat (destruct W as [<-|W]; [eexists; split; [reflexivity|nomark]|]). contradiction.
  - eexists. split; [reflexivity|nomark].
  - eexists. split; [reflexivity|nomark].
  - eexists. split; [reflexivity|]. nomark. apply each_unmarked. intros i. nomark.
  - eexists. split; [reflexivity|]. nomark. apply each_unmarked. intros i. nomark.
  - eexists. split; [reflexivity|nomark].
Qed.
Lemma after_pieces x : after_first x -> exists l, pieces lit_text name x = Arg 0 :: Start :: l /\ unmarked l.
Proof.
  destruct x; cbn [after_first]; try contradiction; intros W.
  cbn [In] in W. repeat (destruct W as [<-|W]; [eexists; split; [reflexivity|nomark]|]). contradiction.
Qed.
Lemma other_pieces x : ~ whole x -> ~ after_first x -> unmarked (pieces lit_text name x).
Proof.
  destruct x; cbn [whole after_first]; intros W A; try tauto; try (nomark; fail).
  - destruct c. nomark.
  - destruct k; cbn [In] in W, A; try (nomark; fail); exfalso; (apply W; tauto) || (apply A; tauto).
  - cbn [pieces]. nomark. apply Forall_map, Forall_forall. discriminate.
  - destruct q; cbn [pieces lines]; nomark; apply each_unmarked; intros i; nomark.
  - cbn [pieces]. nomark. apply each_unmarked. intros i. nomark.
Qed.
Lemma place_whole x w w' m : whole x -> print_text x w = Ok (w', m) -> m_at m = Some (w_pos w, w_pos w' - w_pos w).
Proof.
  intros W. apply whole_pieces in W as (l & P & U). rewrite print_text_eq. unfold emit. rewrite P. cbn [run].
  destruct (run l _ (Some (w_pos w)) w) as [[[w1 st] ks]| |] eqn:R; cbn [bind]; [|discriminate|discriminate].
  apply run_start in R; [|exact U]. subst st. destruct (rebuild x); cbn [bind]; [|discriminate|discriminate]. now intros [= <- <-].
Qed.
Lemma place_after x w w' m : arity_ok x -> after_first x -> print_text x w = Ok (w', m) ->
  exists y v k, hd_error (operands x) = Some y /\ print_text y w = Ok (v, k) /\ m_at m = Some (w_pos v, w_pos w' - w_pos v).
Proof.
  intros Ar A. assert (Y : exists y l, operands x = y :: l).
  { destruct x; cbn [after_first] in A; try contradiction. cbn [arity_ok] in Ar. cbn [In] in A.
    repeat (destruct A as [<-|A]; [cbn in *; destruct args as [|y l]; [discriminate|]; now exists y, l|]). contradiction. }
  destruct Y as (y & ys & Y). apply after_pieces in A as (l & P & U). rewrite print_text_eq. unfold emit. rewrite P, Y. cbn [run map nth].
  destruct (print_text y w) as [[v k]| |] eqn:E; cbn [bind]; [|discriminate|discriminate].
  destruct (run l _ (Some (w_pos v)) v) as [[[w1 st] ks]| |] eqn:R; cbn [bind]; [|discriminate|discriminate].
  apply run_start in R; [|exact U]. subst st. destruct (rebuild x); cbn [bind]; [|discriminate|discriminate]. intros [= <- <-].
  exists y, v, k. auto.
Qed.
Lemma place_other x w w' m : ~ whole x -> ~ after_first x -> print_text x w = Ok (w', m) -> m_at m = None.
Proof.
  intros W A. pose proof (other_pieces x W A) as U. rewrite print_text_eq. unfold emit.
  destruct (run (pieces lit_text name x) _ None w) as [[[w1 st] ks]| |] eqn:R; cbn [bind]; [|discriminate|discriminate].
  apply run_start in R; [|exact U]. subst st. destruct (rebuild x); cbn [bind]; [|discriminate|discriminate]. now intros [= <- <-].
Qed.

(** The text of every node of a script is in the text of the script.  The position
    of a node, if it has one, names it, or what follows the first operand. *)
Theorem c119_positions_name_nodes e m t : every arity_ok e -> pretty e = Ok (m, t) -> forall x k, node e m x k ->
  exists i o u, text_at i x u /\ 0 <= o /\ slice t o (Zlen u) = u /\
    (whole x -> m_at k = Some (o, Zlen u)) /\
    (after_first x -> exists y v rest, hd_error (operands x) = Some y /\ text_at i y v /\ u = v ++ rest /\
       m_at k = Some (o + Zlen v, Zlen rest)) /\
    (~ whole x -> ~ after_first x -> m_at k = None).
Proof.
  intros A E x k N. apply pretty_ok in E as (j & E). pose proof (nodes_print _ _ _ _ N A _ _ E) as (w1 & w2 & P & (a & A1 & A2) & (b & B1 & B2) & Ax).
  pose proof (print_alone lit_text name _ _ _ _ P) as (u & j' & m0 & Q & U1 & U2 & U3). cbn in A1, A2, B1, B2.
  exists (w_ind w1), (w_pos w1), u. split; [now exists j', m0|].
  assert (Pa : w_pos w1 = Zlen a) by lia.
  split; [rewrite Pa; unfold Zlen; lia|]. split.
  { rewrite Pa, B1, U1, A1. rewrite <- app_assoc. apply slice_mid. }
  split; [intros W; rewrite (place_whole _ _ _ _ W P); f_equal; f_equal; lia|]. split.
  - intros W. destruct (place_after _ _ _ _ (every_here _ _ Ax) W P) as (y & v & ky & Y & Py & M).
    pose proof (print_alone lit_text name _ _ _ _ Py) as (tv & jv & mv' & Qv & V1 & V2 & V3).
    assert (X : exists rest, w_buf w2 = w_buf v ++ rest /\ w_pos w2 = w_pos v + Zlen rest).
    { clear - P Py Y W. apply after_pieces in W as (l & Pl & _). rewrite print_text_eq in P. unfold emit in P. rewrite Pl in P.
      destruct (operands x) as [|y' ys]; [discriminate|]. cbn in Y. injection Y as ->. cbn [run map nth] in P. rewrite Py in P. cbn [bind] in P.
      destruct (run l _ (Some (w_pos v)) v) as [[[w3 st] ks]| |] eqn:R; cbn [bind] in P; [|discriminate|discriminate].
      destruct (rebuild x); cbn [bind] in P; [|discriminate|discriminate]. injection P as <- _.
      apply run_places in R as (X & _ & _); [exact X|]. constructor; [apply print_places|]. apply Forall_map, Forall_forall. intros z _. apply print_places. }
    destruct X as (rest & R1 & R2). exists y, tv, rest. split; [exact Y|]. split; [now exists jv, mv'|].
    assert (Uv : u = tv ++ rest). { rewrite R1, V1, <- app_assoc in U1. now apply app_inv_head in U1. }
    split; [exact Uv|]. rewrite M. f_equal. f_equal; lia.
  - intros W1 W2. exact (place_other _ _ _ _ W1 W2 P).
Qed.

(** Every printed operand has its positions; those of different operands follow
    each other, and they lie inside a node that has the position of its whole
    text. *)
Theorem c119_positions_nest e m t : every arity_ok e -> pretty e = Ok (m, t) -> forall x k, node e m x k ->
  length (m_kids k) = length (operands x) /\
  exists a b, 0 <= a /\ b <= Zlen t /\ in_order a b (m_kids k) /\ (whole x -> m_at k = Some (a, b - a)).
Proof.
  intros A E x k N. apply pretty_ok in E as (j & E). pose proof (nodes_print _ _ _ _ N A _ _ E) as (w1 & w2 & P & X & Y & Ax).
  pose proof (emit_kids lit_text name _ _ _ _ (every_here _ _ Ax) P) as (L & O & _). split; [exact L|].
  exists (w_pos w1), (w_pos w2). apply extends_pos in X, Y. cbn in X, Y. split; [lia|]. split; [lia|]. split; [exact O|].
  intros W. exact (place_whole _ _ _ _ W P).
Qed.

(** A script that prints at all has a text. *)
Theorem c119_prints e : every arity_ok e -> every printable e -> 6 * nodes e < 2 ^ 63 -> exists m t, pretty e = Ok (m, t).
Proof.
  intros A P N. pose proof (pretty_print_ok e P N) as Q. unfold pretty_print in Q.
  pose proof (print_same_indent lit_text name e A new_writer) as S. unfold PrintTextModel.pretty. cbn [w_ind new_writer] in S.
  destruct (print_text e new_writer) as [[w m]| |]; [now exists m, (w_buf w)|contradiction|]. rewrite S in Q. discriminate.
Qed.
End Spec.

(** ** What the text does not say *)

Section Refuted.
Context {G : group}.
Notation expr := (expr G).
Definition num (z : Z) : expr := EConst (MkConst SInt (LInt z)).
Definition prop_of (x : expr) : expr := EOp OBoolToSigmaProp PNone [x] None.

(** Scripts with stored constants print without them. *)
Definition stored_bytes (b : bool) : bytes := [16; 1; 1; if b then 1 else 0; 209; 115; 0].
Theorem c119_stored_constants_refuted : forall (lit_text : lit G -> bytes) name, exists h root,
  (forall b, tree_of_bytes (G := G) (stored_bytes b) = Ok (Parsed h [MkConst SBoolean (LBool b)] root)) /\
  forall b, exists m, pretty_tree lit_text name (Parsed h [MkConst SBoolean (LBool b)] root) = Ok (m, txt "sigmaProp()").
Proof.
  intros lt nm. exists (th_v0 true), (prop_of (EPlaceholder 0 SBoolean)). split; [intros []; vm_compute; reflexivity|].
  intros b. eexists. reflexivity.
Qed.

(** Two scripts of which one holds and the other does not print alike. *)
Definition minus (a b : expr) : expr := EBin BMinus a b.
Definition right_first : expr := prop_of (EBin BEq (minus (num 5) (minus (num 3) (num 1))) (num 3)).
Definition left_first : expr := prop_of (EBin BEq (minus (minus (num 5) (num 3)) (num 1)) (num 3)).
Theorem c119_same_text_refuted (H : bytes -> bytes) sha fits avlv : exists bs1 bs2 h x1 x2,
  tree_of_bytes (G := G) bs1 = Ok (Parsed h [] x1) /\ tree_of_bytes (G := G) bs2 = Ok (Parsed h [] x2) /\
  (forall (lit_text : lit G -> bytes) name, exists m1 m2 t, pretty lit_text name x1 = Ok (m1, t) /\ pretty lit_text name x2 = Ok (m2, t)) /\
  forall c, eval H sha fits avlv c 6 x1 [] = Ok (VSigma (Triv true), []) /\ eval H sha fits avlv c 6 x2 [] = Ok (VSigma (Triv false), []).
Proof.
  exists [0; 209; 147; 153; 4; 10; 153; 4; 6; 4; 2; 4; 6], [0; 209; 147; 153; 153; 4; 10; 4; 6; 4; 2; 4; 6], (th_v0 false), right_first, left_first.
  split; [vm_compute; reflexivity|]. split; [vm_compute; reflexivity|]. split.
  - intros lt nm. unfold pretty, right_first, left_first.
    set (T := txt "sigmaProp(" ++ lt (LInt 5) ++ txt " - " ++ lt (LInt 3) ++ txt " - " ++ lt (LInt 1) ++ txt " == " ++ lt (LInt 3) ++ txt ")").
    eexists _, _, T. unfold T. cbn. split; (f_equal; f_equal; repeat (rewrite <- app_assoc; cbn [app]); reflexivity).
  - intros c. split; reflexivity.
Qed.

(** A node that fails may have no position. *)
Definition shrink : expr := EBin BPlus (EOp ODowncast (PType SByte) [num 1000] None) (EConst (MkConst SByte (LByte 1))).
Theorem c119_no_position_refuted : forall (lit_text : lit G -> bytes) name, exists e m t x k u,
  pretty lit_text name e = Ok (m, t) /\ node e m x k /\ text_at lit_text name 0 x u /\ u <> [] /\ m_at k = None /\ m_at m <> None.
Proof.
  intros lt nm. eexists shrink, _, _, (EOp ODowncast (PType SByte) [num 1000] None), _, _.
  split; [reflexivity|]. split; [eapply node_down with (n := 0%nat); [reflexivity|reflexivity|apply node_here]|].
  split; [eapply text_at_ok; reflexivity|].
  cbn. split; [discriminate|]. split; [reflexivity|discriminate].
Qed.

(** The position of an access to a collection does not contain that of the
    collection. *)
Definition second_of : expr := EOp OByIndex PNone
  [EOp OAppend PNone [EOp OInputs PNone [] None; EOp OOutputs PNone [] None] None; num 1] None.
Theorem c119_operand_outside_refuted : forall (lit_text : lit G -> bytes) name, exists e m t k o l o' l',
  pretty lit_text name e = Ok (m, t) /\ nth_error (m_kids m) 0 = Some k /\ m_at m = Some (o, l) /\ m_at k = Some (o', l') /\ o' + l' <= o.
Proof.
  intros lt nm. eexists second_of, _, _, _, _, _, _, _. split; [reflexivity|]. split; [reflexivity|]. split; [reflexivity|]. split; [reflexivity|].
  cbn. lia.
Qed.

(** Printing does not restore the indentation: the same function has another text
    when it is printed again. *)
Definition constant_fun : expr := EFunc [(1, SBox)] (EOp OHeight PNone [] None).
Theorem c119_indentation_refuted : forall (lit_text : lit G -> bytes) name, exists e w m u,
  print_text lit_text name e new_writer = Ok (w, m) /\ w_ind w <> 0 /\ text_at lit_text name (w_ind w) e u /\ u <> w_buf w.
Proof.
  intros lt nm. eexists constant_fun, _, _, _. split; [reflexivity|]. split; [discriminate|]. split.
  - eapply text_at_ok; reflexivity.
  - discriminate.
Qed.
End Refuted.

(** ** Errors *)

Lemma unwind_spanned e at_ calls : unwind (ESpanned e at_) calls = ESpanned e at_.
Proof. unfold unwind. induction calls as [|c calls IH]; [reflexivity|exact IH]. Qed.

(** An error that leaves an evaluation is reported with its message, with the text
    and with the position of the innermost expression that was being evaluated,
    which lies inside the text. *)
Theorem c120_report_points_into_text {G : group} lit_text name (e : expr G) m t msg x k calls :
  pretty lit_text name e = Ok (m, t) -> node e m x k ->
  report (EPlain msg) (m_at k :: calls) t = Ok (EWithSource (EPlain msg) (m_at k) t) /\ span_in 0 (Zlen t) (m_at k).
Proof.
  intros E N. split; [|exact (c119_positions_inside _ _ _ _ _ E _ _ N)]. unfold report. cbn [unwind fold_left enrich].
  change (fold_left enrich calls (ESpanned (EPlain msg) (m_at k))) with (unwind (ESpanned (EPlain msg) (m_at k)) calls).
  now rewrite unwind_spanned.
Qed.
Theorem c120_report_panics_iff msg calls t : report (EPlain msg) calls t = Panic <-> calls = [].
Proof.
  destruct calls as [|c calls]; [now split|]. unfold report. cbn [unwind fold_left enrich].
  change (fold_left enrich calls (ESpanned (EPlain msg) c)) with (unwind (ESpanned (EPlain msg) c) calls). rewrite unwind_spanned.
  split; discriminate.
Qed.
(** The report does not fall back to an enclosing expression that has a
    position. *)
Theorem c120_unplaced_refuted : forall (G : group) (lit_text : lit G -> bytes) name msg, exists (e x : expr G) m k t,
  pretty lit_text name e = Ok (m, t) /\ node e m x k /\ m_at m <> None /\
  report (EPlain msg) [m_at k; m_at m] t = Ok (EWithSource (EPlain msg) None t).
Proof.
  intros G lt nm msg. eexists shrink, (EOp ODowncast (PType SByte) [num 1000] None), _, _, _.
  split; [reflexivity|]. split; [eapply node_down with (n := 0%nat); [reflexivity|reflexivity|apply node_here]|].
  split; [discriminate|reflexivity].
Qed.
(** The first report of a process can be shown, and other errors always can. *)
Definition with_src (e : eval_error) : Prop := match e with EWithSource _ _ _ => True | _ => False end.
Theorem c120_shown_once_partial render before e after :
  Forall (fun x => ~ with_src x) before -> Forall (fun x => ~ with_src x) after ->
  exists h, show_all render (before ++ e :: after) false = Ok (map render (before ++ e :: after), h).
Proof.
  assert (Plain : forall l, Forall (fun x => ~ with_src x) l -> forall h, show_all render l h = Ok (map render l, h)).
  { induction 1 as [|x l X F IH]; intros h; [reflexivity|]. cbn [show_all map]. destruct x; cbn in X; try tauto; cbn [show bind]; now rewrite IH. }
  intros B A. induction B as [|x l X F IH].
  - cbn [app show_all map]. destruct e; cbn [show bind set_hook unwrap]; rewrite (Plain _ A); eexists; reflexivity.
  - destruct IH as (h & IH). exists h. cbn [app show_all map]. destruct x; cbn in X; try tauto; cbn [show bind]; now rewrite IH.
Qed.
(** The second one cannot. *)
Theorem c120_second_report_refuted render e1 s1 t1 e2 s2 t2 :
  show_all render [EWithSource e1 s1 t1; EWithSource e2 s2 t2] false = Panic.
Proof. reflexivity. Qed.

(** ** Concrete cases *)

(** {INPUTS.append(OUTPUTS)(1).R4...}: all kinds of positions at once. *)
Definition sample {G : group} : expr G :=
  EBlock [EValDef 1 (EOp OByIndex PNone [EOp OAppend PNone [EOp OInputs PNone [] None; EOp OOutputs PNone [] None] None; num 1] None)]
    (EOp OBoolToSigmaProp PNone [EBin BGt (EOp OExtractAmount PNone [EValUse 1 SBox] None) (EConst (MkConst SLong (LLong 7)))] None).
Definition digits {G : group} (l : lit G) : bytes := match l with LInt z | LLong z => dec_text 10 z | _ => [] end.
Example c119_hyps_met (G : group) : every arity_ok (sample (G := G)) /\ every printable (sample (G := G)) /\ 6 * nodes (sample (G := G)) < 2 ^ 63 /\
  exists m, pretty (digits (G := G)) (fun _ => []) sample =
    Ok (m, line "{" ++ line "  val v1 = INPUTS.append(OUTPUTS)(1)" ++ line "  sigmaProp(v1.value > 7)" ++ line "}").
Proof.
  split; [cbn; tauto|]. split; [cbn; unfold printable; cbn; tauto|]. split; [reflexivity|]. eexists. reflexivity.
Qed.
Definition sample_text : bytes :=
  line "{" ++ line "  val v1 = INPUTS.append(OUTPUTS)(1)" ++ line "  sigmaProp(v1.value > 7)" ++ line "}".
Definition leaf : marks := Marks None [].
Definition sample_marks : marks :=
  Marks (Some (0, 67)) [Marks (Some (4, 34)) [Marks (Some (35, 3)) [Marks (Some (13, 22)) [leaf; leaf]; leaf]];
    Marks None [Marks (Some (51, 12)) [Marks None [leaf]; leaf]]].
Example c120_hyps_met (G : group) : pretty (digits (G := G)) (fun _ => []) sample = Ok (sample_marks, sample_text) /\ exists (x : expr G) k, node sample sample_marks x k /\ m_at k = Some (35, 3) /\ slice sample_text 35 3 = txt "(1)".
Proof.
  split; [reflexivity|].
  exists (EOp OByIndex PNone [EOp OAppend PNone [EOp OInputs PNone [] None; EOp OOutputs PNone [] None] None; num 1] None).
  eexists. split.
  - eapply node_down with (n := 0%nat); [reflexivity|reflexivity|]. eapply node_down with (n := 0%nat); [reflexivity|reflexivity|]. apply node_here.
  - split; reflexivity.
Qed.

Print Assumptions c119_positions_inside.
Print Assumptions c119_positions_name_nodes.
Print Assumptions c119_positions_nest.
Print Assumptions c119_prints.
Print Assumptions c119_stored_constants_refuted.
Print Assumptions c119_same_text_refuted.
Print Assumptions c119_no_position_refuted.
Print Assumptions c119_operand_outside_refuted.
Print Assumptions c119_indentation_refuted.
Print Assumptions c120_report_points_into_text.
Print Assumptions c120_report_panics_iff.
Print Assumptions c120_unplaced_refuted.
Print Assumptions c120_shown_once_partial.
Print Assumptions c120_second_report_refuted.
