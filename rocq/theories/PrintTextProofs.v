(** Printed text and positions: what a printer does does not depend on what is in
    the buffer, and positions lie where the text is. *)
From Verif Require Import Base VlqModel GroupModel SigmaModel TypeModel MethodModel IrModel PrintModel WalletModel JsonModel SerSeg TypeProofs PrintProofs PrintTextModel.
Local Open Scope string_scope.
Local Open Scope list_scope.
Local Open Scope Z_scope.

(** Moving a position. *)
Definition move (d : Z) (a : option (Z * Z)) : option (Z * Z) :=
  match a with Some (o, l) => Some (d + o, l) | None => None end.
Fixpoint shift (d : Z) (m : marks) : marks :=
  let 'Marks a ks := m in Marks (move d a) (map (shift d) ks).
(** Text before the text. *)
Definition mv (b : bytes) (d : Z) (w : writer) : writer := Writer (b ++ w_buf w) (d + w_pos w) (w_ind w).

Lemma mv_put b d t w : put t (mv b d w) = mv b d (put t w).
Proof. unfold put, mv. cbn. f_equal; [now rewrite app_assoc|lia]. Qed.
Lemma mv_indent b d w : put_indent (mv b d w) = match put_indent w with Ok w' => Ok (mv b d w') | Err e => Err e | Panic => Panic end.
Proof. unfold put_indent. change (w_ind (mv b d w)) with (w_ind w). destruct (print_indent (w_ind w)); cbn [bind]; [now rewrite mv_put|reflexivity|reflexivity]. Qed.

(** A printer that only appends. *)
Definition appends (p : printer) : Prop := forall b d w,
  p (mv b d w) = match p w with Ok (w', m) => Ok (mv b d w', shift d m) | Err e => Err e | Panic => Panic end.
Lemma no_print_appends : appends no_print.
Proof. intros b d w. reflexivity. Qed.
Lemma nth_appends ps n : Forall appends ps -> appends (nth n ps no_print).
Proof. intros F. revert n. induction F; intros [|n]; cbn; auto using no_print_appends. Qed.

Definition omove (d : Z) (st : option Z) : option Z := match st with Some o => Some (d + o) | None => None end.
Lemma run_moves l ps : Forall appends ps -> forall st w b d,
  run l ps (omove d st) (mv b d w) =
  match run l ps st w with Ok (w', st', ks) => Ok (mv b d w', omove d st', map (shift d) ks) | Err e => Err e | Panic => Panic end.
Proof.
  intros F. induction l as [|x l IH]; intros st w b d; [reflexivity|].
  destruct x; cbn [run].
  - rewrite mv_put. apply IH.
  - rewrite (nth_appends ps n F b d w). destruct (nth n ps no_print w) as [[w1 m]| |]; cbn [bind]; [|reflexivity|reflexivity].
    rewrite IH. destruct (run l ps st w1) as [[[w2 st2] ks]| |]; reflexivity.
  - rewrite mv_indent. destruct (put_indent w); cbn [bind]; [apply IH|reflexivity|reflexivity].
  - change (inc (mv b d w)) with (mv b d (inc w)). apply IH.
  - change (dec (mv b d w)) with (mv b d (dec w)). apply IH.
  - change (Some (w_pos (mv b d w))) with (omove d (Some (w_pos w))). apply IH.
Qed.

(** All positions of a tree lie between [a] and [b]. *)
Definition span_in (a b : Z) (s : option (Z * Z)) : Prop :=
  match s with Some (o, l) => a <= o /\ 0 <= l /\ o + l <= b | None => True end.
Fixpoint within (a b : Z) (m : marks) : Prop :=
  let 'Marks s ks := m in
  span_in a b s /\ (fix go l := match l with [] => True | k :: l' => within a b k /\ go l' end) ks.
Lemma within_eq a b s ks : within a b (Marks s ks) <-> span_in a b s /\ Forall (within a b) ks.
Proof.
  cbn [within]. apply and_iff_compat_l. induction ks as [|k ks IH]; [split; [constructor|trivial]|].
  rewrite IH. split; [intros [A B]; now constructor|intros F; inversion F; auto].
Qed.
Lemma marks_ind' (P : marks -> Prop) : (forall s ks, Forall P ks -> P (Marks s ks)) -> forall m, P m.
Proof.
  intros Hm. fix IH 1. intros [s ks]. apply Hm. induction ks as [|k ks IHk]; constructor; [apply IH|exact IHk].
Qed.
Lemma within_more a b a' b' m : a' <= a -> b <= b' -> within a b m -> within a' b' m.
Proof.
  intros A B. revert m. apply (marks_ind' (fun m => within a b m -> within a' b' m)). intros s ks F.
  rewrite !within_eq. intros [S K]. split.
  - destruct s as [[o l]|]; cbn in *; [lia|trivial].
  - rewrite Forall_forall in *. auto.
Qed.
Lemma shift_within a b d m : within a b m -> within (d + a) (d + b) (shift d m).
Proof.
  revert m. apply (marks_ind' (fun m => within a b m -> within (d + a) (d + b) (shift d m))). intros s ks F.
  cbn [shift]. rewrite !within_eq. intros [S K]. split.
  - destruct s as [[o l]|]; cbn in *; [lia|trivial].
  - apply Forall_map. rewrite Forall_forall in *. auto.
Qed.
Lemma shift_shift c d m : shift c (shift d m) = shift (c + d) m.
Proof.
  revert m. apply (marks_ind' (fun m => shift c (shift d m) = shift (c + d) m)). intros s ks F. cbn [shift]. f_equal.
  - destruct s as [[o l]|]; cbn; [f_equal; f_equal; lia|reflexivity].
  - rewrite map_map. now apply map_ext_Forall.
Qed.
Lemma shift_0 m : shift 0 m = m.
Proof.
  revert m. apply (marks_ind' (fun m => shift 0 m = m)). intros s ks F. cbn [shift]. f_equal.
  - now destruct s as [[o l]|].
  - rewrite <- (map_id ks) at 2. now apply map_ext_Forall.
Qed.

(** Positions one after the other. *)
Fixpoint in_order (a b : Z) (ks : list marks) : Prop :=
  match ks with
  | [] => a <= b
  | k :: ks' => exists c, a <= c <= b /\ within a c k /\ in_order c b ks'
  end.
Lemma in_order_le a b ks : in_order a b ks -> a <= b.
Proof. destruct ks; cbn; [lia|]. intros (c & C & _). lia. Qed.
Lemma in_order_all a b ks : in_order a b ks -> Forall (within a b) ks.
Proof.
  revert a. induction ks as [|k ks IH]; intros a; cbn; [constructor|]. intros (c & C & W & O). constructor.
  - now apply (within_more a c).
  - specialize (IH c O). rewrite Forall_forall in *. intros x X. apply (within_more c b); [lia|lia|auto].
Qed.
Lemma in_order_from a a' b ks : a' <= a -> in_order a b ks -> in_order a' b ks.
Proof.
  intros L. destruct ks as [|k ks]; cbn; [lia|]. intros (c & C & W & O). exists c. split; [lia|]. split; [|exact O].
  now apply (within_more a c).
Qed.

(** The buffer and the position grow alike; positions are those of the new text. *)
Definition extends (w w' : writer) : Prop := exists t, w_buf w' = w_buf w ++ t /\ w_pos w' = w_pos w + Zlen t.
Lemma extends_refl w : extends w w. Proof. exists []. rewrite app_nil_r. unfold Zlen. cbn. split; [reflexivity|lia]. Qed.
Lemma extends_trans a b c : extends a b -> extends b c -> extends a c.
Proof.
  intros (t & T1 & T2) (u & U1 & U2). exists (t ++ u). rewrite U1, T1, U2, T2, app_assoc. split; [reflexivity|].
  rewrite Zlen_app. lia.
Qed.
Lemma extends_pos a b : extends a b -> w_pos a <= w_pos b.
Proof. intros (t & _ & T). assert (0 <= Zlen t) by (unfold Zlen; lia). lia. Qed.
Lemma extends_put t w : extends w (put t w). Proof. now exists t. Qed.
Lemma extends_inc w : extends w (inc w). Proof. exact (extends_refl w). Qed.
Lemma extends_dec w : extends w (dec w). Proof. exact (extends_refl w). Qed.
Lemma extends_indent w w' : put_indent w = Ok w' -> extends w w'.
Proof. unfold put_indent. destruct (print_indent (w_ind w)); cbn [bind]; [|discriminate|discriminate]. intros [= <-]. apply extends_put. Qed.

Definition places (p : printer) : Prop := forall w w' m, p w = Ok (w', m) ->
  extends w w' /\ within (w_pos w) (w_pos w') m.
Lemma nth_places ps n : Forall places ps -> places (nth n ps no_print).
Proof.
  intros F. revert n. induction F; intros [|n]; cbn; auto; intros w w' m [= <- <-]; (split; [apply extends_refl|cbn; auto]).
Qed.
Definition starts_in (a b : Z) (st st' : option Z) : Prop := st' = st \/ exists o, st' = Some o /\ a <= o <= b.
Lemma run_places l ps : Forall places ps -> forall st w w' st' ks, run l ps st w = Ok (w', st', ks) ->
  extends w w' /\ in_order (w_pos w) (w_pos w') ks /\ starts_in (w_pos w) (w_pos w') st st'.
Proof.
  intros F.
  assert (Go : forall w w1 st st' w' ks, extends w w1 ->
    extends w1 w' /\ in_order (w_pos w1) (w_pos w') ks /\ starts_in (w_pos w1) (w_pos w') st st' ->
    extends w w' /\ in_order (w_pos w) (w_pos w') ks /\ starts_in (w_pos w) (w_pos w') st st').
  { intros w w1 st st' w' ks X (A & B & C). pose proof (extends_pos _ _ X). split; [now apply extends_trans with w1|].
    split; [now apply in_order_from with (w_pos w1)|]. destruct C as [C|(o & C & D)]; [now left|right; exists o; split; [exact C|lia]]. }
  induction l as [|x l IH]; intros st w w' st' ks.
  - intros [= <- <- <-]. split; [apply extends_refl|]. split; [cbn; lia|now left].
  - destruct x; cbn [run].
    + intros R. apply (Go w (put t w)); [apply extends_put|]. now apply IH.
    + intros R. destruct (nth n ps no_print w) as [[w1 m]| |] eqn:N; cbn [bind] in R; [|discriminate|discriminate].
      destruct (run l ps st w1) as [[[w2 st2] ks2]| |] eqn:R2; cbn [bind] in R; [|discriminate|discriminate].
      injection R as <- <- <-. apply (nth_places ps n F) in N as [X W]. apply IH in R2 as (A & B & C).
      pose proof (extends_pos _ _ X). pose proof (extends_pos _ _ A).
      split; [now apply extends_trans with w1|]. split.
      * cbn. exists (w_pos w1). split; [lia|]. now split.
      * destruct C as [C|(o & C & D)]; [now left|right; exists o; split; [exact C|lia]].
    + intros R. destruct (put_indent w) as [w1| |] eqn:N; cbn [bind] in R; [|discriminate|discriminate].
      apply (Go w w1); [now apply extends_indent|]. now apply IH.
    + intros R. apply (Go w (inc w)); [apply extends_inc|]. now apply IH.
    + intros R. apply (Go w (dec w)); [apply extends_dec|]. now apply IH.
    + intros R. apply IH in R as (A & B & C). split; [exact A|]. split; [exact B|]. right.
      pose proof (extends_pos _ _ A). destruct C as [->|(o & -> & D)]; eexists; (split; [reflexivity|lia]).
Qed.

(** Which operand each child comes from, and where it was printed. *)
Fixpoint args_of (l : list piece) : list nat :=
  match l with [] => [] | Arg n :: l' => n :: args_of l' | _ :: l' => args_of l' end.
Lemma run_kid l ps : Forall places ps -> forall st w w' st' ks, run l ps st w = Ok (w', st', ks) ->
  length ks = length (args_of l) /\
  forall n m, nth_error ks n = Some m -> exists a w1 w2, nth_error (args_of l) n = Some a /\
    nth a ps no_print w1 = Ok (w2, m) /\ extends w w1 /\ extends w2 w'.
Proof.
  intros F.
  induction l as [|x l IH]; intros st w w' st' ks.
  - intros [= <- <- <-]. split; [reflexivity|]. intros [|n] m; discriminate.
  - assert (Step : forall st w1, extends w w1 -> run l ps st w1 = Ok (w', st', ks) ->
      length ks = length (args_of l) /\
      forall n m, nth_error ks n = Some m -> exists a w1 w2, nth_error (args_of l) n = Some a /\
        nth a ps no_print w1 = Ok (w2, m) /\ extends w w1 /\ extends w2 w').
    { intros s1 w1 X R. apply IH in R as [L R]. split; [exact L|]. intros n m N. apply R in N as (a & v1 & v2 & A & B & C & D).
      exists a, v1, v2. split; [exact A|]. split; [exact B|]. split; [now apply extends_trans with w1|exact D]. }
    destruct x; cbn [run args_of].
    + apply Step, extends_put.
    + intros R. destruct (nth n ps no_print w) as [[w1 m]| |] eqn:N; cbn [bind] in R; [|discriminate|discriminate].
      destruct (run l ps st w1) as [[[w2 st2] ks2]| |] eqn:R2; cbn [bind] in R; [|discriminate|discriminate].
      injection R as <- <- <-. pose proof (run_places l ps F _ _ _ _ _ R2) as (A & _ & _).
      pose proof (nth_places ps n F _ _ _ N) as [X _]. apply IH in R2 as [L R2]. split; [cbn; now rewrite L|].
      intros [|i] k K.
      * cbn in K. injection K as <-. exists n, w, w1. split; [reflexivity|]. split; [exact N|]. split; [apply extends_refl|exact A].
      * cbn in K. apply R2 in K as (a & v1 & v2 & K1 & K2 & K3 & K4). exists a, v1, v2. split; [exact K1|]. split; [exact K2|].
        split; [now apply extends_trans with w1|exact K4].
    + intros R. destruct (put_indent w) as [w1| |] eqn:N; cbn [bind] in R; [|discriminate|discriminate].
      eapply Step; [|exact R]. now apply extends_indent.
    + apply Step, extends_inc.
    + apply Step, extends_dec.
    + apply Step, extends_refl.
Qed.

(** A start is kept when no other follows. *)
Definition unmarked (l : list piece) : Prop := Forall (fun x => x <> Start) l.
Lemma run_start l ps : unmarked l -> forall st w w' st' ks, run l ps st w = Ok (w', st', ks) -> st' = st.
Proof.
  intros U. induction U as [|x l X U IH]; intros st w w' st' ks; [now intros [= <- <- <-]|].
  destruct x; cbn [run]; intros R; try (now apply IH in R); try contradiction.
  - destruct (nth n ps no_print w) as [[w1 m]| |]; cbn [bind] in R; [|discriminate|discriminate].
    destruct (run l ps st w1) as [[[w2 st2] ks2]| |] eqn:R2; cbn [bind] in R; [|discriminate|discriminate].
    injection R as <- <- <-. now apply IH in R2.
  - destruct (put_indent w); cbn [bind] in R; [|discriminate|discriminate]. now apply IH in R.
Qed.

Section Text.
Context {G : group}.
Notation expr := (expr G).
Variable lit_text : lit G -> bytes.
Variable name : smethod -> bytes.
Notation print_text := (print_text lit_text name).
Notation pieces := (pieces lit_text name).
Notation emit := (emit lit_text name).

(** The operands that are printed. *)
Definition operands (e : expr) : list expr :=
  match e with
  | EConst _ | EPlaceholder _ _ | EValUse _ _ | EBools _ => []
  | EValDef _ x | EFunc _ x | EProp _ x => [x]
  | EBlock items r => items ++ [r]
  | EApply f args | EMethod _ f args => f :: args
  | EBin _ l r => [l; r]
  | ESeq _ items => items
  | EOp OCreateAvlTree _ args _ => tl args
  | EOp _ _ args _ => args
  end.
Lemma print_text_eq e : print_text e = emit e (map print_text (operands e)).
Proof.
  destruct e; cbn [PrintTextModel.print_text operands map]; try reflexivity.
  - destruct k; try reflexivity. destruct args; reflexivity.
  - now rewrite map_app.
Qed.

Lemma expr_ops_ind (P : expr -> Prop) : (forall e, Forall P (operands e) -> P e) -> forall e, P e.
Proof.
  intros Hp. induction e using expr_ind'; apply Hp; cbn [operands]; auto.
  - destruct k; auto. destruct args; cbn; [constructor|]. now inversion H.
  - apply Forall_app. auto.
Qed.

Lemma emit_appends e ps : Forall appends ps -> appends (emit e ps).
Proof.
  intros F b d w. unfold PrintTextModel.emit. pose proof (run_moves (pieces e) ps F None w b d) as R. cbn [omove] in R.
  rewrite R. destruct (run (pieces e) ps None w) as [[[w1 st] ks]| |]; cbn [bind]; [|reflexivity|reflexivity].
  destruct (rebuild e); cbn [bind]; [|reflexivity|reflexivity]. f_equal. f_equal. cbn [shift]. f_equal.
  destruct st as [o|]; cbn; [|reflexivity]. f_equal. f_equal. lia.
Qed.
Theorem print_appends : forall e, appends (print_text e).
Proof.
  apply expr_ops_ind. intros e F. rewrite print_text_eq. apply emit_appends. now apply Forall_map.
Qed.

Lemma emit_places e ps : Forall places ps -> places (emit e ps).
Proof.
  intros F w w' m. unfold PrintTextModel.emit. destruct (run (pieces e) ps None w) as [[[w1 st] ks]| |] eqn:R; cbn [bind]; [|discriminate|discriminate].
  destruct (rebuild e); cbn [bind]; [|discriminate|discriminate]. intros [= <- <-].
  apply (run_places _ _ F) in R as (A & B & C). split; [exact A|]. rewrite within_eq. split; [|now apply in_order_all].
  destruct C as [->|(o & -> & D)]; cbn; [trivial|lia].
Qed.
Theorem print_places : forall e, places (print_text e).
Proof.
  apply expr_ops_ind. intros e F. rewrite print_text_eq. apply emit_places. now apply Forall_map.
Qed.

(** A printer run in the middle of a text does what it does on its own. *)
Lemma print_alone e w w' m : print_text e w = Ok (w', m) ->
  exists t j m0, print_text e (Writer [] 0 (w_ind w)) = Ok (Writer t (Zlen t) j, m0) /\
    w_buf w' = w_buf w ++ t /\ w_pos w' = w_pos w + Zlen t /\ m = shift (w_pos w) m0.
Proof.
  intros E. pose proof (print_appends e (w_buf w) (w_pos w) (Writer [] 0 (w_ind w))) as A.
  assert (M : mv (w_buf w) (w_pos w) (Writer [] 0 (w_ind w)) = w).
  { unfold mv. cbn. rewrite app_nil_r, Z.add_0_r. now destruct w. }
  rewrite M, E in A. destruct (print_text e (Writer [] 0 (w_ind w))) as [[[t l j] m0]| |] eqn:E0; [|discriminate|discriminate].
  apply print_places in E0 as E1. destruct E1 as [(u & U1 & U2) _]. cbn in U1, U2. subst u l.
  exists t, j, m0. split; [reflexivity|]. injection A as -> ->. cbn. auto.
Qed.

(** ** Nodes and their operands *)

(** The number of operands, which the Rust types fix. *)
Definition arity_ok (e : expr) : Prop :=
  match e with EOp k _ args _ => length args = op_arity k | _ => True end.

Lemma args_of_app l l' : args_of (l ++ l') = args_of l ++ args_of l'.
Proof. induction l as [|[]]; cbn; congruence. Qed.
Lemma args_of_each f g n : (forall i, args_of (f i) = [g i]) -> args_of (for_each f n) = map g (seq 0 n).
Proof.
  intros Hf. unfold for_each. generalize (seq 0 n). intros l. induction l as [|i l IH]; [reflexivity|].
  cbn [map concat]. now rewrite args_of_app, Hf, IH.
Qed.
Lemma args_of_puts {A} (f : A -> bytes) l : args_of (map (fun b => Put (f b)) l) = [].
Proof. induction l; cbn; auto. Qed.
Lemma pieces_operands e : arity_ok e -> args_of (pieces e) = seq 0 (length (operands e)).
Proof.
  destruct e; cbn [arity_ok]; intros A; try reflexivity.
  - destruct c. reflexivity.
  - cbn [operands PrintTextModel.pieces]. destruct k; cbn in A |- *; repeat (destruct args as [|? args]; cbn in A |- *; try discriminate A); reflexivity.
  - cbn [PrintTextModel.pieces args_of operands]. now rewrite args_of_app, args_of_puts.
  - destruct q; cbn [PrintTextModel.pieces args_of operands lines]; rewrite args_of_app, (args_of_each _ (fun i => i)), map_id by reflexivity;
      apply app_nil_r.
  - cbn [PrintTextModel.pieces args_of operands]. rewrite args_of_app, (args_of_each _ (fun i => i)), map_id by reflexivity.
    rewrite app_length. cbn [length args_of]. rewrite Nat.add_1_r, seq_S. reflexivity.
  - cbn [PrintTextModel.pieces args_of operands length]. rewrite args_of_app, (args_of_each _ Datatypes.S), app_nil_r by reflexivity.
    now rewrite seq_shift.
  - cbn [PrintTextModel.pieces args_of operands length]. rewrite args_of_app, (args_of_each _ Datatypes.S), app_nil_r by reflexivity.
    now rewrite seq_shift.
Qed.

Lemma every_operands Q e : every Q e -> Forall (every Q) (operands e).
Proof.
  destruct e; cbn [every operands]; intros [_ E]; rewrite ?each_every in E; auto.
  - destruct E as [E _]. destruct k; auto. destruct args; cbn; [constructor|]. now inversion E.
  - destruct E as [A B]. auto.
  - apply Forall_app. destruct E as [A B]. auto.
  - destruct E as [A B]. auto.
  - destruct E as [A B]. auto.
Qed.

(** One level: the children of a node are its operands, printed in the middle of
    its text. *)
Lemma emit_kids e w w' m : arity_ok e -> print_text e w = Ok (w', m) ->
  length (m_kids m) = length (operands e) /\
  in_order (w_pos w) (w_pos w') (m_kids m) /\
  forall n k, nth_error (m_kids m) n = Some k -> exists x w1 w2, nth_error (operands e) n = Some x /\
    print_text x w1 = Ok (w2, k) /\ extends w w1 /\ extends w2 w'.
Proof.
  intros Ar. rewrite print_text_eq. unfold PrintTextModel.emit.
  set (ps := map print_text (operands e)). assert (F : Forall places ps) by (apply Forall_map, Forall_forall; intros x _; apply print_places).
  destruct (run (pieces e) ps None w) as [[[w1 st] ks]| |] eqn:R; cbn [bind]; [|discriminate|discriminate].
  destruct (rebuild e) as [[]| |]; cbn [bind]; [|discriminate|discriminate]. intros [= <- <-]. cbn [m_kids].
  pose proof (run_places _ _ F _ _ _ _ _ R) as (_ & O & _).
  pose proof (run_kid _ _ F _ _ _ _ _ R) as [L K]. rewrite (pieces_operands e Ar), seq_length in L. split; [exact L|]. split; [exact O|].
  intros n k N. apply K in N as N'. destruct N' as (a & v1 & v2 & A & B & C & D). rewrite (pieces_operands e Ar) in A.
  assert (Ln : (n < length (operands e))%nat). { rewrite <- L. apply nth_error_Some. congruence. }
  assert (a = n). { pose proof (nth_error_nth _ _ 0%nat A) as X. rewrite seq_nth in X by exact Ln. lia. } subst a.
  destruct (nth_error (operands e) n) as [x|] eqn:X; [|apply nth_error_None in X; lia].
  exists x, v1, v2. split; [reflexivity|]. split; [|now split].
  rewrite <- B. unfold ps. rewrite (nth_indep _ _ (print_text x)) by (rewrite map_length; lia). rewrite map_nth.
  now rewrite (nth_error_nth _ _ x X).
Qed.

(** ** The indentation is that of [PrintModel] *)

Fixpoint irun (l : list piece) (fs : list (Z -> res Z)) (i : Z) : res Z :=
  match l with
  | [] => Ok i
  | Put _ :: l' | Start :: l' => irun l' fs i
  | Indent :: l' => _ <- print_indent i ;; irun l' fs i
  | Inc :: l' => irun l' fs (inc_ident i)
  | Dec :: l' => irun l' fs (dec_ident i)
  | Arg n :: l' => j <- nth n fs (@Ok Z) i ;; irun l' fs j
  end.
Definition same_indent (p : printer) (f : Z -> res Z) : Prop := forall w,
  match p w with Ok (w', _) => f (w_ind w) = Ok (w_ind w') | Panic => f (w_ind w) = Panic | Err _ => False end.
Lemma nth_same ps fs n : Forall2 same_indent ps fs -> same_indent (nth n ps no_print) (nth n fs (@Ok Z)).
Proof. intros F. revert n. induction F; intros [|n]; cbn; auto; intros w; reflexivity. Qed.
Lemma run_same l ps fs : Forall2 same_indent ps fs -> forall st w,
  match run l ps st w with Ok (w', _, _) => irun l fs (w_ind w) = Ok (w_ind w') | Panic => irun l fs (w_ind w) = Panic | Err _ => False end.
Proof.
  intros F. induction l as [|x l IH]; intros st w; [reflexivity|]. destruct x; cbn [run irun].
  - apply (IH st (put t w)).
  - pose proof (nth_same ps fs n F w) as N. destruct (nth n ps no_print w) as [[w1 m]| |]; [|contradiction|]; rewrite N; cbn [bind]; [|reflexivity].
    specialize (IH st w1). destruct (run l ps st w1) as [[[w2 st2] ks]| |]; exact IH.
  - unfold put_indent. unfold print_indent. destruct (w_ind w <? 2 ^ 63); cbn [bind]; [|reflexivity]. apply (IH st (put _ w)).
  - apply (IH st (inc w)).
  - apply (IH st (dec w)).
  - apply (IH _ w).
Qed.
Lemma irun_app l l' fs i : irun (l ++ l') fs i = (j <- irun l fs i ;; irun l' fs j).
Proof.
  revert i. induction l as [|x l IH]; intros i; [reflexivity|]. destruct x; cbn [app irun]; auto.
  - destruct (nth n fs (@Ok Z) i); cbn [bind]; auto.
  - destruct (print_indent i); cbn [bind]; auto.
Qed.
Lemma irun_each (f : nat -> list piece) fs (h : expr -> Z -> res Z) items : forall a i,
  (forall n x i, nth_error items n = Some x -> irun (f (a + n)%nat) fs i = h x i) ->
  irun (concat (map f (seq a (length items)))) fs i = print_each h items i.
Proof.
  induction items as [|x items IH]; intros a i Hf; [reflexivity|].
  cbn [length seq map concat print_each]. rewrite irun_app.
  pose proof (Hf 0%nat x i eq_refl) as H0. rewrite Nat.add_0_r in H0. rewrite H0.
  destruct (h x i) as [j| |]; cbn [bind]; [|reflexivity|reflexivity]. fold (print_each h). apply IH.
  intros n y i' N. change (S a + n)%nat with (S (a + n)). rewrite plus_n_Sm. now apply Hf.
Qed.
Lemma irun_puts {A} (f : A -> bytes) l fs i : irun (map (fun b => Put (f b)) l) fs i = Ok i.
Proof. induction l; cbn; auto. Qed.
Lemma nth_ops pre l post n x : nth_error l n = Some x ->
  nth (length pre + n) (pre ++ map print_expr l ++ post) (@Ok Z) = @print_expr G x.
Proof.
  intros N. assert (L : (n < length l)%nat) by (apply nth_error_Some; congruence).
  rewrite app_nth2_plus, app_nth1 by (rewrite map_length; exact L).
  rewrite (nth_indep _ _ (print_expr x)) by (rewrite map_length; exact L). rewrite map_nth. now rewrite (nth_error_nth _ _ x N).
Qed.
Lemma print_expr_eq (e : expr) i : arity_ok e ->
  print_expr e i = (j <- irun (pieces e) (map print_expr (operands e)) i ;; _ <- rebuild e ;; Ok j).
Proof.
  assert (One : forall r : res Z, r = (j <- r ;; Ok j)) by (intros []; reflexivity).
  destruct e; cbn [arity_ok]; intros A; try reflexivity.
  - destruct c. reflexivity.
  - cbn [operands PrintTextModel.pieces]. destruct k; cbn in A;
      repeat (destruct args as [|? args]; cbn in A; try discriminate A);
      cbn [print_expr print_each op_pieces call irun operands map nth bind tl];
      repeat (match goal with |- context [print_expr ?x ?j] => destruct (print_expr x j) end; cbn [bind print_each nth]; try reflexivity);
      try (destruct (print_indent _); reflexivity); try reflexivity.
  - cbn [print_expr PrintTextModel.pieces irun operands map nth]. destruct (print_expr e1 i) as [j| |]; cbn [bind]; [|reflexivity|reflexivity].
    destruct (print_expr e2 j); reflexivity.
  - cbn [print_expr PrintTextModel.pieces irun operands map]. rewrite irun_app, irun_puts. reflexivity.
  - assert (Each : forall n x i, nth_error items n = Some x -> nth n (map print_expr items) (@Ok Z) i = print_expr x i).
    { intros n x i0 N. pose proof (nth_ops [] items [] n x N) as E. cbn in E. rewrite app_nil_r in E. now rewrite E. }
    destruct q; cbn [print_expr PrintTextModel.pieces irun operands map lines]; rewrite irun_app; unfold for_each.
    + rewrite (irun_each _ _ print_expr items 0 i) by (intros n x i0 N; cbn [irun comma Nat.add]; rewrite (Each n x i0 N), <- One; reflexivity).
      destruct (print_each print_expr items i); reflexivity.
    + rewrite (irun_each _ _ (fun x i => let i := inc_ident i in _ <- print_indent i ;; i <- print_expr x i ;; Ok (dec_ident i)) items 0 i).
      2:{ intros n x i0 N. cbn [irun comma Nat.add]. destruct (print_indent (inc_ident i0)); cbn [bind]; [|reflexivity|reflexivity].
          now rewrite (Each n x _ N). }
      destruct (print_each _ items i) as [j| |]; cbn [bind]; [|reflexivity|reflexivity]. cbn [irun close]. destruct (print_indent j); reflexivity.
    + rewrite (irun_each _ _ (fun x i => let i := inc_ident i in _ <- print_indent i ;; i <- print_expr x i ;; Ok (dec_ident i)) items 0 i).
      2:{ intros n x i0 N. cbn [irun comma Nat.add]. destruct (print_indent (inc_ident i0)); cbn [bind]; [|reflexivity|reflexivity].
          now rewrite (Each n x _ N). }
      destruct (print_each _ items i) as [j| |]; cbn [bind]; [|reflexivity|reflexivity]. cbn [irun close]. destruct (print_indent j); reflexivity.
    + rewrite (irun_each _ _ print_expr items 0 i) by (intros n x i0 N; cbn [irun comma Nat.add]; rewrite (Each n x i0 N), <- One; reflexivity).
      destruct (print_each print_expr items i); reflexivity.
  - cbn [print_expr PrintTextModel.pieces irun operands map nth].
    destruct (print_indent (inc_ident (inc_ident i))); cbn [bind]; [|reflexivity|reflexivity].
    destruct (print_indent (inc_ident (inc_ident (inc_ident i)))); cbn [bind]; [|reflexivity|reflexivity].
    destruct (print_expr e (inc_ident (inc_ident (inc_ident i)))) as [j| |]; cbn [bind]; [|reflexivity|reflexivity].
    destruct (print_indent (dec_ident j)); reflexivity.
  - cbn [print_expr PrintTextModel.pieces irun operands map nth]. destruct (print_expr e i); reflexivity.
  - cbn [print_expr PrintTextModel.pieces irun operands]. rewrite irun_app. unfold for_each.
    rewrite (irun_each _ _ (fun x i => _ <- print_indent i ;; print_expr x i) items 0 (inc_ident i)).
    2:{ intros n x i0 N. cbn [irun Nat.add]. rewrite map_app. pose proof (nth_ops [] items (map print_expr [e]) n x N) as E. cbn [app length Nat.add] in E. rewrite E.
        destruct (print_indent i0); cbn [bind]; [now rewrite <- One|reflexivity|reflexivity]. }
    destruct (print_each _ items (inc_ident i)) as [j| |]; cbn [bind]; [|reflexivity|reflexivity]. cbn [irun].
    destruct (print_indent j); cbn [bind]; [|reflexivity|reflexivity].
    rewrite map_app, app_nth2, map_length, Nat.sub_diag by (rewrite map_length; lia). cbn [map nth].
    destruct (print_expr e j) as [j2| |]; cbn [bind]; [|reflexivity|reflexivity]. destruct (print_indent (dec_ident j2)); reflexivity.
  - cbn [print_expr PrintTextModel.pieces irun operands map nth]. destruct (print_expr e i) as [j| |]; cbn [bind]; [|reflexivity|reflexivity].
    rewrite irun_app. unfold for_each. rewrite (irun_each _ _ print_expr args 0 j).
    2:{ intros n x i0 N. cbn [irun Nat.add]. pose proof (nth_ops [print_expr e] args [] n x N) as E. rewrite app_nil_r in E.
        cbn [length app Nat.add] in E. rewrite E, <- One. reflexivity. }
    destruct (print_each print_expr args j); reflexivity.
  - cbn [print_expr PrintTextModel.pieces irun operands map nth]. destruct (print_expr e i) as [j| |]; cbn [bind]; [|reflexivity|reflexivity].
    rewrite irun_app. unfold for_each. rewrite (irun_each _ _ print_expr args 0 j).
    2:{ intros n x i0 N. cbn [irun Nat.add]. pose proof (nth_ops [print_expr e] args [] n x N) as E. rewrite app_nil_r in E.
        cbn [length app Nat.add] in E. rewrite E, <- One. reflexivity. }
    destruct (print_each print_expr args j); reflexivity.
  - cbn [print_expr PrintTextModel.pieces irun operands map nth]. destruct (print_expr e i); reflexivity.
Qed.

Theorem print_same_indent : forall e, every arity_ok e -> same_indent (print_text e) (print_expr e).
Proof.
  apply (expr_ops_ind (fun e => every arity_ok e -> same_indent (print_text e) (print_expr e))). intros e F Ar w.
  rewrite print_expr_eq by (now apply every_here). rewrite print_text_eq. unfold PrintTextModel.emit.
  assert (F2 : Forall2 same_indent (map print_text (operands e)) (map print_expr (operands e))).
  { apply every_operands in Ar. revert Ar. induction F as [|x l X F IH]; intros Ar; cbn; [constructor|]. inversion Ar; subst. constructor; auto. }
  pose proof (run_same (pieces e) _ _ F2 None w) as R.
  destruct (run (pieces e) (map print_text (operands e)) None w) as [[[w1 st] ks]| |]; [|contradiction|]; rewrite R; cbn [bind]; [|reflexivity].
  unfold rebuild. destruct (rebuilds e); reflexivity.
Qed.
End Text.
