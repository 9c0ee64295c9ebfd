(** Pretty printing: scripts for which it does not panic. *)
From Verif Require Import Base VlqModel GroupModel SigmaModel TypeModel MethodModel IrModel PrintModel SerSeg TypeProofs.
Local Open Scope string_scope.
Local Open Scope list_scope.
Local Open Scope Z_scope.

Section Print.
Context {G : group}.
Notation expr := (expr G).

(** [Q] holds of an expression and of all expressions inside it. *)
Fixpoint every (Q : expr -> Prop) (x : expr) : Prop :=
  let each := fix go l := match l with [] => True | y :: l' => every Q y /\ go l' end in
  Q x /\
  match x with
  | EConst _ | EPlaceholder _ _ | EBools _ | EValUse _ _ => True
  | EOp _ _ l d => each l /\ match d with Some y => every Q y | None => True end
  | EBin _ a b => every Q a /\ every Q b
  | ESeq _ l => each l
  | EFunc _ b => every Q b
  | EValDef _ r => every Q r
  | EBlock l r => each l /\ every Q r
  | EApply f l => every Q f /\ each l
  | EMethod _ o l => every Q o /\ each l
  | EProp _ o => every Q o
  end.
Lemma each_every Q l :
  (fix go (l : list expr) := match l with [] => True | y :: l' => every Q y /\ go l' end) l <-> Forall (every Q) l.
Proof.
  induction l as [|x l IH]; [split; [constructor|trivial]|]. rewrite IH. split.
  - intros [A B]. now constructor.
  - intros F. inversion F. auto.
Qed.
Lemma every_here Q x : every Q x -> Q x. Proof. destruct x; intros [A _]; exact A. Qed.

(** The number of nodes. *)
Definition total (f : expr -> Z) : list expr -> Z :=
  fix go l := match l with [] => 0 | x :: l' => f x + go l' end.
Fixpoint nodes (x : expr) : Z :=
  1 + match x with
      | EConst _ | EPlaceholder _ _ | EBools _ | EValUse _ _ => 0
      | EOp _ _ l d => total nodes l + match d with Some y => nodes y | None => 0 end
      | EBin _ a b => nodes a + nodes b
      | ESeq _ l => total nodes l
      | EFunc _ b => nodes b
      | EValDef _ r => nodes r
      | EBlock l r => total nodes l + nodes r
      | EApply f l => nodes f + total nodes l
      | EMethod _ o l => nodes o + total nodes l
      | EProp _ o => nodes o
      end.
Lemma total_pos f l : Forall (fun x => 1 <= f x) l -> 0 <= total f l.
Proof. induction 1; cbn [total]; [lia|]. fold (total f). lia. Qed.
Lemma nodes_pos : forall x, 1 <= nodes x.
Proof.
  induction x using expr_ind'; cbn [nodes]; try (apply total_pos in H); try (apply total_pos in H0); try lia.
  destruct d; lia.
Qed.
Lemma total_nonneg l : 0 <= total nodes l.
Proof. apply total_pos. apply Forall_forall. intros x _. apply nodes_pos. Qed.

(** A node that is rebuilt without complaint, and whose function, if it takes one
    and dedents after it, is written in place. *)
Definition in_place (args : list expr) : Prop := exists l a b, args = l ++ [EFunc a b].
Definition printable (x : expr) : Prop :=
  rebuilds x = true /\
  match x with EOp OFold _ args _ | EOp OFilter _ args _ => in_place args | _ => True end.

Definition room (i n : Z) : Prop := 0 <= i /\ i + 6 * n < 2 ^ 63.
(** What printing does to the indentation. *)
Definition steady (n : Z) (f : Z -> res Z) : Prop :=
  forall i, room i n -> exists j, f i = Ok j /\ i <= j <= i + 2 * n.
Definition raises (n : Z) (f : Z -> res Z) : Prop :=
  forall i, room i n -> exists j, f i = Ok j /\ i + 2 <= j <= i + 2 * n.
Definition prints (x : expr) : Prop :=
  steady (nodes x) (print_expr x) /\ match x with EFunc _ _ => raises (nodes x) (print_expr x) | _ => True end.

Lemma inc_eq i : 0 <= i < 2 ^ 63 -> inc_ident i = i + 2.
Proof. intros B. unfold inc_ident. apply wrapu_id. lia. Qed.
Lemma dec_eq i : 2 <= i < 2 ^ 63 -> dec_ident i = i - 2.
Proof. intros B. unfold dec_ident. apply wrapu_id. lia. Qed.
Lemma indent_ok i : i < 2 ^ 63 -> print_indent i = Ok tt.
Proof. intros B. unfold print_indent. apply Z.ltb_lt in B. now rewrite B. Qed.

Lemma print_each_steady (f : expr -> Z -> res Z) (n : expr -> Z) l :
  Forall (fun x => 1 <= n x /\ steady (n x) (f x)) l -> steady (total n l) (print_each f l).
Proof.
  induction 1 as [|x l [N S] F IH]; intros i R; [exists i; cbn; split; [reflexivity|lia]|].
  cbn [total] in R. fold (total n) in R. assert (T : 0 <= total n l). { apply total_pos. eapply Forall_impl; [|exact F]. cbn. tauto. }
  destruct (S i) as (j & E & B); [unfold room in *; lia|].
  destruct (IH j) as (k & E2 & B2); [unfold room in *; lia|].
  exists k. cbn [print_each]. rewrite E. cbn [bind]. fold (print_each f). rewrite E2. split; [reflexivity|].
  cbn [total]. fold (total n). lia.
Qed.
Lemma each_prints l : Forall (fun x => every printable x -> prints x) l -> Forall (every printable) l ->
  steady (total nodes l) (print_each print_expr l).
Proof.
  intros A B. apply print_each_steady. rewrite Forall_forall in *. intros x X. split; [apply nodes_pos|]. apply (A x X), B, X.
Qed.
Lemma check_ok (x : expr) (j : Z) : rebuilds x = true -> (_ <- rebuild x ;; Ok j) = Ok j.
Proof. intros E. unfold rebuild. now rewrite E. Qed.

(** A constructor-free view of the nodes with operands. *)
Lemma op_prints k p args d : Forall (fun x => every printable x -> prints x) args -> Forall (every printable) args ->
  printable (EOp k p args d) -> steady (nodes (EOp k p args d)) (print_expr (EOp k p args d)).
Proof.
  intros A B [Rb P] i R. cbn [nodes] in R.
  assert (D : 0 <= match d with Some y => nodes y | None => 0 end) by (destruct d; [pose proof (nodes_pos e); lia|lia]).
  cbn [nodes]. set (dn := match d with Some y => nodes y | None => 0 end) in *.
  assert (Main : forall l, steady (total nodes l) (print_each print_expr l) -> total nodes l <= total nodes args ->
    exists j, print_each print_expr l i = Ok j /\ i <= j <= i + 2 * (1 + (total nodes args + dn))).
  { intros l S T. destruct (S i) as (j & E & Bj); [unfold room in *; pose proof (total_nonneg l); lia|]. exists j. split; [exact E|lia]. }
  assert (Gen : exists j, (i <- print_each print_expr args i ;; _ <- rebuild (EOp k p args d) ;; Ok i) = Ok j /\
      i <= j <= i + 2 * (1 + (total nodes args + dn))).
  { destruct (Main args (each_prints _ A B)) as (j & E & Bj); [lia|]. exists j. rewrite E. cbn [bind]. now rewrite check_ok. }
  assert (Ded : in_place args -> exists j, (i <- print_each print_expr args i ;; _ <- print_indent i ;;
      _ <- rebuild (EOp k p args d) ;; Ok (dec_ident i)) = Ok j /\ i <= j <= i + 2 * (1 + (total nodes args + dn))).
  { intros (l & a & b & ->). apply Forall_app in A as [A1 A2]. apply Forall_app in B as [B1 B2].
    inversion A2 as [|? ? A3 _]; subst. inversion B2 as [|? ? B3 _]; subst. destruct (A3 B3) as [_ Rf].
    assert (T : total nodes (l ++ [EFunc a b]) = total nodes l + nodes (EFunc a b)).
    { clear. induction l as [|x l IH]; [cbn [app total]; lia|]. cbn [app total]. fold (total nodes). rewrite IH. lia. }
    rewrite T in *. pose proof (nodes_pos (EFunc a b)). pose proof (total_nonneg l).
    destruct (each_prints _ A1 B1 i) as (j & E & Bj); [unfold room in *; lia|].
    destruct (Rf j) as (m & Em & Bm); [unfold room in *; lia|].
    exists (m - 2). assert (Ea : print_each print_expr (l ++ [EFunc a b]) i = Ok m).
    { revert E. clear - Em. revert i. induction l as [|x l IH]; intros i E.
      - cbn in E. injection E as ->. cbn [app print_each]. rewrite Em. reflexivity.
      - cbn [app print_each] in *. destruct (print_expr x i); [|discriminate|discriminate]. cbn [bind] in *. apply IH, E. }
    rewrite Ea. cbn [bind]. unfold room in *. rewrite indent_ok by lia. cbn [bind]. rewrite check_ok by exact Rb.
    rewrite dec_eq by lia. split; [reflexivity|lia]. }
  destruct k; try exact Gen; try exact (Ded P).
  destruct args as [|x args]; [exact Gen|]. inversion A; subst. inversion B; subst.
  apply (Main args); [now apply each_prints|]. cbn [total]. fold (total nodes). pose proof (nodes_pos x). lia.
Qed.

Theorem print_prints : forall x, every printable x -> prints x.
Proof.
  assert (Leaf : forall x : expr, (forall i, print_expr x i = Ok i) -> steady (nodes x) (print_expr x)).
  { intros x E i R. exists i. rewrite E. pose proof (nodes_pos x). split; [reflexivity|lia]. }
  induction x using expr_ind'; intros E; split; try exact I.
  - now apply Leaf.
  - now apply Leaf.
  - destruct E as [P [El _]]. apply each_every in El. now apply op_prints.
  - destruct E as [_ [E1 E2]]. destruct (IHx1 E1) as [S1 _], (IHx2 E2) as [S2 _].
    intros i R. cbn [nodes] in *. pose proof (nodes_pos x1). pose proof (nodes_pos x2).
    destruct (S1 i) as (j & Ej & Bj); [unfold room in *; lia|]. destruct (S2 j) as (m & Em & Bm); [unfold room in *; lia|].
    exists m. cbn [print_expr]. rewrite Ej. cbn [bind]. rewrite Em. split; [reflexivity|lia].
  - now apply Leaf.
  - destruct E as [[Rb _] El]. apply each_every in El. intros i R. cbn [nodes] in *. pose proof (total_nonneg l).
    assert (Conj : exists j, (i <- print_each (fun x i => let i := inc_ident i in
                                  _ <- print_indent i ;;
                                  i <- print_expr x i ;; Ok (dec_ident i)) l i ;;
      _ <- print_indent i ;; Ok i) = Ok j /\ i <= j <= i + 2 * (1 + total nodes l)).
    { assert (S : forall i, 0 <= i -> i + 6 * (1 + total nodes l) < 2 ^ 63 -> exists j,
        print_each (fun x i => let i := inc_ident i in _ <- print_indent i ;; i <- print_expr x i ;; Ok (dec_ident i)) l i = Ok j /\
        i <= j <= i + 2 * total nodes l).
      { clear - H El. induction l as [|x l IH]; intros i I0 I1; [exists i; cbn; split; [reflexivity|lia]|].
        inversion H; subst. inversion El; subst. cbn [total] in *. fold (total nodes) in *.
        pose proof (nodes_pos x). pose proof (total_nonneg l). cbn [print_each]. rewrite inc_eq by lia. cbv zeta.
        rewrite indent_ok by lia. cbn [bind]. destruct (H2 H4) as [S _].
        destruct (S (i + 2)) as (j & Ej & Bj); [unfold room; lia|]. rewrite Ej. cbn [bind]. rewrite dec_eq by lia.
        destruct (IH H3 H5 (j - 2)) as (m & Em & Bm); [lia|lia|]. exists m. split; [exact Em|lia]. }
      unfold room in R. destruct (S i) as (j & Ej & Bj); [lia|lia|]. exists j. rewrite Ej. cbn [bind]. rewrite indent_ok by lia.
      split; [reflexivity|lia]. }
    destruct q; try exact Conj.
    + destruct (each_prints _ H El i) as (j & Ej & Bj); [unfold room in *; lia|]. exists j. split; [exact Ej|lia].
    + destruct (each_prints _ H El i) as (j & Ej & Bj); [unfold room in *; lia|]. exists j. cbn [print_expr]. rewrite Ej. cbn [bind].
      rewrite check_ok by exact Rb. split; [reflexivity|lia].
  - destruct E as [_ Eb]. destruct (IHx Eb) as [S _]. intros i R. cbn [nodes] in *. pose proof (nodes_pos x). unfold room in R.
    cbn [print_expr]. rewrite (inc_eq i) by lia. rewrite (inc_eq (i + 2)) by lia. cbv zeta. rewrite indent_ok by lia. cbn [bind].
    rewrite (inc_eq (i + 2 + 2)) by lia. rewrite indent_ok by lia. cbn [bind].
    destruct (S (i + 2 + 2 + 2)) as (j & Ej & Bj); [unfold room; lia|]. rewrite Ej. cbn [bind].
    rewrite (dec_eq j) by lia. rewrite indent_ok by lia. cbn [bind]. rewrite dec_eq by lia. eexists. split; [reflexivity|lia].
  - destruct E as [_ Eb]. destruct (IHx Eb) as [S _]. intros i R. cbn [nodes] in *. pose proof (nodes_pos x). unfold room in R.
    cbn [print_expr]. rewrite (inc_eq i) by lia. rewrite (inc_eq (i + 2)) by lia. cbv zeta. rewrite indent_ok by lia. cbn [bind].
    rewrite (inc_eq (i + 2 + 2)) by lia. rewrite indent_ok by lia. cbn [bind].
    destruct (S (i + 2 + 2 + 2)) as (j & Ej & Bj); [unfold room; lia|]. rewrite Ej. cbn [bind].
    rewrite (dec_eq j) by lia. rewrite indent_ok by lia. cbn [bind]. rewrite dec_eq by lia. eexists. split; [reflexivity|lia].
  - destruct E as [_ Eb]. destruct (IHx Eb) as [S _]. intros i0 R. cbn [nodes] in *. pose proof (nodes_pos x).
    destruct (S i0) as (j & Ej & Bj); [unfold room in *; lia|]. exists j. split; [exact Ej|lia].
  - now apply Leaf.
  - destruct E as [_ [El Er]]. apply each_every in El. destruct (IHx Er) as [Sr _]. intros i R. cbn [nodes] in *.
    pose proof (nodes_pos x). pose proof (total_nonneg l). unfold room in R. cbn [print_expr]. rewrite (inc_eq i) by lia. cbv zeta.
    assert (Sl : steady (total nodes l) (print_each (fun x i => _ <- print_indent i ;; print_expr x i) l)).
    { apply print_each_steady. rewrite Forall_forall in *. intros y Y. split; [apply nodes_pos|]. intros k Rk.
      pose proof (nodes_pos y). unfold room in Rk. rewrite indent_ok by lia. cbn [bind]. apply (H y Y (El y Y)). exact Rk. }
    destruct (Sl (i + 2)) as (j & Ej & Bj); [unfold room; lia|]. rewrite Ej. cbn [bind]. rewrite indent_ok by lia. cbn [bind].
    destruct (Sr j) as (m & Em & Bm); [unfold room; lia|]. rewrite Em. cbn [bind]. rewrite dec_eq by lia. rewrite indent_ok by lia.
    eexists. split; [reflexivity|lia].
  - destruct E as [[Rb _] [Ef El]]. apply each_every in El. destruct (IHx Ef) as [Sf _]. intros i R. cbn [nodes] in *.
    pose proof (nodes_pos x). pose proof (total_nonneg l). unfold room in R. cbn [print_expr].
    destruct (Sf i) as (j & Ej & Bj); [unfold room; lia|]. rewrite Ej. cbn [bind].
    destruct (each_prints _ H El j) as (m & Em & Bm); [unfold room; lia|]. rewrite Em. cbn [bind]. rewrite check_ok by exact Rb.
    eexists. split; [reflexivity|lia].
  - destruct E as [_ [Ef El]]. apply each_every in El. destruct (IHx Ef) as [Sf _]. intros i R. cbn [nodes] in *.
    pose proof (nodes_pos x). pose proof (total_nonneg l). unfold room in R. cbn [print_expr].
    destruct (Sf i) as (j & Ej & Bj); [unfold room; lia|]. rewrite Ej. cbn [bind].
    destruct (each_prints _ H El j) as (q & Em & Bm); [unfold room; lia|]. rewrite Em. eexists. split; [reflexivity|lia].
  - destruct E as [_ Eb]. destruct (IHx Eb) as [S _]. intros i R. cbn [nodes] in *. pose proof (nodes_pos x).
    destruct (S i) as (j & Ej & Bj); [unfold room in *; lia|]. exists j. split; [exact Ej|lia].
Qed.

Theorem pretty_print_ok x : every printable x -> 6 * nodes x < 2 ^ 63 -> pretty_print x = Ok tt.
Proof.
  intros E N. destruct (print_prints x E) as [S _]. destruct (S 0) as (j & Ej & _); [unfold room; lia|].
  unfold pretty_print. rewrite Ej. reflexivity.
Qed.
End Print.
