(** Facts about the ErgoScript compiler used in CompilerProps.v. *)
From Verif Require Import Base VlqModel GroupModel SigmaModel TypeModel MethodModel IrModel SerModel ChainModel JsonModel
  CompilerModel TypeProofs TxProps.
Import SigmaModel.
Local Open Scope string_scope.
Local Open Scope list_scope.
Local Open Scope Z_scope.

(** ** Lexing *)
Lemma run_le : forall f s, (run f s <= List.length s)%nat.
Proof. intros f s; induction s as [|c s IH]; cbn [run List.length]; [lia|]. destruct (f c); lia. Qed.
Lemma run_all : forall f s, Forall (fun c => f c = true) (firstn (run f s) s).
Proof. intros f s; induction s as [|c s IH]; cbn [run firstn]; [constructor|]. destruct (f c) eqn:E; cbn [firstn]; constructor; auto. Qed.
Lemma skipn_some_lt {A} : forall n (l : list A) x r, skipn n l = x :: r -> (n < List.length l)%nat.
Proof. intros n l x r E. destruct (Nat.lt_ge_cases n (List.length l)); [assumption|]. rewrite skipn_all2 in E by lia. discriminate. Qed.
Lemma lex1_bounds : forall c s, (1 <= snd (lex1 (c :: s)) <= S (List.length s))%nat.
Proof.
  intros c s. unfold lex1.
  destruct (is_space c); [cbn [snd]; pose proof (run_le is_space s); lia|].
  destruct (is_alpha c); [cbn [snd]; pose proof (run_le is_alnum s); lia|].
  destruct (is_digit c).
  { pose proof (run_le is_digit s). cbn [skipn]. destruct (skipn (run is_digit s) s) as [|d r] eqn:E; [cbn [snd]; lia|].
    apply skipn_some_lt in E. destruct (d =? 76); cbn [snd]; lia. }
  destruct (c =? 43); [cbn; lia|]. destruct (c =? 45); [cbn; lia|]. destruct (c =? 42); [cbn; lia|].
  destruct (c =? 47).
  { destruct s as [|d s]; [cbn; lia|]. pose proof (run_le (fun x => negb (x =? 10)) s). destruct (d =? 47); cbn [snd List.length]; lia. }
  destruct (c =? 38).
  { destruct s as [|d s]; [cbn; lia|]. destruct (d =? 38); cbn [snd List.length]; lia. }
  destruct (c =? 61); [cbn; lia|]. destruct (c =? 40); [cbn; lia|]. destruct (c =? 41); [cbn; lia|].
  destruct (c =? 123); [cbn; lia|]. destruct (c =? 125); cbn; lia.
Qed.
Lemma lex_f_text : forall f pos s, (List.length s <= f)%nat -> List.concat (map tok_text (lex_f f pos s)) = s.
Proof.
  induction f as [|f IH]; intros pos [|c s] L; cbn [lex_f]; cbn [List.length] in L; try reflexivity; [lia|].
  pose proof (lex1_bounds c s) as B. destruct (lex1 (c :: s)) as [k n] eqn:E. cbn [snd] in B. cbn [map List.concat tok_text].
  rewrite IH; [apply firstn_skipn|]. rewrite skipn_length. cbn [List.length]. lia.
Qed.
Lemma lex_text : forall s, List.concat (map tok_text (lex s)) = s.
Proof. intros s. apply lex_f_text. lia. Qed.
(** Tokens follow one another. *)
Inductive laid : Z -> list token -> Prop :=
| laid_nil p : laid p []
| laid_cons k p x l : x <> [] -> laid (p + Zlen x) l -> laid p (Tok k p x :: l).
Lemma lex_f_laid : forall f pos s, laid pos (lex_f f pos s).
Proof.
  induction f as [|f IH]; intros pos [|c s]; cbn [lex_f]; try constructor.
  pose proof (lex1_bounds c s) as B. destruct (lex1 (c :: s)) as [k n] eqn:E. cbn [snd] in B. constructor.
  - destruct n as [|n]; [lia|]. discriminate.
  - assert (Zlen (firstn n (c :: s)) = Z.of_nat n) as ->; [|apply IH].
    unfold Zlen. rewrite firstn_length. cbn [List.length]. lia.
Qed.
Lemma lex_laid : forall s, laid 0 (lex s).
Proof. intros. apply lex_f_laid. Qed.

(** The texts of numbers. *)
Definition tok_ok (t : token) : Prop :=
  match tok_kind t with
  | KInt => tok_text t <> [] /\ Forall (fun c => is_digit c = true) (tok_text t)
  | KLong => exists d, tok_text t = d ++ [76] /\ d <> [] /\ Forall (fun c => is_digit c = true) d
  | KIdent => tok_text t <> []
  | _ => True
  end.
Lemma firstn_S_skipn {A} : forall n (l : list A) x r, skipn n l = x :: r -> firstn (S n) l = firstn n l ++ [x].
Proof.
  induction n as [|n IH]; intros [|y l] x r E; cbn [skipn] in E; try discriminate.
  - injection E as -> ->. reflexivity.
  - cbn [firstn app]. f_equal. apply (IH _ _ _ E).
Qed.
Lemma lex1_ok : forall c s pos, let '(k, n) := lex1 (c :: s) in tok_ok (Tok k pos (firstn n (c :: s))).
Proof.
  intros c s pos. unfold lex1.
  destruct (is_space c); [exact I|].
  destruct (is_alpha c).
  { unfold tok_ok. cbn [tok_kind tok_text]. destruct (bytes_eqb _ (txt "def")); [exact I|]. destruct (bytes_eqb _ (txt "val")); [exact I|].
    discriminate. }
  destruct (is_digit c) eqn:D.
  { cbn [skipn]. pose proof (run_all is_digit s) as A. destruct (skipn (run is_digit s) s) as [|d r] eqn:E.
    - unfold tok_ok. cbn [tok_kind tok_text firstn]. split; [discriminate|]. constructor; assumption.
    - destruct (Z.eqb_spec d 76) as [->|].
      + unfold tok_ok. cbn [tok_kind tok_text]. exists (c :: firstn (run is_digit s) s).
        split; [|split; [discriminate|constructor; assumption]]. change (firstn (S (S (run is_digit s))) (c :: s)) with (c :: firstn (S (run is_digit s)) s).
        cbn [app]. f_equal. apply (firstn_S_skipn _ _ _ _ E).
      + unfold tok_ok. cbn [tok_kind tok_text firstn]. split; [discriminate|]. constructor; assumption. }
  destruct (c =? 43); [exact I|]. destruct (c =? 45); [exact I|]. destruct (c =? 42); [exact I|].
  destruct (c =? 47). { destruct s as [|d s]; [exact I|]. destruct (d =? 47); exact I. }
  destruct (c =? 38). { destruct s as [|d s]; [exact I|]. destruct (d =? 38); exact I. }
  destruct (c =? 61); [exact I|]. destruct (c =? 40); [exact I|]. destruct (c =? 41); [exact I|].
  destruct (c =? 123); [exact I|]. destruct (c =? 125); exact I.
Qed.
Lemma lex_f_ok : forall f pos s, Forall tok_ok (lex_f f pos s).
Proof.
  induction f as [|f IH]; intros pos [|c s]; cbn [lex_f]; try constructor.
  pose proof (lex1_ok c s pos) as B. destruct (lex1 (c :: s)) as [k n]. constructor; auto.
Qed.
Lemma lex_ok : forall s, Forall tok_ok (lex s).
Proof. intros. apply lex_f_ok. Qed.

(** ** Trivia *)
Definition leaf_tokens (l : cleaf) : list token := fst l :: snd l.
Definition leaf_ok (l : cleaf) : Prop := is_trivia (fst l) = false /\ Forall (fun t => is_trivia t = true) (snd l).
Lemma trivia_split : forall l a b, trivia l = (a, b) ->
  l = a ++ b /\ Forall (fun t => is_trivia t = true) a /\ match b with t :: _ => is_trivia t = false | [] => True end.
Proof.
  induction l as [|t l IH]; intros a b E; cbn [trivia] in E.
  - injection E as <- <-. repeat split; constructor.
  - destruct (is_trivia t) eqn:T.
    + destruct (trivia l) as [a' b'] eqn:E'. injection E as <- <-. destruct (IH _ _ eq_refl) as (-> & F & B).
      repeat split; auto.
    + injection E as <- <-. repeat split; [constructor|assumption].
Qed.
Lemma leaves_f_tokens : forall f l, (List.length l <= f)%nat ->
  match l with t :: _ => is_trivia t = false | [] => True end ->
  flat_map leaf_tokens (leaves_f f l) = l /\ Forall leaf_ok (leaves_f f l).
Proof.
  induction f as [|f IH]; intros [|t l] L T; cbn [leaves_f]; cbn [List.length] in L; try (split; [reflexivity|constructor]); [lia|].
  destruct (trivia l) as [a b] eqn:E. destruct (trivia_split _ _ _ E) as (-> & F & B).
  rewrite app_length in L. destruct (IH b ltac:(lia) B) as [X Y]. split.
  - cbn [flat_map leaf_tokens fst snd app]. f_equal. f_equal. exact X.
  - constructor; [split; assumption|assumption].
Qed.
Lemma leaves_tokens : forall l lead ls, leaves l = (lead, ls) ->
  l = lead ++ flat_map leaf_tokens ls /\ Forall (fun t => is_trivia t = true) lead /\ Forall leaf_ok ls.
Proof.
  intros l lead ls E. unfold leaves in E. destruct (trivia l) as [a b] eqn:T. destruct (trivia_split _ _ _ T) as (-> & F & B).
  injection E as <- <-. destruct (leaves_f_tokens (List.length b) b (le_n _) B) as [X Y]. repeat split; [|assumption|assumption].
  now rewrite X.
Qed.
Definition significant (l : list token) : list token := filter (fun t => negb (is_trivia t)) l.
Lemma filter_trivia : forall l, Forall (fun t => is_trivia t = true) l -> significant l = [].
Proof. induction 1 as [|t l T _ IH]; [reflexivity|]. unfold significant. cbn [filter]. rewrite T. exact IH. Qed.
Lemma filter_leaves : forall ls, Forall leaf_ok ls -> significant (flat_map leaf_tokens ls) = map fst ls.
Proof.
  induction 1 as [|l ls [A B] _ IH]; [reflexivity|]. cbn [flat_map leaf_tokens app map]. unfold significant in *.
  cbn [filter]. rewrite A. cbn [negb]. f_equal. rewrite filter_app. rewrite (filter_trivia _ B : filter _ _ = []). exact IH.
Qed.

(** ** Parsing keeps the input *)
Fixpoint node_leaves (n : node) : list cleaf :=
  match n with NTok l => [l] | NNode _ c => flat_map node_leaves c end.
Section NodeInd.
Variable P : node -> Prop.
Hypothesis Ptok : forall l, P (NTok l).
Hypothesis Pnode : forall k c, Forall P c -> P (NNode k c).
Fixpoint node_ind' (n : node) : P n :=
  match n with
  | NTok l => Ptok l
  | NNode k c => Pnode k c ((fix go (c : list node) : Forall P c := match c with [] => Forall_nil P | x :: c' => Forall_cons x (node_ind' x) (go c') end) c)
  end.
End NodeInd.
Lemma node_leaves_tokens : forall n, node_tokens n = flat_map leaf_tokens (node_leaves n).
Proof.
  induction n as [l|k c IH] using node_ind'; cbn [node_tokens node_leaves].
  - cbn. now rewrite app_nil_r.
  - induction IH as [|x c X _ IH]; [reflexivity|]. cbn [flat_map]. rewrite flat_map_app, <- X, IH. reflexivity.
Qed.
Section Keep.
Variable ls : span.
Lemma expr_bp_S : forall f min ts, expr_bp ls (S f) min ts =
  match ts with
  | [] => (false, p_error ls ts)
  | l :: r =>
      match tok_kind (fst l) with
      | KInt => climb ls f min (NNode NIntNumber [NTok l]) [] r
      | KLong => climb ls f min (NNode NLongNumber [NTok l]) [] r
      | KIdent => climb ls f min (NNode NIdent [NTok l]) [] r
      | KMinus =>
          let '(_, (c, e, r)) := expr_bp ls f 5 r in
          climb ls f min (NNode NPrefix (NTok l :: c)) e r
      | KLParen =>
          let '(_, (c, e, r)) := expr_bp ls f 0 r in
          let '(c', e', r) := expect ls KRParen r in
          climb ls f min (NNode NParen (NTok l :: c ++ c')) (e ++ e') r
      | _ => (false, p_error ls ts)
      end
  end.
Proof. reflexivity. Qed.
Lemma climb_S : forall f min lhs errs ts, climb ls (S f) min lhs errs ts =
  match ts with
  | [] => (true, ([lhs], errs, ts))
  | l :: r =>
      match binding_power (tok_kind (fst l)) with
      | None => (true, ([lhs], errs, ts))
      | Some (lb, rb) =>
          if lb <? min then (true, ([lhs], errs, ts))
          else
            let '(found, (c, e, r)) := expr_bp ls f rb r in
            let n := NNode NInfix (lhs :: NTok l :: c) in
            if found then climb ls f min n (errs ++ e) r else (true, ([n], errs ++ e, r))
      end
  end.
Proof. reflexivity. Qed.
Lemma p_error_keeps : forall ts c e r, p_error ls ts = (c, e, r) -> flat_map node_leaves c ++ r = ts.
Proof. intros [|l ts] c e r E; injection E as <- <- <-; reflexivity. Qed.
Lemma expect_keeps : forall k ts c e r, expect ls k ts = (c, e, r) -> flat_map node_leaves c ++ r = ts.
Proof.
  intros k [|l ts] c e r E; unfold expect in E; [now apply (p_error_keeps _ _ _ _ E)|].
  destruct (kind_eqb _ _); [injection E as <- <- <-; reflexivity|now apply (p_error_keeps _ _ _ _ E)].
Qed.
Lemma expr_keeps : forall f,
  (forall min ts b c e r, expr_bp ls f min ts = (b, (c, e, r)) -> flat_map node_leaves c ++ r = ts) /\
  (forall min lhs errs ts b c e r, climb ls f min lhs errs ts = (b, (c, e, r)) ->
     flat_map node_leaves c ++ r = node_leaves lhs ++ ts).
Proof.
  induction f as [|f [IHe IHc]].
  { split; intros; cbn [expr_bp climb] in *; injection H as <- <- <- <-; cbn [flat_map]; [reflexivity|now rewrite app_nil_r]. }
  split.
  - intros min ts b c e r E. rewrite expr_bp_S in E. destruct ts as [|l ts].
    { apply pair_equal_spec in E as [_ E]. now apply p_error_keeps in E. }
    assert (ERR : (false, p_error ls (l :: ts)) = (b, (c, e, r)) -> flat_map node_leaves c ++ r = l :: ts).
    { intros Q. apply pair_equal_spec in Q as [_ Q]. now apply p_error_keeps in Q. }
    destruct (tok_kind (fst l)); try (apply ERR; exact E); try (apply IHc in E; exact E).
    + destruct (expr_bp ls f 5 ts) as [b1 [[c1 e1] r1]] eqn:E1. apply IHe in E1. apply IHc in E.
      rewrite E. cbn [node_leaves flat_map app]. now rewrite E1.
    + destruct (expr_bp ls f 0 ts) as [b1 [[c1 e1] r1]] eqn:E1. apply IHe in E1.
      destruct (expect ls KRParen r1) as [[c2 e2] r2] eqn:E2. apply expect_keeps in E2. apply IHc in E.
      rewrite E. cbn [node_leaves flat_map app]. rewrite flat_map_app, <- app_assoc, E2, E1. reflexivity.
  - intros min lhs errs ts b c e r E. rewrite climb_S in E.
    assert (STOP : (true, ([lhs], errs, ts)) = (b, (c, e, r)) -> flat_map node_leaves c ++ r = node_leaves lhs ++ ts).
    { intros Q. injection Q as <- <- <- <-. cbn [flat_map]. now rewrite app_nil_r. }
    destruct ts as [|l ts]; [apply STOP; exact E|].
    destruct (binding_power _) as [[lb rb]|]; [|apply STOP; exact E].
    destruct (lb <? min); [apply STOP; exact E|].
    destruct (expr_bp ls f rb ts) as [b1 [[c1 e1] r1]] eqn:E1. apply IHe in E1.
    assert (Q : node_leaves (NNode NInfix (lhs :: NTok l :: c1)) ++ r1 = node_leaves lhs ++ l :: ts).
    { cbn [node_leaves flat_map app]. rewrite <- app_assoc. cbn [app]. now rewrite E1. }
    destruct b1.
    + apply IHc in E. now rewrite E.
    + injection E as <- <- <- <-. rewrite <- Q. cbn [flat_map]. now rewrite app_nil_r.
Qed.
Lemma stmt_keeps : forall ts c e r, stmt ls ts = (c, e, r) -> flat_map node_leaves c ++ r = ts.
Proof.
  intros ts c e r E. unfold stmt in E.
  assert (X : snd (expr_bp ls (S (List.length ts)) 0 ts) = (c, e, r) -> flat_map node_leaves c ++ r = ts).
  { intros Q. destruct (expr_bp ls _ 0 ts) as [b o] eqn:B. cbn [snd] in Q. subst o. now apply (proj1 (expr_keeps _)) in B. }
  destruct ts as [|l ts]; [apply X; exact E|]. destruct (kind_eqb _ KVal); [|apply X; exact E]. clear X.
  destruct (expect ls KIdent ts) as [[c1 e1] r1] eqn:E1. apply expect_keeps in E1.
  destruct (expect ls KEquals r1) as [[c2 e2] r2] eqn:E2. apply expect_keeps in E2.
  destruct (expr_bp ls (S (List.length r2)) 0 r2) as [b3 [[c3 e3] r3]] eqn:E3. apply (proj1 (expr_keeps _)) in E3.
  injection E as <- <- <-. cbn [flat_map node_leaves app]. rewrite app_nil_r, !flat_map_app, <- !app_assoc, E3, E2, E1. reflexivity.
Qed.
Lemma climb_len : forall f min lhs errs ts b c e r, climb ls f min lhs errs ts = (b, (c, e, r)) -> (List.length r <= List.length ts)%nat.
Proof.
  induction f as [|f IH]; intros min lhs errs ts b c e r E; [injection E as <- <- <- <-; lia|]; rewrite climb_S in E.
  destruct ts as [|l ts]; [injection E as <- <- <- <-; lia|].
  destruct (binding_power _) as [[lb rb]|]; [|injection E as <- <- <- <-; lia].
  destruct (lb <? min); [injection E as <- <- <- <-; lia|].
  destruct (expr_bp ls f rb ts) as [b1 [[c1 e1] r1]] eqn:E1. apply (proj1 (expr_keeps f)) in E1.
  assert (List.length r1 <= List.length ts)%nat by (rewrite <- E1, app_length; lia).
  destruct b1; [apply IH in E|injection E as <- <- <- <-]; cbn [List.length]; lia.
Qed.
(** A statement takes at least one token. *)
Lemma p_error_short : forall l ts c e r, p_error ls (l :: ts) = (c, e, r) -> (List.length r <= List.length ts)%nat.
Proof. intros l ts c e r E. injection E as <- <- <-. lia. Qed.
Lemma expr_short : forall f min l ts b c e r, expr_bp ls (S f) min (l :: ts) = (b, (c, e, r)) -> (List.length r <= List.length ts)%nat.
Proof.
  intros f min l ts b c e r E. rewrite expr_bp_S in E.
  assert (ERR : (false, p_error ls (l :: ts)) = (b, (c, e, r)) -> (List.length r <= List.length ts)%nat).
  { intros Q. apply pair_equal_spec in Q as [_ Q]. now apply p_error_short in Q. }
  destruct (tok_kind (fst l)); try (apply ERR; exact E); try (apply climb_len in E; exact E).
  - destruct (expr_bp ls f 5 ts) as [b1 [[c1 e1] r1]] eqn:E1. apply (proj1 (expr_keeps f)) in E1. apply climb_len in E.
    assert (List.length r1 <= List.length ts)%nat by (rewrite <- E1, app_length; lia). lia.
  - destruct (expr_bp ls f 0 ts) as [b1 [[c1 e1] r1]] eqn:E1. apply (proj1 (expr_keeps f)) in E1.
    destruct (expect ls KRParen r1) as [[c2 e2] r2] eqn:E2. apply expect_keeps in E2. apply climb_len in E.
    assert (List.length r1 <= List.length ts)%nat by (rewrite <- E1, app_length; lia).
    assert (List.length r2 <= List.length r1)%nat by (rewrite <- E2, app_length; lia). lia.
Qed.
Lemma stmt_short : forall l ts c e r, stmt ls (l :: ts) = (c, e, r) -> (List.length r <= List.length ts)%nat.
Proof.
  intros l ts c e r E. unfold stmt in E. destruct (kind_eqb _ KVal).
  - destruct (expect ls KIdent ts) as [[c1 e1] r1] eqn:E1. apply expect_keeps in E1.
    destruct (expect ls KEquals r1) as [[c2 e2] r2] eqn:E2. apply expect_keeps in E2.
    destruct (expr_bp ls (S (List.length r2)) 0 r2) as [b3 [[c3 e3] r3]] eqn:E3. apply (proj1 (expr_keeps _)) in E3.
    injection E as <- <- <-. rewrite <- E1, <- E2, <- E3, !app_length. lia.
  - destruct (expr_bp ls _ 0 _) as [b o] eqn:B. cbn [snd] in E. subst o. cbn [List.length] in B. now apply expr_short in B.
Qed.
Lemma stmts_keeps : forall f ts c e, (List.length ts <= f)%nat -> stmts ls f ts = (c, e) -> flat_map node_leaves c = ts.
Proof.
  induction f as [|f IH]; intros [|l ts] c e L E; cbn [stmts] in E; cbn [List.length] in L; try (injection E as <- <-; reflexivity); [lia|].
  destruct (stmt ls (l :: ts)) as [[c1 e1] r1] eqn:E1. pose proof (stmt_short _ _ _ _ _ E1). apply stmt_keeps in E1.
  destruct (stmts ls f r1) as [c2 e2] eqn:E2. injection E as <- <-. apply IH in E2; [|lia]. rewrite flat_map_app, E2. exact E1.
Qed.
End Keep.

Lemma parse_eq : forall s root e, parse s = (root, e) -> exists lead ls c,
  root = NNode NRoot (map (fun t => NTok (t, [])) lead ++ c) /\ leaves (lex s) = (lead, ls) /\
  stmts (last_range (lex s)) (List.length ls) ls = (c, e) /\ flat_map node_leaves c = ls /\
  Forall leaf_ok ls /\ significant (lex s) = map fst ls.
Proof.
  intros s root e E. unfold parse in E. destruct (leaves (lex s)) as [lead ls] eqn:L.
  destruct (stmts (last_range (lex s)) (List.length ls) ls) as [c e'] eqn:S. injection E as <- <-.
  destruct (leaves_tokens _ _ _ L) as (T & F1 & F2). exists lead, ls, c. repeat split; auto.
  - apply stmts_keeps in S; auto.
  - rewrite T. unfold significant. rewrite filter_app. rewrite (filter_trivia _ F1 : filter _ _ = []). apply (filter_leaves _ F2).
Qed.
Lemma parse_tokens : forall s, node_tokens (fst (parse s)) = lex s.
Proof.
  intros s. destruct (parse s) as [root e] eqn:E. destruct (parse_eq _ _ _ E) as (lead & ls & c & -> & L & S & K & _ & _).
  destruct (leaves_tokens _ _ _ L) as (T & _ & _). cbn [fst]. rewrite node_leaves_tokens. cbn [node_leaves].
  rewrite flat_map_app, flat_map_app, K, T. f_equal. clear. induction lead as [|t l IH]; [reflexivity|]. cbn. now rewrite IH.
Qed.

(** ** Trees without errors *)
Definition top_bp (n : node) : Z :=
  match n with
  | NNode NInfix (_ :: NTok l :: _) => match binding_power (tok_kind (fst l)) with Some (lb, _) => lb | None => 0 end
  | _ => 9
  end.
Definition atom_kind (k : skind) (t : tkind) : Prop :=
  match k, t with NIntNumber, KInt | NLongNumber, KLong | NIdent, KIdent => True | _, _ => False end.
Inductive wfe : node -> Prop :=
| wf_atom k l : atom_kind k (tok_kind (fst l)) -> wfe (NNode k [NTok l])
| wf_prefix l c : tok_kind (fst l) = KMinus -> wfe c -> wfe (NNode NPrefix [NTok l; c])
| wf_paren l c r : tok_kind (fst l) = KLParen -> wfe c -> wfe (NNode NParen [NTok l; c; NTok r])
| wf_infix a l b lb rb :
    binding_power (tok_kind (fst l)) = Some (lb, rb) -> wfe a -> wfe b -> rb <= top_bp b ->
    wfe (NNode NInfix [a; NTok l; b]).
Section Clean.
Variable ls : span.
Lemma p_error_err : forall ts c r, p_error ls ts <> (c, [], r).
Proof. intros [|l ts] c r E; discriminate. Qed.
Lemma expect_clean : forall k ts c r, expect ls k ts = (c, [], r) -> exists l, c = [NTok l] /\ ts = l :: r.
Proof.
  intros k [|l ts] c r E; unfold expect in E; [now apply p_error_err in E|].
  destruct (kind_eqb _ _); [injection E as <- <-; eauto|now apply p_error_err in E].
Qed.
Lemma climb_errs : forall g min lhs errs ts b c r, climb ls g min lhs errs ts = (b, (c, [], r)) -> errs = [].
Proof.
  induction g as [|g IH]; intros min lhs errs ts b c r E; [injection E as <- <- X <-; now apply app_eq_nil in X as [_ ?]|].
  rewrite climb_S in E. destruct ts as [|l ts]; [injection E as <- <- <- <-; reflexivity|].
  destruct (binding_power _) as [[lb rb]|]; [|injection E as <- <- <- <-; reflexivity].
  destruct (lb <? min); [injection E as <- <- <- <-; reflexivity|].
  destruct (expr_bp ls g rb ts) as [b1 [[c1 e1] r1]]. destruct b1.
  - apply IH in E. now apply app_eq_nil in E as [? _].
  - injection E as <- <- X <-. now apply app_eq_nil in X as [? _].
Qed.
Lemma expr_clean : forall f,
  (forall min ts b c r, min <= 9 -> expr_bp ls f min ts = (b, (c, [], r)) -> b = true /\ exists n, c = [n] /\ wfe n /\ min <= top_bp n) /\
  (forall min lhs errs ts b c r, wfe lhs -> min <= top_bp lhs -> climb ls f min lhs errs ts = (b, (c, [], r)) ->
     errs = [] /\ b = true /\ exists n, c = [n] /\ wfe n /\ min <= top_bp n).
Proof.
  induction f as [|f [IHe IHc]].
  { split; intros; cbn [expr_bp climb] in *.
    - discriminate.
    - injection H1 as <- <- X <-. now apply app_eq_nil in X as [_ ?]. }
  split.
  - intros min ts b c r M E. rewrite expr_bp_S in E. destruct ts as [|l ts].
    { apply pair_equal_spec in E as [_ E]. now apply p_error_err in E. }
    assert (ERR : (false, p_error ls (l :: ts)) = (b, (c, [], r)) -> b = true /\ exists n, c = [n] /\ wfe n /\ min <= top_bp n).
    { intros Q. apply pair_equal_spec in Q as [_ Q]. now apply p_error_err in Q. }
    destruct (tok_kind (fst l)) eqn:K; try (apply ERR; exact E).
    + apply IHc in E; [apply E| |cbn; lia]. apply wf_atom. now rewrite K.
    + apply IHc in E; [apply E| |cbn; lia]. apply wf_atom. now rewrite K.
    + apply IHc in E; [apply E| |cbn; lia]. apply wf_atom. now rewrite K.
    + destruct (expr_bp ls f 5 ts) as [b1 [[c1 e1] r1]] eqn:E1.
      destruct e1 as [|x e1].
      * apply IHe in E1 as [-> (n & -> & W & _)]; [|lia]. apply IHc in E; [apply E| |cbn; lia]. now apply wf_prefix.
      * apply climb_errs in E. discriminate.
    + destruct (expr_bp ls f 0 ts) as [b1 [[c1 e1] r1]] eqn:E1.
      destruct (expect ls KRParen r1) as [[c2 e2] r2] eqn:E2.
      pose proof (climb_errs _ _ _ _ _ _ _ _ E) as Q. apply app_eq_nil in Q as [-> ->].
      apply IHe in E1 as [-> (n & -> & W & _)]; [|lia]. apply expect_clean in E2 as (q & -> & ->).
      apply IHc in E; [apply E| |cbn; lia]. now apply wf_paren.
  - intros min lhs errs ts b c r W M E. rewrite climb_S in E.
    assert (STOP : (true, ([lhs], errs, ts)) = (b, (c, [], r)) -> errs = [] /\ b = true /\ exists n, c = [n] /\ wfe n /\ min <= top_bp n).
    { intros Q. injection Q as <- <- <- <-. eauto 7. }
    destruct ts as [|l ts]; [apply STOP; exact E|].
    destruct (binding_power _) as [[lb rb]|] eqn:B; [|apply STOP; exact E].
    destruct (Z.ltb_spec lb min); [apply STOP; exact E|]. clear STOP.
    destruct (expr_bp ls f rb ts) as [b1 [[c1 e1] r1]] eqn:E1.
    assert (RB : rb <= 9) by (destruct (tok_kind (fst l)); cbn in B; try discriminate; injection B as <- <-; lia).
    destruct b1.
    + destruct e1 as [|x e1].
      * apply IHe in E1 as [_ (n & -> & Wn & Mn)]; [|assumption]. apply IHc in E as (X & -> & Y).
        -- apply app_eq_nil in X as [-> _]. auto.
        -- apply (wf_infix _ _ _ lb rb); assumption.
        -- cbn [top_bp]. now rewrite B.
      * apply climb_errs in E. now apply app_eq_nil in E as [_ ?].
    + injection E as <- <- X <-. apply app_eq_nil in X as [-> ->]. apply IHe in E1 as [? _]; [discriminate|assumption].
Qed.
Definition is_def (n : node) : Prop := exists c, n = NNode NVarDef c.
Lemma stmt_clean : forall l ts c r, stmt ls (l :: ts) = (c, [], r) -> exists n, c = [n] /\ (wfe n \/ (tok_kind (fst l) = KVal /\ is_def n)).
Proof.
  intros l ts c r E. unfold stmt in E. destruct (kind_eqb _ KVal) eqn:V.
  - destruct (expect ls KIdent ts) as [[c1 e1] r1]. destruct (expect ls KEquals r1) as [[c2 e2] r2].
    destruct (expr_bp ls _ 0 r2) as [b3 [[c3 e3] r3]]. injection E as <- _ _. eexists. split; [reflexivity|]. right.
    split; [destruct (tok_kind (fst l)); try discriminate; reflexivity|eexists; reflexivity].
  - destruct (expr_bp ls _ 0 _) as [b o] eqn:B. cbn [snd] in E. subst o. apply (proj1 (expr_clean _)) in B as [_ (n & -> & W & _)]; [|lia]. eauto.
Qed.
Lemma stmts_clean : forall f ts c, stmts ls f ts = (c, []) -> Forall (fun n => wfe n \/ (is_def n /\ Exists (fun l => tok_kind (fst l) = KVal) ts)) c.
Proof.
  induction f as [|f IH]; intros [|l ts] c E; cbn [stmts] in E; try (injection E as <-; constructor).
  destruct (stmt ls (l :: ts)) as [[c1 e1] r1] eqn:E1. destruct (stmts ls f r1) as [c2 e2] eqn:E2. injection E as <- X.
  apply app_eq_nil in X as [-> ->]. pose proof (stmt_keeps _ _ _ _ _ E1) as K. apply stmt_clean in E1 as (n & -> & W). apply Forall_app. split.
  - constructor; [|constructor]. destruct W as [W|[V D]]; [now left|right]. split; [assumption|now left].
  - apply IH in E2. revert E2. apply Forall_impl. intros a [W'|[D V]]; [now left|right]. split; [assumption|].
    rewrite <- K. apply Exists_app. now right.
Qed.
End Clean.

(** ** The terms of a sum *)
Inductive term := TmName (name : bytes) | TmInt (z : Z) | TmLong (z : Z).
(** The number a text of decimal digits stands for. *)
Definition decimal (d : bytes) : Z := fold_left (fun a c => 10 * a + (c - 48)) d 0.
Definition digits (d : bytes) : Prop := d <> [] /\ Forall (fun c => 48 <= c <= 57) d.
Definition term_token (t : term) (k : token) : Prop :=
  match t with
  | TmName n => tok_kind k = KIdent /\ tok_text k = n
  | TmInt z => tok_kind k = KInt /\ digits (tok_text k) /\ decimal (tok_text k) = z /\ z < 2 ^ 31
  | TmLong z => tok_kind k = KLong /\ exists d, tok_text k = d ++ [76] /\ digits d /\ decimal d = z /\ z < 2 ^ 63
  end.
(** A + and a term, any number of times. *)
Inductive plus_terms : list term -> list token -> Prop :=
| pt_nil : plus_terms [] []
| pt_cons u us p k ks : tok_kind p = KPlus -> term_token u k -> plus_terms us ks -> plus_terms (u :: us) (p :: k :: ks).
Definition sum_tokens (t : term) (ts : list term) (ks : list token) : Prop :=
  exists k ks', ks = k :: ks' /\ term_token t k /\ plus_terms ts ks'.
Lemma plus_terms_app : forall us ks u p k, plus_terms us ks -> tok_kind p = KPlus -> term_token u k -> plus_terms (us ++ [u]) (ks ++ [p; k]).
Proof. intros us ks u p k H P T. induction H; cbn [app]; constructor; auto. constructor. Qed.

Lemma digits_value_decimal : forall s a, Forall (fun c => 48 <= c <= 57) s -> digits_value a s = Some (fold_left (fun a c => 10 * a + (c - 48)) s a).
Proof.
  induction s as [|c s IH]; intros a F; [reflexivity|]. inversion F as [|? ? C F']; subst. cbn [digits_value fold_left].
  rewrite (proj2 (Z.leb_le _ _)), (proj2 (Z.leb_le _ _)) by lia. cbn [andb]. apply IH; assumption.
Qed.
Lemma unsigned_digits : forall b d, digits d -> unsigned_of_text b d = if decimal d <? b then Some (decimal d) else None.
Proof.
  intros b d [N F]. destruct d as [|c d]; [congruence|]. inversion F; subst. unfold unsigned_of_text, strip_plus.
  destruct (Z.eqb_spec c 43); [lia|]. rewrite (digits_value_decimal _ 0 F). reflexivity.
Qed.
Lemma is_digit_range : forall c, is_digit c = true -> 48 <= c <= 57.
Proof. intros c E. unfold is_digit in E. apply andb_prop in E as [A B]. apply Z.leb_le in A, B. lia. Qed.
Lemma digits_of : forall d, d <> [] -> Forall (fun c => is_digit c = true) d -> digits d.
Proof. intros d N F. split; [assumption|]. revert F. apply Forall_impl. apply is_digit_range. Qed.
Lemma rev_snoc {A} : forall (l : list A) x, rev (l ++ [x]) = x :: rev l.
Proof. intros. now rewrite rev_app_distr. Qed.
Lemma literal_int : forall d, digits d -> literal_of d = if decimal d <? 2 ^ 31 then Some (HInt (decimal d)) else None.
Proof.
  intros d D. unfold literal_of. destruct D as [N F]. destruct (rev d) as [|c r] eqn:R.
  { apply (f_equal (@rev Z)) in R. rewrite rev_involutive in R. cbn in R. congruence. }
  assert (In c d) as I by (apply in_rev; rewrite R; now left). rewrite Forall_forall in F. specialize (F c I) as C.
  destruct (Z.eqb_spec c 76); [lia|]. rewrite unsigned_digits; [|split; [assumption|now apply Forall_forall]].
  destruct (decimal d <? 2 ^ 31); reflexivity.
Qed.
Lemma literal_long : forall d, digits d -> literal_of (d ++ [76]) = if decimal d <? 2 ^ 63 then Some (HLong (decimal d)) else None.
Proof.
  intros d D. unfold literal_of. rewrite rev_snoc. change (76 =? 76) with true. cbn iota. rewrite rev_involutive, unsigned_digits by assumption.
  destruct (decimal d <? 2 ^ 63); reflexivity.
Qed.

(** High-level expressions of terms and sums before binding. *)
Definition hatom (t : term) (h : hexpr) : Prop :=
  match t, h with
  | TmName n, HIdent m _ None => m = n
  | TmInt z, HLit (HInt w) _ (Some SInt) => w = z
  | TmLong z, HLit (HLong w) _ (Some SLong) => w = z
  | _, _ => False
  end.
Inductive hrep : hexpr -> term -> list term -> Prop :=
| hr_one h t : hatom t h -> hrep h t []
| hr_more l r sp t ts u : hrep l t ts -> hatom u r -> hrep (HBin HPlus l r sp None) t (ts ++ [u]).

(** Lowering of an atom. *)
Lemma hir_atom : forall k l h, atom_kind k (tok_kind (fst l)) -> tok_ok (fst l) ->
  hir_expr (NNode k [NTok l]) = Some (COk h) -> exists t, term_token t (fst l) /\ hatom t h.
Proof.
  intros k l h A O E. unfold tok_ok in O. destruct k; cbn in A; destruct (tok_kind (fst l)) eqn:K; try contradiction; cbn [hir_expr] in E.
  - cbn [ident_name] in E. rewrite K in E. cbn [kind_eqb] in E. injection E as <-. exists (TmName (tok_text (fst l))). cbn. auto.
  - destruct O as [N F]. pose proof (digits_of _ N F) as D. unfold lower_literal in E. cbn [first_token flat_map node_tokens app hd_error] in E.
    rewrite (literal_int _ D) in E. destruct (Z.ltb_spec (decimal (tok_text (fst l))) (2 ^ 31)); [|discriminate]. injection E as <-.
    exists (TmInt (decimal (tok_text (fst l)))). cbn [term_token hatom lit_type]. auto.
  - destruct O as (d & T & N & F). pose proof (digits_of _ N F) as D. unfold lower_literal in E. cbn [first_token flat_map node_tokens app hd_error] in E.
    rewrite T, (literal_long _ D) in E. destruct (Z.ltb_spec (decimal d) (2 ^ 63)); [|discriminate]. injection E as <-.
    exists (TmLong (decimal d)). cbn [term_token hatom lit_type]. eauto 8.
Qed.
Lemma hir_term : forall k l t, atom_kind k (tok_kind (fst l)) -> term_token t (fst l) ->
  exists h, hir_expr (NNode k [NTok l]) = Some (COk h) /\ hatom t h.
Proof.
  intros k l t A T. destruct t as [n|z|z]; cbn [term_token] in T.
  - destruct T as [K <-]. rewrite K in A. destruct k; try contradiction. cbn [hir_expr ident_name]. rewrite K. cbn [kind_eqb]. eexists. split; [reflexivity|]. reflexivity.
  - destruct T as (K & D & <- & L). rewrite K in A. destruct k; try contradiction. cbn [hir_expr]. unfold lower_literal.
    cbn [first_token flat_map node_tokens app hd_error]. rewrite (literal_int _ D), (proj2 (Z.ltb_lt _ _) L). eexists. split; reflexivity.
  - destruct T as (K & d & X & D & <- & L). rewrite K in A. destruct k; try contradiction. cbn [hir_expr]. unfold lower_literal.
    cbn [first_token flat_map node_tokens app hd_error]. rewrite X, (literal_long _ D), (proj2 (Z.ltb_lt _ _) L). eexists. split; reflexivity.
Qed.

Fixpoint all_plus (h : hexpr) : Prop :=
  match h with HBin op l r _ _ => op = HPlus /\ all_plus l /\ all_plus r | _ => True end.
Definition castable (n : node) : Prop := exists r, hir_expr n = Some r.

Lemma hir_infix : forall a l b lb rb op, binding_power (tok_kind (fst l)) = Some (lb, rb) -> hop_of (tok_kind (fst l)) = Some op ->
  (exists k c, a = NNode k c) -> (exists k c, b = NNode k c) ->
  hir_expr (NNode NInfix [a; NTok l; b]) =
  Some (match hir_expr a, hir_expr b with
        | Some x, Some y => cbind x (fun x => cbind y (fun y => COk (HBin op x y (node_span (NNode NInfix [a; NTok l; b])) None)))
        | _, _ => CErr [node_span (NNode NInfix [a; NTok l; b])]
        end).
Proof.
  intros a l b lb rb op B O (k & c & ->) (k' & c' & ->).
  assert (F : find_op [NNode k c; NTok l; NNode k' c'] = Some (tok_kind (fst l))).
  { cbn [find_op]. destruct (tok_kind (fst l)); try discriminate; reflexivity. }
  remember (NNode k c) as a. remember (NNode k' c') as b. cbn [hir_expr]. rewrite F, O. cbn [map somes]. f_equal.
  change (hir_expr (NTok l)) with (@None (cres hexpr)).
  destruct (hir_expr a) as [x|]; destruct (hir_expr b) as [y|]; reflexivity.
Qed.
Lemma bp_hop : forall k lb rb, binding_power k = Some (lb, rb) -> exists op, hop_of k = Some op.
Proof. intros [] lb rb E; try discriminate; eexists; reflexivity. Qed.
Lemma wfe_node : forall n, wfe n -> exists k c, n = NNode k c.
Proof. intros n []; eauto. Qed.

Lemma leaves_infix : forall k a l b, node_leaves (NNode k [a; NTok l; b]) = node_leaves a ++ l :: node_leaves b.
Proof. intros k a l b. cbn. now rewrite app_nil_r. Qed.
Lemma hir_sum : forall n, wfe n -> forall h, Forall (fun l => tok_ok (fst l)) (node_leaves n) -> hir_expr n = Some (COk h) -> all_plus h ->
  exists t ts, sum_tokens t ts (map fst (node_leaves n)) /\ hrep h t ts.
Proof.
  induction 1 as [k l A|l c KM W IH|l c r KP W IH|a l b lb rb B Wa IHa Wb IHb Mb]; intros h O E P.
  - inversion O; subst. destruct (hir_atom _ _ _ A ltac:(assumption) E) as (t & T & X). exists t, []. split; [|now constructor].
    exists (fst l), []. split; [reflexivity|]. split; [assumption|constructor].
  - discriminate.
  - discriminate.
  - destruct (bp_hop _ _ _ B) as [op OP]. rewrite (hir_infix _ _ _ _ _ _ B OP (wfe_node _ Wa) (wfe_node _ Wb)) in E.
    destruct (hir_expr a) as [[x| |]|] eqn:Ea; destruct (hir_expr b) as [[y| |]|] eqn:Eb; cbn [cbind] in E; try discriminate.
    assert (h = HBin op x y (node_span (NNode NInfix [a; NTok l; b])) None) as -> by congruence. clear E.
    cbn [all_plus] in P. destruct P as (-> & Px & Py).
    rewrite leaves_infix in O. apply Forall_app in O as [Oa O]. inversion O as [|? ? Ol Ob]; subst.
    assert (K : tok_kind (fst l) = KPlus) by (destruct (tok_kind (fst l)); try discriminate; reflexivity).
    rewrite K in B. injection B as <- <-.
    destruct (IHa _ Oa eq_refl Px) as (t & ts & (k & ks & Ek & Tk & Pk) & Rx).
    assert (exists u, term_token u (fst (hd l (node_leaves b))) /\ hatom u y /\ node_leaves b = [hd l (node_leaves b)]) as (u & Tu & Hu & Lb).
    { clear IHa IHb Ek Tk Pk Rx. destruct Wb as [k' l' A'|l' c KM W|l' c r KP W|a' l' b' lb' rb' B' Wa' Wb' Mb'].
      - inversion Ob; subst. destruct (hir_atom _ _ _ A' ltac:(assumption) Eb) as (u & T & X). exists u. cbn [node_leaves flat_map app hd]. auto.
      - discriminate.
      - discriminate.
      - exfalso. destruct (bp_hop _ _ _ B') as [op' OP']. rewrite (hir_infix _ _ _ _ _ _ B' OP' (wfe_node _ Wa') (wfe_node _ Wb')) in Eb.
        destruct (hir_expr a') as [[x'| |]|]; destruct (hir_expr b') as [[y'| |]|]; cbn [cbind] in Eb; try discriminate.
        assert (y = HBin op' x' y' (node_span (NNode NInfix [a'; NTok l'; b'])) None) as -> by congruence.
        cbn [all_plus] in Py. destruct Py as (-> & _). cbn [top_bp] in Mb. rewrite B' in Mb.
        destruct (tok_kind (fst l')); cbn in OP', B'; try discriminate. injection B' as <- <-. lia. }
    exists t, (ts ++ [u]). split; [|now constructor].
    exists k, (ks ++ [fst l; fst (hd l (node_leaves b))]). split; [|split; [assumption|now apply plus_terms_app]].
    rewrite leaves_infix, Lb, map_app. exact (f_equal (fun z => z ++ [fst l; fst (hd l (node_leaves b))]) Ek).
Qed.

(** ** Typing *)
Fixpoint typed (e : hexpr) : hexpr :=
  match e with
  | HBin op l r sp _ => HBin op (typed l) (typed r) sp (h_tpe (typed l))
  | _ => e
  end.
Lemma typed_idem : forall e, typed (typed e) = typed e.
Proof. induction e as [| op l IHl r IHr sp t | |]; cbn [typed]; try reflexivity. now rewrite IHl, IHr. Qed.
Lemma typed_depth : forall e, h_depth (typed e) = h_depth e.
Proof. induction e as [| op l IHl r IHr sp t | |]; cbn [typed h_depth]; try reflexivity. now rewrite IHl, IHr. Qed.
Fixpoint plusb (h : hexpr) : bool :=
  match h with HBin op l r _ _ => match op with HPlus => true | _ => false end && plusb l && plusb r | _ => true end.
Lemma plusb_iff : forall h, plusb h = true <-> all_plus h.
Proof.
  induction h as [| op l IHl r IHr sp t | |]; cbn [plusb all_plus]; try tauto. rewrite !andb_true_iff, IHl, IHr.
  destruct op; intuition congruence.
Qed.
Lemma typed_plusb : forall e, plusb (typed e) = plusb e.
Proof. induction e as [| op l IHl r IHr sp t | |]; cbn [typed plusb]; try reflexivity. now rewrite IHl, IHr. Qed.
Definition visit (f : nat) (e : hexpr) : cres (option hexpr) :=
  match e with
  | HBin HPlus l r sp _ => cbind (assign_f f l) (fun l' => cbind (assign_f f r) (fun r' => COk (Some (HBin HPlus l' r' sp (h_tpe l')))))
  | HBin _ _ _ _ _ => CPanic
  | _ => COk None
  end.
Lemma assign_S : forall f e, assign_f (S f) e = rewrite (visit f) e.
Proof. reflexivity. Qed.
Lemma assign_eq : forall f e, (h_depth e < f)%nat -> assign_f f e = if plusb e then COk (typed e) else CPanic.
Proof.
  induction f as [|f IH]; intros e L; [lia|]. rewrite assign_S.
  assert (V : forall e, (h_depth e < S f)%nat -> visit f e = if plusb e then COk (match e with HBin _ _ _ _ _ => Some (typed e) | _ => None end) else CPanic).
  { clear e L. intros e L. destruct e as [| op l r sp t | |]; try reflexivity. cbn [h_depth] in L. cbn [visit plusb].
    rewrite (IH l), (IH r) by lia. destruct op; try reflexivity. cbn [andb]. destruct (plusb l); [|reflexivity]. destruct (plusb r); reflexivity. }
  unfold rewrite. rewrite (V e L). destruct (plusb e) eqn:P; [|reflexivity]. cbn [cbind].
  destruct e as [n sp t | op l r sp t | sp t | v sp t]; cbn [orelse].
  - rewrite V by exact L. reflexivity.
  - change (typed (HBin op l r sp t)) with (HBin op (typed l) (typed r) sp (h_tpe (typed l))). cbn iota. cbn [h_depth] in L.
    cbn [plusb] in P. apply andb_prop in P as [P Pr]. apply andb_prop in P as [_ Pl].
    rewrite !V by (rewrite typed_depth; lia). rewrite !typed_plusb, Pl, Pr. cbn [cbind]. rewrite !typed_idem.
    destruct (typed l), (typed r); reflexivity.
  - rewrite V by exact L. reflexivity.
  - rewrite V by exact L. reflexivity.
Qed.
Lemma assign_type_eq : forall e, assign_type e = if plusb e then COk (typed e) else CPanic.
Proof. intros e. apply assign_eq. lia. Qed.

(** ** Binding *)
Definition is_height (n : bytes) : bool := bytes_eqb n (txt "HEIGHT").
Definition bound1 (e : hexpr) : hexpr :=
  match e with HIdent n sp _ => if is_height n then HHeight sp (Some SInt) else e | _ => e end.
Definition bound (e : hexpr) : hexpr :=
  match e with HBin op l r sp t => HBin op (bound1 l) (bound1 r) sp t | _ => bound1 e end.
Lemma binder_eq : forall {G : group} e, binder (G := G) [] e = COk (bound e).
Proof.
  intros G e.
  assert (B : forall e, bind_ident (G := G) [] e = COk (match e with HIdent n sp _ => if is_height n then Some (HHeight sp (Some SInt)) else None | _ => None end))
    by (intros []; reflexivity).
  unfold binder, rewrite. rewrite B. cbn [cbind]. destruct e as [n sp t | op l r sp t | sp t | v sp t]; cbn [orelse bound bound1].
  - destruct (is_height n) eqn:E; cbn [orelse]; rewrite B; cbn [cbind orelse]; [reflexivity|]. now rewrite E.
  - rewrite !B. cbn [cbind]. f_equal.
    destruct l as [nl sl tl | | |]; cbn [bound1]; try destruct (is_height nl); cbn [orelse];
      destruct r as [nr sr tr | | |]; cbn [bound1]; try destruct (is_height nr); reflexivity.
  - reflexivity.
  - reflexivity.
Qed.
Lemma bound_plusb : forall e, plusb (bound e) = plusb e.
Proof.
  assert (B1 : forall e, plusb (bound1 e) = plusb e) by (intros []; cbn; try destruct (is_height _); reflexivity).
  intros [n sp t | op l r sp t | sp t | v sp t]; try apply B1. cbn [bound plusb]. now rewrite !B1.
Qed.

(** ** Lowering *)
Section Lower.
Context {G : group}.
Notation expr := (expr G).
Definition term_expr (t : term) : expr :=
  match t with
  | TmName _ => EOp OHeight PNone [] None
  | TmInt z => EConst (MkConst SInt (LInt z))
  | TmLong z => EConst (MkConst SLong (LLong z))
  end.
Definition sum_expr (t : term) (ts : list term) : expr := fold_left (fun l u => EBin BPlus l (term_expr u)) ts (term_expr t).
Definition term_type (t : term) : stype := match t with TmLong _ => SLong | _ => SInt end.
Lemma tpe_term : forall t, tpe (term_expr t) = term_type t.
Proof. intros []; reflexivity. Qed.
Lemma tpe_sum : forall ts t, tpe (sum_expr t ts) = term_type t.
Proof.
  intros ts t. unfold sum_expr. rewrite <- (tpe_term t). generalize (term_expr t) as e. induction ts as [|u ts IH]; intros e; [reflexivity|].
  cbn [fold_left]. rewrite IH. reflexivity.
Qed.
Lemma sum_snoc : forall t ts u, sum_expr t (ts ++ [u]) = EBin BPlus (sum_expr t ts) (term_expr u).
Proof. intros. unfold sum_expr. now rewrite fold_left_app. Qed.

(** Whether a term may stand where the binder looks, and where it does not. *)
Definition closed (t : term) : bool := match t with TmName n => is_height n | _ => true end.
Definition literal (t : term) : bool := match t with TmName _ => false | _ => true end.
Definition compiles (t : term) (ts : list term) : bool :=
  match rev ts with
  | [] => closed t
  | u :: inner =>
      match inner with [] => closed t | _ => literal t end && forallb literal inner && closed u
      && stype_eqb (term_type t) (term_type u)
  end.

(** Never a panic. *)
Lemma lower_total : forall e, mir_lower (G := G) e <> CPanic.
Proof.
  assert (T : forall (m : expr) e, match h_tpe e with Some t => if stype_eqb (tpe m) t then COk m else CErr [h_span e] | None => CErr [h_span e] end <> CPanic).
  { intros m e. destruct (h_tpe e); [destruct (stype_eqb _ _)|]; discriminate. }
  induction e as [n sp t | op l IHl r IHr sp t | sp t | v sp t]; cbn [mir_lower]; cbn [cbind]; try discriminate; try apply T.
  destruct (mir_lower l); try discriminate; [|congruence]. destruct (mir_lower r); try discriminate; [|congruence]. cbn [cbind]. apply T.
Qed.
Lemma check_total : forall e : expr, type_check e <> CPanic.
Proof. intros e. destruct e; try discriminate. cbn [type_check]. destruct (stype_eqb _ _); discriminate. Qed.

Lemma lower_typed_tpe : forall h (e : expr), mir_lower h = COk e -> h_tpe h = Some (tpe e).
Proof.
  intros h e E. destruct h; cbn [mir_lower] in E;
  match type of E with cbind ?x _ = _ => destruct x as [m| |]; try discriminate end; cbn [cbind] in E;
  match type of E with context [h_tpe ?x] => destruct (h_tpe x) as [t'|]; try discriminate end;
  destruct (stype_eqb (tpe m) t') eqn:Q; try discriminate; apply stype_eqb_eq in Q; congruence.
Qed.
Lemma lower_plus : forall l r sp, mir_lower (typed (HBin HPlus l r sp None)) =
  cbind (mir_lower (typed l)) (fun l' => cbind (mir_lower (typed r)) (fun r' => COk (EBin (G := G) BPlus l' r'))).
Proof.
  intros l r sp. cbn [typed mir_lower h_tpe]. destruct (mir_lower (typed l)) as [l'| |] eqn:El; try reflexivity. cbn [cbind].
  destruct (mir_lower (typed r)) as [r'| |]; try reflexivity. cbn [cbind]. rewrite (lower_typed_tpe _ _ El).
  replace (stype_eqb _ _) with true; [reflexivity|]. symmetry. apply stype_eqb_eq. reflexivity.
Qed.
Definition lowered (ok : bool) (e : expr) (r : cres expr) : Prop :=
  if ok then r = COk e else exists errs, r = CErr errs.
Lemma lower_atom : forall t h, hatom t h -> lowered (literal t) (term_expr t) (mir_lower (typed h)) /\ lowered (closed t) (term_expr t) (mir_lower (typed (bound1 h))).
Proof.
  intros t h A. destruct t as [n|z|z], h as [m sp [tp|] | | | [w|w] sp [[]|]]; cbn in A; try contradiction; subst.
  - cbn [literal closed bound1]. split; [eexists; reflexivity|]. destruct (is_height n); [reflexivity|eexists; reflexivity].
  - split; reflexivity.
  - split; reflexivity.
Qed.
Lemma lower_inner : forall h t ts, hrep h t ts -> lowered (forallb literal (t :: ts)) (sum_expr t ts) (mir_lower (typed h)).
Proof.
  induction 1 as [h t A|l r sp t ts u R IH A].
  - cbn [forallb]. rewrite andb_true_r. apply (lower_atom _ _ A).
  - rewrite lower_plus. change (t :: ts ++ [u]) with ((t :: ts) ++ [u]). rewrite forallb_app, sum_snoc. cbn [forallb app]. cbn [forallb] in IH.
    rewrite andb_true_r. destruct (lower_atom _ _ A) as [X _]. destruct (literal t && forallb literal ts).
    + rewrite (IH : _ = _). cbn [cbind andb]. destruct (literal u); cbn [lowered] in X |- *.
      * rewrite X. reflexivity.
      * destruct X as [errs ->]. eexists. reflexivity.
    + destruct IH as [errs ->]. eexists. reflexivity.
Qed.
Lemma hrep_plusb : forall h t ts, hrep h t ts -> plusb h = true.
Proof.
  assert (A0 : forall t h, hatom t h -> plusb h = true) by (intros [] [] A; cbn in A; try contradiction; reflexivity).
  induction 1 as [h t A|l r sp t ts u R IH A]; [apply (A0 _ _ A)|]. cbn [plusb]. rewrite IH, (A0 _ _ A). reflexivity.
Qed.
(** What is made of the high-level expression of a sum. *)
Definition finish (h : hexpr) : cres expr :=
  cbind (binder (G := G) [] h) (fun b => cbind (assign_type b) (fun t => cbind (mir_lower t) type_check)).
Lemma finish_eq : forall h, finish h = if plusb h then cbind (mir_lower (typed (bound h))) type_check else CPanic.
Proof. intros h. unfold finish. rewrite binder_eq. cbn [cbind]. rewrite assign_type_eq, bound_plusb. destruct (plusb h); reflexivity. Qed.
Lemma bound1_bin : forall h t ts u, hrep h t (ts ++ [u]) -> bound1 h = h.
Proof. intros h t ts u R. inversion R; subst; [destruct ts; discriminate|reflexivity]. Qed.
Lemma finish_sum : forall h t ts, hrep h t ts -> lowered (compiles t ts) (sum_expr t ts) (finish h).
Proof.
  intros h t ts R. rewrite finish_eq, (hrep_plusb _ _ _ R). destruct R as [h t A|l r sp t ts u R A].
  - unfold compiles. cbn [rev]. assert (bound h = bound1 h) as -> by (destruct t, h; cbn in A; try contradiction; reflexivity).
    destruct (lower_atom _ _ A) as [_ X]. destruct (closed t); cbn [lowered] in X |- *.
    + rewrite X. cbn [cbind]. destruct t; reflexivity.
    + destruct X as [errs ->]. eexists. reflexivity.
  - unfold compiles. rewrite rev_snoc, sum_snoc. cbn [bound]. rewrite lower_plus.
    destruct (lower_atom _ _ A) as [_ X].
    assert (L : lowered (match rev ts with [] => closed t | _ => literal t end && forallb literal (rev ts)) (sum_expr t ts) (mir_lower (typed (bound1 l)))).
    { destruct ts as [|v ts _] using rev_ind.
      - cbn [rev forallb]. rewrite andb_true_r. inversion R as [h' t' A'|]; subst; [apply (lower_atom _ _ A')|]. match goal with Q : _ ++ _ = [] |- _ => apply app_eq_nil in Q as [_ Q]; discriminate Q end.
      - rewrite (bound1_bin _ _ _ _ R). rewrite rev_snoc.
        assert (F : forallb literal (v :: rev ts) = forallb literal (ts ++ [v])).
        { rewrite <- (rev_involutive (v :: rev ts)). cbn [rev]. rewrite rev_involutive.
          assert (Q : forall x, forallb literal (rev x) = forallb literal x).
          { induction x as [|a x IHx]; [reflexivity|]. cbn [rev forallb]. rewrite forallb_app. cbn [forallb]. rewrite IHx, andb_true_r. apply andb_comm. }
          apply Q. }
        rewrite F. exact (lower_inner _ _ _ R). }
    destruct (match rev ts with [] => closed t | _ => literal t end && forallb literal (rev ts)); cbn [andb].
    + rewrite (L : _ = _). cbn [cbind]. destruct (closed u); cbn [lowered andb] in X |- *.
      * rewrite X. cbn [cbind type_check]. rewrite tpe_sum, tpe_term. destruct (stype_eqb _ _); [reflexivity|]. eexists. reflexivity.
      * destruct X as [errs ->]. eexists. reflexivity.
    + destruct L as [errs ->]. eexists. reflexivity.
Qed.
End Lower.

(** ** From the source to the high-level expression *)
Definition arith_kind (k : tkind) : bool := match k with KMinus | KStar | KSlash => true | _ => false end.
Lemma hir_wfe : forall n, wfe n -> Forall (fun l => tok_ok (fst l)) (node_leaves n) ->
  hir_expr n <> Some CPanic /\
  (forall h, Forall (fun l => arith_kind (tok_kind (fst l)) = false) (node_leaves n) -> hir_expr n = Some (COk h) -> plusb h = true).
Proof.
  induction 1 as [k l A|l c KM W IH|l c r KP W IH|a l b lb rb B Wa IHa Wb IHb Mb]; intros O.
  - destruct k; cbn in A; destruct (tok_kind (fst l)) eqn:K; try contradiction; cbn [hir_expr]; split.
    + cbn [ident_name]. rewrite K. discriminate.
    + intros h _. cbn [ident_name]. rewrite K. cbn [kind_eqb]. intros E. injection E as <-. reflexivity.
    + unfold lower_literal. cbn [first_token flat_map node_tokens app hd_error]. destruct (literal_of _); discriminate.
    + intros h _. unfold lower_literal. cbn [first_token flat_map node_tokens app hd_error]. destruct (literal_of _); [|discriminate].
      intros E. injection E as <-. reflexivity.
    + unfold lower_literal. cbn [first_token flat_map node_tokens app hd_error]. destruct (literal_of _); discriminate.
    + intros h _. unfold lower_literal. cbn [first_token flat_map node_tokens app hd_error]. destruct (literal_of _); [|discriminate].
      intros E. injection E as <-. reflexivity.
  - split; discriminate.
  - split; discriminate.
  - destruct (bp_hop _ _ _ B) as [op OP]. rewrite (hir_infix _ _ _ _ _ _ B OP (wfe_node _ Wa) (wfe_node _ Wb)).
    rewrite leaves_infix in *. apply Forall_app in O as [Oa O]. inversion O as [|? ? Ol Ob]; subst.
    destruct (IHa Oa) as (Na & Pa). destruct (IHb Ob) as (Nb & Pb). split.
    + destruct (hir_expr a) as [[x| |]|]; destruct (hir_expr b) as [[y| |]|]; cbn [cbind]; congruence.
    + intros h F E. apply Forall_app in F as [Fa F]. inversion F as [|? ? Fl Fb]; subst.
      destruct (hir_expr a) as [[x| |]|] eqn:Ea; destruct (hir_expr b) as [[y| |]|] eqn:Eb; cbn [cbind] in E; try discriminate.
      assert (h = HBin op x y (node_span (NNode NInfix [a; NTok l; b])) None) as -> by congruence. cbn [plusb].
      rewrite (Pa _ Fa eq_refl), (Pb _ Fb eq_refl). destruct (tok_kind (fst l)); try discriminate. injection OP as <-. reflexivity.
Qed.
Lemma hir_def : forall n, is_def n -> hir_expr n = None.
Proof. intros n [c ->]. reflexivity. Qed.
Lemma somes_one : forall (c : list node) a, somes (map hir_expr c) = [a] -> exists c1 n c2, c = c1 ++ n :: c2 /\ hir_expr n = Some a /\
  Forall (fun m => hir_expr m = None) c1 /\ Forall (fun m => hir_expr m = None) c2.
Proof.
  assert (Z : forall c, somes (map hir_expr c) = [] -> Forall (fun m => hir_expr m = None) c).
  { induction c as [|m c IH]; intros E; [constructor|]. cbn [map somes] in E. destruct (hir_expr m) eqn:M; [discriminate|]. constructor; auto. }
  induction c as [|m c IH]; intros a E; [discriminate|]. cbn [map somes] in E. destruct (hir_expr m) eqn:M.
  - injection E as -> E. exists [], m, c. repeat split; auto.
  - destruct (IH _ E) as (c1 & n & c2 & -> & X & Y & Z'). exists (m :: c1), n, c2. repeat split; auto.
Qed.
(** A source without errors in its syntax, and the expression it is taken for. *)
Lemma parse_clean : forall s root, parse s = (root, []) -> exists lead c,
  root = NNode NRoot (map (fun t => NTok (t, [])) lead ++ c) /\
  significant (lex s) = map fst (flat_map node_leaves c) /\ Forall (fun l => tok_ok (fst l)) (flat_map node_leaves c) /\
  Forall (fun n => wfe n \/ (is_def n /\ Exists (fun k => tok_kind k = KVal) (significant (lex s)))) c.
Proof.
  intros s root E. destruct (parse_eq _ _ _ E) as (lead & ls & c & -> & L & T & K & F & Q). exists lead, c. split; [reflexivity|].
  rewrite K. split; [exact Q|]. split.
  - rewrite Forall_forall. intros l I. pose proof (lex_ok s) as O. rewrite Forall_forall in O. apply O.
    assert (In (fst l) (significant (lex s))) as X by (rewrite Q; apply in_map; exact I). unfold significant in X. now apply filter_In in X.
  - apply stmts_clean in T. revert T. apply Forall_impl. intros n [W|[D V]]; [now left|right]. split; [assumption|].
    rewrite Q. apply Exists_exists in V as (l & I & Kl). apply Exists_exists. exists (fst l). split; [now apply in_map|assumption].
Qed.
Lemma somes_lead : forall lead c, somes (map hir_expr (map (fun t => NTok (t, [])) lead ++ c)) = somes (map hir_expr c).
Proof. induction lead as [|t lead IH]; intros c; [reflexivity|]. cbn [map app somes]. exact (IH c). Qed.
Lemma root_eq : forall lead c, hir_root (NNode NRoot (map (fun t => NTok (t, [])) lead ++ c)) =
  match somes (map hir_expr c) with [a] => a | _ => CErr [node_span (NNode NRoot (map (fun t => NTok (t, [])) lead ++ c))] end.
Proof. intros lead c. unfold hir_root. now rewrite somes_lead. Qed.
Lemma hir_clean : forall s h, compile_hir s = COk h -> exists c1 n c2,
  significant (lex s) = map fst (flat_map node_leaves c1) ++ map fst (node_leaves n) ++ map fst (flat_map node_leaves c2) /\
  wfe n /\ Forall (fun l => tok_ok (fst l)) (node_leaves n) /\ hir_expr n = Some (COk h) /\
  Forall (fun m => hir_expr m = None /\ (wfe m \/ (is_def m /\ Exists (fun k => tok_kind k = KVal) (significant (lex s))))) (c1 ++ c2).
Proof.
  intros s h E. unfold compile_hir in E. destruct (parse s) as [root [|]] eqn:P; [|discriminate].
  destruct (parse_clean _ _ P) as (lead & c & -> & Q & O & W). rewrite root_eq in E.
  destruct (somes (map hir_expr c)) as [|a [|]] eqn:S1; try discriminate. subst a.
  destruct (somes_one _ _ S1) as (c1 & n & c2 & -> & X & N1 & N2). exists c1, n, c2.
  rewrite flat_map_app in Q, O. cbn [flat_map] in Q, O. rewrite !map_app in Q. apply Forall_app in O as [_ O]. apply Forall_app in O as [O _].
  apply Forall_app in W as [W1 W]. inversion W as [|? ? Wn W2]; subst. split; [exact Q|]. split; [|split; [exact O|split; [exact X|]]].
  - destruct Wn as [Wn|[D _]]; [exact Wn|]. rewrite (hir_def _ D) in X. discriminate.
  - apply Forall_app. split; apply Forall_forall; intros m I.
    + rewrite Forall_forall in N1, W1. auto.
    + rewrite Forall_forall in N2, W2. auto.
Qed.
Lemma hir_no_panic : forall s, compile_hir s <> CPanic.
Proof.
  intros s. unfold compile_hir. destruct (parse s) as [root [|]] eqn:P; [|discriminate].
  destruct (parse_clean _ _ P) as (lead & c & -> & Q & O & W). rewrite root_eq.
  destruct (somes (map hir_expr c)) as [|a [|]] eqn:S1; try discriminate.
  destruct (somes_one _ _ S1) as (c1 & n & c2 & -> & X & N1 & N2).
  rewrite flat_map_app in O. cbn [flat_map] in O. apply Forall_app in O as [_ O]. apply Forall_app in O as [O _].
  apply Forall_app in W as [W1 W]. inversion W as [|? ? Wn W2]; subst. destruct Wn as [Wn|[D _]].
  - destruct (hir_wfe _ Wn O) as (N & _). congruence.
  - rewrite (hir_def _ D) in X. discriminate.
Qed.
Lemma compile_expr_eq : forall {G : group} s, compile_expr (G := G) s [] = cbind (compile_hir s) finish.
Proof. reflexivity. Qed.

(** ** Sources made of terms and operators *)
Definition op_kind (o : Z) : tkind := if o =? 43 then KPlus else if o =? 45 then KMinus else if o =? 42 then KStar else KSlash.
Inductive op_terms : list (Z * term) -> list token -> Prop :=
| ot_nil : op_terms [] []
| ot_cons o u us p k ks : In o [43; 45; 42; 47] -> tok_kind p = op_kind o -> term_token u k -> op_terms us ks -> op_terms ((o, u) :: us) (p :: k :: ks).
Definition pluses (us : list (Z * term)) : bool := forallb (fun x => fst x =? 43) us.
Lemma op_bp : forall o, In o [43; 45; 42; 47] -> exists lb rb op, binding_power (op_kind o) = Some (lb, rb) /\ hop_of (op_kind o) = Some op /\
  0 <= lb /\ 0 <= rb <= 9 /\ (match op with HPlus => true | _ => false end) = (o =? 43).
Proof. intros o [<-|[<-|[<-|[<-|[]]]]]; cbn; do 3 eexists; repeat split; lia. Qed.
Definition good (n : node) (p : bool) : Prop := exists h, hir_expr n = Some (COk h) /\ plusb h = p /\ exists k c, n = NNode k c.
Lemma term_kind : forall u k, term_token u k -> tok_kind k = KIdent \/ tok_kind k = KInt \/ tok_kind k = KLong.
Proof. intros [n|z|z] k; cbn; tauto. Qed.
Lemma arith_parse : forall ls f,
  (forall min u l ts us, 0 <= min -> term_token u (fst l) -> op_terms us (map fst ts) -> (List.length (l :: ts) < f)%nat ->
     exists n r us1 us2, expr_bp ls f min (l :: ts) = (true, ([n], [], r)) /\ good n (pluses us1) /\ us = us1 ++ us2 /\ op_terms us2 (map fst r) /\
       (min = 0 -> r = []) /\ (List.length r <= List.length ts)%nat) /\
  (forall min lhs p ts us, 0 <= min -> good lhs p -> op_terms us (map fst ts) -> (List.length ts < f)%nat ->
     exists n r us1 us2, climb ls f min lhs [] ts = (true, ([n], [], r)) /\ good n (p && pluses us1) /\ us = us1 ++ us2 /\ op_terms us2 (map fst r) /\
       (min = 0 -> r = []) /\ (List.length r <= List.length ts)%nat).
Proof.
  intros ls. induction f as [|f [IHe IHc]]; [split; intros; lia|]. split.
  - intros min u l ts us M T O L. cbn [List.length] in L. rewrite expr_bp_S.
    assert (A : exists k, atom_kind k (tok_kind (fst l)) /\ forall X, 
      match tok_kind (fst l) with
      | KInt => climb ls f min (NNode NIntNumber [NTok l]) [] ts
      | KLong => climb ls f min (NNode NLongNumber [NTok l]) [] ts
      | KIdent => climb ls f min (NNode NIdent [NTok l]) [] ts
      | _ => X end = climb ls f min (NNode k [NTok l]) [] ts).
    { destruct (term_kind _ _ T) as [K|[K|K]]; rewrite K; eexists; (split; [|reflexivity]); exact I. }
    destruct A as (k & A & Q).
    assert (Gk : good (NNode k [NTok l]) true).
    { destruct (hir_term _ _ _ A T) as (h & E & Hh). exists h. split; [exact E|]. split; [|eauto]. destruct u, h; cbn in Hh; try contradiction; reflexivity. }
    destruct (IHc min _ true ts us M Gk O ltac:(lia)) as (n & r & us1 & us2 & E & R).
    exists n, r, us1, us2. split; [|exact R]. rewrite <- E, <- (Q (false, p_error ls (l :: ts))).
    destruct (term_kind _ _ T) as [K|[K|K]]; rewrite K; reflexivity.
  - intros min lhs p ts us M Gl O L. rewrite climb_S.
    destruct ts as [|q ts].
    { exists lhs, [], [], us. split; [reflexivity|]. cbn [pluses forallb]. rewrite andb_true_r. repeat split; auto. }
    inversion O as [|o u us' pt k ks Io Ko T O']; subst. destruct ts as [|l ts]; [discriminate|].
    match goal with Q : _ :: _ = map fst _ |- _ => cbn [map] in Q; injection Q as -> -> end.
    destruct (op_bp _ Io) as (lb & rb & op & B & OP & Lb & Rb & OE). rewrite Ko, B.
    destruct (Z.ltb_spec lb min).
    { exists lhs, (q :: l :: ts), [], ((o, u) :: us'). split; [reflexivity|]. cbn [pluses forallb]. rewrite andb_true_r. repeat split; auto. intros ->. lia. }
    cbn [List.length] in L.
    destruct (IHe rb u l ts us' ltac:(lia) T O' ltac:(cbn [List.length]; lia)) as (n & r & us1 & us2 & E & Gn & -> & O2 & _ & Lr).
    rewrite E. cbn [app].
    assert (Gi : good (NNode NInfix [lhs; NTok q; n]) (p && ((o =? 43) && pluses us1))).
    { destruct Gl as (hl & El & Pl & NL), Gn as (hn & En & Pn & NN).
      rewrite <- Ko in B, OP. exists (HBin op hl hn (node_span (NNode NInfix [lhs; NTok q; n])) None). split; [|split; [|eauto]].
      - rewrite (hir_infix _ _ _ _ _ _ B OP NL NN), El, En. reflexivity.
      - cbn [plusb]. rewrite OE, Pl, Pn. destruct (o =? 43), p; reflexivity. }
    destruct (IHc min _ _ r us2 M Gi O2 ltac:(unfold cleaf in *; lia)) as (n' & r' & us3 & us4 & E' & G' & -> & O4 & M0 & Lr').
    exists n', r', ((o, u) :: us1 ++ us3), us4. split; [exact E'|]. split; [|split; [|split; [exact O4|split; [exact M0|cbn [List.length]; unfold cleaf in *; lia]]]].
    + unfold pluses in *. cbn [forallb fst]. rewrite forallb_app. rewrite <- andb_assoc in G'. rewrite <- andb_assoc in G'. exact G'.
    + cbn [app]. now rewrite app_assoc.
Qed.
Lemma arith_hir : forall s t us k ks, significant (lex s) = k :: ks -> term_token t k -> op_terms us ks ->
  exists h, compile_hir s = COk h /\ plusb h = pluses us.
Proof.
  intros s t us k ks Q T O. unfold compile_hir. destruct (parse s) as [root e] eqn:P.
  destruct (parse_eq _ _ _ P) as (lead & ls & c & -> & L & S & K & F & Q'). rewrite Q in Q'. destruct ls as [|l ls]; [discriminate|].
  cbn [map] in Q'. injection Q' as -> ->. cbn [List.length stmts] in S. unfold stmt in S.
  assert (kind_eqb (tok_kind (fst l)) KVal = false) as KV by (destruct (term_kind _ _ T) as [X|[X|X]]; rewrite X; reflexivity).
  rewrite KV in S.
  destruct (proj1 (arith_parse (last_range (lex s)) (Datatypes.S (List.length (l :: ls)))) 0 t l ls us (Z.le_refl 0) T O (le_n _))
    as (n & r & us1 & us2 & E & (h & Eh & Ph & _) & -> & O2 & M0 & _).
  unfold cleaf in *. cbn [List.length] in E, S. rewrite E in S. cbn [snd] in S. rewrite (M0 eq_refl) in *. inversion O2; subst. rewrite app_nil_r.
  assert (stmts (last_range (lex s)) (List.length ls) [] = ([], [])) as X by (destruct ls; reflexivity). unfold cleaf in X. rewrite X in S.
  injection S as <- <-. rewrite root_eq. cbn [map somes]. rewrite Eh. eauto.
Qed.
Lemma term_det : forall t u k, term_token t k -> term_token u k -> t = u.
Proof.
  intros [n|z|z] [m|w|w] k A B; cbn in A, B; try (destruct A as [A _], B as [B _]; congruence).
  - destruct A, B; congruence.
  - destruct A as (_ & _ & <- & _), B as (_ & _ & <- & _). reflexivity.
  - destruct A as (_ & d & E & _ & <- & _), B as (_ & d' & E' & _ & <- & _). rewrite E in E'. apply app_inj_tail in E' as [-> _]. reflexivity.
Qed.
Lemma plus_det : forall ts ks, plus_terms ts ks -> forall us, plus_terms us ks -> ts = us.
Proof.
  induction 1 as [|u us p k ks P T H IH]; intros vs V; inversion V; subst; [reflexivity|]. f_equal; [now apply (term_det _ _ k)|auto].
Qed.
Lemma sum_det : forall t ts u us ks, sum_tokens t ts ks -> sum_tokens u us ks -> t = u /\ ts = us.
Proof.
  intros t ts u us ks (k & l & -> & A & B) (k' & l' & E & A' & B'). injection E as <- <-. split; [now apply (term_det _ _ k)|now apply (plus_det _ l)].
Qed.
Lemma op_terms_plus : forall us ks, op_terms us ks -> pluses us = true -> plus_terms (map snd us) ks.
Proof.
  induction 1 as [|o u us p k ks Io Ko T O IH]; intros P; [constructor|]. cbn [pluses forallb fst] in P. apply andb_prop in P as [Po P].
  apply Z.eqb_eq in Po as ->. cbn [map snd]. constructor; auto.
Qed.
Lemma op_terms_kinds : forall us ks, op_terms us ks -> Forall (fun k => tok_kind k <> KVal /\ tok_kind k <> KLParen) ks.
Proof.
  induction 1 as [|o u us p k ks Io Ko T O IH]; [constructor|]. constructor; [|constructor; [|assumption]].
  - rewrite Ko. destruct Io as [<-|[<-|[<-|[<-|[]]]]]; cbn; split; discriminate.
  - destruct (term_kind _ _ T) as [X|[X|X]]; rewrite X; split; discriminate.
Qed.

(** The tokens around the expression. *)
Definition plain (k : token) : Prop := match tok_kind k with KVal | KMinus | KLParen => False | _ => True end.
Lemma silent_first : forall n, wfe n -> hir_expr n = None -> Exists (fun l => ~ plain (fst l)) (node_leaves n).
Proof.
  intros n W E. destruct W as [k l A|l c KM W|l c r KP W|a l b lb rb B Wa Wb Mb].
  - destruct k; cbn in A; destruct (tok_kind (fst l)); try contradiction; discriminate.
  - left. unfold plain. rewrite KM. auto.
  - left. unfold plain. rewrite KP. auto.
  - destruct (bp_hop _ _ _ B) as [op OP]. rewrite (hir_infix _ _ _ _ _ _ B OP (wfe_node _ Wa) (wfe_node _ Wb)) in E. discriminate.
Qed.

(** ** Texts of terms, operators and blanks
    A blank is made of spaces, newlines and comments, each from // to the end of its
    line; the last line may be a comment too. *)
Definition letter (c : Z) : Prop := 65 <= c <= 90 \/ 97 <= c <= 122.
Definition digit (c : Z) : Prop := 48 <= c <= 57.
Inductive blank : bytes -> Prop :=
| bl_end : blank []
| bl_space c w : c = 32 \/ c = 10 -> blank w -> blank (c :: w)
| bl_comment c w : Forall (fun x => x <> 10) c -> blank w -> blank (47 :: 47 :: c ++ 10 :: w).
Definition term_text (t : term) (d : bytes) : Prop :=
  match t with
  | TmName n => d = n /\ (exists c r, n = c :: r /\ letter c /\ Forall (fun c => letter c \/ digit c) r) /\ n <> txt "def" /\ n <> txt "val"
  | TmInt z => digits d /\ decimal d = z /\ z < 2 ^ 31
  | TmLong z => exists e, d = e ++ [76] /\ digits e /\ decimal e = z /\ z < 2 ^ 63
  end.
Inductive arith_tail : list (Z * term) -> bytes -> Prop :=
| at_end w : blank w -> arith_tail [] w
| at_comment w c : blank w -> Forall (fun x => x <> 10) c -> arith_tail [] (w ++ 47 :: 47 :: c)
| at_more w o w' d u us r : blank w -> In o [43; 45; 42; 47] -> blank w' -> (o = 47 -> hd 32 w' <> 47) -> term_text u d -> arith_tail us r ->
    arith_tail ((o, u) :: us) (w ++ o :: w' ++ d ++ r).
Definition arith_source (t : term) (us : list (Z * term)) (s : bytes) : Prop :=
  exists w d r, s = w ++ d ++ r /\ blank w /\ term_text t d /\ arith_tail us r.

Lemma run_app : forall f a r, Forall (fun c => f c = true) a -> match r with c :: _ => f c = false | [] => True end -> run f (a ++ r) = List.length a.
Proof.
  intros f a r F R. induction F as [|c a C F IH]; cbn [app run List.length].
  - destruct r as [|c r]; [reflexivity|]. cbn [run]. now rewrite R.
  - now rewrite C, IH.
Qed.
Lemma firstn_len {A} : forall (a r : list A), firstn (List.length a) (a ++ r) = a.
Proof. intros. rewrite firstn_app, Nat.sub_diag, firstn_all. cbn. apply app_nil_r. Qed.
Lemma skipn_len {A} : forall (a r : list A), skipn (List.length a) (a ++ r) = r.
Proof. intros. rewrite skipn_app, Nat.sub_diag, skipn_all. reflexivity. Qed.
Lemma lex_step : forall k d r f pos, d <> [] -> lex1 (d ++ r) = (k, List.length d) -> (List.length (d ++ r) <= f)%nat ->
  exists f' pos', (List.length r <= f')%nat /\ lex_f f pos (d ++ r) = Tok k pos d :: lex_f f' pos' r.
Proof.
  intros k d r f pos N E L. destruct d as [|c d]; [congruence|]. destruct f as [|f]; [cbn in L; lia|]. cbn [app] in *.
  exists f, (pos + Z.of_nat (List.length (c :: d))). split; [cbn [List.length] in L; rewrite app_length in L; lia|].
  cbn [lex_f]. rewrite E. f_equal; [f_equal; exact (firstn_len (c :: d) r)|]. f_equal. exact (skipn_len (c :: d) r).
Qed.
Definition starts (P : Z -> Prop) (s : bytes) : Prop := match s with c :: _ => P c | [] => True end.
Definition not_blank (c : Z) : Prop := c <> 32 /\ c <> 10.
Definition stop (c : Z) : Prop := ~ letter c /\ ~ digit c.
Lemma space_iff : forall c, is_space c = true <-> c = 32 \/ c = 10.
Proof. intros c. unfold is_space. rewrite orb_true_iff, !Z.eqb_eq. tauto. Qed.
Lemma alpha_iff : forall c, is_alpha c = true <-> letter c.
Proof. intros c. unfold is_alpha, letter. rewrite orb_true_iff, !andb_true_iff, !Z.leb_le. tauto. Qed.
Lemma digit_iff : forall c, is_digit c = true <-> digit c.
Proof. intros c. unfold is_digit, digit. rewrite andb_true_iff, !Z.leb_le. tauto. Qed.
Lemma alnum_iff : forall c, is_alnum c = true <-> letter c \/ digit c.
Proof. intros c. unfold is_alnum. now rewrite orb_true_iff, alpha_iff, digit_iff. Qed.
Lemma false_iff : forall (b : bool) (P : Prop), (b = true <-> P) -> ~ P -> b = false.
Proof. intros [] P I N; [|reflexivity]. exfalso. apply N. now apply I. Qed.
Lemma space_lex : forall v r f pos, Forall (fun c => c = 32 \/ c = 10) v -> starts not_blank r -> (List.length (v ++ r) <= f)%nat ->
  exists f' pos', (List.length r <= f')%nat /\ significant (lex_f f pos (v ++ r)) = significant (lex_f f' pos' r).
Proof.
  intros w r f pos B R L. destruct w as [|c w]; [eauto|].
  assert (E : lex1 ((c :: w) ++ r) = (KSpace, List.length (c :: w))).
  { inversion B as [|? ? Bc Bw]; subst. cbn [app lex1]. rewrite (proj2 (space_iff c) Bc). rewrite run_app; [reflexivity| |].
    - revert Bw. apply Forall_impl. intros a. apply space_iff.
    - destruct r as [|a r]; [exact I|]. apply (false_iff _ _ (space_iff a)). destruct R. tauto. }
  destruct (lex_step KSpace (c :: w) r f pos ltac:(discriminate) E L) as (f' & pos' & L' & X). exists f', pos'. split; [exact L'|]. rewrite X. reflexivity.
Qed.
Lemma comment_lex : forall c r f pos, Forall (fun x => x <> 10) c -> starts (fun x => x = 10) r -> (List.length (47 :: 47 :: c ++ r)%Z <= f)%nat ->
  exists f' pos', (List.length r <= f')%nat /\ significant (lex_f f pos (47 :: 47 :: c ++ r)) = significant (lex_f f' pos' r).
Proof.
  intros c r f pos C R L.
  assert (E : lex1 ((47 :: 47 :: c) ++ r) = (KComment, List.length (47 :: 47 :: c))).
  { cbn [app lex1]. cbn. rewrite run_app; [reflexivity| |].
    - revert C. apply Forall_impl. intros a N. destruct (Z.eqb_spec a 10); [contradiction|reflexivity].
    - destruct r as [|a r]; [exact I|]. cbn in R. now subst a. }
  destruct (lex_step KComment (47 :: 47 :: c) r f pos ltac:(discriminate) E L) as (f' & pos' & L' & X). exists f', pos'. split; [exact L'|].
  cbn [app] in X. rewrite X. reflexivity.
Qed.
(** The spaces a blank starts with, and its next comment. *)
Lemma blank_split : forall w, blank w -> exists v, Forall (fun c => c = 32 \/ c = 10) v /\
  (w = v \/ exists c w', w = v ++ 47 :: 47 :: c ++ 10 :: w' /\ Forall (fun x => x <> 10) c /\ blank w').
Proof.
  induction 1 as [|c w C B (v & V & IH)|c w C B _].
  - exists []. split; [constructor|now left].
  - exists (c :: v). split; [now constructor|]. destruct IH as [->|(c' & w' & -> & C' & B')]; [now left|right]. exists c', w'. auto.
  - exists []. split; [constructor|]. right. exists c, w. auto.
Qed.
Lemma skip_blank : forall w r f pos, blank w -> starts not_blank r -> (List.length (w ++ r) <= f)%nat ->
  exists f' pos', (List.length r <= f')%nat /\ significant (lex_f f pos (w ++ r)) = significant (lex_f f' pos' r).
Proof.
  intros w. remember (List.length w) as n eqn:Ln. revert w Ln. induction n as [n IH] using lt_wf_ind. intros w -> r f pos B R L.
  destruct (blank_split _ B) as (v & V & [->|(c & w' & -> & C & B')]); [now apply space_lex|].
  replace ((v ++ 47 :: 47 :: c ++ 10 :: w') ++ r) with (v ++ 47 :: 47 :: c ++ (10 :: w') ++ r) in * by (rewrite <- ?app_assoc; cbn [app]; now rewrite <- ?app_assoc).
  destruct (space_lex v (47 :: 47 :: c ++ (10 :: w') ++ r) f pos V ltac:(cbn; unfold not_blank; lia) L) as (f1 & p1 & L1 & ->).
  destruct (comment_lex c ((10 :: w') ++ r) f1 p1 C eq_refl L1) as (f2 & p2 & L2 & ->).
  apply (IH (List.length (10 :: w'))); auto; [|now constructor; [right|]].
  rewrite app_length. cbn [List.length]. rewrite app_length. cbn [List.length]. lia.
Qed.
Lemma not_space : forall c, letter c \/ digit c -> is_space c = false.
Proof. intros c C. apply (false_iff _ _ (space_iff c)). unfold letter, digit in C. lia. Qed.
Lemma digits_lex : forall d r, digits d -> starts (fun c => ~ digit c) r ->
  lex1 (d ++ r) = match r with c :: _ => if c =? 76 then (KLong, S (List.length d)) else (KInt, List.length d) | [] => (KInt, List.length d) end.
Proof.
  intros d r [N F] R. destruct d as [|c d]; [congruence|]. inversion F as [|? ? C F']; subst. cbn [app lex1].
  rewrite not_space by now right. rewrite (false_iff _ _ (alpha_iff c)) by (unfold letter; lia). rewrite (proj2 (digit_iff c) C).
  rewrite run_app.
  - change (skipn (S (List.length d)) (c :: d ++ r)) with (skipn (List.length d) (d ++ r)). rewrite skipn_len. reflexivity.
  - revert F'. apply Forall_impl. intros a. apply digit_iff.
  - destruct r as [|a r]; [exact I|]. apply (false_iff _ _ (digit_iff a)). exact R.
Qed.
Lemma term_lex : forall t d r pos, term_text t d -> starts stop r -> d <> [] /\ exists k, lex1 (d ++ r) = (k, List.length d) /\ term_token t (Tok k pos d) /\
  is_trivia (Tok k pos d) = false.
Proof.
  intros t d r pos T R. destruct t as [n|z|z]; cbn [term_text] in T.
  - destruct T as (-> & (c & m & -> & C & M) & N1 & N2). split; [discriminate|]. exists KIdent. split; [|repeat split].
    cbn [app lex1]. rewrite not_space by now left. rewrite (proj2 (alpha_iff c) C). rewrite run_app.
    + change (S (List.length m)) with (List.length (c :: m)). change (c :: m ++ r) with ((c :: m) ++ r). rewrite firstn_len.
      destruct (bytes_eqb (c :: m) (txt "def")) eqn:D; [apply bytes_eqb_iff in D; congruence|].
      destruct (bytes_eqb (c :: m) (txt "val")) eqn:V; [apply bytes_eqb_iff in V; congruence|]. reflexivity.
    + revert M. apply Forall_impl. intros a. apply alnum_iff.
    + destruct r as [|a r]; [exact I|]. apply (false_iff _ _ (alnum_iff a)). destruct R. tauto.
  - destruct T as (D & E & L). split; [apply D|]. exists KInt. split; [|repeat split; auto].
    + rewrite digits_lex; [|assumption|destruct r; [exact I|apply R]]. destruct r as [|a r]; [reflexivity|].
      destruct (Z.eqb_spec a 76) as [->|]; [|reflexivity]. destruct R as [R _]. unfold letter in R. lia.
    + apply D.
    + apply D.
  - destruct T as (e & -> & D & E & L). split; [intros X; apply app_eq_nil in X as [_ X]; discriminate X|]. exists KLong. split; [|split; [|reflexivity]].
    + rewrite <- app_assoc, digits_lex; [|assumption|cbn; unfold digit; lia]. cbn [app]. change (76 =? 76) with true. cbn iota.
      rewrite app_length. cbn [List.length]. f_equal. lia.
    + cbn [term_token tok_kind tok_text]. eauto 8.
Qed.
Lemma op_lex : forall o r pos, In o [43; 45; 42; 47] -> (o = 47 -> starts (fun c => c <> 47) r) ->
  exists k, lex1 ([o] ++ r) = (k, 1%nat) /\ k = op_kind o /\ is_trivia (Tok k pos [o]) = false.
Proof.
  intros o r pos I R. destruct I as [<-|[<-|[<-|[<-|[]]]]]; cbn [app lex1]; eexists; (split; [reflexivity|]) || idtac; try (split; reflexivity).
  cbn. destruct r as [|c r]; [repeat split|]. specialize (R eq_refl). cbn in R. destruct (Z.eqb_spec c 47); [congruence|]. repeat split.
Qed.
Lemma term_first : forall t d, term_text t d -> exists c r, d = c :: r /\ (letter c \/ digit c).
Proof.
  intros [n|z|z] d T; cbn [term_text] in T.
  - destruct T as (-> & (c & r & -> & C & _) & _). eauto.
  - destruct T as ([N F] & _). destruct F as [|c r C _]; [congruence|]. eauto.
  - destruct T as (e & -> & [N F] & _). destruct F as [|c r C _]; [congruence|]. cbn [app]. eauto.
Qed.
Lemma blank_starts : forall (P : Z -> Prop) w r, blank w -> P 32 -> P 10 -> (hd 32 w = 47 -> P 47) -> starts P r -> starts P (w ++ r).
Proof. intros P w r B A N C R. destruct B as [|c w [->| ->] B|c w F B]; cbn [app]; [exact R|exact A|exact N|]. now apply C. Qed.
Lemma tail_stops : forall us r, arith_tail us r -> starts stop r.
Proof.
  intros us r A. assert (S32 : stop 32) by (unfold stop, letter, digit; lia). assert (S10 : stop 10) by (unfold stop, letter, digit; lia).
  assert (S47 : stop 47) by (unfold stop, letter, digit; lia).
  destruct A as [w B|w c B C|w o w' d u us r B I B' H T A].
  - rewrite <- (app_nil_r w). apply blank_starts; auto. exact I.
  - apply blank_starts; auto.
  - apply blank_starts; auto. cbn. destruct I as [<-|[<-|[<-|[<-|[]]]]]; unfold stop, letter, digit; lia.
Qed.
Lemma significant_cons : forall t l, is_trivia t = false -> significant (t :: l) = t :: significant l.
Proof. intros t l E. unfold significant. cbn [filter]. now rewrite E. Qed.
Lemma space_or_comment : forall w c f pos, blank w -> Forall (fun x => x <> 10) c -> (List.length (w ++ 47 :: 47 :: c)%Z <= f)%nat ->
  exists f' pos', significant (lex_f f pos (w ++ 47 :: 47 :: c)) = significant (lex_f f' pos' []).
Proof.
  intros w c f pos B C L. destruct (skip_blank w (47 :: 47 :: c) f pos B ltac:(cbn; unfold not_blank; lia) L) as (f1 & p1 & L1 & ->).
  pose proof (comment_lex c [] f1 p1 C I) as X. rewrite app_nil_r in X. destruct (X L1) as (f2 & p2 & _ & ->). eauto.
Qed.
Lemma tail_lex : forall us r, arith_tail us r -> forall f pos, (List.length r <= f)%nat -> op_terms us (significant (lex_f f pos r)).
Proof.
  induction 1 as [w B|w c B C|w o w' d u us r B I B' H T A IH]; intros f pos L.
  - pose proof (skip_blank w [] f pos B I) as X. rewrite app_nil_r in X. destruct (X L) as (f' & pos' & _ & ->). destruct f'; constructor.
  - destruct (space_or_comment w c f pos B C L) as (f' & pos' & ->). destruct f'; constructor.
  - destruct (term_first _ _ T) as (c0 & r0 & Ed & C0).
    destruct (skip_blank w (o :: w' ++ d ++ r) f pos B) as (f1 & p1 & L1 & ->); [|exact L|].
    { cbn. destruct I as [<-|[<-|[<-|[<-|[]]]]]; unfold not_blank; lia. }
    destruct (op_lex o (w' ++ d ++ r) p1 I) as (k & E1 & K1 & T1).
    { intros O47. apply blank_starts; [assumption|lia|lia|intros E47; now apply H in E47|]. rewrite Ed. cbn. unfold letter, digit in C0. lia. }
    destruct (lex_step k [o] (w' ++ d ++ r) f1 p1 ltac:(discriminate) E1 L1) as (f2 & p2 & L2 & E2). cbn [app] in E2. rewrite E2.
    rewrite significant_cons by exact T1.
    destruct (skip_blank w' (d ++ r) f2 p2 B') as (f3 & p3 & L3 & ->); [|exact L2|].
    { rewrite Ed. cbn. unfold not_blank. unfold letter, digit in C0. lia. }
    destruct (term_lex u d r p3 T (tail_stops _ _ A)) as (Nd & k3 & E3 & K3 & T3).
    destruct (lex_step k3 d r f3 p3 Nd E3 L3) as (f4 & p4 & L4 & ->).
    rewrite significant_cons by exact T3. constructor; auto.
Qed.
Lemma source_lex : forall t us s, arith_source t us s -> exists k ks, significant (lex s) = k :: ks /\ term_token t k /\ op_terms us ks.
Proof.
  intros t us s (w & d & r & -> & B & T & A). unfold lex. destruct (term_first _ _ T) as (c0 & r0 & Ed & C0).
  destruct (skip_blank w (d ++ r) (List.length (w ++ d ++ r)) 0 B) as (f3 & p3 & L3 & ->); [|reflexivity|].
  { rewrite Ed. cbn. unfold not_blank. unfold letter, digit in C0. lia. }
  destruct (term_lex t d r p3 T (tail_stops _ _ A)) as (Nd & k3 & E3 & K3 & T3).
  destruct (lex_step k3 d r f3 p3 Nd E3 L3) as (f4 & p4 & L4 & ->).
  rewrite significant_cons by exact T3. do 2 eexists. split; [reflexivity|]. split; [exact K3|]. apply (tail_lex _ _ A). exact L4.
Qed.

(** The texts of the operator tokens. *)
Lemma lex1_arith : forall c s, match fst (lex1 (c :: s)) with KMinus => c = 45 | KStar => c = 42 | KSlash => c = 47 | _ => True end.
Proof.
  intros c s. unfold lex1. destruct (is_space c); [exact I|].
  destruct (is_alpha c). { cbn [fst]. destruct (bytes_eqb _ (txt "def")); [exact I|]. destruct (bytes_eqb _ (txt "val")); exact I. }
  destruct (is_digit c). { cbn [skipn]. destruct (skipn _ s) as [|d r]; [exact I|]. destruct (d =? 76); exact I. }
  destruct (c =? 43); [exact I|]. destruct (Z.eqb_spec c 45); [assumption|]. destruct (Z.eqb_spec c 42); [assumption|].
  destruct (Z.eqb_spec c 47). { destruct s as [|d s]; [assumption|]. destruct (d =? 47); [exact I|assumption]. }
  destruct (c =? 38). { destruct s as [|d s]; [exact I|]. destruct (d =? 38); exact I. }
  destruct (c =? 61); [exact I|]. destruct (c =? 40); [exact I|]. destruct (c =? 41); [exact I|].
  destruct (c =? 123); [exact I|]. destruct (c =? 125); exact I.
Qed.
Lemma lex_f_arith : forall f pos s, ~ In 45 s -> ~ In 42 s -> ~ In 47 s -> Forall (fun k => arith_kind (tok_kind k) = false) (lex_f f pos s).
Proof.
  induction f as [|f IH]; intros pos [|c s] A B C; cbn [lex_f]; try constructor.
  pose proof (lex1_arith c s) as X. destruct (lex1 (c :: s)) as [k n]. cbn [fst] in X. constructor.
  - cbn [tok_kind]. destruct k; try reflexivity; exfalso; subst c; [apply A|apply B|apply C]; now left.
  - assert (Q : forall x, In x (skipn n (c :: s)) -> In x (c :: s)) by (intros x Hx; rewrite <- (firstn_skipn n (c :: s)); apply in_or_app; now right).
    apply IH; intros Hx; apply Q in Hx; contradiction.
Qed.

(** ** The work of typing *)
Fixpoint cost (e : hexpr) : N * N :=
  match e with
  | HBin _ l r _ _ =>
      let v := (1 + fst (cost l) + fst (cost r))%N in ((v + snd (cost l) + snd (cost r))%N, v)
  | _ => (2, 1)%N
  end.
Lemma cost_typed : forall e, cost (typed e) = cost e.
Proof. induction e as [| op l IHl r IHr sp t | |]; cbn [typed cost]; try reflexivity. now rewrite IHl, IHr. Qed.
Definition visit_n (f : nat) (e : hexpr) : cres (option hexpr * N) :=
  match e with
  | HBin HPlus l r sp _ => cbind (assign_n f l) (fun l' => cbind (assign_n f r) (fun r' =>
      COk (Some (HBin HPlus (fst l') (fst r') sp (h_tpe (fst l'))), (1 + snd l' + snd r')%N)))
  | HBin _ _ _ _ _ => CPanic
  | _ => COk (None, 1%N)
  end.
Lemma assign_n_S : forall f e, assign_n (S f) e = rewrite_n (visit_n f) e.
Proof. reflexivity. Qed.
Lemma assign_n_eq : forall f e, (h_depth e < f)%nat -> plusb e = true -> assign_n f e = COk (typed e, fst (cost e)).
Proof.
  induction f as [|f IH]; intros e L P; [lia|]. rewrite assign_n_S.
  assert (V : forall e, (h_depth e < S f)%nat -> plusb e = true -> visit_n f e = COk (match e with HBin _ _ _ _ _ => Some (typed e) | _ => None end, snd (cost e))).
  { clear e L P. intros e L P. destruct e as [| op l r sp t | |]; try reflexivity. cbn [h_depth] in L. cbn [plusb] in P.
    apply andb_prop in P as [P Pr]. apply andb_prop in P as [Po Pl]. cbn [visit_n].
    rewrite (IH l), (IH r) by (assumption || lia). destruct op; try discriminate. reflexivity. }
  unfold rewrite_n. rewrite (V e L P). cbn [cbind fst snd].
  destruct e as [n sp t | op l r sp t | sp t | v sp t]; cbn [orelse].
  - rewrite V by assumption. reflexivity.
  - change (typed (HBin op l r sp t)) with (HBin op (typed l) (typed r) sp (h_tpe (typed l))). cbn iota. cbn [h_depth] in L.
    cbn [plusb] in P. apply andb_prop in P as [P Pr]. apply andb_prop in P as [_ Pl].
    rewrite !V by (rewrite ?typed_depth, ?typed_plusb; assumption || lia). cbn [cbind fst snd]. rewrite !cost_typed, !typed_idem. cbn [cost fst snd].
    destruct (typed l), (typed r); reflexivity.
  - rewrite V by assumption. reflexivity.
  - rewrite V by assumption. reflexivity.
Qed.
(** Counting does not change the result. *)
Lemma rewrite_erase : forall f g, (forall e, g e = match f e with COk r => COk (fst r) | CErr x => CErr x | CPanic => CPanic end) ->
  forall e, rewrite g e = match rewrite_n f e with COk r => COk (fst r) | CErr x => CErr x | CPanic => CPanic end.
Proof.
  intros f g E e. unfold rewrite, rewrite_n. rewrite E. destruct (f e) as [[o n]| |]; cbn [cbind fst snd]; try reflexivity.
  destruct (orelse o e) as [m sp t | op l r sp t | sp t | v sp t]; rewrite !E.
  - destruct (f _) as [[o' n']| |]; reflexivity.
  - destruct (f l) as [[ol nl]| |]; cbn [cbind fst snd]; try reflexivity. destruct (f r) as [[or nr]| |]; reflexivity.
  - destruct (f _) as [[o' n']| |]; reflexivity.
  - destruct (f _) as [[o' n']| |]; reflexivity.
Qed.
Lemma assign_erase : forall f e, assign_f f e = match assign_n f e with COk r => COk (fst r) | CErr x => CErr x | CPanic => CPanic end.
Proof.
  induction f as [|f IH]; intros e; [reflexivity|]. rewrite assign_S, assign_n_S. apply rewrite_erase. clear e. intros e.
  destruct e as [| op l r sp t | |]; try reflexivity. destruct op; try reflexivity. cbn [visit visit_n]. rewrite (IH l), (IH r).
  destruct (assign_n f l) as [[l' nl]| |]; cbn [cbind fst snd]; try reflexivity. destruct (assign_n f r) as [[r' nr]| |]; reflexivity.
Qed.
Lemma cost_bound1 : forall e, cost (bound1 e) = cost e.
Proof. intros []; cbn [bound1]; try destruct (is_height _); reflexivity. Qed.
Lemma cost_bound : forall e, cost (bound e) = cost e.
Proof. intros []; try apply cost_bound1. cbn [bound cost]. now rewrite !cost_bound1. Qed.
Lemma atom_cost : forall t h, hatom t h -> cost h = (2, 1)%N.
Proof. intros [] [] A; cbn in A; try contradiction; reflexivity. Qed.
Lemma sum_cost : forall h t ts, hrep h t ts -> (2 ^ (N.of_nat (List.length ts) / 2) <= snd (cost h) /\ 2 ^ (N.of_nat (S (List.length ts)) / 2) <= fst (cost h))%N.
Proof.
  induction 1 as [h t A|l r sp t ts u R IH A].
  - rewrite (atom_cost _ _ A). split; discriminate.
  - rewrite app_length. cbn [List.length cost fst snd]. rewrite (atom_cost _ _ A). cbn [fst snd].
    replace (List.length ts + 1)%nat with (S (List.length ts)) by lia. destruct IH as [V C].
    assert (2 ^ (N.of_nat (S (S (List.length ts))) / 2) = 2 * 2 ^ (N.of_nat (List.length ts) / 2))%N as ->.
    { replace (N.of_nat (S (S (List.length ts)))) with (N.of_nat (List.length ts) + 1 * 2)%N by lia.
      rewrite N.div_add by lia. rewrite N.pow_add_r, N.mul_comm. reflexivity. }
    assert (2 ^ (N.of_nat (List.length ts) / 2) <= 2 ^ (N.of_nat (S (List.length ts)) / 2))%N.
    { apply N.pow_le_mono_r; [lia|]. apply N.div_le_mono; lia. }
    lia.
Qed.

(** ** Positions *)
Definition text_len (l : list token) : Z := Zlen (List.concat (map tok_text l)).
Lemma text_len_cons : forall t l, text_len (t :: l) = Zlen (tok_text t) + text_len l.
Proof. intros. unfold text_len. cbn [map List.concat]. apply Zlen_app. Qed.
Lemma text_len_app : forall a b, text_len (a ++ b) = text_len a + text_len b.
Proof. intros. unfold text_len. rewrite map_app, concat_app. apply Zlen_app. Qed.
Lemma text_len_nonneg : forall a, 0 <= text_len a.
Proof. intros. apply Zlen_nonneg. Qed.
Lemma laid_app : forall a p b, laid p (a ++ b) -> laid p a /\ laid (p + text_len a) b.
Proof.
  induction a as [|t a IH]; intros p b L; cbn [app] in *.
  - split; [constructor|]. replace (p + text_len []) with p by (unfold text_len; cbn; lia). exact L.
  - inversion L as [|k q x l N L']; subst. destruct (IH _ _ L') as [A B]. split; [constructor; assumption|].
    rewrite text_len_cons. cbn [tok_text]. rewrite Z.add_assoc. exact B.
Qed.
Lemma laid_end : forall l p d, laid p l -> l <> [] -> tok_end (last l d) = p + text_len l.
Proof.
  induction l as [|t l IH]; intros p d L N; [congruence|]. inversion L as [|k q x l' Nx L']; subst. destruct l as [|u l].
  - cbn [last]. unfold tok_end, text_len. cbn. rewrite app_nil_r. reflexivity.
  - rewrite text_len_cons. change (last (Tok k p x :: u :: l) d) with (last (u :: l) d). rewrite (IH _ _ L'); [|discriminate]. cbn [tok_text]. lia.
Qed.
Definition within (m : Z) (sp : span) : Prop := 0 <= fst sp <= snd sp /\ snd sp <= m.
Lemma span_within : forall m l p, 0 <= p -> laid p l -> p + text_len l <= m -> within m (tokens_span l).
Proof.
  intros m l p P L E. pose proof (text_len_nonneg l). destruct l as [|t l]; [cbn; unfold within; cbn; lia|].
  unfold tokens_span. rewrite (laid_end _ p) by (assumption || discriminate). inversion L; subst. unfold within. cbn [fst snd tok_pos]. lia.
Qed.
(** A node whose tokens follow one another within the source. *)
Definition node_in (m : Z) (n : node) : Prop := exists p, 0 <= p /\ laid p (node_tokens n) /\ p + text_len (node_tokens n) <= m.
Lemma node_in_span : forall m n, node_in m n -> within m (node_span n).
Proof. intros m n (p & P & L & E). apply (span_within _ _ p); assumption. Qed.
Lemma node_in_children : forall m k c, node_in m (NNode k c) -> Forall (node_in m) c.
Proof.
  intros m k c (p & P & L & E). cbn [node_tokens] in *. revert p P L E. induction c as [|n c IH]; intros p P L E; [constructor|].
  cbn [flat_map] in *. apply laid_app in L as [L1 L2]. rewrite text_len_app in E. pose proof (text_len_nonneg (node_tokens n)).
  pose proof (text_len_nonneg (flat_map node_tokens c)). constructor.
  - exists p. repeat split; [assumption|assumption|lia].
  - apply (IH (p + text_len (node_tokens n))); [lia|assumption|lia].
Qed.
Fixpoint h_in (m : Z) (h : hexpr) : Prop :=
  match h with HBin _ l r sp _ => within m sp /\ h_in m l /\ h_in m r | HIdent _ sp _ | HHeight sp _ | HLit _ sp _ => within m sp end.
Definition cres_in {A} (m : Z) (P : A -> Prop) (r : cres A) : Prop :=
  match r with COk a => P a | CErr e => Forall (within m) e | CPanic => True end.
Lemma cbind_in : forall {A B} m (P : A -> Prop) (Q : B -> Prop) r k, cres_in m P r -> (forall a, P a -> cres_in m Q (k a)) -> cres_in m Q (cbind r k).
Proof. intros A B m P Q [a|e|] k R K; cbn in *; auto. Qed.
Lemma hir_in : forall m n, node_in m n -> match hir_expr n with Some r => cres_in m (h_in m) r | None => True end.
Proof.
  intros m. induction n as [l|k c IH] using node_ind'; intros N; [exact I|].
  pose proof (node_in_span _ _ N) as S. pose proof (node_in_children _ _ _ N) as C.
  assert (S1 : forall P, cres_in (A := hexpr) m P (CErr [node_span (NNode k c)])) by (intros; repeat constructor; apply S).
  destruct k; try exact I; cbn [hir_expr].
  - destruct (find_op c) as [t|]; [|apply S1]. destruct (hop_of t) as [op|]; [|apply S1].
    assert (A : Forall (cres_in m (h_in m)) (somes (map hir_expr c))).
    { clear S S1 N. induction c as [|x c IHc]; [constructor|]. inversion IH as [|? ? Hx Hc]; subst. inversion C as [|? ? Cx Cc]; subst. cbn [map somes].
      specialize (Hx Cx). destruct (hir_expr x); [constructor; auto|auto]. }
    destruct (somes (map hir_expr c)) as [|a [|b r]]; try apply S1. inversion A as [|? ? Aa A']; subst. inversion A' as [|? ? Ab _]; subst.
    apply (cbind_in m (h_in m)); [exact Aa|]. intros x X. apply (cbind_in m (h_in m)); [exact Ab|]. intros y Y. cbn. auto.
  - destruct (ident_name c); [exact S|apply S1].
  - unfold lower_literal. destruct (first_token c); [|exact I]. destruct (literal_of _); [exact S|apply S1].
  - unfold lower_literal. destruct (first_token c); [|exact I]. destruct (literal_of _); [exact S|apply S1].
Qed.
Lemma h_in_span : forall m h, h_in m h -> within m (h_span h).
Proof. intros m []; cbn; tauto. Qed.
Lemma typed_in : forall m h, h_in m h -> h_in m (typed h).
Proof. induction h as [| op l IHl r IHr sp t | |]; cbn; tauto. Qed.
Lemma bound_in : forall m h, h_in m h -> h_in m (bound h).
Proof.
  assert (B : forall m h, h_in m h -> h_in m (bound1 h)) by (intros m []; cbn; try destruct (is_height _); auto).
  intros m [n sp t | op l r sp t | sp t | v sp t] H; try apply B, H. cbn in *. destruct H as (A & X & Y). auto.
Qed.
Lemma lower_in : forall {G : group} m h, h_in m h -> cres_in m (fun _ : expr G => True) (mir_lower h).
Proof.
  intros G m. induction h as [n sp t | op l IHl r IHr sp t | sp t | v sp t]; intros H.
  - cbn. repeat constructor; apply H.
  - cbn [mir_lower]. destruct H as (S & Hl & Hr). apply (cbind_in m (fun _ => True)).
    + apply (cbind_in m (fun _ => True)); [apply IHl, Hl|]. intros x _. apply (cbind_in m (fun _ => True)); [apply IHr, Hr|]. intros y _. exact I.
    + intros x _. cbn [h_tpe h_span]. destruct t; [destruct (stype_eqb _ _)|]; cbn; repeat constructor; apply S.
  - cbn [mir_lower]. cbn [cbind h_tpe h_span]. destruct t; [destruct (stype_eqb _ _)|]; cbn; repeat constructor; apply H.
  - cbn [mir_lower]. cbn [cbind h_tpe h_span]. destruct t; [destruct (stype_eqb _ _)|]; cbn; repeat constructor; apply H.
Qed.
Lemma lex_len : forall s, text_len (lex s) = Zlen s.
Proof. intros. unfold text_len. now rewrite lex_text. Qed.
Lemma tok_within : forall l p m, 0 <= p -> laid p l -> p + text_len l <= m -> Forall (fun t => within m (tok_span t)) l.
Proof.
  induction l as [|t l IH]; intros p m P L E; [constructor|]. inversion L as [|k q x l' N L']; subst. rewrite text_len_cons in E. cbn [tok_text] in E.
  pose proof (Zlen_nonneg Z x). pose proof (text_len_nonneg l). constructor.
  - unfold within, tok_span, tok_end. cbn. lia.
  - apply (IH (p + Zlen x)); [lia|assumption|lia].
Qed.
Section ErrIn.
Variable ls : span.
Variable m : Z.
Hypothesis LS : within m ls.
Notation lin := (Forall (fun l : cleaf => within m (tok_span (fst l)))).
Definition pin (o : pout) : Prop := Forall (within m) (snd (fst o)) /\ lin (snd o).
Lemma p_error_in : forall ts, lin ts -> pin (p_error ls ts).
Proof. intros [|l ts] F; unfold pin; cbn; [repeat constructor; apply LS|]. inversion F; subst. repeat constructor; auto; apply H1. Qed.
Lemma expect_in : forall k ts, lin ts -> pin (expect ls k ts).
Proof.
  intros k [|l ts] F; unfold expect; [now apply p_error_in|]. destruct (kind_eqb _ _); [|now apply p_error_in]. inversion F; subst.
  unfold pin. cbn. auto.
Qed.
Lemma expr_in : forall f, (forall min ts, lin ts -> pin (snd (expr_bp ls f min ts))) /\
  (forall min lhs errs ts, Forall (within m) errs -> lin ts -> pin (snd (climb ls f min lhs errs ts))).
Proof.
  induction f as [|f [IHe IHc]].
  { split; intros; unfold pin; cbn; split; auto. apply Forall_app. auto. }
  split.
  - intros min ts F. rewrite expr_bp_S. destruct ts as [|l ts]; [now apply p_error_in|]. inversion F as [|? ? Fl F']; subst.
    assert (ER : pin (snd (false, p_error ls (l :: ts)))) by now apply p_error_in.
    destruct (tok_kind (fst l)); try exact ER; try (apply IHc; [constructor|exact F']).
    + pose proof (IHe 5 ts F') as A. destruct (expr_bp ls f 5 ts) as [b1 [[c1 e1] r1]]. destruct A. now apply IHc.
    + pose proof (IHe 0 ts F') as A. destruct (expr_bp ls f 0 ts) as [b1 [[c1 e1] r1]]. destruct A as [A1 A2]. cbn [fst snd] in A1, A2.
      pose proof (expect_in KRParen r1 A2) as B. destruct (expect ls KRParen r1) as [[c2 e2] r2]. destruct B. apply IHc; [apply Forall_app; auto|assumption].
  - intros min lhs errs ts E F. rewrite climb_S.
    assert (ST : pin (snd (true, ([lhs], errs, ts)))) by (split; assumption).
    destruct ts as [|l ts]; [exact ST|]. inversion F as [|? ? Fl F']; subst.
    destruct (binding_power _) as [[lb rb]|]; [|exact ST]. destruct (lb <? min); [exact ST|].
    pose proof (IHe rb ts F') as A. destruct (expr_bp ls f rb ts) as [b1 [[c1 e1] r1]]. destruct A as [A1 A2]. cbn [fst snd] in A1, A2.
    destruct b1; [apply IHc; [apply Forall_app; auto|assumption]|]. split; cbn; [apply Forall_app; auto|assumption].
Qed.
Lemma stmt_in : forall ts, lin ts -> pin (stmt ls ts).
Proof.
  intros [|l ts] F; unfold stmt; [now apply (proj1 (expr_in _))|]. destruct (kind_eqb _ _); [|now apply (proj1 (expr_in _))].
  inversion F as [|? ? Fl F']; subst.
  pose proof (expect_in KIdent ts F') as A. destruct (expect ls KIdent ts) as [[c1 e1] r1]. destruct A as [A1 A2]. cbn [fst snd] in A1, A2.
  pose proof (expect_in KEquals r1 A2) as B. destruct (expect ls KEquals r1) as [[c2 e2] r2]. destruct B as [B1 B2]. cbn [fst snd] in B1, B2.
  pose proof (proj1 (expr_in (S (List.length r2))) 0 r2 B2) as C. destruct (expr_bp ls _ 0 r2) as [b3 [[c3 e3] r3]]. destruct C as [C1 C2].
  split; cbn; [rewrite !Forall_app; auto|assumption].
Qed.
Lemma stmts_in : forall f ts, lin ts -> Forall (within m) (snd (stmts ls f ts)).
Proof.
  induction f as [|f IH]; intros [|l ts] F; cbn [stmts]; try constructor.
  pose proof (stmt_in _ F) as A. destruct (stmt ls (l :: ts)) as [[c1 e1] r1]. destruct A as [A1 A2]. cbn [fst snd] in A1, A2.
  pose proof (IH _ A2) as B. destruct (stmts ls f r1) as [c2 e2]. cbn [snd] in *. apply Forall_app. auto.
Qed.
End ErrIn.
Lemma parse_in : forall s, Forall (within (Zlen s)) (snd (parse s)) /\ node_in (Zlen s) (fst (parse s)).
Proof.
  intros s. pose proof (lex_laid s) as L. pose proof (tok_within _ 0 (Zlen s) (Z.le_refl 0) L) as T. rewrite lex_len in T. specialize (T (Z.le_refl _)).
  split.
  - destruct (parse s) as [root e] eqn:P. destruct (parse_eq _ _ _ P) as (lead & ls & c & -> & LV & S & K & F & Q). cbn [snd].
    replace e with (snd (c, e)) by reflexivity. rewrite <- S. apply stmts_in.
    + unfold last_range. destruct (lex s) as [|t l] eqn:X; [unfold within; cbn; pose proof (Zlen_nonneg Z s); lia|].
      rewrite Forall_forall in T. apply T. clear.
      destruct (exists_last (l := t :: l) ltac:(discriminate)) as (a' & x & E). rewrite E. rewrite last_last. apply in_or_app. right. now left.
    + rewrite Forall_forall. intros l I. rewrite Forall_forall in T. apply T.
      assert (In (fst l) (significant (lex s))) as X by (rewrite Q; apply in_map; exact I). unfold significant in X. now apply filter_In in X.
  - exists 0. rewrite parse_tokens, lex_len. split; [lia|]. split; [exact L|lia].
Qed.
Lemma compile_in : forall {G : group} s, cres_in (Zlen s) (fun _ : expr G => True) (compile_expr s []).
Proof.
  intros G s. rewrite compile_expr_eq. apply (cbind_in _ (h_in (Zlen s))).
  - unfold compile_hir. destruct (parse_in s) as [E N]. destruct (parse s) as [root e]. cbn [fst snd] in *. destruct e as [|x e]; [|exact E].
    unfold hir_root. destruct root as [|k c]; [exact I|]. destruct k; try exact I.
    pose proof (node_in_children _ _ _ N) as C. destruct (somes (map hir_expr c)) as [|a [|b r]] eqn:S1; try (repeat constructor; apply (node_in_span _ _ N)).
    destruct (somes_one _ _ S1) as (c1 & n & c2 & -> & X & _ & _). apply Forall_app in C as [_ C]. inversion C as [|? ? Cn _]; subst.
    pose proof (hir_in _ _ Cn) as R. rewrite X in R. exact R.
  - intros h H. rewrite finish_eq. destruct (plusb h); [|exact I]. apply (cbind_in _ (fun _ => True)).
    + apply lower_in, typed_in, bound_in, H.
    + intros e _. destruct e; try exact I. cbn [type_check]. destruct (stype_eqb _ _); [exact I|constructor].
Qed.
