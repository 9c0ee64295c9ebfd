(** The ErgoScript compiler: it does not panic, means what the source says, loses
    nothing of it, and how much work it does.

    The specification is made of the sources ([arith_source] and its parts in
    CompilerProofs.v: terms with operators between them and blanks around them), the
    expression of a sum ([sum_expr]) and its value, below. *)
From Verif Require Import Base VlqModel GroupModel SigmaModel TypeModel MethodModel IrModel SerModel SerSpec SerSegSpec SerProps ChainModel JsonModel
  BigIntModel TxModel PrintModel EvalModel CompilerModel TypeProofs TxProps ProverProofs EvalDataProps CompilerProofs.
Import SigmaModel CompilerModel CompilerProofs.
Local Open Scope string_scope.
Local Open Scope list_scope.
Local Open Scope Z_scope.

(** ** C97 *)
Section C97.
Context {G : group}.

(** No source without -, * and / (outside comments) makes the compiler panic. *)
Theorem c97_no_panic_tokens_partial : forall s,
  Forall (fun k => tok_kind k <> KMinus /\ tok_kind k <> KStar /\ tok_kind k <> KSlash) (significant (lex s)) ->
  compile_expr (G := G) s [] <> CPanic.
Proof.
  intros s F. rewrite compile_expr_eq. pose proof (hir_no_panic s). destruct (compile_hir s) as [h| |] eqn:E; cbn [cbind]; try congruence.
  destruct (hir_clean _ _ E) as (c1 & n & c2 & Q & W & O & X & _). rewrite Q in F. apply Forall_app in F as [_ F]. apply Forall_app in F as [F _].
  destruct (hir_wfe _ W O) as (_ & P). rewrite finish_eq, (P h); [|clear -F|exact X].
  - pose proof (lower_total (G := G) (typed (bound h))). destruct (mir_lower (typed (bound h))) as [e| |]; cbn [cbind]; try congruence. apply check_total.
  - apply Forall_forall. intros l I. rewrite Forall_forall in F. destruct (F (fst l) (in_map fst _ _ I)) as (A & B & C).
    destruct (tok_kind (fst l)); try reflexivity; congruence.
Qed.
Theorem c97_no_panic_partial : forall s, ~ In 45 s -> ~ In 42 s -> ~ In 47 s -> compile_expr (G := G) s [] <> CPanic.
Proof.
  intros s A B C. apply c97_no_panic_tokens_partial. apply Forall_forall. intros k I. unfold significant in I. apply filter_In in I as [I _].
  pose proof (lex_f_arith (List.length s) 0 s A B C) as F. rewrite Forall_forall in F. specialize (F k I).
  destruct (tok_kind k); try discriminate; repeat split; discriminate.
Qed.
(** Every arithmetic source with another operator than + makes it panic. *)
Theorem c97_operators_refuted : forall t us s, arith_source t us s -> Exists (fun x => fst x <> 43) us ->
  compile_expr (G := G) s [] = CPanic /\ compile (G := G) s [] = CPanic.
Proof.
  intros t us s A X. destruct (source_lex _ _ _ A) as (k & ks & Q & T & O). destruct (arith_hir _ _ _ _ _ Q T O) as (h & E & P).
  assert (C : compile_expr (G := G) s [] = CPanic).
  { rewrite compile_expr_eq, E. cbn [cbind]. rewrite finish_eq, P.
    assert (pluses us = false) as ->; [|reflexivity]. clear -X. induction X as [x l N|x l X IH]; cbn [pluses forallb].
    - destruct (Z.eqb_spec (fst x) 43); [contradiction|reflexivity].
    - unfold pluses in IH. rewrite IH. apply andb_false_r. }
  split; [exact C|]. unfold compile. rewrite C. reflexivity.
Qed.
End C97.
(** Describing an error at the start of a source panics: the empty source, and ")". *)
Theorem c97_describe_refuted : forall G : group, exists at1 at2,
  compile_expr (G := G) [] [] = CErr at1 /\ pretty_desc at1 = Panic /\
  compile_expr (G := G) (txt ")") [] = CErr at2 /\ pretty_desc at2 = Panic.
Proof. intros G. exists [(0, 0)], [(0, 1)]. repeat split. Qed.

(** ** C98 *)

(** The value of a term, and of a list of them. *)
Definition number (height : Z) (t : term) : Z := match t with TmName _ => height | TmInt z | TmLong z => z end.
Definition total (l : list Z) : Z := fold_right Z.add 0 l.
Definition width (t : term) : Z := match t with TmLong _ => 64 | _ => 32 end.
(** All terms have one type and every sum of the first two or more of them is in the
    range of that type. *)
Definition summable (height : Z) (t : term) (ts : list term) : Prop :=
  Forall (fun u => width u = width t) ts /\
  forall k, (1 <= k <= List.length ts)%nat ->
    - 2 ^ (width t - 1) <= total (map (number height) (firstn (S k) (t :: ts))) < 2 ^ (width t - 1).
(** Statements that are passed over contain one of these. *)
Lemma no_silent : forall s c1 n c2,
  Forall (fun k => tok_kind k <> KVal /\ tok_kind k <> KMinus /\ tok_kind k <> KLParen) (significant (lex s)) ->
  significant (lex s) = map fst (List.flat_map node_leaves c1) ++ map fst (node_leaves n) ++ map fst (List.flat_map node_leaves c2) ->
  Forall (fun m => hir_expr m = None /\ (wfe m \/ (is_def m /\ Exists (fun k => tok_kind k = KVal) (significant (lex s))))) (c1 ++ c2) ->
  c1 = [] /\ c2 = [].
Proof.
  intros s c1 n c2 F Q N.
  assert (Z : forall c, Forall (fun m => hir_expr m = None /\ (wfe m \/ (is_def m /\ Exists (fun k => tok_kind k = KVal) (significant (lex s))))) c ->
              Forall (fun k => tok_kind k <> KVal /\ tok_kind k <> KMinus /\ tok_kind k <> KLParen) (map fst (List.flat_map node_leaves c)) -> c = []).
  { clear - F. intros [|m c] N K; [reflexivity|]. exfalso. inversion N as [|? ? [Nm [Wm|[_ V]]] _]; subst.
    - pose proof (silent_first _ Wm Nm) as S. cbn [List.flat_map] in K. rewrite map_app in K. apply Forall_app in K as [K _].
      apply Exists_exists in S as (l & I & Nl). rewrite Forall_forall in K. destruct (K (fst l) (in_map fst _ _ I)) as (A & B & C).
      apply Nl. unfold plain. destruct (tok_kind (fst l)); try exact Logic.I; congruence.
    - apply Exists_exists in V as (k & I & Kk). rewrite Forall_forall in F. destruct (F k I) as (A & _). contradiction. }
  rewrite Q in F. apply Forall_app in F as [F1 F']. apply Forall_app in F' as [_ F2]. apply Forall_app in N as [N1 N2].
  split; [exact (Z _ N1 F1)|exact (Z _ N2 F2)].
Qed.
Section C98.
Context {G : group}.
Notation expr := (expr G). Notation value := (value G).
Definition num_value (t : term) (z : Z) : value := match t with TmLong _ => VLong z | _ => VInt z end.

(** What the compiler gives is the sum of terms of the source that follow one another,
    from left to right. *)
Theorem c98_sound : forall s (e : expr), compile_expr s [] = COk e ->
  exists pre t ts mid post, significant (lex s) = pre ++ mid ++ post /\ sum_tokens t ts mid /\
    e = sum_expr t ts /\ compiles t ts = true.
Proof.
  intros s e E. rewrite compile_expr_eq in E. destruct (compile_hir s) as [h| |] eqn:Eh; cbn [cbind] in E; try discriminate.
  destruct (hir_clean _ _ Eh) as (c1 & n & c2 & Q & W & O & X & _).
  rewrite finish_eq in E. destruct (plusb h) eqn:P; [|discriminate].
  destruct (hir_sum _ W _ O X (proj1 (plusb_iff _) P)) as (t & ts & S1 & R).
  do 5 eexists. split; [exact Q|]. split; [exact S1|].
  pose proof (finish_sum (G := G) _ _ _ R) as L. rewrite finish_eq, P, E in L.
  destruct (compiles t ts); cbn [lowered] in L; [|destruct L; discriminate]. split; [congruence|reflexivity].
Qed.
(** ... and of all of them, when the source has no definition, no minus and no
    parenthesis. *)
Theorem c98_sound_whole : forall s (e : expr), compile_expr s [] = COk e ->
  Forall (fun k => tok_kind k <> KVal /\ tok_kind k <> KMinus /\ tok_kind k <> KLParen) (significant (lex s)) ->
  exists t ts, sum_tokens t ts (significant (lex s)) /\ e = sum_expr t ts.
Proof.
  intros s e E F. rewrite compile_expr_eq in E. destruct (compile_hir s) as [h| |] eqn:Eh; cbn [cbind] in E; try discriminate.
  destruct (hir_clean _ _ Eh) as (c1 & n & c2 & Q & W & O & X & N).
  rewrite finish_eq in E. destruct (plusb h) eqn:P; [|discriminate].
  destruct (hir_sum _ W _ O X (proj1 (plusb_iff _) P)) as (t & ts & S1 & R).
  destruct (no_silent _ _ _ _ F Q N) as [-> ->].
  cbn [List.flat_map map app] in Q. rewrite app_nil_r in Q. exists t, ts. rewrite Q. split; [exact S1|].
  pose proof (finish_sum (G := G) _ _ _ R) as L. rewrite finish_eq, P, E in L.
  destruct (compiles t ts); cbn [lowered] in L; [congruence|destruct L; discriminate].
Qed.
(** Which sums compile, and to what. *)
Theorem c98_exact : forall t us s, arith_source t us s -> Forall (fun x => fst x = 43) us ->
  let ts := map snd us in
  if compiles t ts then compile_expr s [] = COk (sum_expr (G := G) t ts)
  else exists at_, compile_expr (G := G) s [] = CErr at_.
Proof.
  intros t us s A F ts. destruct (source_lex _ _ _ A) as (k & ks & Q & T & O). destruct (arith_hir _ _ _ _ _ Q T O) as (h & E & P).
  assert (PL : pluses us = true). { clear -F. induction F as [|x l X F IH]; [reflexivity|]. cbn [pluses forallb]. rewrite X. exact IH. }
  rewrite PL in P. destruct (hir_clean _ _ E) as (c1 & n & c2 & Q' & W & OK & X & N).
  assert (S0 : sum_tokens t ts (significant (lex s))) by (rewrite Q; exists k, ks; repeat split; [exact T|]; now apply op_terms_plus).
  assert (KS : Forall (fun k => tok_kind k <> KVal /\ tok_kind k <> KMinus /\ tok_kind k <> KLParen) (significant (lex s))).
  { rewrite Q. clear - T O F PL. constructor; [destruct (term_kind _ _ T) as [Y|[Y|Y]]; rewrite Y; repeat split; discriminate|].
    pose proof (op_terms_plus _ _ O PL) as PT. clear - PT. induction PT as [|u vs p k' ks' Kp T H IH]; constructor; [|constructor; [|exact IH]].
    - rewrite Kp. repeat split; discriminate.
    - destruct (term_kind _ _ T) as [Y|[Y|Y]]; rewrite Y; repeat split; discriminate. }
  destruct (no_silent _ _ _ _ KS Q' N) as [-> ->].
  cbn [List.flat_map map app] in Q'. rewrite app_nil_r in Q'.
  destruct (hir_sum _ W _ OK X (proj1 (plusb_iff _) P)) as (t' & ts' & S1 & R). rewrite <- Q' in S1.
  destruct (sum_det _ _ _ _ _ S0 S1) as [<- <-]. rewrite compile_expr_eq, E. cbn [cbind]. exact (finish_sum _ _ _ R).
Qed.

(** The script made of it holds the same expression, its constants in order. *)
Lemma sum_ok : forall ts t st, exists st', ok_expr true st (sum_expr (G := G) t ts) st'.
Proof.
  assert (T : forall t st, ok_expr true st (term_expr (G := G) t) st).
  { intros [n|z|z] st; cbn [term_expr]; try constructor. eapply ok_op with (t := SInt); try reflexivity; try constructor. }
  intros ts t st. exists st. induction ts as [|u ts IH] using rev_ind; [apply T|]. rewrite sum_snoc. eapply ok_bin; [| |exact IH|apply T].
  - intros [_ B]. destruct u; cbn in B; contradiction.
  - destruct ts as [|v ts _] using rev_ind; [destruct t; auto|]. rewrite sum_snoc. auto.
Qed.
Definition literals (t : term) : list (const G) :=
  match t with TmName _ => [] | TmInt z => [MkConst SInt (LInt z)] | TmLong z => [MkConst SLong (LLong z)] end.
Lemma consts_sum : forall ts t, SerSegSpec.consts_of (sum_expr (G := G) t ts) = List.flat_map literals (t :: ts).
Proof.
  intros ts t. induction ts as [|u ts IH] using rev_ind; [destruct t; reflexivity|]. rewrite sum_snoc.
  change (t :: ts ++ [u]) with ((t :: ts) ++ [u]). rewrite flat_map_app, <- IH. cbn [SerSegSpec.consts_of].
  assert (bool_pair (sum_expr (G := G) t ts) (term_expr u) = false) as ->.
  { unfold bool_pair. destruct (sum_expr t ts) as [[[]]| | | | | | | | | | | |], u; reflexivity. }
  destruct u; reflexivity.
Qed.
Theorem c98_script : forall t us s, group_ok G -> arith_source t us s -> Forall (fun x => fst x = 43) us ->
  Zlen us < 2 ^ 31 -> compiles t (map snd us) = true ->
  exists tr, compile s [] = COk tr /\ proposition tr = Ok (sum_expr (G := G) t (map snd us)) /\
    get_constants tr = Ok (List.flat_map literals (t :: map snd us)).
Proof.
  intros t us s HG A F L C. pose proof (c98_exact t us s A F) as X. cbv zeta in X. rewrite C in X.
  destruct (sum_ok (map snd us) t fresh) as [st' OK].
  destruct (c23_proposition_of_new G HG (th_v0 true) _ _ OK) as (tr & N & P & K).
  { rewrite consts_sum. assert (LT : forall l, Zlen (List.flat_map literals l) <= Zlen l).
    { induction l as [|x l IH]; [reflexivity|]. cbn [List.flat_map]. rewrite Zlen_app, Zlen_cons. destruct x; cbn [literals]; rewrite ?Zlen_cons, Zlen_nil; lia. }
    specialize (LT (t :: map snd us)). rewrite Zlen_cons in LT. assert (Zlen (map snd us) = Zlen us) by (unfold Zlen; now rewrite map_length). lia. }
  exists tr. unfold compile. rewrite X. cbn [cbind].
  assert (tree_of_expr (sum_expr (G := G) t (map snd us)) = tree_new (th_v0 true) (sum_expr t (map snd us))) as ->.
  { clear. destruct (map snd us) as [|v ts _] using rev_ind; [destruct t; reflexivity|]. rewrite sum_snoc. reflexivity. }
  rewrite N. split; [reflexivity|]. split; [exact P|]. rewrite K. cbn [th_seg th_v0]. now rewrite consts_sum.
Qed.

(** What the expression evaluates to. *)
Variables H sha : bytes -> bytes.
Variable fits : Z -> bool.
Variable avlv : avl_verifier.
Variable c : context G (chain_state G).
Notation eval := (eval H sha fits avlv c).
Lemma total_app : forall a b, total (a ++ b) = total a + total b.
Proof. induction a as [|x a IH]; intros b; cbn; [reflexivity|]. unfold total in *. rewrite IH. lia. Qed.
Lemma eval_term : forall n t e, 0 <= c_height c < 2 ^ 31 -> eval (S n) (term_expr t) e = Ok (num_value t (number (c_height c) t), e).
Proof.
  intros n t e B. destruct t; cbn [term_expr EvalModel.eval eval_step eval_op op0 bind]; try reflexivity.
  unfold wraps. cbn [num_value number]. do 2 f_equal. f_equal. rewrite Z.mod_small by lia. lia.
Qed.
Theorem c98_value : forall t ts n e, 0 <= c_height c < 2 ^ 31 -> (List.length ts < n)%nat ->
  (summable (c_height c) t ts /\ eval n (sum_expr t ts) e = Ok (num_value t (total (map (number (c_height c)) (t :: ts))), e)) \/
  (~ summable (c_height c) t ts /\ exists m, eval n (sum_expr t ts) e = Err m).
Proof.
  intros t ts n e B. revert n. induction ts as [|u ts IH] using rev_ind; intros [|n] L; try lia.
  - left. split; [split; [constructor|cbn [List.length]; lia]|]. change (sum_expr t []) with (term_expr (G := G) t).
    rewrite eval_term by assumption. cbn [map total fold_right]. now rewrite Z.add_0_r.
  - rewrite app_length in L. cbn [List.length] in L. rewrite sum_snoc. cbn [EvalModel.eval eval_step]. unfold eval_bin.
    destruct n as [|n]; [lia|]. destruct (IH (S n) ltac:(lia)) as [[SM E]|[SM [m E]]]; rewrite E; cbn [bind].
    2:{ right. split; [|eauto]. intros [F P]. apply SM. apply Forall_app in F as [F _]. split; [exact F|].
        intros k K. specialize (P k). rewrite app_length in P. specialize (P ltac:(lia)).
        rewrite app_comm_cons, firstn_app in P. replace (S k - List.length (t :: ts))%nat with O in P by (cbn [List.length]; lia).
        cbn [firstn] in P. rewrite app_nil_r in P. exact P. }
    assert (TT : total (map (number (c_height c)) (t :: ts ++ [u])) = total (map (number (c_height c)) (t :: ts)) + number (c_height c) u).
    { rewrite app_comm_cons, map_app, total_app. cbn. lia. }
    assert (STEP : summable (c_height c) t (ts ++ [u]) <-> width u = width t /\
              - 2 ^ (width t - 1) <= total (map (number (c_height c)) (t :: ts ++ [u])) < 2 ^ (width t - 1)).
    { split.
      - intros [F P]. apply Forall_app in F as [_ F]. inversion F; subst. split; [assumption|]. specialize (P (List.length (ts ++ [u]))).
        rewrite app_length in P. cbn [List.length] in P. specialize (P ltac:(lia)).
        rewrite firstn_all2 in P by (cbn [List.length]; rewrite app_length; cbn [List.length]; lia). exact P.
      - intros [Wu R]. destruct SM as [F P]. split; [apply Forall_app; auto|]. intros k K. rewrite app_length in K. cbn [List.length] in K.
        destruct (Nat.eq_dec k (List.length ts + 1)) as [->|NK].
        + rewrite firstn_all2 by (cbn [List.length]; rewrite app_length; cbn [List.length]; lia). exact R.
        + rewrite app_comm_cons, firstn_app. replace (S k - List.length (t :: ts))%nat with O by (cbn [List.length]; lia).
          cbn [firstn]. rewrite app_nil_r. apply P. lia. }
    rewrite eval_term by assumption. rewrite TT in *.
    set (A := total (map (number (c_height c)) (t :: ts))) in *. set (Bz := number (c_height c) u) in *.
    assert (RNG : forall w, (- 2 ^ (w - 1) <=? A + Bz) && (A + Bz <? 2 ^ (w - 1)) = true <-> - 2 ^ (w - 1) <= A + Bz < 2 ^ (w - 1)).
    { intros w. rewrite andb_true_iff, Z.leb_le, Z.ltb_lt. tauto. }
    destruct t as [nt|zt|zt], u as [nu|zu|zu]; cbn [num_value num_of of_option bind get_num];
      try (right; split; [rewrite STEP; cbn [width]; intros [Q _]; discriminate Q|eexists; reflexivity]);
      cbn [arith]; unfold prim_chk; cbn [kind_bits]; cbn [width] in STEP |- *;
      match goal with |- context [(?a <=? ?b) && ?d] => destruct ((a <=? b) && d) eqn:Q end; cbn [of_option bind mk_num];
      try (left; split; [apply STEP; split; [reflexivity|apply RNG; exact Q]|reflexivity]);
      right; (split; [|eexists; reflexivity]); intros X; apply STEP in X as [_ X]; apply RNG in X; congruence.
Qed.
(** No compiled script can be satisfied, at any height: it gives a number, which makes
    the verifier panic, or fails. *)
Theorem c98_unspendable_refuted : forall s (e : expr), 0 <= c_height c < 2 ^ 31 -> compile_expr s [] = COk e ->
  forall n r, reduce_to_crypto H sha fits avlv c n e <> Ok r.
Proof.
  intros s e B E n r. destruct (c98_sound _ _ E) as (pre & t & ts & mid & post & _ & _ & -> & _). unfold reduce_to_crypto.
  assert (NB : (exists z, eval n (sum_expr t ts) [] = Ok (num_value t z, [])) \/ (exists m, eval n (sum_expr t ts) [] = Err m)).
  { clear E. generalize (@nil (Z * value)) as en. revert n. induction ts as [|u ts IH] using rev_ind; intros [|n] en; try (right; eexists; reflexivity).
    - left. change (sum_expr t []) with (term_expr (G := G) t). rewrite eval_term by assumption. eauto.
    - rewrite sum_snoc. cbn [EvalModel.eval eval_step]. unfold eval_bin. destruct (IH n en) as [[z ->]|[m ->]]; cbn [bind]; [|eauto].
      destruct n as [|n]; [right; destruct t; eexists; reflexivity|]. rewrite eval_term by assumption.
      destruct t as [nt|zt|zt], u as [nu|zu|zu]; cbn [num_value num_of of_option bind get_num]; try (right; eexists; reflexivity);
        cbn [arith]; destruct (prim_chk _ _); cbn [of_option bind mk_num]; eauto. }
  destruct NB as [[z ->]|[m ->]]; [destruct t; discriminate|]. destruct (pretty_print _); discriminate.
Qed.
End C98.

(** Statements before and after the expression are passed over: a definition, an
    expression in parentheses, a negative number. *)
Theorem c98_ignored_refuted : forall G : group,
  compile_expr (G := G) (txt "val x = 7  HEIGHT") [] = COk (sum_expr (TmName (txt "HEIGHT")) []) /\
  compile_expr (G := G) (txt "(HEIGHT + 1) 5") [] = COk (sum_expr (TmInt 5) []) /\
  compile_expr (G := G) (txt "-5 3") [] = COk (sum_expr (TmInt 3) []).
Proof. intros G. repeat split. Qed.
(** Whether HEIGHT is known depends on its place in the sum. *)
Theorem c98_position_refuted : forall G : group, exists at_,
  compile_expr (G := G) (txt "1 + 2 + HEIGHT") [] = COk (sum_expr (TmInt 1) [TmInt 2; TmName (txt "HEIGHT")]) /\
  compile_expr (G := G) (txt "HEIGHT + 1 + 2") [] = CErr at_.
Proof. intros G. eexists. split; reflexivity. Qed.
(** A sum of numbers of different types compiles when the last has the type of the
    first, and then fails at every height. *)
Theorem c98_ill_typed_refuted : forall G : group,
  compile_expr (G := G) (txt "1 + 2L + 3") [] = COk (sum_expr (TmInt 1) [TmLong 2; TmInt 3]) /\
  forall H sha fits avlv (c : context G (chain_state G)) n e,
    exists m, eval H sha fits avlv c n (sum_expr (TmInt 1) [TmLong 2; TmInt 3]) e = Err m.
Proof.
  intros G. split; [reflexivity|]. intros H sha fits avlv c n e.
  destruct n as [|[|[|n]]]; try (eexists; reflexivity).
Qed.

(** ** C99 *)

(** The syntax tree holds every byte of the source, in order, whether or not the source
    is well formed, and every token stands where it says. *)
Theorem c99_lossless : forall s,
  List.concat (map tok_text (node_tokens (fst (parse s)))) = s /\ laid 0 (node_tokens (fst (parse s))).
Proof. intros s. rewrite parse_tokens. split; [apply lex_text|apply lex_laid]. Qed.
(** The positions of errors are in the source. *)
Theorem c99_error_positions : forall (G : group) s at_, compile_expr (G := G) s [] = CErr at_ ->
  Forall (fun sp => 0 <= fst sp <= snd sp /\ snd sp <= Zlen s) at_.
Proof. intros G s at_ E. pose proof (compile_in (G := G) s) as X. rewrite E in X. exact X. Qed.
(** Counting its calls does not change what [assign_type] does. *)
Theorem c99_count : forall e, assign_type e =
  match assign_n (S (h_depth e)) e with COk r => COk (fst r) | CErr x => CErr x | CPanic => CPanic end.
Proof. intros e. apply assign_erase. Qed.
(** Typing a sum takes a number of calls exponential in the number of its terms. *)
Theorem c99_exponential_refuted : forall (G : group) t us s, arith_source t us s -> Forall (fun x => fst x = 43) us ->
  exists h b r n, compile_hir s = COk h /\ binder (G := G) [] h = COk b /\
    assign_n (S (h_depth b)) b = COk (r, n) /\ (2 ^ (N.of_nat (List.length us) / 2) <= n)%N.
Proof.
  intros G t us s A F. destruct (source_lex _ _ _ A) as (k & ks & Q & T & O). destruct (arith_hir _ _ _ _ _ Q T O) as (h & E & P).
  assert (PL : pluses us = true). { clear -F. induction F as [|x l X F IH]; [reflexivity|]. cbn [pluses forallb]. rewrite X. exact IH. }
  rewrite PL in P. exists h, (bound h), (typed (bound h)), (fst (cost (bound h))). split; [exact E|]. split; [apply binder_eq|].
  split; [apply assign_n_eq; [lia|now rewrite bound_plusb]|]. rewrite cost_bound.
  destruct (hir_clean _ _ E) as (c1 & n & c2 & Q' & W & OK & X & N).
  assert (S0 : sum_tokens t (map snd us) (significant (lex s))) by (rewrite Q; exists k, ks; repeat split; [exact T|]; now apply op_terms_plus).
  assert (KS : Forall (fun k => tok_kind k <> KVal /\ tok_kind k <> KMinus /\ tok_kind k <> KLParen) (significant (lex s))).
  { destruct S0 as (k0 & ks0 & -> & T0 & PT). constructor; [destruct (term_kind _ _ T0) as [Y|[Y|Y]]; rewrite Y; repeat split; discriminate|].
    clear - PT. induction PT as [|u vs p k' ks' Kp T H IH]; constructor; [|constructor; [|exact IH]].
    - rewrite Kp. repeat split; discriminate.
    - destruct (term_kind _ _ T) as [Y|[Y|Y]]; rewrite Y; repeat split; discriminate. }
  destruct (no_silent _ _ _ _ KS Q' N) as [-> ->]. cbn [List.flat_map map app] in Q'. rewrite app_nil_r in Q'.
  destruct (hir_sum _ W _ OK X (proj1 (plusb_iff _) P)) as (t' & ts' & S1 & R). rewrite <- Q' in S1.
  destruct (sum_det _ _ _ _ _ S0 S1) as [_ EL]. destruct (sum_cost _ _ _ R) as [_ C]. rewrite <- EL, map_length in C.
  eapply N.le_trans; [|exact C]. apply N.pow_le_mono_r; [lia|]. apply N.div_le_mono; lia.
Qed.

(** 1, then +1 any number of times. *)
Definition ones (n : nat) : bytes := 49 :: List.concat (repeat [43; 49] n).
Lemma one_text : term_text (TmInt 1) [49].
Proof. split; [split; [discriminate|repeat constructor; lia]|]. split; [reflexivity|lia]. Qed.
Lemma ones_source : forall n, arith_source (TmInt 1) (repeat (43, TmInt 1) n) (ones n) /\ Zlen (ones n) = 1 + 2 * Z.of_nat n.
Proof.
  intros n. split.
  - exists [], [49], (List.concat (repeat [43; 49] n)). split; [reflexivity|]. split; [constructor|]. split; [apply one_text|].
    induction n as [|n IH]; [apply at_end; constructor|].
    apply (at_more [] 43 [] [49] (TmInt 1) _ _); [constructor|now left|constructor|discriminate|apply one_text|exact IH].
  - unfold ones. rewrite Zlen_cons. induction n as [|n IH]; [reflexivity|]. cbn [repeat List.concat]. rewrite Zlen_app.
    change (Zlen [43; 49]) with 2. lia.
Qed.
Example c97_hyps_met : forall G : group,
  ~ In 45 (ones 3) /\ ~ In 42 (ones 3) /\ ~ In 47 (ones 3) /\
  (exists us, arith_source (TmInt 1) us (txt "1 -1") /\ Exists (fun x => fst x <> 43) us) /\
  compile_expr (G := G) (txt "1 -1") [] = CPanic.
Proof.
  intros G. repeat split; try (cbn; intuition discriminate).
  exists [(45, TmInt 1)]. split; [|constructor; discriminate]. exists [], [49], [32; 45; 49]. split; [reflexivity|]. split; [constructor|].
  split; [apply one_text|]. apply (at_more [32] 45 [] [49] (TmInt 1) [] []);
    [apply bl_space; [now left|constructor]|right; now left|constructor|discriminate|apply one_text|apply at_end; constructor].
Qed.
Example c98_hyps_met : forall G : group,
  arith_source (TmInt 1) (repeat (43, TmInt 1) 2) (ones 2) /\ compiles (TmInt 1) [TmInt 1; TmInt 1] = true /\
  compile_expr (ones 2) [] = COk (sum_expr (G := G) (TmInt 1) [TmInt 1; TmInt 1]) /\
  summable 5 (TmName (txt "HEIGHT")) [TmInt 1] /\ ~ summable 5 (TmInt (2 ^ 31 - 1)) [TmInt 1] /\
  compiles (TmName (txt "HEIGHT")) [TmInt 1; TmInt 2] = false.
Proof.
  intros G. split; [apply (ones_source 2)|]. split; [reflexivity|]. split; [reflexivity|]. split; [|split; [|reflexivity]].
  - split; [repeat constructor|]. cbn [List.length]. intros k K. replace k with 1%nat by lia. cbn. lia.
  - intros [_ P]. specialize (P 1%nat ltac:(cbn; lia)). cbn in P. lia.
Qed.
Example c99_hyps_met : forall G : group, Zlen (ones 200) = 401 /\
  exists h b r n, compile_hir (ones 200) = COk h /\ binder (G := G) [] h = COk b /\ assign_n (S (h_depth b)) b = COk (r, n) /\ (2 ^ 100 <= n)%N.
Proof.
  intros G. split; [reflexivity|]. pose proof (c99_exponential_refuted G _ _ _ (proj1 (ones_source 200))) as X.
  rewrite repeat_length in X. apply X. apply Forall_forall. intros x I. apply repeat_spec in I. now subst.
Qed.

Print Assumptions c97_no_panic_tokens_partial.
Print Assumptions c97_no_panic_partial.
Print Assumptions c97_operators_refuted.
Print Assumptions c97_describe_refuted.
Print Assumptions c98_sound.
Print Assumptions c98_sound_whole.
Print Assumptions c98_exact.
Print Assumptions c98_script.
Print Assumptions c98_value.
Print Assumptions c98_unspendable_refuted.
Print Assumptions c98_ignored_refuted.
Print Assumptions c98_position_refuted.
Print Assumptions c98_ill_typed_refuted.
Print Assumptions c99_lossless.
Print Assumptions c99_error_positions.
Print Assumptions c99_count.
Print Assumptions c99_exponential_refuted.
