(** Properties C59 (hints bags) and C62 (signed transactions verify). *)
From Verif Require Import Base VlqModel GfModel GroupModel SigmaModel SigmaSpec ProverModel SigmaProofs VerifierProofs CommitProofs ProverProofs ProverProps.
From Verif Require Import TypeModel MethodModel IrModel SerModel TypeProofs SerProofs ChainModel ChainProps TxModel TxProps SignModel.
From Coq Require Import Permutation.
Local Open Scope string_scope.
Local Open Scope list_scope.
Local Open Scope Z_scope.

(** ** C59: the hints of a transaction *)

(** What a user does to a bag, one input at a time. *)
Inductive bag_op (G : group) := OpAdd (i : nat) (l : list (hint G)) | OpReplace (i : nat) (l : list (hint G)).
Arguments OpAdd {G}. Arguments OpReplace {G}.
Definition run_op {G : group} (b : txhints G) (o : bag_op G) : txhints G :=
  match o with OpAdd i l => add_hints b i l | OpReplace i l => replace_hints b i l end.
Definition run_ops {G : group} (ops : list (bag_op G)) : txhints G := fold_left run_op ops th_empty.

(** The hints given for input [i]: those of the last replacement and of all additions
    after it, the latest first. *)
Fixpoint given_rev {G : group} (rops : list (bag_op G)) (i : nat) : list (list (hint G)) :=
  match rops with
  | [] => []
  | OpAdd j l :: r => if Nat.eqb j i then l :: given_rev r i else given_rev r i
  | OpReplace j l :: r => if Nat.eqb j i then [l] else given_rev r i
  end.
Definition given {G : group} (ops : list (bag_op G)) (i : nat) : list (list (hint G)) := given_rev (rev ops) i.

Lemma filter_split {A} (f g : A -> bool) (l : list A) :
  (forall x, In x l -> g x = negb (f x)) -> Permutation (filter f l ++ filter g l) l.
Proof.
  induction l as [|x l IH]; intros Hfg; [constructor|]. cbn [filter]. pose proof (Hfg x (or_introl eq_refl)) as E.
  assert (IH' : Permutation (filter f l ++ filter g l) l) by (apply IH; intros y Hy; apply Hfg; right; exact Hy).
  destruct (f x); cbn [negb] in E; rewrite E.
  - cbn [app]. constructor. exact IH'.
  - symmetry. apply Permutation_cons_app. symmetry. exact IH'.
Qed.
Lemma secret_or_commitment {G : group} (h : hint G) : is_commitment h = negb (is_secret_proven h).
Proof. destruct h; reflexivity. Qed.
Lemma filter_concat {A} (f : A -> bool) (l : list (list A)) : filter f (concat l) = concat (map (filter f) l).
Proof. induction l as [|x l IH]; [reflexivity|]. cbn [concat map]. rewrite filter_app, IH. reflexivity. Qed.

(** The hints handed to the prover for an input: the partial proofs first, then the
    commitments, each latest first. *)
Theorem c59_all_hints : forall (G : group) (ops : list (bag_op G)) i,
  all_hints (run_ops ops) i =
  filter is_secret_proven (concat (given ops i)) ++ filter is_commitment (concat (given ops i)).
Proof.
  intros G ops i. unfold run_ops, given. rewrite <- fold_left_rev_right. generalize (rev ops). intros r. clear ops. unfold all_hints.
  assert (X : forall f (get : txhints G -> hmap G),
    get th_empty = [] ->
    (forall b j l, get (add_hints b j l) = hm_insert j (filter f l ++ hints_or_empty (hm_get (get b) j)) (get b)) ->
    (forall b j l, get (replace_hints b j l) = hm_insert j (filter f l) (get b)) ->
    hints_or_empty (hm_get (get (fold_right (fun y x => run_op x y) th_empty r)) i) = filter f (concat (given_rev r i))).
  { intros f get E0 Ea Er. induction r as [|o r IH]; cbn [fold_right given_rev]; [rewrite E0; reflexivity|].
    destruct o as [j l|j l]; cbn [run_op].
    - rewrite Ea. cbn [hm_insert hm_get]. destruct (Nat.eqb j i) eqn:Ej; [|exact IH].
      apply Nat.eqb_eq in Ej. subst j. cbn [hints_or_empty concat]. rewrite filter_app, IH. reflexivity.
    - rewrite Er. cbn [hm_insert hm_get]. destruct (Nat.eqb j i) eqn:Ej; [|exact IH].
      cbn [hints_or_empty concat]. rewrite app_nil_r. reflexivity. }
  rewrite (X is_secret_proven (@th_secret G)), (X is_commitment (@th_public G)); reflexivity.
Qed.
Print Assumptions c59_all_hints.

(** So nothing is lost, duplicated or invented, and one input's hints never reach
    another. *)
Theorem c59_no_hint_lost : forall (G : group) (ops : list (bag_op G)) i,
  Permutation (all_hints (run_ops ops) i) (concat (given ops i)).
Proof.
  intros G ops i. rewrite c59_all_hints. apply filter_split. intros x _. apply secret_or_commitment.
Qed.
Print Assumptions c59_no_hint_lost.

Example c59_hyps_met : forall (G : group) (a b c : hint G),
  given [OpAdd 0 [a]; OpReplace 1 [c]; OpAdd 0 [b; c]] 0 = [[b; c]; [a]] /\
  given [OpAdd 0 [a]; OpReplace 0 [c]; OpAdd 1 [b]] 0 = [[c]].
Proof. intros. split; reflexivity. Qed.

(** ** C62: signing *)
Section SignProofs.
Context {G : group} {S : Type}.
Variable H : bytes -> bytes.
Variable reduce : expr G -> context G S -> res (sbool G).
Variable height : S -> Z.

Lemma map_from_ok {A} (f : nat -> res A) : forall n i l, map_from f i n = Ok l ->
  List.length l = n /\ forall k, (k < n)%nat -> exists a, f (i + k)%nat = Ok a /\ nth_error l k = Some a.
Proof.
  induction n as [|n IH]; intros i l E; cbn [map_from] in E; [injection E as <-; split; [reflexivity|lia]|].
  inv_bind E. inv_bind E. injection E as <-. apply IH in Eb0. destruct Eb0 as [L P]. split; [cbn [List.length]; lia|].
  intros [|k] Hk; [rewrite Nat.add_0_r; exists b; auto|]. destruct (P k ltac:(lia)) as (a & Ea & Na).
  exists a. rewrite Nat.add_succ_r. rewrite Nat.add_succ_l in Ea. auto.
Qed.
Lemma map_from_exists {A} (f : nat -> res A) : forall n i, (forall k, (i <= k < i + n)%nat -> exists a, f k = Ok a) ->
  exists l, map_from f i n = Ok l.
Proof.
  induction n as [|n IH]; intros i P; cbn [map_from]; [eauto|]. destruct (P i ltac:(lia)) as [a ->]. cbn [bind].
  destruct (IH (Datatypes.S i)) as [l ->]; [intros k Hk; apply P; lia|]. cbn [bind]. eauto.
Qed.
Lemma map_from_ext {A} (f g : nat -> res A) : forall n i, (forall k, (i <= k < i + n)%nat -> f k = g k) ->
  map_from f i n = map_from g i n.
Proof.
  induction n as [|n IH]; intros i P; cbn [map_from]; [reflexivity|]. rewrite (P i) by lia. rewrite (IH (Datatypes.S i)); [reflexivity|].
  intros k Hk. apply P. lia.
Qed.

Lemma attach_combine : forall (ins : list (uinput G)) l,
  List.length l = List.length ins ->
  (forall k inp, nth_error l k = Some inp -> exists ui, nth_error ins k = Some ui /\ in_box inp = ui_box ui /\ in_ext inp = ui_ext ui) ->
  attach ins (map in_proof l) = Ok l.
Proof.
  induction ins as [|i ins IH]; intros [|p l] L P; try discriminate L; [reflexivity|].
  cbn [attach map]. rewrite (IH l).
  - cbn [bind]. destruct (P 0%nat p eq_refl) as (ui & E & B & X). cbn [nth_error] in E. injection E as <-.
    unfold input_of. rewrite <- B, <- X. destruct p; reflexivity.
  - cbn [List.length] in L. lia.
  - intros k inp Hk. apply (P (Datatypes.S k)). exact Hk.
Qed.

Lemma make_context_ext : forall st (x : txctx G (utx G)) i c,
  make_context (unsigned_etx H) height st x i = Ok c ->
  exists ui, nth_error (u_inputs (x_tx x)) i = Some ui /\ c_ext c = ui_ext ui /\
    find_box (x_boxes x) (ui_box ui) = Some (c_self c).
Proof.
  intros st x i c E. unfold make_context in E. cbn [e_inputs e_outputs e_data e_ext unsigned_etx] in E.
  rewrite nth_error_map in E. destruct (nth_error (u_inputs (x_tx x)) i) as [ui|]; [|discriminate].
  cbn [option_map of_option bind] in E. destruct (find_box (x_boxes x) (ui_box ui)) as [b|] eqn:Ef; [|discriminate]. cbn [of_option bind] in E.
  inv_bind E. inv_bind E. inv_bind E. injection E as <-. exists ui. auto.
Qed.

Lemma sign_input_inv : forall secrets th rnd st (x : txctx G (utx G)) msg i inp,
  sign_input H reduce height secrets th rnd st x msg i = Ok inp ->
  exists ui c s, nth_error (u_inputs (x_tx x)) i = Some ui /\ in_box inp = ui_box ui /\ in_ext inp = ui_ext ui /\
    find_box (x_boxes x) (ui_box ui) = Some (c_self c) /\
    make_context (unsigned_etx H) height st x i = Ok c /\ reduce_script reduce (box_tree (c_self c)) c = Ok s /\
    make_proof H secrets (hints_for th i) rnd s msg = Ok (in_proof inp).
Proof.
  intros secrets th rnd st x msg i inp E. unfold sign_input in E. inv_bind E. rename b into ui, Eb into Eu.
  inv_bind E. inv_bind E. rename b0 into c, Eb0 into Ec. inv_bind E. destruct b0 as [p e]. injection E as <-.
  unfold prove in Eb0. inv_bind Eb0. inv_bind Eb0. injection Eb0 as -> <-.
  destruct (make_context_ext _ _ _ _ Ec) as (ui' & E1 & E2 & E3). destruct (nth_error (u_inputs (x_tx x)) i) as [ui2|]; [|discriminate].
  injection Eu as ->. injection E1 as <-. rewrite E3 in Eb. injection Eb as <-.
  exists ui, c, b0. cbn [in_box in_ext in_proof]. auto 10.
Qed.

Lemma sign_tx_attach : forall secrets th rnd st ins d cs u (x : txctx G (utx G)) t,
  utx_new H ins d cs = Ok u -> x_tx x = u -> sign_tx H reduce height secrets th rnd st x = Ok t ->
  exists ps, List.length ps = List.length ins /\ tx_of_unsigned H u ps = Ok t /\
   exists msg, utx_bytes_to_sign H u = Ok msg /\
   forall i, (i < List.length ins)%nat -> exists inp, nth_error (t_inputs t) i = Some inp /\
     sign_input H reduce height secrets th (rnd i) st x msg i = Ok inp.
Proof.
  intros secrets th rnd st ins d cs u x t U X E. unfold sign_tx in E. rewrite X in E.
  assert (UI : u_inputs u = ins) by (unfold utx_new in U; inv_bind U; injection U as <-; reflexivity).
  inv_bind E. inv_bind E. rewrite UI in Eb0. apply map_from_ok in Eb0. destruct Eb0 as [L P].
  exists (map in_proof b0). split; [rewrite map_length; exact L|].
  assert (A : attach ins (map in_proof b0) = Ok b0).
  { apply attach_combine; [exact L|]. intros k inp Hk.
    assert (k < List.length ins)%nat as Hl by (rewrite <- L; apply nth_error_Some; congruence).
    destruct (P k Hl) as (a & Ea & Na). rewrite Hk in Na. injection Na as <-. apply sign_input_inv in Ea.
    destruct Ea as (ui & c & s & E1 & E2 & E3 & _). rewrite X, UI in E1. exists ui. auto. }
  split; [unfold tx_of_unsigned; rewrite UI, A; cbn [bind]; exact E|]. exists b. split; [exact Eb|].
  intros i Hi. destruct (P i Hi) as (a & Ea & Na). exists a. apply tx_new_inv in E. destruct E as (m & outs & _ & _ & _ & ->).
  cbn [t_inputs]. auto.
Qed.
End SignProofs.

(** What signing returns is the transaction that was to be signed: whatever the
    scripts reduce to, the secrets, the hints and the randomness. *)
Theorem c62_signed_tx : forall (G : group) S H reduce (height : S -> Z) secrets th rnd st (ins : list (uinput G)) d cs u x t,
  utx_new H ins d cs = Ok u -> x_tx x = u -> sign_tx H reduce height secrets th rnd st x = Ok t ->
  t_id t = u_id u /\ bytes_to_sign t = utx_bytes_to_sign H u /\
  map in_box (t_inputs t) = map ui_box ins /\ map in_ext (t_inputs t) = map ui_ext ins /\
  t_data t = d /\ t_cands t = cs.
Proof.
  intros G S H reduce height secrets th rnd st ins d cs u x t U X E.
  destruct (sign_tx_attach H reduce height secrets th rnd st ins d cs u x t U X E) as (ps & L & T & _).
  destruct (c29_signed_id G H ins d cs u ps t U T) as (A & B & C & D & _ & F & I). auto 10.
Qed.
Print Assumptions c62_signed_tx.

(** A script's reduced proposition that the prover can prove (the two exclusions are
    those of C10). *)
Definition signable {G : group} (secrets : list (secret G)) (s : sbool G) : Prop :=
  sb_wf s /\ normal s /\ provable (has_secret secrets) s /\ or_distinct s /\ thr_ok s.

Lemma signable_proof : forall (G : group), group_ok G -> forall H secrets rnd (s : sbool G) msg,
  Forall secret_ok secrets -> randomness_ok (G:=G) rnd -> (forall b, length (H b) = 32%nat /\ bytes_ok (H b)) ->
  signable secrets s -> exists p, make_proof H secrets [] rnd s msg = Ok p /\
   forall S reduce t (c : context G S), reduce_script reduce t c = Ok s -> verify H reduce t c p msg = Ok true.
Proof.
  intros G HG H secrets rnd s msg Hs Hr HH (A & B & C & D & E).
  destruct (c10_prover_complete_partial G HG secrets rnd H s msg Hs Hr HH A B C D E) as (p & P1 & P2 & P3).
  unfold make_proof. rewrite P1. cbn [bind]. eexists. split; [reflexivity|]. intros S reduce t c R.
  unfold verify. rewrite R. cbn [bind]. destruct s as [b|l|k l]; [exact P3| |]; cbn [verify_signature] in P3; destruct p; try discriminate P3; exact P3.
Qed.

(** If every input's script reduces, in its context, to a proposition the secrets can
    prove, then signing succeeds and every input of the result verifies.
    Missing for the full claim: propositions with repeated alternatives or impossible
    thresholds (C10), and scripts whose propositions contain constants. *)
Theorem c62_signed_verifies_partial : forall (G : group), group_ok G ->
  forall S H reduce (height : S -> Z) secrets rnd st (ins : list (uinput G)) d cs u boxes dboxes x,
  Forall secret_ok secrets -> (forall i, randomness_ok (G:=G) (rnd i)) -> (forall b, length (H b) = 32%nat /\ bytes_ok (H b)) ->
  utx_new H ins d cs = Ok u -> txctx_new (unsigned_etx H) u boxes dboxes = Ok x ->
  (forall i c, make_context (unsigned_etx H) height st x i = Ok c ->
     exists s, reduce_script reduce (box_tree (c_self c)) c = Ok s /\ signable secrets s) ->
  exists t x', sign_tx H reduce height secrets None rnd st x = Ok t /\
    txctx_new signed_etx t boxes dboxes = Ok x' /\
    forall i, (i < List.length ins)%nat -> verify_input H reduce height st x' i = Ok true.
Proof.
  intros G HG S H reduce height secrets rnd st ins d cs u boxes dboxes x Hs Hr HH U X R.
  assert (XT : x_tx x = u).
  { unfold txctx_new in X. destruct (Zlen boxes <? 1); [discriminate|]. destruct (65535 <? Zlen boxes); [discriminate|].
    destruct (forallb (has_box boxes) (e_inputs (unsigned_etx H) u)); [|discriminate]. cbn [negb] in X.
    inv_bind X. inv_bind X. injection X as <-. reflexivity. }
  assert (UI : u_inputs u = ins /\ u_data u = d /\ u_cands u = cs) by (unfold utx_new in U; inv_bind U; injection U as <-; auto).
  destruct UI as (UI & UD & UC).
  assert (M : exists msg, utx_bytes_to_sign H u = Ok msg).
  { unfold utx_new in U. inv_bind U. injection U as <-. unfold utx_bytes_to_sign. cbn [u_inputs u_data u_cands]. eauto. }
  destruct M as [msg M].
  assert (O : exists outs, e_outputs (unsigned_etx H) u = Ok outs).
  { destruct (proj2 (c29_signed_exists G H ins d cs u (repeat PEmpty (List.length ins)) U)) as [t0 T0]; [rewrite repeat_length; lia|].
    destruct (c29_signed_id G H ins d cs u _ t0 U T0) as (I1 & _).
    cbn [e_outputs unsigned_etx]. rewrite UC, <- I1. unfold tx_of_unsigned in T0. inv_bind T0. apply tx_new_inv in T0.
    destruct T0 as (m & outs & _ & _ & Eo & ->). cbn [t_id]. rewrite UC in Eo. rewrite Eo. eauto. }
  destruct O as [outs O].
  assert (Sg : forall i, (i < List.length ins)%nat -> exists inp, sign_input H reduce height secrets None (rnd i) st x msg i = Ok inp).
  { intros i Hi. destruct (c61_make_context G S (utx G) (unsigned_etx H) height st u boxes dboxes x i outs X O) as (c & Ec & _).
    - intros k Hk. cbn [e_inputs e_ext unsigned_etx] in *. rewrite map_length in Hk. rewrite UI in *.
      destruct (nth_error ins k) eqn:N; [discriminate|]. apply nth_error_None in N. lia.
    - cbn [e_inputs unsigned_etx]. rewrite map_length, UI. exact Hi.
    - destruct (R i c Ec) as (s & Es & Hsig). destruct (signable_proof G HG H secrets (rnd i) s msg Hs (Hr i) HH Hsig) as (p & Ep & _).
      destruct (make_context_ext H height st x i c Ec) as (ui & E1 & E2 & E3). unfold sign_input. rewrite E1. cbn [of_option bind].
      rewrite E3. cbn [of_option bind]. rewrite Ec. cbn [bind]. unfold prove. rewrite Es. cbn [bind hints_for].
      rewrite Ep. cbn [bind]. eauto. }
  assert (T : exists t, sign_tx H reduce height secrets None rnd st x = Ok t).
  { unfold sign_tx. rewrite XT, M. cbn [bind]. rewrite UI.
    destruct (map_from_exists (fun i => sign_input H reduce height secrets None (rnd i) st x msg i) (List.length ins) 0) as [l El];
      [intros k Hk; apply Sg; lia|]. rewrite El. cbn [bind]. apply map_from_ok in El. destruct El as [L P].
    assert (A : attach ins (map in_proof l) = Ok l).
    { apply attach_combine; [exact L|]. intros k inp Hk.
      assert (k < List.length ins)%nat as Hl by (rewrite <- L; apply nth_error_Some; congruence).
      destruct (P k Hl) as (a & Ea & Na). rewrite Hk in Na. injection Na as <-. apply sign_input_inv in Ea.
      destruct Ea as (ui & c & s & E1 & E2 & E3 & _). rewrite XT, UI in E1. exists ui. auto. }
    destruct (proj2 (c29_signed_exists G H ins d cs u (map in_proof l) U)) as [t Et]; [rewrite map_length; lia|].
    unfold tx_of_unsigned in Et. rewrite UI, A in Et. cbn [bind] in Et. eauto. }
  destruct T as [t T]. pose proof T as T'. apply (sign_tx_attach H reduce height secrets None rnd st ins d cs u x t U XT) in T'.
  destruct T' as (ps & L & Tu & msg' & M' & P). rewrite M in M'. injection M' as <-.
  destruct (c29_signed_id G H ins d cs u ps t U Tu) as (I1 & I2 & I3 & _).
  assert (X' : exists x', txctx_new signed_etx t boxes dboxes = Ok x' /\ x_tx x' = t /\ x_boxes x' = x_boxes x).
  { clear - X U Tu. destruct (c29_signed_id G H ins d cs u ps t U Tu) as (_ & _ & I3 & _ & _ & I6 & _).
    assert (UI : u_inputs u = ins /\ u_data u = d) by (unfold utx_new in U; inv_bind U; injection U as <-; auto). destruct UI as [UI UD].
    unfold txctx_new in *. cbn [e_inputs e_data unsigned_etx signed_etx] in *. rewrite I3, I6. rewrite UI, UD in X.
    destruct (Zlen boxes <? 1); [discriminate|]. destruct (65535 <? Zlen boxes); [discriminate|].
    destruct (forallb (has_box boxes) (map ui_box ins)); [|discriminate]. cbn [negb] in *. inv_bind X. rewrite Eb. cbn [bind].
    inv_bind X. rewrite Eb0. cbn [bind]. injection X as <-. eexists. split; [reflexivity|]. split; reflexivity. }
  destruct X' as (x' & X' & XT' & XB'). exists t, x'. split; [exact T|]. split; [exact X'|].
  intros i Hi. destruct (P i Hi) as (inp & Ni & Si). apply sign_input_inv in Si.
  destruct Si as (ui & c & s & E1 & E2 & E3 & E4 & E5 & E6 & E7).
  destruct (c61_same_context G H S height st ins d cs u ps t boxes dboxes x i c U Tu X E5) as (x2 & X2 & C2).
  rewrite X' in X2. injection X2 as <-.
  unfold verify_input. rewrite XT', Ni. cbn [of_option bind]. rewrite XB', E2, E4. cbn [of_option bind]. rewrite C2. cbn [bind].
  rewrite I2, M. cbn [bind]. destruct (R i c E5) as (s' & Es & Hsig). rewrite E6 in Es. injection Es as <-.
  destruct (signable_proof G HG H secrets (rnd i) s msg Hs (Hr i) HH Hsig) as (p & Ep & V).
  cbn [hints_for] in E7. rewrite E7 in Ep. injection Ep as ->. apply V. exact E6.
Qed.
Print Assumptions c62_signed_verifies_partial.

(** Signing a reduced transaction, as an offline device does, gives the same result
    as signing the full one. *)
Theorem c62_reduced_same : forall (G : group) S H reduce (height : S -> Z) secrets th rnd st (x : txctx G (utx G)) r,
  reduce_tx H reduce height st x = Ok r ->
  sign_reduced H secrets th rnd r = sign_tx H reduce height secrets th rnd st x.
Proof.
  intros G S H reduce height secrets th rnd st x r E. unfold reduce_tx in E. inv_bind E. injection E as <-.
  unfold sign_reduced, sign_tx. cbn [r_tx]. destruct (utx_bytes_to_sign H (x_tx x)) as [msg| |]; [|reflexivity|reflexivity]. cbn [bind].
  apply map_from_ok in Eb. destruct Eb as [L P]. erewrite map_from_ext; [reflexivity|].
  intros i Hi. destruct (P i ltac:(lia)) as (ri & Er & Nr). cbn [Nat.add] in Er. unfold reduce_input in Er. inv_bind Er.
  inv_bind Er. inv_bind Er. inv_bind Er. injection Er as <-. unfold sign_reduced_input, sign_input. cbn [r_tx r_inputs].
  rewrite Eb, Nr. cbn [bind]. rewrite Eb0. cbn [bind]. rewrite Eb1. cbn [bind]. unfold prove. rewrite Eb2. cbn [bind ri_prop ri_ext].
  destruct (make_context_ext H height st x i b2 Eb1) as (ui & E1 & E2 & _). rewrite E1 in Eb. injection Eb as ->. rewrite E1, E2. cbn [of_option bind].
  destruct (make_proof H secrets (hints_for th i) (rnd i) b3 msg); reflexivity.
Qed.
Print Assumptions c62_reduced_same.

Example c62_hyps_met : forall (G : group) (H : bytes -> bytes) (reduce : expr G -> context G unit -> res (sbool G)),
  (forall e c, reduce e c = Ok (SLeaf (public_image (SecDlog 5)))) ->
  exists u x, utx_new H [MkUInput (repeat 1 32) []] None [b_cand demo_box] = Ok u /\
  txctx_new (unsigned_etx H) u [(repeat 1 32, demo_box : box G)] [] = Ok x /\
  (forall i c, make_context (unsigned_etx H) (fun _ => 5) tt x i = Ok c ->
     exists s, reduce_script reduce (box_tree (c_self c)) c = Ok s /\ signable [SecDlog 5] s).
Proof.
  intros G H reduce R. eexists. eexists. split; [vm_compute; reflexivity|]. split; [reflexivity|].
  intros i c E. destruct (make_context_ext H _ _ _ _ _ E) as (ui & E1 & E2 & E3). cbn [x_tx u_inputs x_boxes] in *.
  destruct i as [|i]; [|destruct i; discriminate]. cbn [nth_error] in E1. injection E1 as <-. apply find_box_some in E3.
  destruct E3 as [[E3|[]] _]. unfold reduce_script, box_tree. rewrite <- E3. cbn [proposition snd b_cand cd_tree bind].
  eexists. split; [apply R|]. repeat split. exists (SecDlog 5). split; [left; reflexivity|reflexivity].
Qed.

(** The quick check of an input guarded by a public key agrees with the full check. *)
Theorem c62_p2pk_agrees : forall (G : group) S H reduce (height : S -> Z) st (x : txctx G (tx G)) i inp b s c msg,
  find_box (x_boxes x) (in_box inp) = Some b -> nth_error (t_inputs (x_tx x)) i = Some inp ->
  find (fun j => bytes_eqb (in_box j) (fst b)) (t_inputs (x_tx x)) = Some inp ->
  proposition (box_tree b) = Ok (EConst (MkConst SSigmaProp (LSigma s))) ->
  (forall c, reduce (EConst (MkConst SSigmaProp (LSigma s))) c = Ok s) ->
  make_context signed_etx height st x i = Ok c -> bytes_to_sign (x_tx x) = Ok msg -> in_proof inp <> PSome [] ->
  verify_p2pk H (x_tx x) b = verify_input H reduce height st x i.
Proof.
  intros G S H reduce height st x i inp b s c msg Fb Ni Fi P R C M Np. unfold verify_p2pk, verify_input.
  rewrite M, Ni, C. cbn [of_option bind]. rewrite Fi, Fb. cbn [of_option bind]. unfold verify, reduce_script. rewrite P. cbn [bind extract_sigma].
  rewrite R. cbn [bind]. destruct s as [t|p|k l]; [reflexivity| |]; destruct (in_proof inp) as [|[|z bs]]; try reflexivity; destruct Np; reflexivity.
Qed.
Print Assumptions c62_p2pk_agrees.
