(** C94: spending a box, with the evaluator as the reducer of scripts. *)
From Verif Require Import Base VlqModel GfModel GroupModel SigmaModel SigmaSpec ProverModel SigmaProofs VerifierProofs CommitProofs ProverProofs ProverProps.
From Verif Require Import TypeModel MethodModel IrModel SerModel TypeProofs SerProofs ChainModel ChainProps HeaderModel TxModel TxProps SignModel SignProps
  EqModel PrintModel EqProofs EvalModel EvalProofs PrintProofs.
Local Open Scope string_scope.
Local Open Scope list_scope.
Local Open Scope Z_scope.

Section Spend.
Context {G : group}.
Variables H sha : bytes -> bytes.
Variable fits : Z -> bool.
Variable avlv : avl_verifier.
Notation state := (chain_state G).
Notation eval c := (EvalModel.eval H sha fits avlv c).
(** The reducer of scripts with [n] steps at most, and the height of a state
    (wallet/signing.rs 102-125: that of the header to come). *)
Definition reducer (n : nat) (x : expr G) (c : context G state) : res (sbool G) := reduce_to_crypto H sha fits avlv c n x.
Definition state_height (st : state) : Z := ph_height (fst st).
Notation sign n := (sign_tx H (reducer n) state_height).
Notation verify_in n := (verify_input H (reducer n) state_height).

(** The proposition a value stands for. *)
Definition as_prop (v : value G) : option (sbool G) :=
  match v with VBool b => Some (Triv b) | VSigma s => Some s | _ => None end.

(** ** What a script reduces to *)
Theorem c94_reduction : forall c n x s, reducer n x c = Ok s -> exists v e, eval c n x [] = Ok (v, e) /\ as_prop v = Some s.
Proof.
  intros c n x s E. unfold reducer, reduce_to_crypto in E. destruct (eval c n x []) as [[v e]|er|]; [|inv_bind E; discriminate|discriminate].
  exists v, e. split; [reflexivity|]. destruct v; try discriminate E.
  - destruct b; [injection E as <-; reflexivity|]. inv_bind E. injection E as <-. reflexivity.
  - destruct s0 as [[]|l|k l]; [injection E as <-; reflexivity|inv_bind E; injection E as <-; reflexivity|injection E as <-; reflexivity|injection E as <-; reflexivity].
Qed.
Theorem c94_reduces : forall c n x v e s, eval c n x [] = Ok (v, e) -> as_prop v = Some s ->
  s <> Triv false \/ (every printable x /\ 6 * nodes x < 2 ^ 63) -> reducer n x c = Ok s.
Proof.
  intros c n x v e s E A P. unfold reducer, reduce_to_crypto. rewrite E.
  assert (F : s = Triv false -> pretty_print x = Ok tt). { intros ->. destruct P as [P|[P1 P2]]; [congruence|apply pretty_print_ok; assumption]. }
  destruct v; try discriminate A; injection A as <-.
  - destruct b; [reflexivity|]. rewrite F by reflexivity. reflexivity.
  - destruct s0 as [[]|l|k l]; try reflexivity. rewrite F by reflexivity. reflexivity.
Qed.
(** The number of steps allowed does not matter once it suffices. *)
Theorem c94_steps : forall c n m x s t, reducer n x c = Ok s -> reducer m x c = Ok t -> s = t.
Proof.
  assert (K : forall c n m x s t, (n <= m)%nat -> reducer n x c = Ok s -> reducer m x c = Ok t -> s = t).
  { intros c n m x s t L E1 E2. apply c94_reduction in E1. apply c94_reduction in E2. destruct E1 as (v & e & E1 & A1), E2 as (w & f & E2 & A2).
    destruct (eval_more H sha fits avlv c n m L x []) as [Q|Q]; rewrite E1 in Q; [discriminate|]. rewrite E2 in Q. injection Q as -> ->. congruence. }
  intros c n m x s t E1 E2. destruct (Nat.le_ge_cases n m) as [L|L]; [eapply K; eassumption|]. symmetry. eapply K; eassumption.
Qed.

(** ** What an accepted input is *)

(** The script of the box it names, evaluated in the context of the transaction,
    says yes or names a proposition for which the proof is a valid signature of the
    transaction. *)
Theorem c94_accepted : forall n st (x : txctx G (tx G)) i, verify_in n st x i = Ok true ->
  exists inp b c msg p v e s, nth_error (t_inputs (x_tx x)) i = Some inp /\ find_box (x_boxes x) (in_box inp) = Some b /\
    make_context signed_etx state_height st x i = Ok c /\ c_height c = ph_height (fst st) /\ bytes_to_sign (x_tx x) = Ok msg /\
    proposition (cd_tree (b_cand (snd b))) = Ok p /\ eval c n p [] = Ok (v, e) /\ as_prop v = Some s /\
    (s = Triv true \/ verify_signature H s msg (proof_bytes (in_proof inp)) = Ok true).
Proof.
  intros n st x i E. unfold verify_input in E. inv_bind E. inv_bind E. inv_bind E. inv_bind E. rename b into inp, b0 into b, b1 into c, b2 into msg.
  unfold verify in E. inv_bind E. unfold reduce_script in Eb3. inv_bind Eb3. rename b0 into s, b1 into p.
  destruct (c94_reduction _ _ _ _ Eb3) as (v & e & Ev & A).
  destruct (nth_error (t_inputs (x_tx x)) i) as [inp'|] eqn:Ei; [|discriminate]. injection Eb as ->.
  destruct (find_box (x_boxes x) (in_box inp)) as [b'|] eqn:Ef; [|discriminate]. injection Eb0 as ->.
  exists inp, b, c, msg, p, v, e, s. split; [reflexivity|]. split; [exact Ef|]. split; [exact Eb1|]. split.
  { unfold make_context in Eb1. repeat (apply bind_ok in Eb1; destruct Eb1 as (? & _ & Eb1)). injection Eb1 as <-. reflexivity. }
  split; [exact Eb2|]. split; [exact Eb4|]. split; [exact Ev|]. split; [exact A|].
  destruct s as [[]|l|k l]; [left; reflexivity|discriminate|right|right].
  - destruct (in_proof inp) as [|pb]; [discriminate|]. cbn [proof_bytes verify_signature]. destruct pb as [|y pb]; [discriminate|exact E].
  - destruct (in_proof inp) as [|pb]; [discriminate|]. cbn [proof_bytes verify_signature]. destruct pb as [|y pb]; [discriminate|exact E].
Qed.
(** A script that says no, fails, panics or has a result of another type lets nobody
    spend, with whatever proof and however many steps. *)
Theorem c94_refused : forall n st (x : txctx G (tx G)) i inp b c p, nth_error (t_inputs (x_tx x)) i = Some inp ->
  find_box (x_boxes x) (in_box inp) = Some b -> make_context signed_etx state_height st x i = Ok c ->
  proposition (cd_tree (b_cand (snd b))) = Ok p ->
  match eval c n p [] with Ok (v, _) => as_prop v = None \/ as_prop v = Some (Triv false) | _ => True end ->
  verify_in n st x i <> Ok true.
Proof.
  intros n st x i inp b c p E1 E2 E3 E4 F V. destruct (c94_accepted n st x i V) as (inp' & b' & c' & msg & p' & v & e & s & A1 & A2 & A3 & _ & A5 & A6 & A7 & A8 & A9).
  rewrite E1 in A1. injection A1 as <-. rewrite E2 in A2. injection A2 as <-. rewrite E3 in A3. injection A3 as <-. rewrite E4 in A6. injection A6 as <-.
  rewrite A7 in F. rewrite A8 in F. destruct F as [F|F]; [discriminate|]. injection F as ->. destruct A9 as [A9|A9]; discriminate A9.
Qed.
(** ... and nobody sign. *)
Theorem c94_not_signed : forall n secrets th rnd st (ins : list (uinput G)) d cs u x i ui b c p,
  utx_new H ins d cs = Ok u -> x_tx x = u -> nth_error ins i = Some ui -> find_box (x_boxes x) (ui_box ui) = Some b ->
  make_context (unsigned_etx H) state_height st x i = Ok c -> proposition (cd_tree (b_cand (snd b))) = Ok p ->
  match eval c n p [] with Ok (v, _) => as_prop v = None \/ as_prop v = Some (Triv false) | _ => True end ->
  forall t, sign n secrets th rnd st x <> Ok t.
Proof.
  intros n secrets th rnd st ins d cs u x i ui b c p U X Ni Nb Ec Ep F t E.
  destruct (sign_tx_attach H (reducer n) state_height secrets th rnd st ins d cs u x t U X E) as (ps & L & _ & msg & _ & P).
  assert (UI : u_inputs u = ins) by (unfold utx_new in U; inv_bind U; injection U as <-; reflexivity).
  destruct (P i) as (inp & _ & Si); [apply nth_error_Some; congruence|]. apply sign_input_inv in Si.
  destruct Si as (ui' & c' & s & S1 & _ & _ & S4 & S5 & S6 & S7). rewrite X, UI, Ni in S1. injection S1 as <-. rewrite Nb in S4. injection S4 as ->.
  rewrite Ec in S5. injection S5 as <-. unfold reduce_script, box_tree in S6. rewrite Ep in S6. cbn [bind] in S6.
  destruct (c94_reduction _ _ _ _ S6) as (v & e & Ev & A). rewrite Ev, A in F. destruct F as [F|F]; [discriminate|]. injection F as ->. discriminate S7.
Qed.

(** ** Completeness of a spend *)
Theorem c94_spend_partial : group_ok G -> forall n secrets rnd st (ins : list (uinput G)) d cs u boxes dboxes x,
  Forall secret_ok secrets -> (forall i, randomness_ok (G:=G) (rnd i)) -> (forall b, length (H b) = 32%nat /\ bytes_ok (H b)) ->
  utx_new H ins d cs = Ok u -> txctx_new (unsigned_etx H) u boxes dboxes = Ok x ->
  (forall i c, make_context (unsigned_etx H) state_height st x i = Ok c ->
     exists p v e s, proposition (cd_tree (b_cand (snd (c_self c)))) = Ok p /\ eval c n p [] = Ok (v, e) /\ as_prop v = Some s /\ signable secrets s) ->
  exists t x', sign n secrets None rnd st x = Ok t /\ txctx_new signed_etx t boxes dboxes = Ok x' /\
    forall i, (i < List.length ins)%nat -> verify_in n st x' i = Ok true.
Proof.
  intros HG n secrets rnd st ins d cs u boxes dboxes x Hs Hr HH U X R.
  apply (c62_signed_verifies_partial G HG state H (reducer n) state_height secrets rnd st ins d cs u boxes dboxes x Hs Hr HH U X).
  intros i c Ec. destruct (R i c Ec) as (p & v & e & s & Ep & Ev & A & S). exists s. split; [|exact S]. unfold reduce_script, box_tree. rewrite Ep. cbn [bind].
  eapply c94_reduces; [exact Ev|exact A|]. left. intros ->. destruct S as (_ & _ & P & _). cbn in P. discriminate P.
Qed.

(** ** A contract: the owner's money, locked until a height *)
Definition time_lock (h : Z) (pk : G) : expr G :=
  ESeq QSigmaAnd [EOp OBoolToSigmaProp PNone [EBin BGt (EOp OHeight PNone [] None) (EConst (MkConst SInt (LInt h)))] None;
                  EConst (MkConst SSigmaProp (LSigma (SLeaf (Dlog pk))))].
Lemma time_lock_value : forall c h pk n, (4 <= n)%nat -> exists e,
  eval c n (time_lock h pk) [] = Ok (VSigma (if h <? wraps 32 (c_height c) then SLeaf (Dlog pk) else Triv false), e).
Proof.
  intros c h pk n L. destruct (eval_more H sha fits avlv c 4 n L (time_lock h pk) []) as [Q|Q].
  - exfalso. revert Q. unfold time_lock. cbn. unfold eval_bin. cbn. destruct (h <? wraps 32 (c_height c)); discriminate.
  - exists []. rewrite <- Q. unfold time_lock. cbn. unfold eval_bin. cbn. destruct (h <? wraps 32 (c_height c)); reflexivity.
Qed.
(** It is spent exactly after its height and with the owner's signature. *)
Theorem c94_time_lock : forall h pk n st (x : txctx G (tx G)) i inp b c msg, (4 <= n)%nat ->
  nth_error (t_inputs (x_tx x)) i = Some inp -> find_box (x_boxes x) (in_box inp) = Some b -> make_context signed_etx state_height st x i = Ok c ->
  bytes_to_sign (x_tx x) = Ok msg -> proposition (cd_tree (b_cand (snd b))) = Ok (time_lock h pk) ->
  verify_in n st x i = Ok true <->
  h < wraps 32 (ph_height (fst st)) /\ verify_signature H (SLeaf (Dlog pk)) msg (proof_bytes (in_proof inp)) = Ok true.
Proof.
  intros h pk n st x i inp b c msg L E1 E2 E3 E4 E5.
  assert (Hc : c_height c = ph_height (fst st)).
  { unfold make_context in E3. repeat (apply bind_ok in E3; destruct E3 as (? & _ & E3)). injection E3 as <-. reflexivity. }
  destruct (time_lock_value c h pk n L) as (e & Ev). rewrite Hc in Ev. split.
  - intros V. destruct (c94_accepted n st x i V) as (inp' & b' & c' & msg' & p' & v & e' & s & A1 & A2 & A3 & _ & A5 & A6 & A7 & A8 & A9).
    rewrite E1 in A1. injection A1 as <-. rewrite E2 in A2. injection A2 as <-. rewrite E3 in A3. injection A3 as <-. rewrite E5 in A6. injection A6 as <-.
    rewrite E4 in A5. injection A5 as <-. rewrite Ev in A7. injection A7 as <- _. cbn [as_prop] in A8. injection A8 as <-.
    destruct (h <? wraps 32 (ph_height (fst st))) eqn:Lt; destruct A9 as [A9|A9]; try discriminate A9. split; [lia|exact A9].
  - intros [Lt V]. replace (h <? wraps 32 (ph_height (fst st))) with true in Ev by lia.
    unfold verify_input. rewrite E1. cbn [of_option bind]. rewrite E2. cbn [of_option bind]. rewrite E3. cbn [bind]. rewrite E4. cbn [bind].
    unfold verify, reduce_script, box_tree. rewrite E5. cbn [bind]. rewrite (c94_reduces c n (time_lock h pk) _ _ _ Ev eq_refl) by (left; discriminate). cbn [bind].
    cbn [verify_signature] in V. destruct (in_proof inp) as [|pb]; [discriminate V|]. cbn [proof_bytes] in V. destruct pb; [discriminate V|exact V].
Qed.
(** Heights are read as signed numbers: from 2^31 on the lock is closed again. *)
Theorem c94_time_lock_sign : forall h pk n st (x : txctx G (tx G)) i inp b c msg, (4 <= n)%nat -> 0 <= h ->
  nth_error (t_inputs (x_tx x)) i = Some inp -> find_box (x_boxes x) (in_box inp) = Some b -> make_context signed_etx state_height st x i = Ok c ->
  bytes_to_sign (x_tx x) = Ok msg -> proposition (cd_tree (b_cand (snd b))) = Ok (time_lock h pk) ->
  2 ^ 31 <= ph_height (fst st) < 2 ^ 32 -> verify_in n st x i <> Ok true.
Proof.
  intros h pk n st x i inp b c msg L Hh E1 E2 E3 E4 E5 Ht V. apply (c94_time_lock h pk n st x i inp b c msg L E1 E2 E3 E4 E5) in V. destruct V as [V _].
  unfold wraps in V. change (32 - 1) with 31 in V. rewrite (Z.mod_eq _ (2 ^ 32)) in V by lia.
  assert (Q : (ph_height (fst st) + 2 ^ 31) / 2 ^ 32 = 1) by (symmetry; apply Z.div_unique with (ph_height (fst st) + 2 ^ 31 - 2 ^ 32); lia).
  rewrite Q in V. lia.
Qed.
(** The owner of time-locked boxes signs for them after their heights, and the
    result verifies. *)
Theorem c94_time_lock_spent : group_ok G -> forall n secrets rnd st (ins : list (uinput G)) d cs u boxes dboxes x, (4 <= n)%nat ->
  Forall secret_ok secrets -> (forall i, randomness_ok (G:=G) (rnd i)) -> (forall b, length (H b) = 32%nat /\ bytes_ok (H b)) ->
  utx_new H ins d cs = Ok u -> txctx_new (unsigned_etx H) u boxes dboxes = Ok x ->
  (forall i c, make_context (unsigned_etx H) state_height st x i = Ok c -> exists h w pk, In (SecDlog w) secrets /\
     public_image (SecDlog w) = Dlog pk /\ proposition (cd_tree (b_cand (snd (c_self c)))) = Ok (time_lock h pk) /\ h < wraps 32 (ph_height (fst st))) ->
  exists t x', sign n secrets None rnd st x = Ok t /\ txctx_new signed_etx t boxes dboxes = Ok x' /\
    forall i, (i < List.length ins)%nat -> verify_in n st x' i = Ok true.
Proof.
  intros HG n secrets rnd st ins d cs u boxes dboxes x L Hs Hr HH U X R.
  apply (c94_spend_partial HG n secrets rnd st ins d cs u boxes dboxes x Hs Hr HH U X). intros i c Ec.
  destruct (R i c Ec) as (h & w & pk & Hw & Pk & Ep & Lt). destruct (time_lock_value c h pk n L) as (e & Ev).
  assert (Hc : c_height c = ph_height (fst st)).
  { unfold make_context in Ec. repeat (apply bind_ok in Ec; destruct Ec as (? & _ & Ec)). injection Ec as <-. reflexivity. }
  rewrite Hc in Ev. replace (h <? wraps 32 (ph_height (fst st))) with true in Ev by lia.
  eexists. eexists. eexists. eexists. split; [exact Ep|]. split; [exact Ev|]. split; [reflexivity|].
  repeat split. exists (SecDlog w). split; [exact Hw|exact Pk].
Qed.

(** ** A contract: whoever shows the preimage of a hash *)
Definition hash_lock (id : Z) (target : list Z) : expr G :=
  EOp OBoolToSigmaProp PNone [EBin BEq (EOp OCalcBlake2b256 PNone [EOp OOptionGet PNone [EOp OGetVar (PU8Type id cbyte) [] None] None] None)
    (EConst (MkConst cbyte (LCollBytes target)))] None.
Lemma hash_lock_value : forall (c : context G state) id target n, (6 <= n)%nat ->
  match ext_get (c_ext c) id with
  | Some k => if stype_eqb (c_tpe k) cbyte then
                match value_of_lit H (c_val k) with
                | VBytes l => eval c n (hash_lock id target) [] = Ok (VSigma (Triv (leqb Z.eqb (as_i8s (H (as_u8s l))) target)), [])
                | _ => exists m, eval c n (hash_lock id target) [] = Err m
                end
              else exists m, eval c n (hash_lock id target) [] = Err m
  | None => exists m, eval c n (hash_lock id target) [] = Err m
  end.
Proof.
  intros c id target n L.
  set (body := fun o : option (const G) => x <- (match o with
      | None => Ok (VOpt None : value G)
      | Some k => if stype_eqb (c_tpe k) cbyte then Ok (VOpt (Some (value_of_lit H (c_val k)))) else Err "GetVar: type"
      end) ;; r <- match x with VOpt (Some x0) => Ok x0 | VOpt None => Err "calling Option.get on None" | _ => Err "not an option" end ;;
      b <- get_u8s r ;; Ok (VSigma (Triv (leqb Z.eqb (as_i8s (H b)) target)) : value G, [] : env G)).
  assert (B : eval c 6 (hash_lock id target) [] = body (ext_get (c_ext c) id)).
  { unfold hash_lock, body. cbn. unfold eval_bin. cbn. destruct (ext_get (c_ext c) id) as [k|]; [|reflexivity].
    fold cbyte. destruct (stype_eqb (c_tpe k) cbyte); [|reflexivity]. cbn [bind]. destruct (value_of_lit H (c_val k)); reflexivity. }
  assert (F : body (ext_get (c_ext c) id) <> Err fuel_err).
  { unfold body. destruct (ext_get (c_ext c) id) as [k|]; [|discriminate]. destruct (stype_eqb (c_tpe k) cbyte); [|discriminate].
    cbn [bind]. destruct (value_of_lit H (c_val k)); discriminate. }
  destruct (eval_more H sha fits avlv c 6 n L (hash_lock id target) []) as [Q|Q]; [congruence|].
  rewrite B in Q. rewrite <- Q. clear. unfold body. destruct (ext_get (c_ext c) id) as [k|]; [|eexists; reflexivity].
  destruct (stype_eqb (c_tpe k) cbyte); [|eexists; reflexivity]. cbn [bind].
  destruct (value_of_lit H (c_val k)); first [eexists; reflexivity|reflexivity].
Qed.
(** It is spent exactly by showing, in the numbered variable, bytes with that hash;
    the proof does not matter. *)
Theorem c94_hash_lock : forall id target n st (x : txctx G (tx G)) i inp b c msg, (6 <= n)%nat ->
  nth_error (t_inputs (x_tx x)) i = Some inp -> find_box (x_boxes x) (in_box inp) = Some b -> make_context signed_etx state_height st x i = Ok c ->
  bytes_to_sign (x_tx x) = Ok msg -> proposition (cd_tree (b_cand (snd b))) = Ok (hash_lock id target) ->
  verify_in n st x i = Ok true <->
  exists l, ext_get (in_ext inp) id = Some (MkConst cbyte (LCollBytes l)) /\ as_i8s (H (as_u8s l)) = target.
Proof.
  intros id target n st x i inp b c msg L E1 E2 E3 E4 E5.
  assert (Hc : c_ext c = in_ext inp).
  { pose proof E3 as E. unfold make_context in E. do 5 (apply bind_ok in E; destruct E as (? & _ & E)). apply bind_ok in E. destruct E as (ex & Ex & E).
    injection E as <-. cbn [c_ext]. unfold signed_etx in Ex. cbn [e_ext] in Ex. rewrite E1 in Ex. cbn in Ex. injection Ex as <-. reflexivity. }
  pose proof (hash_lock_value c id target n L) as Ev. rewrite Hc in Ev. split.
  - intros V. destruct (c94_accepted n st x i V) as (inp' & b' & c' & msg' & p' & v & e' & s & A1 & A2 & A3 & _ & A5 & A6 & A7 & A8 & A9).
    rewrite E1 in A1. injection A1 as <-. rewrite E2 in A2. injection A2 as <-. rewrite E3 in A3. injection A3 as <-. rewrite E5 in A6. injection A6 as <-.
    rewrite E4 in A5. injection A5 as <-. destruct (ext_get (in_ext inp) id) as [[t l]|]; [|destruct Ev; congruence].
    cbn [c_tpe c_val] in Ev. destruct (stype_eqb t cbyte) eqn:Et; [|destruct Ev; congruence]. apply stype_eqb_eq in Et. subst t.
    destruct l; cbn [value_of_lit] in Ev; try (destruct Ev; congruence).
    rewrite Ev in A7. injection A7 as <- _. cbn [as_prop] in A8. injection A8 as <-. eexists. split; [reflexivity|].
    apply deq_bytes. destruct A9 as [A9|A9]; injection A9 as A9; exact A9.
  - intros (l & El & Eh). rewrite El in Ev. cbn [c_tpe c_val value_of_lit] in Ev. replace (stype_eqb cbyte cbyte) with true in Ev by reflexivity. rewrite Eh in Ev.
    rewrite (proj2 (deq_bytes target target) eq_refl) in Ev.
    unfold verify_input. rewrite E1. cbn [of_option bind]. rewrite E2. cbn [of_option bind]. rewrite E3. cbn [bind]. rewrite E4. cbn [bind].
    unfold verify, reduce_script, box_tree. rewrite E5. cbn [bind]. rewrite (c94_reduces c n (hash_lock id target) _ _ _ Ev eq_refl) by (left; discriminate). reflexivity.
Qed.
End Spend.

(** A box locked for secret 5 until height 100 and one locked by a hash, each spent in
    a transaction of one input. *)
Definition locked_box {G : group} (e : expr G) : box G :=
  MkBox (MkCand 1000000 (Parsed (THeader 0 false false) [] e) [] [] 500000) (repeat 9 32) 3.
Example c94_hyps_met : forall (G : group) (H : bytes -> bytes) pk (st : chain_state G), public_image (G:=G) (SecDlog 5) = Dlog pk ->
  100 < wraps 32 (ph_height (fst st)) ->
  (exists u x, utx_new H [MkUInput (repeat 1 32) []] None [b_cand demo_box] = Ok u /\
    txctx_new (unsigned_etx H) u [(repeat 1 32, locked_box (time_lock 100 pk))] [] = Ok x /\
    forall i c, make_context (unsigned_etx H) state_height st x i = Ok c -> exists h w pk', In (SecDlog (G:=G) w) [SecDlog 5] /\
      public_image (G:=G) (SecDlog w) = Dlog pk' /\ proposition (cd_tree (b_cand (snd (c_self c)))) = Ok (time_lock h pk') /\
      h < wraps 32 (ph_height (fst st))) /\
  (exists t x c msg, let inp := MkInput (G:=G) (repeat 1 32) PEmpty [(1, MkConst cbyte (LCollBytes [7; 8]))] in
    tx_new H [inp] None [b_cand demo_box] = Ok t /\
    txctx_new signed_etx t [(repeat 1 32, locked_box (hash_lock 1 (as_i8s (H (as_u8s [7; 8])))))] [] = Ok x /\
    make_context signed_etx state_height st x 0 = Ok c /\ bytes_to_sign (x_tx x) = Ok msg /\
    ext_get (in_ext inp) 1 = Some (MkConst cbyte (LCollBytes [7; 8]))).
Proof.
  intros G H pk st Pk Lt. split.
  - eexists. eexists. split; [vm_compute; reflexivity|]. split; [reflexivity|].
    intros i c E. destruct (make_context_ext H _ _ _ _ _ E) as (ui & E1 & E2 & E3). cbn [x_tx u_inputs x_boxes] in *.
    destruct i as [|i]; [|destruct i; discriminate]. cbn [nth_error] in E1. injection E1 as <-. apply find_box_some in E3.
    destruct E3 as [[E3|[]] _]. exists 100, 5, pk. split; [left; reflexivity|]. split; [exact Pk|]. split; [|exact Lt].
    rewrite <- E3. reflexivity.
  - eexists. eexists. eexists. eexists. split; [vm_compute; reflexivity|]. split; [reflexivity|]. split; [vm_compute; reflexivity|].
    split; [vm_compute; reflexivity|reflexivity].
Qed.
Print Assumptions c94_reduction.
Print Assumptions c94_reduces.
Print Assumptions c94_steps.
Print Assumptions c94_accepted.
Print Assumptions c94_refused.
Print Assumptions c94_not_signed.
Print Assumptions c94_spend_partial.
Print Assumptions c94_time_lock.
Print Assumptions c94_time_lock_sign.
Print Assumptions c94_time_lock_spent.
Print Assumptions c94_hash_lock.
