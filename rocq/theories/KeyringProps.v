(** Property C121: what a wallet signs.  Property C122: the hints a wallet makes for
    joint signing. *)
From Verif Require Import Base VlqModel VlqProofs GfModel GfProofs GfProps.
From Verif Require Import GroupModel GroupProofs GroupInstance SigmaModel SigmaSpec.
From Verif Require Import SigmaProofs VerifierProofs EncodingProofs SbProofs ProverModel ProverProofs CommitProofs SigmaProps ProverProps.
From Verif Require Import TypeModel TypeProofs MethodModel IrModel SerModel ChainModel ChainProps TxModel TxProps SignModel SignProps.
From Verif Require Import MultiSigProofs CoSignProofs SoundnessProofs.
From Verif Require Import WalletModel AddressModel DeriveModel MnemonicModel KeyringModel.
From Coq Require Import Znumtheory.
Local Open Scope string_scope.
Local Open Scope list_scope.
Local Open Scope Z_scope.

Definition hash_ok (H : bytes -> bytes) : Prop := forall b, length (H b) = 32%nat /\ bytes_ok (H b).

(** ** C121: messages *)

(** A wallet that holds the key of the address signs every message, and the signature
    is accepted for that address and message. *)
Theorem c121_message_signed : forall (G : group), group_ok G ->
  forall H (w : wallet G) rnd h msg,
  hash_ok H -> Forall secret_ok w -> randomness_ok (G:=G) rnd ->
  (exists x, In x w /\ public_image x = Dlog h) ->
  exists sig, sign_message_using_p2pk H w rnd (P2Pk h) msg = Ok sig /\ bytes_ok sig /\
    verify_signature_p2pk H (P2Pk h) msg sig = Ok true.
Proof.
  intros G HG H w rnd h msg HH Hs Hr Hk. cbn [sign_message_using_p2pk verify_signature_p2pk]. unfold sign_message.
  apply (c10_prover_complete_partial G HG w rnd H (SLeaf (Dlog h)) msg); auto; try exact I.
Qed.

(** A wallet without the key refuses, and so does every wallet for other addresses. *)
Theorem c121_message_refused : forall (G : group), group_ok G ->
  forall H (w : wallet G) rnd a msg,
  (forall h x, a = P2Pk h -> In x w -> public_image x <> Dlog h) ->
  exists e, sign_message_using_p2pk H w rnd a msg = Err e.
Proof.
  intros G HG H w rnd [h|b|b] msg N; [|eexists; reflexivity|eexists; reflexivity].
  cbn [sign_message_using_p2pk]. unfold sign_message. apply (c11_prover_refuses G HG). intros (x & Hx & E). exact (N h x eq_refl Hx E).
Qed.

(** One signature accepted for two messages is a collision of the truncated hash; this
    holds for every proposition, not only public keys. *)
Theorem c121_message_bound : forall (G : group) H (s : sbool G) m1 m2 sig,
  nontrivial s -> m1 <> m2 ->
  verify_signature H s m1 sig = Ok true -> verify_signature H s m2 sig = Ok true ->
  exists a b, a <> b /\ firstn 24 (H a) = firstn 24 (H b) /\ (exists p, a = p ++ m1 /\ b = p ++ m2).
Proof.
  intros G H s m1 m2 sig Hn Hm V1 V2.
  assert (K : forall m, verify_signature H s m sig = Ok true ->
    exists u p, parse_sig_compute_challenges s sig = Ok u /\ fs_write_u (compute_commitments u) = Ok p /\
      bytes_eqb (u_chal (compute_commitments u)) (fiat_shamir_hash H (p ++ m)) = true).
  { intros m V. destruct s as [b|p|c l]; [destruct Hn| |]; cbn [verify_signature] in V; (destruct sig as [|z sig]; [discriminate|]);
      inv_bind V; unfold check_commitments in V; inv_bind V; injection V as V; eauto. }
  destruct (K _ V1) as (u & p & P1 & F1 & B1). destruct (K _ V2) as (u2 & p2 & P2 & F2 & B2).
  rewrite P1 in P2. injection P2 as <-. rewrite F1 in F2. injection F2 as <-.
  apply SigmaProofs.bytes_eqb_spec in B1, B2. exists (p ++ m1), (p ++ m2). split; [|split; [|exists p; auto]].
  - intros E. apply app_inv_head in E. auto.
  - unfold fiat_shamir_hash in *. congruence.
Qed.

(** The signature of a message is also a spending proof: whoever signs, as a "message",
    the bytes of a transaction has authorised that transaction.  [script (P2Pk h)] is the
    script of the boxes of the address. *)
Theorem c121_message_spends : forall (G : group), group_ok G ->
  forall S H reduce (height : S -> Z) (w : wallet G) rnd h st (ins : list (uinput G)) d cs u boxes dboxes x i c msg sig ps t,
  hash_ok H -> Forall secret_ok w -> randomness_ok (G:=G) rnd ->
  (forall (c : context G S), reduce (EConst (dlog_const h)) c = Ok (SLeaf (Dlog h))) ->
  utx_new H ins d cs = Ok u -> txctx_new (unsigned_etx H) u boxes dboxes = Ok x ->
  make_context (unsigned_etx H) height st x i = Ok c -> script (P2Pk h) = Ok (box_tree (c_self c)) ->
  utx_bytes_to_sign H u = Ok msg -> sign_message_using_p2pk H w rnd (P2Pk h) msg = Ok sig ->
  tx_of_unsigned H u ps = Ok t -> nth_error ps i = Some (PSome sig) ->
  exists x', txctx_new signed_etx t boxes dboxes = Ok x' /\ verify_input H reduce height st x' i = Ok true.
Proof.
  intros G HG S H reduce height w rnd h st ins d cs u boxes dboxes x i c msg sig ps t HH Hs Hr R U X C Sc M Sg T Np.
  destruct (c61_same_context G H S height st ins d cs u ps t boxes dboxes x i c U T X C) as (x' & X' & C').
  exists x'. split; [exact X'|].
  assert (V : verify_signature H (SLeaf (Dlog h)) msg sig = Ok true).
  { assert (Hk : exists y, In y w /\ public_image y = Dlog h).
    { destruct (existsb (fun y => leaf_eqb (public_image y) (Dlog h)) w) eqn:E.
      - apply existsb_exists in E. destruct E as (y & Hy & E). exists y. split; [exact Hy|]. apply (leaf_eqb_spec HG). exact E.
      - exfalso. destruct (c121_message_refused G HG H w rnd (P2Pk h) msg) as [e Ee]; [|congruence].
        intros h' y Q Hy E'. injection Q as <-. assert (existsb (fun y => leaf_eqb (public_image y) (Dlog h)) w = true); [|congruence].
        apply existsb_exists. exists y. split; [exact Hy|]. apply (leaf_eqb_spec HG). exact E'. }
    destruct (c121_message_signed G HG H w rnd h msg HH Hs Hr Hk) as (sig' & E1 & _ & E2). rewrite Sg in E1. injection E1 as <-. exact E2. }
  destruct (c29_signed_id G H ins d cs u ps t U T) as (_ & I2 & I3 & _ & I5 & _).
  assert (XT : x_tx x' = t).
  { clear - X'. unfold txctx_new in X'. destruct (Zlen boxes <? 1); [discriminate|]. destruct (65535 <? Zlen boxes); [discriminate|].
    destruct (forallb _ _); [|discriminate]. cbn [negb] in X'. inv_bind X'. inv_bind X'. injection X' as <-. reflexivity. }
  unfold make_context in C'. cbn [e_inputs e_outputs e_data e_ext signed_etx] in C'. rewrite XT, nth_error_map in C'.
  destruct (nth_error (t_inputs t) i) as [inp|] eqn:Ni; [|discriminate]. cbn [option_map of_option bind] in C'.
  destruct (find_box (x_boxes x') (in_box inp)) as [b|] eqn:Fb; [|discriminate]. cbn [of_option bind] in C'.
  pose proof C' as C2. repeat inv_bind C2. injection C2 as <-. cbn [c_self] in Sc.
  unfold verify_input. rewrite XT, Ni. cbn [of_option bind]. rewrite Fb. cbn [of_option bind].
  unfold make_context. cbn [e_inputs e_outputs e_data e_ext signed_etx]. rewrite XT, nth_error_map, Ni. cbn [option_map of_option bind].
  rewrite Fb. cbn [of_option bind]. rewrite C'. cbn [bind]. rewrite I2, M. cbn [bind].
  assert (Pf : in_proof inp = PSome sig).
  { assert (L : (i < List.length ins)%nat).
    { assert (nth_error (map in_box (t_inputs t)) i <> None) as K by (rewrite nth_error_map, Ni; discriminate).
      rewrite I3 in K. apply nth_error_Some in K. rewrite map_length in K. exact K. }
    assert (K : nth_error (map in_proof (t_inputs t)) i = Some (in_proof inp)) by (rewrite nth_error_map, Ni; reflexivity).
    rewrite I5 in K. assert (Q : Some (in_proof inp) = Some (PSome sig)); [|congruence]. rewrite <- K, <- Np. clear - L. revert ps i L. generalize (List.length ins) as n.
    induction n as [|n IH]; intros ps i L; [lia|]. destruct ps; [destruct i; reflexivity|]. destruct i; [reflexivity|].
    cbn [firstn nth_error]. apply IH. lia. }
  rewrite Pf. unfold verify, reduce_script. cbn [script] in Sc. injection Sc as <-. cbn [proposition th_v0 th_seg bind dlog_const].
  unfold dlog_const in R. rewrite R. cbn [bind]. cbn [verify_signature] in V. destruct sig; [discriminate|exact V].
Qed.

(** ** Adding a secret *)

(** Everything the wallet could sign it can still sign. *)
Theorem c121_add_secret_partial : forall (G : group), group_ok G ->
  forall H (w : wallet G) x rnd (s : sbool G) msg,
  hash_ok H -> Forall secret_ok (add_secret w x) -> randomness_ok (G:=G) rnd -> signable w s ->
  exists sig, sign_message H (add_secret w x) rnd s msg = Ok sig /\ verify_signature H s msg sig = Ok true.
Proof.
  intros G HG H w x rnd s msg HH Hs Hr (A & B & C & D & E). unfold sign_message.
  destruct (c10_prover_complete_partial G HG (add_secret w x) rnd H s msg Hs Hr HH A B) as (sig & P1 & _ & P2); auto; [|eauto].
  apply provable_mono with (K := has_secret w); [|exact C]. intros p (y & Hy & <-). exists y. split; [|reflexivity].
  unfold add_secret. apply in_or_app. auto.
Qed.

(** Not so when an alternative is listed twice in a part the wallet did not need before:
    with the second key known the wallet makes a signature that nobody accepts. *)
Definition toy_twice : sbool toyG := SConj Or [SConj Or [toy_leaf5; toy_leaf5]; SLeaf (Dlog (gpow ggen 6))].
Theorem c121_add_secret_refuted : exists (w : wallet toyG) x rnd H s msg sig sig',
  Forall secret_ok (add_secret w x) /\ sb_wf s /\ normal s /\ thr_ok s /\
  sign_message H w rnd s msg = Ok sig /\ verify_signature H s msg sig = Ok true /\
  sign_message H (add_secret w x) rnd s msg = Ok sig' /\ verify_signature H s msg sig' = Ok false.
Proof.
  exists [SecDlog 6], (SecDlog 5), toy_rnd, sum_hash, toy_twice, [1].
  let v := eval vm_compute in (sign_message sum_hash [SecDlog 6] toy_rnd toy_twice [1]) in match v with Ok ?p => exists p end.
  let v := eval vm_compute in (sign_message sum_hash [SecDlog 6; SecDlog 5] toy_rnd toy_twice [1]) in match v with Ok ?p => exists p end.
  split; [repeat constructor|]. split; [repeat split; vm_compute; discriminate|]. split; [repeat split|]. split; [repeat split|].
  split; [vm_compute; reflexivity|]. split; [vm_compute; reflexivity|]. split; vm_compute; reflexivity.
Qed.

(** ** Wallets from a mnemonic: the wallet holds exactly the master key, and signs
    messages for its address. *)
Theorem c121_mnemonic : forall (G : group), group_ok G ->
  forall H nfkd pbkdf2 hmac phrase pass (w : wallet G),
  hash_ok H -> (forall k m, length (hmac k m) = 64%nat /\ bytes_ok (hmac k m)) ->
  from_mnemonic nfkd pbkdf2 hmac phrase pass = Ok w ->
  exists k, sk_master (G:=G) hmac (to_seed nfkd pbkdf2 phrase pass) = Ok k /\ w = [SecDlog (sk_w k)] /\ 0 <= sk_w k < gord G /\
  forall rnd msg, randomness_ok (G:=G) rnd ->
  exists sig, sign_message_using_p2pk H w rnd (P2Pk (sk_image k)) msg = Ok sig /\
    verify_signature_p2pk H (P2Pk (sk_image (G:=G) k)) msg sig = Ok true.
Proof.
  intros G HG H nfkd pbkdf2 hmac phrase pass w HH Hm E. unfold from_mnemonic in E. inv_bind E. injection E as <-. exists b.
  split; [exact Eb|]. split; [reflexivity|].
  assert (Hb : 0 <= sk_w b < gord G).
  { unfold sk_master, sk_new in Eb. inv_bind Eb. injection Eb as <-. cbn [sk_w]. unfold scalar_from_bytes in Eb0.
    destruct (be_value _ <? gord G) eqn:L; [|discriminate]. cbn [of_option] in Eb0. injection Eb0 as <-.
    split; [|apply Z.ltb_lt; exact L]. destruct (Hm bitcoin_seed (to_seed nfkd pbkdf2 phrase pass)) as [_ B].
    apply (be_value_bound (firstn 32 (hmac bitcoin_seed (to_seed nfkd pbkdf2 phrase pass)))).
    unfold bytes_ok in *. rewrite <- (firstn_skipn 32 (hmac _ _)) in B. apply Forall_app in B. apply B. }
  split; [exact Hb|]. intros rnd msg Hr.
  destruct (c121_message_signed G HG H [SecDlog (sk_w b)] rnd (sk_image (G:=G) b) msg) as (sig & E1 & _ & E2); eauto.
  - constructor; [|constructor]. unfold secret_ok. cbn [public_image secret_w]. cbn [witness]. apply (exponentiate_pow HG).
  - exists (SecDlog (sk_w b)). split; [left; reflexivity|reflexivity].
Qed.

(** ** A concrete case: one box of the address, spent by a signed "message" *)
Definition addr_box {G : group} (h : G) : box G :=
  MkBox (MkCand 1000000 (Parsed (THeader 0 false false) [] (EConst (dlog_const h))) [] [] 500000) (repeat 9 32) 3.
Lemma addr_case : forall (G : group) (HG : group_ok G) H (h : G),
  exists u x c msg, utx_new H [MkUInput (repeat 1 32) []] None [b_cand (demo_box (G:=G))] = Ok u /\
  txctx_new (unsigned_etx H) u [(repeat 1 32, addr_box h)] [] = Ok x /\
  make_context (unsigned_etx H) (fun _ : unit => 5) tt x 0 = Ok c /\ script (P2Pk h) = Ok (box_tree (c_self c)) /\
  utx_bytes_to_sign H u = Ok msg.
Proof.
  intros G HG H h. eexists. eexists. eexists. eexists. split; [vm_compute; reflexivity|]. split; [reflexivity|].
  split; [reflexivity|]. split; [reflexivity|]. vm_compute. reflexivity.
Qed.
Theorem c121_separation_refuted : forall (G : group), group_ok G ->
  forall H rnd k (reduce : expr G -> context G unit -> res (sbool G)),
  hash_ok H -> randomness_ok (G:=G) rnd ->
  (forall s c, reduce (EConst (MkConst SSigmaProp (LSigma s))) c = Ok s) ->
  exists msg sig t x, sign_message_using_p2pk H [SecDlog k] rnd (P2Pk (exponentiate (G:=G) ggen k)) msg = Ok sig /\
    in_proof (hd (MkInput [] PEmpty []) (t_inputs t)) = PSome sig /\
    txctx_new signed_etx t [(repeat 1 32, addr_box (exponentiate ggen k))] [] = Ok x /\
    verify_input H reduce (fun _ : unit => 5) tt x 0 = Ok true.
Proof.
  intros G HG H rnd k reduce HH Hr R. destruct (addr_case G HG H (exponentiate ggen k)) as (u & x & c & msg & U & X & C & Sc & M).
  assert (Hs : Forall (@secret_ok G) [SecDlog k]) by (constructor; [apply (exponentiate_pow HG)|constructor]).
  destruct (c121_message_signed G HG H [SecDlog k] rnd (exponentiate ggen k) msg HH Hs Hr) as (sig & E1 & _ & _);
    [exists (SecDlog k); split; [left; reflexivity|reflexivity]|].
  destruct (proj2 (c29_signed_exists G H _ _ _ u [PSome sig] U)) as [t T]; [cbn [List.length]; lia|].
  destruct (c121_message_spends G HG unit H reduce (fun _ => 5) [SecDlog k] rnd (exponentiate ggen k) tt _ _ _ u _ _ x 0%nat c msg sig [PSome sig] t
    HH Hs Hr (R _) U X C Sc M E1 T eq_refl) as (x' & X' & V).
  exists msg, sig, t, x'. split; [exact E1|]. split; [|auto].
  destruct (c29_signed_id G H _ _ _ u _ t U T) as (_ & _ & _ & _ & I5 & _). cbn [List.length firstn] in I5.
  destruct (t_inputs t) as [|inp l]; [discriminate|]. cbn [map] in I5. injection I5 as I5 _. exact I5.
Qed.

Example c121_hyps_met : forall (G : group), group_ok G -> hash_ok sum_hash /\
  (exists x, In x [@SecDlog G 5] /\ public_image x = Dlog (exponentiate ggen 5)) /\
  signable [SecDlog 5; SecDlog 7] toy_prop /\ from_mnemonic (G:=G) (fun b => b) (fun a b n => a ++ b) (fun k m => repeat 0 64) [1] [2] = Ok [SecDlog 0].
Proof.
  intros G HG. split.
  { intros b. split; [apply repeat_length|]. apply Forall_forall. intros y Hy. apply repeat_spec in Hy. subst. apply Z.mod_pos_bound. lia. }
  split; [exists (SecDlog 5); split; [left; reflexivity|reflexivity]|].
  split; [|unfold from_mnemonic, sk_master, sk_new, scalar_from_bytes;
    replace (be_value (firstn 32 (repeat 0 64))) with 0 by reflexivity; pose proof (q_pos HG); replace (0 <? gord G) with true by lia; reflexivity].
  destruct c10_hyps_met as (_ & _ & _ & A & B & C & D & E). split; [|split; [|split; [|split]]]; assumption.
Qed.

(** ** C122: hints for joint signing *)

(** The specification: the leaf of a proposition at a path of child numbers. *)
Fixpoint leaf_at {G : group} (s : sbool G) (path : list nat) : option (leaf G) :=
  match path, s with
  | [], SLeaf p => Some p
  | i :: path', SConj _ l => match nth_error l i with Some x => leaf_at x path' | None => None end
  | _, _ => None
  end.

Section Hints.
Context {G : group}.
Notation hint := (hint G).

Lemma locs_leaf_at : forall (s : sbool G) pos p q, In (p, q) (locs pos s) <-> exists path, q = pos ++ path /\ leaf_at s path = Some p.
Proof.
  apply (sbool_ind' (fun s => forall pos p q, In (p, q) (locs pos s) <-> exists path, q = pos ++ path /\ leaf_at s path = Some p)).
  - intros b pos p q. split; [intros []|]. intros ([|i path] & _ & E); discriminate.
  - intros p pos p' q. cbn [locs In]. split.
    + intros [E|[]]. injection E as <- <-. exists []. rewrite app_nil_r. auto.
    + intros ([|i path] & -> & E); [|discriminate]. injection E as <-. rewrite app_nil_r. auto.
  - intros c l IH pos p q.
    assert (K : forall l k, Forall (fun s => forall pos p q, In (p, q) (locs pos s) <-> exists path, q = pos ++ path /\ leaf_at s path = Some p) l ->
      In (p, q) (concat (imap (fun i x => locs (pos_child pos i) x) k l)) <->
      exists i x path, nth_error l i = Some x /\ q = pos ++ (k + i)%nat :: path /\ leaf_at x path = Some p).
    { clear. induction l as [|x l IHl]; intros k F; cbn [imap concat].
      - split; [intros []|]. intros (i & x & path & N & _). destruct i; discriminate.
      - inversion F as [|? ? Fx Fl]; subst. rewrite in_app_iff, Fx, (IHl (Datatypes.S k) Fl). unfold pos_child. split.
        + intros [(path & -> & E)|(i & y & path & N & -> & E)].
          * exists 0%nat, x, path. rewrite <- app_assoc, Nat.add_0_r. auto.
          * exists (Datatypes.S i), y, path. rewrite Nat.add_succ_r. auto.
        + intros (i & y & path & N & -> & E). destruct i as [|i].
          * injection N as <-. left. exists path. rewrite <- app_assoc, Nat.add_0_r. auto.
          * right. exists i, y, path. rewrite Nat.add_succ_r in *. auto. }
    cbn [locs]. rewrite (K l 0%nat IH). split.
    + intros (i & x & path & N & -> & E). exists (i :: path). cbn [leaf_at Nat.add]. rewrite N. auto.
    + intros ([|i path] & -> & E); [discriminate|]. cbn [leaf_at] in E. destruct (nth_error l i) as [x|] eqn:N; [|discriminate].
      exists i, x, path. auto.
Qed.

Lemma all_hints_add : forall (b : txhints G) i l j,
  forall h, In h (all_hints (add_hints b i l) j) <-> (i = j /\ In h l \/ In h (all_hints b j)).
Proof.
  intros b i l j h. unfold all_hints, add_hints, hm_insert. cbn [th_secret th_public hm_get]. destruct (Nat.eqb_spec i j) as [->|N].
  - cbn [hints_or_empty]. rewrite !in_app_iff, !filter_In. split.
    + intros [[[A _]|A]|[[A _]|A]]; auto.
    + intros [[_ A]|[A|A]]; auto. destruct h; cbn [is_commitment is_secret_proven]; auto 6.
  - intuition.
Qed.
Lemma collect_spec : forall (f : nat -> res (list hint)) n i b b', collect f n i b = Ok b' ->
  (forall k, (i <= k < i + n)%nat -> exists l, f k = Ok l) /\
  forall j h, In h (all_hints b' j) <-> (In h (all_hints b j) \/ (i <= j < i + n)%nat /\ exists l, f j = Ok l /\ In h l).
Proof.
  intros f. induction n as [|n IH]; intros i b b' E; cbn [collect] in E.
  - injection E as <-. split; [intros; lia|]. intros j h. intuition lia.
  - inv_bind E. destruct (IH _ _ _ E) as [F P]. split.
    + intros k Hk. destruct (Nat.eq_dec k i) as [->|]; [eauto|]. apply F. lia.
    + intros j h. rewrite P, all_hints_add. split.
      * intros [[[<- Hh]|Hh]|(Hj & l & El & Hh)]; [right; split; [lia|eauto]|auto|right; split; [lia|eauto]].
      * intros [Hh|(Hj & l & El & Hh)]; [auto|]. destruct (Nat.eq_dec j i) as [->|].
        -- left. left. split; [reflexivity|]. rewrite Eb in El. injection El as ->. exact Hh.
        -- right. split; [lia|eauto].
Qed.
Lemma collect_ext : forall (f g : nat -> res (list hint)) n i b, (forall k, (i <= k < i + n)%nat -> f k = g k) ->
  collect f n i b = collect g n i b.
Proof.
  intros f g. induction n as [|n IH]; intros i b E; cbn [collect]; [reflexivity|]. rewrite (E i) by lia.
  destruct (g i); cbn [bind]; auto. apply IH. intros k Hk. apply E. lia.
Qed.
End Hints.

(** The hints made for a transaction are exactly, for every leaf of every input's
    proposition that is a public image of one of the secrets, the commitment for others
    and the commitment with its randomness for the wallet itself, at the position of the
    leaf.  [leaf_at s path]: the leaf reached by the child numbers of [path]. *)
Theorem c122_commitments : forall (G : group), group_ok G ->
  forall (w : wallet G) r (t : rtx G) b, generate_commitments_reduced w r t = Ok b ->
  forall i h, In h (all_hints b i) <->
    exists ri p path, nth_error (r_inputs t) i = Some ri /\ leaf_at (ri_prop ri) path = Some p /\
      (exists x, In x w /\ public_image x = p) /\
      (h = HRealCommitment (SLeaf p) (first_message p (r i (0%nat :: path))) (0%nat :: path) \/
       h = HOwnCommitment (SLeaf p) (r i (0%nat :: path)) (first_message p (r i (0%nat :: path))) (0%nat :: path)).
Proof.
  intros G HG w r t b E i h. unfold generate_commitments_reduced in E. apply collect_spec in E. destruct E as [F P].
  rewrite P. clear P.
  assert (K : forall s, In h (generate_commitments_for (r i) s (public_keys w)) <->
    exists p path, leaf_at s path = Some p /\ (exists x, In x w /\ public_image x = p) /\
      (h = HRealCommitment (SLeaf p) (first_message p (r i (0%nat :: path))) (0%nat :: path) \/
       h = HOwnCommitment (SLeaf p) (r i (0%nat :: path)) (first_message p (r i (0%nat :: path))) (0%nat :: path))).
  { intros s. unfold generate_commitments_for. rewrite gen_locs, in_flat_map.
    assert (Q : forall p, existsb (sbool_eqb (SLeaf p)) (public_keys w) = true <-> exists x, In x w /\ public_image x = p).
    { intros p. rewrite existsb_exists. unfold public_keys. split.
      - intros (y & Hy & E). apply (sbool_eqb_spec HG) in E. subst y. apply in_map_iff in Hy. destruct Hy as (x & Ex & Hx).
        injection Ex as Ex. eauto.
      - intros (x & Hx & <-). exists (SLeaf (public_image x)). split; [apply in_map_iff; eauto|]. apply (sbool_eqb_spec HG). reflexivity. }
    split.
    - intros ((p & q) & Hin & Hh). apply locs_leaf_at in Hin. destruct Hin as (path & -> & L). destruct (existsb _ _) eqn:Ex; [|destruct Hh].
      apply Q in Ex. exists p, path. split; [exact L|]. split; [exact Ex|]. destruct Hh as [<-|[<-|[]]]; auto.
    - intros (p & path & L & Ex & Hh). exists (p, 0%nat :: path). split; [apply locs_leaf_at; exists path; auto|].
      apply Q in Ex. rewrite Ex. cbn [In]. destruct Hh as [-> | ->]; auto. }
  split.
  - intros [[]|(Hi & l & El & Hh)]. inv_bind El. injection El as <-. apply K in Hh. destruct Hh as (p & path & A & B & C).
    destruct (nth_error (r_inputs t) i) as [ri|] eqn:N; [|discriminate]. injection Eb as <-. exists ri, p, path. auto.
  - intros (ri & p & path & N & A & B & C). right. split.
    + split; [lia|]. cbn [Nat.add]. apply nth_error_Some. congruence.
    + rewrite N. cbn [of_option bind]. eexists. split; [reflexivity|]. apply K. exists p, path. auto.
Qed.

(** It makes no difference whether the hints are made from the transaction or, on a
    device without the chain, from its reduction; and they can always be made. *)
Theorem c122_reduced_same : forall (G : group) S H reduce (height : S -> Z) (w : wallet G) r st (x : txctx G (utx G)) t,
  reduce_tx H reduce height st x = Ok t ->
  generate_commitments H reduce height w r st x = generate_commitments_reduced w r t /\
  exists b, generate_commitments_reduced w r t = Ok b.
Proof.
  intros G S H reduce height w r st x t E. unfold reduce_tx in E. inv_bind E. injection E as <-. apply map_from_ok in Eb.
  destruct Eb as [L P]. split.
  - unfold generate_commitments, generate_commitments_reduced. cbn [r_inputs]. rewrite L. apply collect_ext. intros i Hi.
    destruct (P i ltac:(lia)) as (ri & Er & Nr). cbn [Nat.add] in Er. rewrite Nr. cbn [of_option bind].
    unfold input_prop. unfold reduce_input in Er. inv_bind Er. inv_bind Er. inv_bind Er. inv_bind Er. injection Er as <-.
    rewrite Eb. cbn [bind]. rewrite Eb0. cbn [bind]. rewrite Eb1. cbn [bind]. rewrite Eb2. reflexivity.
  - unfold generate_commitments_reduced. cbn [r_inputs].
    assert (K : forall n i b0, (i + n <= List.length b)%nat -> exists b', collect (fun i => ri <- of_option "unreachable" (nth_error b i) ;;
             Ok (generate_commitments_for (r i) (ri_prop ri) (public_keys w))) n i b0 = Ok b').
    { induction n as [|n IH]; intros i b0 Hn; cbn [collect]; [eauto|]. destruct (nth_error b i) eqn:N; [|apply nth_error_None in N; lia].
      cbn [of_option bind]. apply IH. lia. }
    apply K. lia.
Qed.

(** The hints extracted from a signed transaction are, input by input, those of the
    input's own proof for the proposition its script reduces to in its own context. *)
Theorem c122_extracted : forall (G : group) S reduce (height : S -> Z) real sim st (x : txctx G (tx G)) b,
  extract_hints reduce height real sim st x = Ok b ->
  forall i h, In h (all_hints b i) <->
    exists inp c s l, nth_error (t_inputs (x_tx x)) i = Some inp /\ make_context signed_etx height st x i = Ok c /\
      reduce_script reduce (box_tree (c_self c)) c = Ok s /\
      bag_for_multi_sig s real sim (proof_bytes (in_proof inp)) = Ok l /\ In h l.
Proof.
  intros G S reduce height real sim st x b E i h.
  assert (K : forall s p, signed_prop reduce height st x i = Ok (s, p) <-> exists inp c, nth_error (t_inputs (x_tx x)) i = Some inp /\
    make_context signed_etx height st x i = Ok c /\ reduce_script reduce (box_tree (c_self c)) c = Ok s /\ p = proof_bytes (in_proof inp)).
  { assert (C : forall c inp, nth_error (t_inputs (x_tx x)) i = Some inp -> make_context signed_etx height st x i = Ok c ->
      find_box (x_boxes x) (in_box inp) = Some (c_self c)).
    { intros c inp N C. unfold make_context in C. cbn [e_inputs signed_etx] in C. rewrite nth_error_map, N in C. cbn [option_map of_option bind] in C.
      destruct (find_box (x_boxes x) (in_box inp)) as [bx|]; [|discriminate]. cbn [of_option bind] in C. repeat inv_bind C. injection C as <-. reflexivity. }
    intros s p. unfold signed_prop. split.
    - intros Es. inv_bind Es. inv_bind Es. inv_bind Es. inv_bind Es. injection Es as <- <-.
      destruct (nth_error (t_inputs (x_tx x)) i) as [inp|] eqn:N; [|discriminate]. injection Eb as <-. exists inp, b2.
      specialize (C b2 inp eq_refl Eb1). rewrite C in Eb0. injection Eb0 as <-. auto.
    - intros (inp & c & N & Mc & R & ->). rewrite N. cbn [of_option bind]. rewrite (C c inp N Mc). cbn [of_option bind]. rewrite Mc. cbn [bind].
      rewrite R. reflexivity. }
  unfold extract_hints in E. apply collect_spec in E. destruct E as [F P]. rewrite P.
  split.
  - intros [[]|(Hi & l & El & Hh)]. inv_bind El. destruct b0 as [s p]. apply K in Eb. destruct Eb as (inp & c & A & B & D & ->). exists inp, c, s, l. auto.
  - intros (inp & c & s & l & N & Mc & R & El & Hh). right. split.
    + split; [lia|]. cbn [Nat.add]. apply nth_error_Some. congruence.
    + assert (Es : signed_prop reduce height st x i = Ok (s, proof_bytes (in_proof inp))) by (apply K; exists inp, c; auto).
      rewrite Es. cbn [bind]. eauto.
Qed.

(** Signing one input alone gives the input of the signed transaction. *)
Theorem c122_input_alone : forall (G : group) S H reduce (height : S -> Z) (w : wallet G) th rnd st (x : txctx G (utx G)) t i,
  sign_tx H reduce height w th rnd st x = Ok t -> (i < List.length (u_inputs (x_tx x)))%nat ->
  exists inp, nth_error (t_inputs t) i = Some inp /\ wallet_sign_input H reduce height w th (rnd i) st x i = Ok inp.
Proof.
  intros G S H reduce height w th rnd st x t i E Hi. unfold sign_tx in E. inv_bind E. inv_bind E. apply tx_new_inv in E.
  destruct E as (m & outs & _ & _ & _ & ->). cbn [t_inputs]. apply map_from_ok in Eb0. destruct Eb0 as [L P].
  destruct (P i Hi) as (inp & Ei & Ni). exists inp. split; [exact Ni|]. unfold wallet_sign_input. rewrite Eb. exact Ei.
Qed.

(** ** What the public hints give away *)

(** A thief who has the hints called public of one input and the published proof:
    the randomness [r] is among the hints, and [z = r + e w] is solved for [w]. *)
Definition inverse (q e : Z) : Z :=
  match euclid e q with Euclid_intro _ _ u v d _ _ => u * d end.
Definition steal {G : group} (public : list (hint G)) (proof : bytes) : option Z :=
  match find_pos [0%nat] (own_commitments public) with
  | Some r => Some (((be_value (skipn 24 proof) - r) * inverse (gord G) (@chal_scalar G (firstn 24 proof))) mod gord G)
  | None => None
  end.

Lemma inverse_ok : forall q e, prime q -> 0 < e < q -> (e * inverse q e) mod q = 1.
Proof.
  intros q e Hq He. unfold inverse. destruct (euclid e q) as [u v d E D].
  assert (Hd : d = 1 \/ d = -1).
  { destruct D as [D1 D2 D3]. destruct (prime_divisors q Hq d D2) as [Q|[Q|[Q|Q]]]; auto; exfalso; subst d.
    - apply Z.divide_pos_le in D1; lia.
    - apply Z.divide_opp_l in D1. apply Z.divide_pos_le in D1; lia. }
  assert (K : e * (u * d) = 1 + (- v * d) * q).
  { transitivity (d * d + (- v * d) * q); [rewrite <- E at 2; ring|]. destruct Hd as [Q|Q]; rewrite Q; reflexivity. }
  rewrite K.
  rewrite Z.mod_add by lia. apply Z.mod_small. pose proof (prime_ge_2 q Hq). lia.
Qed.

Lemma leaf_proof : forall (G : group) (secrets : list (secret G)) hints rnd H p msg proof s r,
  find (fun x => leaf_eqb (public_image x) p) secrets = Some s ->
  find_pos [0%nat] (own_commitments hints) = Some r ->
  generate_proof secrets hints rnd H (SLeaf p) msg = Ok proof ->
  exists m, proof = firstn 24 (H m) ++ be_bytes 32 (@second_message G (secret_w s) r (firstn 24 (H m))).
Proof.
  intros G secrets hints rnd H p msg proof s r Fs Fr E. unfold generate_proof in E. cbn [convert_to_unproven bind] in E.
  unfold prove_to_unchecked in E. unfold mark_real, polish_simulated, simulate_and_commit, proving in E.
  cbn -[firstn fiat_shamir_hash secret_known step5 prove_step own_commitments commitments] in E.
  assert (Kn : secret_known secrets hints p = true).
  { unfold secret_known. apply orb_true_iff. right. apply existsb_exists. apply find_some in Fs. exists s. exact Fs. }
  rewrite Kn in E. cbn [negb is_real simulated] in E.
  assert (S5 : exists m r0, step5 hints rnd p None None None false crypto_tree_prefix = Ok (PLeaf p (Some m) r0 None false crypto_tree_prefix) \/
    exists e, step5 hints rnd p None None None false crypto_tree_prefix = Err e).
  { unfold step5. destruct (find_pos crypto_tree_prefix (commitments hints)) as [m|].
    - destruct (fmsg_matches p m); [exists m, None; left; reflexivity|exists m, None; right; eexists; reflexivity].
    - eexists. eexists. left. reflexivity. }
  destruct S5 as (m & r0 & [S5|[e S5]]); rewrite S5 in E; [|discriminate].
  cbn -[firstn fiat_shamir_hash prove_step own_commitments] in E. destruct (fs_leaf p (Some m)) as [f| |]; [|discriminate|discriminate].
  cbn -[firstn fiat_shamir_hash own_commitments] in E.
  unfold step9_leaf in E. cbn [of_option bind] in E. rewrite Fs in E.
  replace (same_kind (public_image s) p) with true in E.
  2:{ apply find_some in Fs. destruct Fs as [_ Fs]. destruct (public_image s), p; try discriminate Fs; reflexivity. }
  cbn [negb] in E. unfold crypto_tree_prefix in E. rewrite Fr in E. cbn [bind convert_to_unchecked] in E.
  exists (f ++ msg). cbn -[firstn be_bytes second_message] in E. injection E as <-. reflexivity.
Qed.

Lemma collect_kinds : forall (G : group) (f : nat -> res (list (hint G))) n i b b', collect f n i b = Ok b' ->
  (forall j h, In h (hints_or_empty (hm_get (th_public b) j)) -> is_commitment h = true) ->
  (forall j h, In h (hints_or_empty (hm_get (th_secret b) j)) -> is_commitment h = false) ->
  forall j h, In h (hints_or_empty (hm_get (th_public b') j)) <-> In h (all_hints b' j) /\ is_commitment h = true.
Proof.
  intros G f. induction n as [|n IH]; intros i b b' E P Q j h; cbn [collect] in E.
  - injection E as <-. unfold all_hints. rewrite in_app_iff. split.
    + intros Hh. split; [auto|]. eapply P. exact Hh.
    + intros [[Hh|Hh] K]; [apply Q in Hh; congruence|exact Hh].
  - inv_bind E. apply (IH _ _ _ E).
    + intros k g. unfold add_hints, hm_insert. cbn [th_public hm_get]. destruct (Nat.eqb i k); [|apply P].
      cbn [hints_or_empty]. rewrite in_app_iff, filter_In. intros [[_ K]|K]; [exact K|]. eapply P. exact K.
    + intros k g. unfold add_hints, hm_insert. cbn [th_secret hm_get]. destruct (Nat.eqb i k); [|apply Q].
      cbn [hints_or_empty]. rewrite in_app_iff, filter_In. intros [[_ K]|K]; [destruct g; cbn in *; congruence|]. eapply Q. exact K.
Qed.

(** Hints go by the name of public and secret; the public ones of an input guarded by one
    key, together with the published proof, give away that key.  [steal] is given nothing
    else.  The challenge is zero with negligible probability. *)
Theorem c122_public_hints_give_key : forall (G : group), group_ok G ->
  forall H (w : wallet G) rnd r (t : rtx G) b tx i ri inp h pf,
  hash_ok H -> (forall i q, @scalar_ok G (r i q)) ->
  generate_commitments_reduced w r t = Ok b -> sign_reduced H w (Some b) rnd t = Ok tx ->
  nth_error (r_inputs t) i = Some ri -> ri_prop ri = SLeaf (Dlog h) ->
  (exists x, In x w /\ public_image x = Dlog h) ->
  nth_error (t_inputs tx) i = Some inp -> in_proof inp = PSome pf ->
  @chal_scalar G (firstn 24 pf) <> 0 ->
  exists k, steal (hints_or_empty (hm_get (th_public b) i)) pf = Some k /\ exponentiate ggen k = h.
Proof.
  intros G HG H w rnd r t b tx i ri inp h pf HH Hr Eb Es Ni Ep Hk Nt Pf Hc.
  set (pub := hints_or_empty (hm_get (th_public b) i)).
  assert (Own : forall hs, (forall g, In g hs -> In g (all_hints b i)) -> (forall g, In g (all_hints b i) -> is_commitment g = true -> In g hs) ->
    find_pos [0%nat] (own_commitments hs) = Some (r i [0%nat])).
  { intros hs S1 S2. apply find_pos_all with (w := r i [0%nat]).
    - intros v Hv. apply in_own in Hv. destruct Hv as (im & cm & Hv). apply S1 in Hv.
      apply (c122_commitments G HG w r t b Eb) in Hv. destruct Hv as (ri' & p & path & N' & L & _ & [Q|Q]); [discriminate|].
      injection Q as Q1 Q2 Q3 Q4. subst. reflexivity.
    - apply in_own. exists (SLeaf (Dlog h)), (first_message (Dlog h) (r i [0%nat])). apply S2; [|reflexivity].
      apply (c122_commitments G HG w r t b Eb). exists ri, (Dlog h), []. split; [exact Ni|]. rewrite Ep. split; [reflexivity|]. auto. }
  assert (K : forall g, In g pub <-> In g (all_hints b i) /\ is_commitment g = true).
  { intros g. unfold generate_commitments_reduced in Eb. apply (collect_kinds G _ _ _ _ _ Eb).
    - intros j g' []. - intros j g' []. }
  assert (Op : find_pos [0%nat] (own_commitments pub) = Some (r i [0%nat])).
  { apply Own; [intros g Hg; apply K; exact Hg|]. intros g H1 H2. apply K. auto. }
  assert (Oa : find_pos [0%nat] (own_commitments (all_hints b i)) = Some (r i [0%nat])) by (apply Own; auto).
  unfold sign_reduced in Es. inv_bind Es. inv_bind Es. apply tx_new_inv in Es. destruct Es as (m & outs & _ & _ & _ & ->).
  cbn [t_inputs] in Nt. apply map_from_ok in Eb1. destruct Eb1 as [L P].
  assert (Li : (i < List.length (u_inputs (r_tx t)))%nat) by (rewrite <- L; apply nth_error_Some; congruence).
  destruct (P i Li) as (inp' & Ei & Ni'). cbn [Nat.add] in Ei. rewrite Nt in Ni'. injection Ni' as <-.
  unfold sign_reduced_input in Ei. inv_bind Ei. rewrite Ni in Ei. inv_bind Ei. injection Ei as <-. cbn [in_proof] in Pf. subst.
  unfold make_proof in Eb2. inv_bind Eb2. rewrite Ep in Eb2. injection Eb2 as ->. rewrite Ep in Eb3. cbn [hints_for] in Eb3.
  destruct (find (fun x => leaf_eqb (public_image x) (Dlog h)) w) as [s|] eqn:Fs.
  2:{ destruct Hk as (x & Hx & Ex). pose proof (find_none _ _ Fs x Hx) as Q. cbn beta in Q. rewrite Ex in Q.
      assert (leaf_eqb (Dlog h) (Dlog h) = true) by (apply (leaf_eqb_spec HG); reflexivity). congruence. }
  destruct (leaf_proof G w _ _ H (Dlog h) _ pf s (r i [0%nat]) Fs Oa Eb3) as (mm & ->).
  apply find_some in Fs. destruct Fs as [_ Fs]. apply (leaf_eqb_spec HG) in Fs.
  destruct s as [k0|k0 g1 h1 u1 v1]; [|discriminate]. cbn [public_image] in Fs. injection Fs as Fs. cbn [secret_w].
  assert (L24 : List.length (firstn 24 (H mm)) = 24%nat) by (rewrite firstn_length, (proj1 (HH mm)); reflexivity).
  set (e := firstn 24 (H mm)) in *. clearbody e.
  rewrite firstn_app, firstn_all2, L24, Nat.sub_diag in Hc by lia. cbn [firstn] in Hc. rewrite app_nil_r in Hc.
  unfold steal. rewrite Op. eexists. split; [reflexivity|].
  rewrite skipn_app, skipn_all2, L24, Nat.sub_diag by lia. cbn [skipn app].
  rewrite firstn_app, firstn_all2, L24, Nat.sub_diag by lia. cbn [firstn]. rewrite app_nil_r.
  set (q := gord G) in *. set (c := @chal_scalar G e) in *.
  assert (Hq : prime q) by apply (g_prime _ HG). pose proof (prime_ge_2 q Hq) as Hq2.
  assert (Hcr : 0 < c < q) by (unfold c, chal_scalar in *; pose proof (Z.mod_pos_bound (be_value (repeat 0 8 ++ e)) (gord G)); lia).
  pose proof (inverse_ok q c Hq Hcr) as Hi. rewrite be_value_bytes.
  set (z := @second_message G k0 (r i [0%nat]) e).
  assert (Hz : 0 <= z < q) by (apply Z.mod_pos_bound; lia).
  assert (Hz2 : q < 256 ^ Z.of_nat 32) by (apply (g_ord_bound _ HG)).
  rewrite (Z.mod_small z) by lia.
  assert (Q : ((z - r i [0%nat]) * inverse q c) mod q = k0 mod q).
  { unfold z, second_message. fold q c. rewrite Z.add_mod_idemp_r by lia. rewrite Z.mul_mod, Zminus_mod_idemp_l by lia.
    rewrite <- Z.mul_mod by lia. replace ((r i [0%nat] + c * k0 - r i [0%nat]) * inverse q c) with (k0 * (c * inverse q c)) by ring.
    rewrite Z.mul_mod, Hi, Z.mul_1_r by lia. apply Z.mod_mod. lia. }
  rewrite Q, <- Fs, !(exponentiate_pow HG). unfold q. apply (gpow_mod HG).
Qed.

(** So the name is wrong: a proof and public hints that give the key. *)
Definition toy_bag : txhints toyG :=
  match generate_commitments_reduced [SecDlog 5] (fun _ _ => 33) (MkRtx (MkUtx [] [] None []) 0 [MkRInput toy_leaf5 0 []]) with
  | Ok b => b | _ => th_empty end.
Theorem c122_public_hints_refuted : exists (w : wallet toyG) rnd r t b H msg pf,
  generate_commitments_reduced w r t = Ok b /\ nth_error (r_inputs t) 0 = Some (MkRInput toy_leaf5 0 []) /\
  generate_proof w (all_hints b 0) rnd H toy_leaf5 msg = Ok pf /\ verify_signature H toy_leaf5 msg pf = Ok true /\
  steal (hints_or_empty (hm_get (th_public b) 0)) pf = Some 5 /\ In (SecDlog 5) w.
Proof.
  exists [SecDlog 5], toy_rnd, (fun _ _ => 33), (MkRtx (MkUtx [] [] None []) 0 [MkRInput toy_leaf5 0 []]), toy_bag, sum_hash, [1].
  let v := eval vm_compute in (generate_proof [SecDlog 5] (all_hints toy_bag 0) toy_rnd sum_hash toy_leaf5 [1]) in match v with Ok ?p => exists p end.
  split; [reflexivity|]. split; [reflexivity|]. split; [vm_compute; reflexivity|]. split; [vm_compute; reflexivity|].
  split; [|left; reflexivity]. unfold steal.
  replace (find_pos [0%nat] (own_commitments (hints_or_empty (hm_get (th_public toy_bag) 0)))) with (Some 33) by (vm_compute; reflexivity).
  match goal with |- context [be_value ?x] => let v := eval vm_compute in (be_value x) in replace (be_value x) with v by (vm_compute; reflexivity) end.
  match goal with |- context [chal_scalar ?x] => let v := eval vm_compute in (@chal_scalar toyG x) in replace (chal_scalar x) with v by (vm_compute; reflexivity) end.
  pose proof (inverse_ok 101 28 (g_prime toyG toyG_ok) ltac:(lia)) as I. replace (gord toyG) with 101 by reflexivity.
  revert I. generalize (inverse 101 28). intros v I. f_equal. lia.
Qed.

(** A transaction with two inputs, the second under a nested proposition of which the
    wallet holds one key. *)
Example c122_hyps_met : forall (G : group), group_ok G -> exists (t : rtx G) b,
  generate_commitments_reduced [SecDlog 5] (fun _ _ => 1) t = Ok b /\ List.length (r_inputs t) = 2%nat /\
  In (HRealCommitment (SLeaf (public_image (SecDlog 5))) (first_message (public_image (@SecDlog G 5)) 1) [0; 1; 0]%nat) (all_hints b 1).
Proof.
  intros G HG. set (l := public_image (@SecDlog G 5)).
  set (t := MkRtx (MkUtx [] [] None []) 0 [MkRInput (SLeaf l) 0 []; MkRInput (SConj And [SLeaf l; SConj Or [SLeaf l; SLeaf (Dht gid gid gid gid)]]) 0 []]).
  assert (B : exists b, generate_commitments_reduced [SecDlog 5] (fun _ _ => 1) t = Ok b) by (eexists; reflexivity).
  destruct B as [b B]. exists t, b. split; [exact B|]. split; [reflexivity|].
  apply (c122_commitments G HG _ _ _ _ B). eexists. exists l, [1; 0]%nat. split; [reflexivity|]. split; [reflexivity|].
  split; [exists (SecDlog 5); split; [left; reflexivity|reflexivity]|left; reflexivity].
Qed.

Print Assumptions c121_message_signed.
Print Assumptions c121_message_refused.
Print Assumptions c121_message_bound.
Print Assumptions c121_message_spends.
Print Assumptions c121_separation_refuted.
Print Assumptions c121_add_secret_partial.
Print Assumptions c121_add_secret_refuted.
Print Assumptions c121_mnemonic.
Print Assumptions c122_commitments.
Print Assumptions c122_reduced_same.
Print Assumptions c122_extracted.
Print Assumptions c122_input_alone.
Print Assumptions c122_public_hints_give_key.
Print Assumptions c122_public_hints_refuted.
