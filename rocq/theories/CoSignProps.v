(** Property C60: signing by several parties that exchange commitments and partial
    proofs. *)
From Verif Require Import Base VlqModel VlqProofs GfModel GfProofs GfProps.
From Verif Require Import GroupModel GroupProofs GroupInstance SigmaModel SigmaSpec.
From Verif Require Import SigmaProofs VerifierProofs EncodingProofs SbProofs ProverModel ProverProofs CommitProofs SigmaProps.
From Verif Require Import ProverProps SignModel MultiSigProofs CoSignProofs.
Local Open Scope string_scope.
Local Open Scope list_scope.
Local Open Scope Z_scope.

(** A threshold met by exactly that many children does not exceed their number. *)
Lemma exact_thr_ok : forall (G : group) (kn : leaf G -> bool) s, exactb kn s = true -> thr_ok s.
Proof.
  intros G kn s Hx.
  assert (Hg : good kn s = true) by (unfold good; rewrite Hx; reflexivity). clear Hx. revert s Hg.
  apply (sbool_ind' (fun s => good kn s = true -> thr_ok s)).
  - intros; exact I.
  - intros; exact I.
  - intros c l IH Hg. apply good_cases in Hg. destruct Hg as [Hx|(_ & p & H & _)]; [|discriminate].
    apply exact_conj in Hx. destruct Hx as [Hg Hc]. cbn [thr_ok]. split.
    + destruct c; auto. rewrite <- Hc. unfold Zlen. clear. induction l as [|x l IHl]; cbn [filter length]; [lia|].
      destruct (exactb kn x); cbn [length]; lia.
    + apply fold_and_Forall. rewrite Forall_forall in *. auto.
Qed.

(** C60: the parties publish commitments, sign one after the other, each extracting
    hints from the proof of the one before ([co_sign]); the last proof exists and is
    accepted, for every group, hash, message, order of the hints, split of the
    secrets and random choice.

    Partial: the claim asks only that the parties together can prove the
    proposition.  Here the propositions must be such that they can do so in exactly
    one way ([exactb]: one alternative of an OR, [k] children of a [k]-threshold),
    what they cannot prove are leaves, and no such leaf occurs at two positions.
    The three theorems below show that the code does fail without these. *)
Theorem c60_distributed_signing_partial :
  forall (G : group), group_ok G ->
  forall (parties : list (@party G)) (s : sbool G) (unproven : list (sbool G))
         (H : bytes -> bytes) (arrange : list (hint G) -> list (hint G)) (message : bytes),
  parties <> [] ->
  Forall (fun pa => Forall secret_ok (pa_secrets pa) /\ randomness_ok (G:=G) (pa_rnd pa) /\
                    forall q, @scalar_ok G (r_resp (pa_rnd pa) q)) parties ->
  (* no secret is shared *)
  ForallOrdPairs (fun a b => forall p, has_secret (pa_secrets a) p -> ~ has_secret (pa_secrets b) p) parties ->
  (* a bag of hints may be listed in any order *)
  (forall l h, In h (arrange l) <-> In h l) ->
  (forall b, length (H b) = 32%nat /\ bytes_ok (H b)) ->
  sb_wf s -> exactb (owned parties) s = true ->
  (* the propositions named as simulated are the leaves nobody can prove *)
  (forall p q, In (p, q) (locs crypto_tree_prefix s) ->
     (In (SLeaf p) unproven <-> ~ exists pa, In pa parties /\ has_secret (pa_secrets pa) p)) ->
  (* each of which occurs once *)
  (forall p q q', In (p, q) (locs crypto_tree_prefix s) -> In (p, q') (locs crypto_tree_prefix s) ->
     In (SLeaf p) unproven -> q = q') ->
  exists proof, co_sign H arrange s unproven message [] [] parties = Ok proof /\ bytes_ok proof /\
    verify_signature H s message proof = Ok true.
Proof.
  intros G HG parties s unproven H arrange message Hne Hok Hdisj Harr HH Hwf Hx Hun Hone.
  assert (Hhas : forall (pa : @party G) p, has pa p = true <-> has_secret (pa_secrets pa) p).
  { intros pa p. rewrite (has_spec HG). unfold has_secret. reflexivity. }
  assert (Hown : forall p, owned parties p = true <-> exists pa, In pa parties /\ has_secret (pa_secrets pa) p).
  { intros p. unfold owned. rewrite existsb_exists. split; intros (pa & Hi & Hp); exists pa; split; auto; apply Hhas; auto. }
  assert (Hsm : forall p q, In (p, q) (locs crypto_tree_prefix s) ->
    existsb (sbool_eqb (SLeaf p)) unproven = negb (owned parties p)).
  { intros p q Hin. specialize (Hun p q Hin). rewrite <- Hown in Hun. apply Bool.eq_true_iff_eq.
    rewrite negb_true_iff, <- not_true_iff_false, <- Hun, existsb_exists. split.
    - intros (x & Hi & E). apply (sbool_eqb_spec HG) in E. subst x. auto.
    - intros Hi. exists (SLeaf p). split; auto. apply (sbool_eqb_spec HG). reflexivity. }
  rewrite Forall_forall in Hok.
  destruct parties as [|first rest]; [contradiction|].
  destruct (Hok first) as (_ & (Rc & _ & Rs) & _); [left; reflexivity|].
  eapply (@co_sign_turns G HG (first :: rest) first) with (rest := rest) (dn := []) (pa := first)
    (e0 := fiat_shamir_hash H (fs_string s (cmt (CMf (first :: rest) first) crypto_tree_prefix s) ++ message)).
  all: try reflexivity; auto.
  - clear - Hdisj Hhas. induction Hdisj as [|a l Ha Hl IH]; constructor; auto.
    apply Forall_forall. rewrite Forall_forall in Ha. intros b Hb p Hp. apply not_true_iff_false.
    rewrite Hhas. apply Ha; auto. apply Hhas, Hp.
  - apply Forall_forall. intros pa Hi. apply (Hok pa Hi).
  - intros p q q' Hi Hi' Ho. apply (Hone p); auto. apply (Hun p q Hi). rewrite <- Hown. congruence.
  - intros b. destruct (HH b) as [L B]. rewrite L. split; [lia|exact B].
  - eapply exact_thr_ok; eauto.
  - intros pa q Hi. apply (Hok pa Hi).
  - intros h. split; [intros []|]. intros T. inversion T; subst; try congruence; discriminate.
Qed.
Print Assumptions c60_distributed_signing_partial.

(** ** Without those conditions *)
Definition toy_key (x : Z) : sbool toyG := SLeaf (Dlog (gpow ggen x)).
(** A party with one key whose draws depend on [k]. *)
Definition toy_party (x k : Z) : @party toyG :=
  Party [SecDlog x] (fun p => (fold_left (fun a n => 3 * a + Z.of_nat n) p (k + 7)) mod 101)
    {| r_chal := fun p => repeat ((fold_left (fun a n => 5 * a + Z.of_nat n) p (k + 11)) mod 256) 24;
       r_poly := fun _ n => repeat (k mod 256) n;
       r_scal := fun p => (fold_left (fun a n => 3 * a + Z.of_nat n) p (k + 1)) mod 101;
       r_resp := fun p => (fold_left (fun a n => 3 * a + Z.of_nat n) p (k + 2)) mod 101 |}.

(** The parties can prove the proposition, each of them with correct secrets, and no
    secret is shared. *)
Definition able (parties : list (@party toyG)) (s : sbool toyG) : Prop :=
  Forall (fun pa => Forall secret_ok (pa_secrets pa) /\ randomness_ok (G:=toyG) (pa_rnd pa) /\
                    forall q, @scalar_ok toyG (r_resp (pa_rnd pa) q)) parties /\
  ForallOrdPairs (fun a b => forall p, has_secret (pa_secrets a) p -> ~ has_secret (pa_secrets b) p) parties /\
  sb_wf s /\ normal s /\ or_distinct s /\ thr_ok s /\
  provable (fun p => exists pa, In pa parties /\ has_secret (pa_secrets pa) p) s.

Lemma toy_party_ok : forall x k, 0 < x < 101 -> 
  Forall secret_ok (pa_secrets (toy_party x k)) /\ randomness_ok (G:=toyG) (pa_rnd (toy_party x k)) /\
  forall q, @scalar_ok toyG (r_resp (pa_rnd (toy_party x k)) q).
Proof.
  assert (R : forall x n, 0 <= x < 256 -> bytes_ok (repeat x n)).
  { intros x n Hx. apply Forall_forall. intros y Hy. apply repeat_spec in Hy. subst. exact Hx. }
  intros x k Hx. split; [|split].
  - constructor; [reflexivity|constructor].
  - unfold randomness_ok, toy_party. cbn [pa_rnd r_chal r_poly r_scal]. split; [|split].
    + intros p. split; [apply repeat_length|]. apply R. apply Z.mod_pos_bound. lia.
    + intros p n. split; [apply repeat_length|]. apply R. apply Z.mod_pos_bound. lia.
    + intros p. apply Z.mod_pos_bound. reflexivity.
  - intros q. apply Z.mod_pos_bound. reflexivity.
Qed.

Definition dlog_z (p : leaf toyG) : Z := match p with Dlog h => proj1_sig h | _ => 0 end.
Definition key_z (s : sbool toyG) : Z := match locs [] s with (p, _) :: _ => dlog_z p | [] => 0 end.
Ltac ne E := first
  [ apply (f_equal dlog_z) in E; vm_compute in E; discriminate E
  | apply (f_equal key_z) in E; vm_compute in E; discriminate E ].
Ltac toy_able :=
  split; [apply Forall_cons; [apply toy_party_ok; lia|]; apply Forall_cons; [apply toy_party_ok; lia|]; apply Forall_nil|];
  split; [apply FOP_cons; [apply Forall_cons; [|apply Forall_nil]|apply FOP_cons; [apply Forall_nil|apply FOP_nil]];
          intros p (x & [<-|[]] & <-) (y & [<-|[]] & E); ne E|];
  split; [repeat split; vm_compute; discriminate|];
  split; [repeat split|];
  split; [repeat split; repeat (apply NoDup_cons; [intros F; repeat (destruct F as [F|F]; [ne F|]); exact F|]);
          try apply NoDup_nil; exact I|];
  split; [repeat split; vm_compute; discriminate|].

(** An alternative nobody proves is a conjunction: each signer draws a new challenge
    for it, but reuses the first signer's simulation of its leaves. *)
Theorem c60_compound_branch_refuted :
  exists (parties : list (@party toyG)) s unproven H message proof,
    able parties s /\
    (forall p, In (SLeaf p) unproven -> ~ exists pa, In pa parties /\ has_secret (pa_secrets pa) p) /\
    co_sign H (fun l => l) s unproven message [] [] parties = Ok proof /\
    verify_signature H s message proof = Ok false.
Proof.
  exists [toy_party 5 3; toy_party 6 9],
    (SConj Or [SConj And [toy_key 5; toy_key 6]; SConj And [toy_key 7; toy_key 8]]),
    [toy_key 7; toy_key 8], sum_hash, [1].
  let v := eval vm_compute in (co_sign sum_hash (fun l => l)
    (SConj Or [SConj And [toy_key 5; toy_key 6]; SConj And [toy_key 7; toy_key 8]])
    [toy_key 7; toy_key 8] [1] [] [] [toy_party 5 3; toy_party 6 9]) in
  match v with Ok ?x => exists x end.
  split; [|split; [|split; vm_compute; reflexivity]].
  - toy_able.
    left. split; [|split; [|exact I]].
    + exists (toy_party 5 3). split; [left; reflexivity|]. exists (SecDlog 5). split; [left; reflexivity|reflexivity].
    + exists (toy_party 6 9). split; [right; left; reflexivity|]. exists (SecDlog 6). split; [left; reflexivity|reflexivity].
  - intros p [Hp|[Hp|[]]] (pa & [<-|[<-|[]]] & x & [<-|[]] & E); injection Hp as <-; ne E.
Qed.
Print Assumptions c60_compound_branch_refuted.

(** More parties take part than the proposition needs: the surplus alternative is
    marked as simulated, but a commitment made for it is among the hints, so it is
    neither simulated nor proved. *)
Theorem c60_surplus_signer_refuted :
  exists (parties : list (@party toyG)) s H message e,
    able parties s /\ co_sign H (fun l => l) s [] message [] [] parties = Err e.
Proof.
  exists [toy_party 5 3; toy_party 6 9], (SConj Or [toy_key 5; toy_key 6]), sum_hash, [1].
  eexists. split; [|vm_compute; reflexivity].
  toy_able.
  left. exists (toy_party 5 3). split; [left; reflexivity|]. exists (SecDlog 5). split; [left; reflexivity|reflexivity].
Qed.
Print Assumptions c60_surplus_signer_refuted.

(** The same unproven key occurs twice: the simulations are looked up by key, not by
    position, so one of them is used for both. *)
Theorem c60_repeated_key_refuted :
  exists (parties : list (@party toyG)) s unproven H message proof,
    able parties s /\ exactb (owned parties) s = true /\
    (forall p, In (SLeaf p) unproven -> ~ exists pa, In pa parties /\ has_secret (pa_secrets pa) p) /\
    co_sign H (fun l => l) s unproven message [] [] parties = Ok proof /\
    verify_signature H s message proof = Ok false.
Proof.
  exists [toy_party 5 3; toy_party 6 9],
    (SConj (Thr 2) [toy_key 5; toy_key 6; toy_key 7; toy_key 7]), [toy_key 7], sum_hash, [1].
  let v := eval vm_compute in (co_sign sum_hash (fun l => l)
    (SConj (Thr 2) [toy_key 5; toy_key 6; toy_key 7; toy_key 7])
    [toy_key 7] [1] [] [] [toy_party 5 3; toy_party 6 9]) in
  match v with Ok ?x => exists x end.
  split; [|split; [vm_compute; reflexivity|split; [|split; vm_compute; reflexivity]]].
  - toy_able.
    left. split; [|left; split; [|exact I]].
    + exists (toy_party 5 3). split; [left; reflexivity|]. exists (SecDlog 5). split; [left; reflexivity|reflexivity].
    + exists (toy_party 6 9). split; [right; left; reflexivity|]. exists (SecDlog 6). split; [left; reflexivity|reflexivity].
  - intros p [Hp|[]] (pa & [<-|[<-|[]]] & x & [<-|[]] & E); injection Hp as <-; ne E.
Qed.
Print Assumptions c60_repeated_key_refuted.

(** The hypotheses hold for two parties, a threshold with a nested OR, and a key
    nobody has. *)
Definition toy_shared : sbool toyG :=
  SConj (Thr 2) [toy_key 5; SConj Or [toy_key 8; toy_key 6]; toy_key 7].
Example c60_hyps_met :
  able [toy_party 5 3; toy_party 6 9] toy_shared /\
  exactb (owned [toy_party 5 3; toy_party 6 9]) toy_shared = true /\
  (forall p q, In (p, q) (locs crypto_tree_prefix toy_shared) ->
     (In (SLeaf p) [toy_key 7; toy_key 8] <->
      ~ exists pa, In pa [toy_party 5 3; toy_party 6 9] /\ has_secret (pa_secrets pa) p)) /\
  (forall p q q', In (p, q) (locs crypto_tree_prefix toy_shared) -> In (p, q') (locs crypto_tree_prefix toy_shared) ->
     In (SLeaf p) [toy_key 7; toy_key 8] -> q = q').
Proof.
  split; [|split; [vm_compute; reflexivity|split]].
  - toy_able.
    left. split; [|left; split; [|destruct (map _ _); exact I]].
    + exists (toy_party 5 3). split; [left; reflexivity|]. exists (SecDlog 5). split; [left; reflexivity|reflexivity].
    + right. left. exists (toy_party 6 9). split; [right; left; reflexivity|].
      exists (SecDlog 6). split; [left; reflexivity|reflexivity].
  - intros p q Hin. unfold toy_shared, toy_key in Hin. cbn [locs imap concat app] in Hin.
    repeat (destruct Hin as [Hin|Hin]; [injection Hin as <- _|]); [..|destruct Hin].
    + split; [intros [E|[E|[]]]; ne E|].
      intros N. exfalso. apply N. exists (toy_party 5 3). split; [left; reflexivity|].
      exists (SecDlog 5). split; [left; reflexivity|reflexivity].
    + split; [|intros _; right; left; reflexivity].
      intros _ (pa & [<-|[<-|[]]] & x & [<-|[]] & E); ne E.
    + split; [intros [E|[E|[]]]; ne E|].
      intros N. exfalso. apply N. exists (toy_party 6 9). split; [right; left; reflexivity|].
      exists (SecDlog 6). split; [left; reflexivity|reflexivity].
    + split; [|intros _; left; reflexivity].
      intros _ (pa & [<-|[<-|[]]] & x & [<-|[]] & E); ne E.
  - intros p q q' H1 H2 _. unfold toy_shared, toy_key in H1, H2. cbn [locs imap concat app] in H1, H2.
    destruct H1 as [H1|[H1|[H1|[H1|[]]]]]; destruct H2 as [H2|[H2|[H2|[H2|[]]]]];
      apply (f_equal snd) in H1 as Q1; apply (f_equal snd) in H2 as Q2; cbn [snd] in Q1, Q2;
      try congruence; exfalso; apply (f_equal fst) in H1; apply (f_equal fst) in H2; cbn [fst] in H1, H2;
      rewrite <- H1 in H2; ne H2.
Qed.
