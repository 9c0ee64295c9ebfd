(** Properties C10 and C11: what the prover achieves with and without enough
    secrets. *)
From Verif Require Import Base VlqModel VlqProofs GfModel GfProofs GfProps.
From Verif Require Import GroupModel GroupProofs GroupInstance SigmaModel SigmaSpec.
From Verif Require Import SigmaProofs VerifierProofs EncodingProofs SbProofs ProverModel ProverProofs CommitProofs SigmaProps.
Local Open Scope string_scope.
Local Open Scope list_scope.
Local Open Scope Z_scope.

(** C10: with enough secrets a proof is produced and accepted, for every message,
    every random choice and every hash function.  [secret_ok]: the secret is a
    witness of its public image; [has_secret]: some secret has that public image.
    Partial because the claim is false without the last two conditions on the
    proposition (see below): no OR may list the same alternative twice, and no
    threshold may exceed its number of children. *)
Theorem c10_prover_complete_partial :
  forall (G : group), group_ok G ->
  forall (secrets : list (secret G)) (rnd : randomness) (H : bytes -> bytes)
         (s : sbool G) (message : bytes),
  Forall secret_ok secrets -> randomness_ok (G:=G) rnd ->
  (forall b, length (H b) = 32%nat /\ bytes_ok (H b)) ->
  sb_wf s -> normal s -> provable (has_secret secrets) s ->
  or_distinct s -> thr_ok s ->
  exists proof, generate_proof secrets [] rnd H s message = Ok proof /\ bytes_ok proof /\
    verify_signature H s message proof = Ok true.
Proof.
  intros G HG secrets rnd H s message Hsec Hrnd HH Hwf Hnorm Hprov Hor Hthr.
  destruct s as [b|p|c l].
  { cbn [provable] in Hprov. subst b. exists []. split; [reflexivity|]. split; [constructor|reflexivity]. }
  all: match goal with |- context [generate_proof _ _ _ _ ?x _] => set (s := x) in * end.
  all: assert (Hnt : nontrivial s) by exact I.
  all: assert (Hnc : no_const s) by
    (clear - Hnt Hnorm; revert Hnt Hnorm; generalize s;
     apply (sbool_ind' (fun s => nontrivial s -> normal s -> no_const s)); [intros b []|intros; exact I|];
     intros c0 l0 IH _ Hn; cbn [normal] in Hn; cbn [no_const]; apply fold_and_Forall;
     apply fold_and_Forall in Hn; rewrite Forall_forall in *; intros x Hx; apply IH; auto; apply (Hn x Hx)).
  all: apply (canb_spec HG secrets s Hnc) in Hprov.
  all: destruct (prove_complete HG secrets rnd Hrnd Hsec H s message Hnc Hor Hwf Hthr Hprov)
    as (u & m & E & C & M & U); [intros b; destruct (HH b) as [L B]; rewrite L; split; [lia|exact B]|].
  all: destruct (consistent_accepting HG s u C) as [HM HA].
  all: destruct (sig_write_layout HG s Hwf u HM HA true) as (bs & W & B & Lay).
  all: exists bs; split; [unfold generate_proof; rewrite (convert_spec s Hnc); cbn [bind]; unfold s at 1;
    cbv iota; rewrite E; exact W|].
  all: split; [exact B|]; apply (verify_iff HG); auto; exists (tr u), bs, [];
    split; [exact HA|]; split; [symmetry; apply app_nil_r|]; split; [exact Lay|];
    rewrite t_chal_tr, M; exact U.
Qed.
Print Assumptions c10_prover_complete_partial.

(** Without the first condition the proof is produced but rejected: both copies of
    a known alternative stay real and both are given the whole challenge. *)
Definition sum_hash (b : bytes) : bytes := repeat (fold_left Z.add b 0 mod 256) 32.
Definition toy_rnd : randomness :=
  Rnd (fun p => repeat (Z.of_nat (length p) mod 256) 24) (fun _ n => repeat 9 n)
      (fun p => (10 + Z.of_nat (length p)) mod 101) (fun _ => 0).
Definition toy_leaf5 : sbool toyG := SLeaf (Dlog (gpow ggen 5)).
Theorem c10_prover_complete_refuted :
  exists (secrets : list (secret toyG)) rnd H (s : sbool toyG) message proof,
    Forall secret_ok secrets /\ sb_wf s /\ normal s /\ thr_ok s /\ provable (has_secret secrets) s /\
    generate_proof secrets [] rnd H s message = Ok proof /\
    verify_signature H s message proof = Ok false.
Proof.
  exists [SecDlog 5], toy_rnd, sum_hash, (SConj Or [toy_leaf5; toy_leaf5]), [1].
  let v := eval vm_compute in
    (generate_proof [SecDlog 5] [] toy_rnd sum_hash (SConj Or [toy_leaf5; toy_leaf5]) [1]) in
  match v with Ok ?x => exists x end.
  split; [constructor; [reflexivity|constructor]|].
  split; [repeat split; vm_compute; discriminate|]. split; [repeat split|]. split; [repeat split|].
  split; [left; exists (SecDlog 5); split; [left; reflexivity|reflexivity]|].
  split; vm_compute; reflexivity.
Qed.
Print Assumptions c10_prover_complete_refuted.

(** Without the second the prover panics, even in a branch it does not need. *)
Theorem c10_threshold_panics_refuted :
  exists (secrets : list (secret toyG)) rnd H (s : sbool toyG) message,
    Forall secret_ok secrets /\ sb_wf s /\ normal s /\ or_distinct s /\ provable (has_secret secrets) s /\
    generate_proof secrets [] rnd H s message = Panic.
Proof.
  exists [SecDlog 5], toy_rnd, sum_hash,
    (SConj Or [toy_leaf5; SConj (Thr 3) [toy_leaf 1; toy_leaf 2]]), [1].
  split; [constructor; [reflexivity|constructor]|].
  split; [repeat split; vm_compute; discriminate|]. split; [repeat split|].
  split; [split; [|repeat split]; constructor; [intros [H|[]]; discriminate|constructor; [intros []|constructor]]|].
  split; [left; exists (SecDlog 5); split; [left; reflexivity|reflexivity]|].
  vm_compute. reflexivity.
Qed.
Print Assumptions c10_threshold_panics_refuted.

(** The hypotheses hold for a threshold with a nested OR and a simulated branch. *)
Definition toy_prop : sbool toyG :=
  SConj (Thr 2) [toy_leaf5; SConj Or [SLeaf (Dlog (gpow ggen 6)); SLeaf (Dlog (gpow ggen 7))];
                 SConj And [SLeaf (Dlog (gpow ggen 8)); SLeaf (Dlog (gpow ggen 9))]].
Example c10_hyps_met :
  Forall (@secret_ok toyG) [SecDlog 5; SecDlog 7] /\ randomness_ok (G:=toyG) toy_rnd /\
  (forall b, length (sum_hash b) = 32%nat /\ bytes_ok (sum_hash b)) /\
  sb_wf toy_prop /\ normal toy_prop /\ or_distinct toy_prop /\ thr_ok toy_prop /\
  provable (has_secret [SecDlog 5; SecDlog 7]) toy_prop.
Proof.
  assert (R : forall x n, 0 <= x < 256 -> bytes_ok (repeat x n)).
  { intros x n Hx. apply Forall_forall. intros y Hy. apply repeat_spec in Hy. subst. exact Hx. }
  split; [repeat constructor|]. split.
  { unfold randomness_ok, toy_rnd. cbn [r_chal r_poly r_scal]. split; [|split].
    - intros p. split; [apply repeat_length|]. apply R. apply Z.mod_pos_bound. lia.
    - intros p n. split; [apply repeat_length|]. apply R. lia.
    - intros p. apply Z.mod_pos_bound. reflexivity. }
  split.
  { intros b. split; [apply repeat_length|]. apply R. apply Z.mod_pos_bound. lia. }
  split; [repeat split; vm_compute; discriminate|]. split; [repeat split|].
  split; [repeat split; constructor; [intros [H|[]]; discriminate|constructor; [intros []|constructor]]|].
  split; [repeat split; vm_compute; discriminate|].
  left. split; [exists (SecDlog 5); split; [left; reflexivity|reflexivity]|].
  left. split; [|destruct (map _ _); exact I].
  right. left. exists (SecDlog 7). split; [right; left; reflexivity|reflexivity].
Qed.

(** C11: without enough secrets the prover returns an error (never a proof, never
    a panic), for every proposition, also ones with constants inside. *)
Theorem c11_prover_refuses :
  forall (G : group), group_ok G ->
  forall (secrets : list (secret G)) (rnd : randomness) (H : bytes -> bytes)
         (s : sbool G) (message : bytes),
  ~ provable (has_secret secrets) s ->
  exists e, generate_proof secrets [] rnd H s message = Err e.
Proof.
  intros G HG secrets rnd H s message Hno.
  assert (Hd : no_const s \/ ~ no_const s).
  { clear. revert s. apply (sbool_ind' (fun s => no_const s \/ ~ no_const s)).
    - intros b. right. intros [].
    - intros p. left. exact I.
    - intros c l IH. cbn [no_const]. rewrite fold_and_Forall.
      induction IH as [|x l Hx Hl IHl]; [left; constructor|].
      destruct Hx as [Hx|Hx]; [|right; intros F; inversion F; auto].
      destruct IHl as [Hl'|Hl']; [left; constructor; auto|right; intros F; inversion F; auto]. }
  destruct s as [[|]|p|c l].
  - exfalso. apply Hno. reflexivity.
  - eexists. reflexivity.
  - unfold generate_proof. rewrite (convert_spec (SLeaf p) I). cbn [bind]. unfold prove_to_unchecked.
    rewrite (mark_real_spec secrets (SLeaf p) I). cbn [bind]. unfold is_real. rewrite simulated_mk by exact I.
    destruct (canb secrets (SLeaf p)) eqn:E; [|eexists; reflexivity].
    exfalso. apply Hno. apply (canb_spec HG); auto. exact I.
  - unfold generate_proof. destruct Hd as [Hnc|Hnc].
    + rewrite (convert_spec _ Hnc). cbn [bind]. unfold prove_to_unchecked.
      rewrite (mark_real_spec secrets _ Hnc). cbn [bind]. unfold is_real. rewrite simulated_mk by exact Hnc.
      destruct (canb secrets (SConj c l)) eqn:E; [|eexists; reflexivity].
      exfalso. apply Hno. apply (canb_spec HG); auto.
    + destruct (convert_const (SConj c l) Hnc) as [e He]. rewrite He. exists e. reflexivity.
Qed.
Print Assumptions c11_prover_refuses.

Example c11_hyps_met : ~ provable (has_secret [SecDlog 5; SecDlog 8]) toy_prop /\
  generate_proof [SecDlog 5; SecDlog 8] [] toy_rnd sum_hash toy_prop [1] = Err "TreeRootIsNotReal".
Proof.
  split; [|vm_compute; reflexivity].
  rewrite <- (canb_spec toyG_ok) by (repeat split). vm_compute. discriminate.
Qed.
