(** Equality of values: the comparison of the interpreter is equality. *)
From Verif Require MerkleModel.
From Verif Require Import Base VlqModel IntBytes GroupModel SigmaModel BigIntModel TypeModel
  MethodModel IrModel SerModel ChainModel HeaderModel TxModel EqModel PrintModel EvalModel SigmaProofs ProverProofs TypeProofs EqProofs.
Local Open Scope list_scope.
Local Open Scope Z_scope.

Section Ind.
Context {G : group}.
Variable P : value G -> Prop.
Hypothesis Hcoll : forall t l, Forall P l -> P (VColl t l).
Hypothesis Htup : forall l, Forall P l -> P (VTup l).
Hypothesis Hopt : forall o, oall P o -> P (VOpt o).
Hypothesis Hrest : forall v, (forall t l, v <> VColl t l) -> (forall l, v <> VTup l) -> (forall o, v <> VOpt o) -> P v.
Fixpoint value_ind' (v : value G) : P v.
Proof.
  destruct v; try (apply Hrest; discriminate).
  - apply Hcoll. induction items as [|x l IH]; constructor; [apply value_ind'|exact IH].
  - apply Htup. induction items as [|x l IH]; constructor; [apply value_ind'|exact IH].
  - apply Hopt. destruct o as [x|]; [exact (value_ind' x)|exact I].
Qed.
End Ind.

Section Eq.
Context {G : group}.
Hypothesis HG : group_ok G.

Lemma deq_group (x : G) : deq geqb x.
Proof. intros y. apply (g_eqb _ HG). Qed.
Lemma deq_bytes_eqb (x y : bytes) : MerkleModel.bytes_eqb x y = true <-> x = y.
Proof. unfold MerkleModel.bytes_eqb. destruct (list_eq_dec Z.eq_dec x y); split; congruence. Qed.
Lemma deq_solution (x : solution G) : deq solution_eqb x.
Proof.
  intros y. destruct x as [p o n d], y as [q o' n' d']. unfold solution_eqb. cbn [miner_pk pow_onetime_pk nonce pow_distance]. rewrite !andb_true_iff.
  rewrite (g_eqb _ HG), deq_bytes_eqb.
  assert (K : HeaderModel.opt_eqb geqb o o' = true <-> o = o').
  { destruct o, o'; cbn; rewrite ?(g_eqb _ HG); split; congruence. }
  assert (K' : HeaderModel.opt_eqb Z.eqb d d' = true <-> d = d').
  { destruct d, d'; cbn; rewrite ?Z.eqb_eq; split; congruence. }
  rewrite K, K'. split; [intros (((-> & ->) & ->) & ->); reflexivity|intros [= -> -> -> ->]; auto].
Qed.
Lemma deq_header (x : header G) : deq header_eqb x.
Proof.
  intros y. destruct x, y. unfold header_eqb. cbn [HeaderModel.h_version HeaderModel.h_id HeaderModel.h_parent_id HeaderModel.h_ad_proofs_root HeaderModel.h_state_root HeaderModel.h_transaction_root HeaderModel.h_timestamp HeaderModel.h_n_bits HeaderModel.h_height HeaderModel.h_extension_root HeaderModel.h_solution HeaderModel.h_votes]. rewrite !andb_true_iff, !Z.eqb_eq, !deq_bytes_eqb, (deq_solution _ _).
  split.
  - intros E. decompose [and] E. subst. reflexivity.
  - intros E. injection E. intros. subst. repeat split.
Qed.
Lemma deq_preheader (x : preheader G) : deq preheader_eqb x.
Proof.
  intros y. destruct x as [a1 a2 a3 a4 a5 a6 a7], y as [b1 b2 b3 b4 b5 b6 b7]. unfold preheader_eqb. cbn [ph_version ph_parent_id ph_timestamp ph_n_bits ph_height ph_miner_pk ph_votes]. rewrite !andb_true_iff, !Z.eqb_eq, !deq_bytes, (g_eqb _ HG).
  split.
  - intros E. decompose [and] E. subst. reflexivity.
  - intros E. injection E. intros. subst. repeat split.
Qed.
Lemma deq_ebox (x : @ebox G) : deq ebox_eqb x.
Proof.
  intros [i b]. destruct x as [j a]. unfold ebox_eqb. cbn [fst snd]. rewrite andb_true_iff, deq_bytes.
  destruct (ir_eqb_spec HG) as (_ & _ & _ & _ & _ & _ & Qb). rewrite (Qb a b). split; [intros [-> ->]; reflexivity|intros [= -> ->]; auto].
Qed.
Lemma value_eqb_spec (v : value G) : deq value_eqb v.
Proof.
  destruct (ir_eqb_spec HG) as (_ & _ & Qe & _ & _ & _ & _).
  induction v as [t l IH|l IH|o IH|v N1 N2 N3] using value_ind'; intros w.
  - destruct w; cbn [value_eqb]; try (split; [discriminate|discriminate]).
    rewrite andb_true_iff, stype_eqb_eq, (deq_list _ _ IH). split; [intros [-> ->]; reflexivity|intros [= -> ->]; auto].
  - destruct w; cbn [value_eqb]; try (split; [discriminate|discriminate]).
    rewrite (deq_list _ _ IH). split; congruence.
  - destruct w; try (destruct o; split; discriminate). destruct o as [x|], o0 as [y|]; cbn [value_eqb]; try (split; congruence).
    rewrite (IH y). split; congruence.
  - destruct v; try (exfalso; eapply N1; reflexivity); try (exfalso; eapply N2; reflexivity); try (exfalso; eapply N3; reflexivity);
      destruct w; cbn [value_eqb]; try (split; [discriminate|discriminate]); try (split; reflexivity);
      rewrite ?Z.eqb_eq, ?Bool.eqb_true_iff, ?(g_eqb _ HG), ?deq_bytes;
      try (split; congruence).
    + rewrite (sbool_eqb_spec HG s s0). split; congruence.
    + rewrite (deq_ebox b b0). split; congruence.
    + rewrite (deq_avl a a0). split; congruence.
    + rewrite andb_true_iff, (deq_all _ deq_arg), (Qe body body0). split; [intros [-> ->]; reflexivity|intros [= -> ->]; auto].
    + rewrite (deq_header h h0). split; congruence.
    + rewrite (deq_preheader h h0). split; congruence.
Qed.
End Eq.
