(** Mnemonic phrases encode the entropy: C114. *)
From Coq Require Import String Ascii.
From Verif Require Import Base MnemonicModel MnemonicProofs.
Local Open Scope string_scope.
Local Open Scope list_scope.
Local Open Scope Z_scope.

(** Bytes, and a hash of 32 of them. *)
Definition octets (bs : bytes) : Prop := Forall (fun b => 0 <= b < 256) bs.
Definition hash32 (sha : bytes -> bytes) : Prop := forall e, octets (sha e) /\ List.length (sha e) = 32%nat.
(** [text] occurs in [s]. *)
Definition occurs (text s : bytes) : Prop := exists a b, s = a ++ text ++ b.
(** The byte order mark U+FEFF in UTF-8. *)
Definition bom : bytes := [239; 187; 191].

(** ** The word lists *)
Fixpoint find_text (t s : bytes) : bool := starts t s || match s with [] => false | _ :: s => find_text t s end.
Lemma find_occurs t : forall s, occurs t s -> find_text t s = true.
Proof.
  intros s (a & b & ->). induction a as [|x a IH]; cbn [app].
  - destruct (t ++ b) eqn:E; cbn [find_text]; rewrite <- E, starts_self; reflexivity.
  - cbn [find_text]. rewrite IH. apply orb_true_r.
Qed.
Definition plain (w : bytes) : bool := negb (find_text bom w) && forallb (fun b => 32 <? b) w && negb (match w with [] => true | _ => false end).
Definition check (d : bytes) (fr : bool) (ws : list bytes) : bool :=
  (List.length ws =? 2048)%nat && distinct ws &&
  forallb (fun w => clean d w && negb (find_text d w)) ws &&
  if fr then match ws with [] => false | w :: l => forallb plain l && starts (bom ++ octets_of "abaisser") w && (List.length w =? 11)%nat end
  else forallb plain ws.
Definition word_checks (lang : language) : bool :=
  check (delimiter lang) (match lang with French => true | _ => false end) (words lang).
Lemma checks_pass lang : word_checks lang = true.
Proof. destruct lang; vm_cast_no_check (@eq_refl bool true). Qed.
Lemma word_facts lang : List.length (words lang) = 2048%nat /\ distinct (words lang) = true /\
  Forall (fun w => clean (delimiter lang) w = true /\ find_text (delimiter lang) w = false) (words lang).
Proof.
  pose proof (checks_pass lang) as C. unfold word_checks, check in C. repeat (apply andb_true_iff in C as [C ?]).
  apply Nat.eqb_eq in C. split; [exact C|]. split; [assumption|]. apply Forall_forall. intros w I.
  match goal with X : forallb _ _ = true |- _ => rewrite forallb_forall in X; specialize (X w I); apply andb_true_iff in X as [X1 X2] end.
  apply negb_true_iff in X2. auto.
Qed.
(** Each list has 2048 different words, and none contains the delimiter. *)
Theorem c114_words : forall lang, List.length (words lang) = 2048%nat /\ NoDup (words lang) /\
  Forall (fun w => ~ occurs (delimiter lang) w) (words lang).
Proof.
  intros lang. destruct (word_facts lang) as (L & D & F). split; [exact L|]. split.
  - apply NoDup_nth_error. intros i j I E. destruct (nth_error (words lang) i) as [w|] eqn:Ei; [|apply nth_error_None in Ei; lia].
    apply (distinct_nth _ i j w D Ei). now symmetry.
  - eapply Forall_impl; [|exact F]. intros w [_ N] O. apply find_occurs in O. congruence.
Qed.
(** Apart from the first word of the French list, words are not empty and have
    neither white space nor a byte order mark in them. *)
Theorem c114_letters_partial : forall lang i w, nth_error (words lang) i = Some w -> (lang = French -> i <> 0%nat) ->
  w <> [] /\ Forall (fun b => 32 < b) w /\ ~ occurs bom w.
Proof.
  intros lang i w E N. assert (P : plain w = true).
  { pose proof (checks_pass lang) as C. unfold word_checks, check in C. apply andb_true_iff in C as [_ C].
    destruct lang; try (rewrite forallb_forall in C; apply C; eapply nth_error_In; eauto; fail).
    destruct i as [|i]; [now destruct (N eq_refl)|]. destruct (words French) as [|x l]; [discriminate C|].
    apply andb_true_iff in C as [C _]. apply andb_true_iff in C as [C _]. rewrite forallb_forall in C. apply C. eapply nth_error_In; eauto. }
  unfold plain in P. apply andb_true_iff in P as [P P3]. apply andb_true_iff in P as [P1 P2]. apply negb_true_iff in P1, P3.
  split; [destruct w; [discriminate P3|discriminate]|]. split.
  - apply Forall_forall. rewrite forallb_forall in P2. intros b I. specialize (P2 b I). lia.
  - intros O. apply find_occurs in O. congruence.
Qed.

(** ** The phrase *)
Section Props.
Variable sha : bytes -> bytes.
Hypothesis Hsha : hash32 sha.
Definition allowed (e : bytes) : Prop := In (Zlen e) [16; 20; 24; 28; 32].
(** The entropy followed by the first bits of its hash, one for every 32 bits. *)
Definition sum_of (e : bytes) : Z := number_of e * 2 ^ (Zlen e / 4) + number_of (sha e) / 2 ^ (256 - Zlen e / 4).
(** The [i]-th group of eleven bits, when there are [k]. *)
Definition group_of (n k i : Z) : Z := n / 2 ^ (11 * (k - 1 - i)) mod 2048.

Definition all_bits (e : bytes) : list bool := bits_of e ++ firstn (Z.to_nat (Zlen e / 4)) (bits_of (sha e)).
Lemma allowed_quarter e : allowed e -> exists q, (4 <= q <= 8)%nat /\ List.length e = (4 * q)%nat /\ Zlen e / 4 = Z.of_nat q.
Proof.
  unfold allowed, Zlen. cbn [In]. intros A. exists (List.length e / 4)%nat.
  assert (Q : exists q, (4 <= q <= 8)%nat /\ List.length e = (4 * q)%nat).
  { destruct A as [A|[A|[A|[A|[A|[]]]]]]; [exists 4%nat|exists 5%nat|exists 6%nat|exists 7%nat|exists 8%nat]; lia. }
  destruct Q as (q & Q1 & Q2). rewrite Q2. rewrite Nat.mul_comm, Nat.div_mul by lia. split; [lia|]. split; [lia|].
  rewrite Nat2Z.inj_mul. change (Z.of_nat 4) with 4. now rewrite Z.div_mul.
Qed.
Lemma all_length e q : List.length e = (4 * q)%nat -> Zlen e / 4 = Z.of_nat q -> (q <= 8)%nat ->
  List.length (all_bits e) = (11 * (3 * q))%nat.
Proof.
  intros L D B. unfold all_bits. rewrite app_length, firstn_length, !bits_length, D, Nat2Z.id, L.
  destruct (Hsha e) as [_ ->]. lia.
Qed.
Lemma all_value e q : octets e -> Zlen e / 4 = Z.of_nat q -> (q <= 8)%nat -> load_be (all_bits e) = sum_of e.
Proof.
  intros O D B. destruct (Hsha e) as [OS LS]. unfold all_bits, sum_of. rewrite load_app, load_firstn, load_bits by
    (try assumption; rewrite bits_length, D, Nat2Z.id, LS; lia).
  rewrite load_bits by assumption. unfold Zlen at 1. rewrite firstn_length, bits_length, LS, D, Nat2Z.id.
  replace (Z.of_nat (Nat.min q (8 * 32))) with (Z.of_nat q) by lia. do 3 f_equal. unfold Zlen. rewrite bits_length, LS. lia.
Qed.
Lemma look_up_ok ws l : Forall (fun c => (Z.to_nat (load_be c) < List.length ws)%nat) l ->
  exists r, look_up ws l = Ok r /\ List.length r = List.length l /\
    forall i c, nth_error l i = Some c -> exists w, nth_error r i = Some w /\ nth_error ws (Z.to_nat (load_be c)) = Some w.
Proof.
  induction 1 as [|c l C F (r & R & L & N)]; [exists []; split; [reflexivity|split; [reflexivity|intros [|i] c E; discriminate]]|].
  cbn [look_up]. unfold word_at. destruct (nth_error ws (Z.to_nat (load_be c))) as [w|] eqn:W; [|apply nth_error_None in W; lia].
  cbn [bind]. rewrite R. cbn [bind]. exists (w :: r). split; [reflexivity|]. split; [cbn; now rewrite L|].
  intros [|i] c' E; cbn [nth_error] in *; [injection E as <-; eauto|now apply N].
Qed.
Lemma lens_allowed e : existsb (Z.eqb (Zlen e)) allowed_lens = true <-> allowed e.
Proof.
  rewrite existsb_exists. change allowed_lens with [16; 20; 24; 28; 32]. unfold allowed. split.
  - intros (x & I & E). apply Z.eqb_eq in E. now subst.
  - intros I. exists (Zlen e). split; [exact I|apply Z.eqb_refl].
Qed.
Lemma phrase_ws lang e : octets e -> allowed e -> exists ws, from_entropy sha lang e = Ok (join (delimiter lang) ws) /\
  look_up (words lang) (chunks (List.length (all_bits e)) 11 (all_bits e)) = Ok ws /\
  Zlen ws = 3 * Zlen e / 4 /\
  forall i, 0 <= i < Zlen ws -> exists w, nth_error ws (Z.to_nat i) = Some w /\
    nth_error (words lang) (Z.to_nat (group_of (sum_of e) (Zlen ws) i)) = Some w.
Proof.
  intros O A. destruct (allowed_quarter e A) as (q & Q & L & D). destruct (word_facts lang) as (WL & _ & _).
  pose proof (all_length e q L D ltac:(lia)) as AL. pose proof (all_value e q O D ltac:(lia)) as AV.
  destruct (chunks_nth (3 * q) (List.length (all_bits e)) (all_bits e) AL ltac:(lia)) as [CL CN].
  destruct (look_up_ok (words lang) (chunks (List.length (all_bits e)) 11 (all_bits e))) as (ws & W & WLn & WN).
  { apply Forall_forall. intros c I. apply In_nth_error in I as [i I].
    assert (i < 3 * q)%nat by (rewrite <- CL; apply nth_error_Some; congruence). rewrite CN in I by assumption.
    assert (c = firstn 11 (skipn (11 * i) (all_bits e))) by congruence. subst c.
    rewrite WL. pose proof (load_bound (firstn 11 (skipn (11 * i) (all_bits e)))) as B. unfold Zlen in B.
    rewrite firstn_length, skipn_length, AL in B. replace (Nat.min 11 (11 * (3 * q) - 11 * i)) with 11%nat in B by lia.
    change (2 ^ Z.of_nat 11) with 2048 in B. change 2048%nat with (Z.to_nat 2048). apply Z2Nat.inj_lt; lia. }
  exists ws. split.
  { unfold from_entropy. rewrite (proj2 (lens_allowed e) A). destruct (Hsha e) as [_ LS].
    replace (Z.to_nat (Zlen e / 4) <=? List.length (bits_of (sha e)))%nat with true
      by (symmetry; apply Nat.leb_le; rewrite bits_length, LS, D, Nat2Z.id; lia).
    fold (all_bits e). cbv zeta. rewrite W. reflexivity. }
  split; [exact W|]. assert (ZL : Zlen ws = 3 * Z.of_nat q) by (unfold Zlen; rewrite WLn, CL; lia).
  split; [rewrite ZL; unfold Zlen; rewrite L; replace (3 * Z.of_nat (4 * q)) with ((3 * Z.of_nat q) * 4) by lia; now rewrite Z.div_mul|].
  intros i I. destruct (WN (Z.to_nat i) _ (CN (Z.to_nat i) ltac:(lia))) as (w & E1 & E2). exists w. split; [exact E1|].
  rewrite (group_value (3 * q)) in E2 by (first [exact AL|lia]). rewrite AV in E2. unfold group_of. rewrite ZL.
  replace (Z.of_nat (3 * q)) with (3 * Z.of_nat q) in E2 by lia. rewrite Z2Nat.id in E2 by lia. exact E2.
Qed.
(** The phrase: the words whose numbers are the groups of eleven bits of the
    entropy and its checksum. *)
Theorem c114_exact : forall lang e, octets e -> allowed e -> exists ws,
  from_entropy sha lang e = Ok (join (delimiter lang) ws) /\ Zlen ws = 3 * Zlen e / 4 /\
  forall i, 0 <= i < Zlen ws -> exists w, nth_error ws (Z.to_nat i) = Some w /\
    nth_error (words lang) (Z.to_nat (group_of (sum_of e) (Zlen ws) i)) = Some w.
Proof. intros lang e O A. destruct (phrase_ws lang e O A) as (ws & E & _ & R). exists ws. auto. Qed.
(** Entropy of any other length is refused; there is no panic. *)
Theorem c114_refused : forall lang e, ~ allowed e -> exists m, from_entropy sha lang e = Err m.
Proof.
  intros lang e N. unfold from_entropy. destruct (existsb _ _) eqn:E; [|eauto]. apply lens_allowed in E. contradiction.
Qed.
(** A generated phrase has three words for every 32 bits asked for. *)
Theorem c114_generate : forall random lang strength, (forall n, 0 <= n -> octets (random n) /\ Zlen (random n) = n) ->
  (In strength [128; 160; 192; 224; 256] -> exists ws, generate sha random lang strength = Ok (join (delimiter lang) ws) /\
    Zlen ws = 3 * strength / 32 /\ Forall (fun w => In w (words lang)) ws) /\
  (~ In strength [128; 160; 192; 224; 256] -> exists m, generate sha random lang strength = Err m).
Proof.
  intros random lang s R. unfold generate. change allowed_strengths with [128; 160; 192; 224; 256]. split; intros I.
  - replace (existsb (Z.eqb s) [128; 160; 192; 224; 256]) with true
      by (symmetry; apply existsb_exists; exists s; split; [exact I|apply Z.eqb_refl]).
    assert (S : s / 8 = 16 \/ s / 8 = 20 \/ s / 8 = 24 \/ s / 8 = 28 \/ s / 8 = 32).
    { cbn [In] in I. destruct I as [I|[I|[I|[I|[I|[]]]]]]; subst s; cbn; auto 6. }
    destruct (R (s / 8)) as [O L]; [lia|].
    destruct (c114_exact lang (random (s / 8)) O) as (ws & E & W & N); [unfold allowed; rewrite L; cbn [In]; intuition|].
    exists ws. split; [exact E|]. split.
    + rewrite W, L. cbn [In] in I. destruct I as [I|[I|[I|[I|[I|[]]]]]]; subst s; reflexivity.
    + apply Forall_forall. intros w J. apply In_nth_error in J as [i J].
      assert (i < List.length ws)%nat by (apply nth_error_Some; congruence).
      destruct (N (Z.of_nat i)) as (w' & A & B); [unfold Zlen; lia|]. rewrite Nat2Z.id in A. rewrite J in A. injection A as <-.
      eapply nth_error_In; eauto.
  - destruct (existsb _ _) eqn:E; [|eauto]. apply existsb_exists in E as (x & J & X). apply Z.eqb_eq in X. subst x. contradiction.
Qed.
End Props.

(** ** The entropy can be read off the phrase *)
Lemma look_up_inj ws : distinct ws = true -> forall l m r, Forall (fun c => List.length c = 11%nat) l -> Forall (fun c => List.length c = 11%nat) m ->
  look_up ws l = Ok r -> look_up ws m = Ok r -> l = m.
Proof.
  intros D. induction l as [|c l IH]; intros m r A B E F.
  - cbn [look_up] in E. injection E as <-. destruct m as [|d m]; [reflexivity|]. cbn [look_up] in F.
    destruct (word_at ws (load_be d)); try discriminate F. cbn [bind] in F. destruct (look_up ws m); discriminate F.
  - cbn [look_up] in E. unfold word_at in E. destruct (nth_error ws (Z.to_nat (load_be c))) as [w|] eqn:W; [|discriminate E]. cbn [bind] in E.
    destruct (look_up ws l) as [rl| |] eqn:Rl; try discriminate E. cbn [bind] in E. injection E as <-.
    destruct m as [|d m]; [discriminate F|]. cbn [look_up] in F. unfold word_at in F.
    destruct (nth_error ws (Z.to_nat (load_be d))) as [w'|] eqn:W'; [|discriminate F]. cbn [bind] in F.
    destruct (look_up ws m) as [rm| |] eqn:Rm; try discriminate F. cbn [bind] in F. injection F as -> ->.
    inversion A as [|? ? Lc A']; inversion B as [|? ? Ld B']; subst.
    pose proof (distinct_nth _ _ _ _ D W W') as Q. f_equal; [|eapply IH; eauto].
    pose proof (load_bound c) as Bc. pose proof (load_bound d) as Bd.
    assert (V : load_be c = load_be d) by lia. clear - V Lc Ld.
    assert (K : forall n (c d : list bool), List.length c = n -> List.length d = n -> load_be c = load_be d -> c = d).
    { induction n as [|n IHn]; intros x y X Y E; [destruct x, y; try discriminate; reflexivity|].
      destruct x as [|p x], y as [|q y]; try discriminate. injection X as X. injection Y as Y.
      change (p :: x) with ([p] ++ x) in E. change (q :: y) with ([q] ++ y) in E. rewrite !load_app in E.
      pose proof (load_bound x) as Bx. pose proof (load_bound y) as By. unfold Zlen in *. rewrite X, Y in *.
      assert (0 < 2 ^ Z.of_nat n) by (apply Z.pow_pos_nonneg; lia).
      destruct p, q; try (change (load_be [true]) with 1 in E); try (change (load_be [false]) with 0 in E);
        try (f_equal; apply IHn; auto; lia); exfalso; lia. }
    now apply (K 11%nat).
Qed.
Lemma chunks_inj : forall k fuel l m fuel', List.length l = (11 * k)%nat -> List.length m = (11 * k)%nat -> (List.length l <= fuel)%nat ->
  (List.length m <= fuel')%nat -> chunks fuel 11 l = chunks fuel' 11 m -> l = m.
Proof.
  induction k as [|k IH]; intros fuel l m fuel' A B C D E; [destruct l, m; try (cbn in A, B; lia); reflexivity|].
  destruct fuel as [|f]; [lia|]. destruct fuel' as [|f']; [lia|].
  assert (X : forall f l, (11 <= List.length l)%nat -> chunks (S f) 11 l = firstn 11 l :: chunks f 11 (skipn 11 l))
    by (intros g x G; destruct x; [cbn in G; lia|reflexivity]).
  rewrite !X in E by lia. injection E as E1 E2. rewrite <- (firstn_skipn 11 l), <- (firstn_skipn 11 m). f_equal; [exact E1|].
  apply (IH f _ _ f'); auto; rewrite skipn_length; lia.
Qed.
Lemma delimiter_there lang : delimiter lang <> [].
Proof. destruct lang; intros E; discriminate E. Qed.
Theorem c114_injective : forall sha sha' lang e e' p, hash32 sha -> hash32 sha' -> octets e -> octets e' ->
  from_entropy sha lang e = Ok p -> from_entropy sha' lang e' = Ok p -> e = e'.
Proof.
  intros sha sha' lang e e' p H H' O O' E E'.
  assert (A : allowed e). { apply lens_allowed. unfold from_entropy in E. destruct (existsb _ _); [reflexivity|discriminate]. }
  assert (A' : allowed e'). { apply lens_allowed. unfold from_entropy in E'. destruct (existsb _ _); [reflexivity|discriminate]. }
  destruct (phrase_ws sha H lang e O A) as (ws & P & L & Z1 & N). destruct (phrase_ws sha' H' lang e' O' A') as (ws' & P' & L' & Z1' & N').
  rewrite P in E. rewrite P' in E'. injection E as <-. injection E' as Q. destruct (word_facts lang) as (WL & D & F).
  assert (CW : forall vs e, (forall i, 0 <= i < Zlen vs -> exists w, nth_error vs (Z.to_nat i) = Some w /\ nth_error (words lang) (Z.to_nat (e i)) = Some w) ->
    Forall (fun w => clean (delimiter lang) w = true) vs).
  { intros vs g G. apply Forall_forall. intros w I. apply In_nth_error in I as [i I].
    assert (i < List.length vs)%nat by (apply nth_error_Some; congruence). destruct (G (Z.of_nat i)) as (w' & X & Y); [unfold Zlen; lia|].
    rewrite Nat2Z.id, I in X. injection X as <-. rewrite Forall_forall in F. apply F. eapply nth_error_In; eauto. }
  destruct (allowed_quarter e A) as (q & Qb & Lq & Dq). destruct (allowed_quarter e' A') as (q' & Qb' & Lq' & Dq').
  assert (ws' = ws).
  { apply (join_inj (delimiter lang) (delimiter_there lang)).
    - exact (CW ws' _ N').
    - exact (CW ws _ N).
    - intros ->. unfold Zlen in Z1'. rewrite Lq' in Z1'. change (Z.of_nat (List.length (@nil bytes))) with 0 in Z1'.
      replace (3 * Z.of_nat (4 * q')) with ((3 * Z.of_nat q') * 4) in Z1' by lia. rewrite Z.div_mul in Z1'; lia.
    - intros ->. unfold Zlen in Z1. rewrite Lq in Z1. change (Z.of_nat (List.length (@nil bytes))) with 0 in Z1.
      replace (3 * Z.of_nat (4 * q)) with ((3 * Z.of_nat q) * 4) in Z1 by lia. rewrite Z.div_mul in Z1; lia.
    - exact Q. }
  subst ws'. assert (q' = q).
  { rewrite Z1 in Z1'. unfold Zlen in Z1'. rewrite Lq, Lq' in Z1'.
    replace (3 * Z.of_nat (4 * q)) with ((3 * Z.of_nat q) * 4) in Z1' by lia.
    replace (3 * Z.of_nat (4 * q')) with ((3 * Z.of_nat q') * 4) in Z1' by lia. rewrite !Z.div_mul in Z1' by lia. lia. }
  subst q'. pose proof (all_length sha H e q Lq Dq ltac:(lia)) as AL. pose proof (all_length sha' H' e' q Lq' Dq' ltac:(lia)) as AL'.
  assert (CL : forall x, List.length x = (11 * (3 * q))%nat -> Forall (fun c => List.length c = 11%nat) (chunks (List.length x) 11 x)).
  { intros x X. destruct (chunks_nth (3 * q) (List.length x) x X ltac:(lia)) as [C1 C2]. apply Forall_forall. intros c I.
    apply In_nth_error in I as [i I]. assert (i < 3 * q)%nat by (rewrite <- C1; apply nth_error_Some; congruence).
    rewrite C2 in I by assumption. assert (c = firstn 11 (skipn (11 * i) x)) by congruence. subst c. rewrite firstn_length, skipn_length, X. lia. }
  assert (EB : all_bits sha e = all_bits sha' e').
  { apply (chunks_inj (3 * q) (List.length (all_bits sha e)) _ _ (List.length (all_bits sha' e')) AL AL' (Nat.le_refl _) (Nat.le_refl _)).
    exact (look_up_inj _ D _ _ _ (CL _ AL) (CL _ AL') L L'). }
  unfold all_bits in EB. apply bits_inj; [exact O|exact O'|].
  pose proof (f_equal (firstn (8 * (4 * q))) EB) as X. rewrite !firstn_app in X. rewrite !bits_length, Lq, Lq' in X.
  rewrite Nat.sub_diag in X. cbn [firstn] in X. rewrite !app_nil_r in X.
  rewrite !firstn_all2 in X by (rewrite bits_length; lia). exact X.
Qed.

(** ** French *)
(** The first word of the French list begins with a byte order mark, which a user
    who writes the phrase down does not see. *)
Theorem c114_french_refuted : forall sha, hash32 sha -> exists e rest, octets e /\
  from_entropy sha French e = Ok (bom ++ octets_of "abaisser" ++ [32] ++ rest).
Proof.
  intros sha H. exists (repeat 0 16).
  assert (O : octets (repeat 0 16)) by (cbn; repeat (apply Forall_cons; [lia|]); apply Forall_nil).
  destruct (c114_exact sha H French (repeat 0 16) O) as (ws & E & L & N); [cbn; auto|].
  change (Zlen (repeat 0 16)) with 16 in L. change (3 * 16 / 4) with 12 in L.
  destruct (N 0) as (w & A & B); [lia|]. rewrite L in B.
  assert (G : group_of (sum_of sha (repeat 0 16)) 12 0 = 0).
  { unfold group_of, sum_of. change (number_of (repeat 0 16)) with 0. change (Zlen (repeat 0 16) / 4) with 4.
    destruct (H (repeat 0 16)) as [OS LS]. pose proof (load_bound (bits_of (sha (repeat 0 16)))) as Bd.
    rewrite load_bits in Bd by exact OS. unfold Zlen in Bd. rewrite bits_length, LS in Bd.
    assert (V : 0 <= number_of (sha (repeat 0 16)) / 2 ^ (256 - 4) < 16).
    { split; [apply Z.div_pos; [lia|reflexivity]|]. apply Z.div_lt_upper_bound; [reflexivity|]. apply Bd. }
    rewrite Z.mul_0_l, Z.add_0_l. rewrite (Z.div_small (number_of _ / _)); [reflexivity|].
    split; [apply V|]. eapply Z.lt_trans; [apply V|reflexivity]. }
  rewrite G in B. change (Z.to_nat 0) with 0%nat in A, B.
  pose proof (checks_pass French) as C. unfold word_checks, check in C. apply andb_true_iff in C as [_ C].
  destruct (words French) as [|x l]; [discriminate C|]. injection B as ->. apply andb_true_iff in C as [C C2]. apply andb_true_iff in C as [_ C1].
  apply Nat.eqb_eq in C2.
  assert (W : w = bom ++ octets_of "abaisser").
  { assert (X : forall a b : bytes, starts a b = true -> List.length b = List.length a -> b = a).
    { induction a as [|u a IH]; intros [|v b] S Ln; try discriminate; [reflexivity|]. cbn [starts] in S. apply andb_true_iff in S as [S1 S2].
      apply Z.eqb_eq in S1. subst v. f_equal. apply IH; [exact S2|]. now injection Ln. }
    apply X; [exact C1|exact C2]. }
  destruct ws as [|w0 [|w1 ws]]; [discriminate A|unfold Zlen in L; cbn in L; lia|]. injection A as ->.
  exists (join (delimiter French) (w1 :: ws)). split; [exact O|]. rewrite E, W.
  change (join (delimiter French) ((bom ++ octets_of "abaisser") :: w1 :: ws))
    with ((bom ++ octets_of "abaisser") ++ [32] ++ join (delimiter French) (w1 :: ws)). now rewrite <- app_assoc.
Qed.

(** ** Names of languages *)
Theorem c114_language : forall l s, read_language s = Ok l <-> s = show_language l.
Proof.
  intros l s. split.
  - unfold read_language. repeat match goal with |- context [(s =? ?x)%string] => destruct (String.eqb_spec s x); [subst s; intros E; injection E as <-; reflexivity|] end.
    discriminate.
  - intros ->. destruct l; reflexivity.
Qed.

(** The hypotheses hold of a hash with 32 bytes and of every entropy of 16.  With the
    first byte of SHA-256 of 16 zeroes this is the first test vector of BIP-39. *)
Example c114_hyps_met : hash32 (fun _ => 55 :: repeat 0 31) /\ octets (repeat 200 16) /\ allowed (repeat 200 16) /\
  from_entropy (fun _ => 55 :: repeat 0 31) English (repeat 0 16) =
    Ok (octets_of "abandon abandon abandon abandon abandon abandon abandon abandon abandon abandon abandon about").
Proof.
  split; [intros e; split; [cbn; repeat (apply Forall_cons; [lia|]); apply Forall_nil|reflexivity]|].
  split; [cbn; repeat (apply Forall_cons; [lia|]); apply Forall_nil|]. split; [cbn; auto|]. vm_compute. reflexivity.
Qed.

Print Assumptions c114_words.
Print Assumptions c114_letters_partial.
Print Assumptions c114_exact.
Print Assumptions c114_refused.
Print Assumptions c114_generate.
Print Assumptions c114_injective.
Print Assumptions c114_french_refuted.
Print Assumptions c114_language.
