(** Proofs about batch (multi-leaf) Merkle proofs. *)
From Coq Require Import Sorted Permutation.
From Verif Require Import Base VlqModel VlqProofs MerkleModel MerkleSpec MerkleProofs.
Local Open Scope nat_scope.

(** ** Strictly increasing lists *)

Notation SS := (StronglySorted lt).

Lemma set_insert_in : forall x l y, In y (set_insert x l) <-> y = x \/ In y l.
Proof.
  induction l as [|a l IH]; intros y; simpl; [intuition|].
  destruct (x <? a) eqn:E; [simpl; intuition|].
  destruct (x =? a) eqn:F.
  - apply Nat.eqb_eq in F. subst. simpl. intuition.
  - simpl. rewrite IH. intuition.
Qed.

Lemma set_insert_ss : forall x l, SS l -> SS (set_insert x l).
Proof.
  induction l as [|a l IH]; intros Hs; simpl.
  - constructor; constructor.
  - inversion Hs as [|? ? Hs' Hf]; subst.
    destruct (x <? a) eqn:E.
    + apply Nat.ltb_lt in E. constructor; auto. constructor; auto.
      eapply Forall_impl; [|exact Hf]. intros; lia.
    + apply Nat.ltb_ge in E. destruct (x =? a) eqn:F.
      * exact Hs.
      * apply Nat.eqb_neq in F. constructor; auto.
        apply Forall_forall. intros y Hy. apply set_insert_in in Hy. destruct Hy as [->|Hy]; [lia|].
        rewrite Forall_forall in Hf. auto.
Qed.

Lemma set_fold : forall l acc, SS acc ->
  SS (fold_left (fun s x => set_insert x s) l acc) /\
  forall y, In y (fold_left (fun s x => set_insert x s) l acc) <-> In y l \/ In y acc.
Proof.
  induction l as [|a l IH]; intros acc Hs; simpl.
  - split; auto. intuition.
  - destruct (IH (set_insert a acc) (set_insert_ss _ _ Hs)) as [H1 H2]. split; auto.
    intros y. rewrite H2, set_insert_in. intuition.
Qed.

Lemma set_of_ss : forall l, SS (set_of l).
Proof. intros. apply set_fold. constructor. Qed.

Lemma set_of_in : forall l y, In y (set_of l) <-> In y l.
Proof.
  intros. unfold set_of. destruct (set_fold l [] (SSorted_nil _)) as [_ E]. rewrite E. simpl. intuition.
Qed.

Lemma ss_unique : forall l l', SS l -> SS l' -> (forall x, In x l <-> In x l') -> l = l'.
Proof.
  induction l as [|a l IH]; intros [|b l'] Hs Hs' Hi.
  - reflexivity.
  - exfalso. apply (Hi b). left. reflexivity.
  - exfalso. apply (Hi a). left. reflexivity.
  - inversion Hs as [|? ? S1 F1]; subst. inversion Hs' as [|? ? S2 F2]; subst.
    rewrite Forall_forall in F1, F2.
    assert (a = b) as ->.
    { destruct (proj1 (Hi a) (or_introl eq_refl)) as [E|E]; auto.
      destruct (proj2 (Hi b) (or_introl eq_refl)) as [E'|E']; auto.
      specialize (F1 _ E'). specialize (F2 _ E). lia. }
    f_equal. apply IH; auto. intros x. split; intros Hx.
    + destruct (proj1 (Hi x) (or_intror Hx)) as [<-|E]; auto.
      specialize (F1 _ Hx). lia.
    + destruct (proj2 (Hi x) (or_intror Hx)) as [<-|E]; auto.
      specialize (F2 _ Hx). lia.
Qed.

Lemma ss_map_add : forall k l, SS l -> SS (map (fun q => k + q) l).
Proof.
  induction l as [|a l IH]; intros Hs; simpl; [constructor|].
  inversion Hs as [|? ? S1 F1]; subst. constructor; auto.
  apply Forall_map. eapply Forall_impl; [|exact F1]. intros; simpl; lia.
Qed.

Lemma ss_filter : forall f l, SS l -> SS (filter f l).
Proof.
  induction l as [|a l IH]; intros Hs; simpl; [constructor|].
  inversion Hs as [|? ? S1 F1]; subst. destruct (f a); auto. constructor; auto.
  apply Forall_forall. intros x Hx. apply filter_In in Hx. rewrite Forall_forall in F1. apply F1. tauto.
Qed.

Lemma mem_spec : forall x l, mem x l = true <-> In x l.
Proof.
  intros. unfold mem. rewrite existsb_exists. split.
  - intros [y [Hy E]]. apply Nat.eqb_eq in E. congruence.
  - intros Hx. exists x. split; auto. apply Nat.eqb_refl.
Qed.

(** ** Positions on a level *)

Definition sib (q : nat) : nat := if Nat.even q then q + 1 else q - 1.

Lemma sib_cases : forall q, (exists k, q = 2 * k /\ sib q = 2 * k + 1) \/
                            (exists k, q = 2 * k + 1 /\ sib q = 2 * k).
Proof.
  intros q. unfold sib. destruct (Nat.even q) eqn:E.
  - apply Nat.even_spec in E. destruct E as [k ->]. left. exists k. lia.
  - rewrite <- Nat.negb_odd in E. apply negb_false_iff, Nat.odd_spec in E. destruct E as [k ->].
    right. exists k. lia.
Qed.

Lemma sib_half : forall q, sib q / 2 = q / 2.
Proof. intros q. destruct (sib_cases q) as [[k [-> ->]]|[k [-> ->]]]; lia. Qed.

Lemma sib_sib : forall q, sib (sib q) = q.
Proof.
  intros q. destruct (sib_cases q) as [[k [E1 E2]]|[k [E1 E2]]];
  destruct (sib_cases (sib q)) as [[k' [E3 E4]]|[k' [E3 E4]]]; lia.
Qed.

Lemma neighbours_spec : forall q, neighbours q = (2 * (q / 2), 2 * (q / 2) + 1).
Proof.
  intros q. unfold neighbours. destruct (Nat.even q) eqn:E.
  - apply Nat.even_spec in E. destruct E as [k ->]. f_equal; lia.
  - rewrite <- Nat.negb_odd in E. apply negb_false_iff, Nat.odd_spec in E. destruct E as [k ->].
    f_equal; lia.
Qed.

Lemma pair_eqb_spec : forall q q', pair_eqb (neighbours q) (neighbours q') = (q / 2 =? q' / 2).
Proof.
  intros. rewrite !neighbours_spec. unfold pair_eqb. cbn [fst snd].
  destruct (q / 2 =? q' / 2) eqn:E.
  - apply Nat.eqb_eq in E. rewrite E, !Nat.eqb_refl. reflexivity.
  - apply Nat.eqb_neq in E. apply andb_false_iff. left. apply Nat.eqb_neq. lia.
Qed.

(** Parents of, and siblings missing from, an increasing list of positions. *)
Fixpoint pars (A : list nat) : list nat :=
  match A with
  | [] => []
  | q :: rest =>
      q / 2 :: match rest with
               | [] => []
               | q' :: rest' => if q / 2 =? q' / 2 then pars rest' else pars rest
               end
  end.

Fixpoint missing (A : list nat) : list nat :=
  match A with
  | [] => []
  | q :: rest =>
      match rest with
      | [] => [sib q]
      | q' :: rest' => if q / 2 =? q' / 2 then missing rest' else sib q :: missing rest
      end
  end.

Lemma list_ind2 : forall (P : list nat -> Prop),
  P [] -> (forall q, P [q]) ->
  (forall q q' rest, P rest -> P (q' :: rest) -> P (q :: q' :: rest)) ->
  forall l, P l.
Proof.
  intros P H0 H1 H2. assert (G : forall l, P l /\ forall q, P (q :: l)).
  { induction l as [|a l [IH1 IH2]]; split; auto. }
  intros l. apply G.
Qed.

Lemma ss_tail : forall a l, SS (a :: l) -> SS l.
Proof. intros a l Hs. inversion Hs; auto. Qed.

Lemma ss_lt : forall a l x, SS (a :: l) -> In x l -> a < x.
Proof. intros a l x Hs Hx. inversion Hs as [|? ? _ F]; subst. rewrite Forall_forall in F. auto. Qed.

Lemma pars_in : forall A x, In x (pars A) <-> exists q, In q A /\ q / 2 = x.
Proof.
  induction A as [|q|q q' rest IH1 IH2] using list_ind2; intros x.
  - simpl. split; [tauto|]. intros [? [[] _]].
  - simpl. split.
    + intros [E|[]]. exists q. auto.
    + intros [q0 [[<-|[]] E]]. auto.
  - change (pars (q :: q' :: rest)) with
      (q / 2 :: if q / 2 =? q' / 2 then pars rest else pars (q' :: rest)).
    destruct (q / 2 =? q' / 2) eqn:E.
    + apply Nat.eqb_eq in E. cbn [In]. rewrite IH1. split.
      * intros [<-|[q0 [Hq Hx]]]; [exists q; auto|exists q0; auto].
      * intros [q0 [[<-|[<-|Hq]] Hx]]; [auto|left; congruence|right; eauto].
    + cbn [In]. rewrite IH2. split.
      * intros [<-|[q0 [Hq Hx]]]; [exists q; simpl; auto|exists q0; simpl; auto].
      * intros [q0 [[<-|Hq] Hx]]; [auto|right; eauto].
Qed.

Lemma pars_ss : forall A, SS A -> SS (pars A).
Proof.
  induction A as [|q|q q' rest IH1 IH2] using list_ind2; intros Hs.
  - constructor.
  - constructor; constructor.
  - change (pars (q :: q' :: rest)) with
      (q / 2 :: if q / 2 =? q' / 2 then pars rest else pars (q' :: rest)).
    pose proof (ss_tail _ _ Hs) as Hs1. pose proof (ss_tail _ _ Hs1) as Hs2.
    pose proof (ss_lt q (q' :: rest) q' Hs (or_introl eq_refl)) as Hlt.
    destruct (q / 2 =? q' / 2) eqn:E.
    + apply Nat.eqb_eq in E. constructor; auto. apply Forall_forall. intros x Hx.
      apply pars_in in Hx. destruct Hx as [q0 [Hq <-]].
      pose proof (ss_lt q' rest q0 Hs1 Hq). lia.
    + apply Nat.eqb_neq in E. constructor; auto. apply Forall_forall. intros x Hx.
      apply pars_in in Hx. destruct Hx as [q0 [Hq <-]].
      assert (q' <= q0) by (destruct Hq as [->|Hq]; [lia|pose proof (ss_lt q' rest q0 Hs1 Hq); lia]). lia.
Qed.

Lemma missing_in : forall A, SS A ->
  forall x, In x (missing A) <-> exists q, In q A /\ x = sib q /\ ~ In x A.
Proof.
  induction A as [|q|q q' rest IH1 IH2] using list_ind2; intros Hs x.
  - simpl. split; [tauto|]. intros [? [[] _]].
  - simpl. split.
    + intros [E|[]]. exists q. split; auto. split; auto. intros [E'|[]].
      destruct (sib_cases q) as [[k ?]|[k ?]]; lia.
    + intros [q0 [[<-|[]] [E _]]]. auto.
  - change (missing (q :: q' :: rest)) with
      (if q / 2 =? q' / 2 then missing rest else sib q :: missing (q' :: rest)).
    pose proof (ss_tail _ _ Hs) as Hs1. pose proof (ss_tail _ _ Hs1) as Hs2.
    pose proof (ss_lt q (q' :: rest) q' Hs (or_introl eq_refl)) as Hlt.
    destruct (q / 2 =? q' / 2) eqn:E.
    + apply Nat.eqb_eq in E. rewrite (IH1 Hs2). split.
      * intros [q0 [Hq [Hx Hn]]]. exists q0. split; [simpl; auto|]. split; auto.
        pose proof (ss_lt q' rest q0 Hs1 Hq). pose proof (sib_half q0).
        intros [<-|[<-|Hin]]; [|  |auto]; lia.
      * intros [q0 [[<-|[<-|Hq]] [Hx Hn]]].
        -- exfalso. apply Hn. right. left.
           destruct (sib_cases q) as [[k ?]|[k ?]]; lia.
        -- exfalso. apply Hn. left.
           destruct (sib_cases q') as [[k ?]|[k ?]]; lia.
        -- exists q0. split; auto. split; auto. intros Hi. apply Hn. simpl. auto.
    + apply Nat.eqb_neq in E. cbn [In]. rewrite (IH2 Hs1).
      assert (Hge : forall y, In y (q' :: rest) -> q' <= y).
      { intros y [->|Hy]; [lia|]. pose proof (ss_lt q' rest y Hs1 Hy). lia. }
      split.
      * intros [<-|[q0 [Hq [Hx Hn]]]].
        -- exists q. split; [auto|]. split; auto. intros [Eq|Hi].
           ++ destruct (sib_cases q) as [[k ?]|[k ?]]; lia.
           ++ specialize (Hge _ Hi). pose proof (sib_half q). lia.
        -- exists q0. split; [auto|]. split; auto. intros [Eq|Hi]; [|auto].
           specialize (Hge _ Hq). pose proof (sib_half q0). lia.
      * intros [q0 [[<-|Hq] [Hx Hn]]]; [auto|].
        right. exists q0. split; auto.
Qed.

Lemma missing_half : forall A x, In x (missing A) -> exists q, In q A /\ x = sib q.
Proof.
  induction A as [|q|q q' rest IH1 IH2] using list_ind2; intros x Hx.
  - destruct Hx.
  - destruct Hx as [<-|[]]. exists q. simpl; auto.
  - change (missing (q :: q' :: rest)) with
      (if q / 2 =? q' / 2 then missing rest else sib q :: missing (q' :: rest)) in Hx.
    destruct (q / 2 =? q' / 2).
    + destruct (IH1 x Hx) as [q0 [? ?]]. exists q0. simpl. auto.
    + destruct Hx as [<-|Hx]; [exists q; simpl; auto|].
      destruct (IH2 x Hx) as [q0 [? ?]]. exists q0. simpl in *. tauto.
Qed.

Lemma missing_ss : forall A, SS A -> SS (missing A).
Proof.
  induction A as [|q|q q' rest IH1 IH2] using list_ind2; intros Hs.
  - constructor.
  - constructor; constructor.
  - change (missing (q :: q' :: rest)) with
      (if q / 2 =? q' / 2 then missing rest else sib q :: missing (q' :: rest)).
    pose proof (ss_tail _ _ Hs) as Hs1. pose proof (ss_tail _ _ Hs1) as Hs2.
    pose proof (ss_lt q (q' :: rest) q' Hs (or_introl eq_refl)) as Hlt.
    destruct (q / 2 =? q' / 2) eqn:E; auto. apply Nat.eqb_neq in E.
    constructor; auto. apply Forall_forall. intros x Hx.
    apply missing_half in Hx. destruct Hx as [q0 [Hq ->]].
    assert (q' <= q0) by (destruct Hq as [->|Hq]; [lia|pose proof (ss_lt q' rest q0 Hs1 Hq); lia]).
    pose proof (sib_half q). pose proof (sib_half q0). lia.
Qed.

Lemma pars_missing_length : forall A, length A + length (missing A) = 2 * length (pars A).
Proof.
  induction A as [|q|q q' rest IH1 IH2] using list_ind2; try reflexivity.
  change (missing (q :: q' :: rest)) with
      (if q / 2 =? q' / 2 then missing rest else sib q :: missing (q' :: rest)).
  change (pars (q :: q' :: rest)) with
      (q / 2 :: if q / 2 =? q' / 2 then pars rest else pars (q' :: rest)).
  destruct (q / 2 =? q' / 2); cbn [length] in *; lia.
Qed.

(** ** From positions to heap indices *)

Lemma heap_sibling : forall l q, 1 <= l -> get_sibling (2 ^ l - 1 + q) = Some (2 ^ l - 1 + sib q).
Proof.
  intros l q Hl. destruct l as [|l]; [lia|]. rewrite Nat.pow_succ_r'. pose proof (pow2_pos l).
  destruct (sib_cases q) as [[k [-> ->]]|[k [-> ->]]].
  - replace (2 * 2 ^ l - 1 + 2 * k) with (2 * (2 ^ l - 1 + k) + 1) by lia.
    rewrite get_sibling_odd. f_equal. lia.
  - replace (2 * 2 ^ l - 1 + (2 * k + 1)) with (2 * (2 ^ l - 1 + k) + 2) by lia.
    rewrite get_sibling_even. f_equal. lia.
Qed.

Lemma heap_parent : forall l q, get_parent (2 ^ S l - 1 + q) = Some (2 ^ l - 1 + q / 2).
Proof.
  intros l q. rewrite Nat.pow_succ_r'. pose proof (pow2_pos l).
  destruct (sib_cases q) as [[k [-> _]]|[k [-> _]]].
  - replace (2 * 2 ^ l - 1 + 2 * k) with (2 * (2 ^ l - 1 + k) + 1) by lia.
    rewrite get_parent_odd. f_equal. lia.
  - replace (2 * 2 ^ l - 1 + (2 * k + 1)) with (2 * (2 ^ l - 1 + k) + 2) by lia.
    rewrite get_parent_even. f_equal. lia.
Qed.

Lemma with_siblings_spec : forall l A acc, 1 <= l -> SS acc ->
  exists b, with_siblings (map (fun q => 2 ^ l - 1 + q) A) acc = Some b /\ SS b /\
    forall y, In y b <-> In y acc \/ exists q, In q A /\ (y = 2 ^ l - 1 + q \/ y = 2 ^ l - 1 + sib q).
Proof.
  intros l. induction A as [|q A IH]; intros acc Hl Hs.
  - exists acc. split; [reflexivity|]. split; auto. intros y. split; auto.
    intros [Hy|[q [[] _]]]; auto.
  - cbn [map with_siblings]. rewrite heap_sibling by auto.
    destruct (IH (set_insert (2 ^ l - 1 + sib q) (set_insert (2 ^ l - 1 + q) acc)) Hl
      (set_insert_ss _ _ (set_insert_ss _ _ Hs))) as [b [E [Hb Hi]]].
    exists b. split; auto. split; auto. intros y. rewrite Hi, !set_insert_in. split.
    + intros [[->|[->|Hy]]|[q0 [Hq Hy]]].
      * right. exists q. simpl. auto.
      * right. exists q. simpl. auto.
      * auto.
      * right. exists q0. simpl. auto.
    + intros [Hy|[q0 [[<-|Hq] Hy]]].
      * auto.
      * left. tauto.
      * right. eauto.
Qed.

Lemma diff_spec : forall l A b, 1 <= l -> SS A -> SS b ->
  (forall y, In y b <-> exists q, In q A /\ (y = 2 ^ l - 1 + q \/ y = 2 ^ l - 1 + sib q)) ->
  filter (fun n => negb (mem n (map (fun q => 2 ^ l - 1 + q) A))) b
  = map (fun q => 2 ^ l - 1 + q) (missing A).
Proof.
  intros l A b Hl HA Hb Hi. apply ss_unique.
  - apply ss_filter. exact Hb.
  - apply ss_map_add, missing_ss, HA.
  - intros x. rewrite filter_In, negb_true_iff, Hi, in_map_iff. split.
    + intros [[q [Hq Hx]] Hm].
      assert (Hnm : ~ In x (map (fun q => 2 ^ l - 1 + q) A)).
      { intros Hin. apply mem_spec in Hin. congruence. }
      destruct Hx as [->| ->].
      * exfalso. apply Hnm. apply in_map_iff. exists q. auto.
      * exists (sib q). split; auto. apply missing_in; auto. exists q. split; auto. split; auto.
        intros Hin. apply Hnm. apply in_map_iff. exists (sib q). auto.
    + intros [s [<- Hs]]. apply missing_in in Hs; auto. destruct Hs as [q [Hq [-> Hn]]].
      split; [exists q; auto|].
      destruct (mem _ _) eqn:E; auto. exfalso. apply mem_spec in E. apply in_map_iff in E.
      destruct E as [q0 [E Hq0]]. apply Hn. replace (sib q) with q0 by lia. exact Hq0.
Qed.

Lemma parents_spec : forall l A b, SS A ->
  (forall y, In y b <-> exists q, In q A /\ (y = 2 ^ S l - 1 + q \/ y = 2 ^ S l - 1 + sib q)) ->
  set_of (parents b) = map (fun q => 2 ^ l - 1 + q) (pars A).
Proof.
  intros l A b HA Hi. apply ss_unique.
  - apply set_of_ss.
  - apply ss_map_add, pars_ss, HA.
  - intros x. rewrite set_of_in. unfold parents. rewrite in_flat_map, in_map_iff. split.
    + intros [y [Hy Hx]]. apply Hi in Hy. destruct Hy as [q [Hq [->| ->]]];
      rewrite heap_parent in Hx; destruct Hx as [<-|[]].
      * exists (q / 2). split; auto. apply pars_in. eauto.
      * rewrite sib_half. exists (q / 2). split; auto. apply pars_in. eauto.
    + intros [p [<- Hp]]. apply pars_in in Hp. destruct Hp as [q [Hq <-]].
      exists (2 ^ S l - 1 + q). split; [apply Hi; eauto|]. rewrite heap_parent. left. reflexivity.
Qed.

Lemma a_new_spec : forall A, SS A ->
  set_of (map (fun p : nat * nat => snd p / 2) (map neighbours A)) = pars A.
Proof.
  intros A HA. apply ss_unique; [apply set_of_ss|apply pars_ss, HA|].
  intros x. rewrite set_of_in, map_map, in_map_iff, pars_in.
  split; intros [q Hq]; exists q; rewrite neighbours_spec in *; cbn [snd] in *.
  - destruct Hq as [E Hq]. split; [exact Hq|]. lia.
  - destruct Hq as [Hq E]. split; [lia|exact Hq].
Qed.

Section Complete.
Variable H : bytes -> bytes.
Variable D : nat.
Variable ls : list bytes.
Variable t : mtree.
Hypothesis Hheight : 1 <= D.
Hypothesis Hok : tree_ok H D ls t.
Hypothesis Hfit : length (padded H ls) <= 2 ^ D.

Definition val (l q : nat) : option bytes := nspec H D ls (2 ^ l - 1 + q).

Definition lnode (l s : nat) : level_node :=
  {| ln_hash := val l s; ln_side := if Nat.even s then SLeft else SRight |}.

Lemma level_top : forall l q, l < D -> q < 2 ^ l -> 2 ^ l - 1 + q + 1 < 2 ^ D.
Proof.
  intros l q Hl Hq. pose proof (pow2_pos l).
  assert (2 ^ S l <= 2 ^ D) by (apply Nat.pow_le_mono_r; lia).
  rewrite Nat.pow_succ_r' in H1. lia.
Qed.

Lemma val_parent : forall l k, l < D -> k < 2 ^ l ->
  val l k = comb H (val (S l) (2 * k)) (val (S l) (2 * k + 1)).
Proof.
  intros l k Hl Hk. unfold val. rewrite nspec_step by (apply level_top; auto).
  rewrite Nat.pow_succ_r'. pose proof (pow2_pos l).
  f_equal; f_equal; lia.
Qed.

Lemma val_prefix : forall l k h, l < D -> k < 2 ^ l ->
  val (S l) (2 * k + 1) = Some h -> exists h', val (S l) (2 * k) = Some h'.
Proof.
  intros l k h Hl Hk E. unfold val in *. rewrite Nat.pow_succ_r' in *. pose proof (pow2_pos l).
  destruct (nspec_prefix H D ls (2 ^ l - 1 + k) h) as [h' E'].
  - apply level_top; auto.
  - rewrite <- E. f_equal. lia.
  - exists h'. rewrite <- E'. f_equal. lia.
Qed.

(** A heap index whose sibling subtree is inside the array. *)
Lemma node_present : forall l q h, 1 <= l <= D -> q < 2 ^ l -> val l q = Some h ->
  exists n, nth_error (nodes t) (2 ^ l - 1 + sib q) = Some n /\ get_hash n = val l (sib q).
Proof.
  intros l q h Hl Hq E. destruct Hok as [HI [HL [Hlf Hh]]].
  assert (Hlt : 2 ^ l - 1 + sib q < length (nodes t)).
  { rewrite HL. destruct (Nat.eq_dec l D) as [->|Hne].
    - apply Nat.add_lt_mono_l.
      destruct (nth_error ls q) as [x|] eqn:Ex.
      + assert (q < length ls) by (apply nth_error_Some; congruence).
        assert (q < length (padded H ls)) by (rewrite padded_length; destruct (Nat.odd _); lia).
        destruct (padded_even H ls) as [k Hk].
        destruct (sib_cases q) as [[k' [? ?]]|[k' [? ?]]]; lia.
      + unfold val in E. rewrite nspec_leaf, Ex in E by auto. discriminate.
    - assert (2 ^ S l <= 2 ^ D) by (apply Nat.pow_le_mono_r; lia).
      rewrite Nat.pow_succ_r' in H0.
      assert (sib q < 2 ^ l).
      { destruct l as [|l]; [lia|]. rewrite Nat.pow_succ_r' in *.
        destruct (sib_cases q) as [[k' [? ?]]|[k' [? ?]]]; lia. }
      pose proof (pow2_pos l). lia. }
  destruct (nth_error (nodes t) (2 ^ l - 1 + sib q)) as [n|] eqn:En.
  - exists n. split; auto. apply (Hh _ _ En).
  - apply nth_error_None in En. lia.
Qed.

Lemma diff_node_spec : forall l q h, 1 <= l <= D -> q < 2 ^ l -> val l q = Some h ->
  diff_node (nodes t) (2 ^ l - 1 + sib q) = Ok (lnode l (sib q)).
Proof.
  intros l q h Hl Hq E. destruct (node_present l q h Hl Hq E) as [n [En Hn]].
  unfold diff_node. rewrite heap_sibling by lia. unfold vget. rewrite En. cbn [bind].
  rewrite Hn. unfold lnode. rewrite sib_sib. f_equal. f_equal.
  assert (1 < 2 ^ l) by (apply Nat.pow_gt_1; lia).
  destruct (sib_cases q) as [[k [E1 E2]]|[k [E1 E2]]]; rewrite E1 at 1; rewrite E2.
  - replace (Nat.eqb (2 ^ l - 1 + 2 * k) (2 ^ l - 1 + (2 * k + 1) - 1)) with true by (symmetry; apply Nat.eqb_eq; lia).
    replace (Nat.even (2 * k + 1)) with false by (rewrite Nat.even_add, Nat.even_mul; reflexivity).
    reflexivity.
  - replace (Nat.eqb (2 ^ l - 1 + (2 * k + 1)) (2 ^ l - 1 + 2 * k - 1)) with false by (symmetry; apply Nat.eqb_neq; lia).
    replace (Nat.even (2 * k)) with true by (rewrite Nat.even_mul; reflexivity).
    reflexivity.
Qed.

Definition row_ok (l : nat) (A : list nat) : Prop :=
  SS A /\ A <> [] /\ forall q, In q A -> q < 2 ^ l /\ exists h, val l q = Some h.

Lemma row_parent : forall l A, S l <= D -> row_ok (S l) A -> row_ok l (pars A).
Proof.
  intros l A Hl [HA [Hne Hq]]. split; [apply pars_ss, HA|]. split.
  - destruct A; [congruence|]. simpl. discriminate.
  - intros p Hp. apply pars_in in Hp. destruct Hp as [q [Hin <-]].
    destruct (Hq q Hin) as [Hlt [h Eh]]. rewrite Nat.pow_succ_r' in Hlt.
    assert (Hp : q / 2 < 2 ^ l) by lia. split; auto.
    rewrite val_parent by auto.
    destruct (sib_cases q) as [[k [E1 _]]|[k [E1 _]]].
    + replace (q / 2) with k by lia. rewrite <- E1, Eh. simpl. eauto.
    + replace (q / 2) with k in * by lia. rewrite E1 in Eh.
      destruct (val_prefix l k h ltac:(lia) Hp Eh) as [h' Eh']. rewrite Eh'. simpl. eauto.
Qed.

(** The proof nodes, level by level. *)
Fixpoint mlevels (l : nat) (A : list nat) : list level_node :=
  match l with
  | O => []
  | S l' => map (lnode l) (missing A) ++ mlevels l' (pars A)
  end.

Lemma map_r_map : forall A B C (f : B -> res C) (g : A -> B) (h : A -> C) l,
  (forall x, In x l -> f (g x) = Ok (h x)) -> map_r f (map g l) = Ok (map h l).
Proof.
  induction l as [|a l IH]; intros Hl; simpl; auto.
  rewrite Hl by (left; auto). cbn [bind]. rewrite IH by (intros; apply Hl; right; auto). reflexivity.
Qed.

Lemma multiproof_spec : forall l A fuel, l <= D -> l <= fuel -> row_ok l A ->
  multiproof_loop fuel (nodes t) (map (fun q => 2 ^ l - 1 + q) A) = Ok (Some (mlevels l A)).
Proof.
  induction l as [|l IH]; intros A fuel Hl Hf Hrow.
  - destruct Hrow as [HA [Hne Hq]].
    assert (Hm : mem 0 (map (fun q => 2 ^ 0 - 1 + q) A) = true).
    { apply mem_spec. apply in_map_iff. destruct A as [|a A]; [congruence|].
      exists a. destruct (Hq a (or_introl eq_refl)) as [Ha _]. simpl in Ha.
      split; [|left; auto]. simpl. lia. }
    destruct fuel; cbn [multiproof_loop]; rewrite Hm; reflexivity.
  - destruct fuel as [|fuel]; [lia|]. cbn [multiproof_loop].
    pose proof Hrow as [HA [Hne Hq]].
    assert (Hm : mem 0 (map (fun q => 2 ^ S l - 1 + q) A) = false).
    { destruct (mem _ _) eqn:E; auto. apply mem_spec in E. apply in_map_iff in E.
      destruct E as [q [E _]]. assert (1 < 2 ^ S l) by (apply Nat.pow_gt_1; lia). lia. }
    rewrite Hm.
    destruct (with_siblings_spec (S l) A [] ltac:(lia) (SSorted_nil _)) as [b [Eb [Hb Hi]]].
    rewrite Eb.
    assert (Hi' : forall y, In y b <-> exists q, In q A /\ (y = 2 ^ S l - 1 + q \/ y = 2 ^ S l - 1 + sib q)).
    { intros y. rewrite Hi. simpl. tauto. }
    rewrite (diff_spec (S l) A b ltac:(lia) HA Hb Hi').
    rewrite (parents_spec l A b HA Hi').
    rewrite (map_r_map _ _ _ _ _ (lnode (S l))).
    2: { intros s Hs. apply missing_half in Hs. destruct Hs as [q [Hin ->]].
         destruct (Hq q Hin) as [Hlt [h Eh]]. apply (diff_node_spec (S l) q h); auto. lia. }
    cbn [bind]. rewrite IH; [reflexivity|lia|lia|]. apply row_parent; auto.
Qed.

Definition entry (l q : nat) : bidx :=
  {| bi_index := q; bi_hash := match val l q with Some h => h | None => [] end |}.

Definition hashv (l q : nat) : bytes := match val l q with Some h => h | None => [] end.

Lemma from_head_spec : forall l q h, l < D -> q < 2 ^ S l -> val (S l) q = Some h ->
  from_head H (lnode (S l) (sib q)) h = hashv l (q / 2).
Proof.
  intros l q h Hl Hq Eh. unfold from_head, lnode, hashv. cbn [ln_hash ln_side].
  rewrite Nat.pow_succ_r' in Hq.
  destruct (sib_cases q) as [[k [E1 E2]]|[k [E1 E2]]]; rewrite E2.
  - replace (Nat.even (2 * k + 1)) with false by (rewrite Nat.even_add, Nat.even_mul; reflexivity).
    replace (q / 2) with k by lia. rewrite (val_parent l k) by lia. rewrite <- E1, Eh.
    unfold comb, prefixed_hash2, node_string, INTERNAL_PREFIX, opt_bytes. rewrite E1.
    destruct (val (S l) (2 * k + 1)); reflexivity.
  - replace (Nat.even (2 * k)) with true by (rewrite Nat.even_mul; reflexivity).
    replace (q / 2) with k by lia. rewrite (val_parent l k) by lia. rewrite E1 in Eh.
    destruct (val_prefix l k h Hl ltac:(lia) Eh) as [h' Eh']. rewrite Eh', Eh. reflexivity.
Qed.

Lemma level_pass_spec : forall l A m fuel, l < D -> SS A -> length A < fuel ->
  (forall q, In q A -> q < 2 ^ S l /\ exists h, val (S l) q = Some h) ->
  level_pass H fuel (map neighbours A) (map (entry (S l)) A) (map (lnode (S l)) (missing A) ++ m)
  = Some (map (hashv l) (pars A), m).
Proof.
  intros l A. induction A as [|q|q q' rest IH1 IH2] using list_ind2; intros m fuel Hl HA Hf Hq.
  - destruct fuel; [simpl in Hf; lia|]. reflexivity.
  - destruct fuel; [simpl in Hf; lia|]. cbn [map level_pass missing app pars].
    destruct (Hq q (or_introl eq_refl)) as [Hlt [h Eh]].
    unfold entry. cbn [bi_hash]. rewrite Eh. rewrite (from_head_spec l q h) by auto. reflexivity.
  - destruct fuel as [|fuel]; [simpl in Hf; lia|].
    change (missing (q :: q' :: rest)) with
      (if q / 2 =? q' / 2 then missing rest else sib q :: missing (q' :: rest)).
    change (pars (q :: q' :: rest)) with
      (q / 2 :: if q / 2 =? q' / 2 then pars rest else pars (q' :: rest)).
    pose proof (ss_tail _ _ HA) as HA1. pose proof (ss_tail _ _ HA1) as HA2.
    pose proof (ss_lt q (q' :: rest) q' HA (or_introl eq_refl)) as Hlt.
    destruct (Hq q (or_introl eq_refl)) as [Hq1 [h Eh]].
    destruct (Hq q' (or_intror (or_introl eq_refl))) as [Hq2 [h' Eh']].
    cbn [map level_pass]. rewrite pair_eqb_spec.
    destruct (q / 2 =? q' / 2) eqn:E.
    + apply Nat.eqb_eq in E. rewrite IH1; auto; [|simpl in Hf; lia|intros; apply Hq; right; right; auto].
      do 2 f_equal. cbn [map]. f_equal.
      destruct (sib_cases q) as [[k [E1 _]]|[k [E1 _]]]; [|lia].
      assert (E2 : q' = 2 * k + 1) by lia.
      replace (q / 2) with k by lia. unfold hashv. rewrite Nat.pow_succ_r' in *.
      rewrite (val_parent l k) by lia. rewrite <- E2, <- E1, Eh, Eh'. unfold entry. cbn [bi_hash].
      rewrite Eh, Eh'. reflexivity.
    + cbn [map app]. cbn [map] in IH2.
      rewrite IH2; auto; [|simpl in *; lia|intros; apply Hq; right; auto].
      do 2 f_equal. f_equal. unfold entry. cbn [bi_hash]. rewrite Eh.
      apply from_head_spec; auto.
Qed.

Lemma row_zero : forall A, row_ok 0 A -> A = [0].
Proof.
  intros A [HA [Hne Hq]]. apply ss_unique; auto.
  - constructor; constructor.
  - intros x. split.
    + intros Hx. destruct (Hq x Hx) as [Hx1 _]. simpl in Hx1. left. lia.
    + intros [<-|[]]. destruct A as [|a A]; [congruence|].
      destruct (Hq a (or_introl eq_refl)) as [Ha _]. simpl in Ha. left. lia.
Qed.

Lemma mlevels_nonempty : forall l A, 1 <= l -> length A = 1 -> mlevels l A <> [].
Proof.
  intros [|l] [|q [|q' A]] Hl HA; simpl in *; try lia. discriminate.
Qed.

Lemma combine_map_entry : forall l A,
  map (fun '(i, h) => {| bi_index := i; bi_hash := h |}) (List.combine A (map (hashv l) A))
  = map (entry l) A.
Proof. induction A as [|a A IH]; simpl; auto. f_equal. apply IH. Qed.

Lemma validate_complete : forall l A fuel, 1 <= l -> l <= D -> l <= fuel -> row_ok l A ->
  validate H fuel A (map (entry l) A) (mlevels l A) = Some [hashv 0 0].
Proof.
  induction l as [|l IH]; intros A fuel H1 Hl Hf Hrow; [lia|].
  destruct fuel as [|fuel]; [lia|]. pose proof Hrow as [HA [Hne Hq]].
  cbn [validate]. rewrite !map_length, Nat.eqb_refl. cbn [negb].
  cbn [mlevels]. rewrite level_pass_spec by (auto; lia).
  rewrite (a_new_spec A HA). rewrite map_length.
  pose proof (row_parent l A Hl Hrow) as Hrow'.
  assert (Hp : pars A <> []) by apply Hrow'.
  replace (match pars A with [] => true | _ => false end) with false by (destruct (pars A); congruence).
  destruct l as [|l].
  - rewrite (row_zero _ Hrow'). reflexivity.
  - replace (negb (match mlevels (S l) (pars A) with [] => true | _ => false end) || (1 <? length (pars A)))
      with true.
    + cbn [negb andb]. rewrite combine_map_entry. apply IH; auto; lia.
    + symmetry. destruct (1 <? length (pars A)) eqn:E; [apply orb_true_r|].
      apply Nat.ltb_ge in E. destruct (pars A) as [|p [|p' ps]] eqn:EP; [congruence| |simpl in E; lia].
      pose proof (mlevels_nonempty (S l) [p] ltac:(lia) eq_refl).
      destruct (mlevels (S l) [p]); [congruence|]. reflexivity.
Qed.

Lemma fuel_enough : forall l A, A <> [] -> l + 1 <= length A + length (mlevels l A).
Proof.
  induction l as [|l IH]; intros A Hne.
  - destruct A; [congruence|]. simpl. lia.
  - cbn [mlevels]. rewrite app_length, map_length.
    pose proof (pars_missing_length A). assert (Hp : pars A <> []) by (destruct A; [congruence|]; simpl; discriminate).
    specialize (IH (pars A) Hp).
    assert (1 <= length (pars A)) by (destruct (pars A); [congruence|simpl; lia]). lia.
Qed.

End Complete.

(** Sorting an increasing list changes nothing. *)
Lemma insert_last : forall x l, (forall y, In y l -> bi_index y < bi_index x) ->
  insert_by_index x l = l ++ [x].
Proof.
  induction l as [|a l IH]; intros Hl; simpl; auto.
  pose proof (Hl a (or_introl eq_refl)).
  replace (bi_index x <? bi_index a) with false by (symmetry; apply Nat.ltb_ge; lia).
  f_equal. apply IH. intros; apply Hl; right; auto.
Qed.

Lemma sort_sorted : forall l acc,
  SS (map bi_index (acc ++ l)) ->
  fold_left (fun s x => insert_by_index x s) l acc = acc ++ l.
Proof.
  induction l as [|a l IH]; intros acc Hs; simpl.
  - symmetry. apply app_nil_r.
  - rewrite insert_last.
    + rewrite IH; rewrite <- app_assoc; auto.
    + clear IH. induction acc as [|b acc IHa]; intros y Hy; [destruct Hy|].
      simpl in Hs. inversion Hs as [|? ? Hs1 F]; subst. destruct Hy as [<-|Hy]; [|apply IHa; auto].
      rewrite Forall_forall in F. apply F. rewrite map_app. apply in_or_app. right. left. reflexivity.
Qed.

(** Sorting permutes. *)
Lemma insert_in : forall x l y, In y (insert_by_index x l) <-> y = x \/ In y l.
Proof.
  induction l as [|a l IH]; intros y; simpl; [intuition|].
  destruct (bi_index x <? bi_index a); simpl; [intuition|]. rewrite IH. intuition.
Qed.

Lemma sort_in : forall l acc y,
  In y (fold_left (fun s x => insert_by_index x s) l acc) <-> In y l \/ In y acc.
Proof.
  induction l as [|a l IH]; intros acc y; simpl; [intuition|].
  rewrite IH, insert_in. intuition.
Qed.

Lemma insert_ss : forall x l, ~ In (bi_index x) (map bi_index l) -> SS (map bi_index l) ->
  SS (map bi_index (insert_by_index x l)).
Proof.
  induction l as [|a l IH]; intros Hn Hs; simpl.
  - constructor; constructor.
  - simpl in Hs. inversion Hs as [|? ? Hs1 F]; subst.
    destruct (bi_index x <? bi_index a) eqn:E.
    + apply Nat.ltb_lt in E. simpl. constructor; auto. constructor; auto.
      eapply Forall_impl; [|exact F]. intros; lia.
    + apply Nat.ltb_ge in E. simpl. constructor.
      * apply IH; auto. intros Hi. apply Hn. right. auto.
      * apply Forall_forall. intros y Hy. apply in_map_iff in Hy. destruct Hy as [z [<- Hz]].
        apply insert_in in Hz. destruct Hz as [->|Hz].
        -- assert (bi_index x <> bi_index a) by (intros Hc; apply Hn; left; auto). lia.
        -- rewrite Forall_forall in F. apply F. apply in_map. exact Hz.
Qed.

Lemma sort_ss : forall l acc,
  SS (map bi_index acc) -> NoDup (map bi_index (l ++ acc)) ->
  SS (map bi_index (fold_left (fun s x => insert_by_index x s) l acc)).
Proof.
  induction l as [|a l IH]; intros acc Hs Hn; simpl; auto.
  simpl in Hn. inversion Hn as [|? ? Hni Hn1]; subst. apply IH.
  - apply insert_ss; auto. intros Hi. apply Hni. rewrite map_app. apply in_or_app. auto.
  - assert (NoDup (map bi_index (a :: l ++ acc))) as Hn' by exact Hn.
    clear - Hn'. rewrite map_app.
    assert (Hp : Permutation.Permutation (map bi_index (a :: l ++ acc))
                   (map bi_index l ++ map bi_index (insert_by_index a acc))).
    { rewrite <- map_app. apply Permutation.Permutation_map.
      assert (Hpi : forall m, Permutation.Permutation (a :: m) (insert_by_index a m)).
      { induction m as [|b m IHm]; simpl; auto.
        destruct (bi_index a <? bi_index b); auto.
        eapply Permutation.perm_trans; [apply Permutation.perm_swap|].
        apply Permutation.perm_skip. exact IHm. }
      eapply Permutation.perm_trans; [apply Permutation.Permutation_middle|].
      apply Permutation.Permutation_app_head. apply Hpi. }
    eapply Permutation.Permutation_NoDup; [exact Hp|exact Hn'].
Qed.

(** ** Every entry of a valid batch proof has a path to the root *)

Section Sound.
Variable H : bytes -> bytes.
Hypothesis H_len : forall x, length (H x) = 32.

Definition digest_ok (h : bytes) : Prop := length h = 32.
Definition level_ok (n : level_node) : Prop := forall h, ln_hash n = Some h -> digest_ok h.
Definition entry_ok (x : bidx) : Prop := digest_ok (bi_hash x).

Lemma from_head_step : forall n h, level_ok n ->
  exists n', level_ok n' /\ from_head H n h = level_step H h n'.
Proof.
  intros [[x|] []] h Hn; unfold from_head, level_step; simpl.
  - exists {| ln_hash := Some x; ln_side := SRight |}. split; auto.
  - exists {| ln_hash := Some x; ln_side := SLeft |}. split; auto.
  - exists {| ln_hash := None; ln_side := SLeft |}. split; [intros ? E; discriminate|]. reflexivity.
  - exists {| ln_hash := None; ln_side := SLeft |}. split; [intros ? E; discriminate|].
    unfold prefixed_hash2, prefixed_hash. simpl. rewrite app_nil_r. reflexivity.
Qed.

Lemma level_pass_sound : forall A e m fuel hs m', SS A -> length e = length A ->
  Forall level_ok m -> Forall entry_ok e ->
  level_pass H fuel (map neighbours A) e m = Some (hs, m') ->
  length hs = length (pars A) /\ Forall digest_ok hs /\ Forall level_ok m' /\
  forall x, In x e -> exists n h, level_ok n /\ In h hs /\ level_step H (bi_hash x) n = h.
Proof.
  induction A as [|q|q q' rest IH1 IH2] using list_ind2; intros e m fuel hs m' HA HL Hm He E.
  - destruct fuel; [discriminate|]. simpl in E. injection E as <- <-.
    destruct e; [|discriminate]. split; auto. split; auto. split; auto. intros x [].
  - destruct fuel; [discriminate|]. destruct e as [|x [|y e]]; try discriminate.
    cbn [map level_pass] in E. destruct m as [|n m]; [discriminate|]. injection E as <- <-.
    inversion Hm; subst. split; auto.
    destruct (from_head_step n (bi_hash x)) as [n' [Hn' En]]; auto.
    split. { constructor; auto. rewrite En. unfold level_step. destruct (ln_hash n') as [?|], (ln_side n'); apply H_len. }
    split; auto. intros y [<-|[]]. exists n', (from_head H n (bi_hash x)). simpl. auto.
  - destruct fuel as [|fuel]; [discriminate|]. destruct e as [|x [|y e]]; try discriminate.
    cbn [map level_pass] in E. rewrite pair_eqb_spec in E.
    change (pars (q :: q' :: rest)) with
      (q / 2 :: if q / 2 =? q' / 2 then pars rest else pars (q' :: rest)).
    pose proof (ss_tail _ _ HA) as HA1. pose proof (ss_tail _ _ HA1) as HA2.
    inversion He as [|? ? He1 He']; subst. inversion He' as [|? ? He2 He'']; subst.
    destruct (q / 2 =? q' / 2) eqn:F.
    + destruct (level_pass H fuel (map neighbours rest) e m) as [[hs1 m1]|] eqn:E1; [|discriminate].
      injection E as <- <-.
      destruct (IH1 e m fuel hs1 m1 HA2 ltac:(simpl in HL; lia) Hm He'' E1) as [L1 [D1 [M1 P1]]].
      split; [simpl; lia|]. split; [constructor; auto; apply H_len|]. split; auto.
      intros z [<-|[<-|Hz]].
      * exists {| ln_hash := Some (bi_hash y); ln_side := SLeft |}, (prefixed_hash2 H INTERNAL_PREFIX (Some (bi_hash x)) (Some (bi_hash y))).
        split; [intros h Eh; injection Eh as <-; exact He2|]. split; [left; auto|]. reflexivity.
      * exists {| ln_hash := Some (bi_hash x); ln_side := SRight |}, (prefixed_hash2 H INTERNAL_PREFIX (Some (bi_hash x)) (Some (bi_hash y))).
        split; [intros h Eh; injection Eh as <-; exact He1|]. split; [left; auto|]. reflexivity.
      * destruct (P1 z Hz) as [n [h [? [? ?]]]]. exists n, h. simpl. auto.
    + destruct m as [|n m]; [discriminate|]. inversion Hm as [|? ? Hn Hm']; subst.
      change (neighbours q' :: map neighbours rest) with (map neighbours (q' :: rest)) in E.
      destruct (level_pass H fuel (map neighbours (q' :: rest)) (y :: e) m) as [[hs1 m1]|] eqn:E1; [|discriminate].
      injection E as <- <-.
      destruct (IH2 (y :: e) m fuel hs1 m1 HA1 ltac:(simpl in *; lia) Hm' He' E1) as [L1 [D1 [M1 P1]]].
      destruct (from_head_step n (bi_hash x) Hn) as [n' [Hn' En]].
      split; [cbn [length] in *; lia|].
      split. { constructor; auto. rewrite En. unfold level_step. destruct (ln_hash n') as [?|], (ln_side n'); apply H_len. }
      split; auto.
      intros z [<-|Hz].
      * exists n', (from_head H n (bi_hash x)). simpl. auto.
      * destruct (P1 z Hz) as [n1 [h1 [? [? ?]]]]. exists n1, h1. simpl. auto.
Qed.

Lemma in_combine_map : forall (A : list nat) (hs : list bytes) h, length A = length hs -> In h hs ->
  exists x, In x (map (fun '(i, h) => {| bi_index := i; bi_hash := h |}) (List.combine A hs)) /\ bi_hash x = h.
Proof.
  induction A as [|a A IH]; intros [|h0 hs] h HL Hin; simpl in *; try lia; try (destruct Hin; fail).
  destruct Hin as [<-|Hin].
  - eexists. split; [left; reflexivity|]. reflexivity.
  - destruct (IH hs h ltac:(lia) Hin) as [x [Hx E]]. exists x. auto.
Qed.

Lemma validate_sound : forall fuel A e m out,
  SS A -> Forall level_ok m -> Forall entry_ok e ->
  validate H fuel A e m = Some [out] ->
  forall x, In x e -> exists path, Forall level_ok path /\ fold_left (level_step H) path (bi_hash x) = out.
Proof.
  induction fuel as [|fuel IH]; intros A e m out HA Hm He E x Hx; [discriminate|].
  cbn [validate] in E. rewrite map_length in E.
  destruct (Nat.eqb (length e) (length A)) eqn:EL; [|discriminate]. apply Nat.eqb_eq in EL.
  cbn [negb] in E.
  destruct (level_pass H (S (length A)) (map neighbours A) e m) as [[hs m']|] eqn:EP; [|discriminate].
  destruct (level_pass_sound A e m _ hs m' HA EL Hm He EP) as [L1 [D1 [M1 P1]]].
  rewrite (a_new_spec A HA) in E.
  destruct (P1 x Hx) as [n [h [Hn [Hh Eh]]]].
  destruct ((_ || _) && _) eqn:EC.
  - destruct (in_combine_map (pars A) hs h ltac:(lia) Hh) as [y [Hy Ey]].
    assert (He' : Forall entry_ok (map (fun '(i, h) => {| bi_index := i; bi_hash := h |}) (List.combine (pars A) hs))).
    { apply Forall_map, Forall_forall. intros [i h1] Hin. apply in_combine_r in Hin.
      rewrite Forall_forall in D1. unfold entry_ok. simpl. auto. }
    destruct (IH _ _ _ _ (pars_ss A HA) M1 He' E y Hy) as [path [Hp Ef]].
    exists (n :: path). split; [constructor; auto|]. simpl. rewrite Eh, <- Ey. exact Ef.
  - injection E as ->. destruct Hh as [<-|[]]. exists [n]. split; auto.
Qed.

End Sound.
