(** Lemmas about the NIPoPoW prover. *)
From Coq Require Import Sorted Permutation.
From Verif Require Import Base GroupModel MerkleModel HeaderModel NipopowModel NipopowProofs PowProps NipopowProps.
Local Open Scope list_scope.
Local Open Scope Z_scope.

(** ** Sorting *)
Section Sort.
Context {G : group}.
Notation key := (fun p : popow_header G => h_height (ph_header p)).

Lemma insert_in : forall (x y : popow_header G) l, In y (insert_height x l) <-> y = x \/ In y l.
Proof.
  intros x y. induction l as [|z l IH]; cbn [insert_height].
  - simpl. intuition.
  - destruct (_ <? _); simpl; [intuition|]. rewrite IH. intuition.
Qed.

Lemma insert_sorted : forall (x : popow_header G) l, sorted_by key l ->
  (forall y, In y l -> key y <> key x) -> sorted_by key (insert_height x l).
Proof.
  intros x. induction l as [|z l IH]; intros Hs Hd; cbn [insert_height]; [constructor; constructor|].
  pose proof Hs as Hs0. apply StronglySorted_inv in Hs. destruct Hs as [Hs HF].
  destruct (_ <? _) eqn:E.
  - constructor; [exact Hs0|]. constructor; [lia|]. eapply Forall_impl; [|exact HF]. intros a Ha. cbv beta in *. lia.
  - constructor.
    + apply IH; [exact Hs|]. intros y Hy. apply Hd. right. exact Hy.
    + apply Forall_forall. intros y Hy. apply insert_in in Hy. destruct Hy as [->|Hy].
      * specialize (Hd z (or_introl eq_refl)). cbv beta in *. lia.
      * rewrite Forall_forall in HF. apply HF. exact Hy.
Qed.

Lemma sort_spec : forall l, NoDup (map key l) ->
  sorted_by key (sort_by_height l) /\ forall x, In x (sort_by_height l) <-> In x l.
Proof.
  intros l Hnd. unfold sort_by_height.
  assert (HG : forall l s, NoDup (map key l) -> sorted_by key s ->
     (forall x y, In x l -> In y s -> key x <> key y) ->
     sorted_by key (fold_left (fun s x => insert_height x s) l s) /\
     forall x, In x (fold_left (fun s x => insert_height x s) l s) <-> In x l \/ In x s).
  { clear. induction l as [|a l IH]; intros s Hnd Hs Hd; cbn [fold_left].
    - split; [exact Hs|]. simpl. tauto.
    - cbn [map] in Hnd. apply NoDup_cons_iff in Hnd. destruct Hnd as [Hna Hnd].
      destruct (IH (insert_height a s)) as [H1 H2].
      + exact Hnd.
      + apply insert_sorted; [exact Hs|]. intros y Hy E. apply (Hd a y (or_introl eq_refl) Hy). congruence.
      + intros x y Hx Hy. apply insert_in in Hy. destruct Hy as [->|Hy].
        * intros E. apply Hna. rewrite <- E. apply (in_map key). exact Hx.
        * apply Hd; [right; exact Hx|exact Hy].
      + split; [exact H1|]. intros x. rewrite H2, insert_in. simpl. intuition. }
  destruct (HG l [] Hnd) as [H1 H2]; [constructor|intros x y _ []|].
  split; [exact H1|]. intros x. rewrite H2. simpl. tauto.
Qed.

Lemma push_spec : group_ok G -> forall (l prefix : list (popow_header G)), NoDup prefix ->
  NoDup (fold_left push_new l prefix) /\ forall x, In x (fold_left push_new l prefix) <-> In x l \/ In x prefix.
Proof.
  intros HG. induction l as [|a l IH]; intros prefix Hnd; cbn [fold_left].
  - split; [exact Hnd|]. simpl. tauto.
  - assert (HP : NoDup (push_new prefix a) /\ forall x, In x (push_new prefix a) <-> x = a \/ In x prefix).
    { unfold push_new. destruct (existsb _ prefix) eqn:E.
      - split; [exact Hnd|]. intros x. apply existsb_exists in E. destruct E as [y [Hy Ey]].
        apply (popow_eqb_spec G HG) in Ey. subst y. split; [auto|]. intros [->|Hx]; auto.
      - assert (Hna : ~ In a prefix).
        { intros Ha. assert (Et : existsb (fun y => popow_eqb y a) prefix = true).
          { apply existsb_exists. exists a. split; [exact Ha|]. apply (popow_eqb_spec G HG). reflexivity. }
          congruence. }
        split.
        + rewrite <- (app_nil_r (prefix ++ [a])), <- app_assoc. apply NoDup_Add with (a := a) (l := prefix).
          * replace ([a] ++ []) with (a :: @nil (popow_header G)) by reflexivity.
            pose proof (Add_app a prefix []) as HA. rewrite app_nil_r in HA. exact HA.
          * split; [exact Hnd|exact Hna].
        + intros x. rewrite in_app_iff. simpl. intuition. }
    destruct HP as [HP1 HP2]. destruct (IH _ HP1) as [H1 H2]. split; [exact H1|].
    intros x. rewrite H2, HP2. simpl. intuition.
Qed.
End Sort.

(** ** Adjacent pairs *)
Lemma adjacent_forallb : forall A (f : A * A -> bool) l,
  (forall l1 a b l2, l = l1 ++ a :: b :: l2 -> f (a, b) = true) ->
  forallb f (List.combine l (skipn 1 l)) = true.
Proof.
  induction l as [|a l IH]; intros Hf; [reflexivity|]. destruct l as [|b l]; [reflexivity|].
  change (List.combine (a :: b :: l) (skipn 1 (a :: b :: l))) with ((a, b) :: List.combine (b :: l) (skipn 1 (b :: l))).
  cbn [forallb]. rewrite (Hf [] a b l eq_refl). cbn [andb]. apply IH.
  intros l1 x y l2 E. apply (Hf (a :: l1) x y l2). rewrite E. reflexivity.
Qed.

Lemma sorted_adjacent : forall A (key : A -> Z) l l1 a b l2, sorted_by key l -> l = l1 ++ a :: b :: l2 -> key a < key b.
Proof.
  intros A key l l1. revert l. induction l1 as [|c l1 IH]; intros l a b l2 Hs ->.
  - simpl in Hs. apply StronglySorted_inv in Hs. destruct Hs as [_ HF]. inversion HF; assumption.
  - simpl in Hs. apply StronglySorted_inv in Hs. destruct Hs as [Hs _]. eapply IH; [exact Hs|reflexivity].
Qed.

Lemma sorted_gap : forall A (key : A -> Z) l l1 a b l2, sorted_by key l -> l = l1 ++ a :: b :: l2 ->
  forall x, In x l -> key x <= key a \/ key b <= key x.
Proof.
  intros A key l l1. revert l. induction l1 as [|c l1 IH]; intros l a b l2 Hs -> x Hx.
  - simpl in Hs, Hx. apply StronglySorted_inv in Hs. destruct Hs as [Hs HF].
    destruct Hx as [<-|[<-|Hx]]; [left; lia|right; lia|]. right.
    apply StronglySorted_inv in Hs. destruct Hs as [_ HF2]. rewrite Forall_forall in HF2. specialize (HF2 x Hx). lia.
  - simpl in Hs, Hx. apply StronglySorted_inv in Hs. destruct Hs as [Hs HF]. destruct Hx as [<-|Hx].
    + left. rewrite Forall_forall in HF. specialize (HF a). rewrite in_app_iff in HF. simpl in HF.
      specialize (HF (or_intror (or_introl eq_refl))). lia.
    + eapply IH; [exact Hs|reflexivity|exact Hx].
Qed.

Lemma sorted_app_intro : forall A (key : A -> Z) l1 l2, sorted_by key l1 -> sorted_by key l2 ->
  (forall a b, In a l1 -> In b l2 -> key a < key b) -> sorted_by key (l1 ++ l2).
Proof.
  induction l1 as [|a l1 IH]; intros l2 H1 H2 Hx; [exact H2|]. simpl.
  apply StronglySorted_inv in H1. destruct H1 as [H1 HF]. constructor.
  - apply IH; auto. intros x y Hx1 Hy. apply Hx; [right; exact Hx1|exact Hy].
  - apply Forall_app. split; [exact HF|]. apply Forall_forall. intros y Hy. apply Hx; [left; reflexivity|exact Hy].
Qed.

Lemma sorted_app_elim : forall A (key : A -> Z) l1 l2, sorted_by key (l1 ++ l2) ->
  sorted_by key l1 /\ sorted_by key l2 /\ forall a b, In a l1 -> In b l2 -> key a < key b.
Proof.
  induction l1 as [|a l1 IH]; intros l2 Hs.
  - split; [constructor|]. split; [exact Hs|]. intros a b [].
  - simpl in Hs. apply StronglySorted_inv in Hs. destruct Hs as [Hs HF]. apply Forall_app in HF. destruct HF as [F1 F2].
    destruct (IH l2 Hs) as [S1 [S2 Hx]]. split; [constructor; assumption|]. split; [exact S2|].
    intros x y [<-|Hx1] Hy; [rewrite Forall_forall in F2; apply F2; exact Hy|apply Hx; assumption].
Qed.

Lemma sorted_map : forall A B (f : A -> B) (key : B -> Z) l, sorted_by (fun a => key (f a)) l -> sorted_by key (map f l).
Proof.
  induction l as [|a l IH]; intros Hs; simpl; [constructor|]. apply StronglySorted_inv in Hs. destruct Hs as [Hs HF].
  constructor; [apply IH; exact Hs|]. apply Forall_map. exact HF.
Qed.

Lemma sorted_key_inj : forall A (key : A -> Z) l, sorted_by key l -> forall a b, In a l -> In b l -> key a = key b -> a = b.
Proof.
  induction l as [|c l IH]; intros Hs a b Ha Hb E; [destruct Ha|].
  apply StronglySorted_inv in Hs. destruct Hs as [Hs HF]. rewrite Forall_forall in HF.
  destruct Ha as [<-|Ha], Hb as [<-|Hb]; auto.
  - specialize (HF b Hb). lia.
  - specialize (HF a Ha). lia.
Qed.

Lemma nodup_key : forall A (key : A -> Z) l, NoDup l ->
  (forall a b, In a l -> In b l -> key a = key b -> a = b) -> NoDup (map key l).
Proof.
  induction l as [|a l IH]; intros Hnd Hi; simpl; [constructor|].
  apply NoDup_cons_iff in Hnd. destruct Hnd as [Hna Hnd]. constructor.
  - intros Hin. apply in_map_iff in Hin. destruct Hin as [b [E Hb]]. apply Hna.
    rewrite (Hi a b); auto; [left; reflexivity|right; exact Hb].
  - apply IH; [exact Hnd|]. intros x y Hx Hy. apply Hi; right; assumption.
Qed.

(** ** The levels loop *)
Lemma filter_filter : forall A (f g : A -> bool) l, filter f (filter g l) = filter (fun x => g x && f x) l.
Proof.
  induction l as [|a l IH]; [reflexivity|]. cbn [filter]. destruct (g a); cbn [filter andb]; rewrite IH; reflexivity.
Qed.
Lemma filter_all : forall A (f : A -> bool) l, (forall x, In x l -> f x = true) -> filter f l = l.
Proof.
  induction l as [|a l IH]; intros Hf; [reflexivity|]. cbn [filter]. rewrite (Hf a (or_introl eq_refl)).
  rewrite IH; [reflexivity|]. intros x Hx. apply Hf. right. exact Hx.
Qed.
Lemma skipn_nth : forall A n (l : list A) a, nth_error l n = Some a -> skipn n l = a :: skipn (S n) l.
Proof. induction n as [|n IH]; intros [|x l] a E; simpl in E; try discriminate; [injection E as ->; reflexivity|]. apply IH. exact E. Qed.

Section Loop.
Context {G : group} (HG : group_ok G) (H : bytes -> bytes) (fl : Z -> Z -> Z).
Variable base : list (popow_header G).
Variable lvl : popow_header G -> Z.
Variable m : Z.
Hypothesis Hlvl : forall p, In p base -> max_level_of H fl (ph_header p) = Ok (lvl p).
Hypothesis Hm : 1 <= m.
Notation key p := (h_height (ph_header p)).
Hypothesis Hsort : sorted_by (fun p => key p) base.

Definition at_least (mu : nat) (a : Z) : list (popow_header G) :=
  filter (fun p => (Z.of_nat mu <=? lvl p) && (a <=? key p)) base.

Lemma at_least_in : forall mu a p, In p (at_least mu a) <-> In p base /\ Z.of_nat mu <= lvl p /\ a <= key p.
Proof. intros. unfold at_least. rewrite filter_In, andb_true_iff, !Z.leb_le. tauto. Qed.

Lemma at_least_mono : forall level a, Zlen (at_least (S level) a) <= Zlen (at_least level a).
Proof.
  intros level a. unfold at_least. clear. unfold Zlen. induction base as [|p b IH]; [simpl; lia|].
  cbn [filter]. destruct ((Z.of_nat (S level) <=? lvl p) && (a <=? key p)) eqn:E1.
  - apply andb_true_iff in E1. destruct E1 as [E1 E2].
    replace ((Z.of_nat level <=? lvl p) && (a <=? key p)) with true by (rewrite E2; lia).
    cbn [List.length]. lia.
  - destruct ((Z.of_nat level <=? lvl p) && (a <=? key p)); cbn [List.length]; lia.
Qed.

Lemma sub_eq : forall mu a, exists levels, map_r (fun p => max_level_of H fl (ph_header p)) base = Ok levels /\
  map fst (filter (fun '(p, l) => (Z.of_nat mu <=? l) && (a <=? key p)) (List.combine base levels)) = at_least mu a.
Proof.
  intros mu a. exists (map lvl base). unfold at_least. clear HG Hm Hsort.
  induction base as [|p b IH]; [split; reflexivity|].
  destruct IH as [E1 E2]; [intros q Hq; apply Hlvl; right; exact Hq|].
  split.
  - cbn [map_r]. rewrite (Hlvl p (or_introl eq_refl)). cbn [bind]. rewrite E1. reflexivity.
  - cbn [map List.combine filter]. destruct (_ && _); cbn [map fst]; rewrite E2; reflexivity.
Qed.

(** The result of the loop, as a set: block [p] is in the prefix exactly if for some
    level [mu] it is of level at least [mu] and not below the anchor height [A mu]. *)
Lemma prove_loop_spec : forall steps anchor prefix, NoDup prefix ->
  ((forall p, In p base -> key anchor <= key p) \/ m <= Zlen (at_least steps (key anchor))) ->
  exists prefix' A, prove_loop H fl steps base m anchor prefix = Ok prefix' /\ NoDup prefix' /\
    (forall mu mu', (mu <= mu' < steps)%nat -> A mu' <= A mu) /\
    (forall n, steps = S n -> A n = key anchor) /\
    (forall mu, (mu < steps)%nat -> key anchor <= A mu) /\
    (forall mu, (mu < steps)%nat -> (forall p, In p base -> A mu <= key p) \/ m <= Zlen (at_least mu (A mu))) /\
    (forall x, In x prefix' <-> In x prefix \/
       (In x base /\ exists mu, (mu < steps)%nat /\ Z.of_nat mu <= lvl x /\ A mu <= key x)).
Proof.
  induction steps as [|level IH]; intros anchor prefix Hnd Ha.
  - exists prefix, (fun _ => 0). split; [reflexivity|]. split; [exact Hnd|].
    split; [intros; lia|]. split; [discriminate|]. split; [intros; lia|]. split; [intros; lia|].
    intros x. split; [auto|]. intros [Hx|[_ [mu [Hmu _]]]]; [exact Hx|lia].
  - cbn [prove_loop]. destruct (sub_eq level (key anchor)) as [levels [-> Esub]]. cbn [bind]. cbv zeta. rewrite Esub. clear Esub.
    set (sub := at_least level (key anchor)).
    assert (HA' : exists anchor', (if m <? Zlen sub then vget sub (List.length sub - Z.to_nat m) else Ok anchor) = Ok anchor' /\
      key anchor <= key anchor' /\
      ((forall p, In p base -> key anchor' <= key p) \/ m <= Zlen (at_least level (key anchor')))).
    { assert (Hold : (forall p, In p base -> key anchor <= key p) \/ m <= Zlen sub).
      { destruct Ha as [Ha|Ha]; [left; exact Ha|]. right.
        pose proof (at_least_mono level (key anchor)). fold sub in H0. lia. }
      destruct (m <? Zlen sub) eqn:E; [|exists anchor; split; [reflexivity|]; split; [lia|exact Hold]].
      assert (Hlen : (List.length sub - Z.to_nat m < List.length sub)%nat) by (unfold Zlen in E; lia).
      destruct (nth_error sub (List.length sub - Z.to_nat m)) as [a'|] eqn:Ea;
        [|apply nth_error_None in Ea; lia].
      exists a'. unfold vget. rewrite Ea. split; [reflexivity|].
      assert (Hin : In a' sub) by (eapply nth_error_In; exact Ea).
      apply at_least_in in Hin. split; [lia|]. right.
      assert (Hkeep : forall x, In x (skipn (List.length sub - Z.to_nat m) sub) -> key a' <= key x).
      { pose proof (sorted_by_skipn _ _ (List.length sub - Z.to_nat m) _ (sorted_by_filter _ _ _ _ Hsort : sorted_by _ sub)) as Hs.
        intros x Hx. apply skipn_nth in Ea. rewrite Ea in Hs, Hx. apply StronglySorted_inv in Hs. destruct Hs as [_ HF].
        destruct Hx as [<-|Hx]; [lia|]. rewrite Forall_forall in HF. specialize (HF x Hx). cbv beta in HF. lia. }
      assert (Heq : at_least level (key a') = filter (fun p => key a' <=? key p) sub).
      { subst sub. unfold at_least. rewrite filter_filter. apply filter_ext. intros p.
        destruct (Z.of_nat level <=? lvl p); [|reflexivity]. cbn [andb].
        destruct (key a' <=? key p) eqn:E1; [|rewrite andb_false_r; reflexivity]. symmetry. rewrite andb_true_r. lia. }
      rewrite Heq. rewrite <- (firstn_skipn (List.length sub - Z.to_nat m) sub) at 1.
      rewrite filter_app. unfold Zlen. rewrite app_length.
      rewrite (filter_all _ _ (skipn _ _)).
      - rewrite skipn_length. unfold Zlen in E. lia.
      - intros x Hx. apply Z.leb_le. apply Hkeep. exact Hx. }
    destruct HA' as [anchor' [-> [Hge Hinv]]]. cbn [bind].
    destruct (push_spec HG sub prefix Hnd) as [Hnd' Hin'].
    destruct (IH anchor' (fold_left push_new sub prefix) Hnd' Hinv) as (pf & A & E & H1 & H2 & H3 & H4 & H5 & H6).
    exists pf, (fun mu => if Nat.eqb mu level then key anchor else A mu).
    split; [exact E|]. split; [exact H1|]. split.
    { intros mu mu' Hmu. destruct (Nat.eqb mu' level) eqn:E1, (Nat.eqb mu level) eqn:E2.
      - lia.
      - apply Nat.eqb_neq in E2. apply Nat.eqb_eq in E1. specialize (H4 mu ltac:(lia)). lia.
      - apply Nat.eqb_neq in E1. apply Nat.eqb_eq in E2. lia.
      - apply H2. apply Nat.eqb_neq in E1. lia. }
    split.
    { intros n En. injection En as <-. rewrite Nat.eqb_refl. reflexivity. }
    split.
    { intros mu Hmu. destruct (Nat.eqb mu level) eqn:E1; [lia|]. apply Nat.eqb_neq in E1. specialize (H4 mu ltac:(lia)). lia. }
    split.
    { intros mu Hmu. destruct (Nat.eqb mu level) eqn:E1.
      - apply Nat.eqb_eq in E1. subst mu. destruct Ha as [Ha|Ha]; [left; exact Ha|right].
        assert (Hsub : Zlen (at_least (S level) (key anchor)) <= Zlen (at_least level (key anchor))) by apply at_least_mono.
        lia.
      - apply H5. apply Nat.eqb_neq in E1. lia. }
    intros x. rewrite H6, Hin'. split.
    + intros [[Hx|Hx]|[Hx [mu [M1 [M2 M3]]]]].
      * right. apply at_least_in in Hx. split; [tauto|]. exists level. rewrite Nat.eqb_refl. split; [lia|tauto].
      * left. exact Hx.
      * right. split; [exact Hx|]. exists mu. replace (Nat.eqb mu level) with false by (symmetry; apply Nat.eqb_neq; lia).
        split; [lia|]. auto.
    + intros [Hx|[Hx [mu [M1 [M2 M3]]]]]; [auto|]. destruct (Nat.eqb mu level) eqn:E1.
      * apply Nat.eqb_eq in E1. subst mu. left. left. apply at_least_in. auto.
      * right. split; [exact Hx|]. exists mu. apply Nat.eqb_neq in E1. split; [lia|]. auto.
Qed.
End Loop.
