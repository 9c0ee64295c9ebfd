(** The heap of timers is a priority queue whose items can be taken out by their slot.

    The specification is a bag of items with distinct slots ([allowed], [history]): what each
    operation may return and what it leaves. *)
From Coq Require Import Permutation Sorted.
From Verif Require Import Base HeapModel HeapProofs.
Local Open Scope list_scope.
Local Open Scope nat_scope.

Section C109.
Context {T : Type}.
Variable key : T -> Z.
Notation bag := (list (T * nat)).
Notation heap := (heap (T := T)).

Inductive hop := OPush (t : T) | OPeek | OPop | ORemove (slot : nat).
Inductive out := RSlot (slot : nat) | RItem (t : option T).

(** No item of the bag comes before [t]. *)
Definition first (t : T) (m : bag) : Prop := Forall (fun x => (key t <= key (fst x))%Z) m.
Inductive allowed : bag -> hop -> out -> bag -> Prop :=
| al_push m t j m' : ~ In j (map snd m) -> Permutation m' ((t, j) :: m) -> allowed m (OPush t) (RSlot j) m'
| al_peek_none : allowed [] OPeek (RItem None) []
| al_peek m t j : In (t, j) m -> first t m -> allowed m OPeek (RItem (Some t)) m
| al_pop_none : allowed [] OPop (RItem None) []
| al_pop m t j m' : Permutation m ((t, j) :: m') -> first t m -> allowed m OPop (RItem (Some t)) m'
| al_remove m t j m' : Permutation m ((t, j) :: m') -> allowed m (ORemove j) (RItem (Some t)) m'.
(** A history from the empty bag: operations, what they returned, the bag they leave and the
    most items it ever held. *)
Inductive history : list hop -> list out -> bag -> nat -> Prop :=
| hy_nil : history [] [] [] 0
| hy_step os rs m p o r m' : history os rs m p -> allowed m o r m' -> history (os ++ [o]) (rs ++ [r]) m' (Nat.max p (length m')).

(** The heap under the same operations. *)
Definition perform (h : heap) (o : hop) : res (out * heap) :=
  match o with
  | OPush t => '(j, h) <- h_push key t h ;; Ok (RSlot j, h)
  | OPeek => Ok (RItem (h_peek h), h)
  | OPop => r <- h_pop key h ;; match r with Some (t, h) => Ok (RItem (Some t), h) | None => Ok (RItem None, h) end
  | ORemove j => '(t, h) <- h_remove key j h ;; Ok (RItem (Some t), h)
  end.
Fixpoint performs (h : heap) (os : list hop) : res (list out * heap) :=
  match os with
  | [] => Ok ([], h)
  | o :: os => '(r, h) <- perform h o ;; '(rs, h) <- performs h os ;; Ok (r :: rs, h)
  end.

Definition dead (h : heap) (o : hop) : Prop := match o with ORemove j => ~ In j (map snd (h_items h)) | _ => False end.
Lemma perform_ok : forall h o, inv key h ->
  (dead h o /\ perform h o = Panic) \/
  (exists r h', perform h o = Ok (r, h') /\ inv key h' /\ allowed (h_items h) o r (h_items h') /\
     length (h_index h') <= Nat.max (length (h_index h)) (length (h_items h')) /\ match r with RSlot j => j < length (h_index h') | _ => True end).
Proof.
  intros h o V. assert (POP : forall x l, h_items h = x :: l -> forall k y, nth_error (x :: l) k = Some y -> (key (fst x) <= key (fst y))%Z).
  { intros x l E k y Y. destruct V as (_ & O & _). rewrite E in O. now apply (root_min key _ O k). }
  assert (FST : forall x l, h_items h = x :: l -> first (fst x) (h_items h)).
  { intros x l E. rewrite E. apply Forall_forall. intros y Y. apply In_nth_error in Y as (k & Y). now apply (POP x l E k). }
  destruct o as [t| | |j]; cbn [perform].
  - right. destruct (push_ok key t h V) as (j & h' & E & V' & P & N & L). rewrite E. cbn [bind]. exists (RSlot j), h'.
    split; [reflexivity|]. split; [exact V'|]. split; [now apply al_push|]. split; [lia|].
    destruct V' as ((L1 & _) & _). assert (In (t, j) (h_items h')) as I by (apply (Permutation_in _ (Permutation_sym P)); now left).
    apply In_nth_error in I as (i & I). apply L1 in I. now apply nth_lt in I.
  - right. exists (RItem (h_peek h)), h. split; [reflexivity|]. split; [exact V|]. split; [|split; [lia|exact Logic.I]].
    unfold h_peek. destruct (h_items h) as [|[t j] l] eqn:E; [constructor|]. apply (al_peek _ t j); [now left|]. cbn [fst]. exact (FST _ _ eq_refl).
  - right. unfold h_pop. destruct (h_items h) as [|[t j] l] eqn:E.
    + cbn [bind]. exists (RItem None), h. rewrite E. split; [reflexivity|]. split; [exact V|]. split; [constructor|]. split; [cbn; lia|exact Logic.I].
    + destruct (remove_ok key j t h V) as (h' & R & V' & P & L); [rewrite E; now left|]. cbn [snd]. rewrite R. cbn [bind].
      exists (RItem (Some t)), h'. split; [reflexivity|]. split; [exact V'|]. split; [|split; [lia|exact Logic.I]].
      apply (al_pop _ t j); [now rewrite <- E|]. exact (FST _ _ eq_refl).
  - destruct (in_dec Nat.eq_dec j (map snd (h_items h))) as [I|N].
    + right. apply in_map_iff in I as ([t j'] & E & I). cbn in E. subst j'. destruct (remove_ok key j t h V I) as (h' & R & V' & P & L).
      rewrite R. cbn [bind]. exists (RItem (Some t)), h'. split; [reflexivity|]. split; [exact V'|]. split; [now apply (al_remove _ t j)|]. split; [lia|exact Logic.I].
    + left. split; [exact N|]. now rewrite (remove_dead key j h V N).
Qed.
Lemma performs_snoc : forall os o h, performs h (os ++ [o]) = ('(rs, h) <- performs h os ;; '(r, h) <- perform h o ;; Ok (rs ++ [r], h)).
Proof.
  induction os as [|a os IH]; intros o h; cbn [app performs].
  - cbn [bind app]. destruct (perform h o) as [[r h1]| |]; reflexivity.
  - destruct (perform h a) as [[r h1]| |]; cbn [bind]; [|reflexivity|reflexivity]. rewrite IH.
    destruct (performs h1 os) as [[rs h2]| |]; cbn [bind]; [|reflexivity|reflexivity]. destruct (perform h2 o) as [[r' h3]| |]; reflexivity.
Qed.
Lemma performs_history : forall os rs h, performs h_new os = Ok (rs, h) ->
  exists p, history os rs (h_items h) p /\ inv key h /\ length (h_index h) <= p /\ forall j, In (RSlot j) rs -> j < p.
Proof.
  induction os as [|o os IH] using rev_ind; intros rs h E.
  - injection E as <- <-. exists 0. split; [constructor|]. split; [apply inv_new|]. split; [cbn; lia|]. intros j [].
  - rewrite performs_snoc in E. destruct (performs h_new os) as [[rs1 h1]| |] eqn:E1; [|discriminate|discriminate]. cbn [bind] in E.
    destruct (IH _ _ eq_refl) as (p & HY & V & L & S). destruct (perform_ok h1 o V) as [[_ Q]|(r & h2 & Q & V2 & A & L2 & J)]; rewrite Q in E; [discriminate|].
    cbn [bind] in E. injection E as <- <-. exists (Nat.max p (length (h_items h2))). split; [now apply (hy_step _ _ (h_items h1))|]. split; [exact V2|]. split; [lia|].
    intros j I. apply in_app_iff in I as [I|[->|[]]]; [specialize (S _ I)|cbn in J]; lia.
Qed.

(** Whatever the operations, the heap returns what the bag allows. *)
Theorem c109_refines : forall os rs h, performs h_new os = Ok (rs, h) -> exists p, history os rs (h_items h) p.
Proof. intros os rs h E. destruct (performs_history _ _ _ E) as (p & HY & _). eauto. Qed.
(** It fails only when a slot is used again after its item has left. *)
Theorem c109_no_panic : forall os, match performs h_new os with
  | Ok _ => True
  | Err _ => False
  | Panic => exists os1 j os2 rs m p, os = os1 ++ ORemove j :: os2 /\ history os1 rs m p /\ ~ In j (map snd m)
  end.
Proof.
  induction os as [|o os IH] using rev_ind; [exact I|]. rewrite performs_snoc. destruct (performs h_new os) as [[rs1 h1]| |] eqn:E1; cbn [bind].
  - destruct (performs_history _ _ _ E1) as (p & HY & V & _). destruct (perform_ok h1 o V) as [[D Q]|(r & h2 & Q & _)]; rewrite Q; cbn [bind]; [|exact I].
    destruct o as [| | |j]; try contradiction. exists os, j, [], rs1, (h_items h1), p. auto.
  - exact IH.
  - destruct IH as (os1 & j & os2 & rs & m & p & -> & HY & N). exists os1, j, (os2 ++ [o]), rs, m, p. rewrite <- app_assoc. auto.
Qed.
(** Slots are used again: their numbers stay below the most items ever held. *)
Theorem c109_slots : forall os rs h, performs h_new os = Ok (rs, h) ->
  exists p, history os rs (h_items h) p /\ (forall j, In (RSlot j) rs -> j < p) /\ length (h_index h) <= p.
Proof. intros os rs h E. destruct (performs_history _ _ _ E) as (p & HY & _ & L & S). eauto. Qed.

(** Items pushed and then popped come out in order, all of them. *)
Definition given (rs : list out) : list T := flat_map (fun r => match r with RItem (Some t) => [t] | _ => [] end) rs.
Lemma history_inv : forall os o rs m p, history (os ++ [o]) rs m p ->
  exists rs1 m1 p1 r, rs = rs1 ++ [r] /\ history os rs1 m1 p1 /\ allowed m1 o r m.
Proof.
  intros os o rs m p H. inversion H as [E|os' rs' m1 p1 o' r m' H1 A E]; [destruct os; discriminate|].
  apply app_inj_tail in E as [-> ->]. eauto 8.
Qed.
Lemma pushes : forall l rs m p, history (map OPush l) rs m p -> Permutation (map fst m) l /\ given rs = [].
Proof.
  induction l as [|t l IH] using rev_ind; intros rs m p H; [inversion H as [|os rs' m1 p1 o r m' H1 A E]; [now split|destruct os; discriminate]|].
  rewrite map_app in H. apply history_inv in H as (rs1 & m1 & p1 & r & -> & H1 & A). destruct (IH _ _ _ H1) as [P G]. inversion A; subst.
  split; [|unfold given; rewrite flat_map_app; fold (given rs1); now rewrite G].
  match goal with Q : Permutation m _ |- _ => rewrite (Permutation_map fst Q) end. cbn [map fst]. rewrite P. apply Permutation_cons_append.
Qed.
Lemma sorted_snoc : forall l x, StronglySorted Z.le l -> Forall (fun y => (y <= x)%Z) l -> StronglySorted Z.le (l ++ [x]).
Proof.
  intros l x S F. induction S as [|y l S IH G]; cbn [app]; [repeat constructor|]. inversion F; subst. constructor; [auto|].
  apply Forall_app. split; [exact G|]. constructor; [assumption|constructor].
Qed.
Lemma pops : forall n l rs m p, n <= length l -> history (map OPush l ++ repeat OPop n) rs m p ->
  Permutation (map fst m ++ given rs) l /\ StronglySorted Z.le (map key (given rs)) /\ length (given rs) = n /\
  Forall (fun t => first t m) (given rs).
Proof.
  induction n as [|n IH]; intros l rs m p L H.
  - cbn [repeat] in H. rewrite app_nil_r in H. destruct (pushes _ _ _ _ H) as [P ->]. rewrite app_nil_r. split; [exact P|]. split; [constructor|]. split; [reflexivity|constructor].
  - cbn [repeat] in H. rewrite repeat_cons in H.
    rewrite app_assoc in H. apply history_inv in H as (rs1 & m1 & p1 & r & -> & H1 & A). destruct (IH l _ _ _ ltac:(lia) H1) as (P & S & LE & F).
    assert (E : given (rs1 ++ [r]) = given rs1 ++ given [r]) by (unfold given; apply flat_map_app). rewrite E.
    inversion A as [| | | |m0 t j m' PM FI|]; subst.
    + exfalso. apply Permutation_length in P. cbn [map app] in P. lia.
    + cbn [given flat_map app]. rewrite map_app. cbn [map].
      split; [|split; [|split; [rewrite app_length; cbn; lia|]]].
      * rewrite <- P. rewrite (Permutation_map fst PM). cbn [map fst app]. rewrite app_assoc. symmetry. apply Permutation_cons_append.
      * apply sorted_snoc; [exact S|]. apply Forall_forall. intros z Z. apply in_map_iff in Z as (u & <- & U). rewrite Forall_forall in F.
        specialize (F u U). unfold first in F. rewrite Forall_forall in F. apply (F (t, j)). apply (Permutation_in _ (Permutation_sym PM)). now left.
      * apply Forall_app. split.
        -- revert F. apply Forall_impl. intros u Fu. unfold first in *. rewrite PM in Fu. now inversion Fu.
        -- constructor; [|constructor]. unfold first in *. rewrite PM in FI. now inversion FI.
Qed.
Theorem c109_sorted : forall l, exists rs h, performs h_new (map OPush l ++ repeat OPop (length l)) = Ok (rs, h) /\
  Permutation (given rs) l /\ StronglySorted Z.le (map key (given rs)) /\ h_peek h = None.
Proof.
  intros l. pose proof (c109_no_panic (map OPush l ++ repeat OPop (length l))) as N.
  destruct (performs h_new (map OPush l ++ repeat OPop (length l))) as [[rs h]| |] eqn:E; [|contradiction|].
  - destruct (c109_refines _ _ _ E) as (p & H). destruct (pops _ _ _ _ _ (le_n _) H) as (P & S & L & _). exists rs, h. split; [reflexivity|].
    assert (h_items h = []) as M. { apply Permutation_length in P. rewrite app_length, map_length in P. destruct (h_items h); [reflexivity|cbn in P; lia]. }
    rewrite M in P. cbn in P. split; [exact P|]. split; [exact S|]. unfold h_peek. now rewrite M.
  - exfalso. destruct N as (os1 & j & os2 & _ & _ & _ & Q & _). assert (In (ORemove j) (map OPush l ++ repeat OPop (length l))) as I by (rewrite Q, in_app_iff; right; now left).
    apply in_app_iff in I as [I|I]; [apply in_map_iff in I as (x & X & _); discriminate|apply repeat_spec in I; discriminate].
Qed.
End C109.

(** Three items in, the second taken out by its slot, its slot used again, the rest in order;
    the slot cannot be used twice. *)
Example c109_hyps_met :
  let os := [OPush 5%Z; OPush 3%Z; OPush 4%Z; ORemove 1; OPush 9%Z; OPeek; OPop; OPop; OPop; OPop] in
  (exists h, performs (fun z => z) h_new os =
    Ok ([RSlot 0; RSlot 1; RSlot 2; RItem (Some 3%Z); RSlot 1; RItem (Some 4%Z); RItem (Some 4%Z); RItem (Some 5%Z); RItem (Some 9%Z); RItem None], h)) /\
  performs (fun z : Z => z) h_new (os ++ [ORemove 1]) = Panic.
Proof. split; [eexists|]; vm_compute; reflexivity. Qed.

Print Assumptions c109_refines.
Print Assumptions c109_no_panic.
Print Assumptions c109_slots.
Print Assumptions c109_sorted.
