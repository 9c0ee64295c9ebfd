(** Property C123: objects behind C pointers behave as values. *)
From Verif Require Import Base CHandleModel.

(** ** Specification: programs over values, without memory *)

Section Spec.
Context {T : Type} (eqb : T -> T -> bool).

(** What a variable of the C program stands for. *)
Inductive val :=
| VNull
| VElem (x : T)
| VColl (l : list T)
| VError (name : string)
| VDead.                    (* deleted: must not be used *)

Definition alive (x : val) : Prop :=
  match x with VNull | VDead => False | _ => True end.

Inductive sres (A : Type) : Type :=
| SOk (a : A)
| SAbort
| SMisuse.
Arguments SOk {A} a.
Arguments SAbort {A}.
Arguments SMisuse {A}.

Definition upd (f : Z -> val) (v : Z) (x : val) : Z -> val :=
  fun w => if w =? v then x else f w.

Definition spec_call (f : Z -> val) (k : call T) : sres ((Z -> val) * obs) :=
  match k with
  | CMake x None => SAbort
  | CMake x (Some v) => SOk (upd f v (VElem x), Nothing)
  | CNew None => SAbort
  | CNew (Some v) => SOk (upd f v (VColl []), Nothing)
  | CDrop e =>
      match f e with
      | VNull => SOk (f, Nothing)
      | VElem _ => SOk (upd f e VDead, Nothing)
      | _ => SMisuse
      end
  | CDelete c =>
      match f c with
      | VNull => SOk (f, Nothing)
      | VColl _ => SOk (upd f c VDead, Nothing)
      | _ => SMisuse
      end
  | CLen c =>
      match f c with
      | VNull => SAbort
      | VColl l => SOk (f, Length (Zlen l))
      | _ => SMisuse
      end
  | CGet c i out err =>
      match f c with
      | VNull => SOk (upd f err (VError "collection"), Found false true)
      | VColl l =>
          match out with
          | None => SOk (upd f err (VError "elem_out"), Found false true)
          | Some v =>
              match nth_error l (Z.to_nat i) with
              | Some x => SOk (upd (upd f v (VElem x)) err VNull, Found true false)
              | None => SOk (upd f err VNull, Found false false)
              end
          end
      | _ => SMisuse
      end
  | CAdd e c =>
      match f c with
      | VNull => SAbort
      | VColl l =>
          match f e with
          | VNull => SAbort
          | VElem x => SOk (upd f c (VColl (l ++ [x])), Nothing)
          | _ => SMisuse
          end
      | _ => SMisuse
      end
  | CEq p q =>
      match f p with
      | VNull => SAbort
      | VElem x =>
          match f q with
          | VNull => SAbort
          | VElem y => SOk (f, Equal (eqb x y))
          | _ => SMisuse
          end
      | _ => SMisuse
      end
  | CErrText e =>
      match f e with
      | VNull => SOk (f, Text "success")
      | VError n => SOk (f, Text ("invalid argument: " ++ n))
      | _ => SMisuse
      end
  | CErrDrop e =>
      match f e with
      | VNull => SOk (f, Nothing)
      | VError _ => SOk (upd f e VDead, Nothing)
      | _ => SMisuse
      end
  end.

Fixpoint spec_run (f : Z -> val) (ks : list (call T)) : sres ((Z -> val) * list obs) :=
  match ks with
  | [] => SOk (f, [])
  | k :: ks' =>
      match spec_call f k with
      | SOk (f1, o) =>
          match spec_run f1 ks' with
          | SOk (f2, os) => SOk (f2, o :: os)
          | SAbort => SAbort
          | SMisuse => SMisuse
          end
      | SAbort => SAbort
      | SMisuse => SMisuse
      end
  end.

Definition nulls : Z -> val := fun _ => VNull.

(** An allocator never returns null or an address in use; it may reuse others. *)
Definition alloc_ok (alloc : nat -> heap T -> Z) : Prop :=
  forall n h, alloc n h <> 0 /\ lookup h (alloc n h) = None.

(** A careful program does not store a result into a variable that still owns
    an object. *)
Definition dead_or_null (f : Z -> val) (v : Z) : Prop := ~ alive (f v).

Definition careful_call (f : Z -> val) (k : call T) : Prop :=
  match k with
  | CMake _ (Some v) | CNew (Some v) => dead_or_null f v
  | CGet _ _ out err => dead_or_null f err /\
      match out with Some v => dead_or_null f v /\ v <> err | None => True end
  | _ => True
  end.

Fixpoint careful (f : Z -> val) (ks : list (call T)) : Prop :=
  match ks with
  | [] => True
  | k :: ks' => careful_call f k /\
      match spec_call f k with SOk (f1, _) => careful f1 ks' | _ => True end
  end.

(** ** Memory represents the values *)

Definition holds (x : val) (p : Z) (h : heap T) : Prop :=
  match x with
  | VNull => p = 0
  | VElem y => p <> 0 /\ lookup h p = Some (OElem y)
  | VColl l => p <> 0 /\ lookup h p = Some (OColl l)
  | VError n => p <> 0 /\ lookup h p = Some (OError n)
  | VDead => True
  end.

Definition rep (f : Z -> val) (s : state T) : Prop :=
  (forall v, holds (f v) (var s v) (mem s)) /\
  (forall v w, v <> w -> alive (f v) -> alive (f w) -> var s v <> var s w).

Definition owned (f : Z -> val) (s : state T) : Prop :=
  forall a o, lookup (mem s) a = Some o -> exists v, alive (f v) /\ var s v = a.

Lemma lookup_free_same : forall (h : heap T) p, lookup (free h p) p = None.
Proof.
  induction h as [|[a o] h IH]; intros p; [reflexivity|].
  unfold free in *. cbn [filter fst]. destruct (a =? p) eqn:E; cbn [negb]; [apply IH|].
  cbn [lookup]. rewrite E. apply IH.
Qed.

Lemma lookup_free_other : forall (h : heap T) p q, q <> p -> lookup (free h p) q = lookup h q.
Proof.
  induction h as [|[a o] h IH]; intros p q N; [reflexivity|].
  unfold free in *. cbn [filter fst lookup]. destruct (a =? p) eqn:E; cbn [negb].
  - rewrite IH by exact N. destruct (a =? q) eqn:E2; [lia|reflexivity].
  - cbn [lookup]. rewrite IH by exact N. reflexivity.
Qed.

Definition val_of (o : obj T) : val :=
  match o with OElem x => VElem x | OColl l => VColl l | OError n => VError n end.

Lemma alive_val_of : forall o, alive (val_of o).
Proof. intros [ | | ]; exact I. Qed.

Lemma holds_alive : forall x p h, holds x p h -> alive x ->
  p <> 0 /\ exists o, lookup h p = Some o /\ x = val_of o.
Proof.
  intros [|y|l|n|] p h H A; cbn in *; try contradiction; destruct H as [H1 H2];
    (split; [exact H1|]); eexists; (split; [exact H2|reflexivity]).
Qed.

Lemma holds_ext : forall x p h h', (alive x -> lookup h' p = lookup h p) ->
  holds x p h -> holds x p h'.
Proof.
  intros [|y|l|n|] p h h' E H; cbn in *; auto; rewrite E; auto.
Qed.

Lemma rep_store : forall f s a o v,
  rep f s -> a <> 0 -> lookup (mem s) a = None ->
  rep (upd f v (val_of o)) (store a o v s).
Proof.
  intros f s a o v [R1 R2] A L. split.
  - intros w. unfold upd, store, set. cbn [var mem]. destruct (w =? v) eqn:E.
    + destruct o; cbn; rewrite Z.eqb_refl; auto.
    + apply holds_ext with (h := mem s); [|apply R1]. intros AL.
      destruct (holds_alive _ _ _ (R1 w) AL) as [_ (o' & H & _)].
      cbn [lookup]. destruct (a =? var s w) eqn:E2; [|reflexivity].
      assert (a = var s w) by lia. congruence.
  - intros w1 w2 N A1 A2. unfold upd, store, set in *. cbn [var].
    destruct (w1 =? v) eqn:E1; destruct (w2 =? v) eqn:E2.
    + lia.
    + destruct (holds_alive _ _ _ (R1 w2) A2) as [_ (o' & H & _)]. congruence.
    + destruct (holds_alive _ _ _ (R1 w1) A1) as [_ (o' & H & _)]. congruence.
    + apply R2; auto.
Qed.

Lemma rep_null : forall f s v,
  rep f s -> rep (upd f v VNull) (mk_state (mem s) (set (var s) v 0)).
Proof.
  intros f s v [R1 R2]. split.
  - intros w. unfold upd, set. cbn [var mem]. destruct (w =? v); [reflexivity|apply R1].
  - intros w1 w2 N A1 A2. unfold upd, set in *. cbn [var].
    destruct (w1 =? v); [destruct A1|]. destruct (w2 =? v); [destruct A2|]. auto.
Qed.

Lemma rep_free : forall f s v,
  rep f s -> alive (f v) ->
  rep (upd f v VDead) (mk_state (free (mem s) (var s v)) (var s)).
Proof.
  intros f s v [R1 R2] AV. split.
  - intros w. unfold upd. cbn [var mem]. destruct (w =? v) eqn:E; [exact I|].
    apply holds_ext with (h := mem s); [|apply R1]. intros AL.
    apply lookup_free_other. apply R2; auto. lia.
  - intros w1 w2 N A1 A2. unfold upd in *. cbn [var].
    destruct (w1 =? v); [destruct A1|]. destruct (w2 =? v); [destruct A2|]. auto.
Qed.

Lemma rep_replace : forall f s v o,
  rep f s -> alive (f v) ->
  rep (upd f v (val_of o)) (mk_state ((var s v, o) :: free (mem s) (var s v)) (var s)).
Proof.
  intros f s v o [R1 R2] AV. split.
  - intros w. unfold upd. cbn [var mem]. destruct (w =? v) eqn:E.
    + assert (w = v) by lia. subst w.
      destruct (holds_alive _ _ _ (R1 v) AV) as [NZ _].
      destruct o; cbn [val_of holds lookup]; rewrite Z.eqb_refl; auto.
    + apply holds_ext with (h := mem s); [|apply R1]. intros AL.
      assert (N : var s w <> var s v) by (apply R2; auto; lia).
      cbn [lookup]. destruct (var s v =? var s w) eqn:E2; [lia|].
      apply lookup_free_other. exact N.
  - intros w1 w2 N A1 A2. unfold upd in *. cbn [var].
    apply R2; auto.
    + destruct (w1 =? v) eqn:E; [|exact A1]. assert (w1 = v) by lia. congruence.
    + destruct (w2 =? v) eqn:E; [|exact A2]. assert (w2 = v) by lia. congruence.
Qed.

Lemma owned_store : forall f s a o v,
  owned f s -> dead_or_null f v -> owned (upd f v (val_of o)) (store a o v s).
Proof.
  intros f s a o v O D b o' L. unfold store in *. cbn [mem lookup var] in *.
  destruct (a =? b) eqn:E.
  - exists v. unfold upd, set. rewrite !Z.eqb_refl. split; [apply alive_val_of|lia].
  - destruct (O _ _ L) as (w & A & P). exists w. unfold upd, set.
    destruct (w =? v) eqn:E2; [|auto]. assert (w = v) by lia. subst w. destruct (D A).
Qed.

Lemma owned_null : forall f s v,
  owned f s -> dead_or_null f v ->
  owned (upd f v VNull) (mk_state (mem s) (set (var s) v 0)).
Proof.
  intros f s v O D b o' L. cbn [mem lookup var] in *.
  destruct (O _ _ L) as (w & A & P). exists w. unfold upd, set.
  destruct (w =? v) eqn:E2; [|auto]. assert (w = v) by lia. subst w. destruct (D A).
Qed.

Lemma owned_free : forall f s v,
  owned f s -> owned (upd f v VDead) (mk_state (free (mem s) (var s v)) (var s)).
Proof.
  intros f s v O b o' L. cbn [mem var] in *.
  destruct (Z.eq_dec b (var s v)) as [Q|Q].
  - subst b. rewrite lookup_free_same in L. discriminate.
  - rewrite lookup_free_other in L by exact Q.
    destruct (O _ _ L) as (w & A & P). exists w. unfold upd.
    destruct (w =? v) eqn:E2; [|auto]. assert (w = v) by lia. congruence.
Qed.

Lemma owned_replace : forall f s v o,
  owned f s -> alive (f v) ->
  owned (upd f v (val_of o)) (mk_state ((var s v, o) :: free (mem s) (var s v)) (var s)).
Proof.
  intros f s v o O AV b o' L. cbn [mem var lookup] in *.
  destruct (var s v =? b) eqn:E.
  - exists v. unfold upd. rewrite Z.eqb_refl. split; [apply alive_val_of|lia].
  - rewrite lookup_free_other in L by lia.
    destruct (O _ _ L) as (w & A & P). exists w. unfold upd.
    destruct (w =? v) eqn:E2; [|auto]. split; [apply alive_val_of|exact P].
Qed.

(** One call keeps the correspondence. *)
Lemma call_rep : forall f s a k,
  rep f s -> a <> 0 -> lookup (mem s) a = None ->
  match spec_call f k with
  | SOk (f', o) => exists s', do_call eqb a s k = Done (s', o) /\ rep f' s' /\
      (owned f s -> careful_call f k -> owned f' s')
  | SAbort => do_call eqb a s k = Abort
  | SMisuse => True
  end.
Proof.
  intros f s a k R A L. pose proof (proj1 R) as R1.
  assert (KEEP : forall o : obs, exists s', Done (s, o) = Done (s', o) /\ rep f s' /\
            (owned f s -> careful_call f k -> owned f s')) by (intros o; exists s; auto).
  destruct k as [x [v|]|e|[v|]|c|c|c i out err|e c|p q|e|e]; cbn [spec_call do_call].
  - (* make *)
    eexists. split; [reflexivity|]. split.
    + exact (rep_store f s a (OElem x) v R A L).
    + intros O C. exact (owned_store f s a (OElem x) v O C).
  - reflexivity.
  - (* drop *)
    pose proof (R1 e) as He. destruct (f e) as [|y|l|n|] eqn:F; cbn [holds] in He; try exact I.
    + rewrite He. cbn [Z.eqb]. exists s. auto.
    + destruct He as [N H]. destruct (var s e =? 0) eqn:Z0; [lia|]. rewrite H.
      eexists. split; [reflexivity|]. split.
      * apply rep_free; [exact R|]. rewrite F. exact I.
      * intros O _. apply owned_free. exact O.
  - (* new *)
    eexists. split; [reflexivity|]. split.
    + exact (rep_store f s a (OColl []) v R A L).
    + intros O C. exact (owned_store f s a (OColl []) v O C).
  - reflexivity.
  - (* delete *)
    pose proof (R1 c) as He. destruct (f c) as [|y|l|n|] eqn:F; cbn [holds] in He; try exact I.
    + rewrite He. cbn [Z.eqb]. exists s. auto.
    + destruct He as [N H]. destruct (var s c =? 0) eqn:Z0; [lia|]. rewrite H.
      eexists. split; [reflexivity|]. split.
      * apply rep_free; [exact R|]. rewrite F. exact I.
      * intros O _. apply owned_free. exact O.
  - (* len *)
    pose proof (R1 c) as He. unfold as_coll.
    destruct (f c) as [|y|l|n|] eqn:F; cbn [holds] in He; try exact I.
    + rewrite He. reflexivity.
    + destruct He as [N H]. destruct (var s c =? 0) eqn:Z0; [lia|]. rewrite H.
      apply KEEP.
  - (* get *)
    pose proof (R1 c) as He. unfold as_coll.
    destruct (f c) as [|y|l|n|] eqn:F; cbn [holds] in He; try exact I.
    + rewrite He. cbn [Z.eqb]. eexists. split; [reflexivity|]. split.
      * exact (rep_store f s a (OError "collection") err R A L).
      * intros O [C _]. exact (owned_store f s a (OError "collection") err O C).
    + destruct He as [N H]. destruct (var s c =? 0) eqn:Z0; [lia|]. rewrite H.
      destruct out as [v|].
      * destruct (nth_error l (Z.to_nat i)) as [x|] eqn:NE.
        -- eexists. split; [reflexivity|]. split.
           ++ apply rep_null. exact (rep_store f s a (OElem x) v R A L).
           ++ intros O [C1 [C2 C3]]. apply owned_null.
              ** exact (owned_store f s a (OElem x) v O C2).
              ** unfold dead_or_null, upd. destruct (err =? v) eqn:E; [lia|exact C1].
        -- eexists. split; [reflexivity|]. split.
           ++ apply rep_null. exact R.
           ++ intros O [C1 _]. apply owned_null; assumption.
      * eexists. split; [reflexivity|]. split.
        -- exact (rep_store f s a (OError "elem_out") err R A L).
        -- intros O [C _]. exact (owned_store f s a (OError "elem_out") err O C).
  - (* add *)
    pose proof (R1 c) as Hc. pose proof (R1 e) as He. unfold as_coll, as_elem.
    destruct (f c) as [|y|l|n|] eqn:F; cbn [holds] in Hc; try exact I.
    + rewrite Hc. reflexivity.
    + destruct Hc as [N H]. destruct (var s c =? 0) eqn:Z0; [lia|]. rewrite H.
      destruct (f e) as [|x|l'|n|] eqn:Fe; cbn [holds] in He; try exact I.
      * rewrite He. reflexivity.
      * destruct He as [N' H']. destruct (var s e =? 0) eqn:Z1; [lia|]. rewrite H'.
        eexists. split; [reflexivity|]. split.
        -- apply (rep_replace f s c (OColl (l ++ [x])) R). rewrite F. exact I.
        -- intros O _. apply (owned_replace f s c (OColl (l ++ [x])) O). rewrite F. exact I.
  - (* eq *)
    pose proof (R1 p) as Hp. pose proof (R1 q) as Hq. unfold as_elem.
    destruct (f p) as [|x|l|n|] eqn:F; cbn [holds] in Hp; try exact I.
    + rewrite Hp. reflexivity.
    + destruct Hp as [N H]. destruct (var s p =? 0) eqn:Z0; [lia|]. rewrite H.
      destruct (f q) as [|y|l'|n|] eqn:Fq; cbn [holds] in Hq; try exact I.
      * rewrite Hq. reflexivity.
      * destruct Hq as [N' H']. destruct (var s q =? 0) eqn:Z1; [lia|]. rewrite H'.
        apply KEEP.
  - (* error text *)
    pose proof (R1 e) as He. destruct (f e) as [|y|l|n|] eqn:F; cbn [holds] in He; try exact I.
    + rewrite He. cbn [Z.eqb]. apply KEEP.
    + destruct He as [N H]. destruct (var s e =? 0) eqn:Z0; [lia|]. rewrite H. apply KEEP.
  - (* error drop *)
    pose proof (R1 e) as He. destruct (f e) as [|y|l|n|] eqn:F; cbn [holds] in He; try exact I.
    + rewrite He. cbn [Z.eqb]. apply KEEP.
    + destruct He as [N H]. destruct (var s e =? 0) eqn:Z0; [lia|]. rewrite H.
      eexists. split; [reflexivity|]. split.
      * apply rep_free; [exact R|]. rewrite F. exact I.
      * intros O _. apply owned_free. exact O.
Qed.

Lemma run_rep : forall alloc, alloc_ok alloc -> forall ks n f s, rep f s ->
  match spec_run f ks with
  | SOk (f', os) => exists s', run_calls eqb alloc n s ks = Done (s', os) /\ rep f' s' /\
      (owned f s -> careful f ks -> owned f' s')
  | SAbort => run_calls eqb alloc n s ks = Abort
  | SMisuse => True
  end.
Proof.
  intros alloc AO. induction ks as [|k ks IH]; intros n f s R; cbn [spec_run run_calls].
  - exists s. auto.
  - destruct (AO n (mem s)) as [A L].
    pose proof (call_rep f s (alloc n (mem s)) k R A L) as C.
    cbn [careful]. destruct (spec_call f k) as [[f1 o]| |] eqn:E; [| |exact I].
    + destruct C as (s1 & D & R' & O1). rewrite D. specialize (IH (S n) f1 s1 R').
      destruct (spec_run f1 ks) as [[f2 os]| |]; [| |exact I].
      * destruct IH as (s2 & D2 & R2 & O2). rewrite D2. exists s2.
        split; [reflexivity|]. split; [exact R2|]. intros O [C1 C2]. auto.
      * rewrite IH. reflexivity.
    + rewrite C. reflexivity.
Qed.

Lemma rep_init : rep nulls init.
Proof. split; [reflexivity|]. intros v w _ []. Qed.

(** ** Property theorems *)

(** For every allocator and every sequence of calls that does not use a deleted
    object or one of another type, there is no undefined behaviour, and the
    program sees exactly what it would see if its variables were values: results
    of a call depend on nothing but the values of its arguments, deleting or
    changing one object never affects another, and a null argument ends the
    process only where the specification says so. *)
Theorem c123_value_semantics : forall alloc ks,
  alloc_ok alloc ->
  match spec_run nulls ks with
  | SOk (f, os) => exists s, run_calls eqb alloc 0 init ks = Done (s, os) /\
      (forall v, f v = VNull -> var s v = 0) /\
      (forall v, alive (f v) -> var s v <> 0)
  | SAbort => run_calls eqb alloc 0 init ks = Abort
  | SMisuse => True
  end.
Proof.
  intros alloc ks AO. pose proof (run_rep alloc AO ks 0 nulls init rep_init) as H.
  destruct (spec_run nulls ks) as [[f os]| |]; auto.
  destruct H as (s & D & [R1 R2] & _). exists s. split; [exact D|]. split.
  - intros v F. specialize (R1 v). rewrite F in R1. exact R1.
  - intros v A. apply (holds_alive _ _ _ (R1 v) A).
Qed.

(** Nothing leaks: if a careful program has deleted everything it was given,
    no object is left in memory. *)
Theorem c123_no_leak : forall alloc ks f os,
  alloc_ok alloc -> spec_run nulls ks = SOk (f, os) -> careful nulls ks ->
  (forall v, ~ alive (f v)) ->
  exists s, run_calls eqb alloc 0 init ks = Done (s, os) /\ mem s = [].
Proof.
  intros alloc ks f os AO E C D.
  pose proof (run_rep alloc AO ks 0 nulls init rep_init) as H. rewrite E in H.
  destruct H as (s & Dn & _ & O). exists s. split; [exact Dn|].
  assert (O' : owned f s) by (apply O; [intros a o L; discriminate L|exact C]).
  destruct (mem s) as [|[a o] h] eqn:M; [reflexivity|].
  destruct (O' a o) as (v & A & _).
  - rewrite M. cbn [lookup]. rewrite Z.eqb_refl. reflexivity.
  - destruct (D v A).
Qed.

(** Filling a collection from temporary elements that are deleted at once. *)
Definition fill (c e : Z) (xs : list T) : list (call T) :=
  flat_map (fun x => [CMake x (Some e); CAdd e c; CDrop e]) xs.

Lemma spec_run_app : forall ks1 ks2 f,
  spec_run f (ks1 ++ ks2) =
  match spec_run f ks1 with
  | SOk (f1, os1) =>
      match spec_run f1 ks2 with
      | SOk (f2, os2) => SOk (f2, os1 ++ os2)
      | SAbort => SAbort
      | SMisuse => SMisuse
      end
  | SAbort => SAbort
  | SMisuse => SMisuse
  end.
Proof.
  induction ks1 as [|k ks1 IH]; intros ks2 f; cbn [app spec_run].
  - destruct (spec_run f ks2) as [[f2 os2]| |]; reflexivity.
  - destruct (spec_call f k) as [[f1 o]| |]; auto. rewrite IH.
    destruct (spec_run f1 ks1) as [[f2 os1]| |]; auto.
    destruct (spec_run f2 ks2) as [[f3 os2]| |]; auto.
Qed.

Lemma spec_cons : forall f k f1 o ks f2 os,
  spec_call f k = SOk (f1, o) -> spec_run f1 ks = SOk (f2, os) ->
  spec_run f (k :: ks) = SOk (f2, o :: os).
Proof. intros f k f1 o ks f2 os H1 H2. cbn [spec_run]. rewrite H1, H2. reflexivity. Qed.

Lemma fill_spec : forall c e xs f l, c <> e -> f c = VColl l ->
  exists f', spec_run f (fill c e xs) =
      SOk (f', repeat Nothing (3 * List.length xs)%nat) /\
    f' c = VColl (l ++ xs) /\ (forall v, v <> c -> v <> e -> f' v = f v).
Proof.
  intros c e xs. induction xs as [|x xs IH]; intros f l N F.
  - exists f. rewrite app_nil_r. auto.
  - cbn [fill flat_map app]. cbn [spec_run spec_call].
    set (f1 := upd f e (VElem x)).
    assert (F1c : f1 c = VColl l) by (unfold f1, upd; destruct (c =? e) eqn:E; [lia|exact F]).
    assert (F1e : f1 e = VElem x) by (unfold f1, upd; rewrite Z.eqb_refl; reflexivity).
    rewrite F1c, F1e.
    set (f2 := upd f1 c (VColl (l ++ [x]))).
    assert (F2e : f2 e = VElem x) by (unfold f2, upd; destruct (e =? c) eqn:E; [lia|exact F1e]).
    rewrite F2e.
    set (f3 := upd f2 e VDead).
    assert (F3c : f3 c = VColl (l ++ [x])).
    { unfold f3, f2, upd. destruct (c =? e) eqn:E; [lia|]. rewrite Z.eqb_refl. reflexivity. }
    destruct (IH f3 _ N F3c) as (f' & R & Fc & Fo). unfold fill in R. rewrite R.
    exists f'. split; [|split].
    + f_equal. f_equal. cbn [List.length].
      replace (3 * S (List.length xs))%nat with (S (S (S (3 * List.length xs)))) by lia.
      reflexivity.
    + rewrite Fc, <- app_assoc. reflexivity.
    + intros v V1 V2. rewrite Fo by assumption. unfold f3, f2, f1, upd.
      destruct (v =? e) eqn:E1; [lia|]. destruct (v =? c) eqn:E2; [lia|]. reflexivity.
Qed.

(** A collection is the list of what was added, in order; an element taken from
    it keeps its value after the collection and the added elements are gone. *)
Theorem c123_collection_is_list : forall alloc xs i x y,
  alloc_ok alloc -> 0 <= i -> nth_error xs (Z.to_nat i) = Some x ->
  exists s, run_calls eqb alloc 0 init
      (CNew (Some 1) :: fill 1 2 xs ++
       [CLen 1; CGet 1 i (Some 3) 4; CGet 1 (Zlen xs) (Some 5) 4; CDelete 1;
        CMake y (Some 6); CEq 3 6])
    = Done (s, Nothing :: repeat Nothing (3 * List.length xs)%nat ++
               [Length (Zlen xs); Found true false; Found false false; Nothing;
                Nothing; Equal (eqb x y)]).
Proof.
  intros alloc xs i x y AO I0 NE.
  set (ks := CNew (Some 1) :: _).
  pose proof (c123_value_semantics alloc ks AO) as H.
  assert (E : exists f, spec_run nulls ks = SOk (f,
    Nothing :: repeat Nothing (3 * List.length xs)%nat ++
               [Length (Zlen xs); Found true false; Found false false; Nothing;
                Nothing; Equal (eqb x y)])).
  { unfold ks. cbn [spec_run spec_call]. rewrite spec_run_app.
    destruct (fill_spec 1 2 xs (upd nulls 1 (VColl [])) [] ltac:(lia) eq_refl)
      as (f' & R & Fc & _).
    rewrite R. cbn [app] in Fc.
    assert (NN : nth_error xs (Z.to_nat (Zlen xs)) = None).
    { apply nth_error_None. unfold Zlen. lia. }
    assert (TAIL : exists f2, spec_run f' [CLen 1; CGet 1 i (Some 3) 4;
        CGet 1 (Zlen xs) (Some 5) 4; CDelete 1; CMake y (Some 6); CEq 3 6]
      = SOk (f2, [Length (Zlen xs); Found true false; Found false false; Nothing;
                Nothing; Equal (eqb x y)])).
    { eexists.
      eapply spec_cons; [cbn [spec_call]; rewrite Fc; reflexivity|].
      eapply spec_cons; [cbn [spec_call]; rewrite Fc, NE; reflexivity|].
      eapply spec_cons; [cbn [spec_call]; unfold upd; cbn [Z.eqb Pos.eqb];
        rewrite Fc, NN; reflexivity|].
      eapply spec_cons; [cbn [spec_call]; unfold upd; cbn [Z.eqb Pos.eqb];
        rewrite Fc; reflexivity|].
      eapply spec_cons; [reflexivity|].
      eapply spec_cons; [reflexivity|]. reflexivity. }
    destruct TAIL as [f2 TAIL]. rewrite TAIL. eexists. reflexivity. }
  destruct E as [f E]. rewrite E in H. destruct H as (s & D & _). exists s. exact D.
Qed.

(** Without the discipline the C program is on its own: deleting twice is
    undefined, and a pointer kept after its object was deleted can denote
    another object that was created later, without any sign of it. *)
Theorem c123_stale_pointer_refuted : forall x : T,
  (forall alloc, alloc_ok alloc ->
     run_calls eqb alloc 0 init [CNew (Some 1); CDelete 1; CDelete 1] = Ub) /\
  (exists alloc, alloc_ok alloc /\ exists s,
     run_calls eqb alloc 0 init
       [CNew (Some 1); CDelete 1; CNew (Some 2); CMake x (Some 3); CAdd 3 2; CLen 1]
     = Done (s, [Nothing; Nothing; Nothing; Nothing; Nothing; Length 1])).
Proof.
  intros x. split.
  - intros alloc AO. cbn [run_calls do_call init mem var store].
    destruct (AO 0%nat []) as [N _]. set (a := alloc 0%nat []) in *.
    unfold set. cbn [Z.eqb Pos.eqb mem var]. destruct (a =? 0) eqn:E; [lia|].
    cbn [lookup]. rewrite Z.eqb_refl. unfold free. cbn [filter fst negb].
    rewrite Z.eqb_refl. cbn [negb mem var lookup]. cbn [Z.eqb Pos.eqb]. rewrite E. reflexivity.
  - exists (fun _ h => 1 + fold_right (fun e m => Z.max (fst e) m) 0 h). split.
    + intros _ h. assert (G : forall h : heap T, forall a,
        fold_right (fun e m => Z.max (fst e) m) 0 h < a -> lookup h a = None).
      { clear h. induction h as [|[b o] h IH]; intros a L; [reflexivity|].
        cbn [fold_right fst lookup] in *. destruct (b =? a) eqn:E; [lia|]. apply IH. lia. }
      assert (P : forall h : heap T, 0 <= fold_right (fun e m => Z.max (fst e) m) 0 h).
      { clear h. induction h as [|[b o] h IH]; cbn [fold_right fst]; lia. }
      split; [specialize (P h); lia|]. apply G. lia.
    + eexists. reflexivity.
Qed.

(** A null collection is reported as an error by one function only; asking for
    its length, or adding to it, ends the process. *)
Theorem c123_null_reported_refuted :
  forall alloc, alloc_ok alloc ->
  run_calls eqb alloc 0 init [CLen 1] = Abort /\
  (forall x, run_calls eqb alloc 0 init [CMake x (Some 2); CAdd 2 1] = Abort) /\
  (exists s, run_calls eqb alloc 0 init
     [CGet 1 0 (Some 2) 3; CErrText 3; CErrDrop 3]
     = Done (s, [Found false true; Text "invalid argument: collection"; Nothing])).
Proof.
  intros alloc AO. split; [|split].
  - exact (c123_value_semantics alloc [CLen 1] AO).
  - intros x. exact (c123_value_semantics alloc [CMake x (Some 2); CAdd 2 1] AO).
  - pose proof (c123_value_semantics alloc [CGet 1 0 (Some 2) 3; CErrText 3; CErrDrop 3] AO) as H.
    cbn in H. destruct H as (s & D & _). exists s. exact D.
Qed.

(** A collection passed where up to [U] elements are allowed arrives unchanged
    or is refused, and is refused exactly if it is non-empty and out of bounds;
    an absent list comes back as an empty collection. *)
Theorem c123_bounded : forall L U (l : list T),
  (forall o, opt_bounded L U l = Ok o -> of_opt_bounded o = l) /\
  (opt_bounded L U l = Ok None <-> l = []) /\
  ((exists e, opt_bounded L U l = Err e) <-> l <> [] /\ (Zlen l < L \/ U < Zlen l)) /\
  opt_bounded L U l <> Panic /\
  of_opt_bounded (T := T) None = [].
Proof.
  intros L U l. unfold opt_bounded. destruct l as [|x l].
  - split; [intros o [= <-]; reflexivity|]. split; [tauto|].
    split; [|split; [discriminate|reflexivity]].
    split; [intros [e Q]; discriminate|intros [Q _]; congruence].
  - destruct ((Zlen (x :: l) <? L) || (U <? Zlen (x :: l))) eqn:E.
    + split; [discriminate|]. split; [split; discriminate|].
      split; [|split; [discriminate|reflexivity]].
      split; [intros _; split; [discriminate|lia]|eauto].
    + split; [intros o [= <-]; reflexivity|]. split; [split; discriminate|].
      split; [|split; [discriminate|reflexivity]].
      split; [intros [e Q]; discriminate|intros [_ Q]; lia].
Qed.

End Spec.

(** ** Collections of strings *)

Lemma slookup_sfree : forall h p q,
  slookup (sfree h p) q = if q =? p then None else slookup h q.
Proof.
  induction h as [|[a o] h IH]; intros p q.
  - cbn. destruct (q =? p); reflexivity.
  - unfold sfree in *. cbn [filter fst]. destruct (a =? p) eqn:E; cbn [negb slookup].
    + rewrite IH. destruct (q =? p) eqn:E2; [reflexivity|].
      destruct (a =? q) eqn:E3; [lia|reflexivity].
    + rewrite IH. destruct (q =? p) eqn:E2.
      * destruct (a =? q) eqn:E3; [lia|reflexivity].
      * reflexivity.
Qed.

Lemma free_strings_spec : forall items h,
  NoDup items -> (forall p, In p items -> slookup h p = Some SStr) ->
  exists h', free_strings h items = Done h' /\
    forall q, slookup h' q = if in_dec Z.eq_dec q items then None else slookup h q.
Proof.
  induction items as [|p items IH]; intros h ND HS; cbn [free_strings].
  - exists h. split; [reflexivity|]. intros q. destruct (in_dec Z.eq_dec q []) as [[]|]; reflexivity.
  - rewrite (HS p) by (left; reflexivity). inversion_clear ND as [|? ? NI ND'].
    destruct (IH (sfree h p) ND') as (h' & E & L).
    + intros q Q. rewrite slookup_sfree. destruct (q =? p) eqn:X.
      * assert (q = p) by lia. congruence.
      * apply HS. right. exact Q.
    + exists h'. split; [exact E|]. intros q. rewrite L, slookup_sfree.
      destruct (in_dec Z.eq_dec q items) as [Q|Q];
        destruct (in_dec Z.eq_dec q (p :: items)) as [Q'|Q']; auto.
      * exfalso. apply Q'. right. exact Q.
      * destruct Q' as [Q'|Q']; [subst; rewrite Z.eqb_refl; reflexivity|contradiction].
      * destruct (q =? p) eqn:X; [|reflexivity]. exfalso. apply Q'. left. lia.
Qed.

Lemma slookup_strings : forall items p, In p items ->
  slookup (map (fun p => (p, SStr)) items) p = Some SStr.
Proof.
  induction items as [|q items IH]; intros p []; cbn [map slookup].
  - subst. rewrite Z.eqb_refl. reflexivity.
  - destruct (q =? p); [reflexivity|auto].
Qed.

Lemma slookup_strings_none : forall items p, ~ In p items ->
  slookup (map (fun p => (p, SStr)) items) p = None.
Proof.
  induction items as [|q items IH]; intros p N; cbn [map slookup]; [reflexivity|].
  destruct (q =? p) eqn:E; [exfalso; apply N; left; lia|]. apply IH. intros Q. apply N. right. exact Q.
Qed.

(** Deleting the list of peers that discovery returned frees every string and
    the array, but never the block that holds the list: each discovery leaks it.
    Deleting the list a second time is undefined. *)
Theorem c123_strings_leak_refuted : forall box array items,
  box <> 0 -> NoDup (box :: array :: items) ->
  exists h, delete_string_collection (string_collection box array items) box = Done h /\
    (forall q, slookup h q <> None <-> q = box) /\
    delete_string_collection h box = Ub.
Proof.
  intros box array items B ND.
  inversion_clear ND as [|? ? N1 ND']. inversion_clear ND' as [|? ? N2 ND].
  assert (BA : box <> array) by (intros Q; apply N1; left; auto).
  assert (BI : ~ In box items) by (intros Q; apply N1; right; auto).
  unfold delete_string_collection at 1, string_collection at 1.
  destruct (box =? 0) eqn:B0; [lia|]. cbn [slookup]. rewrite Z.eqb_refl.
  change (slookup (string_collection box array items) array) with
    (if box =? array then Some (SBox array (List.length items))
     else if array =? array then Some (SArray items)
     else slookup (map (fun p => (p, SStr)) items) array).
  destruct (box =? array) eqn:E; [lia|]. rewrite Z.eqb_refl, Nat.eqb_refl.
  destruct (free_strings_spec items (sfree (string_collection box array items) array) ND)
    as (h & F & L).
  { intros p P. rewrite slookup_sfree. destruct (p =? array) eqn:E1.
    - assert (p = array) by lia. congruence.
    - unfold string_collection. cbn [slookup].
      destruct (box =? p) eqn:E2; [assert (box = p) by lia; congruence|].
      destruct (array =? p) eqn:E3; [lia|]. apply slookup_strings. exact P. }
  exists h. split; [exact F|].
  assert (K : forall q, slookup h q = if q =? box then Some (SBox array (List.length items)) else None).
  { intros q. rewrite L, slookup_sfree. unfold string_collection. cbn [slookup].
    destruct (in_dec Z.eq_dec q items) as [Q|Q].
    - destruct (q =? box) eqn:E1; [assert (q = box) by lia; congruence|reflexivity].
    - destruct (q =? array) eqn:E1.
      + destruct (q =? box) eqn:E2; [lia|reflexivity].
      + destruct (box =? q) eqn:E2.
        * replace (q =? box) with true by lia. reflexivity.
        * destruct (array =? q) eqn:E3; [lia|].
          rewrite slookup_strings_none by exact Q.
          replace (q =? box) with false by lia. reflexivity. }
  split.
  - intros q. rewrite K. destruct (q =? box) eqn:E1; split; intros H; try lia; try discriminate.
    congruence.
  - unfold delete_string_collection. rewrite B0, K, Z.eqb_refl, K.
    replace (array =? box) with false by lia. reflexivity.
Qed.

(** ** Hypotheses met *)

Definition bump (n : nat) (h : heap Z) : Z :=
  1 + fold_right (fun e m => Z.max (fst e) m) 0 h.

Example c123_hyps_met :
  alloc_ok bump /\
  (let ks := [CNew (Some 1); CMake 7 (Some 2); CAdd 2 1; CGet 1 0 (Some 3) 4;
              CEq 2 3; CDelete 1; CDrop 2; CDrop 3] in
   careful Z.eqb nulls ks /\
   exists f os, spec_run Z.eqb nulls ks = SOk _ (f, os) /\
     os = [Nothing; Nothing; Nothing; Found true false; Equal true; Nothing; Nothing; Nothing] /\
     (forall v, ~ alive (f v))) /\
  NoDup [10; 11; 12; 13].
Proof.
  split; [|split].
  - intros n h. unfold bump. assert (G : forall h : heap Z, forall a,
        fold_right (fun e m => Z.max (fst e) m) 0 h < a -> lookup h a = None).
    { clear h. induction h as [|[b o] h IH]; intros a L; [reflexivity|].
      cbn [fold_right fst lookup] in *. destruct (b =? a) eqn:E; [lia|]. apply IH. lia. }
    assert (P : forall h : heap Z, 0 <= fold_right (fun e m => Z.max (fst e) m) 0 h).
    { clear h. induction h as [|[b o] h IH]; cbn [fold_right fst]; lia. }
    split; [specialize (P h); lia|]. apply G. lia.
  - cbn. split.
    + unfold dead_or_null, upd, nulls. cbn. intuition lia.
    + eexists. eexists. split; [reflexivity|]. split; [reflexivity|].
      intros v. unfold upd, nulls.
      destruct (v =? 3); [intros []|]. destruct (v =? 2); [intros []|].
      destruct (v =? 1); [intros []|]. destruct (v =? 4); [intros []|]. cbn.
      repeat match goal with |- context [if ?b then _ else _] => destruct b end; intros [].
  - repeat constructor; cbn; intuition lia.
Qed.

Print Assumptions c123_value_semantics.
Print Assumptions c123_no_leak.
Print Assumptions c123_collection_is_list.
Print Assumptions c123_stale_pointer_refuted.
Print Assumptions c123_null_reported_refuted.
Print Assumptions c123_bounded.
Print Assumptions c123_strings_leak_refuted.
