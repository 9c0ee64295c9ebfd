(** What a history of calls says about each delay, and the invariant that ties it to the
    state of the timer. *)
From Coq Require Import Permutation.
From Verif Require Import Base HeapModel HeapProofs TimerModel.
Local Open Scope list_scope.
Local Open Scope nat_scope.

(** * Histories, the latest call first *)

(** How many delays were made. *)
Fixpoint news (h : list ev) : nat :=
  match h with [] => 0 | New _ :: h => S (news h) | _ :: h => news h end.
(** When delay [k] is to fire: what it was last set to. *)
Fixpoint due (k : nat) (h : list ev) : option Z :=
  match h with
  | [] => None
  | New a :: h => if news h =? k then Some a else due k h
  | Reset k' a :: h => if k' =? k then Some a else due k h
  | _ :: h => due k h
  end.
(** It was made and not dropped. *)
Fixpoint live (k : nat) (h : list ev) : bool :=
  match h with
  | [] => false
  | New _ :: h => if news h =? k then true else live k h
  | DropD k' :: h => if k' =? k then false else live k h
  | _ :: h => live k h
  end.
(** The timer was polled since [k] was last made, reset or dropped. *)
Fixpoint served (k : nat) (h : list ev) : bool :=
  match h with
  | [] => true
  | New _ :: h => if news h =? k then false else served k h
  | Reset k' _ :: h => if k' =? k then false else served k h
  | DropD k' :: h => if k' =? k then false else served k h
  | Serve :: _ => true
  | _ :: h => served k h
  end.
(** Since [k] was last set, the timer was polled and then advanced to its instant or later. *)
Fixpoint rang (k : nat) (h : list ev) : bool :=
  match h with
  | [] => false
  | New _ :: h => if news h =? k then false else rang k h
  | Reset k' _ :: h => if k' =? k then false else rang k h
  | Advance now :: h =>
      (rang k h || (served k h && match due k h with Some a => (a <=? now)%Z | None => false end))%bool
  | _ :: h => rang k h
  end.
(** How often [k] was reset since the timer was last polled. *)
Fixpoint since (k : nat) (h : list ev) : Z :=
  match h with
  | [] => 0
  | Serve :: _ => 0
  | Reset k' _ :: h => (if k' =? k then 1 else 0) + since k h
  | _ :: h => since k h
  end.
(** No delay was ever reset [GENS] times between two polls of the timer. *)
Fixpoint calm (h : list ev) : Prop :=
  match h with [] => True | e :: h' => (forall k, (since k h < GENS)%Z) /\ calm h' end.

(** The states a history leads to. *)
Inductive hist : list ev -> st -> Prop :=
| hist_nil : hist [] s0
| hist_step h s e a s' : hist h s -> step s e = Ok (a, s') -> hist (e :: h) s'.

(** * Facts about histories *)
Lemma since_nonneg : forall k h, (0 <= since k h)%Z.
Proof. induction h as [|[] h IH]; cbn [since]; try lia. destruct (k0 =? k); lia. Qed.
Lemma served_since : forall k h, served k h = true -> since k h = 0%Z.
Proof.
  induction h as [|[a|k' a|k'|k'| |now| |] h IH]; cbn [served since]; auto.
  - destruct (news h =? k); [discriminate|auto].
  - destruct (k' =? k); [discriminate|]. intro S. now rewrite IH.
  - destruct (k' =? k); [discriminate|auto].
Qed.
Lemma live_news : forall k h, live k h = true -> k < news h.
Proof.
  induction h as [|[a|k' a|k'|k'| |now| |] h IH]; cbn [live news]; auto; [discriminate| |].
  - destruct (Nat.eqb_spec (news h) k); [lia|]. intro L. apply IH in L. lia.
  - destruct (k' =? k); [discriminate|auto].
Qed.

(** * Lists *)
Lemma put_length {A} : forall i (x : A) l, length (put i x l) = length l.
Proof. induction i as [|i IH]; intros x [|y l]; cbn [put length]; auto. Qed.
Lemma nth_put {A} : forall i (x : A) l j, nth_error (put i x l) j = if i =? j then match nth_error l j with Some _ => Some x | None => None end else nth_error l j.
Proof.
  induction i as [|i IH]; intros x [|y l] [|j]; cbn [put nth_error Nat.eqb]; try reflexivity.
  - now destruct (i =? j).
  - apply IH.
Qed.
Lemma nth_put_in {A} : forall i (x y : A) l j z, nth_error l i = Some y -> nth_error (put i x l) j = Some z -> (j = i /\ z = x) \/ (j <> i /\ nth_error l j = Some z).
Proof.
  intros i x y l j z Y E. rewrite nth_put in E. destruct (Nat.eqb_spec i j) as [<-|N]; [rewrite Y in E; injection E as <-; auto|auto].
Qed.

(** * The invariant *)
Notation items := (list (entry * nat)).
(** Entries of the heap and slots of the delays belong together. *)
Definition links (ds : list delay) (m : items) : Prop :=
  (forall e j, In (e, j) m -> exists d, nth_error ds (e_node e) = Some d /\ d_slot d = Some j) /\
  (forall k d j, nth_error ds k = Some d -> d_slot d = Some j -> exists e, In (e, j) m /\ e_node e = k).
Definition listed (ds : list delay) (l : list nat) : Prop :=
  NoDup l /\ (forall k d, nth_error ds k = Some d -> (d_enq d = true <-> In k l)) /\ Forall (fun k => k < length ds) l.
(** What the history [h] says of delay [k] holds of [d]. *)
Definition good (h : list ev) (k : nat) (m : items) (d : delay) : Prop :=
  d_node d = true /\ d_inv d = false /\ (0 <= d_gen d < GENS)%Z /\ d_live d = live k h /\ d_enq d = negb (served k h) /\
  if live k h then
    exists w, due k h = Some w /\ d_at d = Some w /\ d_fired d = rang k h /\ (d_waits d = true -> d_fired d = false) /\
      if served k h then if rang k h then d_slot d = None else exists j, In (MkE w (d_gen d) k, j) m
      else rang k h = false /\ forall e j, In (e, j) m -> e_node e = k -> e_gen e = ((d_gen d - since k h) mod GENS)%Z /\ (0 < since k h)%Z
  else d_at d = None /\ (served k h = true -> d_slot d = None).
Definition Inv (h : list ev) (s : st) : Prop :=
  s_alive s = true /\ length (s_ds s) = news h /\ inv e_at (s_heap s) /\ links (s_ds s) (h_items (s_heap s)) /\
  listed (s_ds s) (s_list s) /\ forall k d, nth_error (s_ds s) k = Some d -> good h k (h_items (s_heap s)) d.

Lemma inv0 : Inv [] s0.
Proof.
  split; [reflexivity|]. split; [reflexivity|]. split; [apply inv_new|].
  split; [split; [intros e j []|intros [|k] d j E; discriminate]|].
  split; [split; [constructor|split; [intros [|k] d E; discriminate|constructor]]|intros [|k] d E; discriminate].
Qed.

Lemma links_in : forall ds hp k d e j, inv e_at hp -> links ds (h_items hp) -> nth_error ds k = Some d -> d_slot d = Some j ->
  In (e, j) (h_items hp) -> e_node e = k.
Proof.
  intros ds hp k d e j V [L1 L2] D J I. destruct (L2 _ _ _ D J) as (e' & I' & <-). f_equal.
  pose proof (slots_distinct e_at _ V) as ND. clear - ND I I'. induction (h_items hp) as [|[a b] m IH]; [destruct I|].
  inversion ND as [|x l N ND']; subst. cbn [map snd] in N. destruct I as [E|I], I' as [E'|I'].
  - congruence.
  - injection E as -> ->. destruct N. change j with (snd (e', j)). now apply in_map.
  - injection E' as -> ->. destruct N. change j with (snd (e, j)). now apply in_map.
  - auto.
Qed.

Lemma good_same : forall h h' k m d, live k h' = live k h -> due k h' = due k h -> served k h' = served k h -> rang k h' = rang k h ->
  since k h' = since k h -> good h k m d -> good h' k m d.
Proof. intros h h' k m d E1 E2 E3 E4 E5. unfold good. rewrite E1, E2, E3, E4, E5. auto. Qed.
Lemma good_items : forall h k m m' d, (forall e j, e_node e = k -> (In (e, j) m <-> In (e, j) m')) -> good h k m d -> good h k m' d.
Proof.
  intros h k m m' d E (A & B & C & D & F & G). unfold good. do 5 (split; [assumption|]). destruct (live k h); [|exact G].
  destruct G as (w & G1 & G2 & G3 & G4 & G5). exists w. do 4 (split; [assumption|]). destruct (served k h).
  - destruct (rang k h); [exact G5|]. destruct G5 as (j & I). exists j. now apply E.
  - destruct G5 as [R G5]. split; [exact R|]. intros e j I N. apply E in I; eauto.
Qed.

(** An update of one delay that leaves its slot. *)
Lemma inv_upd : forall h h' s k d d' s', Inv h s -> nth_error (s_ds s) k = Some d -> d_slot d' = d_slot d ->
  s_ds s' = put k d' (s_ds s) -> s_heap s' = s_heap s -> s_alive s' = true -> news h' = news h ->
  ((s_list s' = s_list s /\ d_enq d' = d_enq d) \/ (d_enq d = false /\ d_enq d' = true /\ s_list s' = k :: s_list s)) ->
  good h' k (h_items (s_heap s)) d' ->
  (forall k' d'', k' <> k -> good h k' (h_items (s_heap s)) d'' -> good h' k' (h_items (s_heap s)) d'') -> Inv h' s'.
Proof.
  intros h h' s k d d' s' (A & L & V & [L1 L2] & (N1 & N2 & N3) & G) D SL E1 E2 E3 E4 C GK GO. unfold Inv. rewrite E1, E2.
  split; [exact E3|]. split; [rewrite put_length; congruence|]. split; [exact V|]. split; [split|split].
  - intros e j I. destruct (L1 _ _ I) as (d0 & D0 & J). rewrite nth_put. destruct (Nat.eqb_spec k (e_node e)) as [->|N].
    + rewrite D0. exists d'. split; [reflexivity|]. rewrite SL. congruence.
    + eauto.
  - intros k0 d0 j D0 J. destruct (nth_put_in _ _ _ _ _ _ D D0) as [[-> ->]|[_ D1]]; [apply (L2 _ d); congruence|eauto].
  - unfold listed. rewrite put_length. destruct C as [[-> EQ]|(F & T & ->)].
    + split; [exact N1|]. split; [|exact N3]. intros k0 d0 D0. destruct (nth_put_in _ _ _ _ _ _ D D0) as [[-> ->]|[_ D1]]; [rewrite EQ|]; eauto.
    + split; [constructor; [|exact N1]; intro I; apply (N2 _ _ D) in I; congruence|]. split.
      * intros k0 d0 D0. destruct (nth_put_in _ _ _ _ _ _ D D0) as [[-> ->]|[NE D1]]; [split; [now left|auto]|].
        rewrite (N2 _ _ D1). cbn [In]. split; [auto|intros [->|]; [contradiction|assumption]].
      * constructor; [|exact N3]. apply nth_error_Some. congruence.
  - intros k0 d0 D0. destruct (nth_put_in _ _ _ _ _ _ D D0) as [[-> ->]|[NE D1]]; [exact GK|]. apply GO; [exact NE|]. eauto.
Qed.

(** * Entries leave and enter the heap *)
Definition apart (k : nat) (m m' : items) : Prop := forall e j, e_node e <> k -> (In (e, j) m <-> In (e, j) m').
Lemma no_entry : forall ds m k d, links ds m -> nth_error ds k = Some d -> d_slot d = None -> forall e j, In (e, j) m -> e_node e <> k.
Proof. intros ds m k d [L1 _] D S e j I E. destruct (L1 _ _ I) as (d' & D' & J). rewrite E, D in D'. congruence. Qed.
Lemma take_out : forall ds hp k d j d', inv e_at hp -> links ds (h_items hp) -> nth_error ds k = Some d -> d_slot d = Some j -> d_slot d' = None ->
  exists e hp', h_remove e_at j hp = Ok (e, hp') /\ inv e_at hp' /\ In (e, j) (h_items hp) /\ e_node e = k /\ links (put k d' ds) (h_items hp') /\
    apart k (h_items hp) (h_items hp') /\ S (length (h_items hp')) = length (h_items hp).
Proof.
  intros ds hp k d j d' V L D J N. pose proof L as [L1 L2]. destruct (L2 _ _ _ D J) as (e & I & EK). destruct (remove_ok e_at j e hp V I) as (hp' & R & V' & P & _).
  exists e, hp'. split; [exact R|]. split; [exact V'|]. split; [exact I|]. split; [exact EK|].
  assert (AP : apart k (h_items hp) (h_items hp')).
  { intros e0 j0 NE. split; intro I0.
    - apply (Permutation_in _ P) in I0 as [E|I0]; [injection E as -> ->; contradiction|exact I0].
    - apply (Permutation_in _ (Permutation_sym P)). now right. }
  split; [|split; [exact AP|apply Permutation_length in P; cbn [length] in P; lia]].
  assert (SUB : forall e0 j0, In (e0, j0) (h_items hp') -> In (e0, j0) (h_items hp) /\ e_node e0 <> k).
  { intros e0 j0 I0. assert (I1 : In (e0, j0) (h_items hp)) by (apply (Permutation_in _ (Permutation_sym P)); now right). split; [exact I1|].
    intro E0. destruct (L1 _ _ I1) as (d0 & D0 & J0). rewrite E0, D in D0. injection D0 as <-. rewrite J in J0. injection J0 as <-.
    pose proof (slots_distinct e_at _ V) as ND. apply (Permutation_map snd) in P. cbn [map snd] in P. apply (Permutation_NoDup P) in ND.
    inversion ND as [|x l NI _]; subst. apply NI. now apply (in_map snd) in I0. }
  split.
  - intros e0 j0 I0. destruct (SUB _ _ I0) as [I1 NE]. destruct (L1 _ _ I1) as (d0 & D0 & J0). exists d0. split; [|exact J0].
    rewrite nth_put. destruct (Nat.eqb_spec k (e_node e0)); [congruence|exact D0].
  - intros k0 d0 j0 D0 J0. destruct (nth_put_in _ _ _ _ _ _ D D0) as [[-> ->]|[NE D1]]; [congruence|].
    destruct (L2 _ _ _ D1 J0) as (e0 & I0 & E0). exists e0. split; [|exact E0]. apply AP; [congruence|exact I0].
Qed.
Lemma put_in : forall ds hp k d d' t, inv e_at hp -> links ds (h_items hp) -> nth_error ds k = Some d -> d_slot d = None -> e_node t = k ->
  exists j hp', h_push e_at t hp = Ok (j, hp') /\ inv e_at hp' /\ In (t, j) (h_items hp') /\ apart k (h_items hp) (h_items hp') /\
    (d_slot d' = Some j -> links (put k d' ds) (h_items hp')).
Proof.
  intros ds hp k d d' t V L D N T. pose proof L as [L1 L2]. destruct (push_ok e_at t hp V) as (j & hp' & R & V' & P & NI & _).
  exists j, hp'. split; [exact R|]. split; [exact V'|]. split; [apply (Permutation_in _ (Permutation_sym P)); now left|].
  assert (AP : apart k (h_items hp) (h_items hp')).
  { intros e0 j0 NE. split; intro I0.
    - apply (Permutation_in _ (Permutation_sym P)). now right.
    - apply (Permutation_in _ P) in I0 as [E|I0]; [injection E as <- <-; contradiction|exact I0]. }
  split; [exact AP|]. intro SJ. split.
  - intros e0 j0 I0. apply (Permutation_in _ P) in I0 as [E|I0].
    + injection E as <- <-. exists d'. split; [|exact SJ]. rewrite nth_put, T, Nat.eqb_refl, D. reflexivity.
    + destruct (L1 _ _ I0) as (d0 & D0 & J0). exists d0. split; [|exact J0]. rewrite nth_put. destruct (Nat.eqb_spec k (e_node e0)) as [E|]; [|exact D0].
      rewrite <- E, D in D0. congruence.
  - intros k0 d0 j0 D0 J0. destruct (nth_put_in _ _ _ _ _ _ D D0) as [[-> ->]|[NE D1]].
    + exists t. rewrite SJ in J0. injection J0 as <-. split; [|exact T]. apply (Permutation_in _ (Permutation_sym P)). now left.
    + destruct (L2 _ _ _ D1 J0) as (e0 & I0 & E0). exists e0. split; [|exact E0]. apply AP; [congruence|exact I0].
Qed.
Lemma put_put {A} : forall i (x y : A) l, put i x (put i y l) = put i x l.
Proof. induction i as [|i IH]; intros x y [|z l]; cbn [put]; try reflexivity. now rewrite IH. Qed.

(** * The timer is polled *)
Lemma clear_ok : forall s k d d1, inv e_at (s_heap s) -> links (s_ds s) (h_items (s_heap s)) -> nth_error (s_ds s) k = Some d -> d_slot d1 = d_slot d ->
  exists hp, match d_slot d1 with Some j => '(_, h) <- h_remove e_at j (s_heap s) ;; Ok h | None => Ok (s_heap s) end = Ok hp /\
    inv e_at hp /\ links (put k (d_slot_ None d1) (s_ds s)) (h_items hp) /\ apart k (h_items (s_heap s)) (h_items hp).
Proof.
  intros s k d d1 V L D E. rewrite E. destruct (d_slot d) as [j|] eqn:J.
  - destruct (take_out _ _ _ _ _ (d_slot_ None d1) V L D J eq_refl) as (e & hp & R & V' & _ & _ & L' & AP & _). rewrite R. cbn [bind]. eauto.
  - exists (s_heap s). split; [reflexivity|]. split; [exact V|]. split; [|intros e j _; reflexivity]. pose proof L as [L1 L2]. split.
    + intros e j I. destruct (L1 _ _ I) as (d0 & D0 & J0). exists d0. split; [|exact J0]. rewrite nth_put. destruct (Nat.eqb_spec k (e_node e)) as [->|]; [congruence|exact D0].
    + intros k0 d0 j0 D0 J0. destruct (nth_put_in _ _ _ _ _ _ D D0) as [[-> ->]|[NE D1]]; [discriminate|eauto].
Qed.
Lemma update_ok : forall s k d d1 a, inv e_at (s_heap s) -> links (s_ds s) (h_items (s_heap s)) -> nth_error (s_ds s) k = Some d -> d_slot d1 = d_slot d ->
  exists j hp, update_or_add k a d1 s = Ok (with_heap hp (set_d k (d_slot_ (Some j) d1) s)) /\ inv e_at hp /\
    links (put k (d_slot_ (Some j) d1) (s_ds s)) (h_items hp) /\ In (MkE a (d_gen d1) k, j) (h_items hp) /\ apart k (h_items (s_heap s)) (h_items hp).
Proof.
  intros s k d d1 a V L D E. unfold update_or_add. destruct (clear_ok s k d d1 V L D E) as (hp & -> & V' & L' & AP). cbn [bind].
  assert (D' : nth_error (put k (d_slot_ None d1) (s_ds s)) k = Some (d_slot_ None d1)) by (rewrite nth_put, Nat.eqb_refl, D; reflexivity).
  destruct (push_ok e_at (MkE a (d_gen d1) k) hp V') as (j & hp' & R & _).
  destruct (put_in _ hp k _ (d_slot_ (Some j) d1) (MkE a (d_gen d1) k) V' L' D' eq_refl eq_refl) as (j' & hp'' & R' & V'' & I & AP' & L'').
  rewrite R in R'. injection R' as <- <-. rewrite R. cbn [bind]. exists j, hp'. split; [reflexivity|]. split; [exact V''|].
  split; [rewrite put_put in L''; now apply L''|]. split; [exact I|]. intros e0 j0 NE. rewrite (AP e0 j0 NE). now apply AP'.
Qed.
Lemma removed_ok : forall s k d d1, inv e_at (s_heap s) -> links (s_ds s) (h_items (s_heap s)) -> nth_error (s_ds s) k = Some d -> d_slot d1 = d_slot d ->
  exists hp, remove k d1 s = Ok (with_heap hp (set_d k (d_slot_ None d1) s)) /\ inv e_at hp /\
    links (put k (d_slot_ None d1) (s_ds s)) (h_items hp) /\ apart k (h_items (s_heap s)) (h_items hp).
Proof.
  intros s k d d1 V L D E. destruct (clear_ok s k d d1 V L D E) as (hp & R & V' & L' & AP). exists hp. split; [|auto]. unfold remove.
  destruct (d_slot d1) as [j|] eqn:J.
  - destruct (h_remove e_at j (s_heap s)) as [[e h]| |]; cbn [bind] in R |- *; [|discriminate|discriminate]. now injection R as ->.
  - injection R as <-. f_equal. unfold with_heap, set_d, with_ds. cbn. f_equal. f_equal. destruct d1; cbn in *. now subst.
Qed.

Definition mid (h : list ev) (s : st) (l : list nat) : Prop :=
  s_alive s = true /\ length (s_ds s) = news h /\ inv e_at (s_heap s) /\ links (s_ds s) (h_items (s_heap s)) /\ listed (s_ds s) l /\
  forall k d, nth_error (s_ds s) k = Some d ->
    (In k l -> good h k (h_items (s_heap s)) d) /\ (~ In k l -> good (Serve :: h) k (h_items (s_heap s)) d).
Lemma good_serve : forall h k m d, d_enq d = false -> good h k m d -> good (Serve :: h) k m d.
Proof.
  intros h k m d E G. assert (S : served k h = true) by (destruct G as (_ & _ & _ & _ & F & _); rewrite E in F; now destruct (served k h)).
  revert G. apply good_same; try reflexivity; cbn [served since]; [now rewrite S|]. now rewrite (served_since _ _ S).
Qed.
Definition quiet (s s' : st) : Prop := s_reg s' = s_reg s /\ s_woken s' = s_woken s /\ s_calls s' = s_calls s /\ s_list s' = s_list s /\
  forall k d, nth_error (s_ds s) k = Some d -> exists d', nth_error (s_ds s') k = Some d' /\ d_waits d' = d_waits d.
Lemma listed_pop : forall ds k l d d', nth_error ds k = Some d -> d_enq d' = false -> listed ds (k :: l) -> listed (put k d' ds) l.
Proof.
  intros ds k l d d' D E (N1 & N2 & N3). inversion N1 as [|? ? NI N1']; subst. inversion N3 as [|? ? LT N3']; subst. split; [exact N1'|]. split; [|now rewrite put_length].
  intros k0 d0 D0. destruct (nth_put_in _ _ _ _ _ _ D D0) as [[-> ->]|[NE D1]].
  - rewrite E. split; [discriminate|contradiction].
  - rewrite (N2 _ _ D1). cbn [In]. split; [intros [->|]; [contradiction|assumption]|auto].
Qed.
Lemma serve_loop : forall h l s, mid h s l -> s_list s = [] -> exists s', serve_all l s = Ok s' /\ Inv (Serve :: h) s' /\ quiet s s'.
Proof.
  induction l as [|k l IH]; intros s (A & L & V & LK & LI & G) E; cbn [serve_all].
  - exists s. split; [reflexivity|]. split; [|repeat split; eauto]. unfold Inv. rewrite E. repeat (split; [assumption|]). intros k d D. now apply (G k d D).
  - pose proof LI as (N1 & N2 & N3). inversion N1 as [|? ? NI N1']; subst. inversion N3 as [|? ? LT N3']; subst.
    destruct (nth_error (s_ds s) k) as [d|] eqn:D; [|apply nth_error_None in D; lia].
    pose proof (proj2 (N2 _ _ D) (or_introl eq_refl)) as EN. rewrite EN. cbv zeta. destruct (G _ _ D) as [GK _]. specialize (GK (or_introl eq_refl)).
    destruct GK as (K1 & K2 & K3 & K4 & K5 & K6). assert (SV : served k h = false) by (rewrite EN in K5; now destruct (served k h)). rewrite SV in K6.
    assert (STEP : forall hp d', inv e_at hp -> links (put k d' (s_ds s)) (h_items hp) -> apart k (h_items (s_heap s)) (h_items hp) -> d_enq d' = false ->
      d_waits d' = d_waits d -> good (Serve :: h) k (h_items hp) d' -> exists s', serve_all l (with_heap hp (set_d k d' s)) = Ok s' /\ Inv (Serve :: h) s' /\ quiet s s').
    { intros hp d' V' L' AP EF WF GD. destruct (IH (with_heap hp (set_d k d' s))) as (s' & R & I' & Q).
      - split; [exact A|]. split; [cbn [with_heap set_d with_ds s_ds]; now rewrite put_length|]. split; [exact V'|]. split; [exact L'|]. split; [now apply (listed_pop _ _ _ d)|].
        cbn [with_heap set_d with_ds s_ds s_heap]. intros k0 d0 D0. destruct (nth_put_in _ _ _ _ _ _ D D0) as [[-> ->]|[NE D1]].
        + split; [contradiction|auto].
        + destruct (G _ _ D1) as [G1 G2].
          assert (AE : forall e j, e_node e = k0 -> (In (e, j) (h_items (s_heap s)) <-> In (e, j) (h_items hp))) by (intros e j <-; apply AP; congruence).
          split; intro I.
          * apply (good_items _ _ _ _ _ AE), G1. now right.
          * apply (good_items _ _ _ _ _ AE), G2. intros [->|]; contradiction.
      - exact E.
      - exists s'. split; [exact R|]. split; [exact I'|]. destruct Q as (Q1 & Q2 & Q3 & Q4 & Q5). repeat split; try assumption. intros k0 d0 D0.
        destruct (Nat.eq_dec k0 k) as [->|NE].
        + destruct (Q5 k d') as (d2 & D2 & W2); [cbn [with_heap set_d with_ds s_ds]; now rewrite nth_put, Nat.eqb_refl, D|]. exists d2. split; [exact D2|]. rewrite D in D0. injection D0 as <-. congruence.
        + apply Q5. cbn [with_heap set_d with_ds s_ds]. rewrite nth_put. destruct (Nat.eqb_spec k k0); [congruence|exact D0]. }
    destruct (live k h) eqn:LV.
    + destruct K6 as (w & W1 & W2 & W3 & W4 & W5 & W6). change (d_at (d_enq_ false d)) with (d_at d). rewrite W2.
      destruct (update_ok s k d (d_enq_ false d) w V LK D eq_refl) as (j & hp & R & V' & L' & I & AP). rewrite R. cbn [bind]. apply STEP; try assumption; try reflexivity.
      unfold good. cbn [live due served rang since]. rewrite LV. cbn. do 5 (split; [assumption||reflexivity|]). exists w. do 4 (split; [assumption|]). rewrite W5. now exists j.
    + destruct K6 as (W1 & W2). change (d_at (d_enq_ false d)) with (d_at d). rewrite W1.
      destruct (removed_ok s k d (d_enq_ false d) V LK D eq_refl) as (hp & R & V' & L' & AP). rewrite R. cbn [bind]. apply STEP; try assumption; try reflexivity.
      unfold good. cbn [live due served rang since]. rewrite LV. cbn. do 5 (split; [assumption||reflexivity|]). split; [exact W1|reflexivity].
Qed.
Lemma serve_ok : forall h s, Inv h s -> exists s', serve s = Ok s' /\ Inv (Serve :: h) s' /\ s_list s' = [] /\ s_reg s' = true /\ s_woken s' = s_woken s /\ s_calls s' = s_calls s /\
  forall k d, nth_error (s_ds s) k = Some d -> exists d', nth_error (s_ds s') k = Some d' /\ d_waits d' = d_waits d.
Proof.
  intros h s (A & L & V & LK & LI & G). unfold serve. destruct (serve_loop h (s_list s) (with_list [] (with_reg true s))) as (s' & R & I & Q1 & Q2 & Q3 & Q4 & Q5); [|reflexivity|].
  - repeat (split; [assumption|]). cbn. intros k d D. split; intro I; [now apply G|]. destruct LI as (_ & N2 & _). apply good_serve; [|now apply G].
    destruct (d_enq d) eqn:E; [|reflexivity]. apply (N2 _ _ D) in E. contradiction.
  - exists s'. auto 10.
Qed.

(** A task that waits is woken or still waits. *)
Definition kept (s s' : st) : Prop := exists w, s_woken s' = w ++ s_woken s /\
  forall k d, nth_error (s_ds s) k = Some d -> d_waits d = true -> In k w \/ exists d', nth_error (s_ds s') k = Some d' /\ d_waits d' = true.
Lemma kept_refl : forall s, kept s s.
Proof. intros s. exists []. split; [reflexivity|]. eauto. Qed.
Lemma kept_trans : forall a b c, kept a b -> kept b c -> kept a c.
Proof.
  intros a b c (w & W & K) (v & U & Q). exists (v ++ w). split; [rewrite U, W; apply app_assoc|]. intros k d D E.
  destruct (K _ _ D E) as [I|(d' & D' & E')]; [left; apply in_or_app; auto|]. destruct (Q _ _ D' E') as [I|X]; [left; apply in_or_app; auto|auto].
Qed.
Lemma kept_put : forall s s' k d', s_ds s' = put k d' (s_ds s) -> s_woken s' = s_woken s ->
  (forall d, nth_error (s_ds s) k = Some d -> d_waits d = true -> d_waits d' = true) -> kept s s'.
Proof.
  intros s s' k d' E W K. exists []. split; [exact W|]. intros k0 d0 D0 E0. right. rewrite E, nth_put. destruct (Nat.eqb_spec k k0) as [->|N].
  - rewrite D0. eauto.
  - eauto.
Qed.
Lemma wake_ds : forall k d s, s_ds (wake k d s) = put k (d_waits_ false d) (s_ds s).
Proof.
  intros k d s. unfold wake. destruct (d_waits d) eqn:E; [reflexivity|]. cbn [set_d with_ds s_ds]. f_equal. destruct d; cbn in *; now subst.
Qed.
Lemma wake_rest : forall k d s, s_list (wake k d s) = s_list s /\ s_heap (wake k d s) = s_heap s /\ s_alive (wake k d s) = s_alive s /\ s_reg (wake k d s) = s_reg s /\ s_calls (wake k d s) = s_calls s.
Proof. intros k d s. unfold wake. destruct (d_waits d); repeat split. Qed.
Lemma wake_kept : forall k d d0 s, nth_error (s_ds s) k = Some d0 -> d_waits d = d_waits d0 -> kept s (wake k d s).
Proof.
  intros k d d0 s D E. unfold wake. destruct (d_waits d) eqn:W.
  - exists [k]. split; [reflexivity|]. intros k1 d1 D1 E1. cbn [s_ds]. destruct (Nat.eq_dec k1 k) as [->|N]; [left; now left|]. right. rewrite nth_put.
    destruct (Nat.eqb_spec k k1); [congruence|eauto].
  - apply (kept_put s _ k d); [reflexivity|reflexivity|]. intros d1 D1 E1. congruence.
Qed.

(** * The timer is advanced *)
Lemma mod_ne : forall g x M, (0 <= g < M -> 0 < x < M -> (g - x) mod M <> g)%Z.
Proof.
  intros g x M G X E. destruct (Z_lt_le_dec (g - x) 0).
  - rewrite <- (Z.mod_unique (g - x) M (-1) (g - x + M)) in E; lia.
  - rewrite Z.mod_small in E; lia.
Qed.
Definition midA (h : list ev) (now : Z) (s : st) : Prop :=
  s_alive s = true /\ length (s_ds s) = news h /\ inv e_at (s_heap s) /\ links (s_ds s) (h_items (s_heap s)) /\ listed (s_ds s) (s_list s) /\
  forall k d, nth_error (s_ds s) k = Some d ->
    (d_slot d <> None -> good h k (h_items (s_heap s)) d) /\ (d_slot d = None -> good (Advance now :: h) k (h_items (s_heap s)) d).
Lemma good_slot : forall h k ds hp d, inv e_at hp -> links ds (h_items hp) -> nth_error ds k = Some d -> good h k (h_items hp) d -> live k h = true -> served k h = true -> rang k h = false ->
  exists w j, due k h = Some w /\ d_slot d = Some j /\ In (MkE w (d_gen d) k, j) (h_items hp).
Proof.
  intros h k ds hp d V [L1 L2] D (_ & _ & _ & _ & _ & G) L S R. rewrite L, S, R in G. destruct G as (w & W & _ & _ & _ & j & I). exists w, j. split; [exact W|]. split; [|exact I].
  destruct (L1 _ _ I) as (d0 & D0 & J). cbn [e_node] in D0. congruence.
Qed.
Lemma advance_ok : forall h now f s, (forall k, since k h < GENS)%Z -> midA h now s -> length (h_items (s_heap s)) < f ->
  exists s', advance f now s = Ok s' /\ Inv (Advance now :: h) s' /\ kept s s' /\ s_reg s' = s_reg s /\ s_calls s' = s_calls s /\ s_list s' = s_list s /\
    match h_peek (s_heap s') with Some e => (now < e_at e)%Z | None => True end.
Proof.
  intros h now. induction f as [|f IH]; intros s C (A & L & V & LK & LI & G) F; [lia|]. cbn [advance].
  assert (STOP : (forall e j, In (e, j) (h_items (s_heap s)) -> (now < e_at e)%Z) -> Inv (Advance now :: h) s).
  { intros LATE. unfold Inv. repeat (split; [assumption|]). intros k d D. destruct (G _ _ D) as [G1 G2]. destruct (d_slot d) as [j|] eqn:J; [|auto].
    specialize (G1 ltac:(discriminate)). pose proof G1 as G0. revert G1. unfold good. cbn [live due served rang since].
    destruct (live k h) eqn:LV; [|auto]. intros (K1 & K2 & K3 & K4 & K5 & w & W1 & W2 & W3 & W4 & W5). destruct (served k h) eqn:SV; cbn [andb].
    - destruct (rang k h) eqn:RG; [congruence|]. destruct (good_slot h k _ _ _ V LK D G0 LV SV RG) as (w' & j' & W' & J' & I). apply LATE in I. cbn [e_at] in I.
      rewrite W'. assert (X : (w' <=? now)%Z = false) by (apply Z.leb_gt; lia). rewrite X. cbn [orb]. do 5 (split; [assumption|]). exists w. rewrite W1 in W'. injection W' as ->. auto 6.
    - rewrite Bool.orb_false_r. do 5 (split; [assumption|]). exists w. auto 6. }
  unfold h_peek. destruct (h_items (s_heap s)) as [|[e j] m] eqn:M.
  - exists s. split; [reflexivity|]. split; [apply STOP; intros e j []|]. split; [apply kept_refl|]. rewrite M. auto.
  - cbn [fst]. destruct (Z.leb_spec (e_at e) now) as [LE|GT].
    + unfold h_pop. rewrite M. cbn [snd]. assert (IN : In (e, j) (h_items (s_heap s))) by (rewrite M; now left).
      rewrite <- M in *. destruct (proj1 LK _ _ IN) as (d & D & J).
      set (d1 := if ((d_gen d =? e_gen e)%Z && negb (d_inv d) && negb (d_fired d))%bool then d_waits_ false (d_fired_ true (d_slot_ None d)) else d_slot_ None d).
      assert (S1 : d_slot d1 = None) by (unfold d1; destruct (_ && _)%bool; reflexivity).
      destruct (take_out _ _ _ _ _ d1 V LK D J S1) as (e' & hp & R & V' & I' & EK & L' & AP & LEN). rewrite R. cbn [bind].
      assert (e' = e) as ->.
      { destruct (remove_ok e_at j e _ V IN) as (hp0 & R0 & _). rewrite R in R0. congruence. }
      rewrite D. cbv zeta.
      match goal with |- exists s', advance f now ?t = _ /\ _ => set (s1 := t) end.
      assert (T1 : s_ds s1 = put (e_node e) d1 (s_ds s)).
      { unfold s1, d1. change (d_gen (d_slot_ None d)) with (d_gen d). change (d_inv (d_slot_ None d)) with (d_inv d). change (d_fired (d_slot_ None d)) with (d_fired d).
        destruct (_ && _)%bool; [now rewrite wake_ds|reflexivity]. }
      assert (T2 : s_list s1 = s_list s /\ s_heap s1 = hp /\ s_alive s1 = s_alive s /\ s_reg s1 = s_reg s /\ s_calls s1 = s_calls s).
      { unfold s1. destruct (_ && _)%bool; [apply (wake_rest (e_node e) _ (with_heap hp s))|repeat split]. }
      destruct T2 as (T2 & T3 & T4 & T5 & T6).
      assert (KP : kept s s1).
      { unfold s1. destruct (_ && _)%bool.
        - exact (wake_kept (e_node e) (d_fired_ true (d_slot_ None d)) d (with_heap hp s) D eq_refl).
        - apply (kept_put s _ (e_node e) (d_slot_ None d)); [reflexivity|reflexivity|]. intros d0 D0 E0. rewrite D in D0. injection D0 as <-. exact E0. }
      assert (E1 : d_enq d1 = d_enq d) by (unfold d1; destruct (_ && _)%bool; reflexivity).
      destruct (IH s1) as (s' & R' & I2 & KP' & Q1 & Q2 & Q3 & Q4); [exact C| |rewrite T3; lia|].
      * unfold midA. rewrite T1, T2, T3, T4. split; [exact A|]. split; [now rewrite put_length|]. split; [exact V'|]. split; [exact L'|]. split.
        { destruct LI as (N1 & N2 & N3). split; [exact N1|]. split; [|now rewrite put_length]. intros k0 d0 D0. destruct (nth_put_in _ _ _ _ _ _ D D0) as [[-> ->]|[NE D1]]; [rewrite E1|]; eauto. }
        intros k0 d0 D0. destruct (nth_put_in _ _ _ _ _ _ D D0) as [[-> ->]|[NE D1]].
        -- split; [congruence|]. intros _. destruct (G _ _ D) as [G1 _]. rewrite J in G1. specialize (G1 ltac:(discriminate)).
           destruct G1 as (K1 & K2 & K3 & K4 & K5 & K6). unfold good. cbn [live due served rang since].
           assert (B : d_node d1 = true /\ d_inv d1 = false /\ (0 <= d_gen d1 < GENS)%Z /\ d_live d1 = live (e_node e) h /\ d_enq d1 = negb (served (e_node e) h)).
           { unfold d1. destruct (_ && _)%bool; cbn; repeat (split; [assumption|]); try exact K5; auto. }
           destruct B as (B1 & B2 & B3 & B4 & B5). do 5 (split; [assumption|]). destruct (live (e_node e) h) eqn:LV.
           ++ destruct K6 as (w & W1 & W2 & W3 & W4 & W5). exists w. split; [exact W1|].
              assert (AT : d_at d1 = Some w) by (unfold d1; destruct (_ && _)%bool; exact W2). split; [exact AT|].
              destruct (served (e_node e) h) eqn:SV; cbn [andb].
              ** destruct (rang (e_node e) h) eqn:RG; [congruence|]. destruct W5 as (j' & I5).
                 assert (e = MkE w (d_gen d) (e_node e)) as EE.
                 { destruct (proj1 LK _ _ I5) as (d5 & D5 & J5). cbn [e_node] in D5. rewrite D in D5. injection D5 as <-. rewrite J in J5. injection J5 as <-.
                   destruct (remove_ok e_at j _ _ V I5) as (hp0 & R0 & _). rewrite R in R0. congruence. }
                 assert (W : (w <=? now)%Z = true) by (apply Z.leb_le; rewrite EE in LE; exact LE). rewrite W1, W. cbn [orb].
                 assert (d1 = d_waits_ false (d_fired_ true (d_slot_ None d))) as ED.
                 { unfold d1. rewrite K2, W3, EE. cbn [e_gen]. now rewrite Z.eqb_refl. }
                 rewrite ED. cbn. split; [reflexivity|]. split; [discriminate|reflexivity].
              ** destruct W5 as [RG W5]. rewrite RG. cbn [orb]. destruct (W5 _ _ IN eq_refl) as [GE SP].
                 assert (d1 = d_slot_ None d) as ED.
                 { unfold d1. destruct (Z.eqb_spec (d_gen d) (e_gen e)) as [Q|]; [|reflexivity]. exfalso. rewrite GE in Q. symmetry in Q. revert Q. apply mod_ne; [exact K3|]. specialize (C (e_node e)). lia. }
                 rewrite ED. cbn [d_slot_ d_fired d_waits d_gen]. split; [congruence|]. split; [exact W4|]. split; [reflexivity|].
                 intros e0 j0 I0 E0. exfalso. revert E0. apply (no_entry _ _ _ d1 L') with (j := j0); [|exact S1|exact I0]. rewrite nth_put, Nat.eqb_refl, D. reflexivity.
           ++ destruct K6 as (W1 & W2). split; [unfold d1; destruct (_ && _)%bool; exact W1|]. intros _. exact S1.
        -- destruct (G _ _ D1) as [G1 G2].
           assert (AE : forall e0 j0, e_node e0 = k0 -> (In (e0, j0) (h_items (s_heap s)) <-> In (e0, j0) (h_items hp))) by (intros e0 j0 <-; apply AP; congruence).
           split; intro X; apply (good_items _ _ _ _ _ AE); auto.
      * exists s'. split; [exact R'|]. split; [exact I2|]. split; [now apply (kept_trans _ s1)|]. repeat split; try congruence. exact Q4.
    + exists s. split; [reflexivity|]. split; [|split; [apply kept_refl|rewrite M; auto]]. apply STOP. intros e0 j0 I0. apply In_nth_error in I0 as (i & I0).
      rewrite <- M in I0. assert (R0 : nth_error (h_items (s_heap s)) 0 = Some (e, j)) by now rewrite M. rewrite <- M in STOP.
      destruct V as (_ & O & _). pose proof (root_min e_at _ O i _ _ R0 I0) as Q. cbn [fst] in Q. lia.
Qed.

(** * Calls on delays *)
Lemma wake_timer_rest : forall s, s_ds (wake_timer s) = s_ds s /\ s_list (wake_timer s) = s_list s /\ s_heap (wake_timer s) = s_heap s /\ s_alive (wake_timer s) = s_alive s /\ s_woken (wake_timer s) = s_woken s.
Proof. intros s. unfold wake_timer. destruct (s_reg s); repeat split. Qed.
Lemma push_wake_rest : forall k d s, s_ds (push_wake k d s) = put k (d_enq_ true d) (s_ds s) /\ s_list (push_wake k d s) = (if d_enq d then s_list s else k :: s_list s) /\
  s_heap (push_wake k d s) = s_heap s /\ s_alive (push_wake k d s) = s_alive s /\ s_woken (push_wake k d s) = s_woken s.
Proof.
  intros k d s. unfold push_wake. destruct (wake_timer_rest (if d_enq d then set_d k d s else with_list (k :: s_list s) (set_d k (d_enq_ true d) s))) as (-> & -> & -> & -> & ->).
  destruct (d_enq d) eqn:E; repeat split. cbn [set_d with_ds s_ds]. f_equal. destruct d; cbn in *; now subst.
Qed.
Lemma nth_snoc' {A} : forall (l : list A) x i y, nth_error (l ++ [x]) i = Some y -> (i = length l /\ y = x) \/ (i < length l /\ nth_error l i = Some y).
Proof.
  intros l x i y E. rewrite nth_snoc in E. destruct (Nat.eqb_spec i (length l)) as [->|]; [injection E as <-; auto|]. right. split; [|exact E].
  apply nth_error_Some. congruence.
Qed.
Lemma put_last {A} : forall (l : list A) x y, put (length l) x (l ++ [y]) = l ++ [x].
Proof. induction l as [|z l IH]; intros x y; cbn [length app put]; [reflexivity|]. now rewrite IH. Qed.
Lemma new_ok : forall h s a, Inv h s -> Inv (New a :: h) (new a s) /\ kept s (new a s).
Proof.
  intros h s a (A & L & V & [L1 L2] & (N1 & N2 & N3) & G). unfold new. rewrite A. set (d0 := MkD _ _ _ _ _ _ _ _ _ _).
  destruct (push_wake_rest (length (s_ds s)) d0 (with_ds (s_ds s ++ [d0]) s)) as (E1 & E2 & E3 & E4 & E5). cbn [with_ds s_ds s_list s_heap s_alive s_woken] in *.
  rewrite put_last in E1. change (d_enq d0) with false in E2. cbn iota in E2. split.
  - unfold Inv. rewrite E1, E2, E3, E4. split; [exact A|]. split; [rewrite app_length; cbn [length news]; lia|]. split; [exact V|]. split; [split|split].
    + intros e j I. destruct (L1 _ _ I) as (d & D & J). exists d. split; [|exact J]. rewrite nth_error_app1; [exact D|]. apply nth_error_Some. congruence.
    + intros k d j D J. apply nth_snoc' in D as [[-> ->]|[_ D]]; [discriminate|eauto].
    + split; [constructor; [|exact N1]; intro I; rewrite Forall_forall in N3; apply N3 in I; lia|]. split.
      * intros k d D. cbn [In]. apply nth_snoc' in D as [[-> ->]|[LT D]]; [split; auto|]. rewrite (N2 _ _ D). split; [auto|intros [EK|]; [lia|assumption]].
      * rewrite app_length. cbn [length]. constructor; [lia|]. revert N3. apply Forall_impl. intros; lia.
    + intros k d D. apply nth_snoc' in D as [[-> ->]|[LT D]].
      * unfold good. cbn [live due served rang since]. rewrite L, Nat.eqb_refl. cbn. repeat (split; [auto; unfold GENS; lia|]). exists a. do 5 (split; [auto|]).
        intros e j I E. exfalso. destruct (L1 _ _ I) as (d & D & _). assert (e_node e < length (s_ds s)) by (apply nth_error_Some; congruence). lia.
      * apply (good_same h); [| | | | |now apply G]; cbn [live due served rang since]; destruct (Nat.eqb_spec (news h) k); try lia; reflexivity.
  - exists []. split; [exact E5|]. intros k d D W. right. exists d. split; [|exact W]. rewrite E1, nth_error_app1; [exact D|]. apply nth_error_Some. congruence.
Qed.
Lemma reset_ok : forall h s k a d, Inv h s -> nth_error (s_ds s) k = Some d -> d_live d = true -> Inv (Reset k a :: h) (reset k a d s) /\ kept s (reset k a d s).
Proof.
  intros h s k a d I D LV. pose proof I as (A & L & V & LK & LI & G). pose proof (G _ _ D) as (K1 & K2 & K3 & K4 & K5 & K6).
  unfold reset. cbv zeta. change (d_node (d_when_ a d)) with (d_node d). change (d_inv (d_when_ a d)) with (d_inv d). rewrite K1, A, K2.
  set (d1 := d_at_ _ _). destruct (push_wake_rest k d1 s) as (E1 & E2 & E3 & E4 & E5). change (d_enq d1) with (d_enq d) in E2. split.
  - apply (inv_upd h _ s k d (d_enq_ true d1)); try assumption; try reflexivity; [congruence|..].
    + rewrite E2. destruct (d_enq d) eqn:EN; [left|right]; auto.
    + unfold good. cbn [live due served rang since]. rewrite Nat.eqb_refl. rewrite <- K4, LV. set (sn := (1 + since k h)%Z). cbn -[Z.lt Z.le Z.modulo Z.sub Z.add]. split; [exact K1|]. split; [reflexivity|]. split; [apply Z.mod_pos_bound; reflexivity|].
      split; [exact LV|]. split; [reflexivity|]. exists a. do 4 (split; [auto|]). split; [reflexivity|]. intros e j IN EK.
      rewrite <- K4, LV in K6. destruct K6 as (w & W1 & W2 & W3 & W4 & W5). pose proof (since_nonneg k h). destruct (served k h) eqn:SV.
      * destruct (rang k h) eqn:RG; [destruct (no_entry _ _ _ _ LK D W5 _ _ IN EK)|]. destruct W5 as (j' & I5).
        assert (e = MkE w (d_gen d) k) as ->.
        { destruct (proj1 LK _ _ I5) as (d5 & D5 & J5). destruct (proj1 LK _ _ IN) as (d6 & D6 & J6). cbn [e_node] in D5. rewrite EK in D6. assert (j = j') as -> by congruence.
          destruct (remove_ok e_at j' _ _ V I5) as (hp0 & R0 & _). destruct (remove_ok e_at j' _ _ V IN) as (hp1 & R1 & _). congruence. }
        assert (SN : sn = 1%Z) by (unfold sn; rewrite (served_since _ _ SV); reflexivity). clearbody sn. subst sn. cbn [e_gen]. split; [|lia]. rewrite Zminus_mod_idemp_l. replace (d_gen d + 1 - 1)%Z with (d_gen d) by lia. symmetry. now apply Z.mod_small.
      * destruct W5 as [_ W5]. destruct (W5 _ _ IN EK) as [-> P]. unfold sn. split; [|lia]. rewrite Zminus_mod_idemp_l. f_equal. lia.
    + intros k' d' NE. apply good_same; cbn [live due served rang since]; destruct (Nat.eqb_spec k k'); try congruence; reflexivity.
  - apply (kept_put s _ k (d_enq_ true d1)); [exact E1|exact E5|]. intros d0 D0 W0. rewrite D in D0. injection D0 as <-. exact W0.
Qed.
Lemma drop_ok : forall h s k d, Inv h s -> nth_error (s_ds s) k = Some d -> d_live d = true -> Inv (DropD k :: h) (drop_d k d s) /\ kept s (drop_d k d s).
Proof.
  intros h s k d I D LV. pose proof I as (A & L & V & LK & LI & G). pose proof (G _ _ D) as (K1 & K2 & K3 & K4 & K5 & K6).
  unfold drop_d. cbv zeta. change (d_node (d_live_ false d)) with (d_node d). rewrite K1, A.
  set (d1 := d_at_ _ _). destruct (push_wake_rest k d1 s) as (E1 & E2 & E3 & E4 & E5). change (d_enq d1) with (d_enq d) in E2. split.
  - apply (inv_upd h _ s k d (d_enq_ true d1)); try assumption; try reflexivity; [congruence|..].
    + rewrite E2. destruct (d_enq d) eqn:EN; [left|right]; auto.
    + unfold good. cbn [live due served rang since]. rewrite Nat.eqb_refl. cbn. do 3 (split; [assumption|]). split; [reflexivity|]. split; [reflexivity|]. split; [reflexivity|discriminate].
    + intros k' d' NE. apply good_same; cbn [live due served rang since]; destruct (Nat.eqb_spec k k'); try congruence; reflexivity.
  - apply (kept_put s _ k (d_enq_ true d1)); [exact E1|exact E5|]. intros d0 D0 W0. rewrite D in D0. injection D0 as <-. exact W0.
Qed.
Lemma poll_ok : forall h s k d, Inv h s -> nth_error (s_ds s) k = Some d -> d_live d = true ->
  exists s', poll k d s = (if rang k h then Done else Pend, s') /\ Inv (Poll k :: h) s' /\ kept s s' /\
    (rang k h = false -> exists d', nth_error (s_ds s') k = Some d' /\ d_waits d' = true).
Proof.
  intros h s k d I D LV. pose proof I as (A & L & V & LK & LI & G). pose proof (G _ _ D) as (K1 & K2 & K3 & K4 & K5 & K6).
  assert (LH : live k h = true) by congruence. rewrite LH in K6. destruct K6 as (w & W1 & W2 & W3 & W4 & W5).
  unfold poll. rewrite K1, K2, W3. destruct (rang k h) eqn:RG.
  - exists s. split; [reflexivity|]. split; [|split; [apply kept_refl|discriminate]]. unfold Inv. repeat (split; [assumption|]). intros k0 d0 D0. apply (good_same h); try reflexivity. now apply G.
  - exists (set_d k (d_waits_ true d) s). split; [reflexivity|]. split; [|split].
    + apply (inv_upd h _ s k d (d_waits_ true d)); try assumption; try reflexivity.
      * left. split; reflexivity.
      * unfold good. cbn [live due served rang since]. rewrite LH, RG. cbn -[Z.lt Z.le Z.modulo Z.sub]. do 3 (split; [assumption|]). split; [congruence|]. split; [exact K5|]. exists w. split; [exact W1|]. split; [exact W2|]. split; [exact W3|]. split; [auto|]. exact W5.
      * intros k' d' NE. apply good_same; reflexivity.
    + apply (kept_put s _ k (d_waits_ true d)); reflexivity.
    + intros _. exists (d_waits_ true d). split; [|reflexivity]. cbn [set_d with_ds s_ds]. now rewrite nth_put, Nat.eqb_refl, D.
Qed.
Lemma next_ok : forall h s, Inv h s -> Inv (Next :: h) s.
Proof. intros h s (A & L & V & LK & LI & G). unfold Inv. repeat (split; [assumption|]). intros k0 d0 D0. apply (good_same h); try reflexivity. now apply G. Qed.

(** * The timer is dropped *)
Definition sealed (P : nat -> Prop) (s s' : st) : Prop :=
  length (s_ds s') = length (s_ds s) /\ kept s s' /\
  forall k d, nth_error (s_ds s) k = Some d -> exists d', nth_error (s_ds s') k = Some d' /\ d_live d' = d_live d /\ d_node d' = d_node d /\ d_fired d' = d_fired d /\
    (d_inv d = true -> d_inv d' = true) /\ (d_waits d = false -> d_waits d' = false) /\ (P k -> d_inv d' = true /\ d_waits d' = false).
Lemma sealed_trans : forall P Q a b c, sealed P a b -> sealed Q b c -> sealed (fun k => P k \/ Q k) a c.
Proof.
  intros P Q a b c (L1 & K1 & S1) (L2 & K2 & S2). split; [congruence|]. split; [now apply (kept_trans _ b)|]. intros k d D.
  destruct (S1 _ _ D) as (d1 & D1 & A1 & A2 & A3 & A4 & A5 & A6). destruct (S2 _ _ D1) as (d2 & D2 & B1 & B2 & B3 & B4 & B5 & B6).
  exists d2. split; [exact D2|]. do 3 (split; [congruence|]). split; [auto|]. split; [auto|]. intros [X|X]; [|auto]. destruct (A6 X). auto.
Qed.
Lemma sealed_imp : forall (P Q : nat -> Prop) a b, (forall k, Q k -> P k) -> sealed P a b -> sealed Q a b.
Proof.
  intros P Q a b I (L & K & S). split; [exact L|]. split; [exact K|]. intros k d D. destruct (S _ _ D) as (d1 & D1 & A1 & A2 & A3 & A4 & A5 & A6).
  exists d1. split; [exact D1|]. do 5 (split; [assumption|]). auto.
Qed.
Lemma invalidate_sealed : forall k d0 d s, nth_error (s_ds s) k = Some d0 -> d_live d = d_live d0 -> d_node d = d_node d0 -> d_fired d = d_fired d0 -> d_waits d = d_waits d0 ->
  sealed (fun k' => k' = k) s (invalidate k d s).
Proof.
  intros k d0 d s D E1 E2 E3 E4. unfold sealed, invalidate. rewrite wake_ds, put_length. split; [reflexivity|]. split; [now apply (wake_kept _ _ d0)|].
  intros k1 d1 D1. rewrite nth_put. destruct (Nat.eqb_spec k k1) as [<-|N].
  - rewrite D. rewrite D in D1. injection D1 as <-. exists (d_waits_ false (d_inv_ true d)). cbn. auto 8.
  - exists d1. split; [exact D1|]. do 5 (split; [auto|]). intro; congruence.
Qed.
Lemma seal_list_ok : forall l s, listed (s_ds s) l -> exists s', seal_list l s = Ok s' /\ sealed (fun k => In k l) s s' /\ s_heap s' = s_heap s.
Proof.
  induction l as [|k l IH]; intros s LI; cbn [seal_list].
  - exists s. split; [reflexivity|]. split; [|reflexivity]. split; [reflexivity|]. split; [apply kept_refl|]. intros k d D. exists d. split; [exact D|]. do 5 (split; [auto|]). intros [].
  - pose proof LI as (N1 & N2 & N3). inversion N3 as [|? ? LT N3']; subst. destruct (nth_error (s_ds s) k) as [d|] eqn:D; [|apply nth_error_None in D; lia].
    rewrite (proj2 (N2 _ _ D) (or_introl eq_refl)). pose proof (invalidate_sealed k d (d_enq_ false d) s D eq_refl eq_refl eq_refl eq_refl) as SI.
    destruct (IH (invalidate k (d_enq_ false d) s)) as (s' & R & S & H).
    + unfold invalidate. rewrite wake_ds. now apply (listed_pop _ _ _ d).
    + exists s'. split; [exact R|]. split.
      * apply (sealed_imp (fun k' => k' = k \/ In k' l)); [intros k' [->|]; auto|]. now apply (sealed_trans _ _ _ (invalidate k (d_enq_ false d) s)).
      * rewrite H. unfold invalidate. apply wake_rest.
Qed.
Lemma seal_heap_ok : forall f s, inv e_at (s_heap s) -> (forall e j, In (e, j) (h_items (s_heap s)) -> e_node e < length (s_ds s)) -> length (h_items (s_heap s)) < f ->
  exists s', seal_heap f s = Ok s' /\ sealed (fun k => exists e j, In (e, j) (h_items (s_heap s)) /\ e_node e = k) s s'.
Proof.
  induction f as [|f IH]; intros s V B F; [lia|]. cbn [seal_heap]. unfold h_pop. destruct (h_items (s_heap s)) as [|[e j] m] eqn:M.
  - cbn [bind]. exists s. split; [reflexivity|]. split; [reflexivity|]. split; [apply kept_refl|]. intros k d D. exists d. split; [exact D|]. do 5 (split; [auto|]). intros (e & j & [] & _).
  - cbn [snd]. assert (IN : In (e, j) (h_items (s_heap s))) by (rewrite M; now left). destruct (remove_ok e_at j e _ V IN) as (hp & R & V' & P & _). rewrite R. cbn [bind].
    rewrite <- M in *. destruct (nth_error (s_ds s) (e_node e)) as [d|] eqn:D; [|apply nth_error_None in D; specialize (B _ _ IN); lia].
    pose proof (invalidate_sealed (e_node e) d d (with_heap hp s) D eq_refl eq_refl eq_refl eq_refl) as SI.
    assert (HP : s_heap (invalidate (e_node e) d (with_heap hp s)) = hp) by apply wake_rest.
    destruct (IH (invalidate (e_node e) d (with_heap hp s))) as (s' & R' & S).
    + now rewrite HP.
    + rewrite HP. intros e0 j0 I0. unfold invalidate. rewrite wake_ds, put_length. apply (B e0 j0). apply (Permutation_in _ (Permutation_sym P)). now right.
    + rewrite HP. apply Permutation_length in P. cbn [length] in P. lia.
    + exists s'. split; [exact R'|]. rewrite HP in S. pose proof (sealed_trans _ _ _ _ _ SI S) as T. change (sealed (fun k => exists e j, In (e, j) (h_items (s_heap s)) /\ e_node e = k) (with_heap hp s) s'). revert T. apply sealed_imp. intros k (e0 & j0 & I0 & E0).
      apply (Permutation_in _ P) in I0 as [E|I0]; [left; congruence|right; eauto].
Qed.
(** What holds once the timer is gone; [h1] is the history before it was dropped. *)
Definition Gone (h1 h : list ev) (s : st) : Prop :=
  s_alive s = false /\ news h1 <= news h /\ length (s_ds s) = news h /\
  forall k d, nth_error (s_ds s) k = Some d -> d_live d = live k h /\
    (d_live d = true -> if k <? news h1 then d_node d = true /\ d_fired d = rang k h1 /\ (d_fired d = false -> d_inv d = true) else d_node d = false).
Lemma drop_timer_ok : forall h s, Inv h s -> exists s', drop_timer s = Ok s' /\ Gone h (DropTimer :: h) s' /\ kept s s' /\
  forall k d, nth_error (s_ds s') k = Some d -> d_live d = true -> d_waits d = false.
Proof.
  intros h s (A & L & V & LK & LI & G). unfold drop_timer. destruct (seal_list_ok (s_list s) (with_list [] s) LI) as (s1 & R1 & S1 & H1). rewrite R1. cbn [bind].
  destruct (seal_heap_ok (S (length (h_items (s_heap s1)))) s1) as (s2 & R2 & S2).
  - rewrite H1. exact V.
  - rewrite H1. intros e j I. destruct S1 as (-> & _). destruct (proj1 LK _ _ I) as (d & D & _). apply nth_error_Some. cbn [with_list s_ds]. congruence.
  - lia.
  - rewrite R2. cbn [bind]. exists (with_alive false s2). split; [reflexivity|]. pose proof (sealed_trans _ _ _ _ _ S1 S2) as (LEN & K & S). cbn [with_list s_ds] in LEN, S. rewrite H1 in S.
    cbn [with_list s_heap] in S.
    assert (Q : forall k d', nth_error (s_ds s2) k = Some d' -> exists d, nth_error (s_ds s) k = Some d /\ d_live d' = d_live d /\ d_node d' = true /\
      (d_live d = true -> d_fired d' = rang k h /\ (d_fired d' = false -> d_inv d' = true) /\ d_waits d' = false)).
    { intros k d' D'. destruct (nth_error (s_ds s) k) as [d|] eqn:D; [|apply nth_error_None in D; assert (k < length (s_ds s2)) by (apply nth_error_Some; congruence); lia].
      exists d. split; [reflexivity|]. destruct (S _ _ D) as (d2 & D2 & A1 & A2 & A3 & A4 & A5 & A6). rewrite D' in D2. injection D2 as <-.
      destruct (G _ _ D) as (K1 & K2 & K3 & K4 & K5 & K6). split; [exact A1|]. split; [congruence|]. intro LV. rewrite <- K4, LV in K6. destruct K6 as (w & W1 & W2 & W3 & W4 & W5).
      split; [congruence|]. assert (PK : d_fired d = false -> d_inv d' = true /\ d_waits d' = false).
      { intro F. apply A6. destruct (served k h) eqn:SV.
        - right. rewrite <- W3, F in W5. destruct W5 as (j & I). eauto.
        - left. apply (proj1 (proj2 LI) _ _ D). exact K5. }
      split; [intro F; apply PK; congruence|]. destruct (d_waits d) eqn:W; [apply PK; auto|auto]. }
    split; [|split].
    + split; [reflexivity|]. split; [cbn [news]; lia|]. cbn [with_alive s_ds news]. split; [congruence|]. intros k d' D'. destruct (Q _ _ D') as (d & D & E1 & E2 & E3).
      destruct (G _ _ D) as (_ & _ & _ & K4 & _). split; [cbn [live]; congruence|]. intro LV. assert (k < news h) by (rewrite <- L; apply nth_error_Some; congruence).
      destruct (Nat.ltb_spec k (news h)); [|lia]. rewrite E1 in LV. destruct (E3 LV) as (F1 & F2 & _). auto.
    + exact K.
    + cbn [with_alive s_ds]. intros k d' D' LV. destruct (Q _ _ D') as (d & D & E1 & E2 & E3). apply E3. congruence.
Qed.
Lemma gone_upd : forall h1 h h' s k d d' s', Gone h1 h s -> nth_error (s_ds s) k = Some d -> s_ds s' = put k d' (s_ds s) -> s_alive s' = false -> news h' = news h ->
  (forall k', k' <> k -> live k' h' = live k' h) -> d_live d' = live k h' ->
  (d_live d' = true -> d_live d = true /\ d_node d' = d_node d /\ d_fired d' = d_fired d /\ d_inv d' = d_inv d) -> Gone h1 h' s'.
Proof.
  intros h1 h h' s k d d' s' (A & N & L & G) D E1 E2 E3 E4 E5 E6. unfold Gone. rewrite E1, E3, put_length. split; [exact E2|]. split; [exact N|]. split; [exact L|].
  intros k0 d0 D0. destruct (nth_put_in _ _ _ _ _ _ D D0) as [[-> ->]|[NE D1]].
  - split; [exact E5|]. intro LV. destruct (E6 LV) as (F1 & F2 & F3 & F4). destruct (G _ _ D) as [_ GK]. rewrite F2, F3, F4. exact (GK F1).
  - rewrite (E4 _ NE). now apply G.
Qed.
Lemma gone_same : forall h1 h h' s, news h' = news h -> (forall k, live k h' = live k h) -> Gone h1 h s -> Gone h1 h' s.
Proof. intros h1 h h' s E1 E2 (A & N & L & G). unfold Gone. rewrite E1. repeat (split; [assumption|]). intros k d D. rewrite E2. now apply G. Qed.

(** What a poll answers once the timer is gone. *)
Definition after (h1 : list ev) (k : nat) : answer := if ((k <? news h1) && rang k h1)%bool then Done else Away.
Lemma gone_step : forall h1 h s e, Gone h1 h s ->
  (exists a s', step s e = Ok (a, s') /\ Gone h1 (e :: h) s' /\ match e with Poll k => a = APoll (after h1 k) | _ => True end) \/ (exists x, step s e = Err x).
Proof.
  intros h1 h s e GN. pose proof GN as (A & N & L & G). destruct e as [a|k a|k|k| |now| |]; cbn [step]; unfold on_timer, on_delay; try rewrite A; try (right; eauto; fail).
  - left. eexists _, _. split; [reflexivity|]. split; [|exact I]. unfold new. rewrite A. unfold Gone. cbn [with_ds s_ds s_alive news]. split; [exact A|]. split; [lia|]. rewrite app_length. cbn [length]. split; [lia|].
    intros k d D. apply nth_snoc' in D as [[-> ->]|[LT D]]; cbn [live].
    + rewrite L, Nat.eqb_refl. split; [reflexivity|]. intros _. destruct (Nat.ltb_spec (news h) (news h1)); [lia|reflexivity].
    + destruct (Nat.eqb_spec (news h) k); [lia|]. now apply G.
  - destruct (nth_error (s_ds s) k) as [d|] eqn:D; [|right; eauto]. destruct (d_live d) eqn:LV; [|right; eauto]. left. eexists _, _. split; [reflexivity|]. split; [|exact I].
    destruct (G _ _ D) as [GL _].
    assert (X : reset k a d s = set_d k (d_when_ a d) s) by (unfold reset; cbn [d_when_ d_node]; rewrite A; destruct (d_node d); reflexivity). rewrite X.
    apply (gone_upd h1 h _ s k d (d_when_ a d)); cbn; auto.
  - destruct (nth_error (s_ds s) k) as [d|] eqn:D; [|right; eauto]. destruct (d_live d) eqn:LV; [|right; eauto]. left. eexists _, _. split; [reflexivity|]. split; [|exact I].
    assert (X : drop_d k d s = set_d k (d_live_ false d) s) by (unfold drop_d; cbn [d_live_ d_node]; rewrite A; destruct (d_node d); reflexivity). rewrite X.
    apply (gone_upd h1 h _ s k d (d_live_ false d)); cbn; auto; [|now rewrite Nat.eqb_refl]. intros k' NE. destruct (Nat.eqb_spec k k'); congruence.
  - destruct (nth_error (s_ds s) k) as [d|] eqn:D; [|right; eauto]. destruct (d_live d) eqn:LV; [|right; eauto]. left. destruct (G _ _ D) as [GL GK]. specialize (GK LV).
    assert (SM : Gone h1 (Poll k :: h) s) by (revert GN; apply gone_same; reflexivity).
    unfold poll, after. destruct (k <? news h1); cbn [andb].
    + destruct GK as (K1 & K2 & K3). rewrite K1, <- K2. destruct (d_fired d) eqn:F; [eauto 6|]. rewrite (K3 eq_refl). eexists _, _. split; [reflexivity|]. split; [|reflexivity].
      apply (gone_upd h1 h _ s k d (d_waits_ true d)); cbn; auto.
    + rewrite GK. eauto 6.
Qed.
