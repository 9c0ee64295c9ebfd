(** The heap of timers: order, slots and free list are kept by every operation. *)
From Coq Require Import Permutation FinFun.
From Verif Require Import Base HeapModel.
Local Open Scope list_scope.
Local Open Scope nat_scope.

Lemma put_length {A} : forall i (x : A) l, length (put i x l) = length l.
Proof. induction i as [|i IH]; intros x [|y l]; cbn [put length]; auto. Qed.
Lemma put_same {A} : forall i (x : A) l, i < length l -> nth_error (put i x l) i = Some x.
Proof. induction i as [|i IH]; intros x [|y l] L; cbn in *; try lia; auto. apply IH. lia. Qed.
Lemma put_other {A} : forall i k (x : A) l, k <> i -> nth_error (put i x l) k = nth_error l k.
Proof. induction i as [|i IH]; intros [|k] x [|y l] N; cbn; try congruence; auto. Qed.
Lemma nth_lt {A} : forall (l : list A) i x, nth_error l i = Some x -> i < length l.
Proof. intros l i x E. apply nth_error_Some. congruence. Qed.
Lemma lt_nth {A} : forall (l : list A) i, i < length l -> exists x, nth_error l i = Some x.
Proof. intros l i L. apply nth_error_Some in L. destruct (nth_error l i); [eauto|congruence]. Qed.
Lemma nth_firstn {A} : forall m (l : list A) k, nth_error (firstn m l) k = if k <? m then nth_error l k else None.
Proof.
  induction m as [|m IH]; intros [|y l] k; cbn [firstn].
  - destruct k; reflexivity.
  - destruct k; reflexivity.
  - destruct (k <? S m); destruct k; reflexivity.
  - destruct k as [|k]; [reflexivity|]. cbn [nth_error]. rewrite IH. reflexivity.
Qed.

(** ** Exchanging two places *)
Definition tr (a b n : nat) : nat := if n =? a then b else if n =? b then a else n.
Lemma tr_l a b : tr a b a = b.
Proof. unfold tr. now rewrite Nat.eqb_refl. Qed.
Lemma tr_r a b : tr a b b = a.
Proof. unfold tr. rewrite Nat.eqb_refl. destruct (Nat.eqb_spec b a); congruence. Qed.
Lemma tr_o a b n : n <> a -> n <> b -> tr a b n = n.
Proof. intros A B. unfold tr. destruct (Nat.eqb_spec n a), (Nat.eqb_spec n b); congruence. Qed.
Lemma tr_inj a b : Injective (tr a b).
Proof.
  intros m n E. unfold tr in E.
  destruct (Nat.eqb_spec m a), (Nat.eqb_spec m b), (Nat.eqb_spec n a), (Nat.eqb_spec n b); congruence.
Qed.
Lemma nth_swap {A} : forall (l : list A) a b x y, nth_error l a = Some x -> nth_error l b = Some y ->
  forall n, nth_error (put a y (put b x l)) n = nth_error l (tr a b n).
Proof.
  intros l a b x y X Y n. destruct (Nat.eq_dec n a) as [->|Na].
  - rewrite tr_l, put_same; [now symmetry|]. rewrite put_length. now apply nth_lt in X.
  - rewrite put_other by assumption. destruct (Nat.eq_dec n b) as [->|Nb].
    + rewrite tr_r, put_same; [now symmetry|]. now apply nth_lt in Y.
    + rewrite put_other, tr_o; auto.
Qed.
Lemma swap_perm {A} : forall (l : list A) a b x y, nth_error l a = Some x -> nth_error l b = Some y -> Permutation l (put a y (put b x l)).
Proof.
  intros l a b x y X Y. apply Permutation_nth_error. split; [now rewrite !put_length|]. exists (tr a b). split; [apply tr_inj|]. now apply nth_swap.
Qed.

(** ** Slots *)
Definition frees (ix ix' : list slab) : Prop :=
  length ix = length ix' /\ forall j n, nth_error ix j = Some (SEmpty n) <-> nth_error ix' j = Some (SEmpty n).
Lemma frees_refl ix : frees ix ix.
Proof. split; [reflexivity|tauto]. Qed.
Lemma frees_trans a b c : frees a b -> frees b c -> frees a c.
Proof. intros [L1 F1] [L2 F2]. split; [congruence|]. intros j n. rewrite F1. apply F2. Qed.
Lemma set_frees : forall ix j v ix', set_index ix j v = Ok ix' -> frees ix ix' /\ ix' = put j (SFull v) ix /\ exists w, nth_error ix j = Some (SFull w).
Proof.
  intros ix j v ix' E. unfold set_index in E. destruct (nth_error ix j) as [[n|w]|] eqn:N; try discriminate. injection E as <-.
  split; [|split; [reflexivity|eauto]]. split; [symmetry; apply put_length|]. intros k n. destruct (Nat.eq_dec k j) as [->|D].
  - rewrite N, put_same by now apply nth_lt in N. split; discriminate.
  - rewrite put_other by assumption. tauto.
Qed.
(** The free slots, from the next one on. *)
Fixpoint chain (ix : list slab) (n : nat) (ch : list nat) : Prop :=
  match ch with
  | [] => n = length ix
  | c :: ch' => n = c /\ exists m, nth_error ix c = Some (SEmpty m) /\ chain ix m ch'
  end.
Lemma chain_frees : forall ix ix' ch n, frees ix ix' -> chain ix n ch -> chain ix' n ch.
Proof.
  intros ix ix' ch. induction ch as [|c ch IH]; intros n [L F] C; cbn [chain] in *; [congruence|].
  destruct C as (-> & m & N & C). split; [reflexivity|]. exists m. split; [now apply F|]. apply IH; [now split|assumption].
Qed.
Lemma chain_empty : forall ix ch n, chain ix n ch -> forall c, In c ch -> exists m, nth_error ix c = Some (SEmpty m).
Proof.
  intros ix. induction ch as [|c ch IH]; intros n C d I; [destruct I|]. destruct C as (-> & m & N & C). destruct I as [<-|I]; eauto.
Qed.
Lemma chain_put : forall ix j x ch n, ~ In j ch -> chain ix n ch -> chain (put j x ix) n ch.
Proof.
  intros ix j x. induction ch as [|c ch IH]; intros n NI C; cbn [chain] in *; [now rewrite put_length|].
  destruct C as (-> & m & N & C). split; [reflexivity|]. exists m. split; [rewrite put_other; [assumption|]|]; [intros ->; apply NI; now left|].
  apply IH; [intros I; apply NI; now right|assumption].
Qed.

Section Heap.
Context {T : Type}.
Variable key : T -> Z.
Notation items := (list (T * nat)).
Notation up := (up key). Notation down := (down key). Notation lower := (lower key).

(** Every item's slot knows its place, and every full slot its item. *)
Definition linked (l : items) (ix : list slab) : Prop :=
  (forall i t j, nth_error l i = Some (t, j) -> nth_error ix j = Some (SFull i)) /\
  (forall j i, nth_error ix j = Some (SFull i) -> exists t, nth_error l i = Some (t, j)).
Lemma linked_swap : forall l ix a b x y, linked l ix -> nth_error l a = Some x -> nth_error l b = Some y -> a <> b ->
  exists ix', swap a b l ix = Ok (put a y (put b x l), ix') /\ linked (put a y (put b x l)) ix' /\ frees ix ix'.
Proof.
  intros l ix a b [tx jx] [ty jy] [L1 L2] X Y N. unfold swap. rewrite X, Y. cbn [snd].
  pose proof (L1 _ _ _ X) as IX. pose proof (L1 _ _ _ Y) as IY.
  assert (D : jx <> jy) by (intros ->; congruence).
  destruct (set_index ix jy a) as [i1|e|] eqn:E1; [|unfold set_index in E1; rewrite IY in E1; discriminate..].
  destruct (set_frees _ _ _ _ E1) as (F1 & Q1 & _). cbn [bind].
  assert (IX1 : nth_error i1 jx = Some (SFull a)) by (rewrite Q1, put_other; auto).
  destruct (set_index i1 jx b) as [i2|e|] eqn:E2; [|unfold set_index in E2; rewrite IX1 in E2; discriminate..].
  destruct (set_frees _ _ _ _ E2) as (F2 & Q2 & _). cbn [bind].
  assert (V : forall j, nth_error i2 j = if j =? jx then Some (SFull b) else if j =? jy then Some (SFull a) else nth_error ix j).
  { intros j. destruct (Nat.eqb_spec j jx) as [->|Nx].
    - rewrite Q2, put_same; [reflexivity|]. now apply nth_lt in IX1.
    - rewrite Q2, put_other by assumption. destruct (Nat.eqb_spec j jy) as [->|Ny].
      + rewrite Q1, put_same; [reflexivity|]. now apply nth_lt in IY.
      + now rewrite Q1, put_other. }
  exists i2. split; [reflexivity|]. split; [|now apply (frees_trans _ i1)]. split.
  - intros i t j E. rewrite (nth_swap _ _ _ _ _ X Y) in E. rewrite V. destruct (Nat.eq_dec i a) as [->|Na].
    { rewrite tr_l, Y in E. injection E as <- <-. destruct (Nat.eqb_spec jy jx); [congruence|]. now rewrite Nat.eqb_refl. }
    destruct (Nat.eq_dec i b) as [->|Nb].
    { rewrite tr_r, X in E. injection E as <- <-. now rewrite Nat.eqb_refl. }
    rewrite tr_o in E by assumption. pose proof (L1 _ _ _ E) as J.
    destruct (Nat.eqb_spec j jx) as [->|_]; [congruence|]. destruct (Nat.eqb_spec j jy) as [->|_]; [congruence|]. exact J.
  - intros j i E. rewrite V in E. destruct (Nat.eqb_spec j jx) as [->|Nx].
    { injection E as <-. exists tx. rewrite (nth_swap _ _ _ _ _ X Y), tr_r. exact X. }
    destruct (Nat.eqb_spec j jy) as [->|Ny].
    { injection E as <-. exists ty. rewrite (nth_swap _ _ _ _ _ X Y), tr_l. exact Y. }
    destruct (L2 _ _ E) as (t & I). exists t. rewrite (nth_swap _ _ _ _ _ X Y), tr_o; [exact I| |]; intros ->; congruence.
Qed.

(** ** Order *)
Definition ord (l : items) (i j : nat) : Prop :=
  forall x y, nth_error l i = Some x -> nth_error l j = Some y -> (key (fst x) <= key (fst y))%Z.
Definition ordered (l : items) : Prop := forall j, 0 < j -> ord l (parent j) j.
Definition rising (l : items) (i : nat) : Prop :=
  (forall j, 0 < j -> j <> i -> ord l (parent j) j) /\ (forall j, 0 < j -> parent j = i -> 0 < i -> ord l (parent i) j).
Definition sinking (l : items) (i : nat) : Prop :=
  (forall j, 0 < j -> parent j <> i -> ord l (parent j) j) /\ (forall j, 0 < j -> parent j = i -> 0 < i -> ord l (parent i) j).
Lemma parent_lt j : 0 < j -> parent j < j.
Proof. intros P. unfold parent. apply Nat.div_lt_upper_bound; lia. Qed.
Lemma parent_iff j i : 0 < j -> (parent j = i <-> j = 2 * i + 1 \/ j = 2 * i + 2).
Proof.
  intros P. unfold parent. pose proof (Nat.div_mod (j - 1) 2 ltac:(lia)) as D. pose proof (Nat.mod_upper_bound (j - 1) 2 ltac:(lia)) as B. split; intros E; lia.
Qed.

Definition settled (l : items) (ix : list slab) (r : res (items * list slab)) : Prop :=
  exists l' ix', r = Ok (l', ix') /\ Permutation l l' /\ linked l' ix' /\ frees ix ix' /\ ordered l'.
Lemma up_ok : forall f i l ix, linked l ix -> i < length l -> i < f -> rising l i -> settled l ix (up f i l ix).
Proof.
  induction f as [|f IH]; intros i l ix L I F [R1 R2]; [lia|]. cbn [HeapModel.up].
  destruct (Nat.ltb_spec 0 i) as [P|P].
  - pose proof (parent_lt i P) as PL. destruct (lt_nth l i I) as [x X]. destruct (lt_nth l (parent i) ltac:(lia)) as [p Y]. rewrite X, Y.
    destruct (Z.leb_spec (key (fst p)) (key (fst x))) as [LE|GT].
    + exists l, ix. repeat (split; [now auto using frees_refl|]). intros j J. destruct (Nat.eq_dec j i) as [->|N]; [|now apply R1].
      intros a b A B. rewrite Y in A. rewrite X in B. injection A as <-. injection B as <-. exact LE.
    + destruct (linked_swap l ix (parent i) i p x L Y X ltac:(lia)) as (ix' & E & L' & F'). rewrite E. cbn [bind].
      pose proof (nth_swap l (parent i) i p x Y X) as V. set (l' := put (parent i) x (put i p l)) in *.
      assert (R' : rising l' (parent i)).
      { assert (XP : nth_error l' (parent i) = Some x) by (rewrite V, tr_l; exact X).
        assert (YI : nth_error l' i = Some p) by (rewrite V, tr_r; exact Y).
        split.
        - intros j J N a b A B. destruct (Nat.eq_dec j i) as [->|Ni].
          { rewrite XP in A. rewrite YI in B. injection A as <-. injection B as <-. lia. }
          rewrite V, (tr_o _ _ j) in B by assumption. destruct (Nat.eq_dec (parent j) (parent i)) as [EP|NP].
          { rewrite EP, XP in A. injection A as <-. pose proof (R1 j J Ni) as O. rewrite EP in O. specialize (O _ _ Y B). lia. }
          destruct (Nat.eq_dec (parent j) i) as [EI|NI].
          { rewrite EI, YI in A. injection A as <-. exact (R2 j J EI P _ _ Y B). }
          rewrite V, tr_o in A by assumption. exact (R1 j J Ni _ _ A B).
        - intros j J EP PP a b A B. pose proof (parent_lt _ PP) as PPL. rewrite V, tr_o in A by lia.
          pose proof (R1 (parent i) PP ltac:(lia) _ _ A Y) as O1. destruct (Nat.eq_dec j i) as [->|Ni].
          { rewrite YI in B. injection B as <-. exact O1. }
          rewrite V, tr_o in B; [|intros ->; lia|exact Ni]. pose proof (R1 j J Ni) as O. rewrite EP in O. specialize (O _ _ Y B). lia. }
      assert (LE' : length l' = length l) by (unfold l'; now rewrite !put_length).
      destruct (IH (parent i) l' ix' L' ltac:(lia) ltac:(lia) R') as (l2 & ix2 & E2 & P2 & L2 & F2 & O2).
      exists l2, ix2. split; [exact E2|]. split; [|split; [exact L2|split; [now apply (frees_trans _ ix')|exact O2]]].
      apply (Permutation_trans (l' := l')); [now apply swap_perm|exact P2].
  - exists l, ix. repeat (split; [now auto using frees_refl|]). intros j J. apply R1; lia.
Qed.
Lemma lower_ok : forall i l x, nth_error l i = Some x ->
  (lower i l = Ok None /\ forall j, 0 < j -> parent j = i -> ord l i j) \/
  exists c y, lower i l = Ok (Some c) /\ 0 < c /\ parent c = i /\ nth_error l c = Some y /\ (key (fst y) < key (fst x))%Z /\
    forall j, 0 < j -> parent j = i -> ord l c j.
Proof.
  intros i l x X. unfold HeapModel.lower. rewrite X.
  assert (PC : forall j, 0 < j -> parent j = i -> j = 2 * i + 1 \/ j = 2 * i + 2) by (intros j J E; now apply parent_iff).
  assert (P1 : parent (2 * i + 1) = i) by (apply parent_iff; lia). assert (P2 : parent (2 * i + 2) = i) by (apply parent_iff; lia).
  destruct (nth_error l (2 * i + 1)) as [a|] eqn:A; destruct (nth_error l (2 * i + 2)) as [b|] eqn:B.
  - destruct (Z.ltb_spec (key (fst a)) (key (fst x))); [destruct (Z.ltb_spec (key (fst b)) (key (fst a)))|destruct (Z.ltb_spec (key (fst b)) (key (fst x)))].
    + right. exists (2 * i + 2), b. split; [reflexivity|]. split; [lia|]. split; [exact P2|]. split; [exact B|]. split; [lia|].
      intros j J E u v U W. rewrite B in U. injection U as <-. destruct (PC j J E) as [->| ->]; [rewrite A in W|rewrite B in W]; injection W as <-; lia.
    + right. exists (2 * i + 1), a. split; [reflexivity|]. split; [lia|]. split; [exact P1|]. split; [exact A|]. split; [lia|].
      intros j J E u v U W. rewrite A in U. injection U as <-. destruct (PC j J E) as [->| ->]; [rewrite A in W|rewrite B in W]; injection W as <-; lia.
    + right. exists (2 * i + 2), b. split; [reflexivity|]. split; [lia|]. split; [exact P2|]. split; [exact B|]. split; [lia|].
      intros j J E u v U W. rewrite B in U. injection U as <-. destruct (PC j J E) as [->| ->]; [rewrite A in W|rewrite B in W]; injection W as <-; lia.
    + left. split; [reflexivity|]. intros j J E u v U W. rewrite X in U. injection U as <-.
      destruct (PC j J E) as [->| ->]; [rewrite A in W|rewrite B in W]; injection W as <-; lia.
  - destruct (Z.leb_spec (key (fst x)) (key (fst a))).
    + left. split; [reflexivity|]. intros j J E u v U W. rewrite X in U. injection U as <-.
      destruct (PC j J E) as [->| ->]; [rewrite A in W|rewrite B in W]; [injection W as <-; lia|discriminate].
    + right. exists (2 * i + 1), a. split; [reflexivity|]. split; [lia|]. split; [exact P1|]. split; [exact A|]. split; [lia|].
      intros j J E u v U W. rewrite A in U. injection U as <-. destruct (PC j J E) as [->| ->]; [rewrite A in W|rewrite B in W]; [injection W as <-; lia|discriminate].
  - exfalso. apply nth_lt in B. apply nth_error_None in A. lia.
  - left. split; [reflexivity|]. intros j J E u v U W. destruct (PC j J E) as [->| ->]; congruence.
Qed.
Lemma down_ok : forall f i l ix, linked l ix -> i < length l -> length l - i < f -> sinking l i -> settled l ix (down f i l ix).
Proof.
  induction f as [|f IH]; intros i l ix L I F [R1 R2]; [lia|]. cbn [HeapModel.down].
  destruct (lt_nth l i I) as [x X]. destruct (lower_ok i l x X) as [[E O]|(c & y & E & C & PC & Y & LT & O)]; rewrite E; cbn [bind].
  - exists l, ix. repeat (split; [now auto using frees_refl|]). intros j J. destruct (Nat.eq_dec (parent j) i) as [Q|N]; [rewrite Q; auto|now apply R1].
  - pose proof (parent_lt c C) as IC. rewrite PC in IC.
    destruct (linked_swap l ix i c x y L X Y ltac:(lia)) as (ix' & E' & L' & F'). rewrite E'. cbn [bind].
    pose proof (nth_swap l i c x y X Y) as V. set (l' := put i y (put c x l)) in *.
    assert (YI : nth_error l' i = Some y) by (rewrite V, tr_l; exact Y).
    assert (XC : nth_error l' c = Some x) by (rewrite V, tr_r; exact X).
    assert (R' : sinking l' c).
    { split.
      - intros j J N a b A B. destruct (Nat.eq_dec j c) as [->|Nc].
        { rewrite PC, YI in A. rewrite XC in B. injection A as <-. injection B as <-. lia. }
        destruct (Nat.eq_dec j i) as [->|Ni].
        { pose proof (parent_lt i J). rewrite V, tr_o in A by lia. rewrite YI in B. injection B as <-. exact (R2 c C PC J _ _ A Y). }
        rewrite V, (tr_o _ _ j) in B by assumption. destruct (Nat.eq_dec (parent j) i) as [EP|NP].
        { rewrite EP, YI in A. injection A as <-. exact (O j J EP _ _ Y B). }
        rewrite V, tr_o in A by assumption. exact (R1 j J NP _ _ A B).
      - intros j J EP _ a b A B. rewrite PC, YI in A. injection A as <-. pose proof (parent_lt j J) as JL.
        rewrite V, tr_o in B by lia. pose proof (R1 j J ltac:(lia)) as Q. rewrite EP in Q. exact (Q _ _ Y B). }
    assert (LE' : length l' = length l) by (unfold l'; now rewrite !put_length). pose proof (nth_lt _ _ _ Y).
    destruct (IH c l' ix' L' ltac:(lia) ltac:(lia) R') as (l2 & ix2 & E2 & P2 & L2 & F2 & O2).
    exists l2, ix2. split; [exact E2|]. split; [|split; [exact L2|split; [now apply (frees_trans _ ix')|exact O2]]].
    apply (Permutation_trans (l' := l')); [now apply swap_perm|exact P2].
Qed.

(** ** The invariant *)
Definition inv (h : heap (T := T)) : Prop :=
  linked (h_items h) (h_index h) /\ ordered (h_items h) /\
  exists ch, chain (h_index h) (h_next h) ch /\ NoDup ch /\ length (h_index h) = length (h_items h) + length ch.
Lemma inv_new : inv h_new.
Proof.
  split; [split; intros [|i]; discriminate|]. split; [intros j _ x y X; destruct (parent j); discriminate|].
  exists []. repeat split. constructor.
Qed.
Lemma nth_snoc {A} : forall (l : list A) x i, nth_error (l ++ [x]) i = if i =? length l then Some x else nth_error l i.
Proof.
  intros l x i. destruct (Nat.eqb_spec i (length l)) as [->|N]; [now rewrite nth_error_app2, Nat.sub_diag by lia|].
  destruct (Nat.lt_ge_cases i (length l)); [now apply nth_error_app1|].
  rewrite nth_error_app2 by lia. rewrite (proj2 (nth_error_None l i)) by lia. destruct (i - length l) as [|k] eqn:K; [lia|]. now destruct k.
Qed.
Lemma snoc_rising : forall l x, ordered l -> rising (l ++ [x]) (length l).
Proof.
  intros l x O. split.
  - intros j J N a b A B. rewrite nth_snoc in A, B. destruct (Nat.eqb_spec j (length l)); [contradiction|].
    pose proof (nth_lt _ _ _ B). pose proof (parent_lt j J). destruct (Nat.eqb_spec (parent j) (length l)); [lia|]. exact (O j J _ _ A B).
  - intros j J E _ a b _ B. pose proof (parent_lt j J). rewrite nth_snoc in B. destruct (Nat.eqb_spec j (length l)); [lia|]. apply nth_lt in B. lia.
Qed.
Lemma push_ok : forall t h, inv h -> exists j h', h_push key t h = Ok (j, h') /\ inv h' /\ Permutation (h_items h') ((t, j) :: h_items h) /\
  ~ In j (map snd (h_items h)) /\ length (h_index h') = Nat.max (length (h_index h)) (length (h_items h')).
Proof.
  intros t [l ix nx] (L & O & ch & C & ND & LEN). cbn [h_items h_index h_next] in *. unfold h_push. cbn [h_items h_index h_next].
  assert (S1 : exists j ix1 nx1 ch1, (if nx =? length ix then Ok (length ix, ix ++ [SFull (length l)], S nx)
     else match nth_error ix nx with Some (SEmpty n) => Ok (nx, put nx (SFull (length l)) ix, n) | _ => Panic end) = Ok (j, ix1, nx1) /\
     linked (l ++ [(t, j)]) ix1 /\ chain ix1 nx1 ch1 /\ NoDup ch1 /\ length ix1 = S (length l) + length ch1 /\
     (forall i, nth_error ix j <> Some (SFull i)) /\ length ix1 = Nat.max (length ix) (S (length l))).
  { destruct L as [L1 L2]. destruct (Nat.eqb_spec nx (length ix)) as [->|N].
    - destruct ch as [|c ch]; [|exfalso; cbn in C; destruct C as (<- & m & M & _); apply nth_lt in M; lia].
      cbn [length] in LEN. exists (length ix), (ix ++ [SFull (length l)]), (S (length ix)), []. split; [reflexivity|].
      split; [|cbn [chain]; rewrite app_length; cbn [length]; repeat split; try constructor; try lia;
               intros i Q; apply nth_lt in Q; lia].
      split.
      + intros i t' j E. rewrite nth_snoc in E. rewrite nth_snoc. destruct (Nat.eqb_spec i (length l)) as [->|Ni].
        * injection E as <- <-. now rewrite Nat.eqb_refl.
        * pose proof (L1 _ _ _ E) as Q. destruct (Nat.eqb_spec j (length ix)) as [->|]; [apply nth_lt in Q; lia|exact Q].
      + intros j i E. rewrite nth_snoc in E. destruct (Nat.eqb_spec j (length ix)) as [->|Nj].
        * injection E as <-. exists t. now rewrite nth_snoc, Nat.eqb_refl.
        * destruct (L2 _ _ E) as (t' & Q). exists t'. rewrite nth_snoc. destruct (Nat.eqb_spec i (length l)) as [->|]; [apply nth_lt in Q; lia|exact Q].
    - destruct ch as [|c ch]; [cbn in C; congruence|]. destruct C as (-> & m & M & C). inversion ND as [|? ? NI ND']; subst. rewrite M.
      pose proof (nth_lt _ _ _ M) as ML.
      exists c, (put c (SFull (length l)) ix), m, ch. split; [reflexivity|]. cbn [length] in LEN.
      split; [|split; [now apply chain_put|]; split; [exact ND'|]; rewrite put_length; split; [lia|]; split; [congruence|lia]].
      split.
      + intros i t' j E. rewrite nth_snoc in E. destruct (Nat.eqb_spec i (length l)) as [->|Ni].
        * injection E as <- <-. now apply put_same.
        * pose proof (L1 _ _ _ E) as Q. rewrite put_other; [exact Q|]. intros ->. congruence.
      + intros j i E. destruct (Nat.eq_dec j c) as [->|Nj].
        * rewrite put_same in E by assumption. injection E as <-. exists t. now rewrite nth_snoc, Nat.eqb_refl.
        * rewrite put_other in E by assumption. destruct (L2 _ _ E) as (t' & Q). exists t'. rewrite nth_snoc.
          destruct (Nat.eqb_spec i (length l)) as [->|]; [apply nth_lt in Q; lia|exact Q]. }
  destruct S1 as (j & ix1 & nx1 & ch1 & E1 & L' & C' & ND' & LEN' & FR & MX). rewrite E1. cbn [bind].
  assert (AL : length (l ++ [(t, j)]) = S (length l)) by (rewrite app_length; cbn; lia).
  destruct (up_ok (S (length l)) (length l) (l ++ [(t, j)]) ix1 L' ltac:(lia) ltac:(lia) (snoc_rising l (t, j) O)) as (l2 & ix2 & E2 & P2 & L2 & F2 & O2).
  rewrite E2. cbn [bind]. exists j, (MkHeap l2 ix2 nx1). split; [reflexivity|].
  pose proof (Permutation_length P2) as PL. destruct F2 as [FL F2].
  split; [|split; [|split]]; cbn [h_items h_index h_next].
  - split; [exact L2|]. split; [exact O2|]. exists ch1. split; [apply (chain_frees ix1); [now split|exact C']|]. split; [exact ND'|].
    cbn [h_items h_index]. lia.
  - rewrite <- P2. symmetry. apply Permutation_cons_append.
  - intros I. apply in_map_iff in I as ([t' j'] & Ej & I). cbn in Ej. subst j'. apply In_nth_error in I as (i & I). apply L in I. now apply FR in I.
  - lia.
Qed.

Lemma remove_perm {A} : forall (l : list A) i x y, nth_error l i = Some x -> nth_error l (length l - 1) = Some y ->
  Permutation l (x :: firstn (length l - 1) (put i y l)).
Proof.
  intros l i x y X Y. destruct l as [|z l] using rev_ind; [destruct i; discriminate|]. clear IHl.
  rewrite app_length in *. cbn [length] in *. replace (length l + 1 - 1) with (length l) in * by lia.
  rewrite nth_snoc, Nat.eqb_refl in Y. injection Y as ->. rewrite nth_snoc in X. destruct (Nat.eqb_spec i (length l)) as [->|N].
  - injection X as ->. assert (firstn (length l) (put (length l) x (l ++ [x])) = l) as ->.
    { clear. induction l as [|a l IH]; [reflexivity|]. cbn. now rewrite IH. }
    symmetry. apply Permutation_cons_append.
  - apply nth_error_split in X as (A1 & A2 & -> & <-). rewrite app_length. cbn [length].
    assert (firstn (length A1 + S (length A2)) (put (length A1) y ((A1 ++ x :: A2) ++ [y])) = A1 ++ y :: A2) as ->.
    { clear. induction A1 as [|a A1 IH]; cbn [length app put firstn Nat.add]; [|now rewrite IH].
      f_equal. rewrite firstn_app, firstn_all, Nat.sub_diag. cbn. apply app_nil_r. }
    transitivity (y :: A1 ++ x :: A2); [symmetry; apply Permutation_cons_append|].
    transitivity (y :: x :: A1 ++ A2); [apply perm_skip; symmetry; apply Permutation_middle|].
    transitivity (x :: y :: A1 ++ A2); [apply perm_swap|apply perm_skip, Permutation_middle].
Qed.

Lemma remove_ok : forall j t h, inv h -> In (t, j) (h_items h) -> exists h', h_remove key j h = Ok (t, h') /\ inv h' /\
  Permutation (h_items h) ((t, j) :: h_items h') /\ length (h_index h') = length (h_index h).
Proof.
  intros j t [l ix nx] (L & O & ch & C & ND & LEN) I. cbn [h_items h_index h_next] in *. unfold h_remove. cbn [h_items h_index h_next].
  apply In_nth_error in I as (i & X). pose proof (proj1 L _ _ _ X) as IX. rewrite IX. cbv zeta.
  pose proof (nth_lt _ _ _ X) as IL. destruct (lt_nth l (length l - 1) ltac:(lia)) as [y Y]. unfold swap_remove. rewrite X, Y. cbn [bind snd fst].
  rewrite Nat.eqb_refl. pose proof (remove_perm _ _ _ _ X Y) as PM. set (l1 := firstn (length l - 1) (put i y l)) in *.
  assert (LL : length l1 = length l - 1) by (apply Permutation_length in PM; cbn [length] in PM; lia).
  assert (V : forall k, nth_error l1 k = if k <? length l - 1 then (if k =? i then Some y else nth_error l k) else None).
  { intros k. unfold l1. rewrite nth_firstn. destruct (k <? length l - 1); [|reflexivity]. destruct (Nat.eqb_spec k i) as [->|N]; [now apply put_same|now apply put_other]. }
  destruct L as [L1 L2]. pose proof (nth_lt _ _ _ IX) as JL.
  assert (NC : ~ In j ch) by (intros J; destruct (chain_empty _ _ _ C j J) as (m & M); congruence).
  assert (CH : forall ix', frees (put j (SEmpty nx) ix) ix' -> chain ix' j (j :: ch)).
  { intros ix' F. apply (chain_frees _ _ _ _ F). cbn [chain]. split; [reflexivity|]. exists nx. split; [now apply put_same|now apply chain_put]. }
  assert (ND' : NoDup (j :: ch)) by now constructor.
  rewrite LL. destruct (Nat.ltb_spec i (length l - 1)) as [LT|GE].
  - assert (YI : nth_error l1 i = Some y) by (rewrite V, (proj2 (Nat.ltb_lt i _) LT), Nat.eqb_refl; reflexivity). rewrite YI.
    destruct y as [ty jy]. cbn [fst snd]. pose proof (L1 _ _ _ Y) as IY. assert (DJ : jy <> j) by (intros ->; rewrite IX in IY; injection IY as IY; lia).
    assert (IY1 : nth_error (put j (SEmpty nx) ix) jy = Some (SFull (length l - 1))) by (rewrite put_other; auto).
    destruct (set_index (put j (SEmpty nx) ix) jy i) as [i2|e|] eqn:E2; [|unfold set_index in E2; rewrite IY1 in E2; discriminate..].
    destruct (set_frees _ _ _ _ E2) as (F2 & Q2 & _). cbn [bind].
    assert (V2 : forall k, nth_error i2 k = if k =? jy then Some (SFull i) else if k =? j then Some (SEmpty nx) else nth_error ix k).
    { intros k. rewrite Q2. destruct (Nat.eqb_spec k jy) as [->|]; [apply put_same; now apply nth_lt in IY1|]. rewrite put_other by assumption.
      destruct (Nat.eqb_spec k j) as [->|]; [now apply put_same|now apply put_other]. }
    assert (LK : linked l1 i2).
    { split.
      - intros k t' j' E. rewrite V in E. rewrite V2. destruct (Nat.ltb_spec k (length l - 1)); [|discriminate]. destruct (Nat.eqb_spec k i) as [->|Nk].
        + injection E as <- <-. now rewrite Nat.eqb_refl.
        + pose proof (L1 _ _ _ E) as Q. destruct (Nat.eqb_spec j' jy) as [->|]; [rewrite IY in Q; injection Q as Q; lia|].
          destruct (Nat.eqb_spec j' j) as [->|]; [rewrite IX in Q; injection Q as Q; lia|exact Q].
      - intros j' k E. rewrite V2 in E. destruct (Nat.eqb_spec j' jy) as [->|Ny]; [injection E as <-; eauto|].
        destruct (Nat.eqb_spec j' j) as [->|Nj]; [discriminate|]. destruct (L2 _ _ E) as (t' & Q). exists t'. rewrite V.
        assert (k <> i) by (intros ->; rewrite X in Q; congruence). assert (k <> length l - 1) by (intros ->; rewrite Y in Q; congruence).
        pose proof (nth_lt _ _ _ Q). destruct (Nat.ltb_spec k (length l - 1)); [|lia]. destruct (Nat.eqb_spec k i); [contradiction|exact Q]. }
    assert (OL : forall a b, a <> i -> b <> i -> ord l a b -> ord l1 a b).
    { intros a b Na Nb Q u v U W. rewrite V in U, W. destruct (Nat.ltb_spec a (length l - 1)), (Nat.ltb_spec b (length l - 1)); try discriminate.
      destruct (Nat.eqb_spec a i), (Nat.eqb_spec b i); try contradiction. exact (Q _ _ U W). }
    assert (GET : forall k v, k <> i -> nth_error l1 k = Some v -> nth_error l k = Some v).
    { intros k v Nk W. rewrite V in W. destruct (k <? length l - 1); [|discriminate]. destruct (Nat.eqb_spec k i); [contradiction|exact W]. }
    assert (ST : settled l1 i2 (if (key ty <? key t)%Z then up (S i) i l1 i2 else down (S (length l1)) i l1 i2)).
    { destruct (Z.ltb_spec (key ty) (key t)) as [LK'|GK].
      - apply up_ok; [exact LK|lia|lia|]. split.
        + intros k K N u v U W. destruct (Nat.eq_dec (parent k) i) as [EP|NP].
          * rewrite EP, YI in U. injection U as <-. pose proof (O k K) as Q. rewrite EP in Q. specialize (Q _ _ X (GET _ _ N W)). cbn in Q |- *. lia.
          * exact (O k K _ _ (GET _ _ NP U) (GET _ _ N W)).
        + intros k K EP P u v U W. pose proof (parent_lt i P). pose proof (parent_lt k K). apply GET in U; [|lia]. apply GET in W; [|lia].
          pose proof (O i P _ _ U X) as Q1. pose proof (O k K) as Q2'. rewrite EP in Q2'. specialize (Q2' _ _ X W). cbn in Q1, Q2'. lia.
      - apply down_ok; [exact LK|lia|lia|]. split.
        + intros k K NP u v U W. destruct (Nat.eq_dec k i) as [->|N].
          * rewrite YI in W. injection W as <-. apply GET in U; [|pose proof (parent_lt i K); lia]. pose proof (O i K _ _ U X) as Q. cbn in Q |- *. lia.
          * exact (O k K _ _ (GET _ _ NP U) (GET _ _ N W)).
        + intros k K EP P u v U W. pose proof (parent_lt i P). pose proof (parent_lt k K). apply GET in U; [|lia]. apply GET in W; [|lia].
          pose proof (O i P _ _ U X) as Q1. pose proof (O k K) as Q2'. rewrite EP in Q2'. specialize (Q2' _ _ X W). cbn in Q1, Q2'. lia. }
    rewrite LL in ST. destruct ST as (l3 & ix3 & E3 & P3 & L3 & F3 & O3). rewrite E3. cbn [bind]. eexists. split; [reflexivity|].
    pose proof (frees_trans _ _ _ F2 F3) as F. destruct (F) as [FL _]. rewrite put_length in FL. pose proof (Permutation_length P3).
    split; [|split]; cbn [h_items h_index h_next].
    + split; [exact L3|]. split; [exact O3|]. exists (j :: ch). split; [now apply CH|]. split; [exact ND'|]. cbn [length h_index h_items]. lia.
    + rewrite PM. now apply perm_skip.
    + lia.
  - assert (i = length l - 1) as Ei by lia. eexists. split; [reflexivity|].
    split; [|split]; cbn [h_items h_index h_next].
    + assert (GET : forall k v, nth_error l1 k = Some v -> nth_error l k = Some v /\ k <> i).
      { intros k v W. rewrite V in W. destruct (Nat.ltb_spec k (length l - 1)); [|discriminate]. destruct (Nat.eqb_spec k i); [lia|now split]. }
      split; [split|split].
      * intros k t' j' E. destruct (GET _ _ E) as [Q N]. pose proof (L1 _ _ _ Q) as W. cbn [h_index]. rewrite put_other; [exact W|]. intros ->. congruence.
      * intros j' k E. cbn [h_index] in E. destruct (Nat.eq_dec j' j) as [->|N]; [rewrite put_same in E by assumption; discriminate|]. rewrite put_other in E by assumption.
        destruct (L2 _ _ E) as (t' & Q). exists t'. cbn [h_items]. rewrite V. assert (k <> i) by (intros ->; rewrite X in Q; congruence). pose proof (nth_lt _ _ _ Q).
        destruct (Nat.ltb_spec k (length l - 1)); [|lia]. destruct (Nat.eqb_spec k i); [contradiction|exact Q].
      * intros k K u v U W. apply GET in U as [U _], W as [W _]. exact (O k K _ _ U W).
      * exists (j :: ch). cbn [h_index h_items h_next]. split; [apply CH, frees_refl|]. split; [exact ND'|]. rewrite put_length. cbn [length]. lia.
    + exact PM.
    + apply put_length.
Qed.
Lemma remove_dead : forall j h, inv h -> ~ In j (map snd (h_items h)) -> h_remove key j h = Panic.
Proof.
  intros j h (L & _) N. unfold h_remove. destruct (nth_error (h_index h) j) as [[n|i]|] eqn:E; try reflexivity. exfalso.
  destruct (proj2 L _ _ E) as (t & X). apply N. apply nth_error_In in X. now apply (in_map snd) in X.
Qed.
Lemma root_min : forall l, ordered l -> forall i x y, nth_error l 0 = Some x -> nth_error l i = Some y -> (key (fst x) <= key (fst y))%Z.
Proof.
  intros l O. induction i as [i IH] using lt_wf_ind. intros x y X Y. destruct i as [|i]; [rewrite X in Y; injection Y as <-; lia|].
  pose proof (parent_lt (S i) ltac:(lia)) as P. pose proof (nth_lt _ _ _ Y). destruct (lt_nth l (parent (S i)) ltac:(lia)) as [p Q].
  specialize (IH _ P x p X Q). specialize (O (S i) ltac:(lia) _ _ Q Y). lia.
Qed.
Lemma slots_distinct : forall h, inv h -> NoDup (map snd (h_items h)).
Proof.
  intros h ((L1 & _) & _). apply NoDup_nth_error. intros a b A E. rewrite map_length in A. destruct (lt_nth _ _ A) as [[ta ja] X].
  rewrite nth_error_map, X in E. cbn in E. destruct (nth_error (map snd (h_items h)) b) as [jb|] eqn:B; [|discriminate]. injection E as <-.
  rewrite nth_error_map in B. destruct (nth_error (h_items h) b) as [[tb jb]|] eqn:Y; [|discriminate]. cbn in B. injection B as ->.
  pose proof (L1 _ _ _ X). pose proof (L1 _ _ _ Y). congruence.
Qed.
End Heap.
