(** Facts about interlinks, proof comparison and the verifier. *)
From Coq Require Import Sorted.
From Verif Require Import Base VlqModel VlqProofs IntBytes GroupModel MerkleModel MerkleProofs HeaderModel
  PowModel NipopowModel.

(** *** Packing *)
Lemma pack_loop_unpack : forall ids curr count ix f,
  0 <= count -> List.length curr = 32%nat -> Forall (fun i => List.length i = 32%nat) ids ->
  pack_loop ids curr count ix = Ok f ->
  unpack_interlinks f = Ok (repeat curr (Z.to_nat count) ++ ids).
Proof.
  induction ids as [|id ids IH]; intros curr count ix f Hc HL HF E; cbn [pack_loop] in E.
  - injection E as <-. cbn [unpack_interlinks hd List.length skipn].
    change (1 =? 1) with true. cbv iota. rewrite HL. reflexivity.
  - inversion HF as [|? ? Hid HF']; subst. destruct (bytes_eqb id curr) eqn:Eb.
    + apply bytes_eqb_spec in Eb. subst id. destruct (count =? 255) eqn:E255; [discriminate|].
      rewrite (IH curr (count + 1) ix f) by (auto; lia).
      replace (Z.to_nat (count + 1)) with (Z.to_nat count + 1)%nat by lia.
      rewrite repeat_app, <- app_assoc. reflexivity.
    + destruct (ix =? 255); [discriminate|]. apply bind_ok in E. destruct E as [r [Er E]].
      injection E as <-. cbn [unpack_interlinks hd List.length skipn].
      change (1 =? 1) with true. cbv iota. rewrite HL. cbn [Nat.eqb negb].
      rewrite (IH id 1 (ix + 1) r) by (auto; lia). reflexivity.
Qed.

Lemma pack_loop_total : forall ids curr count ix,
  0 <= count -> 0 <= ix -> count + Zlen ids <= 255 -> ix + Zlen ids <= 255 ->
  exists f, pack_loop ids curr count ix = Ok f.
Proof.
  induction ids as [|id ids IH]; intros curr count ix Hc Hx H1 H2; cbn [pack_loop]; [eauto|].
  rewrite Zlen_cons in *. pose proof (Zlen_nonneg _ ids). destruct (bytes_eqb id curr).
  - replace (count =? 255) with false by lia. apply IH; lia.
  - replace (ix =? 255) with false by lia. destruct (IH id 1 (ix + 1)) as [f ->]; try lia.
    cbn [bind]. eauto.
Qed.

(** Keys are [1; ix], [1; ix+1], ... and values have 33 bytes. *)
Lemma pack_loop_keys : forall ids curr count ix f, 0 <= ix ->
  List.length curr = 32%nat -> Forall (fun i => List.length i = 32%nat) ids ->
  pack_loop ids curr count ix = Ok f ->
  map fst f = map (fun i => [1; ix + Z.of_nat i]) (seq 0 (List.length f)) /\
  Forall (fun kv => List.length (snd kv) = 33%nat) f /\ f <> [].
Proof.
  induction ids as [|id ids IH]; intros curr count ix f Hx HL HF E; cbn [pack_loop] in E.
  - injection E as <-. split; [simpl; rewrite Z.add_0_r; reflexivity|]. split; [|discriminate].
    constructor; [simpl; rewrite HL; reflexivity|constructor].
  - inversion HF as [|? ? Hid HF']; subst. destruct (bytes_eqb id curr) eqn:Eb.
    + destruct (count =? 255); [discriminate|]. exact (IH curr (count + 1) ix f Hx HL HF' E).
    + destruct (ix =? 255); [discriminate|]. apply bind_ok in E. destruct E as [r [Er E]].
      injection E as <-. destruct (IH id 1 (ix + 1) r ltac:(lia) Hid HF' Er) as [Hk [Hv Hne]].
      split; [|split; [|discriminate]].
      * cbn [map fst List.length]. rewrite Hk. cbn [seq map]. f_equal; [f_equal; f_equal; lia|].
        rewrite <- seq_shift, map_map. apply map_ext. intros i. f_equal. f_equal. lia.
      * constructor; [simpl; rewrite HL; reflexivity|exact Hv].
Qed.

Lemma unpack_app : forall a b, 
  unpack_interlinks (a ++ b) =
  (x <- unpack_interlinks a ;; y <- unpack_interlinks b ;; Ok (x ++ y)).
Proof.
  induction a as [|[k v] a IH]; intros b; cbn [unpack_interlinks app bind].
  - destruct (unpack_interlinks b); reflexivity.
  - destruct (hd 0 k =? 1); [|apply IH].
    destruct (negb _); [reflexivity|]. rewrite IH.
    destruct (unpack_interlinks a); cbn [bind]; [|reflexivity|reflexivity].
    destruct (unpack_interlinks b); cbn [bind]; [|reflexivity|reflexivity].
    rewrite app_assoc. reflexivity.
Qed.
Lemma unpack_others : forall a, Forall (fun kv => hd 0 (fst kv) <> 1) a -> unpack_interlinks a = Ok [].
Proof.
  induction a as [|[k v] a IH]; intros HF; cbn [unpack_interlinks]; auto.
  inversion HF; subst. cbn [fst] in *. replace (hd 0 k =? 1) with false by lia. auto.
Qed.

(** *** Equality tests *)
Lemma list_eqb_spec : forall A (e : A -> A -> bool), (forall x y, e x y = true <-> x = y) ->
  forall a b, list_eqb e a b = true <-> a = b.
Proof.
  intros A e He. induction a as [|x a IH]; intros [|y b]; cbn [list_eqb]; split; intros E; try discriminate; auto.
  - apply andb_true_iff in E. destruct E as [E1 E2]. apply He in E1. apply IH in E2. congruence.
  - injection E as <- <-. apply andb_true_iff. split; [apply He|apply IH]; reflexivity.
Qed.
Lemma opt_eqb_spec : forall A (e : A -> A -> bool), (forall x y, e x y = true <-> x = y) ->
  forall a b, opt_eqb e a b = true <-> a = b.
Proof.
  intros A e He [x|] [y|]; cbn [opt_eqb]; split; intros E; try discriminate; auto.
  - apply He in E. congruence.
  - apply He. congruence.
Qed.
Lemma header_eqb_spec : forall G, group_ok G -> forall a b : header G, header_eqb a b = true <-> a = b.
Proof.
  intros G HG a b. unfold header_eqb, solution_eqb. split.
  - intros E. repeat (apply andb_true_iff in E; let E' := fresh "E" in destruct E as [E E']).
    repeat match goal with
    | X : (_ && _) = true |- _ => apply andb_true_iff in X; destruct X
    end.
    repeat match goal with
    | X : (_ =? _) = true |- _ => apply Z.eqb_eq in X
    | X : bytes_eqb _ _ = true |- _ => apply bytes_eqb_spec in X
    | X : geqb _ _ = true |- _ => apply (g_eqb _ HG) in X
    | X : opt_eqb geqb _ _ = true |- _ => apply (opt_eqb_spec _ _ (g_eqb _ HG)) in X
    | X : opt_eqb Z.eqb _ _ = true |- _ => apply (opt_eqb_spec _ _ Z.eqb_eq) in X
    end.
    destruct a as [a1 a2 a3 a4 a5 a6 a7 a8 a9 a10 [s1 s2 s3 s4] a12],
             b as [b1 b2 b3 b4 b5 b6 b7 b8 b9 b10 [t1 t2 t3 t4] b12].
    cbn in *. congruence.
  - intros <-. rewrite !Z.eqb_refl, !bytes_eqb_refl, (proj2 (g_eqb _ HG _ _) eq_refl),
      (proj2 (opt_eqb_spec _ _ (g_eqb _ HG) _ _) eq_refl), (proj2 (opt_eqb_spec _ _ Z.eqb_eq _ _) eq_refl).
    reflexivity.
Qed.
Lemma batch_eqb_spec : forall a b : batch_proof, batch_eqb a b = true <-> a = b.
Proof.
  assert (HI : forall x y, bidx_eqb x y = true <-> x = y).
  { intros [i h] [j g]. unfold bidx_eqb. cbn [bi_index bi_hash]. rewrite andb_true_iff, Nat.eqb_eq, bytes_eqb_spec.
    split; [intros [-> ->]; reflexivity|intros E; injection E; auto]. }
  assert (HL : forall x y, level_eqb x y = true <-> x = y).
  { intros [h s] [g t]. unfold level_eqb. cbn [ln_hash ln_side].
    rewrite andb_true_iff, (opt_eqb_spec _ _ bytes_eqb_spec).
    split; [intros [-> E]; destruct s, t; simpl in E; try discriminate; reflexivity|].
    intros E; injection E as -> ->. split; [reflexivity|destruct t; reflexivity]. }
  intros [i p] [j q]. unfold batch_eqb. cbn [indices proofs].
  rewrite andb_true_iff, (list_eqb_spec _ _ HI), (list_eqb_spec _ _ HL).
  split; [intros [-> ->]; reflexivity|intros E; injection E; auto].
Qed.
Lemma popow_eqb_spec : forall G, group_ok G -> forall a b : popow_header G, popow_eqb a b = true <-> a = b.
Proof.
  intros G HG [h l p] [g m q]. unfold popow_eqb. cbn [ph_header ph_interlinks ph_proof].
  rewrite !andb_true_iff, (header_eqb_spec G HG), (list_eqb_spec _ _ bytes_eqb_spec), batch_eqb_spec.
  split; [intros [[-> ->] ->]; reflexivity|intros E; injection E as -> -> ->; auto].
Qed.

(** *** Lists sorted by a key *)
Definition sorted_by {A} (key : A -> Z) : list A -> Prop := StronglySorted (fun a b => key a < key b).

Lemma sorted_by_unique : forall A (key : A -> Z) l l', sorted_by key l -> sorted_by key l' ->
  (forall x, In x l <-> In x l') -> l = l'.
Proof.
  induction l as [|a l IH]; intros [|b l'] S1 S2 HI; auto.
  - destruct (proj2 (HI b) (or_introl eq_refl)).
  - destruct (proj1 (HI a) (or_introl eq_refl)).
  - apply StronglySorted_inv in S1. apply StronglySorted_inv in S2.
    destruct S1 as [S1 F1], S2 as [S2 F2]. rewrite Forall_forall in F1, F2.
    assert (a = b).
    { destruct (proj1 (HI a) (or_introl eq_refl)) as [E|E]; [congruence|].
      destruct (proj2 (HI b) (or_introl eq_refl)) as [E'|E']; [congruence|].
      specialize (F1 _ E'). specialize (F2 _ E). lia. }
    subst b. f_equal. apply IH; auto. intros x. split; intros Hx.
    + destruct (proj1 (HI x) (or_intror Hx)) as [<-|E]; auto. specialize (F1 _ Hx). lia.
    + destruct (proj2 (HI x) (or_intror Hx)) as [<-|E]; auto. specialize (F2 _ Hx). lia.
Qed.

Lemma sorted_by_filter : forall A (key : A -> Z) f l, sorted_by key l -> sorted_by key (filter f l).
Proof.
  induction l as [|a l IH]; intros Hs; simpl; [constructor|].
  apply StronglySorted_inv in Hs. destruct Hs as [Hs HF]. destruct (f a); [|apply IH; exact Hs].
  constructor; [apply IH; exact Hs|]. rewrite Forall_forall in *. intros x Hx. apply filter_In in Hx. apply HF. tauto.
Qed.

Lemma sorted_by_skipn : forall A (key : A -> Z) n l, sorted_by key l -> sorted_by key (skipn n l).
Proof.
  induction n as [|n IH]; intros l Hs; [exact Hs|]. destruct l as [|a l]; [constructor|].
  apply IH. apply StronglySorted_inv in Hs. tauto.
Qed.

(** *** Lowest common ancestor *)
Section Lca.
Context {G : group} (HG : group_ok G).
Notation hd := (header G).

Lemma lca_inner_spec : forall (l : hd) e s c, sorted_by (fun p => h_height (snd p)) e ->
  fold_left (fun '(s, c) '(i, r) => if header_eqb l r then (S i, c ++ [l]) else (s, c)) e (s, c) =
  match find (fun p => header_eqb l (snd p)) e with
  | Some (i, _) => (S i, c ++ [l])
  | None => (s, c)
  end.
Proof.
  intros l. 
  assert (HN : forall e s c, (forall p, In p e -> header_eqb l (snd p) = false) ->
    fold_left (fun '(s, c) '(i, r) => if header_eqb l r then (S i, c ++ [l]) else (s, c)) e (s, c) = (s, c)).
  { induction e as [|[i r] e IH]; intros s c Hf; cbn [fold_left]; auto.
    pose proof (Hf _ (or_introl eq_refl)) as H0. cbn [snd] in H0. rewrite H0. apply IH. intros p Hp. apply Hf. right. exact Hp. }
  induction e as [|[i r] e IH]; intros s c Hs; cbn [fold_left find]; auto.
  apply StronglySorted_inv in Hs. destruct Hs as [Hs HF].
  destruct (header_eqb l r) eqn:E.
  - cbn [snd]. rewrite E. apply HN. intros p Hp. rewrite Forall_forall in HF. specialize (HF _ Hp).
    cbn [snd] in HF. apply (header_eqb_spec G HG) in E. subst r.
    destruct (header_eqb l (snd p)) eqn:E2; auto. apply (header_eqb_spec G HG) in E2. rewrite <- E2 in HF. lia.
  - cbn [snd]. rewrite E. apply IH. exact Hs.
Qed.

Lemma enumerate_nth : forall A (l : list A) k i, nth_error (enumerate k l) i = 
  match nth_error l i with Some a => Some ((k + i)%nat, a) | None => None end.
Proof.
  induction l as [|a l IH]; intros k [|i]; simpl; auto.
  - rewrite Nat.add_0_r. reflexivity.
  - rewrite IH. destruct (nth_error l i); auto. f_equal. f_equal. lia.
Qed.

Lemma enumerate_map_snd : forall A (l : list A) k, map snd (enumerate k l) = l.
Proof. induction l as [|a l IH]; intros k; simpl; auto. rewrite IH. reflexivity. Qed.

Lemma sorted_snd : forall (e : list (nat * hd)), sorted_by (@h_height G) (map snd e) ->
  sorted_by (fun p => h_height (snd p)) e.
Proof.
  induction e as [|p e IH]; intros Hs; [constructor|].
  simpl in Hs. apply StronglySorted_inv in Hs. destruct Hs as [Hs HF]. constructor; [apply IH; exact Hs|].
  rewrite Forall_forall in *. intros q Hq. apply HF. apply in_map. exact Hq.
Qed.

Definition in_chain (r : list hd) (h : hd) : bool := existsb (header_eqb h) r.
Lemma in_chain_spec : forall r h, in_chain r h = true <-> In h r.
Proof.
  intros r h. unfold in_chain. rewrite existsb_exists. split.
  - intros [x [Hx E]]. apply (header_eqb_spec G HG) in E. congruence.
  - intros Hh. exists h. split; auto. apply (header_eqb_spec G HG). reflexivity.
Qed.

Lemma lca_loop_spec : forall left right start common,
  sorted_by (@h_height G) left -> sorted_by (@h_height G) right ->
  (forall r l, In r (firstn start right) -> In l left -> h_height r < h_height l) ->
  lca_loop left right start common = common ++ filter (in_chain right) left.
Proof.
  induction left as [|l left IH]; intros right start common SL SR HI; cbn [lca_loop filter].
  - rewrite app_nil_r. reflexivity.
  - unfold lca_inner.
    assert (SE : sorted_by (fun p => h_height (snd p)) (skipn start (enumerate 0 right))).
    { apply sorted_by_skipn. apply sorted_snd. rewrite enumerate_map_snd. exact SR. }
    rewrite lca_inner_spec by exact SE.
    apply StronglySorted_inv in SL. destruct SL as [SL FL]. rewrite Forall_forall in FL.
    destruct (find _ _) as [[i r]|] eqn:F.
    + apply find_some in F. destruct F as [Fi Fe]. cbn [snd] in Fe. apply (header_eqb_spec G HG) in Fe. subst r.
      assert (Hi : nth_error right i = Some l).
      { apply In_nth_error in Fi. destruct Fi as [j Ej].
        assert (Ej' : nth_error (enumerate 0 right) (start + j) = Some (i, l)).
        { rewrite <- Ej. clear. revert start. set (q := enumerate 0 right). clearbody q. revert q.
          induction q as [|x q IHq]; intros [|s]; simpl; auto.
          - destruct (s + j)%nat; destruct j; reflexivity. }
        rewrite enumerate_nth in Ej'. destruct (nth_error right (start + j)) eqn:E2; [|discriminate].
        injection Ej' as <- <-. exact E2. }
      replace (in_chain right l) with true
        by (symmetry; apply in_chain_spec; apply nth_error_In with i; exact Hi).
      rewrite IH; auto.
      * rewrite <- app_assoc. reflexivity.
      * intros r l' Hr Hl'. apply Z.le_lt_trans with (h_height l); [|apply FL; exact Hl'].
        apply In_nth_error in Hr. destruct Hr as [j Ej].
        assert (Hj : (j < S i)%nat).
        { assert (j < List.length (firstn (S i) right))%nat by (apply nth_error_Some; congruence).
          rewrite firstn_length in H. lia. }
        assert (Ej' : nth_error right j = Some r).
        { rewrite <- (firstn_skipn (S i) right). rewrite nth_error_app1; auto.
          apply nth_error_Some. congruence. }
        destruct (Nat.eq_dec j i) as [->|Hne]; [rewrite Hi in Ej'; injection Ej' as <-; lia|].
        assert (Hlt : (j < i)%nat) by lia. clear - SR Hi Ej' Hlt. revert i j Hi Ej' Hlt.
        induction SR as [|x q Sq IHq Fq]; intros [|i] [|j] Hi Ej Hlt; simpl in *; try discriminate; try lia.
        -- injection Ej as <-. rewrite Forall_forall in Fq. apply nth_error_In in Hi. specialize (Fq _ Hi). lia.
        -- apply (IHq i j); auto. lia.
    + assert (Hn : in_chain right l = false).
      { destruct (in_chain right l) eqn:E; auto. exfalso. apply in_chain_spec in E.
        assert (Hc : In l (firstn start right) \/ In l (skipn start right)).
        { rewrite <- (firstn_skipn start right) in E. apply in_app_or in E. exact E. }
        destruct Hc as [Hc|Hc].
        - specialize (HI l l Hc (or_introl eq_refl)). lia.
        - assert (Hc2 : In l (map snd (skipn start (enumerate 0 right)))).
          { replace (map snd (skipn start (enumerate 0 right))) with (skipn start right); auto.
            rewrite <- (enumerate_map_snd _ right 0) at 1. symmetry. generalize (enumerate 0 right). clear.
            intros q. revert start. induction q as [|x q IHq]; intros [|s]; simpl; auto. }
          apply in_map_iff in Hc2. destruct Hc2 as [[i r] [E2 Hc2]]. cbn [snd] in E2. subst r.
          pose proof (find_none _ _ F _ Hc2) as Hf. cbn [snd] in Hf.
          rewrite (proj2 (header_eqb_spec G HG l l) eq_refl) in Hf. discriminate. }
      rewrite Hn. apply IH; auto. intros r l' Hr Hl'. apply HI; auto. right. exact Hl'.
Qed.

Lemma lca_spec : forall left right,
  sorted_by (@h_height G) left -> sorted_by (@h_height G) right ->
  lowest_common_ancestor left right =
  match left, right with
  | l :: _, r :: _ => if header_eqb l r then last (map Some (filter (in_chain right) left)) None else None
  | _, _ => None
  end.
Proof.
  intros left right SL SR. unfold lowest_common_ancestor.
  rewrite lca_loop_spec; auto; [|intros r l []].
  cbn [app]. destruct left as [|l left]; [reflexivity|]. destruct right as [|r right]; [|reflexivity].
  replace (filter (in_chain []) (l :: left)) with (@nil hd); [reflexivity|].
  symmetry. generalize (l :: left). induction l0; simpl; auto.
Qed.

Lemma lca_sym : forall left right,
  sorted_by (@h_height G) left -> sorted_by (@h_height G) right ->
  lowest_common_ancestor left right = lowest_common_ancestor right left.
Proof.
  intros left right SL SR. rewrite !lca_spec by assumption.
  assert (HE : filter (in_chain right) left = filter (in_chain left) right).
  { apply sorted_by_unique with (@h_height G); try (apply sorted_by_filter; assumption).
    intros x. rewrite !filter_In, !in_chain_spec. tauto. }
  rewrite HE. destruct left as [|l left], right as [|r right]; auto.
  assert (E : header_eqb l r = header_eqb r l).
  { destruct (header_eqb l r) eqn:E1, (header_eqb r l) eqn:E2; auto.
    - apply (header_eqb_spec G HG) in E1. subst. rewrite (proj2 (header_eqb_spec G HG r r) eq_refl) in E2. discriminate.
    - apply (header_eqb_spec G HG) in E2. subst. rewrite (proj2 (header_eqb_spec G HG l l) eq_refl) in E1. discriminate. }
  rewrite E. reflexivity.
Qed.
End Lca.

(** *** Scores *)
Lemma best_loop_det : forall f1 f2 levels m level acc r1 r2,
  best_loop f1 levels m level acc = Ok (Some r1) -> best_loop f2 levels m level acc = Ok (Some r2) -> r1 = r2.
Proof.
  induction f1 as [|f1 IH]; intros [|f2] levels m level acc r1 r2 E1 E2; cbn [best_loop] in *; try discriminate.
  destruct (m <=? at_level levels level).
  - destruct (level =? 2 ^ 32 - 1); [discriminate|]. exact (IH _ _ _ _ _ _ _ E1 E2).
  - congruence.
Qed.

Lemma best_arg_det : forall G H fl f1 f2 (chain : list (header G)) m r1 r2,
  best_arg H fl f1 chain m = Ok (Some r1) -> best_arg H fl f2 chain m = Ok (Some r2) -> r1 = r2.
Proof.
  intros G H fl f1 f2 chain m r1 r2 E1 E2. unfold best_arg in *.
  apply bind_ok in E1. destruct E1 as [lv [El E1]]. rewrite El in E2. cbn [bind] in E2.
  apply bind_ok in E1. destruct E1 as [o1 [Eo1 E1]]. apply bind_ok in E2. destruct E2 as [o2 [Eo2 E2]].
  destruct o1 as [a1|]; [|discriminate]. destruct o2 as [a2|]; [|discriminate].
  assert (a1 = a2) by (eapply best_loop_det; eauto). subst a2. congruence.
Qed.

(** Number of levels at least [mu]. *)
Definition count_ge (levels : list Z) (mu : Z) : Z := Zlen (filter (fun l => mu <=? l) levels).

Lemma at_level_count : forall levels mu, Forall (fun l => 0 <= l < 2 ^ 31) levels ->
  at_level levels mu = count_ge levels mu.
Proof.
  intros levels mu HF. unfold at_level, count_ge. f_equal. apply filter_ext_in.
  intros l Hl. rewrite Forall_forall in HF. specialize (HF _ Hl). unfold wrapu.
  rewrite Z.mod_small by (change (2 ^ 31) with 2147483648 in *; change (2 ^ 32) with 4294967296; lia). reflexivity.
Qed.

Lemma count_anti : forall levels a b, a <= b -> count_ge levels b <= count_ge levels a.
Proof.
  intros levels a b Hab. unfold count_ge. induction levels as [|l levels IH]; simpl; [lia|].
  destruct (b <=? l) eqn:E1, (a <=? l) eqn:E2; rewrite ?Zlen_cons; lia.
Qed.
Lemma count_zero : forall levels, Forall (fun l => 0 <= l) levels -> count_ge levels 0 = Zlen levels.
Proof.
  intros levels HF. unfold count_ge. f_equal. induction HF as [|l ls Hl HF IH]; simpl; auto.
  replace (0 <=? l) with true by lia. rewrite IH. reflexivity.
Qed.
Lemma count_above : forall levels L, Forall (fun l => l < L) levels -> count_ge levels L = 0.
Proof.
  intros levels L HF. unfold count_ge. induction HF as [|l ls Hl HF IH]; simpl; auto.
  replace (L <=? l) with false by lia. exact IH.
Qed.

(** The loop stops at the first level with fewer than [m] headers, having collected all
    levels before it. *)
Lemma best_loop_spec : forall fuel levels m level acc L,
  Forall (fun l => 0 <= l < L) levels -> 1 <= m -> L < 2 ^ 31 -> 1 <= level <= Z.max 1 L ->
  (Z.to_nat (Z.max 1 L - level) < fuel)%nat ->
  exists r, best_loop fuel levels m level acc = Ok (Some (r ++ acc)) /\
    forall p, In p r <-> exists mu, level <= mu /\ m <= count_ge levels mu /\ p = (mu, count_ge levels mu).
Proof.
  induction fuel as [|fuel IH]; intros levels m level acc L HF Hm HL Hlv Hfuel; [lia|].
  cbn [best_loop].
  assert (HF' : Forall (fun l => 0 <= l < 2 ^ 31) levels).
  { eapply Forall_impl; [|exact HF]. intros a Ha. cbv beta in *. lia. }
  rewrite at_level_count by exact HF'.
  destruct (m <=? count_ge levels level) eqn:E.
  - change (2 ^ 31) with 2147483648 in *. change (2 ^ 32 - 1) with 4294967295.
    replace (level =? 4294967295) with false by lia.
    assert (Hlt : level < L).
    { destruct (Z.lt_ge_cases level L) as [?|Hge]; auto. exfalso.
      rewrite count_above in E; [lia|]. eapply Forall_impl; [|exact HF]. intros a Ha. cbv beta in *. lia. }
    destruct (IH levels m (level + 1) ((level, count_ge levels level) :: acc) L HF Hm HL ltac:(lia) ltac:(lia)) as [r [Er Hr]].
    exists (r ++ [(level, count_ge levels level)]). rewrite Er. split; [rewrite <- app_assoc; reflexivity|].
    intros p. rewrite in_app_iff, Hr. split.
    + intros [[mu [H1 [H2 H3]]]|[<-|[]]]; [exists mu|exists level]; repeat split; auto; lia.
    + intros [mu [H1 [H2 H3]]]. destruct (Z.eq_dec mu level) as [->|Hne]; [right; left; auto|left].
      exists mu. repeat split; auto. lia.
  - exists []. split; [reflexivity|]. intros p. split; [intros []|].
    intros [mu [H1 [H2 _]]]. pose proof (count_anti levels level mu H1). lia.
Qed.

Lemma fold_max : forall l x, x <= fold_left Z.max l x /\ (forall y, In y l -> y <= fold_left Z.max l x) /\
  (fold_left Z.max l x = x \/ In (fold_left Z.max l x) l).
Proof.
  induction l as [|a l IH]; intros x; cbn [fold_left]; [split; [lia|split; [intros y []|auto]]|].
  destruct (IH (Z.max x a)) as [H1 [H2 H3]]. split; [lia|]. split.
  - intros y [<-|Hy]; [lia|auto].
  - destruct H3 as [H3|H3]; [|right; right; exact H3]. rewrite H3.
    destruct (Z.max_spec x a) as [[_ E]|[_ E]]; rewrite E; [right; left; reflexivity|left; reflexivity].
Qed.
