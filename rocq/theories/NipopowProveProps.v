(** Property C66: the NIPoPoW prover makes valid proofs of well-formed chains. *)
From Coq Require Import Sorted.
From Verif Require Import Base GroupModel GroupInstance MerkleModel MerkleProps HeaderModel NipopowModel NipopowProofs
  PowProps NipopowProps NipopowProveProofs.
Local Open Scope list_scope.
Local Open Scope Z_scope.

(** A well-formed chain of superblock headers from the genesis block. *)
Record chain_ok {G} H fl (g : popow_header G) (rest : list (popow_header G)) : Prop := {
  co_genesis : h_height (ph_header g) = 1;
  co_next : forall l1 a b l2, g :: rest = l1 ++ a :: b :: l2 ->
    h_height (ph_header b) = h_height (ph_header a) + 1 /\ h_parent_id (ph_header b) = h_id (ph_header a);
  co_level : forall p, In p rest -> exists l, max_level_of H fl (ph_header p) = Ok l /\ 0 <= l <= i32_max;
  co_links : forall l1 p l2, rest = l1 ++ p :: l2 ->
    links_after H fl (ph_header g) (map (@ph_header G) l1) = Ok (ph_interlinks p);
  co_proofs : forall p, In p (g :: rest) -> check_interlinks_proof H p = Ok true }.

Section Prove.
Context {G : group} (HG : group_ok G) (H : bytes -> bytes) (fl : Z -> Z -> Z).
Notation key p := (h_height (ph_header p)).
Variables (g : popow_header G) (rest : list (popow_header G)).
Hypothesis HC : chain_ok H fl g rest.

Definition lvl (h : header G) : Z := match max_level_of H fl h with Ok l => l | _ => 0 end.

Lemma height_of : forall l1 p l2, g :: rest = l1 ++ p :: l2 -> key p = 1 + Zlen l1.
Proof.
  induction l1 as [|a l1 IH] using rev_ind; intros p l2 E.
  - injection E as E1 _. subst p. rewrite (co_genesis _ _ _ _ HC). reflexivity.
  - rewrite <- app_assoc in E. simpl in E. rewrite Zlen_app, Zlen_cons, Zlen_nil.
    destruct (co_next _ _ _ _ HC _ _ _ _ E) as [-> _]. rewrite (IH _ _ E). lia.
Qed.

Lemma chain_sorted : sorted_by (fun p => key p) (g :: rest).
Proof.
  assert (HS : forall l2 l1, g :: rest = l1 ++ l2 -> sorted_by (fun p => key p) l2).
  { induction l2 as [|a l2 IH]; intros l1 E; [constructor|]. constructor.
    - apply (IH (l1 ++ [a])). rewrite <- app_assoc. exact E.
    - apply Forall_forall. intros b Hb. apply in_split in Hb. destruct Hb as [u [v ->]].
      rewrite (height_of _ _ _ E).
      rewrite (height_of (l1 ++ a :: u) b v) by (rewrite <- app_assoc; exact E).
      rewrite Zlen_app, Zlen_cons. pose proof (Zlen_nonneg _ u). lia. }
  exact (HS _ [] eq_refl).
Qed.

Lemma rest_height : forall p, In p rest -> h_height (ph_header p) <> 1.
Proof.
  intros p Hp. apply in_split in Hp. destruct Hp as [u [v E]].
  rewrite (height_of (g :: u) p v) by (rewrite E; reflexivity).
  rewrite Zlen_cons. pose proof (Zlen_nonneg _ u). lia.
Qed.

Lemma lvl_genesis : max_level_of H fl (ph_header g) = Ok i32_max.
Proof. unfold max_level_of. rewrite (co_genesis _ _ _ _ HC). reflexivity. Qed.

Lemma lvl_ok : forall p, In p (g :: rest) ->
  max_level_of H fl (ph_header p) = Ok (lvl (ph_header p)) /\ 0 <= lvl (ph_header p) <= i32_max.
Proof.
  intros p [<-|Hp]; unfold lvl.
  - rewrite lvl_genesis. split; [reflexivity|]. unfold i32_max. lia.
  - destruct (co_level _ _ _ _ HC p Hp) as [l [-> Hl]]. auto.
Qed.

(** The interlinks of block [b], preceded by [pre] after the genesis block. *)
Lemma links_spec : forall pre b post, rest = pre ++ b :: post ->
  Zlen (ph_interlinks b) = 1 + top_level lvl (map (@ph_header G) pre) /\
  nth_error (ph_interlinks b) 0 = Some (h_id (ph_header g)) /\
  forall mu, 1 <= mu <= top_level lvl (map (@ph_header G) pre) ->
    exists c, latest lvl mu (map (@ph_header G) pre) = Some c /\ In (h_id c) (ph_interlinks b).
Proof.
  intros pre b post E.
  destruct (c45_interlinks_of_chain G H fl (ph_header g) (map (@ph_header G) pre) lvl (co_genesis _ _ _ _ HC))
    as (links & El & HL & H0 & Hmu).
  { intros h Hh. apply in_map_iff in Hh. destruct Hh as [p [<- Hp]].
    assert (Hin : In p rest) by (rewrite E; apply in_or_app; left; exact Hp).
    destruct (lvl_ok p (or_intror Hin)) as [L1 L2]. split; [apply rest_height; exact Hin|]. split; [exact L1|lia]. }
  rewrite (co_links _ _ _ _ HC _ _ _ E) in El. injection El as <-.
  split; [exact HL|]. split; [exact H0|]. intros mu Hm. destruct (Hmu mu Hm) as [c [Ec En]].
  exists c. split; [exact Ec|]. eapply nth_error_In. exact En.
Qed.

Lemma contains_in : forall l x, In x l -> contains l x = true.
Proof. intros l x Hx. unfold contains. apply existsb_exists. exists x. split; [exact Hx|apply MerkleProofs.bytes_eqb_refl]. Qed.

(** If [a] is the most recent block of level at least [mu] before [b], they are linked. *)
Lemma linked_at : forall l1 a l2 b l3 mu, g :: rest = l1 ++ a :: l2 ++ b :: l3 ->
  0 <= mu -> mu <= lvl (ph_header a) -> (forall c, In c l2 -> lvl (ph_header c) < mu) -> linked (a, b) = true.
Proof.
  intros l1 a l2 b l3 mu E Hmu0 Hmu Hc. unfold linked. apply orb_true_iff.
  destruct (Z.eq_dec mu 0) as [->|Hne].
  - right. apply MerkleProofs.bytes_eqb_spec. destruct l2 as [|c l2].
    + exact (proj2 (co_next _ _ _ _ HC _ _ _ _ E)).
    + exfalso. specialize (Hc c (or_introl eq_refl)).
      destruct (lvl_ok c) as [_ L]; [rewrite E; apply in_or_app; right; right; left; reflexivity|]. lia.
  - left. apply contains_in. destruct l1 as [|g' l1].
    + injection E as E1 E2. subst a. destruct (links_spec _ _ _ E2) as [_ [H0 _]]. eapply nth_error_In. exact H0.
    + injection E as E1 E2. subst g'.
      assert (E3 : rest = (l1 ++ a :: l2) ++ b :: l3) by (rewrite E2, <- app_assoc; reflexivity).
      destruct (links_spec _ _ _ E3) as [_ [_ HM]].
      destruct (HM mu) as [c [Ec Hin]].
      * split; [lia|]. rewrite map_app. cbn [map]. clear - Hmu.
        induction l1 as [|x l1 IH]; cbn [map app top_level fold_right] in *; [|fold (top_level lvl) in *]; unfold top_level in *; lia.
      * rewrite map_app in Ec. cbn [map] in Ec. unfold latest in Ec. rewrite filter_app in Ec. cbn [filter] in Ec.
        replace (mu <=? lvl (ph_header a)) with true in Ec by lia.
        replace (filter (fun h => mu <=? lvl h) (map (@ph_header G) l2)) with (@nil (header G)) in Ec.
        -- rewrite last_some_app in Ec. injection Ec as <-. exact Hin.
        -- clear - Hc. induction l2 as [|x l2 IH]; [reflexivity|]. cbn [map filter].
           specialize (Hc x (or_introl eq_refl)) as Hx. replace (mu <=? lvl (ph_header x)) with false by lia.
           apply IH. intros c Hc2. apply Hc. right. exact Hc2.
Qed.

End Prove.

Lemma combine_skip : forall A (l : list A) h, l <> [] ->
  List.combine l (skipn 1 l ++ [h]) = List.combine (l ++ [h]) (skipn 1 (l ++ [h])).
Proof.
  intros A l h Hne. destruct l as [|a l]; [congruence|]. clear Hne. revert a.
  induction l as [|b l IH]; intros a; [reflexivity|].
  change (List.combine (a :: b :: l) (skipn 1 (a :: b :: l) ++ [h])) with ((a, b) :: List.combine (b :: l) (skipn 1 (b :: l) ++ [h])).
  rewrite IH. reflexivity.
Qed.

Lemma map_split2 : forall A B (f : A -> B) l l1 a b l2, map f l = l1 ++ a :: b :: l2 ->
  exists u1 x y u2, l = u1 ++ x :: y :: u2 /\ f x = a /\ f y = b.
Proof.
  induction l as [|z l IH]; intros l1 a b l2 E; [destruct l1; discriminate|].
  destruct l1 as [|c l1].
  - destruct l as [|y l]; [discriminate|]. cbn [map app] in E. injection E as E1 E2 E3. exists [], z, y, l. auto.
  - cbn [map app] in E. injection E as E1 E2. destruct (IH _ _ _ _ E2) as (u1 & x & y & u2 & -> & Hx & Hy).
    exists (z :: u1), x, y, u2. auto.
Qed.

Lemma filter_lt : forall A (f h : A -> bool) l x, (forall y, f y = true -> h y = true) -> In x l ->
  h x = true -> f x = false -> Zlen (filter f l) < Zlen (filter h l).
Proof.
  intros A f h l x Hfh Hx Hh Hf.
  assert (Hle : forall l, Zlen (filter f l) <= Zlen (filter h l)).
  { clear - Hfh. induction l as [|a l IH]; [reflexivity|]. cbn [filter]. destruct (f a) eqn:E.
    - rewrite (Hfh a E), !Zlen_cons. lia.
    - destruct (h a); rewrite ?Zlen_cons; lia. }
  apply in_split in Hx. destruct Hx as [u [v ->]]. rewrite !filter_app. cbn [filter]. rewrite Hh, Hf.
  rewrite !Zlen_app, Zlen_cons. pose proof (Hle u). pose proof (Hle v). lia.
Qed.

(** The prover accepts every well-formed chain of at least [k + m] blocks (with [k] and
    [m] positive, and, when [m = 1], a genesis record that carries an interlink) and its
    proof is valid; the proof's suffix is the last [k] blocks, its prefix starts at the
    genesis block and consists of earlier blocks of the chain, and for every level [mu] it
    includes the last [m] of the earlier blocks of level at least [mu]. *)
Theorem c66_prove_valid : forall G, group_ok G -> forall H fl (g : popow_header G) rest k m,
  chain_ok H fl g rest -> 1 <= k -> 1 <= m -> (m = 1 -> ph_interlinks g <> []) ->
  k + m < 2 ^ 32 -> k + m <= Zlen (g :: rest) ->
  Zlen (ph_interlinks g) <= 2 ^ 31 ->
  exists base suffix p, g :: rest = base ++ suffix /\ Zlen suffix = k /\
    prove H fl (g :: rest) k m = Ok p /\ is_valid H p = Ok true /\ np_k p = k /\ np_m p = m /\
    ph_header (np_head p) :: np_tail p = map (@ph_header G) suffix /\
    hd_error (np_prefix p) = Some g /\ (forall x, In x (np_prefix p) -> In x base) /\
    (forall mu x, 0 <= mu -> In x base -> mu <= lvl H fl (ph_header x) ->
       Zlen (filter (fun y => (mu <=? lvl H fl (ph_header y)) &&
                              (h_height (ph_header x) <=? h_height (ph_header y))) base) <= m ->
       In x (np_prefix p)).
Proof.
  intros G HG H fl g rest k m HC Hk Hm Hg Hkm Hlen Hmax.
  set (chain := g :: rest) in *.
  set (n := (List.length chain - Z.to_nat k)%nat).
  assert (Hn : (1 <= n < List.length chain)%nat) by (unfold Zlen in Hlen; subst n; lia).
  destruct (nth_error chain n) as [head|] eqn:Eh; [|apply nth_error_None in Eh; lia].
  assert (Esk : skipn n chain = head :: skipn (S n) chain) by (apply skipn_nth; exact Eh).
  set (base := firstn n chain) in *. set (tail := skipn (S n) chain) in *.
  assert (Esplit : chain = base ++ head :: tail).
  { rewrite <- Esk. symmetry. apply firstn_skipn. }
  assert (Hbl : List.length base = n) by (subst base; rewrite firstn_length; lia).
  assert (Hgb : exists b', base = g :: b').
  { subst base chain. destruct n as [|n']; [lia|]. eexists. reflexivity. }
  destruct Hgb as [base' Ebase].
  assert (Hlast : exists lastp, nth_error chain (n - 1) = Some lastp /\ exists x tl, ph_interlinks lastp = x :: tl /\
     Z.of_nat (List.length tl) <= i32_max).
  { destruct (nth_error chain (n - 1)) as [lp|] eqn:El; [|apply nth_error_None in El; lia].
    exists lp. split; [reflexivity|].
    destruct (Nat.eq_dec n 1) as [E1|E1].
    - rewrite E1 in El. simpl in El. injection El as <-. unfold Zlen in Hlen.
      destruct (ph_interlinks g) as [|x tl] eqn:Ex.
      + exfalso. apply Hg; [subst n; lia|reflexivity].
      + exists x, tl. split; [reflexivity|].
        rewrite Zlen_cons in Hmax. unfold Zlen in Hmax. unfold i32_max. lia.
    - apply nth_error_split in El. destruct El as [l1 [l2 [El Hl1]]].
      destruct l1 as [|g' l1]; [simpl in Hl1; lia|]. injection El as <- El.
      destruct (links_spec _ _ _ _ HC _ _ _ El) as [HL [H0 _]].
      destruct (ph_interlinks lp) as [|x tl]; [discriminate|]. exists x, tl. split; [reflexivity|].
      rewrite Zlen_cons in HL. unfold Zlen in HL.
      assert (HT : top_level (lvl H fl) (map (@ph_header G) l1) <= i32_max).
      { assert (HIn : forall y, In y l1 -> lvl H fl (ph_header y) <= i32_max).
        { intros y Hy. apply (lvl_ok _ _ _ _ HC). right. rewrite El. apply in_or_app. left. exact Hy. }
        clear - HIn. induction l1 as [|y l1 IH]; [unfold i32_max; simpl; lia|].
        cbn [map top_level fold_right]. unfold top_level in IH. specialize (HIn y (or_introl eq_refl)) as Hy.
        specialize (IH (fun z Hz => HIn z (or_intror Hz))). lia. }
      lia. }
  destruct Hlast as (lastp & Elast & x0 & tl & Elinks & HL).
  set (lv := fun p : popow_header G => lvl H fl (ph_header p)).
  assert (Hsorted : sorted_by (fun p : popow_header G => h_height (ph_header p)) chain) by (eapply chain_sorted; exact HC).
  rewrite Esplit in Hsorted. apply sorted_app_elim in Hsorted. destruct Hsorted as [Sb [Sh Hbh]].
  assert (Hbin : forall p, In p base -> In p chain) by (intros p Hp; rewrite Esplit; apply in_or_app; left; exact Hp).
  assert (Hlv : forall p, In p base -> max_level_of H fl (ph_header p) = Ok (lv p)).
  { intros p Hp. apply (lvl_ok _ _ _ _ HC). apply Hbin. exact Hp. }
  assert (Hgmin : forall p, In p base -> h_height (ph_header g) <= h_height (ph_header p)).
  { intros p Hp. rewrite Ebase in Hp, Sb. apply StronglySorted_inv in Sb. destruct Sb as [_ HF].
    destruct Hp as [<-|Hp]; [lia|]. rewrite Forall_forall in HF. specialize (HF p Hp). cbv beta in HF. lia. }
  destruct (prove_loop_spec HG H fl base lv m Hlv Hm Sb (S (List.length tl)) g [] (NoDup_nil _) (or_introl Hgmin))
    as (prefix & A & Epl & Hnd & HA1 & HA2 & HA3 & HA4 & HA5).
  specialize (HA2 _ eq_refl).
  assert (Hpb : forall x, In x prefix -> In x base).
  { intros x Hx. apply HA5 in Hx. destruct Hx as [[]|[Hx _]]. exact Hx. }
  destruct (sort_spec prefix) as [Ssort Hsort].
  { apply nodup_key; [exact Hnd|]. intros a b Ha Hb E. eapply sorted_key_inj; [exact Sb|apply Hpb; exact Ha|apply Hpb; exact Hb|exact E]. }
  assert (Hgp : In g prefix).
  { apply HA5. right. split; [rewrite Ebase; left; reflexivity|]. exists (List.length tl). split; [lia|].
    rewrite HA2. split; [|lia]. subst lv. cbv beta. unfold lvl. rewrite (lvl_genesis _ _ _ _ HC). exact HL. }
  set (p := NProof m k (sort_by_height prefix) head (map (@ph_header G) tail)).
  exists base, (head :: tail), p.
  split; [exact Esplit|]. split.
  { rewrite Esplit in Hlen. apply (f_equal (@List.length _)) in Esplit. rewrite app_length, Hbl in Esplit.
    unfold Zlen. subst n. lia. }
  assert (Eprove : prove H fl chain k m = Ok p).
  { unfold prove. replace (k =? 0) with false by lia. replace (2 ^ 32 <=? k + m) with false by lia.
    replace (Zlen chain <? k + m) with false by lia. unfold vget at 1. cbn [nth_error chain bind].
    subst chain. cbn [nth_error bind]. rewrite (co_genesis _ _ _ _ HC). change (negb (1 =? 1)) with false. cbv iota.
    fold n. unfold vget. rewrite Eh. cbn [bind]. replace (k <? Zlen (g :: rest)) with true by lia.
    rewrite Elast. cbn [bind]. rewrite Elinks. fold base. rewrite Epl. cbn [bind]. reflexivity. }
  split; [exact Eprove|].
  (* the sorted prefix followed by the suffix head *)
  assert (Sq : sorted_by (fun p : popow_header G => h_height (ph_header p)) (sort_by_height prefix ++ [head])).
  { apply sorted_app_intro; [exact Ssort|constructor; constructor|]. intros a b Ha [<-|[]].
    apply Hbh; [apply Hpb, Hsort, Ha|left; reflexivity]. }
  assert (Hlink : forall l1 a b l2, sort_by_height prefix ++ [head] = l1 ++ a :: b :: l2 -> linked (a, b) = true).
  { intros l1 a b l2 E.
    pose proof (sorted_adjacent _ _ _ _ _ _ _ Sq E) as Hab. pose proof (sorted_gap _ _ _ _ _ _ _ Sq E) as Hgap.
    cbv beta in Hab, Hgap.
    assert (Ha : In a prefix).
    { assert (Hin : In a (sort_by_height prefix ++ [head])) by (rewrite E; apply in_or_app; right; left; reflexivity).
      apply in_app_or in Hin. destruct Hin as [Hin|[<-|[]]]; [apply Hsort; exact Hin|]. exfalso.
      assert (Hin : In b (sort_by_height prefix ++ [head])) by (rewrite E; apply in_or_app; right; right; left; reflexivity).
      apply in_app_or in Hin. destruct Hin as [Hin|[<-|[]]]; [|lia].
      specialize (Hbh b head (Hpb _ (proj1 (Hsort _) Hin)) (or_introl eq_refl)). cbv beta in Hbh. lia. }
    assert (Hb : (In b base \/ b = head)).
    { assert (Hin : In b (sort_by_height prefix ++ [head])) by (rewrite E; apply in_or_app; right; right; left; reflexivity).
      apply in_app_or in Hin. destruct Hin as [Hin|[<-|[]]]; [left; apply Hpb, Hsort, Hin|right; reflexivity]. }
    (* the least level whose anchor is not above a *)
    pose proof (proj1 (HA5 a) Ha) as Hmem. destruct Hmem as [[]|[Hab' [mu0 [Hmu0 [Hla HAa]]]]].
    assert (Hbc : In b chain).
    { rewrite Esplit. apply in_or_app. destruct Hb as [Hb| ->]; [left; exact Hb|right; left; reflexivity]. }
    assert (Hsp : exists u v w, chain = u ++ a :: v ++ b :: w).
    { destruct (in_split _ _ (Hbin _ Hab')) as [u [z Ez]]. pose proof Hbc as Hbc'. rewrite Ez in Hbc'.
      pose proof (chain_sorted _ _ _ _ HC) as Sc. fold chain in Sc. rewrite Ez in Sc.
      apply sorted_app_elim in Sc. destruct Sc as [_ [Sc Hx]].
      apply in_app_or in Hbc'. destruct Hbc' as [Hbu|[<-|Hbz]].
      - exfalso. specialize (Hx b a Hbu (or_introl eq_refl)). cbv beta in Hx. lia.
      - exfalso. lia.
      - destruct (in_split _ _ Hbz) as [v [w ->]]. exists u, v, w. exact Ez. }
    destruct Hsp as [u [v [w Euvw]]].
    apply (linked_at _ _ _ _ HC u a v b w (Z.of_nat mu0)); [exact Euvw|lia|exact Hla|].
    intros c Hc.
    pose proof (chain_sorted _ _ _ _ HC) as Sc. fold chain in Sc. rewrite Euvw in Sc.
    apply sorted_app_elim in Sc. destruct Sc as [_ [Sc _]]. apply StronglySorted_inv in Sc. destruct Sc as [Sc Sa].
    rewrite Forall_forall in Sa. specialize (Sa c (in_or_app _ _ _ (or_introl Hc))).
    apply sorted_app_elim in Sc. destruct Sc as [_ [_ Hcb]]. specialize (Hcb c b Hc (or_introl eq_refl)). cbv beta in Sa, Hcb.
    destruct (Z.lt_ge_cases (lvl H fl (ph_header c)) (Z.of_nat mu0)) as [?|Hge]; [assumption|]. exfalso.
    assert (Hcbase : In c base).
    { assert (Hcc : In c chain) by (rewrite Euvw; apply in_or_app; right; right; apply in_or_app; left; exact Hc).
      rewrite Esplit in Hcc. apply in_app_or in Hcc. destruct Hcc as [?|Hcc]; [assumption|]. exfalso.
      assert (h_height (ph_header b) <= h_height (ph_header c)); [|lia].
      assert (Hhc : h_height (ph_header head) <= h_height (ph_header c)).
      { destruct Hcc as [<-|Hcc]; [lia|]. apply StronglySorted_inv in Sh. destruct Sh as [_ HF].
        rewrite Forall_forall in HF. specialize (HF c Hcc). cbv beta in HF. lia. }
      destruct Hb as [Hb| ->]; [|exact Hhc]. specialize (Hbh b head Hb (or_introl eq_refl)). cbv beta in Hbh. lia. }
    assert (Hcp : In c prefix).
    { apply HA5. right. split; [exact Hcbase|]. exists mu0. split; [exact Hmu0|]. split; [exact Hge|lia]. }
    destruct (Hgap c); [apply in_or_app; left; apply Hsort; exact Hcp|lia|lia]. }
  split.
  { unfold is_valid.
    assert (V1 : has_valid_connections p = true).
    { unfold has_valid_connections. apply andb_true_iff. split.
      - cbn [np_prefix np_head p].
        assert (Hne : sort_by_height prefix <> []).
        { intros E. apply Hsort in Hgp. rewrite E in Hgp. destruct Hgp. }
        rewrite (combine_skip _ (sort_by_height prefix) head Hne). apply adjacent_forallb. exact Hlink.
      - cbn [np_tail np_head p].
        change (List.combine (ph_header head :: map (@ph_header G) tail) (map (@ph_header G) tail))
          with (List.combine (map (@ph_header G) (head :: tail)) (skipn 1 (map (@ph_header G) (head :: tail)))).
        apply adjacent_forallb. intros l1 a b l2 E. apply MerkleProofs.bytes_eqb_spec.
        destruct (map_split2 _ _ _ _ _ _ _ _ E) as (u1 & x & y & u2 & Eu & <- & <-).
        rewrite Eu in Esplit. rewrite app_assoc in Esplit.
        exact (proj2 (co_next _ _ _ _ HC _ _ _ _ Esplit)). }
    assert (V2 : has_valid_heights p = true).
    { unfold has_valid_heights. apply adjacent_forallb. intros l1 a b l2 E. apply Z.ltb_lt.
      apply (sorted_adjacent _ (@h_height G) (headers_chain p) l1 a b l2); [|exact E].
      unfold headers_chain. cbn [np_prefix np_head np_tail p].
      change (ph_header head :: map (@ph_header G) tail) with (map (@ph_header G) (head :: tail)).
      rewrite <- map_app. apply sorted_map. apply sorted_app_intro; [exact Ssort|exact Sh|].
      intros a0 b0 Ha Hb. apply Hbh; [apply Hpb, Hsort, Ha|exact Hb]. }
    rewrite V1, V2. cbn [andb]. unfold has_valid_proofs. cbn [np_head np_prefix p].
    assert (HAll : forall l, (forall x, In x l -> In x chain) -> all_r (check_interlinks_proof H) l = Ok true).
    { induction l as [|x l IH]; intros Hin; [reflexivity|]. cbn [all_r].
      rewrite (co_proofs _ _ _ _ HC x (Hin x (or_introl eq_refl))). cbn [bind]. apply IH. intros y Hy. apply Hin. right. exact Hy. }
    apply HAll. intros x [<-|Hx].
    - rewrite Esplit. apply in_or_app. right. left. reflexivity.
    - apply Hbin, Hpb, Hsort, Hx. }
  split; [reflexivity|]. split; [reflexivity|]. split; [reflexivity|]. split.
  { cbn [np_prefix p]. apply Hsort in Hgp. destruct (sort_by_height prefix) as [|y ys] eqn:Es; [destruct Hgp|].
    cbn [hd_error]. f_equal. destruct Hgp as [?|Hgp]; [assumption|]. exfalso.
    apply StronglySorted_inv in Ssort. destruct Ssort as [_ HF]. rewrite Forall_forall in HF. specialize (HF g Hgp). cbv beta in HF.
    specialize (Hgmin y (Hpb y (proj1 (Hsort y) (or_introl eq_refl)))). lia. }
  split; [intros x Hx; apply Hpb, Hsort, Hx|].
  intros mu x Hmu Hx Hlx Hcnt. cbn [np_prefix p]. apply Hsort. apply HA5. right. split; [exact Hx|].
  destruct (Z.le_gt_cases mu (Z.of_nat (List.length tl))) as [Hle|Hgt].
  - exists (Z.to_nat mu). split; [lia|]. split; [subst lv; cbv beta; lia|].
    destruct (Z.le_gt_cases (A (Z.to_nat mu)) (h_height (ph_header x))) as [?|Hgt]; [assumption|]. exfalso.
    destruct (HA4 (Z.to_nat mu) ltac:(lia)) as [Hall|Hc]; [specialize (Hall x Hx); lia|].
    assert (Hlt : Zlen (at_least base lv (Z.to_nat mu) (A (Z.to_nat mu))) <
       Zlen (filter (fun y => (mu <=? lvl H fl (ph_header y)) && (h_height (ph_header x) <=? h_height (ph_header y))) base)).
    { unfold at_least. rewrite Z2Nat.id by lia. apply filter_lt with (x := x).
      - intros y Hy. apply andb_true_iff in Hy. destruct Hy as [Y1 Y2]. apply andb_true_iff. subst lv. cbv beta in Y1. lia.
      - exact Hx.
      - apply andb_true_iff. lia.
      - apply andb_false_iff. right. lia. }
    lia.
  - exists (List.length tl). split; [lia|]. split; [subst lv; cbv beta; lia|]. rewrite HA2. apply Hgmin. exact Hx.
Qed.
Print Assumptions c66_prove_valid.

Definition honest (links : list bytes) : batch_proof :=
  match pack_interlinks links with
  | Ok f => match proof_for_interlink_vector toyH f with Ok (Some p) => p | _ => no_proof end
  | _ => no_proof
  end.
Definition toy_popow (h : header toyG) (links : list bytes) : popow_header toyG := PoPow h links (honest links).
Definition toy_pgenesis : popow_header toyG := PoPow toy_genesis [] no_proof.
Definition toy_rest : list (popow_header toyG) :=
  [toy_popow (toy_block 2 (bid 12) (bid 11) (2 ^ 238)) [bid 11];
   toy_popow (toy_block 3 (bid 13) (bid 12) (2 ^ 239)) [bid 11; bid 12];
   toy_popow (toy_block 4 (bid 14) (bid 13) (2 ^ 237)) [bid 11; bid 12];
   toy_popow (toy_block 5 (bid 15) (bid 14) (2 ^ 238)) [bid 11; bid 14; bid 14]].

Example c66_hyps_met : chain_ok toyH toy_fl toy_pgenesis toy_rest /\ 1 + 2 <= Zlen (toy_pgenesis :: toy_rest).
Proof.
  split; [|vm_compute; discriminate]. constructor.
  - reflexivity.
  - intros l1 a b l2 E. unfold toy_rest in E.
    do 4 (destruct l1 as [|? l1]; [cbn [app] in E; injection E; intros; subst; split; reflexivity|]).
    exfalso. apply (f_equal (@List.length _)) in E. simpl in E. rewrite app_length in E. simpl in E. lia.
  - intros p Hp. unfold toy_rest in Hp.
    repeat (destruct Hp as [<-|Hp]; [eexists; split; [vm_compute; reflexivity|vm_compute; split; discriminate]|]). destruct Hp.
  - intros l1 p l2 E. unfold toy_rest in E.
    do 4 (destruct l1 as [|? l1]; [cbn [app] in E; injection E; intros; subst; vm_compute; reflexivity|]).
    exfalso. apply (f_equal (@List.length _)) in E. simpl in E. rewrite app_length in E. simpl in E. lia.
  - intros p Hp. unfold toy_rest in Hp.
    repeat (destruct Hp as [<-|Hp]; [vm_compute; reflexivity|]). destruct Hp.
Qed.

(** Not every well-formed chain with positive [k] is proved: with [m = 0], or with
    [m = 1] and one block before the suffix, the prover panics. *)
Theorem c66_zero_m_refuted :
  prove toyH toy_fl (toy_pgenesis :: toy_rest) 1 0 = Panic /\
  prove toyH toy_fl (toy_pgenesis :: firstn 1 toy_rest) 1 1 = Panic.
Proof.
  assert (HP : forall x : res (nproof toyG), rmap (@np_m toyG) x = Panic -> x = Panic).
  { intros [x|e|] E; try discriminate. reflexivity. }
  split; apply HP; vm_compute; reflexivity.
Qed.
Print Assumptions c66_zero_m_refuted.
