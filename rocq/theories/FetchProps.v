(** Properties of the HTTP client used in browsers. *)
From Coq Require Import String.
From Verif Require Import Base FetchModel.
Local Open Scope list_scope.

(** ** Specification *)

(** Maps as the http crate makes them: every name has a value and occurs once. *)
Definition hwf (m : hmap) : Prop :=
  NoDup (map fst m) /\ Forall (fun e => snd e <> []) m.

(** What a call makes of the values of one header [n]. *)
Definition values1 (tx : texts) (n : string) (vs : list string) (c : call) : list string :=
  match c with
  | CHeader k v => match name_of tx k with
                   | Some k' => if String.eqb k' n then vs ++ [v] else vs
                   | None => vs
                   end
  | CHeaders m => match hall m n with [] => vs | ws => ws end
  | CJson _ => if String.eqb "content-type" n then ["application/json"%string] else vs
  | CForm _ => if String.eqb "content-type" n then ["application/x-www-form-urlencoded"%string] else vs
  | CBearer t => match name_of tx "authorization" with
                 | Some k' => if String.eqb k' n then vs ++ [("Bearer " ++ t)%string] else vs
                 | None => vs
                 end
  | _ => vs
  end.

Definition body1 (b : option body) (c : call) : option body :=
  match c with
  | CJson (Some x) | CForm (Some x) | CBody x => Some (BBytes x)
  | CMultipart fs => Some (BForm fs)
  | _ => b
  end.

Definition timeout1 (t : option Z) (c : call) : option Z :=
  match c with CTimeout x => Some x | _ => t end.

Definition cors1 (x : bool) (c : call) : bool := match c with CNoCors => false | _ => x end.
Definition creds1 (x : option creds) (c : call) : option creds :=
  match c with CCreds y => Some y | _ => x end.

(** The last value of [n] in a list of pairs. *)
Definition last_value (l : list (string * string)) (n : string) : option string :=
  fold_left (fun a e => if String.eqb (fst e) n then Some (snd e) else a) l None.

(** ** Lemmas *)

Lemma hall_hset : forall m n vs k, hall (hset m n vs) k = if String.eqb n k then vs else hall m k.
Proof.
  induction m as [|[j ws] m IH]; intros n vs k; cbn [hset hall].
  - destruct (String.eqb_spec n k); reflexivity.
  - destruct (String.eqb_spec j n); cbn [hall].
    + subst. destruct (String.eqb_spec n k); reflexivity.
    + rewrite IH. destruct (String.eqb_spec j k), (String.eqb_spec n k); congruence.
Qed.

Lemma in_hset : forall m n vs k, In k (map fst (hset m n vs)) <-> k = n \/ In k (map fst m).
Proof.
  induction m as [|[j ws] m IH]; intros n vs k; cbn [hset map fst In].
  - intuition.
  - destruct (String.eqb_spec j n); cbn [map fst In]; [subst; intuition|]. rewrite IH. intuition.
Qed.

Lemma hset_wf : forall m n vs, vs <> [] -> hwf m -> hwf (hset m n vs).
Proof.
  intros m n vs V [N F]. split.
  - clear F. induction m as [|[j ws] m IH]; cbn [hset].
    + constructor; [intros []|constructor].
    + inversion N as [|x y NI N']; subst. destruct (String.eqb_spec j n); cbn [map fst] in *.
      * exact N.
      * constructor; [|apply IH; exact N']. rewrite in_hset. intros [H|H]; [congruence|contradiction].
  - clear N. induction m as [|[j ws] m IH]; cbn [hset].
    + constructor; [exact V|constructor].
    + inversion F; subst. destruct (String.eqb_spec j n); constructor; auto.
Qed.

Lemma hall_appends : forall vs d n k,
  hall (fold_left (fun d w => happend d n w) vs d) k =
  if String.eqb n k then hall d k ++ vs else hall d k.
Proof.
  induction vs as [|v vs IH]; intros d n k; cbn [fold_left].
  - rewrite app_nil_r. destruct (String.eqb n k); reflexivity.
  - rewrite IH. unfold happend. rewrite hall_hset. destruct (String.eqb_spec n k); [|reflexivity].
    subst. rewrite <- app_assoc. reflexivity.
Qed.

Lemma hall_not_in : forall m k, ~ In k (map fst m) -> hall m k = [].
Proof.
  induction m as [|[j ws] m IH]; intros k H; cbn [hall map fst In] in *; [reflexivity|].
  destruct (String.eqb_spec j k); [subst; tauto|]. apply IH. tauto.
Qed.

Lemma hall_replace : forall src dst k, hwf src ->
  hall (replace_headers dst src) k = match hall src k with [] => hall dst k | ws => ws end.
Proof.
  unfold replace_headers. induction src as [|[n vs] src IH]; intros dst k [N F]; cbn [fold_left hall];
    [reflexivity|].
  inversion N as [|x y NI N']; subst. inversion F as [|x y V F']; subst. cbn [snd] in V.
  rewrite IH by (split; assumption). unfold replace_one. cbn [fst snd].
  destruct vs as [|v vs]; [congruence|]. rewrite hall_appends. unfold hinsert. rewrite hall_hset.
  destruct (String.eqb_spec n k).
  - subst. rewrite hall_not_in by exact NI. reflexivity.
  - reflexivity.
Qed.

Lemma last_value_snoc : forall l e n,
  last_value (l ++ [e]) n = if String.eqb (fst e) n then Some (snd e) else last_value l n.
Proof. intros. unfold last_value. rewrite fold_left_app. reflexivity. Qed.

Lemma hall_inserts : forall l d n,
  hall (fold_left (fun d e => hinsert d (fst e) (snd e)) l d) n =
  match last_value l n with Some v => [v] | None => hall d n end.
Proof.
  induction l as [|e l IH] using rev_ind; intros d n; [reflexivity|].
  rewrite fold_left_app, last_value_snoc. cbn [fold_left]. unfold hinsert at 1. rewrite hall_hset, IH.
  destruct (String.eqb (fst e) n); reflexivity.
Qed.

Lemma fold_wf : forall A (f : hmap -> A -> hmap) l, (forall d x, hwf d -> hwf (f d x)) ->
  forall d, hwf d -> hwf (fold_left f l d).
Proof. intros A f l H. induction l; intros d W; cbn [fold_left]; auto. Qed.

Lemma hinsert_wf : forall d n v, hwf d -> hwf (hinsert d n v).
Proof. intros. apply hset_wf; [discriminate|assumption]. Qed.

(** The first pair of a name in a list of pairs. *)
Fixpoint first_value (l : list (string * string)) (n : string) : option string :=
  match l with
  | [] => None
  | (k, v) :: l' => if String.eqb k n then Some v else first_value l' n
  end.

Lemma hall_merge : forall l h n,
  hall (fold_left merge1 l h) n =
  match hall h n with
  | [] => match first_value l n with Some v => [v] | None => [] end
  | vs => vs
  end.
Proof.
  induction l as [|[k v] l IH]; intros h n; cbn [fold_left first_value].
  - destruct (hall h n); reflexivity.
  - rewrite IH. unfold merge1, hvacant. cbn [fst snd].
    destruct (hall h k) as [|w ws] eqn:K.
    + unfold hinsert. rewrite hall_hset. destruct (String.eqb_spec k n); [|reflexivity].
      subst. rewrite K. reflexivity.
    + destruct (String.eqb_spec k n); [subst; rewrite K; reflexivity|reflexivity].
Qed.

Lemma first_value_pairs : forall m n, hwf m -> first_value (hpairs m) n = hd_error (hall m n).
Proof.
  induction m as [|[k vs] m IH]; intros n [N F]; [reflexivity|].
  inversion N as [|x y NI N']; subst. inversion F as [|x y V F']; subst. cbn [snd] in V.
  unfold hpairs. cbn [flat_map fst snd hall]. fold (hpairs m).
  destruct (String.eqb_spec k n).
  - subst. destruct vs as [|v vs]; [congruence|]. cbn [map app first_value].
    rewrite String.eqb_refl. reflexivity.
  - clear V F N. replace (first_value (map (pair k) vs ++ hpairs m) n) with (first_value (hpairs m) n).
    + apply IH. split; assumption.
    + induction vs as [|v vs IHv]; cbn [map app first_value]; [reflexivity|].
      destruct (String.eqb_spec k n); [congruence|]. exact IHv.
Qed.

(** ** Building requests *)

(** The first error stays: no later call hides it, and sending gives it. *)
Theorem c128_first_error : forall tx c r l1 x l2 e,
  apply_calls tx (Ok r) l1 = Ok x ->
  forall k, call1 tx k x = Err e ->
  apply_calls tx (Ok r) (l1 ++ k :: l2) = Err e /\
  send tx c (apply_calls tx (Ok r) (l1 ++ k :: l2)) = Err e.
Proof.
  intros tx c r l1 x l2 e E k K.
  assert (H : apply_calls tx (Ok r) (l1 ++ k :: l2) = Err e).
  { unfold apply_calls in *. rewrite fold_left_app, E. cbn [fold_left apply_call]. rewrite K.
    induction l2 as [|c2 l2 IH]; cbn [fold_left apply_call]; auto. }
  rewrite H. split; reflexivity.
Qed.

(** Without an error the request has the method and URL it was started with and
    what the last call for each of its parts set. *)
Theorem c128_parts : forall tx l r r',
  apply_calls tx (Ok r) l = Ok r' ->
  r_method r' = r_method r /\ r_url r' = r_url r /\
  r_body r' = fold_left body1 l (r_body r) /\
  r_timeout r' = fold_left timeout1 l (r_timeout r) /\
  r_cors r' = fold_left cors1 l (r_cors r) /\
  r_creds r' = fold_left creds1 l (r_creds r).
Proof.
  intros tx l. induction l as [|c l IH]; intros r r' E.
  - injection E as <-. repeat split.
  - unfold apply_calls in E. cbn [fold_left apply_call] in E.
    destruct (call1 tx c r) as [r1|e|] eqn:K.
    + specialize (IH r1 r' E). destruct IH as (I1 & I2 & I3 & I4 & I5 & I6). cbn [fold_left].
      rewrite I1, I2, I3, I4, I5, I6.
      destruct c as [k v|m|[b|]|[b|]|t|t|b|fs| |cr]; cbn [call1 set_content add_header] in K;
        unfold add_header in K;
        repeat match type of K with
               | (match ?x with _ => _ end) = _ => destruct x
               end;
        try discriminate K; injection K as <-; repeat split.
    + exfalso. clear -E. induction l as [|c2 l IH]; cbn in E; [discriminate|auto].
    + exfalso. clear -E. induction l as [|c2 l IH]; cbn in E; [discriminate|auto].
Qed.

(** Which calls succeed; none panics. *)
Definition acceptable (tx : texts) (c : call) : Prop :=
  match c with
  | CHeader k v => name_of tx k <> None /\ value_ok tx v = true
  | CBearer t => name_of tx "authorization" <> None /\ value_ok tx ("Bearer " ++ t)%string = true
  | CJson b | CForm b => b <> None
  | _ => True
  end.

Theorem c128_accepted : forall tx l r,
  ((exists r', apply_calls tx (Ok r) l = Ok r') <-> Forall (acceptable tx) l) /\
  apply_calls tx (Ok r) l <> Panic.
Proof.
  assert (One : forall tx c r, ((exists r', call1 tx c r = Ok r') /\ acceptable tx c) \/
                 ((exists e, call1 tx c r = Err e) /\ ~ acceptable tx c)).
  { intros tx c r. destruct c as [k v|m|[b|]|[b|]|t|t|b|fs| |cr]; cbn [call1 set_content acceptable];
      unfold add_header; try (left; split; [eauto|try exact I; discriminate]);
      try (right; split; [eauto|congruence]).
    - destruct (name_of tx k) as [n|]; [destruct (value_ok tx v)|].
      + left. split; [eauto|]. split; [discriminate|reflexivity].
      + right. split; [eauto|]. intros [_ H]. discriminate.
      + right. split; [eauto|]. intros [H _]. congruence.
    - destruct (name_of tx "authorization") as [n|]; [destruct (value_ok tx ("Bearer " ++ t)%string)|].
      + left. split; [eauto|]. split; [discriminate|reflexivity].
      + right. split; [eauto|]. intros [_ H]. discriminate.
      + right. split; [eauto|]. intros [H _]. congruence. }
  assert (Stuck : forall tx l e, apply_calls tx (Err e) l = Err e).
  { intros tx l e. induction l as [|c l IH]; cbn; auto. }
  intros tx l. induction l as [|c l IH]; intros r.
  - split; [|discriminate]. split; [constructor|]. intros _. exists r. reflexivity.
  - unfold apply_calls. cbn [fold_left apply_call].
    destruct (One tx c r) as [[[r1 K] A]|[[e K] A]]; rewrite K.
    + destruct (IH r1) as [I1 I2]. split; [|exact I2]. rewrite Forall_cons_iff. split.
      * intros H. split; [exact A|]. apply I1. exact H.
      * intros [_ H]. apply I1. exact H.
    + change (fold_left (apply_call tx) l (Err e)) with (apply_calls tx (Err e) l). rewrite Stuck.
      split; [|discriminate]. rewrite Forall_cons_iff. split.
      * intros [r' H]. discriminate.
      * intros [H _]. contradiction.
Qed.

(** Each header has the values the calls gave it: single headers add up, maps
    replace the names they hold and leave the others. *)
Definition calls_wf (l : list call) : Prop :=
  Forall (fun c => match c with CHeaders m => hwf m | _ => True end) l.

Theorem c128_headers : forall tx l r r' n,
  calls_wf l -> apply_calls tx (Ok r) l = Ok r' ->
  hall (r_headers r') n = fold_left (values1 tx n) l (hall (r_headers r) n).
Proof.
  intros tx l. induction l as [|c l IH]; intros r r' n W E.
  - injection E as <-. reflexivity.
  - inversion W as [|x y W1 W2]; subst. unfold apply_calls in E. cbn [fold_left apply_call] in E.
    destruct (call1 tx c r) as [r1|e|] eqn:K.
    + rewrite (IH r1 r' n W2 E). cbn [fold_left]. f_equal.
      destruct c as [k v|m|[b|]|[b|]|t|t|b|fs| |cr]; cbn [call1 set_content] in K;
        unfold add_header in K; cbn [values1];
        repeat match type of K with
               | (match name_of ?a ?b with _ => _ end) = _ => destruct (name_of a b)
               | (if ?x then _ else _) = _ => destruct x
               end;
        try discriminate K; injection K as <-; cbn [r_headers with_headers with_body with_timeout];
        try reflexivity.
      * unfold happend. rewrite hall_hset. destruct (String.eqb_spec s n); [subst|]; reflexivity.
      * apply hall_replace. exact W1.
      * unfold hinsert. rewrite hall_hset. reflexivity.
      * unfold hinsert. rewrite hall_hset. reflexivity.
      * unfold happend. rewrite hall_hset. destruct (String.eqb_spec s n); [subst|]; reflexivity.
    + exfalso. clear -E. induction l as [|c2 l IH]; cbn in E; [discriminate|auto].
    + exfalso. clear -E. induction l as [|c2 l IH]; cbn in E; [discriminate|auto].
Qed.

(** ** Clients *)

(** Default headers: the last value given for a name counts. *)
Definition defaults (ms : list hmap) : client := fold_left default_headers ms new_client.

Lemma defaults_hall : forall ms n,
  hwf (c_headers (defaults ms)) /\
  hall (c_headers (defaults ms)) n =
  match last_value (flat_map hpairs ms) n with Some v => [v] | None => [] end.
Proof.
  intros ms n. unfold defaults. induction ms as [|m ms IH] using rev_ind.
  - split; [split; constructor|reflexivity].
  - destruct IH as [W H]. rewrite fold_left_app. cbn [fold_left]. unfold default_headers at 1 3.
    cbn [c_headers]. split.
    + apply fold_wf; [|exact W]. intros d x. apply hinsert_wf.
    + rewrite hall_inserts, H, flat_map_app. unfold last_value at 3. rewrite fold_left_app.
      cbn [flat_map]. rewrite app_nil_r.
      generalize (flat_map hpairs ms) as p. intros p.
      assert (X : forall l a, fold_left (fun a e => if String.eqb (fst e) n then Some (snd e) else a) l a =
                 match last_value l n with Some v => Some v | None => a end).
      { induction l as [|e l IHl] using rev_ind; intros a; [reflexivity|].
        rewrite fold_left_app, last_value_snoc. cbn [fold_left]. rewrite IHl.
        destruct (String.eqb (fst e) n); reflexivity. }
      rewrite X. fold (last_value p n). destruct (last_value (hpairs m) n); reflexivity.
Qed.

(** A default header is sent exactly if the request has none of that name, and
    never changes one it has. *)
Theorem c128_defaults : forall ms r n,
  hall (r_headers (merge_headers (defaults ms) r)) n =
  match hall (r_headers r) n with
  | [] => match last_value (flat_map hpairs ms) n with Some v => [v] | None => [] end
  | vs => vs
  end.
Proof.
  intros ms r n. destruct (defaults_hall ms n) as [W H]. unfold merge_headers.
  cbn [r_headers with_headers]. rewrite hall_merge, first_value_pairs by exact W. rewrite H.
  destruct (hall (r_headers r) n); [|reflexivity].
  destruct (last_value (flat_map hpairs ms) n); reflexivity.
Qed.

(** A default header with two values is sent with one of them only. *)
Theorem c128_default_values_refuted : exists m n v w, hwf m /\ hall m n = [v; w] /\
  forall r, hall (r_headers r) n = [] ->
    hall (r_headers (merge_headers (default_headers new_client m) r)) n = [w].
Proof.
  exists [("accept"%string, ["a"%string; "b"%string])], "accept"%string, "a"%string, "b"%string.
  split; [|split; [reflexivity|]].
  - split; [repeat constructor; intros []|]. repeat constructor. discriminate.
  - intros r E. pose proof (c128_defaults [[("accept"%string, ["a"%string; "b"%string])]] r "accept"%string) as H.
    rewrite E in H. exact H.
Qed.

(** A request that a client starts has the given method and URL and, for each of
    its parts, what the last call set, else the client's time limit and the
    defaults of browsers; there is always a time limit. *)
Theorem c128_started : forall tx c t m u l r,
  c_timeout c = Some t -> apply_calls tx (start tx c m u) l = Ok r ->
  r_method r = m /\ url_of tx u = Some (r_url r) /\
  r_body r = fold_left body1 l None /\
  r_timeout r = fold_left timeout1 l (Some t) /\ r_timeout r <> None /\
  r_cors r = fold_left cors1 l true /\ r_creds r = fold_left creds1 l None.
Proof.
  intros tx c t m u l r N E. unfold start in E. rewrite N in E.
  destruct (url_of tx u) as [u'|]; cbn [apply_call call1] in E.
  - destruct (c128_parts _ _ _ _ E) as (M & U & B & T & C & D).
    cbn [r_method r_url r_body r_timeout r_cors r_creds with_timeout new_request] in *.
    rewrite M, U, B, C, D. repeat split; [exact T|]. rewrite T. clear. revert t.
    induction l as [|x l IH]; intros t; cbn [fold_left]; [discriminate|].
    destruct x; cbn [timeout1]; apply IH.
  - exfalso. clear -E. induction l as [|x l IH]; cbn in E; [discriminate|auto].
Qed.

(** Unless told otherwise that limit is thirty seconds. *)
Theorem c128_default_limit : forall ms t,
  c_timeout (defaults ms) = Some 30000 /\
  c_timeout (client_timeout (defaults ms) t) = Some t /\
  c_headers (client_timeout (defaults ms) t) = c_headers (defaults ms).
Proof.
  intros ms t. split; [|split; reflexivity]. unfold defaults.
  induction ms as [|m ms IH] using rev_ind; [reflexivity|].
  rewrite fold_left_app. exact IH.
Qed.

(** What is sent is what was built: method, URL, body unless it is empty, and
    time limits below 2^31 milliseconds. *)
Theorem c128_sent : forall tx c r i,
  send tx c (Ok r) = Ok i ->
  i_method i = r_method r /\ i_url i = r_url r /\ i_creds i = r_creds r /\
  i_nocors i = negb (r_cors r) /\
  (forall n v, In (n, v) (i_headers i) <->
     exists vs, In (n, vs) (r_headers (merge_headers c r)) /\ In v vs) /\
  (forall b, r_body r = Some (BBytes b) -> b <> [] -> i_body i = Some (BBytes b)) /\
  (forall f fs, r_body r = Some (BForm (f :: fs)) -> i_body i = Some (BForm (f :: fs))) /\
  (r_body r = None -> i_body i = None) /\
  (forall t, r_timeout r = Some t -> 0 <= t < 2 ^ 31 -> aborts_after i = Some t) /\
  (r_timeout r = None -> aborts_after i = None).
Proof.
  intros tx c r i E. unfold send in E. cbn [bind] in E. unfold fetch_init in E.
  destruct (forallb _ _); [|discriminate]. injection E as <-.
  cbn [i_method i_url i_creds i_nocors i_headers i_body i_timeout aborts_after].
  split; [reflexivity|]. split; [reflexivity|]. split; [reflexivity|]. split; [reflexivity|].
  split; [|split; [|split; [|split; [|split]]]].
  - intros n v. unfold hpairs. rewrite in_flat_map. split.
    + intros ([k vs] & H & M). cbn [fst snd] in M. apply in_map_iff in M.
      destruct M as (w & M & V). injection M as <- <-. eauto.
    + intros (vs & H & V). exists (n, vs). split; [exact H|]. cbn [fst snd].
      apply in_map_iff. eauto.
  - intros b H NE. cbn [merge_headers with_headers r_body]. rewrite H.
    destruct b; [congruence|reflexivity].
  - intros f fs H. cbn [merge_headers with_headers r_body]. rewrite H. reflexivity.
  - intros H. cbn [merge_headers with_headers r_body]. rewrite H. reflexivity.
  - intros t H T. cbn [merge_headers with_headers r_timeout]. unfold aborts_after.
    cbn [i_timeout]. rewrite H. cbn [option_map]. f_equal.
    unfold wraps. change (2 ^ (32 - 1)) with (2 ^ 31). rewrite Z.mod_small by lia. lia.
  - intros H. cbn [merge_headers with_headers r_timeout]. unfold aborts_after. cbn [i_timeout].
    rewrite H. reflexivity.
Qed.

(** A request that was built fails before it is sent exactly if a value has
    characters that are not visible. *)
Theorem c128_sends : forall tx c r,
  (exists i, send tx c (Ok r) = Ok i) <->
  (forall n vs v, In (n, vs) (r_headers (merge_headers c r)) -> In v vs -> visible tx v = true).
Proof.
  intros tx c r. unfold send. cbn [bind]. unfold fetch_init.
  assert (F : forallb (fun e => visible tx (snd e)) (hpairs (r_headers (merge_headers c r))) = true <->
    (forall n vs v, In (n, vs) (r_headers (merge_headers c r)) -> In v vs -> visible tx v = true)).
  { rewrite forallb_forall. split.
    - intros H n vs v I V. apply (H (n, v)). unfold hpairs. apply in_flat_map. exists (n, vs).
      split; [exact I|]. cbn [fst snd]. apply in_map. exact V.
    - intros H [n v] I. unfold hpairs in I. apply in_flat_map in I.
      destruct I as ([k vs] & I & M). cbn [fst snd] in *. apply in_map_iff in M.
      destruct M as (w & M & V). injection M as <- <-. eapply H; eauto. }
  rewrite <- F. destruct (forallb _ _); split; eauto; intros H; [|discriminate].
  destruct H as [i H]. discriminate.
Qed.

(** The values sent for a name, in order: those of the request if it has any, else
    the last default. *)
Definition sent_values (i : init) (n : string) : list string :=
  map snd (filter (fun e => String.eqb (fst e) n) (i_headers i)).

Lemma pairs_values : forall m n, hwf m ->
  map snd (filter (fun e => String.eqb (fst e) n) (hpairs m)) = hall m n.
Proof.
  induction m as [|[k vs] m IH]; intros n [N F]; [reflexivity|].
  inversion N as [|x y NI N']; subst. inversion F as [|x y V F']; subst.
  unfold hpairs. cbn [flat_map fst snd hall]. fold (hpairs m).
  rewrite filter_app, map_app, IH by (split; assumption).
  assert (G : map snd (filter (fun e => String.eqb (fst e) n) (map (pair k) vs)) =
              if String.eqb k n then vs else []).
  { clear. induction vs as [|v vs IHv]; cbn [map filter fst snd].
    - destruct (String.eqb k n); reflexivity.
    - destruct (String.eqb k n) eqn:E; cbn [map snd]; [f_equal|]; exact IHv. }
  rewrite G. destruct (String.eqb_spec k n); [|reflexivity].
  subst. rewrite hall_not_in by exact NI. apply app_nil_r.
Qed.

Lemma merge_wf : forall l h, hwf h -> hwf (fold_left merge1 l h).
Proof.
  intros l. apply fold_wf. intros d x W. unfold merge1. destruct (hvacant d (fst x)); [|exact W].
  apply hinsert_wf. exact W.
Qed.

Lemma happend_wf : forall d n v, hwf d -> hwf (happend d n v).
Proof. intros. apply hset_wf; [|assumption]. destruct (hall d n); discriminate. Qed.

Lemma replace_wf : forall src dst, hwf dst -> hwf (replace_headers dst src).
Proof.
  intros src. apply fold_wf. intros d [n vs] W. unfold replace_one. cbn [fst snd].
  destruct vs as [|v vs]; [exact W|]. apply fold_wf.
  - intros d' w. apply happend_wf.
  - apply hinsert_wf. exact W.
Qed.

(** Requests are built with every name once, with a value. *)
Theorem c128_built : forall tx l r r',
  apply_calls tx (Ok r) l = Ok r' -> hwf (r_headers r) -> hwf (r_headers r').
Proof.
  intros tx l. induction l as [|c l IH]; intros r r' E W.
  - injection E as <-. exact W.
  - unfold apply_calls in E. cbn [fold_left apply_call] in E.
    destruct (call1 tx c r) as [r1|e|] eqn:K.
    + apply (IH r1 r' E).
      destruct c as [k v|m|[b|]|[b|]|t|t|b|fs| |cr]; cbn [call1 set_content] in K;
        unfold add_header in K;
        repeat match type of K with
               | (match name_of ?a ?b with _ => _ end) = _ => destruct (name_of a b)
               | (if ?x then _ else _) = _ => destruct x
               end;
        try discriminate K; injection K as <-; cbn [r_headers with_headers with_body with_timeout];
        try exact W; try (apply happend_wf; exact W); try (apply hinsert_wf; exact W);
        apply replace_wf; exact W.
    + exfalso. clear -E. induction l as [|c2 l IH]; cbn in E; [discriminate|auto].
    + exfalso. clear -E. induction l as [|c2 l IH]; cbn in E; [discriminate|auto].
Qed.

Theorem c128_sent_headers : forall tx ms m u l r i n,
  calls_wf l -> apply_calls tx (start tx (defaults ms) m u) l = Ok r ->
  send tx (defaults ms) (Ok r) = Ok i ->
  sent_values i n =
  match fold_left (values1 tx n) l [] with
  | [] => match last_value (flat_map hpairs ms) n with Some v => [v] | None => [] end
  | vs => vs
  end.
Proof.
  intros tx ms m u l r i n W E S.
  assert (B : exists r0, start tx (defaults ms) m u = Ok r0 /\ r_headers r0 = []).
  { unfold start in *. destruct (url_of tx u) as [u'|].
    - destruct (c_timeout (defaults ms)); eexists; split; reflexivity.
    - exfalso. destruct (c_timeout (defaults ms)); cbn [apply_call] in E; clear -E;
        induction l as [|c2 l IH]; cbn in E; try discriminate; auto. }
  destruct B as (r0 & B & H0). rewrite B in E.
  pose proof (c128_headers _ _ _ _ n W E) as H. rewrite H0 in H. cbn [hall] in H.
  assert (WF : hwf (r_headers r)).
  { apply (c128_built _ _ _ _ E). rewrite H0. split; constructor. }
  unfold send in S. cbn [bind] in S. unfold fetch_init in S.
  destruct (forallb _ _); [|discriminate]. injection S as <-. unfold sent_values. cbn [i_headers].
  rewrite pairs_values.
  - pose proof (c128_defaults ms r n) as D. rewrite H in D. exact D.
  - unfold merge_headers. cbn [r_headers with_headers]. apply merge_wf. exact WF.
Qed.

(** Time limits wrap: from 2^31 milliseconds on, a longer limit can abort the
    request at once. *)
Theorem c128_timeout_wraps : forall tx c r i t,
  send tx c (Ok r) = Ok i -> r_timeout r = Some t -> 2 ^ 31 <= t < 2 ^ 32 ->
  aborts_after i = Some 0.
Proof.
  intros tx c r i t E H T. unfold send in E. cbn [bind] in E. unfold fetch_init in E.
  destruct (forallb _ _); [|discriminate]. injection E as <-. unfold aborts_after. cbn [i_timeout].
  cbn [merge_headers with_headers r_timeout]. rewrite H. cbn [option_map]. f_equal.
  unfold wraps. change (2 ^ (32 - 1)) with (2 ^ 31).
  replace (t + 2 ^ 31) with (t - 2 ^ 31 + 1 * 2 ^ 32) by lia.
  rewrite Z_mod_plus_full, Z.mod_small by lia. lia.
Qed.

Theorem c128_timeout_refuted : exists tx c r i t,
  send tx c (Ok r) = Ok i /\ r_timeout r = Some t /\ 0 < t /\ aborts_after i = Some 0.
Proof.
  exists (mk_texts (fun k => Some k) (fun _ => true) (fun _ => true) (fun u => Some u)), new_client,
    (with_timeout (new_request "GET" "http://n/") (Some (2 ^ 31))).
  eexists. exists (2 ^ 31). split; [reflexivity|]. split; [reflexivity|]. split; [lia|]. reflexivity.
Qed.

(** Clones are equal to the request; only multipart bodies have none. *)
Theorem c128_clone : forall r,
  (forall r', clone_request r = Some r' -> r' = r) /\
  (clone_request r = None <-> exists fs, r_body r = Some (BForm fs)).
Proof.
  intros [m u h b co cr t]. unfold clone_request. cbn [r_method r_url r_headers r_body r_cors r_creds r_timeout].
  destruct b as [[b|fs]|]; cbn [clone_body]; split.
  - intros r' E. injection E as <-. reflexivity.
  - split; [discriminate|]. intros [fs E]. discriminate.
  - intros r' E. discriminate.
  - split; [eauto|reflexivity].
  - intros r' E. injection E as <-. reflexivity.
  - split; [discriminate|]. intros [fs E]. discriminate.
Qed.

(** A request of the http crate is unchanged by conversion there and back. *)
Theorem c128_http : forall tx h r,
  of_http tx h = Ok r -> url_of tx (h_url h) = Some (h_url h) -> to_http r = h.
Proof.
  intros tx [m u hs b] r E U. unfold of_http in E. cbn [h_url] in *. rewrite U in E.
  injection E as <-. reflexivity.
Qed.

(** The other way round method, headers and body are kept, and no body is an empty
    one, which is sent in the same way. *)
Theorem c128_http_keeps : forall tx r r', of_http tx (to_http r) = Ok r' ->
  r_method r' = r_method r /\ r_headers r' = r_headers r /\ url_of tx (r_url r) = Some (r_url r') /\
  (forall b, r_body r = Some b -> r_body r' = Some b) /\
  (r_body r = None -> r_body r' = Some (BBytes [])) /\
  forall c i i', send tx c (Ok r) = Ok i -> send tx c (Ok r') = Ok i' ->
    i_method i' = i_method i /\ i_headers i' = i_headers i /\ i_body i' = i_body i.
Proof.
  intros tx [m u h b co cr t] r' E. unfold of_http, to_http in E.
  cbn [h_url h_method h_headers h_body r_method r_url r_headers r_body] in E.
  destruct (url_of tx u) as [u'|] eqn:U; [|discriminate]. injection E as <-.
  cbn [r_method r_url r_headers r_body]. repeat (split; [first [reflexivity|exact U]|]).
  split; [intros x ->; reflexivity|]. split; [intros ->; reflexivity|].
  intros c i i' S S'. unfold send in S, S'. cbn [bind] in S, S'. unfold fetch_init in S, S'.
  cbn [merge_headers with_headers r_headers r_method r_url r_body r_cors r_creds r_timeout] in S, S'.
  destruct (forallb _ _); [|discriminate]. injection S as <-. injection S' as <-.
  cbn [i_method i_headers i_body]. split; [reflexivity|]. split; [reflexivity|].
  destruct b as [b|]; reflexivity.
Qed.

(** But time limits, credentials and the mode are lost. *)
Theorem c128_http_loses : forall tx r r', of_http tx (to_http r) = Ok r' ->
  r_timeout r' = None /\ r_creds r' = None /\ r_cors r' = true.
Proof.
  intros tx r r' E. unfold of_http in E. destruct (url_of tx (h_url (to_http r))); [|discriminate].
  injection E as <-. repeat split.
Qed.

Theorem c128_http_back_refuted : exists tx r r', of_http tx (to_http r) = Ok r' /\
  r_url r' = r_url r /\ r_timeout r = Some 1000 /\ r' <> r.
Proof.
  exists (mk_texts (fun k => Some k) (fun _ => true) (fun _ => true) (fun u => Some u)),
    (with_timeout (new_request "GET" "http://n/") (Some 1000)).
  eexists. split; [reflexivity|]. split; [reflexivity|]. split; [reflexivity|]. discriminate.
Qed.

Definition ex_texts : texts :=
  mk_texts (fun k => if String.eqb k "" then None else Some k) (fun _ => true) (fun _ => true)
    (fun u => Some u).

Definition ex_calls : list call :=
  [CHeader "x-a" "1"; CHeader "x-a" "2"; CHeaders [("x-b"%string, ["3"%string])];
   CJson (Some [123; 125]); CTimeout 500; CBearer "k"].

Example c128_hyps_met :
  exists r i, calls_wf ex_calls /\
    apply_calls ex_texts (start ex_texts new_client "POST" "http://n/") ex_calls = Ok r /\
    send ex_texts (defaults [[("x-a"%string, ["0"%string]); ("x-c"%string, ["4"%string; "5"%string])]]) (Ok r) = Ok i /\
    aborts_after i = Some 500 /\ i_body i = Some (BBytes [123; 125]) /\
    In ("x-a"%string, "1"%string) (i_headers i) /\ In ("x-c"%string, "5"%string) (i_headers i) /\
    call1 ex_texts (CHeader "" "v") r = Err "invalid header name".
Proof.
  eexists. eexists. split.
  { repeat constructor; cbn; try discriminate; try (intros []). }
  split; [reflexivity|]. split; [reflexivity|]. cbn. tauto.
Qed.

(** ** Answers *)

(** With a time limit there is an outcome by then, whatever the server does: the
    answer if it came before, an error at exactly that time otherwise. *)
Theorem c128_outcome : forall tx c r i t a,
  send tx c (Ok r) = Ok i -> r_timeout r = Some t -> 0 <= t < 2 ^ 31 ->
  (forall x, a = Some x -> a_at x < t -> fetch tx i a = Got (a_at x) (take_answer tx x)) /\
  ((forall x, a = Some x -> t <= a_at x) -> fetch tx i a = Failed t).
Proof.
  intros tx c r i t a S T R.
  destruct (c128_sent _ _ _ _ S) as (_ & _ & _ & _ & _ & _ & _ & _ & A & _).
  unfold fetch. rewrite (A t T R). split.
  - intros x -> L. apply Z.ltb_lt in L. rewrite L. reflexivity.
  - intros H. destruct a as [x|]; [|reflexivity]. specialize (H x eq_refl).
    destruct (Z.ltb_spec (a_at x) t); [lia|reflexivity].
Qed.

(** The limit does not cover the body, as is documented: once the status is there,
    the body may take any time or never end. *)
Theorem c128_body_limit_refuted : exists tx c r i t,
  send tx c (Ok r) = Ok i /\ r_timeout r = Some t /\
  (exists a, body_read tx i (Some a) = None) /\
  (forall d, t < d -> exists a, body_read tx i (Some a) = Some d).
Proof.
  exists (mk_texts (fun k => Some k) (fun _ => true) (fun _ => true) (fun u => Some u)), new_client,
    (with_timeout (new_request "GET" "http://n/") (Some 1000)).
  eexists. exists 1000. split; [reflexivity|]. split; [reflexivity|]. split.
  - exists (mk_answer 200 "http://n/" [] 1 None). reflexivity.
  - intros d D. exists (mk_answer 200 "http://n/" [] 1 (Some d)). cbn. f_equal. lia.
Qed.

(** Responses show what the browser gave: the status, the URL and the values of each
    header in order. *)
Definition header_values (tx : texts) (n : string) (l : list (string * string)) : list string :=
  map snd (filter (fun e => match name_of tx (fst e) with
                            | Some k => String.eqb k n
                            | None => false
                            end) l).

Lemma take_headers : forall tx l b m, fold_left (take_header tx) l b = Ok m ->
  exists m0, b = Ok m0 /\ forall n, hall m n = hall m0 n ++ header_values tx n l.
Proof.
  intros tx. induction l as [|e l IH]; intros b m E; cbn [fold_left] in E.
  - exists m. split; [exact E|]. intros n. rewrite app_nil_r. reflexivity.
  - destruct (IH _ _ E) as (m1 & E1 & H). unfold take_header in E1.
    destruct b as [m0|x|]; cbn [bind] in E1; try discriminate. exists m0. split; [reflexivity|].
    intros n. rewrite H. unfold header_values. cbn [filter].
    destruct (name_of tx (fst e)) as [k|]; [|discriminate].
    destruct (value_ok tx (snd e)); [|discriminate]. injection E1 as <-.
    unfold happend. rewrite hall_hset. destruct (String.eqb_spec k n).
    + subst. cbn [map]. rewrite <- app_assoc. reflexivity.
    + reflexivity.
Qed.

Theorem c128_response : forall tx a p, take_answer tx a = Ok p ->
  p_status p = a_status a /\ 100 <= p_status p <= 999 /\ url_of tx (a_url a) = Some (p_url p) /\
  forall n, hall (p_headers p) n = header_values tx n (a_headers a).
Proof.
  intros tx a p E. unfold take_answer in E. destruct (url_of tx (a_url a)) as [u|]; [|discriminate].
  destruct (fold_left (take_header tx) (a_headers a) _) as [m|e|] eqn:F; try discriminate.
  injection E as <-. cbn [p_status p_url p_headers].
  destruct (take_headers _ _ _ _ F) as (m0 & E0 & H).
  destruct (Z.leb_spec 100 (a_status a)); [|discriminate].
  destruct (Z.leb_spec (a_status a) 999); [|discriminate]. injection E0 as <-.
  split; [reflexivity|]. split; [lia|]. split; [reflexivity|]. exact H.
Qed.

(** [error_for_status] passes exactly the other statuses, unchanged. *)
Theorem c128_status : forall r,
  (400 <= p_status r < 600 -> error_for_status r = Err "status") /\
  (~ (400 <= p_status r < 600) -> error_for_status r = Ok r).
Proof.
  intros r. unfold error_for_status.
  destruct (Z.leb_spec 400 (p_status r)), (Z.ltb_spec (p_status r) 500),
    (Z.leb_spec 500 (p_status r)), (Z.ltb_spec (p_status r) 600); cbn [andb orb];
    split; intros; try reflexivity; lia.
Qed.

(** Requests that were told not to use CORS get an answer without a URL from other
    sites, and the client throws on every one of them. *)
Theorem c128_no_cors_refuted : forall tx, url_of tx "" = None ->
  exists r i, r_cors r = false /\ send tx new_client (Ok r) = Ok i /\ i_nocors i = true /\
    forall at_ done_, at_ < 30000 -> fetch tx i (Some (opaque at_ done_)) = Got at_ Panic.
Proof.
  intros tx U.
  exists (mk_request "GET" "http://n/" [] None false None (Some 30000)). eexists.
  split; [reflexivity|]. split; [reflexivity|]. split; [reflexivity|].
  intros at_ done_ L. unfold fetch. cbn [aborts_after i_timeout option_map merge_headers with_headers
    r_timeout r_method opaque a_at].
  change (Z.max 0 (wraps 32 30000)) with 30000. apply Z.ltb_lt in L. rewrite L.
  unfold take_answer, opaque. cbn [a_url]. rewrite U. reflexivity.
Qed.

Example c128_answers_met :
  let tx := mk_texts (fun k => Some k) (fun _ => true) (fun _ => true)
              (fun u => if String.eqb u "" then None else Some u) in
  url_of tx "" = None /\
  exists p, take_answer tx (mk_answer 404 "http://n/" [("a"%string, "1"%string); ("a"%string, "2"%string)] 5 None) = Ok p /\
    hall (p_headers p) "a" = ["1"%string; "2"%string] /\ error_for_status p = Err "status".
Proof. cbn. split; [reflexivity|]. eexists. split; [reflexivity|]. split; reflexivity. Qed.

Print Assumptions c128_first_error.
Print Assumptions c128_parts.
Print Assumptions c128_headers.
Print Assumptions c128_defaults.
Print Assumptions c128_default_values_refuted.
Print Assumptions c128_accepted.
Print Assumptions c128_started.
Print Assumptions c128_default_limit.
Print Assumptions c128_sent.
Print Assumptions c128_sends.
Print Assumptions c128_built.
Print Assumptions c128_sent_headers.
Print Assumptions c128_timeout_wraps.
Print Assumptions c128_timeout_refuted.
Print Assumptions c128_clone.
Print Assumptions c128_http.
Print Assumptions c128_http_keeps.
Print Assumptions c128_http_loses.
Print Assumptions c128_http_back_refuted.
Print Assumptions c128_hyps_met.
Print Assumptions c128_outcome.
Print Assumptions c128_body_limit_refuted.
Print Assumptions c128_response.
Print Assumptions c128_status.
Print Assumptions c128_no_cors_refuted.
Print Assumptions c128_answers_met.
