(** Properties of the generic containers of the network format. *)
From Verif Require Import Base VlqModel VlqProofs ScorexModel.

(** ** Specification *)

(** The values [ok] survive being written and read, whatever follows. *)
Definition lossless {A} (c : codec A) (ok : A -> Prop) : Prop :=
  forall v, ok v -> exists bs, ser c v = Ok bs /\ forall rest, par c (bs ++ rest) = Ok (v, rest).

(** Reading gives only values [ok] and consumes at least one byte. *)
Definition reads {A} (c : codec A) (ok : A -> Prop) : Prop :=
  forall bs v rest, bytes_ok bs -> par c bs = Ok (v, rest) ->
    ok v /\ exists used, bs = used ++ rest /\ used <> [].

(** Reading never panics. *)
Definition quiet {A} (c : codec A) : Prop := forall bs, bytes_ok bs -> par c bs <> Panic.

Definition vec_ok {A} (ok : A -> Prop) (l : list A) : Prop := Zlen l < 2 ^ 32 /\ Forall ok l.

Definition bounded_ok {A} (lo hi : Z) (ok : A -> Prop) (l : list A) : Prop :=
  vec_ok ok l /\ lo <= Zlen l <= hi.

Definition opt_ok {A} (ok : A -> Prop) (o : option A) : Prop :=
  match o with Some v => ok v | None => True end.

(** ** Lemmas *)

Lemma items_lossless : forall A (c : codec A) ok, lossless c ok ->
  forall l, Forall ok l -> exists bs, ser_all c l = Ok bs /\
    forall rest, par_n c (List.length l) (bs ++ rest) = Ok (l, rest).
Proof.
  intros A c ok L l F. induction F as [|x l X F IH].
  - exists []. split; [reflexivity|]. intros rest. reflexivity.
  - destruct (L x X) as (b & S1 & P1). destruct IH as (bs & S2 & P2).
    exists (b ++ bs). cbn [ser_all]. rewrite S1. cbn [bind]. rewrite S2. split; [reflexivity|].
    intros rest. cbn [List.length par_n]. rewrite <- app_assoc, P1. cbn [bind].
    rewrite P2. reflexivity.
Qed.

(** Reading the first [n] items of a longer list. *)
Lemma items_prefix : forall A (c : codec A) ok, lossless c ok ->
  forall l, Forall ok l -> forall n, (n <= List.length l)%nat -> exists bs r, ser_all c l = Ok bs /\
    forall rest, par_n c n (bs ++ rest) = Ok (firstn n l, r ++ rest).
Proof.
  intros A c ok L l F. induction F as [|x l X F IH]; intros n N.
  - destruct n; [|cbn in N; lia]. exists [], []. split; [reflexivity|]. reflexivity.
  - destruct (L x X) as (b & S1 & P1). cbn [ser_all]. rewrite S1. cbn [bind].
    destruct n.
    + destruct (IH 0%nat ltac:(lia)) as (bs & r & S2 & _). rewrite S2. cbn [bind].
      exists (b ++ bs), (b ++ bs). split; reflexivity.
    + cbn [List.length] in N. destruct (IH n ltac:(lia)) as (bs & r & S2 & P2).
      rewrite S2. cbn [bind]. exists (b ++ bs), r. split; [reflexivity|]. intros rest.
      cbn [par_n firstn]. rewrite <- app_assoc, P1. cbn [bind]. rewrite P2. reflexivity.
Qed.

Lemma bytes_ok_app : forall a b, bytes_ok (a ++ b) -> bytes_ok b.
Proof. intros a b H. apply Forall_app in H. tauto. Qed.

Lemma items_read : forall A (c : codec A) ok, reads c ok ->
  forall n bs l rest, bytes_ok bs -> par_n c n bs = Ok (l, rest) ->
    Forall ok l /\ List.length l = n /\
    exists used, bs = used ++ rest /\ (n <= List.length used)%nat.
Proof.
  intros A c ok R n. induction n as [|n IH]; intros bs l rest B E; cbn [par_n] in E.
  - injection E as <- <-. split; [constructor|]. split; [reflexivity|]. exists [].
    split; [reflexivity|cbn; lia].
  - destruct (par c bs) as [[x b1]| |] eqn:E1; try discriminate. cbn [bind] in E.
    destruct (par_n c n b1) as [[l' b2]| |] eqn:E2; try discriminate. cbn [bind] in E.
    injection E as <- <-. destruct (R _ _ _ B E1) as (X & u1 & -> & N).
    destruct (IH _ _ _ (bytes_ok_app _ _ B) E2) as (F & K & u2 & -> & M).
    split; [constructor; assumption|]. split; [cbn; congruence|].
    exists (u1 ++ u2). split; [apply app_assoc|]. rewrite app_length.
    destruct u1; [contradiction|]. cbn [List.length]. lia.
Qed.

Lemma items_quiet : forall A (c : codec A) ok, reads c ok -> quiet c ->
  forall n bs, bytes_ok bs -> par_n c n bs <> Panic.
Proof.
  intros A c ok R Q n. induction n as [|n IH]; intros bs B; cbn [par_n]; [discriminate|].
  pose proof (Q bs B) as H. destruct (par c bs) as [[x b1]| |] eqn:E1; cbn [bind];
    [|discriminate|contradiction].
  destruct (R _ _ _ B E1) as (_ & u & -> & _). specialize (IH b1 (bytes_ok_app _ _ B)).
  destruct (par_n c n b1) as [[l b2]| |]; cbn [bind]; [discriminate|discriminate|contradiction].
Qed.

Lemma u32_reads : forall bs n rest, bytes_ok bs -> get_u32 bs = Ok (n, rest) ->
  u32 n /\ exists used, bs = used ++ rest /\ used <> [].
Proof.
  intros bs n rest B E. destruct (narrow_readers_in_range bs n rest B) as (_ & H & _).
  split; [auto|]. unfold get_u32 in E. destruct (get_u64 bs) as [[v b1]| |] eqn:E1; try discriminate.
  cbn [bind] in E. destruct (v <? 2 ^ 32); [|discriminate]. injection E as <- <-.
  destruct (get_u64_inv _ _ _ B E1) as (used & U & _ & L & _). exists used. split; [exact U|].
  intros ->. cbn in L. lia.
Qed.

Lemma u32_quiet : forall bs, get_u32 bs <> Panic.
Proof.
  intros bs. unfold get_u32, get_u64. pose proof (get_u64_loop_no_panic 10 0 0 bs) as H.
  destruct (get_u64_loop 10 0 0 bs) as [[v b]| |]; cbn [bind]; [|discriminate|contradiction].
  destruct (v <? 2 ^ 32); discriminate.
Qed.

(** ** Theorems *)

(** Everything built from these containers survives being written and read:
    if the items do, so do lists, bounded lists and optional values of them. *)
Theorem c126_lossless :
  lossless c_u32 u32 /\
  forall A (c : codec A) ok, lossless c ok ->
    (forall cap, lossless (c_vec cap c) (fun l => vec_ok ok l /\ Zlen l <= cap)) /\
    (forall cap lo hi, lossless (c_bounded cap lo hi c)
                         (fun l => bounded_ok lo hi ok l /\ Zlen l <= cap)) /\
    lossless (c_opt c) (opt_ok ok).
Proof.
  assert (U : lossless c_u32 u32).
  { intros v V. destruct (get_put_u32 v V) as (bs & P & G). exists bs. auto. }
  split; [exact U|]. intros A c ok L.
  assert (V : forall cap, lossless (c_vec cap c) (fun l => vec_ok ok l /\ Zlen l <= cap)).
  { intros cap l [[N F] C]. pose proof (Zlen_nonneg _ l).
    destruct (items_lossless A c ok L l F) as (bs & S1 & P1).
    destruct (get_put_u32 (Zlen l)) as (nb & S2 & P2); [unfold u32; lia|].
    exists (nb ++ bs). cbn [ser par c_vec]. unfold wrapu. rewrite Z.mod_small by lia.
    rewrite S2. cbn [bind]. rewrite S1. split; [reflexivity|]. intros rest.
    rewrite <- app_assoc, P2. cbn [bind]. replace (cap <? Zlen l) with false by lia.
    unfold Zlen. rewrite Nat2Z.id. apply P1. }
  split; [exact V|]. split.
  - intros cap lo hi l [[Q B] C]. destruct (V cap l (conj Q C)) as (bs & S & P).
    exists bs. split; [exact S|]. intros rest. cbn [par c_bounded]. rewrite P. cbn [bind].
    replace ((lo <=? Zlen l) && (Zlen l <=? hi)) with true by lia. reflexivity.
  - intros [v|] O; cbn in O.
    + destruct (L v O) as (bs & S & P). exists (1 :: bs). cbn [ser c_opt put_u8 bind].
      rewrite S. split; [reflexivity|]. intros rest. cbn [par c_opt get_u8 app bind].
      cbn [Z.eqb negb]. rewrite P. reflexivity.
    + exists [0]. split; [reflexivity|]. intros rest. reflexivity.
Qed.

(** What is read is in range, took at least a byte, and for lists as many bytes
    as there are items: no accepted message holds more items than bytes. *)
Theorem c126_reads :
  reads c_u32 u32 /\
  forall A (c : codec A) ok, reads c ok ->
    (forall cap, reads (c_vec cap c) (fun l => vec_ok ok l /\ Zlen l <= cap)) /\
    (forall cap lo hi, reads (c_bounded cap lo hi c) (bounded_ok lo hi ok)) /\
    reads (c_opt c) (opt_ok ok) /\
    (forall cap bs l rest, bytes_ok bs -> par (c_vec cap c) bs = Ok (l, rest) ->
       Zlen l + Zlen rest < Zlen bs).
Proof.
  split; [intros bs v rest; apply u32_reads|]. intros A c ok R.
  assert (V : forall cap bs l rest, bytes_ok bs -> par (c_vec cap c) bs = Ok (l, rest) ->
            (vec_ok ok l /\ Zlen l <= cap) /\ Zlen l + Zlen rest < Zlen bs /\
            exists used, bs = used ++ rest /\ used <> []).
  { intros cap bs l rest B E. cbn [par c_vec] in E.
    destruct (get_u32 bs) as [[n b1]| |] eqn:G; try discriminate. cbn [bind] in E.
    destruct (cap <? n) eqn:C; [discriminate|].
    destruct (u32_reads _ _ _ B G) as (N & u1 & -> & NE). unfold u32 in N.
    destruct (items_read A c ok R _ _ _ _ (bytes_ok_app _ _ B) E) as (F & K & u2 & -> & M).
    assert (Zlen l = n) by (unfold Zlen; lia).
    split; [split; [split; [lia|exact F]|lia]|]. split.
    - rewrite !Zlen_app. destruct u1; [contradiction|]. rewrite Zlen_cons.
      pose proof (Zlen_nonneg _ u1). unfold Zlen in *. lia.
    - exists (u1 ++ u2). split; [apply app_assoc|]. destruct u1; [contradiction|discriminate]. }
  split; [|split; [|split]].
  - intros cap bs l rest B E. destruct (V cap bs l rest B E) as (H1 & _ & H2). auto.
  - intros cap lo hi bs l rest B E. cbn [par c_bounded] in E.
    destruct (par (c_vec cap c) bs) as [[l' b1]| |] eqn:P; try discriminate. cbn [bind] in E.
    destruct ((lo <=? Zlen l') && (Zlen l' <=? hi)) eqn:D; [|discriminate].
    injection E as <- <-. destruct (V cap bs _ _ B P) as ((H1 & _) & _ & H2).
    split; [split; [exact H1|lia]|exact H2].
  - intros bs o rest B E. cbn [par c_opt] in E. destruct bs as [|tag bs]; [discriminate|].
    cbn [get_u8 bind] in E. destruct (negb (tag =? 0)).
    + destruct (par c bs) as [[v b2]| |] eqn:P; try discriminate. cbn [bind] in E.
      injection E as <- <-. inversion B; subst. destruct (R _ _ _ H2 P) as (O & u & -> & _).
      split; [exact O|]. exists (tag :: u). split; [reflexivity|discriminate].
    + injection E as <- <-. split; [exact I|]. exists [tag]. split; [reflexivity|discriminate].
  - intros cap bs l rest B E. apply (V cap bs l rest B E).
Qed.

(** Whatever is accepted can be written again and is then read as the same
    value. *)
Theorem c126_rewritten : forall A (c : codec A) ok bs v rest,
  lossless c ok -> reads c ok -> bytes_ok bs -> par c bs = Ok (v, rest) ->
  exists bs', ser c v = Ok bs' /\ of_bytes c bs' = Ok v /\ ser_roundtrip c v = Ok v.
Proof.
  intros A c ok bs v rest L R B E. destruct (R _ _ _ B E) as (O & _).
  destruct (L v O) as (bs' & S & P). exists bs'. specialize (P []). rewrite app_nil_r in P.
  unfold of_bytes, ser_roundtrip. rewrite S, P. auto.
Qed.

(** Reading panics on no bytes as long as memory for 2^32 - 1 items can be
    addressed. *)
Theorem c126_quiet :
  quiet c_u32 /\
  forall A (c : codec A) ok, reads c ok -> quiet c ->
    (forall cap, 2 ^ 32 - 1 <= cap -> quiet (c_vec cap c)) /\
    (forall cap lo hi, 2 ^ 32 - 1 <= cap -> quiet (c_bounded cap lo hi c)) /\
    quiet (c_opt c).
Proof.
  split; [intros bs _; apply u32_quiet|]. intros A c ok R Q.
  assert (V : forall cap, 2 ^ 32 - 1 <= cap -> quiet (c_vec cap c)).
  { intros cap C bs B. cbn [par c_vec]. pose proof (u32_quiet bs) as H.
    destruct (get_u32 bs) as [[n b1]| |] eqn:G; cbn [bind]; [|discriminate|contradiction].
    destruct (u32_reads _ _ _ B G) as (N & u1 & -> & _). unfold u32 in N.
    replace (cap <? n) with false by lia.
    apply (items_quiet A c ok R Q). apply (bytes_ok_app _ _ B). }
  split; [exact V|]. split.
  - intros cap lo hi C bs B. cbn [par c_bounded]. pose proof (V cap C bs B) as H.
    destruct (par (c_vec cap c) bs) as [[l b1]| |]; cbn [bind]; [|discriminate|contradiction].
    destruct ((lo <=? Zlen l) && (Zlen l <=? hi)); discriminate.
  - intros [|tag bs] B; cbn [par c_opt get_u8 bind]; [discriminate|].
    destruct (negb (tag =? 0)); [|discriminate]. inversion B; subst.
    pose proof (Q bs H2) as H. destruct (par c bs) as [[v b2]| |]; cbn [bind];
      [discriminate|discriminate|contradiction].
Qed.

(** On a machine that cannot, such as any with 32-bit addresses, five bytes make
    the reader panic, whatever the items are. *)
Theorem c126_quiet_refuted : forall A (c : codec A) cap, cap < 2 ^ 32 - 1 ->
  par (c_vec cap c) [255; 255; 255; 255; 15] = Panic.
Proof.
  intros A c cap C. cbn [par c_vec].
  replace (get_u32 [255; 255; 255; 255; 15]) with (Ok (2 ^ 32 - 1, @nil Z)) by reflexivity.
  cbn [bind]. replace (cap <? 2 ^ 32 - 1) with true by lia. reflexivity.
Qed.

(** On others, memory for 2^32 - 1 items is asked for after five bytes: what is
    reserved is not bounded by what was received. *)
Theorem c126_reserved_refuted :
  exists bs, bytes_ok bs /\ Zlen bs = 5 /\ reserved bs = Ok (2 ^ 32 - 1).
Proof.
  exists [255; 255; 255; 255; 15]. split; [repeat constructor; unfold byte; lia|].
  split; reflexivity.
Qed.

(** An accepted message is not the only one for its value: any tag but zero
    means "present", numbers may be padded, and what follows is ignored. *)
Theorem c126_canonical_refuted :
  (exists bs bs' v, bs <> bs' /\ bytes_ok bs /\ bytes_ok bs' /\
     par (c_opt c_u32) bs = Ok (Some v, []) /\ par (c_opt c_u32) bs' = Ok (Some v, []) /\
     ser (c_opt c_u32) (Some v) = Ok bs) /\
  (exists bs bs' v, bs <> bs' /\ bytes_ok bs /\ bytes_ok bs' /\
     par (c_vec (2 ^ 60) c_u32) bs = Ok (v, []) /\ par (c_vec (2 ^ 60) c_u32) bs' = Ok (v, []) /\
     ser (c_vec (2 ^ 60) c_u32) v = Ok bs) /\
  (exists bs bs' v, bs <> bs' /\ bytes_ok bs /\ bytes_ok bs' /\
     of_bytes c_u32 bs = Ok v /\ of_bytes c_u32 bs' = Ok v /\ to_bytes c_u32 v = Ok bs).
Proof.
  assert (B : forall a b, byte a -> byte b -> bytes_ok [a; b]) by (intros; repeat constructor; unfold byte in *; lia).
  split; [|split].
  - exists [1; 5], [2; 5], 5. split; [discriminate|].
    split; [apply B; unfold byte; lia|]. split; [apply B; unfold byte; lia|].
    split; [reflexivity|]. split; reflexivity.
  - exists [1; 5], [129; 0; 5], [5]. split; [discriminate|].
    split; [apply B; unfold byte; lia|].
    split; [repeat constructor; unfold byte; lia|].
    split; [reflexivity|]. split; reflexivity.
  - exists [5], [5; 7], 5. split; [discriminate|].
    split; [repeat constructor; unfold byte; lia|]. split; [apply B; unfold byte; lia|].
    split; [reflexivity|]. split; reflexivity.
Qed.

(** The length is cut to 32 bits: a list of 2^32 items or more is written
    without an error and read back as its first items only, the bytes of the
    others being taken for what follows. *)
Theorem c126_long_list_refuted : forall A (c : codec A) ok cap l k,
  lossless c ok -> Forall ok l -> 0 <= k < 2 ^ 32 -> Zlen l = 2 ^ 32 + k -> k <= cap ->
  exists bs, ser (c_vec cap c) l = Ok bs /\
    of_bytes (c_vec cap c) bs = Ok (firstn (Z.to_nat k) l) /\ firstn (Z.to_nat k) l <> l.
Proof.
  intros A c ok cap l k L F K N C.
  destruct (items_prefix A c ok L l F (Z.to_nat k)) as (bs & r & S & P).
  { unfold Zlen in N. lia. }
  destruct (get_put_u32 k) as (nb & S2 & P2); [exact K|].
  exists (nb ++ bs). cbn [ser par c_vec]. unfold wrapu, of_bytes. rewrite N.
  replace ((2 ^ 32 + k) mod 2 ^ 32) with k
    by (rewrite <- (Z.mul_1_l (2 ^ 32)) at 1; rewrite Z.add_comm, Z.mod_add, Z.mod_small; lia).
  rewrite S2. cbn [bind]. rewrite S. split; [reflexivity|]. split.
  - cbn [par c_vec]. rewrite P2. cbn [bind]. replace (cap <? k) with false by lia.
    specialize (P []). rewrite app_nil_r in P. rewrite P. reflexivity.
  - intros E. apply (f_equal Zlen) in E. rewrite N in E. unfold Zlen in E.
    rewrite firstn_length in E. lia.
Qed.

(** The hypotheses are met: lists of optional lists of numbers, and a list that
    is too long. *)
Example c126_hyps_met :
  (let c := c_vec (2 ^ 60) (c_opt (c_bounded (2 ^ 60) 1 3 c_u32)) in
   let v := [Some [7; 300]; None; Some [1]] in
   ser c v = Ok [3; 1; 2; 7; 172; 2; 0; 1; 1; 1] /\
   par c [3; 1; 2; 7; 172; 2; 0; 1; 1; 1; 99] = Ok (v, [99]) /\
   (exists e, par c [1; 1; 0] = Err e)) /\
  (exists l : list Z, Forall u32 l /\ Zlen l = 2 ^ 32 + 0).
Proof.
  split; [split; [reflexivity|]; split; [reflexivity|]; eexists; reflexivity|].
  assert (H : forall n : nat, exists l : list Z, Forall u32 l /\ Zlen l = Z.of_nat n).
  { intros n. exists (repeat 0 n). split.
    - apply Forall_forall. intros x X. apply repeat_spec in X. subst. unfold u32. lia.
    - unfold Zlen. rewrite repeat_length. reflexivity. }
  destruct (H (Z.to_nat (2 ^ 32))) as (l & F & N). exists l. split; [exact F|].
  rewrite N. rewrite Z2Nat.id; lia.
Qed.

Print Assumptions c126_lossless.
Print Assumptions c126_reads.
Print Assumptions c126_rewritten.
Print Assumptions c126_quiet.
Print Assumptions c126_quiet_refuted.
Print Assumptions c126_reserved_refuted.
Print Assumptions c126_canonical_refuted.
Print Assumptions c126_long_list_refuted.
