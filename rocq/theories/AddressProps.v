(** C35, C36, C37: addresses, their scripts and base58. *)
From Verif Require Import Base VlqModel GroupModel GroupProofs SigmaModel TypeModel MethodModel IrModel SerModel
  SerSpec SerProofs SerProps ChainModel SigmaProofs TxProps AddressModel Base58Proofs.
Local Open Scope string_scope.
Local Open Scope list_scope.
Local Open Scope Z_scope.

(** ** C37: base58 *)

(** Decoding an encoding gives the bytes back, leading zeros included. *)
Theorem c37_decode_encode : forall b, Forall u8 b -> b58_decode (b58_encode b) = Ok b.
Proof. exact decode_encode. Qed.
Print Assumptions c37_decode_encode.
Theorem c37_injective : forall a b, Forall u8 a -> Forall u8 b -> b58_encode a = b58_encode b -> a = b.
Proof.
  intros a b Ha Hb E. pose proof (decode_encode a Ha) as A. rewrite E, (decode_encode b Hb) in A. congruence.
Qed.
Print Assumptions c37_injective.
(** A text that decodes is the encoding of what it decodes to, so no two texts decode
    to the same bytes. *)
Theorem c37_encode_decode : forall s b, b58_decode s = Ok b -> Forall u8 b /\ b58_encode b = s.
Proof. exact encode_decode. Qed.
Print Assumptions c37_encode_decode.
(** The encoding is the base-58 numeral of the number the bytes denote, after one "1"
    for each leading zero byte; letters come from the 58-letter alphabet only. *)
Theorem c37_meaning : forall b, Forall u8 b -> exists k ds,
  b58_encode b = repeat 49 k ++ map letter ds /\ Forall (fun d => 0 <= d < 58) ds /\
  (forall d r, ds = d :: r -> d <> 0) /\
  fold_left (fun a d => a * 58 + d) ds 0 = fold_left (fun a d => a * 256 + d) b 0 /\
  (exists r, b = repeat 0 k ++ r /\ forall x r', r = x :: r' -> x <> 0).
Proof.
  intros b Hb. assert (D : digits 256 b) by (eapply Forall_impl; [|exact Hb]; intros z Hz; unfold u8 in Hz; lia).
  destruct (convert_ok 256 58 b) as (V & Dc & C); try lia; auto.
  exists (leading 0 b), (rev (convert 256 58 b)). split; [|split; [|split; [|split]]].
  - rewrite encode_rebase. unfold rebase. rewrite map_app. f_equal. generalize (leading 0 b).
    induction n as [|n IH]; [reflexivity|]. cbn [repeat map]. rewrite IH. reflexivity.
  - apply Forall_rev. exact Dc.
  - intros d r E. exact (canon_rev _ C d r E).
  - change (value 58 (rev (convert 256 58 b)) = value 256 b). rewrite value_rev. exact V.
  - destruct (split_leading 0 b) as (r & E & N). exists r. split; assumption.
Qed.
Print Assumptions c37_meaning.
(** Any other character is refused. *)
Theorem c37_refuses : forall s c, In c s -> ~ In c alphabet -> exists e, b58_decode s = Err e.
Proof.
  intros s c Hc Hn. unfold b58_decode. enough (exists e, b58_digits s = Err e) as [e ->] by (exists e; reflexivity).
  assert (K : forall l x i, index_of l x = Some i -> In x l).
  { induction l as [|y l IH]; intros x i E; cbn [index_of] in E; [discriminate|]. destruct (Z.eqb_spec y x) as [->|]; [left; reflexivity|].
    destruct (index_of l x) eqn:Q; [|discriminate]. right. eauto. }
  induction s as [|x s IH]; [destruct Hc|]. cbn [b58_digits]. destruct (127 <? x); [eexists; reflexivity|].
  destruct (index_of alphabet x) as [i|] eqn:I; cbn [of_option bind]; [|eexists; reflexivity].
  destruct Hc as [->|Hc]; [exfalso; eauto|]. destruct (IH Hc) as [e ->]. exists e. reflexivity.
Qed.
Print Assumptions c37_refuses.
(** "11c59g". *)
Example c37_hyps_met : Forall u8 [0; 0; 104; 105; 255] /\
  b58_encode [0; 0; 104; 105; 255] = [49; 49; 99; 53; 57; 103] /\
  b58_decode [49; 49; 99; 53; 57; 103] = Ok [0; 0; 104; 105; 255] /\
  is_ok (b58_decode [49; 48; 73]) = false.
Proof.
  split; [|split; [|split]]; try (vm_compute; reflexivity).
  repeat (constructor; [unfold u8; lia|]). constructor.
Qed.

(** ** C35: address text *)
Section C35.
Variable G : group.
Hypothesis HG : group_ok G.
Variable H : bytes -> bytes.
Hypothesis H_len : forall b, List.length (H b) = 32%nat.
Hypothesis H_ok : forall b, Forall u8 (H b).
Notation address := (address G).

(** Addresses whose text can be read: script bytes are not empty. *)
Definition valid (a : address) : Prop :=
  match a with
  | P2Pk _ => True
  | P2S b => Forall u8 b /\ b <> []
  | P2SH b => Forall u8 b /\ List.length b = 24%nat
  end.

Lemma checksum_len : forall b, List.length (checksum H b) = 4%nat.
Proof. intros b. unfold checksum. rewrite firstn_length, H_len. reflexivity. Qed.
Lemma checksum_ok : forall b, Forall u8 (checksum H b).
Proof. intros b. unfold checksum. apply Forall_forall. intros x Hx. eapply Forall_forall; [apply (H_ok b)|]. rewrite <- (firstn_skipn 4 (H b)). apply in_or_app. left. exact Hx. Qed.

Lemma parse_bytes_body : forall h c, c <> [] ->
  parse_bytes H (G := G) ((h :: c) ++ checksum H (h :: c)) =
  let ty := Z.land h 15 in
  if ty =? 1 then '(p, _) <- ec_read c ;; Ok (P2Pk p)
  else if ty =? 2 then if Zlen c =? 24 then Ok (P2SH c) else Err "InvalidSize"
  else if ty =? 3 then Ok (P2S c)
  else Err "InvalidAddressType".
Proof.
  intros h c Hc. unfold parse_bytes. set (k := checksum H (h :: c)).
  assert (Lk : List.length k = 4%nat) by apply checksum_len.
  assert (L : List.length ((h :: c) ++ k) = (List.length (h :: c) + 4)%nat) by (rewrite app_length, Lk; reflexivity).
  assert (E6 : (Zlen ((h :: c) ++ k) <? 6) = false).
  { apply Z.ltb_ge. unfold Zlen. rewrite L. destruct c; [congruence|]. cbn [List.length]. lia. }
  rewrite E6, L. replace (List.length (h :: c) + 4 - 4)%nat with (List.length (h :: c)) by lia.
  cbv zeta. rewrite firstn_app, Nat.sub_diag, firstn_all, skipn_app, Nat.sub_diag, skipn_all.
  cbn [firstn]. rewrite app_nil_r. change ([] ++ skipn 0 k) with k. cbn [app hd tl].
  fold k. replace (bytes_eqb k k) with true by (symmetry; apply bytes_eqb_iff; reflexivity). reflexivity.
Qed.

Lemma content_ok : forall a, valid a -> exists c, content_bytes a = Ok c /\ c <> [] /\ Forall u8 c /\
  (forall net, net = 0 \/ net = 16 -> parse_bytes H (G := G) (((net + type_prefix a) :: c) ++ checksum H ((net + type_prefix a) :: c)) = Ok a).
Proof.
  intros a Va. assert (LAND : forall net, net = 0 \/ net = 16 -> Z.land (net + type_prefix a) 15 = type_prefix a).
  { intros net [->| ->]; destruct a; reflexivity. }
  destruct a as [h|b|b]; cbn [content_bytes valid] in *.
  - exists (ec_bytes h). rewrite ec_write_ok. assert (N : ec_bytes h <> []).
    { intros E. pose proof (ec_bytes_len HG h) as L. rewrite E in L. discriminate L. }
    split; [reflexivity|]. split; [exact N|]. split; [exact (ec_bytes_ok HG h)|].
    intros net Hn. rewrite parse_bytes_body by exact N. rewrite (LAND net Hn). cbn [type_prefix]. cbv zeta. cbn [Z.eqb Pos.eqb].
    pose proof (ec_read_bytes HG h []) as R. rewrite app_nil_r in R. rewrite R. reflexivity.
  - destruct Va as [Vb Vn]. exists b. split; [reflexivity|]. split; [exact Vn|]. split; [exact Vb|].
    intros net Hn. rewrite parse_bytes_body by exact Vn. rewrite (LAND net Hn). reflexivity.
  - destruct Va as [Vb Vl]. exists b. assert (N : b <> []) by (intros ->; discriminate).
    split; [reflexivity|]. split; [exact N|]. split; [exact Vb|].
    intros net Hn. rewrite parse_bytes_body by exact N. rewrite (LAND net Hn). cbn [type_prefix]. cbv zeta. cbn [Z.eqb Pos.eqb].
    unfold Zlen. rewrite Vl. reflexivity.
Qed.

(** The text of an address is read back as the same address and the same network, and
    the encoder of the other network refuses it. *)
Theorem c35_roundtrip_partial : forall net a, net = 0 \/ net = 16 -> valid a -> exists s,
  address_text H net a = Ok s /\ parse_text H net s = Ok a /\ parse_network_text H s = Ok (net, a) /\
  (forall other, other = 0 \/ other = 16 -> other <> net -> parse_text H (G := G) other s = Err "InvalidNetwork").
Proof.
  intros net a Hn Va. destruct (content_ok a Va) as (c & Ec & Nc & Oc & P). unfold address_text, address_bytes.
  rewrite Ec. cbn [bind]. cbv zeta. assert (TP : 1 <= type_prefix a <= 3) by (destruct a; cbn; lia).
  assert (W : wrapu 8 (net + type_prefix a) = net + type_prefix a).
  { unfold wrapu. apply Z.mod_small. destruct Hn as [->| ->]; lia. }
  rewrite W. set (b := (net + type_prefix a) :: c). eexists. split; [reflexivity|].
  assert (Ob : Forall u8 (b ++ checksum H b)).
  { apply Forall_app. split; [|apply checksum_ok]. constructor; [|exact Oc]. unfold u8. destruct Hn as [->| ->]; lia. }
  specialize (P net Hn). fold b in P.
  assert (E6 : (Zlen (b ++ checksum H b) <? 6) = false).
  { apply Z.ltb_ge. unfold Zlen. rewrite app_length, checksum_len. unfold b. destruct c; [congruence|]. cbn [List.length]. lia. }
  assert (Hd : hd 0 (b ++ checksum H b) = net + type_prefix a) by reflexivity.
  unfold parse_text, parse_network_text, parse_network_bytes. rewrite (decode_encode _ Ob). cbn [bind]. rewrite E6, Hd.
  split; [|split].
  - replace (check_head net (net + type_prefix a)) with (Ok tt); [cbn [bind]; exact P|].
    unfold check_head. destruct Hn as [->| ->]; cbn [Z.eqb andb].
    + destruct (Z.ltb_spec 16 (0 + type_prefix a)); [lia|reflexivity].
    + destruct (Z.ltb_spec (16 + type_prefix a) 16); [lia|reflexivity].
  - replace (Z.land (net + type_prefix a) 240) with net by (destruct Hn as [->| ->]; destruct a; reflexivity).
    cbv zeta. rewrite P. destruct Hn as [->| ->]; reflexivity.
  - intros other Ho Hne. unfold check_head. destruct Hn as [->| ->]; destruct Ho as [->| ->]; try congruence; cbn [Z.eqb andb].
    + destruct (Z.ltb_spec (0 + type_prefix a) 16); [reflexivity|lia].
    + destruct (Z.ltb_spec 16 (16 + type_prefix a)); [reflexivity|lia].
Qed.

Lemma land15 : forall h t, u8 h -> Z.land h 15 = t -> h mod 16 = t.
Proof. intros h t _ E. rewrite <- E. symmetry. exact (Z.land_ones h 4 ltac:(lia)). Qed.
Lemma land240 : forall h, u8 h -> Z.land h 240 = h - h mod 16.
Proof.
  intros h Hh. assert (F : forallb (fun i => Z.land (Z.of_nat i) 240 =? Z.of_nat i - Z.of_nat i mod 16) (seq 0 256) = true) by (vm_compute; reflexivity).
  rewrite forallb_forall in F. unfold u8 in Hh. specialize (F (Z.to_nat h)). rewrite in_seq, Z2Nat.id in F by lia.
  apply Z.eqb_eq, F. lia.
Qed.

Lemma parse_bytes_inv : forall bs a, Forall u8 bs -> parse_bytes H (G := G) bs = Ok a -> exists head content,
  bs = (head :: content) ++ checksum H (head :: content) /\ content <> [] /\ u8 head /\ head mod 16 = type_prefix a /\
  match a with
  | P2Pk h => exists rest, ec_read content = Ok (h, rest)
  | P2S b => b = content
  | P2SH b => b = content /\ List.length b = 24%nat
  end.
Proof.
  intros bs a Ob E. unfold parse_bytes in E. destruct (Z.ltb_spec (Zlen bs) 6) as [|L6]; [discriminate|].
  cbv zeta in E. set (n := (List.length bs - 4)%nat) in *.
  destruct (bytes_eqb (skipn n bs) (checksum H (firstn n bs))) eqn:Q; cbn [negb] in E; [|discriminate].
  apply bytes_eqb_iff in Q. pose proof (firstn_skipn n bs) as FS. rewrite Q in FS.
  assert (Ln : (2 <= n)%nat) by (unfold n, Zlen in *; lia).
  assert (Lf : List.length (firstn n bs) = n) by (rewrite firstn_length; unfold n; lia).
  set (f := firstn n bs) in *. clearbody f. destruct f as [|head content]; [cbn in Lf; lia|].
  assert (Hh : hd 0 bs = head) by (rewrite <- FS; reflexivity). rewrite Hh in E. cbn [tl] in E.
  assert (Uh : u8 head) by (rewrite <- FS in Ob; inversion Ob; assumption).
  exists head, content. split; [symmetry; exact FS|]. split; [intros ->; cbn in Lf; lia|]. split; [exact Uh|].
  destruct (Z.eqb_spec (Z.land head 15) 1) as [T|_].
  { destruct (ec_read content) as [[p r]|e|] eqn:R; cbn [bind] in E; try discriminate. injection E as <-.
    split; [exact (land15 _ _ Uh T)|]. exists r. reflexivity. }
  destruct (Z.eqb_spec (Z.land head 15) 2) as [T|_].
  { destruct (Z.eqb_spec (Zlen content) 24) as [L|]; [|discriminate]. injection E as <-.
    split; [exact (land15 _ _ Uh T)|]. split; [reflexivity|]. unfold Zlen in L. lia. }
  destruct (Z.eqb_spec (Z.land head 15) 3) as [T|_]; [|discriminate].
  injection E as <-. split; [exact (land15 _ _ Uh T)|reflexivity].
Qed.

(** Any text that is accepted is base58 of at least six bytes ending in the checksum of
    what precedes it, and its first byte names the type of the address; the mainnet
    encoder accepts mainnet addresses only. *)
Theorem c35_accepted_partial : forall net s (a : address), net = 0 \/ net = 16 -> parse_text H net s = Ok a ->
  exists head content, b58_decode s = Ok ((head :: content) ++ checksum H (head :: content)) /\ content <> [] /\
    head mod 16 = type_prefix a /\ (net = 0 -> head = 0 + type_prefix a) /\ (net = 16 -> 16 < head) /\
    match a with
    | P2Pk h => exists rest, ec_read content = Ok (h, rest)
    | P2S b => b = content
    | P2SH b => b = content /\ List.length b = 24%nat
    end.
Proof.
  intros net s a Hn E. unfold parse_text in E. destruct (b58_decode s) as [bs|e|] eqn:D; cbn [bind] in E; try discriminate.
  destruct (Zlen bs <? 6); [discriminate|]. destruct (check_head net (hd 0 bs)) as [u|e|] eqn:K; cbn [bind] in E; try discriminate.
  destruct (encode_decode _ _ D) as [Ob _]. destruct (parse_bytes_inv bs a Ob E) as (head & content & -> & Nc & Uh & T & M).
  exists head, content. split; [reflexivity|]. split; [exact Nc|]. split; [exact T|]. cbn [app hd] in K. unfold check_head in K. unfold u8 in Uh.
  assert (TP : 1 <= type_prefix a <= 3) by (destruct a; cbn; lia).
  pose proof (Z.div_mod head 16 ltac:(lia)) as DM. rewrite T in DM.
  split; [|split; [|exact M]].
  - intros ->. cbn [Z.eqb andb] in K. destruct (Z.ltb_spec 16 head); [discriminate|]. lia.
  - intros ->. cbn [Z.eqb andb] in K. destruct (Z.ltb_spec head 16); [discriminate|]. lia.
Qed.

(** Reading address and network together: the first byte is that of the network and
    type returned.  For script and script-hash addresses the text is the very text the
    encoder writes. *)
Theorem c35_network : forall s net (a : address), parse_network_text H s = Ok (net, a) ->
  (net = 0 \/ net = 16) /\
  exists content, b58_decode s = Ok ((net + type_prefix a :: content) ++ checksum H (net + type_prefix a :: content)) /\
  match a with
  | P2Pk h => exists rest, ec_read content = Ok (h, rest)
  | _ => address_text H net a = Ok s
  end.
Proof.
  intros s net a E. unfold parse_network_text in E. destruct (b58_decode s) as [bs|e|] eqn:D; cbn [bind] in E; try discriminate.
  unfold parse_network_bytes in E. destruct (Zlen bs <? 6); [discriminate|]. cbv zeta in E.
  destruct ((Z.land (hd 0 bs) 240 =? 0) || (Z.land (hd 0 bs) 240 =? 16)) eqn:K; [|discriminate].
  destruct (parse_bytes H bs) as [a'|e|] eqn:P; cbn [bind] in E; try discriminate. injection E as <- <-.
  destruct (encode_decode _ _ D) as [Ob ES]. destruct (parse_bytes_inv bs a' Ob P) as (head & content & -> & Nc & Uh & T & M).
  cbn [app hd] in *. rewrite (land240 head Uh), T in *.
  assert (N : head - type_prefix a' = 0 \/ head - type_prefix a' = 16).
  { apply orb_prop in K. destruct K as [K|K]; apply Z.eqb_eq in K; auto. }
  split; [exact N|]. exists content.
  replace (head - type_prefix a' + type_prefix a') with head by lia. split; [reflexivity|].
  assert (AT : content_bytes a' = Ok content -> address_text H (head - type_prefix a') a' = Ok s).
  { intros C. unfold address_text, address_bytes. rewrite C. cbn [bind]. cbv zeta.
    replace (wrapu 8 (head - type_prefix a' + type_prefix a')) with head; [cbn [app]; rewrite ES; reflexivity|].
    unfold wrapu. rewrite Z.mod_small; [lia|]. unfold u8 in Uh. lia. }
  destruct a' as [h|b|b]; [exact M|subst; apply AT; reflexivity|destruct M as [-> _]; apply AT; reflexivity].
Qed.

(** So two different script or script-hash addresses, or networks, never share a text;
    and neither do two public keys. *)
Theorem c35_injective : forall n1 n2 a1 a2 s, n1 = 0 \/ n1 = 16 -> n2 = 0 \/ n2 = 16 -> valid a1 -> valid a2 ->
  address_text H n1 a1 = Ok s -> address_text H n2 a2 = Ok s -> n1 = n2 /\ a1 = a2.
Proof.
  intros n1 n2 a1 a2 s N1 N2 V1 V2 E1 E2.
  destruct (c35_roundtrip_partial n1 a1 N1 V1) as (s1 & F1 & _ & P1 & _).
  destruct (c35_roundtrip_partial n2 a2 N2 V2) as (s2 & F2 & _ & P2 & _).
  rewrite E1 in F1. injection F1 as <-. rewrite E2 in F2. injection F2 as <-. rewrite P1 in P2. injection P2 as <- <-. split; reflexivity.
Qed.

(** *** What is not so *)

(** An address holding an empty script is encoded but not read back. *)
Theorem c35_empty_script_refuted : forall net, net = 0 \/ net = 16 -> exists s,
  address_text H net (P2S [] : address) = Ok s /\ parse_text H (G := G) net s = Err "InvalidSize".
Proof.
  intros net Hn. unfold address_text, address_bytes. cbn [content_bytes bind type_prefix]. cbv zeta. eexists. split; [reflexivity|].
  unfold parse_text. rewrite decode_encode.
  - cbn [bind]. unfold Zlen. rewrite app_length, checksum_len. reflexivity.
  - constructor; [|apply checksum_ok]. destruct Hn as [->| ->]; vm_compute; split; congruence.
Qed.

Lemma text_of : forall net head content, u8 head -> Forall u8 content -> content <> [] ->
  check_head net head = Ok tt ->
  parse_text H (G := G) net (b58_encode ((head :: content) ++ checksum H (head :: content))) =
  parse_bytes H ((head :: content) ++ checksum H (head :: content)).
Proof.
  intros net head content Uh Uc Nc K. unfold parse_text. rewrite decode_encode.
  - cbn [bind]. replace (Zlen ((head :: content) ++ checksum H (head :: content)) <? 6) with false.
    + cbn [app hd]. rewrite K. reflexivity.
    + symmetry. apply Z.ltb_ge. unfold Zlen. rewrite app_length, checksum_len. destruct content; [congruence|]. cbn [List.length]. lia.
  - apply Forall_app. split; [|apply checksum_ok]. constructor; assumption.
Qed.

(** Bytes after the point of a public-key address are ignored: every such address has
    other texts that are accepted. *)
Theorem c35_trailing_refuted : forall (h : G), exists s s', s <> s' /\
  address_text H 0 (P2Pk h) = Ok s /\ parse_text H 0 s = Ok (P2Pk h) /\ parse_text H 0 s' = Ok (P2Pk h).
Proof.
  intros h. destruct (c35_roundtrip_partial 0 (P2Pk h) (or_introl eq_refl) I) as (s & E & P & _).
  pose proof (ec_bytes_ok HG h) as Oh. assert (O1 : Forall u8 (ec_bytes h ++ [7])).
  { apply Forall_app. split; [exact Oh|]. constructor; [unfold u8; lia|constructor]. }
  assert (N1 : ec_bytes h ++ [7] <> []) by (destruct (ec_bytes h); discriminate).
  assert (U1 : u8 1) by (unfold u8; lia).
  exists s, (b58_encode ((1 :: ec_bytes h ++ [7]) ++ checksum H (1 :: ec_bytes h ++ [7]))).
  split; [|split; [exact E|split; [exact P|]]].
  - intros Q. unfold address_text, address_bytes in E. cbn [content_bytes] in E. rewrite ec_write_ok in E. cbn [bind] in E. cbv zeta in E.
    change (wrapu 8 (0 + type_prefix (P2Pk h))) with 1 in E. injection E as <-.
    apply c37_injective in Q.
    + apply (f_equal (@List.length Z)) in Q. rewrite !app_length, !checksum_len in Q. cbn [List.length] in Q. repeat first [rewrite app_length in Q|rewrite (ec_bytes_len HG) in Q].
      rewrite checksum_len in Q. discriminate Q.
    + constructor; [exact U1|]. apply Forall_app. split; [exact Oh|apply checksum_ok].
    + constructor; [exact U1|]. apply Forall_app. split; [exact O1|apply checksum_ok].
  - rewrite text_of; auto. rewrite parse_bytes_body by exact N1. cbv zeta. change (Z.land 1 15) with 1. cbn [Z.eqb Pos.eqb].
    rewrite (ec_read_bytes HG). reflexivity.
Qed.

(** The testnet encoder accepts first bytes that belong to no network. *)
Theorem c35_unknown_network_refuted : exists s, parse_text H (G := G) 16 s = Ok (P2S [1]) /\
  (exists e, parse_network_text H (G := G) s = Err e) /\ address_text H 16 (P2S [1] : address) <> Ok s.
Proof.
  assert (U : Forall u8 ((35 :: [1]) ++ checksum H (35 :: [1]))).
  { apply Forall_app. split; [|apply checksum_ok]. do 2 (constructor; [unfold u8; lia|]). constructor. }
  exists (b58_encode ((35 :: [1]) ++ checksum H (35 :: [1]))). split; [|split].
  - rewrite text_of; [|unfold u8; lia|constructor; [unfold u8; lia|constructor]|discriminate|reflexivity].
    rewrite parse_bytes_body by discriminate. reflexivity.
  - unfold parse_network_text. rewrite decode_encode by exact U. cbn [bind]. unfold parse_network_bytes.
    assert (E6 : (Zlen ((35 :: [1]) ++ checksum H (35 :: [1])) <? 6) = false).
    { apply Z.ltb_ge. unfold Zlen. rewrite app_length, checksum_len. cbn. lia. }
    rewrite E6. eexists. reflexivity.
  - unfold address_text, address_bytes. cbn [content_bytes bind]. cbv zeta. change (wrapu 8 (16 + type_prefix (P2S [1] : address))) with 19.
    intros Q. injection Q as Q. apply c37_injective in Q; [discriminate Q| |exact U].
    do 2 (constructor; [unfold u8; lia|]). apply checksum_ok.
Qed.
End C35.
Print Assumptions c35_roundtrip_partial.
Print Assumptions c35_accepted_partial.
Print Assumptions c35_network.
Print Assumptions c35_injective.
Print Assumptions c35_empty_script_refuted.
Print Assumptions c35_trailing_refuted.
Print Assumptions c35_unknown_network_refuted.
Example c35_hyps_met : forall G : group, valid G (P2S [16; 1; 4; 2; 209; 115; 0]) /\ valid G (P2SH (repeat 7 24)).
Proof.
  intros G. split.
  - split; [|discriminate]. repeat (constructor; [unfold u8; lia|]). constructor.
  - split; [|reflexivity]. apply Forall_forall. intros x Hx. apply repeat_spec in Hx. subst. unfold u8. lia.
Qed.

(** ** C36: addresses and scripts *)

(** Public-key and script-hash addresses are recognised again from the script they
    produce. *)
Theorem c36_recognised : forall G (a : address G), 
  match a with P2Pk _ => True | P2SH b => Forall u8 b /\ List.length b = 24%nat | P2S _ => False end ->
  exists t, script a = Ok t /\ recreate t = Ok a.
Proof.
  intros G [h|b|b] V; [|destruct V|].
  - eexists. split; reflexivity.
  - destruct V as [Vb Vl]. eexists. split; [reflexivity|]. unfold recreate. cbn [proposition th_v0 th_seg p2sh_expr p2sh_hash int_expr const_bytes].
    unfold Zlen, as_i8s. rewrite map_length, Vl. cbn [Z.of_nat Pos.of_succ_nat Pos.succ Z.eqb Pos.eqb]. do 2 f_equal. rewrite map_map.
    clear Vl. induction Vb as [|x b Hx _ IH]; [reflexivity|]. cbn [map]. rewrite IH. f_equal. unfold u8 in Hx. unfold wraps.
    change (2 ^ 8) with 256 in *. change (2 ^ (8 - 1)) with 128. lia.
Qed.
Print Assumptions c36_recognised.

(** So they have different scripts. *)
Theorem c36_script_injective : forall G (a b : address G) t,
  match a with P2Pk _ => True | P2SH b => Forall u8 b /\ List.length b = 24%nat | P2S _ => False end ->
  match b with P2Pk _ => True | P2SH b => Forall u8 b /\ List.length b = 24%nat | P2S _ => False end ->
  script a = Ok t -> script b = Ok t -> a = b.
Proof.
  intros G a b t Va Vb Ea Eb. destruct (c36_recognised G a Va) as (ta & Fa & Ra). destruct (c36_recognised G b Vb) as (tb & Fb & Rb).
  rewrite Ea in Fa. injection Fa as <-. rewrite Eb in Fb. injection Fb as <-. congruence.
Qed.
Print Assumptions c36_script_injective.

Lemma recreate_cases : forall G (t : tree G) a, recreate t = Ok a ->
  (exists h, a = P2Pk h /\ proposition t = Ok (EConst (dlog_const h))) \/
  (exists e l, a = P2SH (map (fun z => z mod 256) l) /\ proposition t = Ok e /\ p2sh_hash e = Some l /\ Zlen l = 24) \/
  (exists s, a = P2S s /\ ser_tree t = Ok s).
Proof.
  intros G t a E. unfold recreate in E. destruct (proposition t) as [e|m|] eqn:P; try discriminate.
  - assert (D : (exists h, e = EConst (dlog_const h)) \/
      match p2sh_hash e with
      | Some l => if Zlen l =? 24 then Ok (P2SH (map (fun z => z mod 256) l)) else Err "UnexpectedErgoTree"
      | None => s <- ser_tree t ;; Ok (P2S s)
      end = Ok a).
    { destruct e as [[ty v]| | | | | | | | | | | | ]; try (right; exact E).
      destruct ty; try (right; exact E). destruct v; try (right; exact E). destruct s as [|p|]; try (right; exact E).
      destruct p; [|right; exact E]. left. eexists. reflexivity. }
    destruct D as [(h & ->)|D].
    + left. exists h. injection E as <-. split; reflexivity.
    + right. destruct (p2sh_hash e) as [l|] eqn:Q.
      * left. exists e, l. destruct (Z.eqb_spec (Zlen l) 24) as [L|]; [|discriminate]. injection D as <-. repeat split; assumption.
      * right. destruct (ser_tree t) as [s|m|]; cbn [bind] in D; try discriminate. injection D as <-. exists s. split; reflexivity.
  - right. right. destruct (ser_tree t) as [s|m'|]; cbn [bind] in E; try discriminate. injection E as <-. exists s. split; reflexivity.
Qed.

(** A public-key address is given only for a script that is that public key. *)
Theorem c36_public_key : forall G (t : tree G) h, recreate t = Ok (P2Pk h) ->
  exists t', script (P2Pk h) = Ok t' /\ proposition t' = proposition t.
Proof.
  intros G t h E. destruct (recreate_cases G t _ E) as [(h' & Q & P)|[(e & l & Q & _)|(s & Q & _)]]; try discriminate.
  injection Q as <-. rewrite P. eexists. split; reflexivity.
Qed.
Print Assumptions c36_public_key.

(** For a script whose encoding is understood again, or one that was read and not
    understood, the address recreated from it has a script of the same proposition,
    unless it is a script-hash address; script addresses carry the very script. *)
Theorem c36_same_script_partial : forall G, group_ok G -> forall (t : tree G) a,
  (exists st', ok_tree fresh t st') \/ (exists bs, t = Unparsed bs /\ tree_of_bytes bs = Ok t) ->
  recreate t = Ok a -> (forall b, a <> P2SH b) ->
  exists t', script a = Ok t' /\ proposition t' = proposition t /\ ((exists b, a = P2S b) -> t' = t).
Proof.
  intros G HG t a Ht E N. destruct (recreate_cases G t _ E) as [(h & -> & P)|[(e & l & -> & _)|(s & -> & S)]].
  - rewrite P. eexists. split; [reflexivity|]. split; [reflexivity|]. intros [b Q]. discriminate.
  - exfalso. exact (N _ eq_refl).
  - exists t. cbn [script]. split; [|split; [reflexivity|intros _; reflexivity]]. destruct Ht as [(st' & O)|(bs & -> & P)].
    + destruct (c25_written_partial G HG t st' O) as (bs & E1 & E2 & _). rewrite S in E1. injection E1 as <-. exact E2.
    + cbn [ser_tree] in S. injection S as <-. exact P.
Qed.
Print Assumptions c36_same_script_partial.

(** What a script looks like that is taken for a script-hash address: everything but
    what is hashed is as in the script of the address. *)
Theorem c36_script_hash_partial : forall G (t : tree G) hash, recreate t = Ok (P2SH hash) -> exists hashed ty l,
  proposition t = Ok (ESeq QSigmaAnd
    [EOp OBoolToSigmaProp PNone
       [EBin BEq (EOp OSlice PNone [EOp OCalcBlake2b256 PNone [hashed] None; int_expr 0; int_expr 24] None)
          (EConst (MkConst ty (LCollBytes l)))] None;
     EOp ODeserializeContext (PTypeU8 SSigmaProp 1) [] None]) /\
  hash = map (fun z => z mod 256) l /\ List.length hash = 24%nat.
Proof.
  intros G t hash E. destruct (recreate_cases G t _ E) as [(h & Q & P)|[(e & l & Q & P & M & L)|(s & Q & S)]]; try discriminate.
  injection Q as ->. rewrite P. unfold p2sh_hash in M.
  repeat match type of M with
  | match ?x with _ => _ end = _ => destruct x; try discriminate M
  end.
  injection M as <-. do 3 eexists. split; [reflexivity|]. split; [reflexivity|]. rewrite map_length. unfold Zlen in L. lia.
Qed.
Print Assumptions c36_script_hash_partial.

(** *** What is not so *)

(** The script that checks the hash of a constant, not of the script supplied by the
    spender, is taken for a script-hash address with another script. *)
Theorem c36_hash_input_refuted : forall G : group, exists (t t' : tree G) hash,
  recreate t = Ok (P2SH hash) /\ script (P2SH hash) = Ok t' /\ proposition t <> proposition t'.
Proof.
  intros G.
  exists (Parsed (th_v0 false) [] (ESeq QSigmaAnd
    [EOp OBoolToSigmaProp PNone
       [EBin BEq (EOp OSlice PNone [EOp OCalcBlake2b256 PNone [EConst (const_bytes [])] None; int_expr 0; int_expr 24] None)
          (EConst (const_bytes (repeat 7 24)))] None;
     EOp ODeserializeContext (PTypeU8 SSigmaProp 1) [] None])).
  do 2 eexists. split; [reflexivity|]. split; [reflexivity|]. vm_compute. intros Q. discriminate Q.
Qed.
Print Assumptions c36_hash_input_refuted.

Lemma p2sh_bytes : forall G hash, List.length hash = 24%nat -> exists w,
  ser_tree (Parsed (th_v0 false) [] (p2sh_expr hash) : tree G) =
  Ok ([0; 234; 2; 209; 147; 180; 203; 227; 1; 14; 4; 0; 4; 48] ++ w).
Proof.
  intros G hash L. eexists. unfold p2sh_expr.
  assert (C : ser_const (const_bytes (as_i8s hash) : const G) = Ok (14 :: 24 :: map (wrapu 8) (as_i8s hash))).
  { change (ser_const (const_bytes (as_i8s hash) : const G)) with
      (a <- ser_type cbyte ;; b <- (n <- put_usize_as_u16_unwrapped (Zlen (as_i8s hash)) ;; Ok (n ++ map (wrapu 8) (as_i8s hash))) ;; Ok (a ++ b)).
    unfold Zlen, as_i8s. rewrite map_length, L. reflexivity. }
  rewrite st_parsed, se_seq. set (e1 := EOp OBoolToSigmaProp _ _ _). set (e2 := EOp ODeserializeContext _ _ _).
  assert (E2 : ser_expr e2 None = Ok ([212; 8; 1], None)) by (vm_compute; reflexivity).
  assert (E1 : ser_expr e1 None = Ok ([209; 147; 180; 203; 227; 1; 14; 4; 0; 4; 48] ++ 14 :: 24 :: map (wrapu 8) (as_i8s hash), None)).
  { unfold e1. rewrite se_op. cbn [wall]. rewrite se_bin. set (e3 := EOp OSlice _ _ _).
    assert (E3 : ser_expr e3 None = Ok ([180; 203; 227; 1; 14; 4; 0; 4; 48], None)) by (vm_compute; reflexivity).
    cbn [bool_consts]. rewrite se_const, C. unfold e3 at 1. cbn [bool_consts]. fold e3.
    unfold wcat, wret, wput. cbn [bind]. rewrite E3. cbn [bind put_const]. cbn [ser_payload op_has_opt bind app]. repeat first [rewrite app_nil_r|progress cbn [app]]. reflexivity. }
  cbn [wall]. unfold wrun, wcat, wret, wput. cbn [bind ser_seg th_v0 th_seg th_size]. cbn [seq_prefix].
  change (put_u32 (wrapu 32 (Zlen [e1; e2]))) with (Ok [2]). cbn [bind]. rewrite E1. cbn [bind]. rewrite E2. cbn [bind]. reflexivity.
Qed.
(** The script of a script-hash address hashes an optional value, which the reader of
    scripts does not allow: written out and read again it is not understood, becomes a
    script address, and makes a box holding it unreadable.  This is so for every hash. *)
Theorem c36_script_hash_unreadable_refuted : forall (G : group) hash, List.length hash = 24%nat ->
  exists (t : tree G) bs, script (P2SH hash) = Ok t /\ ser_tree t = Ok bs /\
  tree_of_bytes bs = Ok (@Unparsed G bs) /\ recreate (@Unparsed G bs) = Ok (P2S bs) /\
  exists e, parse_script (@fresh G) bs = Err e.
Proof.
  intros G hash L. destruct (p2sh_bytes G hash L) as (w & E).
  do 2 eexists. split; [reflexivity|]. split; [exact E|]. clear E. split; [vm_compute; reflexivity|]. split; [reflexivity|].
  eexists. vm_compute. reflexivity.
Qed.
Print Assumptions c36_script_hash_unreadable_refuted.
Example c36_hyps_met : forall G : group, 
  (exists bs, tree_of_bytes bs = Ok (@Unparsed G bs)) /\
  recreate (Parsed (th_v0 false) [] (EConst (dlog_const (@ggen G)))) = Ok (P2Pk (@ggen G)) /\
  recreate (Parsed (th_v0 false) [] (EOp OBoolToSigmaProp PNone [EConst (MkConst SBoolean (LBool true))] None) : tree G) = Ok (P2S [0; 209; 1; 1]).
Proof. intros G. split; [exists [8; 1; 255]; vm_compute; reflexivity|]. split; vm_compute; reflexivity. Qed.
