(** Property C50: block headers. *)
From Verif Require Import Base VlqModel VlqProofs IntBytes GroupModel GroupProofs GroupInstance
  MerkleModel MerkleProofs HeaderModel.
Local Open Scope string_scope.
Local Open Scope list_scope.
Local Open Scope Z_scope.

(** A header as the Rust types and the proof-of-work version allow it. *)
Record header_wf {G} (h : header G) : Prop := {
  wf_version : u8 (h_version h);
  wf_parent : List.length (h_parent_id h) = 32%nat;
  wf_ad : List.length (h_ad_proofs_root h) = 32%nat;
  wf_state : List.length (h_state_root h) = 33%nat;
  wf_tx : List.length (h_transaction_root h) = 32%nat;
  wf_ts : u64 (h_timestamp h);
  wf_nbits : u32 (h_n_bits h);
  wf_height : u32 (h_height h);
  wf_ext : List.length (h_extension_root h) = 32%nat;
  wf_votes : List.length (h_votes h) = 3%nat;
  wf_nonce : List.length (nonce (h_solution h)) = 8%nat;
  wf_sol : if h_version h =? 1
           then (exists w, pow_onetime_pk (h_solution h) = Some w) /\
                (exists d, pow_distance (h_solution h) = Some d /\ Zlen (to_signed_bytes_be d) < 256)
           else pow_onetime_pk (h_solution h) = None /\ pow_distance (h_solution h) = None }.

Definition with_id {G} (h : header G) (i : bytes) : header G :=
  Header (h_version h) i (h_parent_id h) (h_ad_proofs_root h) (h_state_root h) (h_transaction_root h)
    (h_timestamp h) (h_n_bits h) (h_height h) (h_extension_root h) (h_solution h) (h_votes h).

Lemma without_pow_id : forall G (h : header G) i, serialize_without_pow (with_id h i) = serialize_without_pow h.
Proof. reflexivity. Qed.

Lemma solution_roundtrip : forall G, group_ok G -> forall v (s : solution G),
  List.length (nonce s) = 8%nat ->
  (if v =? 1
   then (exists w, pow_onetime_pk s = Some w) /\
        (exists d, pow_distance s = Some d /\ Zlen (to_signed_bytes_be d) < 256)
   else pow_onetime_pk s = None /\ pow_distance s = None) ->
  roundtrip (solution_serialize v) (solution_parse v) s.
Proof.
  intros G HG v s Hn Hs. unfold roundtrip, solution_serialize, solution_parse.
  destruct (ec_roundtrip HG (miner_pk s)) as (b1 & W1 & R1).
  destruct s as [pk ow n od]. cbn [miner_pk pow_onetime_pk nonce pow_distance] in *.
  destruct (v =? 1).
  - destruct Hs as [[w ->] [d [-> Hd]]].
    destruct (ec_roundtrip HG w) as (b2 & W2 & R2).
    rewrite W1. cbn [bind of_option]. rewrite W2. cbn [bind of_option put_u8].
    eexists. split; [reflexivity|]. intros rest.
    rewrite <- !app_assoc, R1. cbn [bind]. rewrite R2. cbn [bind].
    rewrite read_exact_app by exact Hn. cbn [bind app get_u8].
    pose proof (Zlen_nonneg _ (to_signed_bytes_be d)).
    unfold wrapu. rewrite Z.mod_small by (change (2 ^ 8) with 256; lia).
    rewrite read_exact_app by (unfold Zlen; lia).
    cbn [bind]. rewrite from_to_signed. reflexivity.
  - destruct Hs as [-> ->]. rewrite W1. cbn [bind].
    eexists. split; [reflexivity|]. intros rest. rewrite <- app_assoc, R1. cbn [bind].
    rewrite read_exact_app by exact Hn. reflexivity.
Qed.

(** Serializing a well-formed header succeeds; parsing the bytes back gives the same
    header in every field, with the identifier set to the hash of those bytes. *)
Theorem c50_header_roundtrip : forall G H, group_ok G -> forall h : header G, header_wf h ->
  exists bs, header_serialize h = Ok bs /\
    forall rest, header_parse H (bs ++ rest) = Ok (with_id h (H bs), rest).
Proof.
  intros G H HG h [Hv Hp Ha Hs Ht Hts Hnb Hh He Hvo Hn Hsol].
  destruct (get_put_u64 _ Hts) as (bt & Wt & Rt).
  destruct (get_put_u32 _ Hh) as (bh & Wh & Rh).
  destruct (solution_roundtrip G HG (h_version h) (h_solution h) Hn Hsol) as (bp & Wp & Rp).
  assert (HX : exists bx, (if 1 <? h_version h then put_i8 0 else Ok []) = Ok bx /\
    forall rest, skip_new_fields (h_version h) (bx ++ rest) = Ok (tt, rest)).
  { unfold skip_new_fields. destruct (1 <? h_version h); eexists; (split; [reflexivity|]); reflexivity. }
  destruct HX as (bx & Wx & Rx).
  assert (Hnbv : be_value (be_bytes 4 (wrapu 32 (h_n_bits h))) = h_n_bits h).
  { rewrite be_value_bytes. unfold wrapu, u32 in *. change (256 ^ Z.of_nat 4) with (2 ^ 32).
    rewrite Z.mod_mod by lia. apply Z.mod_small. lia. }
  assert (HS : exists b1, serialize_without_pow h = Ok b1 /\
     b1 = [h_version h] ++ h_parent_id h ++ h_ad_proofs_root h ++ h_transaction_root h ++ h_state_root h ++
      bt ++ h_extension_root h ++ be_bytes 4 (wrapu 32 (h_n_bits h)) ++ bh ++ h_votes h ++ bx).
  { unfold serialize_without_pow, put_u8. rewrite Wt, Wh, Wx. cbn [bind]. eauto. }
  destruct HS as (b1 & W1 & E1).
  exists (b1 ++ bp). unfold header_serialize. rewrite W1. cbn [bind]. rewrite Wp. split; [reflexivity|].
  intros rest. unfold header_parse. rewrite E1 at 1. rewrite <- !app_assoc. cbn [app get_u8 bind].
  rewrite (read_exact_app 32 (h_parent_id h)) by assumption. cbn [bind].
  rewrite (read_exact_app 32 (h_ad_proofs_root h)) by assumption. cbn [bind].
  rewrite (read_exact_app 32 (h_transaction_root h)) by assumption. cbn [bind].
  rewrite (read_exact_app 33 (h_state_root h)) by assumption. cbn [bind].
  rewrite Rt. cbn [bind].
  rewrite (read_exact_app 32 (h_extension_root h)) by assumption. cbn [bind].
  rewrite (read_exact_app 4 (be_bytes 4 _)) by apply be_bytes_length. cbn [bind].
  rewrite Rh. cbn [bind].
  rewrite (read_exact_app 3 (h_votes h)) by assumption. cbn [bind].
  rewrite Rx. cbn [bind]. rewrite Rp. cbn [bind]. rewrite Hnbv.
  match goal with |- context [serialize_without_pow ?x] => change (serialize_without_pow x) with (serialize_without_pow h) end.
  rewrite W1. cbn [bind]. rewrite Wp. cbn [bind]. reflexivity.
Qed.
Print Assumptions c50_header_roundtrip.

(** Whatever was read, the identifier of a parsed header is the hash of the bytes the
    parsed header serializes to. *)
Theorem c50_parsed_id_is_hash : forall G H (h : header G) bs rest,
  header_parse H bs = Ok (h, rest) ->
  exists out, header_serialize h = Ok out /\ h_id h = H out.
Proof.
  intros G H h bs rest E. unfold header_parse in E.
  repeat (apply bind_ok in E; destruct E as [[? ?] [? E]]).
  apply bind_ok in E. destruct E as [c1 [E1 E]]. apply bind_ok in E. destruct E as [c2 [E2 E]].
  injection E as <- <-. exists (c1 ++ c2). unfold header_serialize. cbn [h_version h_solution h_id].
  split; [|reflexivity].
  match type of E1 with serialize_without_pow ?x = _ =>
    match goal with |- context [serialize_without_pow ?y] => change (serialize_without_pow y) with (serialize_without_pow x) end end.
  rewrite E1. cbn [bind]. rewrite E2. reflexivity.
Qed.
Print Assumptions c50_parsed_id_is_hash.

(** Two well-formed headers whose bytes coincide differ at most in the id field: the
    serialized form, hence the id, commits to every other field. *)
Theorem c50_serialization_injective : forall G (h1 h2 : header G) bs, group_ok G ->
  header_wf h1 -> header_wf h2 ->
  header_serialize h1 = Ok bs -> header_serialize h2 = Ok bs ->
  with_id h1 [] = with_id h2 [].
Proof.
  intros G h1 h2 bs HG W1 W2 E1 E2.
  destruct (c50_header_roundtrip G (fun _ => []) HG h1 W1) as (b1 & F1 & R1).
  destruct (c50_header_roundtrip G (fun _ => []) HG h2 W2) as (b2 & F2 & R2).
  assert (b1 = bs) by congruence. assert (b2 = bs) by congruence. subst.
  specialize (R1 []). specialize (R2 []). congruence.
Qed.
Print Assumptions c50_serialization_injective.

(** The id is the hash of the bytes that were parsed whenever the block carries no
    fields unknown to this version of the code and encodes everything minimally, i.e.
    when the bytes are those the writer makes... *)
Definition toy_header_v2 : header toyG :=
  Header 2 (repeat 9 32) (repeat 1 32) (repeat 2 32) (repeat 3 33) (repeat 4 32) 1600000000000 117501863
    614400 (repeat 5 32) (@Solution toyG ggen None (repeat 7 8) None) [0; 0; 0].
Definition toy_header_v1 : header toyG :=
  Header 1 (repeat 9 32) (repeat 1 32) (repeat 2 32) (repeat 3 33) (repeat 4 32) 1600000000000 117501863
    1 (repeat 5 32) (@Solution toyG ggen (Some gid) (repeat 7 8) (Some (-129))) [4; 3; 0].

Example c50_hyps_met : header_wf toy_header_v1 /\ header_wf toy_header_v2.
Proof.
  split; constructor; try reflexivity;
    try (unfold u8, u32, u64; cbn; lia).
  - cbn. split; [eexists; reflexivity|]. eexists. split; [reflexivity|]. vm_compute. reflexivity.
  - cbn. auto.
Qed.

(** ...but not in general: a header with one unknown new-field byte parses, and the id
    computed for it is the hash of other bytes, those with the new field removed.  Unless
    the hash function collides on the two strings, the id is not the block's id. *)
Theorem c50_unknown_fields_refuted :
  exists bs out : bytes, bytes_ok bs /\ out <> bs /\
    forall H : bytes -> bytes, H bs <> H out ->
      exists h : header toyG, header_parse H bs = Ok (h, []) /\ h_id h <> H bs.
Proof.
  let v := eval vm_compute in (header_serialize toy_header_v2) in
  match v with Ok ?o =>
    let n := eval vm_compute in (List.length o - 42)%nat in
    let b := eval vm_compute in (firstn n o ++ [1; 77] ++ skipn (S n) o) in
    exists b, o
  end.
  split; [|split].
  - repeat (constructor; [unfold byte; lia|]). constructor.
  - discriminate.
  - intros H HC. eexists. split; [reflexivity|]. intros E. apply HC. rewrite <- E. reflexivity.
Qed.
Print Assumptions c50_unknown_fields_refuted.
