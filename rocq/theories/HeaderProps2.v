(** Headers with fields this version does not know. *)
From Verif Require Import Base VlqModel VlqProofs IntBytes GroupModel GroupInstance MerkleModel HeaderModel HeaderProps.
Local Open Scope list_scope.
Local Open Scope Z_scope.

(** Up to 255 bytes of new fields are skipped, whatever they are: the header read has
    the same fields, the same identifier, and the reader stops at the same place as
    without them.  (So its identifier is not that of the block, see
    [c50_unknown_fields_refuted].) *)
Theorem c50_new_fields : forall G H, group_ok G -> forall h : header G, header_wf h -> 1 < h_version h ->
  exists front back, header_serialize h = Ok (front ++ [0] ++ back) /\
    forall x rest, Zlen x < 256 ->
      header_parse H (front ++ [Zlen x] ++ x ++ back ++ rest) = Ok (with_id h (H (front ++ [0] ++ back)), rest).
Proof.
  intros G H HG h [Hv Hp Ha Hs Ht Hts Hnb Hh He Hvo Hn Hsol] V.
  destruct (get_put_u64 _ Hts) as (bt & Wt & Rt).
  destruct (get_put_u32 _ Hh) as (bh & Wh & Rh).
  destruct (solution_roundtrip G HG (h_version h) (h_solution h) Hn Hsol) as (bp & Wp & Rp).
  apply Z.ltb_lt in V.
  assert (Hnbv : be_value (be_bytes 4 (wrapu 32 (h_n_bits h))) = h_n_bits h).
  { rewrite be_value_bytes. unfold wrapu, u32 in *. change (256 ^ Z.of_nat 4) with (2 ^ 32).
    rewrite Z.mod_mod by lia. apply Z.mod_small. lia. }
  set (front := [h_version h] ++ h_parent_id h ++ h_ad_proofs_root h ++ h_transaction_root h ++ h_state_root h ++
      bt ++ h_extension_root h ++ be_bytes 4 (wrapu 32 (h_n_bits h)) ++ bh ++ h_votes h).
  assert (W1 : serialize_without_pow h = Ok (front ++ [0])).
  { unfold serialize_without_pow, put_u8. rewrite Wt, Wh, V. cbn [bind put_i8]. subst front.
    rewrite <- !app_assoc. reflexivity. }
  exists front, bp. split.
  { unfold header_serialize. rewrite W1. cbn [bind]. rewrite Wp. cbn [bind]. rewrite <- app_assoc. reflexivity. }
  intros x rest L. unfold header_parse. subst front. rewrite <- !app_assoc. cbn [app get_u8 bind].
  rewrite (read_exact_app 32 (h_parent_id h)) by assumption. cbn [bind].
  rewrite (read_exact_app 32 (h_ad_proofs_root h)) by assumption. cbn [bind].
  rewrite (read_exact_app 32 (h_transaction_root h)) by assumption. cbn [bind].
  rewrite (read_exact_app 33 (h_state_root h)) by assumption. cbn [bind].
  rewrite Rt. cbn [bind].
  rewrite (read_exact_app 32 (h_extension_root h)) by assumption. cbn [bind].
  rewrite (read_exact_app 4 (be_bytes 4 _)) by apply be_bytes_length. cbn [bind].
  rewrite Rh. cbn [bind].
  rewrite (read_exact_app 3 (h_votes h)) by assumption. cbn [bind].
  assert (Rx : forall r, skip_new_fields (h_version h) (Zlen x :: x ++ r) = Ok (tt, r)).
  { intros r. unfold skip_new_fields. rewrite V. cbn [bind get_u8].
    pose proof (Zlen_nonneg _ x).
    destruct (Z.ltb_spec 0 (Zlen x)) as [P|P].
    - rewrite read_exact_app by (unfold Zlen; lia). reflexivity.
    - destruct x; [reflexivity|]. rewrite Zlen_cons in P. pose proof (Zlen_nonneg _ x). lia. }
  rewrite Rx. cbn [bind]. rewrite Rp. cbn [bind]. rewrite Hnbv.
  match goal with |- context [serialize_without_pow ?x] => change (serialize_without_pow x) with (serialize_without_pow h) end.
  rewrite W1. cbn [bind]. rewrite Wp. cbn [bind]. rewrite <- !app_assoc. reflexivity.
Qed.

Example c50_new_fields_met : header_wf toy_header_v2 /\ 1 < h_version toy_header_v2 /\ Zlen [1; 2; 3] < 256.
Proof. split; [exact (proj2 c50_hyps_met)|]. split; [cbn; lia|]. cbn. lia. Qed.
Print Assumptions c50_new_fields.
