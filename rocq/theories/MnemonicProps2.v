(** Word lists, delimiters and seeds compared with BIP-39. *)
From Coq Require Import String.
From Verif Require Import Base MnemonicModel.
Local Open Scope string_scope.
Local Open Scope list_scope.
Local Open Scope Z_scope.

(** ** Specification, from BIP-39 and its word lists *)

(** UTF-8 of a character between U+0800 and U+FFFF. *)
Definition utf8_3 (c : Z) : bytes := [224 + c / 4096; 128 + (c / 64) mod 64; 128 + c mod 64].

(** Words are separated by a space, in Japanese by the ideographic one, U+3000. *)
Definition bip39_space (l : language) : bytes :=
  match l with Japanese => utf8_3 12288 | _ => octets_of " " end.

(** The second and the last word of each list (Korean in its normal form). *)
Definition bip39_second (l : language) : string :=
  match l with
  | ChineseSimplified | ChineseTraditional => "一"
  | English => "ability" | French => "abandon" | Italian => "abbaglio"
  | Japanese => "あいさつ" | Korean => "가끔" | Spanish => "abdomen"
  end.
Definition bip39_last (l : language) : string :=
  match l with
  | ChineseSimplified | ChineseTraditional => "歇"
  | English => "zoo" | French => "zoologie" | Italian => "zuppa"
  | Japanese => "われる" | Korean => "힘껏" | Spanish => "zurdo"
  end.

(** The seed: 2048 rounds over the normal form of the phrase, salted with the normal
    form of "mnemonic" and the password. *)
Definition bip39_seed (nfkd : bytes -> bytes) (pbkdf2 : bytes -> bytes -> Z -> bytes) (phrase pass : bytes) : bytes :=
  pbkdf2 (nfkd phrase) (nfkd (octets_of "mnemonic" ++ pass)) 2048.

(** ** Theorems *)

Theorem c114_lists : forall l,
  delimiter l = bip39_space l /\
  nth_error (words l) 1 = Some (octets_of (bip39_second l)) /\
  nth_error (words l) (Z.to_nat 2047) = Some (octets_of (bip39_last l)).
Proof. destruct l; split; try reflexivity; split; reflexivity. Qed.

(** No two languages have the same list. *)
Theorem c114_own_list : forall l l', words l = words l' -> l = l'.
Proof.
  intros l l' E.
  assert (S : nth_error (words l) 1 = nth_error (words l') 1) by (rewrite E; reflexivity).
  assert (T : nth_error (words l) 9 = nth_error (words l') 9) by (rewrite E; reflexivity).
  clear E.
  destruct l, l'; try reflexivity; exfalso; first [discriminate S|discriminate T|idtac].
Qed.

(** The seed is that of BIP-39, if the normal form leaves ASCII letters alone and
    treats what follows them on its own, as NFKD does. *)
Theorem c114_seed : forall nfkd pbkdf2 phrase pass,
  (forall c x, 97 <= c <= 122 -> nfkd (c :: x) = c :: nfkd x) ->
  to_seed nfkd pbkdf2 phrase pass = bip39_seed nfkd pbkdf2 phrase pass.
Proof.
  intros nfkd pbkdf2 phrase pass H. unfold to_seed, bip39_seed. f_equal.
  change (octets_of "mnemonic") with [109; 110; 101; 109; 111; 110; 105; 99]. cbn [app].
  rewrite !H by lia. reflexivity.
Qed.

(** Phrases and passwords with the same normal forms have the same seed: it does
    not matter which space separates Japanese words. *)
Theorem c114_seed_normal : forall nfkd pbkdf2 p p' q q',
  nfkd p = nfkd p' -> nfkd q = nfkd q' -> to_seed nfkd pbkdf2 p q = to_seed nfkd pbkdf2 p' q'.
Proof. intros nfkd pbkdf2 p p' q q' E F. unfold to_seed. rewrite E, F. reflexivity. Qed.

Example c114_seed_met :
  (forall c x, 97 <= c <= 122 -> (fun y : bytes => y) (c :: x) = c :: (fun y => y) x) /\
  to_seed (fun y => y) (fun a b n => n :: a ++ b) (octets_of "zoo") (octets_of "x") =
    2048 :: octets_of "zoomnemonicx".
Proof. split; [reflexivity|reflexivity]. Qed.

Print Assumptions c114_lists.
Print Assumptions c114_own_list.
Print Assumptions c114_seed.
Print Assumptions c114_seed_normal.
