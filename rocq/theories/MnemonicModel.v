(** Mnemonic phrases: ergo-lib/src/wallet/mnemonic_generator.rs, mnemonic.rs.

    Texts are lists of bytes (UTF-8).  SHA-256, PBKDF2 and the normal form NFKD are
    arguments. *)
From Coq Require Import String Ascii.
From Verif Require Import Base.
From Verif Require WordsChineseSimplified WordsChineseTraditional WordsEnglish WordsFrench WordsItalian
  WordsJapanese WordsKorean WordsSpanish.
Local Open Scope string_scope.
Local Open Scope list_scope.
Local Open Scope Z_scope.

(** The bytes of a text. *)
Fixpoint octets_of (s : string) : bytes :=
  match s with EmptyString => [] | String c s => Z.of_N (N_of_ascii c) :: octets_of s end.

(** [Language] (mnemonic_generator.rs 11-28). *)
Inductive language := ChineseSimplified | ChineseTraditional | English | French | Italian | Japanese | Korean | Spanish.
(** [Display for Language] (37-51). *)
Definition show_language (l : language) : string :=
  match l with
  | ChineseSimplified => "chinese_simplified"
  | ChineseTraditional => "chinese_traditional"
  | English => "english"
  | French => "french"
  | Italian => "italian"
  | Japanese => "japanese"
  | Korean => "korean"
  | Spanish => "spanish"
  end.
(** [FromStr for Language] (53-69). *)
Definition read_language (s : string) : res language :=
  if (s =? "chinese_simplified")%string then Ok ChineseSimplified
  else if (s =? "chinese_traditional")%string then Ok ChineseTraditional
  else if (s =? "english")%string then Ok English
  else if (s =? "french")%string then Ok French
  else if (s =? "italian")%string then Ok Italian
  else if (s =? "japanese")%string then Ok Japanese
  else if (s =? "korean")%string then Ok Korean
  else if (s =? "spanish")%string then Ok Spanish
  else Err "InvalidStr".

(** [WordList::words] (85-98).  The files hold no carriage return; their lines were copied
    into the modules named here. *)
Definition words (l : language) : list bytes :=
  map octets_of
    match l with
    | ChineseSimplified => WordsChineseSimplified.lines
    | ChineseTraditional => WordsChineseTraditional.lines
    | English => WordsEnglish.lines
    | French => WordsFrench.lines
    | Italian => WordsItalian.lines
    | Japanese => WordsJapanese.lines
    | Korean => WordsKorean.lines
    | Spanish => WordsSpanish.lines
    end.
(** [WordList::delimiter] (101-112): the ideographic space for Japanese. *)
Definition delimiter (l : language) : bytes :=
  match l with Japanese => [227; 128; 128] | _ => [32] end.

(** [ALLOWED_STRENGTHS] (137) and [allowed_entrophy_lens] (181-183). *)
Definition allowed_strengths : list Z := [128; 160; 192; 224; 256].
Definition allowed_lens : list Z := map (fun s => s / 8) allowed_strengths.

(** `BitVec::<_, Msb0>::from_vec`. *)
Definition bits_of_byte (b : Z) : list bool := map (Z.testbit b) [7; 6; 5; 4; 3; 2; 1; 0].
Definition bits_of (bs : bytes) : list bool := flat_map bits_of_byte bs.
(** `chunks`: each turn takes at least one bit. *)
Fixpoint chunks (fuel n : nat) (l : list bool) : list (list bool) :=
  match fuel, l with
  | _, [] => []
  | O, _ => []
  | S f, _ => firstn n l :: chunks f n (skipn n l)
  end.
(** `load_be::<usize>` of a slice in the order of `Msb0`. *)
Definition load_be (l : list bool) : Z := fold_left (fun a (b : bool) => 2 * a + (if b then 1 else 0)) l 0.
(** `[&str]::join`. *)
Fixpoint join (d : bytes) (l : list bytes) : bytes :=
  match l with [] => [] | [w] => w | w :: l => w ++ d ++ join d l end.
(** `words[i]`. *)
Definition word_at (ws : list bytes) (i : Z) : res bytes :=
  match nth_error ws (Z.to_nat i) with Some w => Ok w | None => Panic end.
Fixpoint look_up (ws : list bytes) (l : list (list bool)) : res (list bytes) :=
  match l with
  | [] => Ok []
  | c :: l => w <- word_at ws (load_be c) ;; r <- look_up ws l ;; Ok (w :: r)
  end.

Section Generator.
Variable sha : bytes -> bytes.
(** [from_entrophy] (157-179). *)
Definition from_entropy (lang : language) (e : bytes) : res bytes :=
  if existsb (Z.eqb (Zlen e)) allowed_lens then
    let checksum := bits_of (sha e) in
    let n := Z.to_nat (Zlen e / 4) in
    if (n <=? List.length checksum)%nat then
      let all := bits_of e ++ firstn n checksum in
      ws <- look_up (words lang) (chunks (List.length all) 11 all) ;;
      Ok (join (delimiter lang) ws)
    else Panic
  else Err "InvalidEntrophyLen".
(** [generate] (146-154); [random] fills a buffer of the given length. *)
Definition generate (random : Z -> bytes) (lang : language) (strength : Z) : res bytes :=
  if existsb (Z.eqb strength) allowed_strengths then from_entropy lang (random (strength / 8))
  else Err "InvalidStrength".
End Generator.

(** [Mnemonic::to_seed] (mnemonic.rs 24-36). *)
Definition to_seed (nfkd : bytes -> bytes) (pbkdf2 : bytes -> bytes -> Z -> bytes) (phrase pass : bytes) : bytes :=
  pbkdf2 (nfkd phrase) (octets_of "mnemonic" ++ nfkd pass) 2048.
