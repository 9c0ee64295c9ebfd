(** Numbers in bits and words in phrases. *)
From Coq Require Import String Ascii.
From Verif Require Import Base MnemonicModel.
Local Open Scope string_scope.
Local Open Scope list_scope.
Local Open Scope Z_scope.

(** The number that bytes stand for, the first being the highest. *)
Definition number_of (bs : bytes) : Z := fold_left (fun a b => 256 * a + b) bs 0.

Lemma load_from : forall l a, fold_left (fun a (b : bool) => 2 * a + (if b then 1 else 0)) l a = a * 2 ^ Zlen l + load_be l.
Proof.
  unfold load_be. induction l as [|b l IH]; intros a; [change (Zlen (@nil bool)) with 0; cbn [fold_left]; lia|].
  cbn [fold_left]. rewrite IH, (IH (2 * 0 + _)). unfold Zlen. cbn [List.length]. rewrite Nat2Z.inj_succ, Z.pow_succ_r by lia. destruct b; lia.
Qed.
Lemma load_app a b : load_be (a ++ b) = load_be a * 2 ^ Zlen b + load_be b.
Proof. unfold load_be at 1. rewrite fold_left_app. apply load_from. Qed.
Lemma load_bound l : 0 <= load_be l < 2 ^ Zlen l.
Proof.
  induction l as [|b l IH] using rev_ind; [cbn; lia|]. rewrite load_app. unfold Zlen in *. rewrite app_length, Nat2Z.inj_add.
  change (Z.of_nat (List.length [b])) with 1. rewrite Z.pow_add_r by lia. change (2 ^ 1) with 2.
  destruct b; [change (load_be [true]) with 1|change (load_be [false]) with 0]; lia.
Qed.
Lemma load_firstn n l : (n <= List.length l)%nat -> load_be (firstn n l) = load_be l / 2 ^ (Zlen l - Z.of_nat n).
Proof.
  intros L. rewrite <- (firstn_skipn n l) at 2. rewrite load_app.
  replace (Zlen (skipn n l)) with (Zlen l - Z.of_nat n) by (unfold Zlen; rewrite skipn_length; lia).
  rewrite Z.div_add_l by (apply Z.pow_nonzero; unfold Zlen; lia).
  rewrite Z.div_small; [lia|]. pose proof (load_bound (skipn n l)) as B. unfold Zlen in *. rewrite skipn_length in B.
  replace (Z.of_nat (List.length l) - Z.of_nat n) with (Z.of_nat (List.length l - n)) by lia. exact B.
Qed.
Lemma load_skipn n l : (n <= List.length l)%nat -> load_be (skipn n l) = load_be l mod 2 ^ (Zlen l - Z.of_nat n).
Proof.
  intros L. rewrite <- (firstn_skipn n l) at 2. rewrite load_app.
  replace (Zlen (skipn n l)) with (Zlen l - Z.of_nat n) by (unfold Zlen; rewrite skipn_length; lia).
  rewrite Z.add_comm, Z.mod_add by (apply Z.pow_nonzero; unfold Zlen; lia).
  rewrite Z.mod_small; [reflexivity|]. pose proof (load_bound (skipn n l)) as B. unfold Zlen in *. rewrite skipn_length in B.
  replace (Z.of_nat (List.length l) - Z.of_nat n) with (Z.of_nat (List.length l - n)) by lia. exact B.
Qed.
Lemma bits_length bs : List.length (bits_of bs) = (8 * List.length bs)%nat.
Proof. induction bs as [|b bs IH]; [reflexivity|]. cbn [bits_of flat_map]. fold (bits_of bs). rewrite app_length, IH. cbn [bits_of_byte map List.length]. lia. Qed.
Lemma byte_bits b : 0 <= b < 256 -> load_be (bits_of_byte b) = b.
Proof.
  intros B. assert (E : forallb (fun n => Z.eqb (load_be (bits_of_byte (Z.of_nat n))) (Z.of_nat n)) (seq 0 256) = true) by reflexivity.
  rewrite forallb_forall in E. specialize (E (Z.to_nat b)). rewrite Z2Nat.id in E by lia. apply Z.eqb_eq, E. apply in_seq. lia.
Qed.
Lemma number_from : forall l a, fold_left (fun a b => 256 * a + b) l a = a * 2 ^ (8 * Zlen l) + number_of l.
Proof.
  unfold number_of. induction l as [|b l IH]; intros a; [change (Zlen (@nil Z)) with 0; cbn; lia|].
  cbn [fold_left]. rewrite IH, (IH (256 * 0 + b)). unfold Zlen. cbn [List.length]. rewrite Nat2Z.inj_succ.
  replace (8 * Z.succ (Z.of_nat (List.length l))) with (8 + 8 * Z.of_nat (List.length l)) by lia.
  rewrite Z.pow_add_r by lia. change (2 ^ 8) with 256. lia.
Qed.
Lemma load_bits bs : Forall (fun b => 0 <= b < 256) bs -> load_be (bits_of bs) = number_of bs.
Proof.
  induction 1 as [|b bs B F IH]; [reflexivity|]. cbn [bits_of flat_map]. fold (bits_of bs). rewrite load_app, IH, byte_bits by assumption.
  unfold number_of. cbn [fold_left]. rewrite (number_from bs (256 * 0 + b)).
  unfold number_of, Zlen. rewrite bits_length, Nat2Z.inj_mul. change (Z.of_nat 8) with 8. reflexivity.
Qed.
Lemma bits_inj : forall a b, Forall (fun x => 0 <= x < 256) a -> Forall (fun x => 0 <= x < 256) b -> bits_of a = bits_of b -> a = b.
Proof.
  induction a as [|x a IH]; intros b A B E; destruct b as [|y b]; [reflexivity|discriminate|discriminate|].
  inversion A; inversion B; subst. cbn [bits_of flat_map] in E. fold (bits_of a) (bits_of b) in E.
  assert (P : forall u v c d : list bool, List.length u = List.length v -> u ++ c = v ++ d -> u = v /\ c = d).
  { induction u as [|p u IHu]; destruct v as [|q v]; cbn; intros c d L Q; try discriminate; [auto|].
    injection Q as -> Q. injection L as L. destruct (IHu v c d L Q). subst. auto. }
  apply P in E as [E1 E2]; [|reflexivity]. f_equal; [|now apply IH]. rewrite <- (byte_bits x), <- (byte_bits y) by assumption. now rewrite E1.
Qed.

(** Eleven bits at a time. *)
Lemma skip_skip {A} : forall n m (l : list A), skipn m (skipn n l) = skipn (n + m) l.
Proof. induction n as [|n IH]; intros m l; [reflexivity|]. destruct l; [now rewrite !skipn_nil|]. cbn [skipn Nat.add]. apply IH. Qed.
Lemma chunks_nth k : forall fuel l, List.length l = (11 * k)%nat -> (List.length l <= fuel)%nat ->
  List.length (chunks fuel 11 l) = k /\
  forall i, (i < k)%nat -> nth_error (chunks fuel 11 l) i = Some (firstn 11 (skipn (11 * i) l)).
Proof.
  induction k as [|k IH]; intros fuel l L F.
  - destruct l; [|cbn in L; lia]. destruct fuel; (split; [reflexivity|intros; lia]).
  - destruct fuel as [|fuel]; [lia|]. destruct l as [|b l0] eqn:El; [cbn in L; lia|]. rewrite <- El in *. clear El b l0.
    assert (E : chunks (S fuel) 11 l = firstn 11 l :: chunks fuel 11 (skipn 11 l)) by (destruct l; [cbn in L; lia|reflexivity]).
    rewrite E. destruct (IH fuel (skipn 11 l)) as [A B]; [rewrite skipn_length; lia|rewrite skipn_length; lia|].
    split; [cbn [List.length]; now rewrite A|]. intros [|i] I; [reflexivity|]. cbn [nth_error]. rewrite B by lia.
    do 2 f_equal. rewrite skip_skip. f_equal. lia.
Qed.
Lemma group_value k i l : List.length l = (11 * k)%nat -> (i < k)%nat ->
  load_be (firstn 11 (skipn (11 * i) l)) = load_be l / 2 ^ (11 * (Z.of_nat k - 1 - Z.of_nat i)) mod 2 ^ 11.
Proof.
  intros L I. rewrite load_firstn by (rewrite skipn_length; lia). rewrite load_skipn by lia. unfold Zlen. rewrite skipn_length.
  replace (Z.of_nat (List.length l - 11 * i) - Z.of_nat 11) with (11 * (Z.of_nat k - 1 - Z.of_nat i)) by lia.
  replace (Z.of_nat (List.length l) - Z.of_nat (11 * i)) with (11 + 11 * (Z.of_nat k - 1 - Z.of_nat i)) by lia.
  set (m := 11 * (Z.of_nat k - 1 - Z.of_nat i)). assert (0 <= m) by lia.
  rewrite Z.pow_add_r by lia. rewrite Z.mul_comm. rewrite Z.rem_mul_r by (try apply Z.pow_nonzero; lia).
  rewrite Z.mul_comm, Z.div_add by (apply Z.pow_nonzero; lia). rewrite Z.div_small by (apply Z.mod_pos_bound, Z.pow_pos_nonneg; lia). lia.
Qed.

(** ** Cutting a phrase at the delimiter *)
Fixpoint starts (d s : bytes) : bool :=
  match d, s with [], _ => true | x :: d, y :: s => (x =? y) && starts d s | _ :: _, [] => false end.
Fixpoint cut (d s : bytes) : option (bytes * bytes) :=
  if starts d s then Some ([], skipn (List.length d) s)
  else match s with [] => None | c :: s => match cut d s with Some (w, r) => Some (c :: w, r) | None => None end end.
(** The delimiter does not begin inside the word. *)
Fixpoint clean (d w : bytes) : bool :=
  match w with [] => true | _ :: w' => negb (starts d (w ++ removelast d)) && clean d w' end.

Lemma starts_more : forall d s r, (List.length d <= List.length s)%nat -> starts d (s ++ r) = starts d s.
Proof. induction d as [|x d IH]; intros [|y s] r L; cbn in *; try reflexivity; try lia. rewrite IH by lia. reflexivity. Qed.
Lemma starts_less : forall d s r, starts d s = true -> starts d (s ++ r) = true.
Proof. induction d as [|x d IH]; intros [|y s] r L; cbn in *; try reflexivity; try discriminate. apply andb_true_iff in L as [-> L]. now apply IH. Qed.
Lemma starts_self d r : starts d (d ++ r) = true.
Proof. induction d as [|x d IH]; [reflexivity|]. cbn [app starts]. now rewrite Z.eqb_refl. Qed.
Lemma cut_step d c s : starts d (c :: s) = false -> cut d (c :: s) = match cut d s with Some (w, r) => Some (c :: w, r) | None => None end.
Proof. intros E. cbn [cut]. now rewrite E. Qed.
Lemma inside d c w s : d <> [] -> clean d (c :: w) = true -> starts d s = true -> starts d ((c :: w) ++ s) = false.
Proof.
  intros N C S. cbn [clean] in C. apply andb_true_iff in C as [C1 _]. apply negb_true_iff in C1.
  assert (X : forall (a b : bytes), starts a b = true -> exists r, b = a ++ r).
  { induction a as [|x a IH]; intros b Q; [exists b; reflexivity|]. destruct b as [|y b]; [discriminate|]. cbn [starts] in Q.
    apply andb_true_iff in Q as [Q1 Q2]. apply Z.eqb_eq in Q1. subst y. destruct (IH b Q2) as [r ->]. exists r. reflexivity. }
  destruct (X _ _ S) as [r ->]. pose proof (app_removelast_last 0 N) as E.
  replace (d ++ r) with (removelast d ++ [last d 0] ++ r) by (rewrite app_assoc, <- E; reflexivity).
  rewrite app_assoc, starts_more; [exact C1|]. pose proof (f_equal (@List.length Z) E) as Q. rewrite app_length in *. cbn [List.length] in *. lia.
Qed.
Lemma clean_tail d c w : clean d (c :: w) = true -> clean d w = true.
Proof. cbn [clean]. intros E. now apply andb_true_iff in E. Qed.
Lemma cut_word d w r : d <> [] -> clean d w = true -> cut d (w ++ d ++ r) = Some (w, r).
Proof.
  intros N. induction w as [|c w IH]; intros C.
  - cbn [app]. assert (S : cut d (d ++ r) = if starts d (d ++ r) then Some ([], skipn (List.length d) (d ++ r)) else cut d (d ++ r)).
    { destruct (d ++ r) eqn:E; cbn [cut]; destruct (starts _ _); reflexivity. }
    rewrite S, starts_self, skipn_app, skipn_all, Nat.sub_diag. reflexivity.
  - change ((c :: w) ++ d ++ r) with (c :: (w ++ d ++ r)). rewrite cut_step.
    + rewrite IH by (eapply clean_tail; eauto). reflexivity.
    + apply (inside d c w (d ++ r) N C). apply starts_self.
Qed.
Lemma cut_last d w : d <> [] -> clean d w = true -> cut d w = None.
Proof.
  intros N. induction w as [|c w IH]; intros C.
  - destruct d; [contradiction|reflexivity].
  - rewrite cut_step.
    + rewrite IH by (eapply clean_tail; eauto). reflexivity.
    + destruct (starts d (c :: w)) eqn:E; [|reflexivity].
      pose proof (starts_less d (c :: w) d E) as E'. rewrite (inside d c w d N C) in E'; [discriminate|].
      rewrite <- (app_nil_r d) at 2. apply starts_self.
Qed.
(** A phrase tells its words. *)
Lemma join_inj d : d <> [] -> forall a b, Forall (fun w => clean d w = true) a -> Forall (fun w => clean d w = true) b ->
  a <> [] -> b <> [] -> join d a = join d b -> a = b.
Proof.
  intros N. induction a as [|x a IH]; intros b A B Na Nb E; [contradiction|]. destruct b as [|y b]; [contradiction|].
  inversion A as [|? ? X A']; inversion B as [|? ? Y B']; subst.
  destruct a as [|x' a]; destruct b as [|y' b].
  - cbn [join] in E. now subst.
  - change (x = y ++ d ++ join d (y' :: b)) in E. pose proof (cut_last d x N X) as Q. rewrite E, cut_word in Q by assumption. discriminate.
  - change (x ++ d ++ join d (x' :: a) = y) in E. pose proof (cut_last d y N Y) as Q. rewrite <- E, cut_word in Q by assumption. discriminate.
  - change (x ++ d ++ join d (x' :: a) = y ++ d ++ join d (y' :: b)) in E.
    pose proof (cut_word d x (join d (x' :: a)) N X) as Q. rewrite E, cut_word in Q by assumption. injection Q as -> Q.
    f_equal. apply IH; auto; discriminate.
Qed.

(** ** The lists of words *)
(** A table from words to their places, to find duplicates with. *)
Inductive trie := Leaf | Node (v : option nat) (l r : trie).
Fixpoint t_add (p : positive) (v : nat) (t : trie) : trie :=
  match p, t with
  | xH, Leaf => Node (Some v) Leaf Leaf
  | xH, Node _ l r => Node (Some v) l r
  | xO p, Leaf => Node None (t_add p v Leaf) Leaf
  | xO p, Node w l r => Node w (t_add p v l) r
  | xI p, Leaf => Node None Leaf (t_add p v Leaf)
  | xI p, Node w l r => Node w l (t_add p v r)
  end.
Fixpoint t_get (p : positive) (t : trie) : option nat :=
  match p, t with
  | _, Leaf => None
  | xH, Node v _ _ => v
  | xO p, Node _ l _ => t_get p l
  | xI p, Node _ _ r => t_get p r
  end.
Fixpoint over (q p : positive) : positive := match q with xH => p | xO q => xO (over q p) | xI q => xI (over q p) end.
Definition code (w : bytes) : positive := fold_left (fun p b => match b with Zpos q => over q p | _ => p end) w 1%positive.
Fixpoint table (i : nat) (l : list bytes) (t : trie) : trie :=
  match l with [] => t | w :: l => table (S i) l (t_add (code w) i t) end.
Fixpoint placed (t : trie) (i : nat) (l : list bytes) : bool :=
  match l with
  | [] => true
  | w :: l => match t_get (code w) t with Some j => Nat.eqb i j | None => false end && placed t (S i) l
  end.
Definition distinct (l : list bytes) : bool := placed (table 0 l Leaf) 0 l.
Lemma placed_nth t : forall l i k w, placed t i l = true -> nth_error l k = Some w -> t_get (code w) t = Some (i + k)%nat.
Proof.
  induction l as [|x l IH]; intros i [|k] w P E; try discriminate; cbn [placed nth_error] in *; apply andb_true_iff in P as [P1 P2].
  - injection E as ->. destruct (t_get _ _) as [j|]; [|discriminate]. apply Nat.eqb_eq in P1. subst. f_equal. lia.
  - rewrite (IH (S i) k w P2 E). f_equal. lia.
Qed.
Lemma distinct_nth l i j w : distinct l = true -> nth_error l i = Some w -> nth_error l j = Some w -> i = j.
Proof.
  intros D I J. pose proof (placed_nth _ _ _ _ _ D I) as A. pose proof (placed_nth _ _ _ _ _ D J) as B.
  rewrite A in B. injection B as B. lia.
Qed.
