(** Collections in scripts: every operation against a description by positions. *)
From Verif Require Import Base VlqModel IntBytes GroupModel SigmaModel BigIntModel TypeModel
  MethodModel IrModel SerModel ChainModel HeaderModel TxModel EqModel PrintModel EvalModel ProverProofs TypeProofs EqProofs
  EvalProofs EvalScope EvalSame EvalEq.
Local Open Scope string_scope.
Local Open Scope list_scope.
Local Open Scope Z_scope.

(** ** Specification *)

(** The item at a position, for every integer. *)
Definition at_ {A} (l : list A) (i : Z) : option A := if i <? 0 then None else nth_error l (Z.to_nat i).

Lemma at_nil {A} i : @at_ A [] i = None.
Proof. unfold at_. destruct (i <? 0); [reflexivity|]. now destruct (Z.to_nat i). Qed.
Lemma at_cons {A} (x : A) l i : at_ (x :: l) i = if i =? 0 then Some x else at_ l (i - 1).
Proof.
  unfold at_. destruct (Z.eqb_spec i 0) as [->|N]; [reflexivity|]. destruct (Z.ltb_spec i 0); destruct (Z.ltb_spec (i - 1) 0); try lia; [reflexivity|].
  replace (Z.to_nat i) with (S (Z.to_nat (i - 1))) by lia. reflexivity.
Qed.
Lemma at_out {A} (l : list A) i : i < 0 \/ Zlen l <= i -> at_ l i = None.
Proof.
  revert i. induction l as [|x l IH]; intros i Hi; [apply at_nil|]. rewrite at_cons. rewrite Zlen_cons in Hi. pose proof (Zlen_nonneg A l).
  destruct (Z.eqb_spec i 0); [lia|]. apply IH. lia.
Qed.
Lemma at_in {A} (l : list A) i : 0 <= i < Zlen l -> exists x, at_ l i = Some x.
Proof.
  revert i. induction l as [|x l IH]; intros i Hi; [change (Zlen (@nil A)) with 0 in Hi; lia|]. rewrite at_cons. rewrite Zlen_cons in Hi.
  destruct (Z.eqb_spec i 0); [eauto|]. apply IH. lia.
Qed.
Lemma at_ext {A} (l m : list A) : (forall i, at_ l i = at_ m i) -> l = m.
Proof.
  revert m. induction l as [|x l IH]; intros [|y m] E; [reflexivity| | |].
  - specialize (E 0). rewrite at_nil in E. discriminate.
  - specialize (E 0). rewrite at_nil in E. discriminate.
  - assert (x = y) as -> by (specialize (E 0); rewrite !at_cons in E; cbn in E; congruence).
    f_equal. apply IH. intros i. destruct (Z.ltb_spec i 0).
    + rewrite !at_out by lia. reflexivity.
    + specialize (E (i + 1)). rewrite !at_cons in E. replace (i + 1 =? 0) with false in E by lia.
      replace (i + 1 - 1) with i in E by lia. exact E.
Qed.
Lemma at_app {A} (l m : list A) i : at_ (l ++ m) i = if i <? Zlen l then at_ l i else at_ m (i - Zlen l).
Proof.
  revert i. induction l as [|x l IH]; intros i; cbn [app].
  - change (Zlen (@nil A)) with 0. destruct (Z.ltb_spec i 0); [rewrite at_nil, at_out by lia; reflexivity|]. f_equal. lia.
  - rewrite !at_cons, IH, Zlen_cons. pose proof (Zlen_nonneg A l). destruct (Z.eqb_spec i 0) as [->|].
    + destruct (Z.ltb_spec 0 (1 + Zlen l)); [reflexivity|lia].
    + destruct (Z.ltb_spec (i - 1) (Zlen l)); destruct (Z.ltb_spec i (1 + Zlen l)); try lia; [reflexivity|]. f_equal. lia.
Qed.
Lemma at_map {A B} (f : A -> B) l i : at_ (map f l) i = option_map f (at_ l i).
Proof. unfold at_. destruct (i <? 0); [reflexivity|]. apply nth_error_map. Qed.

(** The list primitives of the model by position. *)
Lemma znth_at {A} (l : list A) i : znth l i = at_ l i.
Proof.
  revert i. induction l as [|x l IH]; intros i; [symmetry; apply at_nil|]. rewrite at_cons. cbn [znth]. now rewrite IH.
Qed.
Lemma zset_at {A} (l : list A) i v : match zset l i v with
  | Some r => 0 <= i < Zlen l /\ Zlen r = Zlen l /\ forall k, at_ r k = if k =? i then Some v else at_ l k
  | None => i < 0 \/ Zlen l <= i
  end.
Proof.
  revert i. induction l as [|x l IH]; intros i; cbn [zset]; [change (Zlen (@nil A)) with 0; lia|].
  rewrite Zlen_cons. pose proof (Zlen_nonneg A l). destruct (Z.eqb_spec i 0) as [->|N].
  - rewrite Zlen_cons. split; [lia|]. split; [lia|]. intros k. rewrite !at_cons. destruct (Z.eqb_spec k 0); reflexivity.
  - specialize (IH (i - 1)). destruct (zset l (i - 1) v) as [r|]; [|lia]. destruct IH as (B & L & E).
    rewrite Zlen_cons. split; [lia|]. split; [lia|]. intros k. rewrite !at_cons, E.
    destruct (Z.eqb_spec k 0); destruct (Z.eqb_spec k i); destruct (Z.eqb_spec (k - 1) (i - 1)); try lia; reflexivity.
Qed.
Lemma ztake_at {A} n (l : list A) k : at_ (ztake n l) k = if k <? n then at_ l k else None.
Proof.
  revert n k. induction l as [|x l IH]; intros n k; cbn [ztake].
  - rewrite at_nil. now destruct (k <? n).
  - destruct (Z.leb_spec n 0).
    + rewrite at_nil. destruct (Z.ltb_spec k n); [symmetry; apply at_out; lia|reflexivity].
    + rewrite !at_cons, IH. destruct (Z.eqb_spec k 0) as [->|]; [destruct (Z.ltb_spec 0 n); [reflexivity|lia]|].
      destruct (Z.ltb_spec (k - 1) (n - 1)); destruct (Z.ltb_spec k n); try lia; reflexivity.
Qed.
Lemma zskip_at {A} n (l : list A) k : 0 <= k -> at_ (zskip n l) k = at_ l (k + Z.max n 0).
Proof.
  revert n. induction l as [|x l IH]; intros n K; cbn [zskip]; [now rewrite !at_nil|].
  destruct (Z.leb_spec n 0).
  - f_equal. lia.
  - rewrite IH by exact K. rewrite (at_cons x l (k + Z.max n 0)). destruct (Z.eqb_spec (k + Z.max n 0) 0); [lia|]. f_equal. lia.
Qed.
Lemma ztake_len {A} n (l : list A) : Zlen (ztake n l) = Z.max 0 (Z.min n (Zlen l)).
Proof.
  revert n. induction l as [|x l IH]; intros n; cbn [ztake]; [change (Zlen (@nil A)) with 0; lia|].
  rewrite Zlen_cons. pose proof (Zlen_nonneg A l). destruct (Z.leb_spec n 0); [change (Zlen (@nil A)) with 0; lia|]. rewrite Zlen_cons, IH. lia.
Qed.
Lemma zskip_len {A} n (l : list A) : Zlen (zskip n l) = Z.max 0 (Zlen l - Z.max n 0).
Proof.
  revert n. induction l as [|x l IH]; intros n; cbn [zskip]; [change (Zlen (@nil A)) with 0; lia|].
  rewrite !Zlen_cons. pose proof (Zlen_nonneg A l). destruct (Z.leb_spec n 0); [rewrite Zlen_cons; lia|]. rewrite IH. lia.
Qed.
Lemma as_usize_pos z : 0 <= z < 2 ^ 31 -> as_usize z = z.
Proof. intros Hz. unfold as_usize, wrapu. apply Z.mod_small. lia. Qed.
Lemma as_usize_neg z : - 2 ^ 31 <= z < 0 -> 2 ^ 31 <= as_usize z.
Proof. intros Hz. unfold as_usize, wrapu. replace z with ((z + 2 ^ 64) + (-1) * 2 ^ 64) by lia. rewrite Z.mod_add by lia. rewrite Z.mod_small by lia. lia. Qed.

Section Coll.
Context {G : group}.
Variables H sha : bytes -> bytes.
Variable fits : Z -> bool.
Variable avlv : avl_verifier.
Variable c : context G (chain_state G).
Notation value := (value G).
Notation env := (env G).
Notation expr := (expr G).
Notation eval := (eval H sha fits avlv c).

(** A value is the collection of the given type with the given items: bytes are held
    as bytes, other items as they are. *)
Definition coll (t : stype) (l : list value) (v : value) : Prop :=
  match v with
  | VBytes b => t = SByte /\ l = map VByte b
  | VColl u m => u <> SByte /\ t = u /\ l = m
  | _ => False
  end.
(** The items of a collection of bytes are bytes; of other collections anything. *)
Definition items_ok (t : stype) (l : list value) : Prop := t = SByte -> Forall (fun v => exists z, v = VByte z) l.
(** The sizes a collection can have and still be indexed. *)
Definition small {A} (l : list A) : Prop := Zlen l < 2 ^ 31.

Lemma coll_get t l v : coll t l v -> get_coll v = Ok (t, l).
Proof.
  destruct v; cbn; try tauto.
  - intros [-> ->]. reflexivity.
  - intros (_ & -> & ->). reflexivity.
Qed.
Lemma coll_ok t l v : coll t l v -> items_ok t l.
Proof.
  destruct v; cbn; try tauto.
  - intros [-> ->] _. apply Forall_map, Forall_forall. eauto.
  - intros (N & -> & ->) E. congruence.
Qed.
Lemma from_vec_coll t l : items_ok t l -> exists r, from_vec t l = Ok r /\ coll t l r.
Proof.
  intros O. destruct (stype_eqb t SByte) eqn:T.
  - apply stype_eqb_eq in T. subst t. specialize (O eq_refl). cbn [from_vec].
    assert (K : exists bs, get_all get_byte l = Ok bs /\ l = map VByte bs).
    { induction O as [|x l [z ->] O (bs & E & ->)]; [exists []; auto|]. exists (z :: bs). cbn. rewrite E. auto. }
    destruct K as (bs & -> & ->). cbn. eexists. split; [reflexivity|]. cbn. auto.
  - assert (t <> SByte) by (intros ->; rewrite (proj2 (stype_eqb_eq SByte SByte) eq_refl) in T; discriminate).
    exists (VColl t l). split; [destruct t; try reflexivity; congruence|]. cbn. auto.
Qed.
Lemma items_ok_sub t l m : items_ok t l -> (forall k x, at_ m k = Some x -> exists j, at_ l j = Some x) -> items_ok t m.
Proof.
  intros O S T. specialize (O T). rewrite Forall_forall in *. intros x X. apply In_nth_error in X as (k & K).
  destruct (S (Z.of_nat k) x) as (j & J).
  - unfold at_. replace (Z.of_nat k <? 0) with false by lia. now rewrite Nat2Z.id.
  - unfold at_ in J. destruct (j <? 0); [discriminate|]. apply nth_error_In in J. auto.
Qed.

(** ** C53 *)

Section Ops.
Variables (n : nat) (e e1 e2 e3 : env) (a : expr) (av : value) (t : stype) (l : list value).
Hypothesis Ea : eval n a e = Ok (av, e1).
Hypothesis Ca : coll t l av.

(** The item at the index, or the default, or an error. *)
Theorem c53_by_index : forall p i iv, eval n i e1 = Ok (VInt iv, e2) -> - 2 ^ 31 <= iv < 2 ^ 31 -> small l ->
  match at_ l iv with
  | Some x => eval (S n) (EOp OByIndex p [a; i] None) e = Ok (x, e2)
  | None => is_ok (eval (S n) (EOp OByIndex p [a; i] None) e) = false
  end /\
  forall d dv, eval n d e2 = Ok (dv, e3) ->
  eval (S n) (EOp OByIndex p [a; i] (Some d)) e = Ok (match at_ l iv with Some x => x | None => dv end, e3).
Proof.
  intros p i iv Ei R S. unfold small in S.
  assert (K : znth l (as_usize iv) = at_ l iv).
  { rewrite znth_at. destruct (Z.ltb_spec iv 0).
    - pose proof (as_usize_neg iv ltac:(lia)). rewrite !at_out by lia. reflexivity.
    - now rewrite as_usize_pos by lia. }
  split.
  - destruct (at_ l iv) as [x|]; cbn [EvalModel.eval eval_step eval_op]; destruct p; unfold eval_by_index;
      rewrite Ea; cbn [bind]; rewrite Ei; cbn [bind]; rewrite (coll_get _ _ _ Ca); cbn [bind get_int]; unfold by_index; rewrite K; reflexivity.
  - intros d dv Ed. cbn [EvalModel.eval eval_step eval_op]; destruct p; unfold eval_by_index;
      rewrite Ea; cbn [bind]; rewrite Ei; cbn [bind]; rewrite (coll_get _ _ _ Ca); cbn [bind]; rewrite Ed; cbn [bind get_int]; unfold by_index; rewrite K;
      destruct (at_ l iv); reflexivity.
Qed.
(** The number of items. *)
Theorem c53_size : forall p d, small l -> eval (S n) (EOp OSizeOf p [a] d) e = Ok (VInt (Zlen l), e1).
Proof.
  intros p d S. unfold small in S. pose proof (Zlen_nonneg _ l).
  assert (W : wraps 32 (Zlen l) = Zlen l) by (unfold wraps; rewrite Z.mod_small by lia; destruct (Z.ltb_spec (Zlen l) (2 ^ (32 - 1))); lia).
  cbn [EvalModel.eval eval_step eval_op]; destruct p; rewrite Ea; cbn [bind op1]; rewrite (coll_get _ _ _ Ca); cbn [bind]; rewrite W; reflexivity.
Qed.
(** The items at the positions from the first index up to but without the second, as
    far as there are any. *)
Theorem c53_slice : forall p d f u fv uv, eval n f e1 = Ok (VInt fv, e2) -> eval n u e2 = Ok (VInt uv, e3) ->
  - 2 ^ 31 <= fv < 2 ^ 31 -> - 2 ^ 31 <= uv < 2 ^ 31 -> small l ->
  exists r m, eval (S n) (EOp OSlice p [a; f; u] d) e = Ok (r, e3) /\ coll t m r /\
  forall k, at_ m k = if (0 <=? k) && (k + Z.max fv 0 <? uv) then at_ l (k + Z.max fv 0) else None.
Proof.
  intros p d f u fv uv Ef Eu Rf Ru S. unfold small in S. pose proof (Zlen_nonneg _ l) as L0.
  set (m := let n := Zlen l in let lo := as_usize (Z.max fv 0) in let hi := as_usize (Z.min uv (wraps 32 n)) in
            if (lo <=? hi) && (hi <=? n) then ztake (hi - lo) (zskip lo l) else []).
  assert (W : wraps 32 (Zlen l) = Zlen l) by (unfold wraps; rewrite Z.mod_small by lia; destruct (Z.ltb_spec (Zlen l) (2 ^ (32 - 1))); lia).
  assert (M : forall k, at_ m k = if (0 <=? k) && (k + Z.max fv 0 <? uv) then at_ l (k + Z.max fv 0) else None).
  { intros k. unfold m. cbv zeta. rewrite W, (as_usize_pos (Z.max fv 0)) by lia.
    destruct (Z.leb_spec 0 k) as [K|K]; cbn [andb]; [|apply at_out; lia].
    destruct (Z.ltb_spec uv 0) as [U|U].
    - pose proof (as_usize_neg (Z.min uv (Zlen l)) ltac:(lia)). replace (as_usize (Z.min uv (Zlen l)) <=? Zlen l) with false by lia.
      rewrite andb_false_r, at_nil. destruct (Z.ltb_spec (k + Z.max fv 0) uv); [lia|reflexivity].
    - rewrite as_usize_pos by lia. destruct (Z.leb_spec (Z.max fv 0) (Z.min uv (Zlen l))) as [C|C]; cbn [andb].
      + replace (Z.min uv (Zlen l) <=? Zlen l) with true by lia. rewrite ztake_at, zskip_at by exact K.
        replace (Z.max (Z.max fv 0) 0) with (Z.max fv 0) by lia.
        destruct (Z.ltb_spec k (Z.min uv (Zlen l) - Z.max fv 0)); destruct (Z.ltb_spec (k + Z.max fv 0) uv); try lia; try reflexivity.
        symmetry. apply at_out. lia.
      + rewrite at_nil. destruct (Z.ltb_spec (k + Z.max fv 0) uv); [|reflexivity]. symmetry. apply at_out. lia. }
  assert (O : items_ok t m).
  { apply (items_ok_sub t l); [exact (coll_ok _ _ _ Ca)|]. intros k x. rewrite M. destruct (_ && _); [eauto|discriminate]. }
  destruct (from_vec_coll t m O) as (r & R & Cr). exists r, m. split; [|auto].
  assert (Sl : slice av fv uv = Ok r).
  { unfold slice. rewrite (coll_get _ _ _ Ca). cbn [bind]. rewrite <- R. unfold m. destruct (_ && _); reflexivity. }
  cbn [EvalModel.eval eval_step eval_op]; destruct p; rewrite Ea; cbn [bind]; rewrite Ef; cbn [bind]; rewrite Eu; cbn [bind op3];
    rewrite (coll_get _ _ _ Ca); cbn [bind get_int]; rewrite Sl; reflexivity.
Qed.
(** The items of the one followed by those of the other; an error if their types
    differ. *)
Theorem c53_append : forall p d b bv u m, eval n b e1 = Ok (bv, e2) -> coll u m bv ->
  (u = t -> exists r, eval (S n) (EOp OAppend p [a; b] d) e = Ok (r, e2) /\ coll t (l ++ m) r) /\
  (u <> t -> is_ok (eval (S n) (EOp OAppend p [a; b] d) e) = false).
Proof.
  intros p d b bv u m Eb Cb.
  assert (St : eval (S n) (EOp OAppend p [a; b] d) e = (r <- (if stype_eqb t u then from_vec t (l ++ m) else Err "Append: element types") ;; Ok (r, e2))).
  { cbn [EvalModel.eval eval_step eval_op]; destruct p; cbn [is_lambda_op]; rewrite Ea; cbn [bind]; rewrite Eb; cbn [bind op2]; unfold append;
      rewrite (coll_get _ _ _ Ca); cbn [bind]; rewrite (coll_get _ _ _ Cb); reflexivity. }
  split.
  - intros ->. rewrite St, (proj2 (stype_eqb_eq t t) eq_refl).
    destruct (from_vec_coll t (l ++ m)) as (r & R & Cr).
    { intros T. apply Forall_app. split; [apply (coll_ok _ _ _ Ca T)|apply (coll_ok _ _ _ Cb T)]. }
    exists r. rewrite R. auto.
  - intros N. rewrite St. destruct (stype_eqb t u) eqn:T; [|reflexivity]. apply stype_eqb_eq in T. congruence.
Qed.

(** Methods are called with arguments that have been evaluated. *)
Variables (args : list expr) (vs : list value).
Hypothesis Eargs : eval_list (eval n) args e1 = Ok (vs, e2).
Notation call m := (eval (S n) (EMethod m a args) e).
Lemma method_step m : sm_code m = 12 -> sm_id m <> 15 ->
  call m = (v <- method_value H avlv c m av vs ;; Ok (v, e2)).
Proof.
  intros C M. cbn [EvalModel.eval eval_step]. rewrite Ea. cbn [bind]. rewrite Eargs. cbn [bind].
  unfold eval_method. rewrite C. replace (sm_id m =? 15) with false by lia. reflexivity.
Qed.
(** Pairs of the items at the same position, as many as the shorter has. *)
Theorem c53_zip : forall m bv u k, sm_code m = 12 -> sm_id m = 29 -> vs = [bv] -> coll u k bv ->
  exists r z, call m = Ok (r, e2) /\ coll (STuple [t; u]) z r /\
  forall i, at_ z i = match at_ l i, at_ k i with Some x, Some y => Some (VTup [x; y]) | _, _ => None end.
Proof.
  intros m bv u k C I V Cb. set (z := map (fun p => VTup [fst p; snd p]) (combine l k)).
  exists (VColl (STuple [t; u]) z), z. split; [|split].
  - rewrite method_step by lia. unfold method_value. rewrite C, I. cbn [Z.eqb Pos.eqb]. unfold zip_coll.
    rewrite (coll_get _ _ _ Ca), V. cbn [bind arg nth_error of_option]. rewrite (coll_get _ _ _ Cb). reflexivity.
  - cbn. split; [discriminate|auto].
  - intros i. unfold z. rewrite at_map. clear. revert k i. induction l as [|x l' IH]; intros k i; [cbn [combine]; rewrite !at_nil; reflexivity|].
    destruct k as [|y k]; cbn [combine]; [rewrite !at_nil; destruct (at_ _ i); reflexivity|].
    rewrite !at_cons. destruct (i =? 0); [reflexivity|apply IH].
Qed.
(** All the positions, in order. *)
Theorem c53_indices : forall m, sm_code m = 12 -> sm_id m = 14 -> small l ->
  exists r z, call m = Ok (r, e2) /\ coll SInt z r /\ Zlen z = Zlen l /\
  forall i, 0 <= i < Zlen l -> at_ z i = Some (VInt i).
Proof.
  intros m C I S. unfold small in S.
  assert (K : forall (q : list value) j, 0 <= j -> j + Zlen q < 2 ^ 31 -> exists z, indices_from j q = Ok z /\ Zlen z = Zlen q /\
            forall i, 0 <= i < Zlen q -> at_ z i = Some (VInt (j + i))).
  { induction q as [|x q IH]; intros j J L; cbn [indices_from].
    - exists []. split; [reflexivity|]. split; [reflexivity|]. change (Zlen (@nil value)) with 0. lia.
    - rewrite Zlen_cons in *. pose proof (Zlen_nonneg _ q). replace (j <? 2 ^ 31) with true by lia.
      destruct (IH (j + 1)) as (z & -> & L' & E); [lia|lia|]. exists (VInt j :: z). split; [reflexivity|].
      rewrite Zlen_cons. split; [lia|]. intros i Hi. rewrite at_cons. destruct (Z.eqb_spec i 0) as [->|]; [do 2 f_equal; lia|].
      rewrite E by lia. do 2 f_equal. lia. }
  destruct (K l 0) as (z & E & L & P); [lia|lia|]. exists (VColl SInt z), z. split; [|split; [|split]].
  - rewrite method_step by lia. unfold method_value. rewrite C, I. cbn [Z.eqb Pos.eqb]. unfold indices.
    rewrite (coll_get _ _ _ Ca). cbn [bind]. rewrite E. reflexivity.
  - cbn. split; [discriminate|auto].
  - exact L.
  - exact P.
Qed.
(** The item at the index replaced; an error if there is none. *)
Theorem c53_updated : forall m i v, sm_code m = 12 -> sm_id m = 20 -> vs = [VInt i; v] -> - 2 ^ 31 <= i < 2 ^ 31 -> small l ->
  items_ok t [v] ->
  (0 <= i < Zlen l -> exists r z, call m = Ok (r, e2) /\ coll t z r /\ forall k, at_ z k = if k =? i then Some v else at_ l k) /\
  (i < 0 \/ Zlen l <= i -> is_ok (call m) = false).
Proof.
  intros m i v C I V R S O. unfold small in S. pose proof (Zlen_nonneg _ l).
  assert (St : call m = (r <- match zset l (as_usize i) v with Some r => from_vec t r | None => Err "updated: out of bounds" end ;; Ok (r, e2))).
  { rewrite method_step by lia. unfold method_value. rewrite C, I. cbn [Z.eqb Pos.eqb]. unfold updated.
    rewrite (coll_get _ _ _ Ca), V. reflexivity. }
  rewrite St. pose proof (zset_at l (as_usize i) v) as K. split; intros B.
  - rewrite as_usize_pos in * by lia. destruct (zset l i v) as [z|]; [|lia]. destruct K as (_ & L & E).
    destruct (from_vec_coll t z) as (r & Q & Cr).
    { intros T. specialize (O T). apply (items_ok_sub t (v :: l)); [|intros k x X|exact T].
      - intros _. constructor; [now inversion O|apply (coll_ok _ _ _ Ca T)].
      - rewrite E in X. destruct (k =? i).
        + injection X as <-. exists 0. reflexivity.
        + exists (k + 1). rewrite at_cons. destruct (Z.eqb_spec (k + 1) 0); [rewrite at_out in X by lia; discriminate|]. replace (k + 1 - 1) with k by lia. exact X. }
    exists r, z. rewrite Q. auto.
  - destruct (zset l (as_usize i) v) as [z|]; [|reflexivity]. exfalso. destruct K as (K & _).
    destruct (Z.ltb_spec i 0); [pose proof (as_usize_neg i ltac:(lia)); lia|]. rewrite as_usize_pos in K by lia. lia.
Qed.
(** For indices that are not negative: the items before the index, the patch, and the
    items after the replaced ones. *)
Theorem c53_patch_partial : forall m f q pv r, sm_code m = 12 -> sm_id m = 19 -> vs = [VInt f; pv; VInt r] -> coll t q pv ->
  0 <= f < 2 ^ 31 -> 0 <= r < 2 ^ 31 -> small l ->
  exists rv z, call m = Ok (rv, e2) /\ coll t z rv /\
  z = firstn (Z.to_nat f) l ++ q ++ skipn (Z.to_nat (f + r)) l.
Proof.
  intros m f q pv r C I V Cp Rf Rr S. unfold small in S.
  assert (T : ztake f l = firstn (Z.to_nat f) l).
  { clear - Rf. revert f Rf. induction l as [|x l' IH]; intros f Rf; cbn [ztake]; [now rewrite firstn_nil|].
    destruct (Z.leb_spec f 0); [replace (Z.to_nat f) with O by lia; reflexivity|].
    replace (Z.to_nat f) with (S (Z.to_nat (f - 1))) by lia. cbn [firstn]. f_equal. apply IH. lia. }
  assert (K : forall j, 0 <= j -> zskip j l = skipn (Z.to_nat j) l).
  { clear. induction l as [|x l' IH]; intros j J; cbn [zskip]; [now rewrite skipn_nil|].
    destruct (Z.leb_spec j 0); [replace (Z.to_nat j) with O by lia; reflexivity|].
    replace (Z.to_nat j) with (S (Z.to_nat (j - 1))) by lia. cbn [skipn]. apply IH. lia. }
  set (z := firstn (Z.to_nat f) l ++ q ++ skipn (Z.to_nat (f + r)) l).
  destruct (from_vec_coll t z) as (rv & Q & Cr).
  { intros E. pose proof (coll_ok _ _ _ Ca E) as Ol. pose proof (coll_ok _ _ _ Cp E) as Oq. rewrite Forall_forall in *.
    intros x X. unfold z in X. rewrite !in_app_iff in X. destruct X as [X|[X|X]]; [|auto|].
    - apply Ol. rewrite <- (firstn_skipn (Z.to_nat f) l). apply in_or_app. auto.
    - apply Ol. rewrite <- (firstn_skipn (Z.to_nat (f + r)) l). apply in_or_app. auto. }
  exists rv, z. split; [|auto]. rewrite method_step by lia. unfold method_value. rewrite C, I. cbn [Z.eqb Pos.eqb]. unfold patch.
  rewrite (coll_get _ _ _ Ca), V. cbn [bind arg nth_error of_option get_int]. rewrite (coll_get _ _ _ Cp). cbn [bind].
  cbv zeta. rewrite (as_usize_pos f), (as_usize_pos r) by lia. unfold wrapu. rewrite (Z.mod_small (f + r)) by lia. rewrite T, K by lia. fold z. rewrite Q. reflexivity.
Qed.
(** Every update made, the last one for an index counting; an error if an index is not
    that of an item, if there are not as many updates as indices, or if they are not
    of the type of the items. *)
Fixpoint last_update (us : list (Z * value)) (k : Z) : option value :=
  match us with
  | [] => None
  | (i, v) :: us' => match last_update us' k with Some w => Some w | None => if i =? k then Some v else None end
  end.
Lemma update_all_at us : forall q, Forall (fun p => 0 <= fst p) us ->
  match update_all q (Zlen q) us with
  | Ok r => Forall (fun p => fst p < Zlen q) us /\ Zlen r = Zlen q /\
            forall k, at_ r k = match last_update us k with Some v => Some v | None => at_ q k end
  | _ => ~ Forall (fun p => fst p < Zlen q) us
  end.
Proof.
  induction us as [|[i v] us IH]; intros q P; cbn [update_all last_update]; [split; [constructor|auto]|].
  inversion P as [|? ? Pi Pu]; subst. cbn [fst] in Pi. destruct (Z.leb_spec (Zlen q) i) as [B|B].
  { intros F. inversion F; subst. cbn [fst] in *. lia. }
  pose proof (zset_at q i v) as K. destruct (zset q i v) as [q'|]; [|lia]. destruct K as (_ & L & E).
  specialize (IH q' Pu). rewrite L in IH. destruct (update_all q' (Zlen q) us) as [r|s|].
  - destruct IH as (F & Lr & Er). split; [constructor; auto|]. split; [exact Lr|]. intros k. rewrite Er, E.
    destruct (last_update us k); [reflexivity|]. destruct (Z.eqb_spec k i) as [->|]; [now rewrite Z.eqb_refl|].
    destruct (Z.eqb_spec i k); [congruence|reflexivity].
  - intros F. apply IH. now inversion F.
  - intros F. apply IH. now inversion F.
Qed.
Lemma last_update_in us : forall k w, last_update us k = Some w -> In w (map snd us).
Proof.
  induction us as [|[i v] us IH]; intros k w; cbn [last_update map snd]; [discriminate|].
  destruct (last_update us k) eqn:E; [intros [= ->]; right; eauto|]. destruct (i =? k); [intros [= ->]; now left|discriminate].
Qed.
Theorem c53_update_many : forall m it is uv u us, sm_code m = 12 -> sm_id m = 21 -> vs = [VColl it (map VInt is); uv] -> coll u us uv ->
  Forall (fun i => - 2 ^ 31 <= i < 2 ^ 31) is -> small l ->
  (Zlen is = Zlen us /\ u = t /\ Forall (fun i => 0 <= i < Zlen l) is ->
   exists r z, call m = Ok (r, e2) /\ coll t z r /\ Zlen z = Zlen l /\
   forall k, at_ z k = match last_update (combine is us) k with Some v => Some v | None => at_ l k end) /\
  (Zlen is <> Zlen us \/ u <> t \/ ~ Forall (fun i => 0 <= i < Zlen l) is -> is_ok (call m) = false).
Proof.
  intros m it is uv u us C I V Cu R S. unfold small in S.
  assert (Gi : get_all (G := G) get_int (map VInt is) = Ok is).
  { clear. induction is as [|i is IH]; [reflexivity|]. cbn. now rewrite IH. }
  assert (St : call m = (r <- (if negb (Zlen (map as_usize is) =? Zlen us) then Err "lengths differ"
     else if negb (stype_eqb t u) then Err "types differ"
     else r <- update_all l (Zlen l) (combine (map as_usize is) us) ;; from_vec t r) ;; Ok (r, e2))).
  { rewrite method_step by lia. unfold method_value. rewrite C, I. cbn [Z.eqb Pos.eqb]. unfold update_many.
    rewrite (coll_get _ _ _ Ca), V. cbn [bind arg nth_error of_option]. rewrite (coll_get _ _ _ Cu). cbn [bind get_vec].
    rewrite Gi. reflexivity. }
  assert (Lm : Zlen (map as_usize is) = Zlen is) by (unfold Zlen; now rewrite map_length). rewrite Lm in St.
  assert (Pos : Forall (fun p : Z * value => 0 <= fst p) (combine (map as_usize is) us)).
  { apply Forall_forall. intros [i v] X. apply in_combine_l in X. apply in_map_iff in X as (j & <- & _). unfold as_usize, wrapu.
    apply Z.mod_pos_bound. lia. }
  rewrite St. pose proof (update_all_at (combine (map as_usize is) us) l Pos) as K. split.
  - intros (Ln & -> & F). rewrite Ln, Z.eqb_refl, (proj2 (stype_eqb_eq t t) eq_refl). cbn [negb].
    assert (Q : map as_usize is = is).
    { clear - F S. induction F as [|i is Hi F IH]; [reflexivity|]. cbn [map]. rewrite as_usize_pos by lia. now rewrite IH. }
    rewrite Q in *. destruct (update_all l (Zlen l) (combine is us)) as [z|s|].
    + destruct K as (_ & Lz & Ez). destruct (from_vec_coll t z) as (r & Er & Cr).
      { intros T. apply (items_ok_sub t (us ++ l)); [|intros k x X|exact T].
        - intros _. apply Forall_app. split; [apply (coll_ok _ _ _ Cu T)|apply (coll_ok _ _ _ Ca T)].
        - rewrite Ez in X. assert (In x (us ++ l)) as Y.
          { apply in_or_app. destruct (last_update (combine is us) k) as [w|] eqn:W.
            - injection X as ->. left. apply last_update_in in W. apply in_map_iff in W as ([i w] & <- & W). now apply in_combine_r in W.
            - right. unfold at_ in X. destruct (k <? 0); [discriminate|]. now apply nth_error_In in X. }
          apply In_nth_error in Y as (j & J). exists (Z.of_nat j). unfold at_. replace (Z.of_nat j <? 0) with false by lia. now rewrite Nat2Z.id. }
      exists r, z. cbn [bind]. rewrite Er. auto.
    + exfalso. apply K. apply Forall_forall. intros [i v] X. apply in_combine_l in X. rewrite Forall_forall in F. apply F in X. cbn. lia.
    + exfalso. apply K. apply Forall_forall. intros [i v] X. apply in_combine_l in X. rewrite Forall_forall in F. apply F in X. cbn. lia.
  - intros B. destruct (Z.eqb_spec (Zlen is) (Zlen us)) as [Ln|Ln]; cbn [negb]; [|reflexivity].
    destruct (stype_eqb t u) eqn:T; cbn [negb]; [|reflexivity]. apply stype_eqb_eq in T.
    destruct B as [B|[B|B]]; [congruence|congruence|].
    destruct (update_all l (Zlen l) (combine (map as_usize is) us)) as [z|s|]; [|reflexivity|reflexivity].
    exfalso. apply B. destruct K as (F & _).
    assert (Ln' : List.length is = List.length us) by (unfold Zlen in Ln; lia). clear - F R S Ln'. revert us F Ln'.
    induction is as [|i is IH]; intros us F Ln'; [constructor|]. destruct us as [|v us]; [discriminate|]. cbn [map combine] in F.
    inversion F as [|? ? Fi Fr]; inversion R as [|? ? Ri Rr]; subst. cbn [fst] in Fi. constructor.
    + destruct (Z.ltb_spec i 0); [pose proof (as_usize_neg i ltac:(lia)); lia|]. rewrite as_usize_pos in Fi by lia. lia.
    + apply (IH Rr us); [exact Fr|]. injection Ln'. auto.
Qed.
(** indexOf finds the first position of the element in the whole collection; the second
    argument is only the result for an element that is not there. *)
Theorem c53_index_of_partial : group_ok G -> forall m x d, sm_code m = 12 -> sm_id m = 26 -> vs = [x; VInt d] -> - 2 ^ 31 <= d < 2 ^ 31 -> small l ->
  exists r, call m = Ok (VInt r, e2) /\
  ((at_ l r = Some x /\ forall j, j < r -> at_ l j <> Some x) \/ (r = d /\ forall j, at_ l j <> Some x)).
Proof.
  intros HG m x d C I V R S. unfold small in S. pose proof (Zlen_nonneg _ l).
  pose proof (value_eqb_spec HG) as value_eqb_ok. unfold deq in value_eqb_ok.
  assert (P : forall q : list value, match position (fun it => value_eqb it x) q with
     | Some i => 0 <= i < Zlen q /\ at_ q i = Some x /\ forall j, j < i -> at_ q j <> Some x
     | None => forall j, at_ q j <> Some x end).
  { induction q as [|y q IH]; cbn [position]; [intros j; rewrite at_nil; discriminate|]. rewrite Zlen_cons. pose proof (Zlen_nonneg _ q).
    destruct (value_eqb y x) eqn:Q.
    - apply value_eqb_ok in Q. subst y. split; [lia|]. split; [reflexivity|]. intros j J. rewrite at_out by lia. discriminate.
    - assert (N : y <> x) by (intros ->; rewrite (proj2 (value_eqb_ok x x) eq_refl) in Q; discriminate).
      destruct (position (fun it => value_eqb it x) q) as [i|].
      + destruct IH as (B & A & F). split; [lia|]. rewrite at_cons. replace (i + 1 =? 0) with false by lia. replace (i + 1 - 1) with i by lia.
        split; [exact A|]. intros j J. rewrite at_cons. destruct (j =? 0); [congruence|]. apply F. lia.
      + intros j. rewrite at_cons. destruct (j =? 0); [congruence|]. apply IH. }
  assert (St : call m = Ok (VInt (wraps 32 (match position (fun it => value_eqb it x) l with Some i => i | None => as_usize d end)), e2)).
  { rewrite method_step by lia. unfold method_value. rewrite C, I. cbn [Z.eqb Pos.eqb]. unfold index_of.
    rewrite (coll_get _ _ _ Ca), V. reflexivity. }
  rewrite St. eexists. split; [reflexivity|]. specialize (P l). destruct (position (fun it => value_eqb it x) l) as [i|].
  - left. destruct P as (B & A & F). assert (wraps 32 i = i) as -> by (unfold wraps; rewrite Z.mod_small by lia; destruct (Z.ltb_spec i (2 ^ (32 - 1))); lia). auto.
  - right. split; [|exact P]. unfold as_usize, wrapu, wraps.
    destruct (Z.ltb_spec d 0).
    + replace d with ((d + 2 ^ 64) + (-1) * 2 ^ 64) at 1 by lia. rewrite Z.mod_add by lia. rewrite (Z.mod_small (d + 2 ^ 64)) by lia.
      replace (d + 2 ^ 64 + 2 ^ (32 - 1)) with ((d + 2 ^ 31) + 2 ^ 32 * 2 ^ 32) by lia. rewrite Z.mod_add by lia. rewrite Z.mod_small by lia. lia.
    + rewrite (Z.mod_small d) by lia. rewrite Z.mod_small by lia. lia.
Qed.
End Ops.

(** Operations that take a function: [g] is what its body gives for each item, in the
    bindings at the call. *)
Section Lambda.
Variables (n : nat) (e e1 e2 : env) (a f : expr) (av : value) (t : stype) (l : list value) (i : Z) (ti : stype) (body : expr).
Hypothesis Ea : eval n a e = Ok (av, e1).
Hypothesis Ca : coll t l av.
Hypothesis Ef : eval n f e1 = Ok (VLambda [(i, ti)] body, e2).
(** No block or function in reach binds an identifier twice. *)
Hypothesis Sc : scripts_tidy c.
Hypothesis Tb : all_sub tidy body.
Hypothesis Te : eall tidy_fun e2.
Hypothesis Ta : vall tidy_fun av.
Definition returns (x y : value) : Prop := exists e', eval n body (env_insert e2 i x) = Ok (y, e').

Lemma lambda_items : Forall (vall tidy_fun) l.
Proof.
  destruct av; cbn in Ca; try tauto.
  - destruct Ca as [-> ->]. apply Forall_map, Forall_forall. intros z _. exact I.
  - destruct Ca as (_ & -> & ->). now apply vall_coll in Ta.
Qed.
Lemma call_returns x y e' : returns x y -> vall tidy_fun x -> eall tidy_fun e' -> same e2 e' ->
  exists e3, call1 (eval n) (VLambda [(i, ti)] body) x e' = Ok (y, e3) /\ same e2 e3 /\ eall tidy_fun e3 /\ vall tidy_fun y.
Proof.
  intros (e4 & R) Vx E S.
  assert (Vf : vall tidy_fun (VLambda [(i, ti)] body)).
  { split; [|exact Tb]. constructor; [intros []|constructor]. }
  pose proof (call1_good (eval n) (fun x e => eval_good H sha fits avlv c Sc n x e) (VLambda [(i, ti)] body) x e' Vf Vx E) as K.
  pose proof (eval_same H sha fits avlv c n body (env_insert e2 i x) (env_insert e' i x) (same_insert _ _ _ _ S)) as Q.
  rewrite R in Q. unfold call1 in *. cbn [rsim] in Q. destruct (eval n body (env_insert e' i x)) as [[w f']|s|]; try contradiction.
  destruct Q as [<- _]. cbn [bind] in K |- *. destruct K as (K1 & K2 & K3). cbn [fst snd] in *. eexists. split; [reflexivity|].
  split; [eapply same_trans; eauto|]. auto.
Qed.

Lemma op_step k p d : is_lambda_op k = true -> eval (S n) (EOp k p [a; f] d) e = eval_lambda_op (eval n) k a f e.
Proof. intros K. cbn [EvalModel.eval eval_step]. destruct k; try discriminate; destruct p; reflexivity. Qed.

(** The results for every item, in order. *)
Theorem c53_map : forall p d g ts u, tpe f = SFunc (t :: ts) u -> (forall x, In x l -> returns x (g x)) -> items_ok u (map g l) ->
  exists r e3, eval (S n) (EOp OMap p [a; f] d) e = Ok (r, e3) /\ coll u (map g l) r /\ forall j, env_get e3 j = env_get e2 j.
Proof.
  intros p d g ts u F Rt O. rewrite op_step by reflexivity. unfold eval_lambda_op. rewrite Ea. cbn [bind]. rewrite Ef. cbn [bind]. rewrite F.
  unfold typed_items. rewrite (coll_get _ _ _ Ca). cbn [bind]. rewrite (proj2 (stype_eqb_eq t t) eq_refl). cbn [bind].
  assert (K : forall q e', Forall (vall tidy_fun) q -> incl q l -> eall tidy_fun e' -> same e2 e' ->
     exists e3, map_loop (eval n) (VLambda [(i, ti)] body) q e' = Ok (map g q, e3) /\ same e2 e3).
  { induction q as [|x q IH]; intros e' V Q E S; cbn [map_loop map]; [eauto|]. inversion V; subst.
    destruct (call_returns x (g x) e') as (e3 & -> & S3 & E3 & _); auto; [apply Rt, Q; now left|]. cbn [bind].
    destruct (IH e3) as (e4 & -> & S4); auto; [intros y Y; apply Q; now right|]. cbn [bind]. eauto. }
  destruct (K l e2) as (e3 & -> & S3); [apply lambda_items|intros y; auto|exact Te|apply same_refl|]. cbn [bind].
  destruct (from_vec_coll u _ O) as (r & -> & Cr). cbn [bind]. exists r, e3. split; [reflexivity|]. split; [exact Cr|]. intros j. symmetry. apply S3.
Qed.
Section Tests.
Variable test : value -> bool.
Hypothesis Rt : forall x, In x l -> returns x (VBool (test x)).
Hypothesis Ty : elem_type (tpe a) = Ok t.
(** The items that pass, in order. *)
Theorem c53_filter : forall p d, 
  exists r e3, eval (S n) (EOp OFilter p [a; f] d) e = Ok (r, e3) /\ coll t (filter test l) r /\ forall j, env_get e3 j = env_get e2 j.
Proof.
  intros p d. rewrite op_step by reflexivity. unfold eval_lambda_op. rewrite Ea. cbn [bind]. rewrite Ef. cbn [bind]. rewrite Ty. cbn [bind].
  unfold typed_items. rewrite (coll_get _ _ _ Ca). cbn [bind]. rewrite (proj2 (stype_eqb_eq t t) eq_refl). cbn [bind].
  assert (K : forall q e', Forall (vall tidy_fun) q -> incl q l -> eall tidy_fun e' -> same e2 e' ->
     exists e3, filter_loop (eval n) (VLambda [(i, ti)] body) q e' = Ok (filter test q, e3) /\ same e2 e3).
  { induction q as [|x q IH]; intros e' V Q E S; cbn [filter_loop filter]; [eauto|]. inversion V; subst.
    destruct (call_returns x (VBool (test x)) e') as (e3 & -> & S3 & E3 & _); auto; [apply Rt, Q; now left|]. cbn [bind get_bool].
    destruct (IH e3) as (e4 & -> & S4); auto; [intros y Y; apply Q; now right|]. cbn [bind]. eauto. }
  destruct (K l e2) as (e3 & -> & S3); [apply lambda_items|intros y; auto|exact Te|apply same_refl|]. cbn [bind].
  destruct (from_vec_coll t (filter test l)) as (r & -> & Cr).
  { intros T. pose proof (coll_ok _ _ _ Ca T) as O. rewrite Forall_forall in *. intros x X. apply filter_In in X as [X _]. auto. }
  cbn [bind]. exists r, e3. split; [reflexivity|]. split; [exact Cr|]. intros j. symmetry. apply S3.
Qed.
(** Whether some item passes. *)
Theorem c53_exists : forall p d, exists b e3,
  eval (S n) (EOp OExists p [a; f] d) e = Ok (VBool b, e3) /\ (b = true <-> exists x, In x l /\ test x = true) /\ forall j, env_get e3 j = env_get e2 j.
Proof.
  intros p d. rewrite op_step by reflexivity. unfold eval_lambda_op. rewrite Ea. cbn [bind]. rewrite Ef. cbn [bind]. rewrite Ty. cbn [bind].
  unfold typed_items. rewrite (coll_get _ _ _ Ca). cbn [bind]. rewrite (proj2 (stype_eqb_eq t t) eq_refl). cbn [bind].
  assert (K : forall q e', Forall (vall tidy_fun) q -> incl q l -> eall tidy_fun e' -> same e2 e' ->
     exists e3, exists_loop (eval n) (VLambda [(i, ti)] body) q e' = Ok (existsb test q, e3) /\ same e2 e3).
  { induction q as [|x q IH]; intros e' V Q E S; cbn [exists_loop existsb]; [eauto|]. inversion V; subst.
    destruct (call_returns x (VBool (test x)) e') as (e3 & -> & S3 & E3 & _); auto; [apply Rt, Q; now left|]. cbn [bind get_bool].
    destruct (test x); cbn [orb]; [eauto|]. apply IH; auto. intros y Y; apply Q; now right. }
  destruct (K l e2) as (e3 & -> & S3); [apply lambda_items|intros y; auto|exact Te|apply same_refl|]. cbn [bind].
  exists (existsb test l), e3. split; [reflexivity|]. split; [apply existsb_exists|]. intros j. symmetry. apply S3.
Qed.
(** Whether all items pass. *)
Theorem c53_forall : forall p d, exists b e3,
  eval (S n) (EOp OForAll p [a; f] d) e = Ok (VBool b, e3) /\ (b = true <-> forall x, In x l -> test x = true) /\ forall j, env_get e3 j = env_get e2 j.
Proof.
  intros p d. rewrite op_step by reflexivity. unfold eval_lambda_op. rewrite Ea. cbn [bind]. rewrite Ef. cbn [bind]. rewrite Ty. cbn [bind].
  unfold typed_items. rewrite (coll_get _ _ _ Ca). cbn [bind]. rewrite (proj2 (stype_eqb_eq t t) eq_refl). cbn [bind].
  assert (K : forall q e', Forall (vall tidy_fun) q -> incl q l -> eall tidy_fun e' -> same e2 e' ->
     exists e3, forall_loop (eval n) (VLambda [(i, ti)] body) q e' = Ok (forallb test q, e3) /\ same e2 e3).
  { induction q as [|x q IH]; intros e' V Q E S; cbn [forall_loop forallb]; [eauto|]. inversion V; subst.
    destruct (call_returns x (VBool (test x)) e') as (e3 & -> & S3 & E3 & _); auto; [apply Rt, Q; now left|]. cbn [bind get_bool].
    destruct (test x); cbn [andb]; [|eauto]. apply IH; auto. intros y Y; apply Q; now right. }
  destruct (K l e2) as (e3 & -> & S3); [apply lambda_items|intros y; auto|exact Te|apply same_refl|]. cbn [bind].
  exists (forallb test l), e3. split; [reflexivity|]. split; [apply forallb_forall|]. intros j. symmetry. apply S3.
Qed.
End Tests.
End Lambda.

(** The items combined one after the other, from the first on. *)
Theorem c53_fold : forall n e e1 e2 e3 a z f av zv t l i ti body p d (g : value -> value -> value) (P : value -> Prop),
  eval n a e = Ok (av, e1) -> coll t l av -> eval n z e1 = Ok (zv, e2) -> eval n f e2 = Ok (VLambda [(i, ti)] body, e3) ->
  scripts_tidy c -> all_sub tidy body -> eall tidy_fun e3 -> vall tidy_fun av -> vall tidy_fun zv ->
  P zv -> (forall acc x, P acc -> In x l -> P (g acc x) /\ returns n e3 i body (VTup [acc; x]) (g acc x)) ->
  exists e4, eval (S n) (EOp OFold p [a; z; f] d) e = Ok (fold_left g l zv, e4) /\ forall j, env_get e4 j = env_get e3 j.
Proof.
  intros n e e1 e2 e3 a z f av zv t l i ti body p d g P Ea Ca Ez Ef Sc Tb Te Ta Tz Pz R.
  assert (St : eval (S n) (EOp OFold p [a; z; f] d) e = fold_loop (eval n) (VLambda [(i, ti)] body) zv l e3).
  { cbn [EvalModel.eval eval_step eval_op]. destruct p; unfold eval_fold; rewrite Ea; cbn [bind]; rewrite Ez; cbn [bind]; rewrite Ef; cbn [bind];
      rewrite (coll_get _ _ _ Ca); reflexivity. }
  rewrite St. clear St.
  assert (K : forall q acc e', P acc -> vall tidy_fun acc -> Forall (vall tidy_fun) q -> incl q l -> eall tidy_fun e' -> same e3 e' ->
     exists e4, fold_loop (eval n) (VLambda [(i, ti)] body) acc q e' = Ok (fold_left g q acc, e4) /\ same e3 e4).
  { induction q as [|x q IH]; intros acc e' Pa Va V Q E S; cbn [fold_loop fold_left]; [eauto|]. inversion V; subst.
    destruct (R acc x Pa) as [Pn Rn]; [apply Q; now left|].
    destruct (call_returns n e3 i ti body Sc Tb (VTup [acc; x]) (g acc x) e' Rn) as (e4 & -> & S3 & E3 & Vg); auto.
    { apply vall_tup. repeat constructor; auto. }
    cbn [bind]. apply IH; auto. intros y Y; apply Q; now right. }
  destruct (K l zv e3) as (e4 & -> & S4); auto.
  - destruct av; cbn in Ca; try tauto.
    + destruct Ca as [-> ->]. apply Forall_map, Forall_forall. intros y _. exact I.
    + destruct Ca as (_ & -> & ->). now apply vall_coll in Ta.
  - intros y; auto.
  - apply same_refl.
  - exists e4. split; [reflexivity|]. intros j. symmetry. apply S4.
Qed.
End Coll.

(** ** Where the operations differ from what their users expect *)
Section Refuted.
Context {G : group}.
Variables H sha : bytes -> bytes.
Variable fits : Z -> bool.
Variable avlv : avl_verifier.
Notation value := (value G).
Notation expr := (expr G).
Notation ctx := (context G (chain_state G)).
Notation eval c := (eval H sha fits avlv c).
Definition ints (l : list Z) : expr := EConst (MkConst (SColl SInt) (LColl SInt (map LInt l))).
Definition num (z : Z) : expr := EConst (MkConst SInt (LInt z)).
Definition coll_method (id : Z) : smethod := SMethod 12 id [] SAny.

(** indexOf(x, from) looks from the start of the collection, and answers [from] for an
    item that is not there. *)
Theorem c53_index_of_refuted : forall c : ctx,
  eval c 3 (EMethod (coll_method 26) (ints [5; 6; 5]) [num 5; num 1]) [] = Ok (VInt 0, []) /\
  eval c 3 (EMethod (coll_method 26) (ints [5; 6; 5]) [num 7; num 0]) [] = Ok (VInt 0, []).
Proof. intros c. split; reflexivity. Qed.
(** With a negative index patch keeps every item and adds them again after the patch. *)
Theorem c53_patch_refuted : forall c : ctx,
  eval c 3 (EMethod (coll_method 19) (ints [1; 2]) [num (-1); ints [9]; num 1]) [] =
  Ok (VColl SInt [VInt 1; VInt 2; VInt 9; VInt 1; VInt 2], []).
Proof. intros c. reflexivity. Qed.
(** flatMap with a body that gives bytes fails, though map with the same body works. *)
Definition some_box : box G := MkBox (MkCand 1 (Unparsed []) [] [] 0) [] 0.
Definition boxes : expr := EConst (MkConst (SColl SBox) (LColl SBox [LBox some_box])).
Definition ids : expr := EFunc [(1, SBox)] (EOp OExtractId PNone [EValUse 1 SBox] None).
Theorem c53_flat_map_fails_refuted : forall c : ctx,
  (exists b e', eval c 4 (EOp OMap PNone [boxes; ids] None) [] = Ok (VColl (SColl SByte) [VBytes b], e')) /\
  (forall n r, eval c n (EMethod (coll_method 15) boxes [ids]) [] <> Ok r).
Proof.
  intros c. split; [eexists; eexists; reflexivity|]. intros [|[|[|[|n]]]] r; discriminate.
Qed.
(** Where it succeeds, the result says that its items are collections. *)
Theorem c53_flat_map_type_refuted : exists t (f : expr), tpe f = SFunc [SColl SInt] t /\ forall c : ctx,
  exists e', eval c 5 (EMethod (coll_method 15) (EConst (MkConst (SColl (SColl SInt)) (LColl (SColl SInt) [LColl SInt [LInt 8]]))) [f]) [] =
  Ok (VColl t [VInt 0], e') /\ t <> SInt.
Proof.
  exists (SColl SInt), (EFunc [(1, SColl SInt)] (EMethod (SMethod 12 14 [SColl SInt] (SColl SInt)) (EValUse 1 (SColl SInt)) [])).
  split; [reflexivity|]. intros c. eexists. split; [reflexivity|discriminate].
Qed.
End Refuted.

(** ** The hypotheses are met *)
Section Met.
Context {G : group}.
Variables H sha : bytes -> bytes.
Variable fits : Z -> bool.
Variable avlv : avl_verifier.
Variable st : chain_state G.
Notation value := (value G).
Notation expr := (expr G).
Definition plain_ctx : context G (chain_state G) := MkContext 0 ([], some_box) [] None [] st [].
Notation eval := (eval H sha fits avlv plain_ctx).
Lemma plain_ctx_tidy : scripts_tidy plain_ctx.
Proof.
  split; intros id k b x R Sc P; [discriminate|]. cbn [plain_ctx c_self snd] in R. unfold some_box in R.
  assert (D : id = 0 \/ id = 1 \/ id = 2 \/ id = 3 \/ (id <> 0 /\ id <> 1 /\ id <> 2 /\ id <> 3)) by lia.
  destruct D as [->|[->|[->|[->|D]]]]; cbn in R; try (injection R as <-; cbn in Sc; try discriminate).
  - injection Sc as <-. vm_compute in P. discriminate.
  - unfold get_register in R. assert (Q : regs_get_constant (G := G) [] id = Ok (Some k)).
    { destruct id as [|[[]|[]|]|]; try lia; try exact R. }
    unfold regs_get_constant in Q. destruct (Z.to_nat (id - 4)); discriminate.
Qed.
Definition plus1 : expr := EFunc [(7, SInt)] (EBin BPlus (EValUse 7 SInt) (num 1)).
Definition succ_value (v : value) : value := match v with VInt z => VInt (z + 1) | _ => v end.
Lemma ints_coll l : coll (G := G) SInt (map VInt l) (VColl SInt (map VInt l)).
Proof. split; [discriminate|auto]. Qed.
Example c53_hyps_met : 
  (exists r e, eval 4 (EOp OMap PNone [ints [1; 2; 3]; plus1] None) [] = Ok (r, e) /\ coll SInt (map succ_value (map VInt [1; 2; 3])) r) /\
  (exists r z, eval 3 (EOp OSlice PNone [ints [1; 2; 3]; num 1; num 9] None) [] = Ok (r, []) /\ coll SInt z r /\ at_ z 0 = Some (VInt 2)) /\
  (exists r z, eval 3 (EMethod (coll_method 20) (ints [1; 2; 3]) [num 1; num 9]) [] = Ok (r, []) /\ coll SInt z r /\ at_ z 1 = Some (VInt 9)).
Proof.
  split; [|split].
  - assert (T : forall x, In x (map VInt [1; 2; 3]) -> returns H sha fits avlv plain_ctx 3 [] 7 (EBin BPlus (EValUse 7 SInt) (num 1)) x (succ_value x)).
    { intros x [<-|[<-|[<-|[]]]]; eexists; reflexivity. }
    destruct (c53_map H sha fits avlv plain_ctx 3 [] [] [] (ints [1; 2; 3]) plus1 (VColl SInt (map VInt [1; 2; 3])) SInt _ 7 SInt _
                eq_refl (ints_coll _) eq_refl plain_ctx_tidy ltac:(cbn; tauto) ltac:(constructor) ltac:(cbn; tauto)
                PNone None succ_value [] SInt eq_refl T ltac:(intros E; discriminate E)) as (r & e & Q & C & _).
    exists r, e. auto.
  - destruct (c53_slice H sha fits avlv plain_ctx 2 [] [] [] [] (ints [1; 2; 3]) (VColl SInt (map VInt [1; 2; 3])) SInt _ eq_refl (ints_coll _)
                PNone None (num 1) (num 9) 1 9 eq_refl eq_refl ltac:(lia) ltac:(lia) ltac:(reflexivity)) as (r & z & Q & C & A).
    exists r, z. split; [exact Q|]. split; [exact C|]. rewrite A. reflexivity.
  - destruct (c53_updated H sha fits avlv plain_ctx 2 [] [] [] (ints [1; 2; 3]) (VColl SInt (map VInt [1; 2; 3])) SInt _ eq_refl (ints_coll _)
                [num 1; num 9] [VInt 1; VInt 9] eq_refl (coll_method 20) 1 (VInt 9) eq_refl eq_refl eq_refl ltac:(lia) ltac:(reflexivity)
                ltac:(intros E; discriminate E)) as [U _].
    destruct U as (r & z & Q & C & A); [change (Zlen (map (@VInt G) [1; 2; 3])) with 3; lia|].
    exists r, z. split; [exact Q|]. split; [exact C|]. rewrite A. reflexivity.
Qed.
End Met.

Print Assumptions c53_by_index.
Print Assumptions c53_size.
Print Assumptions c53_slice.
Print Assumptions c53_append.
Print Assumptions c53_zip.
Print Assumptions c53_indices.
Print Assumptions c53_updated.
Print Assumptions c53_patch_partial.
Print Assumptions c53_update_many.
Print Assumptions c53_index_of_partial.
Print Assumptions c53_map.
Print Assumptions c53_filter.
Print Assumptions c53_exists.
Print Assumptions c53_forall.
Print Assumptions c53_fold.
Print Assumptions c53_index_of_refuted.
Print Assumptions c53_patch_refuted.
Print Assumptions c53_flat_map_fails_refuted.
Print Assumptions c53_flat_map_type_refuted.
