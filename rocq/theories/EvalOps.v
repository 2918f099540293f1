(* Each operation of an expression does on the stacks what EvalSpec says of
   the values (C23). *)
From Coq Require Import Lia ZifyBool ZifyNat ZifyN SpecFloat.
From Verif Require Import Base BaseLemmas Num NumSpec NumLemmas DoubleProofs QuotientProofs ArrayModel ArraySpec ArrayProofs BcodeModel SymbolModel VmModel
  VmLemmas VmSpec ControlProofs OpSpec OpProofs VmTyping ValueSpec ValueProofs StoreSpec StoreProofs StoreFrames FnSpec GrammarSpec TypeSpec CodeProofs EvalSpec.
Local Open Scope nat_scope.
Local Notation num := Num.num.

(* ---------- numbers ---------- *)

Lemma unit_pos : (0 < UNIT)%Z.
Proof. unfold UNIT. apply Z.pow_pos_nonneg; lia. Qed.
Lemma integer_of_spec x z : integer_of x = Some z <-> is_integer x z.
Proof.
  unfold integer_of, is_integer. pose proof unit_pos as U. generalize dependent UNIT. intros U0 U. destruct (units x) as [u|]; [|split; discriminate].
  destruct (Z.eqb_spec (u mod U0) 0) as [H|H].
  - split; intros Q; injection Q as Q; f_equal; [subst z; pose proof (Z.div_mod u U0); lia|subst u; apply Z.div_mul; lia].
  - split; intros Q; [discriminate|]. injection Q as Q. exfalso. apply H. subst u. apply Z.mod_mul. lia.
Qed.
Lemma integer_of_none x : integer_of x = None -> forall z, ~ is_integer x z.
Proof. intros H z Q. apply integer_of_spec in Q. congruence. Qed.
Lemma whole_some x n : whole x = Some n -> count x (N.to_nat n).
Proof.
  unfold whole. destruct (integer_of x) as [z|] eqn:I; [|discriminate]. destruct (_ && _)%bool eqn:B; [|discriminate]. intros Q. injection Q as <-.
  apply integer_of_spec in I. split; [|lia]. replace (Z.of_nat (N.to_nat (Z.to_N z))) with z by lia. exact I.
Qed.
Lemma whole_none x : whole x = None -> forall n, ~ count x n.
Proof.
  unfold whole. intros H n [I R]. apply integer_of_spec in I. rewrite I in H. destruct (_ && _)%bool eqn:B; [discriminate|]. lia.
Qed.
Lemma integer32_some x z : integer32 x = Some z -> int32 x z.
Proof.
  unfold integer32. destruct (integer_of x) as [y|] eqn:I; [|discriminate]. destruct (_ && _)%bool eqn:B; [|discriminate]. intros Q. injection Q as <-.
  apply integer_of_spec in I. split; [exact I|lia].
Qed.
Lemma integer32_none x : integer32 x = None -> forall z, ~ int32 x z.
Proof.
  unfold integer32. intros H n [I R]. apply integer_of_spec in I. rewrite I in H. destruct (_ && _)%bool eqn:B; [discriminate|]. lia.
Qed.

(* ---------- the stacks ---------- *)

Definition stacks (v : vm) : list num * list bytes := (v_stack v, v_sstack v).
Definition push_on (p : list num * list bytes) (d : datum) : list num * list bytes :=
  match d with Number x => (x :: fst p, snd p) | Text s => (fst p, s :: snd p) end.
Definition pushes (ds : list datum) (p : list num * list bytes) : list num * list bytes := fold_left push_on ds p.
Definition with_stacks (p : list num * list bytes) (v : vm) : vm := set_sstack (snd p) (set_stack (fst p) v).
Definition datum_ok (d : datum) : Prop := match d with Number x => double x | Text s => string_ok s end.
Definition push_d (d : datum) : M unit := match d with Number x => push x | Text s => push_str s end.

Lemma stacks_eq v p : stacks v = p -> v_stack v = fst p /\ v_sstack v = snd p.
Proof. intros <-. split; reflexivity. Qed.
Lemma pushes_ok ds : forall p, Forall double (fst (pushes ds p)) -> Forall string_ok (snd (pushes ds p)) ->
  Forall datum_ok ds /\ Forall double (fst p) /\ Forall string_ok (snd p).
Proof.
  induction ds as [|d ds IH]; intros p H1 H2; [auto|]. cbn in H1, H2. destruct (IH _ H1 H2) as (A & B & C). destruct d as [x|s]; cbn [push_on fst snd] in *.
  - inversion B; subst. auto.
  - inversion C; subst. auto.
Qed.

(* an operation on the values ds has the result r *)
Definition op_does (E : env) (i : instr) (ds : list datum) (r : result) : Prop :=
  forall v b, stacks v = pushes ds b -> Forall datum_ok ds ->
  match r with
  | Gives d => exec_instr E i v = adv (push_d d) (with_stacks b v)
  | Fails e => exists w, exec_instr E i v = (Fail e, w) /\ v_st w = v_st v
  | Nonsense => True
  end.

Section Ops.
Variable E : env.

Lemma unary_does i (f : num -> num) x : (forall v, exec_instr E i v = unary f v) -> op_does E i [Number x] (Gives (Number (f x))).
Proof.
  intros X v b S _. rewrite X. destruct (stacks_eq _ _ S) as [S1 S2]. cbn in S1, S2. unfold unary. rewrite (bind_pop _ v x (fst b) S1).
  unfold adv, push_d, with_stacks. rewrite <- S2. destruct v; reflexivity.
Qed.
Lemma binary_does i (f : num -> num -> num) x y : (forall v, exec_instr E i v = binary f v) -> op_does E i [Number x; Number y] (Gives (Number (f x y))).
Proof.
  intros X v b S _. rewrite X. destruct (stacks_eq _ _ S) as [S1 S2]. cbn in S1, S2. unfold binary. rewrite (bind_pop _ v y (x :: fst b) S1).
  rewrite (bind_pop _ (set_stack (x :: fst b) v) x (fst b) eq_refl).
  unfold adv, push_d, with_stacks. rewrite <- S2. destruct v; reflexivity.
Qed.
Lemma truth_logic (b : bool) : (if b then fofZ (-1) else fzero) = truth_value b.
Proof. destruct b; reflexivity. Qed.
Lemma compare_does i (f : num -> num -> bool) x y : (forall v, exec_instr E i v = compare_num f v) -> op_does E i [Number x; Number y] (truth_datum (f x y)).
Proof.
  intros X v b S _. rewrite X. destruct (stacks_eq _ _ S) as [S1 S2]. cbn in S1, S2. unfold compare_num. rewrite (bind_pop _ v y (x :: fst b) S1).
  rewrite (bind_pop _ (set_stack (x :: fst b) v) x (fst b) eq_refl). cbn [truth_datum].
  unfold adv, push_d, with_stacks, push_logic. rewrite truth_logic, <- S2. destruct v; reflexivity.
Qed.
Lemma compare_str_does i (f : comparison -> bool) s t : (forall v, exec_instr E i v = compare_str f v) -> op_does E i [Text s; Text t] (truth_datum (f (strcmp s t))).
Proof.
  intros X v b S _. rewrite X. destruct (stacks_eq _ _ S) as [S1 S2]. cbn in S1, S2. unfold compare_str, compare_strings.
  unfold bind at 1. rewrite (bind_pop_str _ v t (s :: snd b) S2). rewrite (bind_pop_str _ (set_sstack (s :: snd b) v) s (snd b) eq_refl). unfold ret at 1.
  cbn [truth_datum]. unfold adv, push_d, with_stacks, push_logic. rewrite truth_logic, <- S1. destruct v; reflexivity.
Qed.

Lemma pop_logic_ok {B} (k : Z -> M B) v x st z : v_stack v = x :: st -> double x -> integer32 x = Some z -> bind pop_logic k v = k z (set_stack st v).
Proof. intros S D I. exact (bind_logic k v x st z S D (integer32_some _ _ I)). Qed.
Lemma pop_logic_bad {B} (k : Z -> M B) v x st : v_stack v = x :: st -> double x -> integer32 x = None ->
  exists w, bind pop_logic k v = (Fail (RE_logical x), w) /\ v_st w = v_st v.
Proof. intros S D I. destruct (bind_logic_bad k v x st S D (integer32_none _ I)) as (w & W & W1 & _). eauto. Qed.
Lemma logic_does i (f : Z -> Z -> Z) x y :
  (forall v, exec_instr E i v = (let* b := pop_logic in let* a := pop_logic in adv (push (fofZ (f a b)))) v) ->
  op_does E i [Number x; Number y] (logic f x y).
Proof.
  intros X v b S D. destruct (stacks_eq _ _ S) as [S1 S2]. cbn in S1, S2. inversion D as [|? ? D1 D']; subst. inversion D' as [|? ? D2 _]; subst. cbn [datum_ok] in D1, D2.
  unfold logic. rewrite X. destruct (integer32 y) as [c|] eqn:I2.
  2:{ exact (pop_logic_bad _ v y _ S1 D2 I2). }
  rewrite (pop_logic_ok _ v y (x :: fst b) c S1 D2 I2). destruct (integer32 x) as [a|] eqn:I1.
  - rewrite (pop_logic_ok _ (set_stack (x :: fst b) v) x (fst b) a eq_refl D1 I1). unfold with_stacks, push_d. rewrite <- S2. destruct v; reflexivity.
  - exact (pop_logic_bad _ (set_stack (x :: fst b) v) x (fst b) eq_refl D1 I1).
Qed.
Lemma not_does x : op_does E I_NOT [Number x] (complement (Number x)).
Proof.
  intros v b S D. destruct (stacks_eq _ _ S) as [S1 S2]. cbn in S1, S2. inversion D as [|? ? D1 D']; subst. cbn [datum_ok] in D1.
  cbn [complement exec_instr]. destruct (integer32 x) as [c|] eqn:I2.
  2:{ exact (pop_logic_bad _ v x _ S1 D1 I2). }
  rewrite (pop_logic_ok _ v x (fst b) c S1 D1 I2). unfold with_stacks, push_d. rewrite <- S2. destruct v; reflexivity.
Qed.
Lemma concat_does s t : op_does E I_CONCAT [Text s; Text t]
  (if Nat.leb (length s + length t) 255 then Gives (Text (s ++ t)) else Fails (RE_concat_too_long (N.of_nat (length s + length t)))).
Proof.
  intros v b S _. destruct (stacks_eq _ _ S) as [S1 S2]. cbn in S1, S2. cbn [exec_instr].
  rewrite (bind_pop_str _ v t (s :: snd b) S2), (bind_pop_str _ (set_sstack (s :: snd b) v) s (snd b) eq_refl).
  destruct (Nat.leb_spec (length s + length t) 255); destruct (Nat.ltb_spec 256 (length s + length t + 1)); try lia.
  - unfold with_stacks, push_d. rewrite <- S1. destruct v; reflexivity.
  - eexists. split; [reflexivity|reflexivity].
Qed.

Lemma num_relation r t x y : t = TNum -> op_does E (rel_instr r t) [Number x; Number y] (truth_datum (related_numbers r x y)).
Proof. intros ->. destruct r; cbn [rel_instr]; apply compare_does; reflexivity. Qed.
Lemma str_relation r t s u : t = TStr -> op_does E (rel_instr r t) [Text s; Text u] (truth_datum (related_texts r s u)).
Proof.
  intros ->. destruct r; cbn [rel_instr]; unfold related_texts;
    match goal with |- op_does _ ?i _ (truth_datum ?x) =>
      let f := eval cbv in (match i with
        | I_EQ_STR => (fun c : comparison => match c with Eq => true | _ => false end)
        | I_NE_STR => (fun c : comparison => match c with Eq => false | _ => true end)
        | I_LT_STR => (fun c : comparison => match c with Lt => true | _ => false end)
        | I_GT_STR => (fun c : comparison => match c with Gt => true | _ => false end)
        | I_LE_STR => (fun c : comparison => match c with Gt => false | _ => true end)
        | I_GE_STR => (fun c : comparison => match c with Lt => false | _ => true end)
        | _ => fun _ => true end) in
      replace x with (f (strcmp s u)) by (destruct (strcmp s u); reflexivity); apply (compare_str_does i f) end; reflexivity.
Qed.

(* operators *)
Theorem binary_op o a b : bin_ok o (vtype_of (sort_of a)) (vtype_of (sort_of b)) ->
  op_does E (bin_instr o (vtype_of (sort_of a))) [a; b] (binary_value E o a b).
Proof.
  intros B. destruct a as [x|s], b as [y|t]; cbn [sort_of vtype_of] in *; destruct o as [| |r| | | | |]; cbn [bin_ok] in B;
    try (destruct B as [B1 B2]; discriminate); cbn [bin_instr binary_value].
  - apply logic_does. reflexivity.
  - apply logic_does. reflexivity.
  - apply num_relation. reflexivity.
  - apply binary_does. reflexivity.
  - apply binary_does. reflexivity.
  - apply binary_does. reflexivity.
  - apply binary_does. reflexivity.
  - apply (binary_does _ (e_pow E)). reflexivity.
  - apply str_relation. reflexivity.
  - apply concat_does.
Qed.
Theorem negative_op x : op_does E I_NEG [Number x] (negative (Number x)).
Proof. apply (unary_does I_NEG fneg). reflexivity. Qed.

Lemma text_does i (x : bytes -> num) s : (forall v, exec_instr E i v = (let* s := pop_str in adv (push (x s))) v) -> op_does E i [Text s] (Gives (Number (x s))).
Proof.
  intros X v b S _. rewrite X. destruct (stacks_eq _ _ S) as [S1 S2]. cbn in S1, S2. rewrite (bind_pop_str _ v s (snd b) S2).
  unfold with_stacks, push_d. rewrite <- S1. destruct v; reflexivity.
Qed.

Lemma pop_count_ok {B} (k : N -> M B) v x st n : v_stack v = x :: st -> double x -> whole x = Some n -> bind pop_unsigned k v = k n (set_stack st v).
Proof. intros S D W. rewrite (bind_count k v x st _ S D (whole_some x n W)). rewrite N2Nat.id. reflexivity. Qed.
Lemma pop_count_bad {B} (k : N -> M B) v x st : v_stack v = x :: st -> double x -> whole x = None ->
  exists w, bind pop_unsigned k v = (Fail (count_error x), w) /\ v_st w = v_st v.
Proof. intros S D W. destruct (bind_count_bad k v x st S D (whole_none x W)) as (w & W1 & W2 & _). eauto. Qed.
Lemma push_buf_str s v : length s <= 255 -> push_buf s v = push_str s v.
Proof. intros L. unfold push_buf. destruct (Nat.ltb_spec 256 (length s + 1)); [lia|reflexivity]. Qed.
Lemma adv_same (m m' : M unit) v : m v = m' v -> adv m v = adv m' v.
Proof. intros H. unfold adv, bind. rewrite H. reflexivity. Qed.

Lemma left_does s x : op_does E I_LEFT [Text s; Number x] (counted x (fun n => Gives (Text (firstn n s)))).
Proof.
  intros v b S D. destruct (stacks_eq _ _ S) as [S1 S2]. cbn in S1, S2. inversion D as [|? ? D1 D']; subst. inversion D' as [|? ? D2 _]; subst. cbn [datum_ok] in D1, D2.
  unfold string_ok in D1. cbn [exec_instr]. unfold counted. destruct (whole x) as [n|] eqn:W.
  - rewrite (bind_pop_str _ v s (snd b) S2), (pop_count_ok _ (set_sstack (snd b) v) x (fst b) n S1 D2 W).
    replace (if (N.of_nat (length s) <? n)%N then s else firstn (N.to_nat n) s) with (firstn (N.to_nat n) s).
    + erewrite adv_same; [|apply push_buf_str; rewrite firstn_length; lia]. destruct v; reflexivity.
    + destruct (N.ltb_spec (N.of_nat (length s)) n); [|reflexivity]. rewrite firstn_all2 by lia. reflexivity.
  - rewrite (bind_pop_str _ v s (snd b) S2). destruct (pop_count_bad (fun u => adv (push_buf (if (N.of_nat (length s) <? u)%N then s else firstn (N.to_nat u) s)))
      (set_sstack (snd b) v) x (fst b) S1 D2 W) as (w & W1 & W2). exists w. split; [exact W1|exact W2].
Qed.
Lemma right_does s x : op_does E I_RIGHT [Text s; Number x] (counted x (fun n => Gives (Text (skipn (length s - n) s)))).
Proof.
  intros v b S D. destruct (stacks_eq _ _ S) as [S1 S2]. cbn in S1, S2. inversion D as [|? ? D1 D']; subst. inversion D' as [|? ? D2 _]; subst. cbn [datum_ok] in D1, D2.
  unfold string_ok in D1. cbn [exec_instr]. unfold counted. rewrite (bind_pop_str _ v s (snd b) S2). destruct (whole x) as [n|] eqn:W.
  - rewrite (pop_count_ok _ (set_sstack (snd b) v) x (fst b) n S1 D2 W). cbv zeta.
    match goal with |- adv (push_buf (skipn ?k s)) _ = _ => replace k with (length s - N.to_nat n) by (destruct (N.ltb_spec (N.of_nat (length s)) n); lia) end.
    erewrite adv_same; [|apply push_buf_str; rewrite skipn_length; lia]. destruct v; reflexivity.
  - match goal with |- exists w, bind pop_unsigned ?k ?u = _ /\ _ => destruct (pop_count_bad k u x (fst b) S1 D2 W) as (w & W1 & W2) end. exists w. split; [exact W1|exact W2].
Qed.
Lemma mid_does s x y : op_does E I_MID3 [Text s; Number x; Number y]
  (counted y (fun n => counted x (fun k => if Nat.leb 1 k && Nat.leb k (length s) then Gives (Text (firstn n (skipn (k - 1) s))) else Fails RE_string_index))).
Proof.
  intros v b S D. destruct (stacks_eq _ _ S) as [S1 S2]. cbn in S1, S2.
  inversion D as [|? ? D1 D']; subst. inversion D' as [|? ? D2 D'']; subst. inversion D'' as [|? ? D3 _]; subst. cbn [datum_ok] in D1, D2, D3.
  unfold string_ok in D1. cbn [exec_instr]. unfold counted. rewrite (bind_pop_str _ v s (snd b) S2). destruct (whole y) as [n|] eqn:W.
  2:{ match goal with |- exists w, bind pop_unsigned ?k ?u = _ /\ _ => destruct (pop_count_bad k u y (x :: fst b) S1 D3 W) as (w & W1 & W2) end. exists w. split; [exact W1|exact W2]. }
  rewrite (pop_count_ok _ (set_sstack (snd b) v) y (x :: fst b) n S1 D3 W). destruct (whole x) as [k|] eqn:W'.
  2:{ match goal with |- exists w, bind pop_unsigned ?k ?u = _ /\ _ => destruct (pop_count_bad k u x (fst b) eq_refl D2 W') as (w & W1 & W2) end. exists w. split; [exact W1|exact W2]. }
  rewrite (pop_count_ok _ (set_stack (x :: fst b) (set_sstack (snd b) v)) x (fst b) k eq_refl D2 W'). cbv zeta.
  destruct (Nat.leb 1 (N.to_nat k) && Nat.leb (N.to_nat k) (length s))%bool eqn:B.
  - replace ((k <? 1)%N || (N.of_nat (length s) <? k)%N) with false by lia.
    match goal with |- adv (push_buf ?c) _ = _ => replace c with (firstn (N.to_nat n) (skipn (N.to_nat k - 1) s)) end.
    + erewrite adv_same; [|apply push_buf_str; rewrite firstn_length, skipn_length; lia]. destruct v; reflexivity.
    + replace (N.to_nat (k - 1)) with (N.to_nat k - 1) by lia. destruct (N.ltb_spec (N.of_nat (length s) - k + 1) n); [|reflexivity].
      rewrite !firstn_all2; [reflexivity| |]; rewrite skipn_length; lia.
  - replace ((k <? 1)%N || (N.of_nat (length s) <? k)%N) with true by lia. eexists. split; reflexivity.
Qed.
Lemma chr_does x : op_does E I_CHR [Number x] (match whole x with
  | Some n => if (n =? 0)%N then Gives (Text []) else if (n <? 256)%N then Gives (Text [chr n]) else Fails (RE_chr x)
  | None => Fails (RE_chr x) end).
Proof.
  intros v b S D. destruct (stacks_eq _ _ S) as [S1 S2]. cbn in S1, S2. inversion D as [|? ? D1 _]; subst. cbn [datum_ok] in D1. cbn [exec_instr].
  rewrite (bind_pop _ v x (fst b) S1). fold (chr_refused x).
  assert (BAD : (forall n, (n < 256)%N -> ~ is_integer x (Z.of_N n)) -> chr_refused x = true).
  { intros H. unfold chr_refused. destruct (whole_or_not x D1) as [(z & I)|[([] & ->)|[F _]]]; try reflexivity.
    - rewrite (fltb_zero x _ D1 I), (fgtb_int x _ _ D1 I) by lia.
      destruct (Z_lt_le_dec z 0); [lia|]. destruct (Z_lt_le_dec 255 z); [lia|]. exfalso. apply (H (Z.to_N z)); [lia|]. rewrite Z2N.id by lia. exact I.
    - unfold fneb. change SFeqb with feqb. rewrite feqb_sym, F. apply orb_true_r. }
  destruct (whole x) as [n|] eqn:W.
  - pose proof (whole_some _ _ W) as [I R]. destruct (N.ltb_spec n 256) as [L|L].
    + assert (G : chr_refused x = false).
      { unfold chr_refused. rewrite (fltb_zero x _ D1 I), (fgtb_int x _ _ D1 I) by lia. unfold fneb. change SFeqb with feqb. rewrite (proj2 (floor_int x _ D1 I)). cbn [negb]. lia. }
      rewrite G, (ftoZ_integer x _ D1 I). cbn [some_or_crash]. unfold bind, ret. replace (Z.to_N (Z.of_nat (N.to_nat n))) with n by lia.
      assert (X : cstr [chr n] = if (n =? 0)%N then [] else [chr n]).
      { cbn [cstr]. replace (ceq (chr n) NUL) with (n =? 0)%N; [reflexivity|]. unfold ceq, chr, NUL.
        destruct (N.eqb_spec n 0) as [->|Q]; [reflexivity|]. symmetry. apply Ascii.eqb_neq. intros A. apply Q.
        rewrite <- (N_ascii_embedding n) by lia. rewrite A. reflexivity. }
      rewrite X. destruct (n =? 0)%N; unfold adv, bind, push_d, with_stacks; rewrite <- S2; destruct v; reflexivity.
    + destruct (N.eqb_spec n 0); [lia|]. rewrite BAD; [eexists; split; reflexivity|]. intros k K Q.
      pose proof (proj2 (integer_of_spec _ _) I) as X1. pose proof (proj2 (integer_of_spec _ _) Q) as X2. rewrite X1 in X2. injection X2 as X2. lia.
  - rewrite BAD; [eexists; split; reflexivity|]. intros k K Q. apply (whole_none x W (N.to_nat k)). split; [|lia].
    replace (Z.of_nat (N.to_nat k)) with (Z.of_N k) by lia. exact Q.
Qed.
Lemma log_does x : op_does E I_LOG [Number x] (if fleb x fzero then Fails RE_log else Gives (Number (e_log E x))).
Proof.
  intros v b S _. destruct (stacks_eq _ _ S) as [S1 S2]. cbn in S1, S2. cbn [exec_instr]. rewrite (bind_pop _ v x (fst b) S1).
  destruct (fleb x fzero); [eexists; split; reflexivity|]. unfold with_stacks, push_d. rewrite <- S2. destruct v; reflexivity.
Qed.
Lemma str_does x : op_does E I_STR [Number x] (Gives (Text (format_g x))).
Proof.
  intros v b S _. destruct (stacks_eq _ _ S) as [S1 S2]. cbn in S1, S2. cbn [exec_instr]. rewrite (bind_pop _ v x (fst b) S1).
  unfold with_stacks, push_d. rewrite <- S2. destruct v; reflexivity.
Qed.
Lemma val_does s : op_does E I_VAL [Text s] (match convert s with Some (x, []) => Gives (Number x) | _ => Fails (RE_number s) end).
Proof.
  intros v b S _. destruct (stacks_eq _ _ S) as [S1 S2]. cbn in S1, S2. cbn [exec_instr]. rewrite (bind_pop_str _ v s (snd b) S2).
  destruct (convert s) as [[x [|c r]]|]; try (eexists; split; reflexivity). unfold with_stacks, push_d. rewrite <- S1. destruct v; reflexivity.
Qed.
Lemma asc_value s : match s with [] => 0%Z | c :: _ => schar c end =
  match s with [] => 0%Z | c :: _ => if (code c <? 128)%N then Z.of_N (code c) else (Z.of_N (code c) - 256)%Z end.
Proof. destruct s as [|c s]; [reflexivity|]. unfold schar. replace (Z.of_N (code c) <? 128)%Z with (code c <? 128)%N by lia. reflexivity. Qed.
Lemma asc_does s : op_does E I_ASC [Text s] (Gives (Number (fofZ (match s with [] => 0%Z | c :: _ => if (code c <? 128)%N then Z.of_N (code c) else (Z.of_N (code c) - 256)%Z end)))).
Proof. rewrite <- asc_value. apply (text_does I_ASC (fun s => fofZ (match s with [] => 0%Z | c :: _ => schar c end))). reflexivity. Qed.

(* built-in functions of their arguments *)
Theorem function_op b ds : In b builtins -> bi_type b <> TErr -> Forall2 (fun a d => match a with ArgNum => sort_of d = Numbers | ArgStr => sort_of d = Texts | ArgDummy => False end) (bi_args b) ds ->
  exists f, find (fun p => bytes_eqb (fst p) (bi_name b)) (functions E) = Some (bi_name b, f) /\ op_does E (bi_op b) ds (f ds) /\
    match f ds with Gives d => vtype_of (sort_of d) = bi_type b | _ => True end.
Proof.
  intros H Y F. cbn [builtins In] in H.
  repeat (destruct H as [<-|H]; [cbn [bi_type bi_args bi_op bi_name] in *; try (exfalso; apply Y; reflexivity);
    repeat match goal with F : Forall2 _ (_ :: _) _ |- _ => inversion F; subst; clear F end;
    repeat match goal with F : Forall2 _ [] _ |- _ => inversion F; subst; clear F end;
    repeat match goal with d : datum |- _ => destruct d; try discriminate end; try contradiction;
    (eexists; split; [reflexivity|split; [|unfold number, of_number, of_text, counted; cbn beta iota; repeat first [exact I | reflexivity | match goal with |- context [match ?x with _ => _ end] => lazymatch x with context [match _ with _ => _ end] => fail | _ => destruct x end end]]])|]); try contradiction.
  - apply (unary_does I_ABS fabs). reflexivity.
  - apply asc_does.
  - apply (unary_does I_ATN (e_atan E)). reflexivity.
  - apply chr_does.
  - apply (unary_does I_COS (e_cos E)). reflexivity.
  - apply (unary_does I_EXP (e_exp E)). reflexivity.
  - apply (unary_does I_INT ffloor). reflexivity.
  - apply left_does.
  - apply (text_does I_LEN (fun s => fofN (N.of_nat (length s)))). reflexivity.
  - apply log_does.
  - apply mid_does.
  - apply right_does.
  - apply (unary_does I_SGN (fun x => if fltb x fzero then fofZ (-1) else if fgtb x fzero then fofZ 1 else x)). reflexivity.
  - apply (unary_does I_SIN (e_sin E)). reflexivity.
  - apply (unary_does I_SQR fsqrt). reflexivity.
  - apply str_does.
  - apply (unary_does I_TAN (e_tan E)). reflexivity.
  - apply val_does.
Qed.

(* RND *)
Lemma draw_loop : rand_range E -> forall f seed k, rnd_loop f E seed k =
  match find (fun j => (e_rand E seed (k + j) <? RAND_MAX)%N) (seq 0 f) with
  | Some j => Some (fdiv (fofN (e_rand E seed (k + j))) (fofN RAND_MAX), k + j + 1)
  | None => None
  end.
Proof.
  intros RR. induction f as [|f IH]; intros seed k; [reflexivity|]. cbn [rnd_loop seq find]. rewrite Nat.add_0_r.
  destruct (N.ltb_spec (e_rand E seed k) RAND_MAX) as [L|L].
  - rewrite (unit_below _ (rand_double _ (RR seed k)) (rnd_quotient _ L)). rewrite Nat.add_0_r, Nat.add_1_r. reflexivity.
  - assert (Q : e_rand E seed k = RAND_MAX) by (pose proof (RR seed k); lia). rewrite Q, rand_max_quotient, IH. rewrite <- seq_shift.
    clear. induction (seq 0 f) as [|j l IH]; [reflexivity|]. cbn [find map]. replace (k + S j) with (S k + j) by lia.
    destruct (_ <? _)%N; [replace (k + S j) with (S k + j) by lia; reflexivity|exact IH].
Qed.
End Ops.
