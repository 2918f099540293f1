(* Compiled code never trips the machine's internal checks (C31). *)
From Coq Require Import Lia ZifyBool ZifyNat ZifyN.
From Verif Require Import Base BaseLemmas Num SourceModel LineMapModel ArrayModel BcodeModel SymbolModel SymbolSpec
  VmModel VmLemmas VmSpec ControlProofs VmTyping GrammarSpec TypeSpec StepSpec.
Local Open Scope nat_scope.

(* ---------- effects on the stacks ---------- *)

Definition proper (e : rterr) : Prop := ordinary e \/ e = RE_num_overflow \/ e = RE_str_overflow.
Definition deep (n s : nat) (v : vm) : Prop := n <= length (v_stack v) /\ s <= length (v_sstack v).
(* with n numbers and s texts the action leaves n' and s' *)
Definition eff {A} (R : A -> Prop) (n s n' s' : nat) (m : M A) : Prop :=
  forall b c v, deep (b + n) (c + s) v ->
  match m v with (Ok a, w) => R a /\ deep (b + n') (c + s') w | (Fail e, _) => proper e | _ => True end.
Definition any {A} (a : A) : Prop := True.

Lemma eff_bind {A B} (R : B -> Prop) n s n1 s1 n' s' (m : M A) (k : A -> M B) : eff any n s n1 s1 m -> (forall a, eff R n1 s1 n' s' (k a)) -> eff R n s n' s' (bind m k).
Proof. intros H K b c v D. unfold bind. specialize (H b c v D). destruct (m v) as [[a|e| |] w]; [|exact H|exact I|exact I]. apply K, H. Qed.
Lemma eff_ret {A} (R : A -> Prop) n s a : R a -> eff R n s n s (ret a).
Proof. intros H b c v D. split; assumption. Qed.
Lemma eff_get {B} (R : B -> Prop) n s n' s' (k : vm -> M B) : (forall v, eff R n s n' s' (k v)) -> eff R n s n' s' (bind get k).
Proof. intros H b c v D. apply (H v b c v D). Qed.
Lemma eff_crash {A} (R : A -> Prop) n s n' s' : eff R n s n' s' (@crash A).
Proof. intros b c v D. exact I. Qed.
Lemma eff_error {A} (R : A -> Prop) n s n' s' e : proper e -> eff R n s n' s' (@run_error A e).
Proof. intros H b c v D. exact H. Qed.
Lemma eff_pop n s : eff any (S n) s n s pop.
Proof. intros b c v [H1 H2]. unfold pop. destruct (v_stack v) as [|x r] eqn:E; cbn [length] in H1; [lia|]. split; [exact I|]. split; cbn; lia. Qed.
Lemma eff_push n s x : eff any n s (S n) s (push x).
Proof. intros b c v [H1 H2]. unfold push. destruct (Nat.leb _ _); [right; left; reflexivity|]. split; [exact I|]. split; cbn; lia. Qed.
Lemma eff_pop_str n s : eff any n (S s) n s pop_str.
Proof. intros b c v [H1 H2]. unfold pop_str. destruct (v_sstack v) as [|x r] eqn:E; cbn [length] in H2; [lia|]. split; [exact I|]. split; cbn; lia. Qed.
Lemma eff_push_str n s x : eff any n s n (S s) (push_str x).
Proof. intros b c v [H1 H2]. unfold push_str. destruct (Nat.leb _ _); [right; right; reflexivity|]. split; [exact I|]. split; cbn; lia. Qed.
(* actions that leave the stacks alone and raise no error *)
Lemma eff_keeps {A} n s (m : M A) : keeps (fun v => (v_stack v, v_sstack v)) m -> (forall v, match fst (m v) with Fail e => proper e | _ => True end) -> eff any n s n s m.
Proof.
  intros K F b c v D. specialize (K v). specialize (F v). destruct (m v) as [[a|e| |] w]; cbn [fst snd] in *; try exact F; try exact I. split; [exact I|].
  injection K as K1 K2. unfold deep in *. rewrite K1, K2. exact D.
Qed.
Ltac noerr := apply eff_keeps; [repeat keeps_more|intros ?; exact I].
Lemma eff_modify n s f : (forall v, v_stack (f v) = v_stack v /\ v_sstack (f v) = v_sstack v) -> eff any n s n s (modify f).
Proof. intros H. apply eff_keeps; [|intros v; exact I]. intros v. cbn [modify snd]. destruct (H v) as [-> ->]. reflexivity. Qed.
Lemma eff_get_sym n s id : eff any n s n s (get_sym id).
Proof. apply eff_keeps; [repeat keeps_more|]. intros v. unfold get_sym. destruct (symbol_at _ _); exact I. Qed.
Lemma eff_get_bcode n s : eff any n s n s get_bcode.
Proof. apply eff_keeps; [repeat keeps_more|]. intros v. unfold get_bcode. destruct (cur_bcode v); exact I. Qed.
Lemma eff_put_sym n s id x : eff any n s n s (put_sym id x).
Proof. apply eff_modify. intros v. split; reflexivity. Qed.
Lemma eff_assert n s b : eff any n s n s (assert b).
Proof. destruct b; [apply eff_ret; exact I|apply eff_crash]. Qed.
Lemma eff_some {A} n s (o : option A) : eff any n s n s (some_or_crash o).
Proof. destruct o; [apply eff_ret; exact I|apply eff_crash]. Qed.
Lemma eff_line n s k : eff any n s n s (find_basic_line k).
Proof. apply eff_keeps; [repeat keeps_more|]. intros v. unfold find_basic_line. destruct (c_index _) as [x|]; [destruct (lookup_line_mapping x k)|]; cbn; try exact I; left; exact I. Qed.
Lemma eff_data n s : eff any n s n s find_data.
Proof.
  apply eff_keeps; [repeat keeps_more|]. intros v. unfold find_data. destruct (match cs_code (v_cs v) with Some CImmediate => true | _ => false end), (c_bcode (v_imm v)) as [b|]; try exact I; cbn [andb].
  all: match goal with |- context [match ?x with None => run_error _ _ | Some _ => _ end] => destruct x as [b'|] end; [|left; exact I].
  all: destruct (negb _); [left; exact I|]; cbv zeta; destruct (nth_error _ _) as [[]|]; try (left; exact I); exact I.
Qed.
Lemma eff_put n s t : eff any n s n s (put t).
Proof. apply eff_modify. intros v. split; reflexivity. Qed.
Lemma eff_put_cols n s t c : eff any n s n s (put_cols t c).
Proof. apply eff_modify. intros v. split; reflexivity. Qed.
Lemma eff_dump n s t : eff any n s n s (dump_for_stack t).
Proof. apply eff_keeps; [repeat keeps_more|]. intros v. unfold dump_for_stack. destruct (v_for v); [exact I|]. destruct (dump_entries _ _); exact I. Qed.
Lemma eff_trace n s m : eff any n s n s m -> eff any n s n s (trace_for m).
Proof. intros H b c v D. unfold trace_for. destruct (o_trace_for _); [apply H, D|]. split; [exact I|exact D]. Qed.
Lemma eff_dump_for n s t : eff any n s n s (dump_for t).
Proof.
  apply eff_keeps; [repeat keeps_more|]. intros v. unfold dump_for. destruct (cs_code (v_cs v)) as [r|]; [|exact I].
  destruct (c_source _) as [src|]; [|exact I]. destruct (nth_error src _); [|exact I]. unfold bind, put, modify, dump_for_stack. cbn [v_for set_out]. destruct (v_for _); [exact I|]. destruct (dump_entries _ _); exact I.
Qed.
Ltac good_error := apply eff_error; left; exact I.
Ltac eff_step :=
  match goal with
  | |- eff _ _ _ _ _ (bind get _) => apply eff_get; intros ?
  | |- eff _ _ _ _ _ (bind _ _) => eapply eff_bind; [|intros ?]
  | |- eff _ _ _ _ _ (ret _) => apply eff_ret; first [exact I|reflexivity]
  | |- eff _ _ _ _ _ crash => apply eff_crash
  | |- eff _ _ _ _ _ (run_error _) => good_error
  | |- eff _ _ _ _ _ pop => apply eff_pop
  | |- eff _ _ _ _ _ (push _) => apply eff_push
  | |- eff _ _ _ _ _ pop_str => apply eff_pop_str
  | |- eff _ _ _ _ _ (push_str _) => apply eff_push_str
  | |- eff _ _ _ _ _ (get_sym _) => apply eff_get_sym
  | |- eff _ _ _ _ _ get_bcode => apply eff_get_bcode
  | |- eff _ _ _ _ _ (put_sym _ _) => apply eff_put_sym
  | |- eff _ _ _ _ _ (assert _) => apply eff_assert
  | |- eff _ _ _ _ _ (some_or_crash _) => apply eff_some
  | |- eff _ _ _ _ _ (find_basic_line _) => apply eff_line
  | |- eff _ _ _ _ _ find_data => apply eff_data
  | |- eff _ _ _ _ _ (put _) => apply eff_put
  | |- eff _ _ _ _ _ (put_cols _ _) => apply eff_put_cols
  | |- eff _ _ _ _ _ (dump_for_stack _) => apply eff_dump
  | |- eff _ _ _ _ _ (dump_for _) => apply eff_dump_for
  | |- eff _ _ _ _ _ (trace_for _) => apply eff_trace
  | |- eff _ _ _ _ _ (modify _) => apply eff_modify; first [intros ?; split; reflexivity | intros ?; repeat match goal with |- context [match ?x with _ => _ end] => destruct x end; split; reflexivity]
  | |- eff _ _ _ _ _ (if ?b then _ else _) => destruct b
  | |- eff _ _ _ _ _ (match ?x with _ => _ end) => destruct x
  | |- eff _ _ _ _ _ (adv _) => unfold adv
  | |- eff _ _ _ _ _ (unary _) => unfold unary
  | |- eff _ _ _ _ _ (binary _) => unfold binary
  | |- eff _ _ _ _ _ (push_logic _) => unfold push_logic
  | |- eff _ _ _ _ _ (compare_num _) => unfold compare_num
  | |- eff _ _ _ _ _ (compare_str _) => unfold compare_str
  | |- eff _ _ _ _ _ compare_strings => unfold compare_strings
  | |- eff _ _ _ _ _ (push_buf _) => unfold push_buf
  end; cbv beta zeta.
Ltac eff_go := repeat eff_step.
Lemma eff_logic n s : eff any (S n) s n s pop_logic.
Proof. unfold pop_logic. eff_go. Qed.
Lemma eff_unsigned n s : eff any (S n) s n s pop_unsigned.
Proof. unfold pop_unsigned. eff_go. Qed.
Lemma eff_index n s name : eff any (S n) s n s (pop_index name).
Proof. unfold pop_index. eff_go. Qed.
Lemma eff_indexes_loop k s name : forall n, eff any (k + n) s n s (pop_indexes_loop k name).
Proof.
  induction k as [|k IH]; intros n; cbn [pop_indexes_loop]; [apply eff_ret; exact I|]. cbn [Nat.add].
  eapply eff_bind; [apply eff_index|intros i]. eapply eff_bind; [apply IH|intros r]. apply eff_ret. exact I.
Qed.
Lemma eff_indexes k n s name : eff any (N.to_nat k + n) s n s (pop_indexes k name).
Proof. unfold pop_indexes. eapply eff_bind; [apply eff_assert|intros _]. apply eff_indexes_loop. Qed.
Ltac eff_more := repeat first [apply eff_logic | apply eff_unsigned | apply eff_indexes | eff_step].
Lemma eff_get_simple n s id : eff any n s (S n) s (get_numeric_simple id).
Proof. unfold get_numeric_simple. eff_more. Qed.
Lemma eff_gets_simple n s id : eff any n s n (S s) (get_string_simple id).
Proof. unfold get_string_simple. eff_more. Qed.
Lemma eff_set_simple n s id x : eff any n s n s (set_numeric_simple id x).
Proof. unfold set_numeric_simple. eff_more. Qed.
Lemma eff_sets_simple n s id x : eff any n s n s (set_string_simple id x).
Proof. unfold set_string_simple. eff_more. Qed.
Lemma eff_dimn n s id x : eff any n s n s (dimension_numeric id x).
Proof. unfold dimension_numeric. eff_more. Qed.
Lemma eff_dims n s id x : eff any n s n s (dimension_string id x).
Proof. unfold dimension_string. eff_more. Qed.
Lemma eff_array n s id k : eff any (N.to_nat k + n) s n s (numeric_array_at id k).
Proof. unfold numeric_array_at, dimension_numeric_auto. repeat first [apply eff_dimn|apply eff_indexes|eff_step]. Qed.
Lemma eff_sarray n s id k : eff any (N.to_nat k + n) s n s (string_array_at id k).
Proof. unfold string_array_at, dimension_string_auto. repeat first [apply eff_dims|apply eff_indexes|eff_step]. Qed.
Lemma eff_get_element n s id k : eff any (N.to_nat k + n) s (S n) s (get_numeric_element id k).
Proof. unfold get_numeric_element. repeat first [apply eff_array|eff_step]. Qed.
Lemma eff_gets_element n s id k : eff any (N.to_nat k + n) s n (S s) (get_string_element id k).
Proof. unfold get_string_element. repeat first [apply eff_sarray|eff_step]. Qed.
Lemma eff_set_element n s id k x : eff any (N.to_nat k + n) s n s (set_numeric_element id k x).
Proof. unfold set_numeric_element. repeat first [apply eff_array|eff_step]. Qed.
Lemma eff_sets_element n s id k x : eff any (N.to_nat k + n) s n s (set_string_element id k x).
Proof. unfold set_string_element. repeat first [apply eff_sarray|eff_step]. Qed.
Lemma eff_set n s id k x : eff any (N.to_nat k + n) s n s (set_numeric id k x).
Proof. unfold set_numeric. destruct (k =? 0)%N eqn:K; [|apply eff_set_element]. replace (N.to_nat k + n) with n by lia. apply eff_set_simple. Qed.
Lemma eff_sets n s id k x : eff any (N.to_nat k + n) s n s (set_string id k x).
Proof. unfold set_string. destruct (k =? 0)%N eqn:K; [|apply eff_sets_element]. replace (N.to_nat k + n) with n by lia. apply eff_sets_simple. Qed.
Lemma eff_dim_num n s id k : eff any (N.to_nat k + n) s n s (exec_dim_num id k).
Proof. unfold exec_dim_num. repeat first [apply eff_dimn|apply eff_indexes|eff_step]. Qed.
Lemma eff_dim_str n s id k : eff any (N.to_nat k + n) s n s (exec_dim_str id k).
Proof. unfold exec_dim_str. repeat first [apply eff_dims|apply eff_indexes|eff_step]. Qed.

(* ---------- instructions that go on with the next ---------- *)

(* numbers and texts needed, and left instead *)
Definition effect (i : instr) : option (nat * nat * (nat * nat)) :=
  match i with
  | I_NOP | I_DATA _ | I_CLEAR | I_PRINT_LN | I_PRINT_COMMA | I_CLS | I_RESTORE | I_RESTORE_LINE _ | I_RAND | I_INPUT_END => Some (0, 0, (0, 0))
  | I_PUSH_NUM _ | I_GET_SIMPLE_NUM _ | I_RND => Some (0, 0, (1, 0))
  | I_PUSH_STR _ | I_GET_SIMPLE_STR _ | I_INKEY | I_TIME_STR => Some (0, 0, (0, 1))
  | I_POP_NUM | I_SET_SIMPLE_NUM _ | I_PRINT_SPC | I_PRINT_TAB | I_PRINT_NUM | I_SEED => Some (1, 0, (0, 0))
  | I_POP_STR | I_SET_SIMPLE_STR _ | I_PRINT_STR => Some (0, 1, (0, 0))
  | I_DIM_NUM _ n | I_DIM_STR _ n | I_READ_NUM _ n | I_READ_STR _ n | I_INPUT_STR _ n | I_INPUT_LINE _ n => Some (N.to_nat n, 0, (0, 0))
  | I_GET_PAREN_NUM _ n => Some (N.to_nat n, 0, (1, 0))
  | I_GET_PAREN_STR _ n => Some (N.to_nat n, 0, (0, 1))
  | I_SET_ARRAY_NUM _ n => Some (S (N.to_nat n), 0, (0, 0))
  | I_SET_ARRAY_STR _ n => Some (N.to_nat n, 1, (0, 0))
  | I_NEG | I_NOT | I_ABS | I_ATN | I_COS | I_EXP | I_INT | I_LOG | I_SGN | I_SIN | I_SQR | I_TAN => Some (1, 0, (1, 0))
  | I_ADD | I_SUB | I_MUL | I_DIV | I_POW | I_EQ_NUM | I_LT_NUM | I_GT_NUM | I_NE_NUM | I_LE_NUM | I_GE_NUM | I_OR | I_AND => Some (2, 0, (1, 0))
  | I_EQ_STR | I_NE_STR | I_LT_STR | I_GT_STR | I_LE_STR | I_GE_STR => Some (0, 2, (1, 0))
  | I_CONCAT => Some (0, 2, (0, 1))
  | I_ASC | I_LEN | I_VAL => Some (0, 1, (1, 0))
  | I_CHR | I_STR => Some (1, 0, (0, 1))
  | I_LEFT | I_RIGHT => Some (1, 1, (0, 1))
  | I_MID3 => Some (2, 1, (0, 1))
  | _ => None
  end.
Definition parens (i : instr) : bool := match i with I_GET_PAREN_NUM _ _ | I_GET_PAREN_STR _ _ => true | _ => false end.
(* instructions that need a line of input *)
Definition wants_line (i : instr) : bool := match i with I_INPUT_STR _ _ | I_INPUT_END => true | _ => false end.

Lemma eff_exec E i p q c d n s : effect i = Some (p, q, (c, d)) -> parens i = false -> eff (eq true) (p + n) (q + s) (c + n) (d + s) (exec_instr E i).
Proof.
  intros H K. destruct i; try discriminate K; try discriminate H; injection H as <- <- <- <-; cbn [exec_instr Nat.add];
    try solve [repeat first [apply eff_get_simple | apply eff_gets_simple | apply eff_set_simple | apply eff_sets_simple | apply eff_dim_num | apply eff_dim_str
      | apply eff_set_element | apply eff_sets_element | apply eff_set | apply eff_sets | apply eff_logic | apply eff_unsigned | eff_step]].
  - intros b c v D. destruct (rnd_loop _ _ _ _) as [[x k]|]; [|exact I].
    assert (X : eff (eq true) n s (S n) s (adv (push x))) by eff_go. apply X. exact D.
  - intros b c v D. destruct (e_hms E (v_clock v)) as [[h m] t].
    match goal with |- match ?f ?w with _ => _ end => assert (X : eff (eq true) n s n (S s) f) by eff_go end. apply X. exact D.
Qed.

(* what such instructions leave alone *)
Definition control (v : vm) := (v_cs v, v_ret v, v_for v, v_fn v, (v_stored v, v_imm v, v_def v), v_input_pc v).
Lemma control_exec E i : effect i <> None -> parens i = false -> keeps control (exec_instr E i).
Proof. intros H PA. destruct i; try discriminate PA; try (destruct (H eq_refl)); clear H PA; cbn [exec_instr]; repeat keeps_more. Qed.

(* ---------- code ---------- *)

Definition needed (t : vtype) : nat * nat := match t with TNum => (1, 0) | TStr => (0, 1) | TErr => (0, 0) end.
Notation rn t := (fst (needed t)).
Notation rs t := (snd (needed t)).

(* code that takes n numbers and s texts to n' and s' *)
Inductive flow : list instr -> nat -> nat -> nat -> nat -> Prop :=
| F_nil n s n' s' : n' <= n -> s' <= s -> flow [] n s n' s'
| F_cons i l n s n' s' p q c d : effect i = Some (p, q, (c, d)) -> wants_line i = false -> p <= n -> q <= s -> flow l (c + (n - p)) (d + (s - q)) n' s' -> flow (i :: l) n s n' s'.

(* instructions after which a statement begins, and the numbers they need *)
Definition leap (i : instr) : option nat :=
  match i with
  | I_SOURCE_LINE _ | I_END | I_STOP | I_GOTO _ | I_GOSUB _ | I_RETURN | I_NEXT_VAR _ | I_NEXT_IMP | I_ELSE => Some 0
  | I_GOTRUE _ | I_IF_THEN | I_IF_ELSE => Some 1
  | I_FOR _ => Some 3
  | _ => None
  end.
Definition on_instr (gosub : bool) (k : nat) : instr := if gosub then I_ON_GOSUB k else I_ON_GOTO k.

Section Code.
Variable g : list sig.
(* code of which the first instruction can be executed with n numbers and s
   texts; a says that a line of input was read for the statement *)
Inductive tail : list instr -> nat -> nat -> bool -> Prop :=
| T_end n s a : tail [] n s a
| T_plain i l n s a p q c d : effect i = Some (p, q, (c, d)) -> (parens i = true -> l <> []) -> (wants_line i = true -> a = true) -> p <= n -> q <= s ->
    tail l (c + (n - p)) (d + (s - q)) a -> tail (i :: l) n s a
| T_leap i l n s a k : leap i = Some k -> k <= n -> tail l 0 0 false -> tail (i :: l) n s a
| T_buf t l n s a : tail l 0 0 true -> tail (I_INPUT_BUF t :: l) n s a
| T_sep l n s : tail l 0 0 true -> tail (I_INPUT_SEP :: l) n s true
| T_num id k l n s : N.to_nat k <= n -> tail l 0 0 true -> tail (I_INPUT_NUM id k :: l) n s true
| T_on b lines l n s a : 1 <= n -> (N.of_nat (length lines) < 2 ^ 32)%N -> tail l 0 0 false -> tail (on_instr b (length lines) :: map I_ON_LINE lines ++ l) n s a
| T_def id p b l n s a t : flow b 0 0 (rn t) (rs t) -> sg_kind g id KDef t -> tail l 0 0 false -> tail (I_DEF id 1 :: I_PARAM p :: b ++ I_END_DEF :: l) n s a.

Lemma flow_weak l n s n' s' : flow l n s n' s' -> forall k u k' u', n <= k -> s <= u -> k' <= n' -> u' <= s' -> flow l k u k' u'.
Proof. induction 1 as [|i l n s n' s' p q c d H WL P Q F IH]; intros k u k' u' L1 L2 L3 L4; [constructor; lia|]. econstructor; [exact H|exact WL|lia|lia|]. apply IH; lia. Qed.
Lemma flow_app a : forall b n s n1 s1 n' s', flow a n s n1 s1 -> flow b n1 s1 n' s' -> flow (a ++ b) n s n' s'.
Proof.
  induction a as [|i a IH]; intros b n s n1 s1 n' s' A B; inversion A; subst; cbn [app].
  - eapply flow_weak; [exact B|lia..].
  - econstructor; [eassumption..|]. eapply IH; eassumption.
Qed.
(* the numbers and texts below stay *)
Lemma flow_frame l n s n' s' : flow l n s n' s' -> forall k u, flow l (k + n) (u + s) (k + n') (u + s').
Proof.
  induction 1 as [|i l n s n' s' p q c d H WL P Q F IH]; intros k u; [constructor; lia|]. econstructor; [exact H|exact WL|lia|lia|].
  replace (c + (k + n - p)) with (k + (c + (n - p))) by lia. replace (d + (u + s - q)) with (u + (d + (s - q))) by lia. apply IH.
Qed.
Lemma tail_weak l n s a : tail l n s a -> forall k u b, n <= k -> s <= u -> (a = true -> b = true) -> tail l k u b.
Proof.
  induction 1 as [n s a|i l n s a p q c d H P WL Q R T IH|i l n s a k H K T IH|t l n s a T IH|l n s T IH|id k l n s K T IH|b lines l n s a N LL T IH|id p b l n s a t F G T IH];
    intros k0 u b0 L1 L2 L3.
  - constructor.
  - econstructor; [exact H|exact P|intros X; exact (L3 (WL X))|lia|lia|]. apply IH; [lia|lia|exact L3].
  - econstructor; [exact H|lia|exact T].
  - constructor. exact T.
  - rewrite (L3 eq_refl). constructor. exact T.
  - rewrite (L3 eq_refl). constructor; [lia|exact T].
  - constructor; [lia|exact LL|exact T].
  - econstructor; eassumption.
Qed.
Lemma flow_tail a l : forall n s n' s' z, flow a n s n' s' -> l <> [] -> tail l n' s' z -> tail (a ++ l) n s z.
Proof.
  induction a as [|i a IH]; intros n s n' s' z A L T; inversion A; subst; cbn [app].
  - eapply tail_weak; [exact T|lia|lia|auto].
  - econstructor; [eassumption| |congruence|eassumption|eassumption|eapply IH; eassumption].
    intros _ X. apply app_eq_nil in X as [_ X]. contradiction.
Qed.
End Code.
