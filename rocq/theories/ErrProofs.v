(* Error messages (C43). *)
From Coq Require Import Lia.
From Verif Require Import Base BaseLemmas Num SourceModel LineMapModel BcodeModel SymbolModel VmModel VmLemmas VmSpec ControlProofs ErrSpec.
Local Open Scope nat_scope.

(* one error, one message *)
Definition reports {A} (m : M A) : Prop :=
  forall v, match m v with
            | (Ok _, w) => v_err w = v_err v
            | (Fail e, w) => v_err w = v_err v ++ [mkErr e (shown_line w)]
            | _ => True
            end.

Lemma reports_ret {A} (a : A) : reports (ret a).
Proof. intros v. reflexivity. Qed.
Lemma reports_crash {A} : reports (@crash A).
Proof. intros v. exact I. Qed.
Lemma reports_get : reports get.
Proof. intros v. reflexivity. Qed.
Lemma reports_bind {A B} (m : M A) (k : A -> M B) : reports m -> (forall a, reports (k a)) -> reports (bind m k).
Proof.
  intros H K v. unfold bind. pose proof (H v) as X. destruct (m v) as [[a|e| |] w]; auto. pose proof (K a w) as Y. rewrite X in Y. exact Y.
Qed.
Lemma reports_modify g : (forall v, v_err (g v) = v_err v) -> reports (modify g).
Proof. intros H v. exact (H v). Qed.
Lemma reports_assert b : reports (assert b).
Proof. destruct b; [apply reports_ret|apply reports_crash]. Qed.
Lemma reports_some {A} (o : option A) : reports (some_or_crash o).
Proof. destruct o; [apply reports_ret|apply reports_crash]. Qed.
Lemma reports_error {A} e : reports (@run_error A e).
Proof. intros v. reflexivity. Qed.
Lemma reports_get_bcode : reports get_bcode.
Proof. intros v. unfold get_bcode. destruct (cur_bcode v); [reflexivity|exact I]. Qed.
Lemma reports_get_sym id : reports (get_sym id).
Proof. intros v. unfold get_sym. destruct (symbol_at _ _); [reflexivity|exact I]. Qed.
Ltac leaf := repeat match goal with |- context [match ?x with _ => _ end] => destruct x end; try reflexivity; try exact I.
Lemma reports_find_basic_line n : reports (find_basic_line n).
Proof. intros v. unfold find_basic_line. destruct (c_index (v_stored v)); [destruct (lookup_line_mapping _ _)|]; try reflexivity; exact I. Qed.
Lemma reports_push x : reports (push x).
Proof. intros v. unfold push. destruct (Nat.leb _ _); reflexivity. Qed.
Lemma reports_pop : reports pop.
Proof. intros v. unfold pop. destruct (v_stack v); reflexivity. Qed.
Lemma reports_push_str x : reports (push_str x).
Proof. intros v. unfold push_str. destruct (Nat.leb _ _); reflexivity. Qed.
Lemma reports_pop_str : reports pop_str.
Proof. intros v. unfold pop_str. destruct (v_sstack v); reflexivity. Qed.
Lemma reports_put s : reports (put s).
Proof. intros v. reflexivity. Qed.
Lemma reports_put_cols s c : reports (put_cols s c).
Proof. intros v. reflexivity. Qed.
Lemma reports_dump_for_stack t : reports (dump_for_stack t).
Proof. intros v. unfold dump_for_stack. destruct (v_for v); [reflexivity|]. destruct (dump_entries _ _); [reflexivity|exact I]. Qed.
Lemma reports_push_return n : reports (push_return n).
Proof. intros v. unfold push_return. destruct (Nat.leb _ _); reflexivity. Qed.
Lemma reports_pop_return : reports pop_return.
Proof. intros v. unfold pop_return. destruct (v_ret v); reflexivity. Qed.
Lemma reports_dump_for t : reports (dump_for t).
Proof.
  intros v. unfold dump_for. destruct (cs_code (v_cs v)) as [r|]; [|exact I]. destruct (c_source (code_of v r)) as [src|]; [|exact I]. destruct (nth_error src _) as [l|]; [|exact I].
  apply (reports_bind _ _ (reports_put _) (fun _ => reports_dump_for_stack _)).
Qed.
Lemma reports_trace_for m : reports m -> reports (trace_for m).
Proof. intros H v. unfold trace_for. destruct (o_trace_for _); [apply H|reflexivity]. Qed.
Lemma reports_find_data : reports find_data.
Proof.
  intros v. unfold find_data.
  match goal with |- match ?x with _ => _ end => set (r := x) end.
  assert (H : match r with (Ok _, w) => v_err w = v_err v | (Fail e, w) => v_err w = v_err v ++ [mkErr e (shown_line w)] | _ => True end); [|exact H].
  subst r. destruct (cs_code (v_cs v)) as [[]|], (c_bcode (v_imm v)) as [b|], (c_bcode (v_stored v)) as [b'|]; cbn [andb];
    repeat match goal with |- context [if ?x then _ else _] => destruct x | |- context [match nth_error ?a ?b with _ => _ end] => destruct (nth_error a b) as [[]|] end; cbv zeta; try reflexivity; try exact I.
Qed.

Ltac rep_step :=
  match goal with
  | |- reports (bind _ _) => apply reports_bind; [|intros ?]
  | |- reports (ret _) => apply reports_ret
  | |- reports crash => apply reports_crash
  | |- reports get => apply reports_get
  | |- reports (assert _) => apply reports_assert
  | |- reports (some_or_crash _) => apply reports_some
  | |- reports (run_error _) => apply reports_error
  | |- reports get_bcode => apply reports_get_bcode
  | |- reports (get_sym _) => apply reports_get_sym
  | |- reports (find_basic_line _) => apply reports_find_basic_line
  | |- reports (push _) => apply reports_push
  | |- reports pop => apply reports_pop
  | |- reports (push_str _) => apply reports_push_str
  | |- reports pop_str => apply reports_pop_str
  | |- reports (put _) => apply reports_put
  | |- reports (put_cols _ _) => apply reports_put_cols
  | |- reports (dump_for_stack _) => apply reports_dump_for_stack
  | |- reports (dump_for _) => apply reports_dump_for
  | |- reports (trace_for _) => apply reports_trace_for
  | |- reports find_data => apply reports_find_data
  | |- reports (push_return _) => apply reports_push_return
  | |- reports pop_return => apply reports_pop_return
  | |- reports (modify _) => apply reports_modify; first [intros; reflexivity | intros ?; repeat match goal with |- context [match ?x with _ => _ end] => destruct x end; reflexivity]
  | |- reports (put_sym _ _) => unfold put_sym
  | |- reports (push_logic _) => unfold push_logic
  | |- reports pop_logic => unfold pop_logic
  | |- reports pop_unsigned => unfold pop_unsigned
  | |- reports (pop_index _) => unfold pop_index
  | |- reports (push_buf _) => unfold push_buf
  | |- reports compare_strings => unfold compare_strings
  | |- reports (pop_indexes _ _) => unfold pop_indexes
  | |- reports (if ?b then _ else _) => destruct b
  | |- reports (match ?x with _ => _ end) => destruct x
  | |- reports (adv _) => unfold adv
  | |- reports (jump _) => unfold jump
  | |- reports (unary _) => unfold unary
  | |- reports (binary _) => unfold binary
  | |- reports (compare_num _) => unfold compare_num
  | |- reports (compare_str _) => unfold compare_str
  | |- reports (get_numeric_simple _) => unfold get_numeric_simple
  | |- reports (set_numeric_simple _ _) => unfold set_numeric_simple
  | |- reports (dimension_numeric _ _) => unfold dimension_numeric
  | |- reports (dimension_numeric_auto _ _) => unfold dimension_numeric_auto
  | |- reports (numeric_array_at _ _) => unfold numeric_array_at
  | |- reports (get_numeric_element _ _) => unfold get_numeric_element
  | |- reports (set_numeric_element _ _ _) => unfold set_numeric_element
  | |- reports (set_numeric _ _ _) => unfold set_numeric
  | |- reports (get_string_simple _) => unfold get_string_simple
  | |- reports (set_string_simple _ _) => unfold set_string_simple
  | |- reports (dimension_string _ _) => unfold dimension_string
  | |- reports (dimension_string_auto _ _) => unfold dimension_string_auto
  | |- reports (string_array_at _ _) => unfold string_array_at
  | |- reports (get_string_element _ _) => unfold get_string_element
  | |- reports (set_string_element _ _ _) => unfold set_string_element
  | |- reports (set_string _ _ _) => unfold set_string
  | |- reports (go_to_basic_line _) => unfold go_to_basic_line
  | |- reports (next _) => unfold next
  | |- reports (exec_for _) => unfold exec_for
  | |- reports (call_def _ _) => unfold call_def
  | |- reports end_def => unfold end_def
  | |- reports (exec_def _ _) => unfold exec_def
  | |- reports (exec_dim_num _ _) => unfold exec_dim_num
  | |- reports (exec_dim_str _ _) => unfold exec_dim_str
  | |- reports (exec_on _ _) => unfold exec_on
  | |- reports (skip_to _) => unfold skip_to
  end; cbv beta zeta.
Lemma reports_loop n name : reports (pop_indexes_loop n name).
Proof. induction n as [|n IH]; cbn [pop_indexes_loop]; repeat first [exact IH|rep_step]. Qed.
Lemma exec_reports E i : reports (exec_instr E i).
Proof.
  destruct i; cbn [exec_instr]; repeat first [apply reports_loop|rep_step].
  - intros v. destruct (o_trace_basic _); [|reflexivity]. destruct (cs_code (v_cs v)) as [r|]; [|exact I]. destruct (c_source (code_of v r)) as [src|]; [|exact I].
    destruct (nth_error src _) as [l|]; [reflexivity|exact I].
  - intros v. destruct (rnd_loop _ _ _ _) as [[x k]|]; [|exact I]. pose proof (reports_bind _ (fun _ => ret true) (reports_push x) (fun _ => reports_ret true) (set_rand (v_seed v) k (v_clock v) v)) as X. exact X.
  - intros v. destruct (e_hms E (v_clock v)) as [[h m] s]. match goal with |- match adv (push_str ?t) ?u with _ => _ end => pose proof (reports_bind _ (fun _ => ret true) (reports_push_str t) (fun _ => reports_ret true) u) as X end. exact X.
Qed.
Lemma execute_reports E : reports (execute E).
Proof. unfold execute. repeat first [apply exec_reports|rep_step]. Qed.
Lemma runs_err E v l w : runs E v l w -> v_err w = v_err v.
Proof. induction 1 as [v|v v1 l w X R IH]; [reflexivity|]. pose proof (execute_reports E v) as H. rewrite X in H. congruence. Qed.

(* ---------- what is printed stays printed ---------- *)

Definition grows {A} (m : M A) : Prop := forall v, exists x, v_out (snd (m v)) = v_out v ++ x.
Lemma grows_keeps {A} (m : M A) : keeps v_out m -> grows m.
Proof. intros K v. exists []. rewrite app_nil_r. apply K. Qed.
Lemma grows_ret {A} (a : A) : grows (ret a).
Proof. apply grows_keeps. intros v. reflexivity. Qed.
Lemma grows_crash {A} : grows (@crash A).
Proof. apply grows_keeps. intros v. reflexivity. Qed.
Lemma grows_get : grows get.
Proof. apply grows_keeps. intros v. reflexivity. Qed.
Lemma grows_bind {A B} (m : M A) (k : A -> M B) : grows m -> (forall a, grows (k a)) -> grows (bind m k).
Proof.
  intros H K v. unfold bind. destruct (H v) as (x & X). destruct (m v) as [[a|e| |] w]; cbn [snd] in X; try (exists x; exact X).
  destruct (K a w) as (y & Y). exists (x ++ y). rewrite Y, X, app_assoc. reflexivity.
Qed.
Lemma grows_modify g : (forall v, exists x, v_out (g v) = v_out v ++ x) -> grows (modify g).
Proof. intros H v. exact (H v). Qed.
Lemma grows_assert b : grows (assert b).
Proof. destruct b; [apply grows_ret|apply grows_crash]. Qed.
Lemma grows_some {A} (o : option A) : grows (some_or_crash o).
Proof. destruct o; [apply grows_ret|apply grows_crash]. Qed.
Lemma grows_error {A} e : grows (@run_error A e).
Proof. apply grows_keeps. intros v. reflexivity. Qed.
Lemma grows_get_bcode : grows get_bcode.
Proof. apply grows_keeps, keeps_get_bcode. Qed.
Lemma grows_get_sym id : grows (get_sym id).
Proof. apply grows_keeps, keeps_get_sym. Qed.
Lemma grows_find_basic_line n : grows (find_basic_line n).
Proof. apply grows_keeps, keeps_find_basic_line. reflexivity. Qed.
Lemma grows_push x : grows (push x).
Proof. apply grows_keeps, keeps_push; reflexivity. Qed.
Lemma grows_pop : grows pop.
Proof. apply grows_keeps, keeps_pop; reflexivity. Qed.
Lemma grows_push_str x : grows (push_str x).
Proof. apply grows_keeps, keeps_push_str; reflexivity. Qed.
Lemma grows_pop_str : grows pop_str.
Proof. apply grows_keeps, keeps_pop_str; reflexivity. Qed.
Lemma grows_put s : grows (put s).
Proof. intros v. eexists. reflexivity. Qed.
Lemma grows_put_cols s c : grows (put_cols s c).
Proof. intros v. eexists. reflexivity. Qed.
Lemma grows_dump_for_stack t : grows (dump_for_stack t).
Proof. intros v. unfold dump_for_stack. destruct (v_for v); [apply grows_put|]. destruct (dump_entries _ _); [apply grows_put|]. exists []. rewrite app_nil_r. reflexivity. Qed.
Lemma grows_push_return n : grows (push_return n).
Proof. apply grows_keeps, keeps_push_return; reflexivity. Qed.
Lemma grows_pop_return : grows pop_return.
Proof. apply grows_keeps, keeps_pop_return; reflexivity. Qed.
Lemma grows_dump_for t : grows (dump_for t).
Proof.
  intros v. unfold dump_for. assert (N : exists x, v_out v = v_out v ++ x) by (exists []; rewrite app_nil_r; reflexivity).
  destruct (cs_code (v_cs v)) as [r|]; [|exact N]. destruct (c_source (code_of v r)) as [src|]; [|exact N]. destruct (nth_error src _) as [l|]; [|exact N].
  apply (grows_bind _ _ (grows_put _) (fun _ => grows_dump_for_stack _)).
Qed.
Lemma grows_trace_for m : grows m -> grows (trace_for m).
Proof. intros H v. unfold trace_for. destruct (o_trace_for _); [apply H|exists []; rewrite app_nil_r; reflexivity]. Qed.
Lemma grows_find_data : grows find_data.
Proof. apply grows_keeps, keeps_find_data; reflexivity. Qed.
Ltac grow_step :=
  match goal with
  | |- grows (bind _ _) => apply grows_bind; [|intros ?]
  | |- grows (ret _) => apply grows_ret
  | |- grows crash => apply grows_crash
  | |- grows get => apply grows_get
  | |- grows (assert _) => apply grows_assert
  | |- grows (some_or_crash _) => apply grows_some
  | |- grows (run_error _) => apply grows_error
  | |- grows get_bcode => apply grows_get_bcode
  | |- grows (get_sym _) => apply grows_get_sym
  | |- grows (find_basic_line _) => apply grows_find_basic_line
  | |- grows (push _) => apply grows_push
  | |- grows pop => apply grows_pop
  | |- grows (push_str _) => apply grows_push_str
  | |- grows pop_str => apply grows_pop_str
  | |- grows (put _) => apply grows_put
  | |- grows (put_cols _ _) => apply grows_put_cols
  | |- grows (dump_for_stack _) => apply grows_dump_for_stack
  | |- grows (dump_for _) => apply grows_dump_for
  | |- grows (trace_for _) => apply grows_trace_for
  | |- grows find_data => apply grows_find_data
  | |- grows (push_return _) => apply grows_push_return
  | |- grows pop_return => apply grows_pop_return
  | |- grows (modify _) => apply grows_modify; intros ?; repeat match goal with |- context [match ?x with _ => _ end] => destruct x end; first [exists []; rewrite app_nil_r; reflexivity | eexists; reflexivity]
  | |- grows (put_sym _ _) => unfold put_sym
  | |- grows (push_logic _) => unfold push_logic
  | |- grows pop_logic => unfold pop_logic
  | |- grows pop_unsigned => unfold pop_unsigned
  | |- grows (pop_index _) => unfold pop_index
  | |- grows (push_buf _) => unfold push_buf
  | |- grows compare_strings => unfold compare_strings
  | |- grows (pop_indexes _ _) => unfold pop_indexes
  | |- grows (if ?b then _ else _) => destruct b
  | |- grows (match ?x with _ => _ end) => destruct x
  | |- grows (adv _) => unfold adv
  | |- grows (jump _) => unfold jump
  | |- grows (unary _) => unfold unary
  | |- grows (binary _) => unfold binary
  | |- grows (compare_num _) => unfold compare_num
  | |- grows (compare_str _) => unfold compare_str
  | |- grows (get_numeric_simple _) => unfold get_numeric_simple
  | |- grows (set_numeric_simple _ _) => unfold set_numeric_simple
  | |- grows (dimension_numeric _ _) => unfold dimension_numeric
  | |- grows (dimension_numeric_auto _ _) => unfold dimension_numeric_auto
  | |- grows (numeric_array_at _ _) => unfold numeric_array_at
  | |- grows (get_numeric_element _ _) => unfold get_numeric_element
  | |- grows (set_numeric_element _ _ _) => unfold set_numeric_element
  | |- grows (set_numeric _ _ _) => unfold set_numeric
  | |- grows (get_string_simple _) => unfold get_string_simple
  | |- grows (set_string_simple _ _) => unfold set_string_simple
  | |- grows (dimension_string _ _) => unfold dimension_string
  | |- grows (dimension_string_auto _ _) => unfold dimension_string_auto
  | |- grows (string_array_at _ _) => unfold string_array_at
  | |- grows (get_string_element _ _) => unfold get_string_element
  | |- grows (set_string_element _ _ _) => unfold set_string_element
  | |- grows (set_string _ _ _) => unfold set_string
  | |- grows (go_to_basic_line _) => unfold go_to_basic_line
  | |- grows (next _) => unfold next
  | |- grows (exec_for _) => unfold exec_for
  | |- grows (call_def _ _) => unfold call_def
  | |- grows end_def => unfold end_def
  | |- grows (exec_def _ _) => unfold exec_def
  | |- grows (exec_dim_num _ _) => unfold exec_dim_num
  | |- grows (exec_dim_str _ _) => unfold exec_dim_str
  | |- grows (exec_on _ _) => unfold exec_on
  | |- grows (skip_to _) => unfold skip_to
  end; cbv beta zeta.
Lemma grows_loop n name : grows (pop_indexes_loop n name).
Proof. induction n as [|n IH]; cbn [pop_indexes_loop]; repeat first [exact IH|grow_step]. Qed.
Lemma exec_grows E i : grows (exec_instr E i).
Proof.
  assert (N : forall v, exists x, v_out v = v_out v ++ x) by (intros v; exists []; rewrite app_nil_r; reflexivity).
  destruct i; cbn [exec_instr]; repeat first [apply grows_loop|grow_step].
  - intros v. destruct (o_trace_basic _); [|apply N]. destruct (cs_code (v_cs v)) as [r|]; [|apply N]. destruct (c_source (code_of v r)) as [src|]; [|apply N].
    destruct (nth_error src _) as [l|]; [|apply N]. eexists. reflexivity.
  - intros v. destruct (rnd_loop _ _ _ _) as [[x k]|]; [|apply N]. exact (grows_bind _ (fun _ => ret true) (grows_push x) (fun _ => grows_ret true) (set_rand (v_seed v) k (v_clock v) v)).
  - intros v. destruct (e_hms E (v_clock v)) as [[h m] s]. match goal with |- exists x, v_out (snd (adv (push_str ?t) ?u)) = _ => exact (grows_bind _ (fun _ => ret true) (grows_push_str t) (fun _ => grows_ret true) u) end.
Qed.
Lemma execute_grows E : grows (execute E).
Proof. unfold execute. repeat first [apply exec_grows|grow_step]. Qed.
Lemma loop_grows E fuel : forall brk v, exists x, v_out (snd (run_loop E fuel brk v)) = v_out v ++ x.
Proof.
  assert (N : forall v, exists x, v_out v = v_out v ++ x) by (intros v; exists []; rewrite app_nil_r; reflexivity).
  induction fuel as [|f IH]; intros brk v; cbn [run_loop]; (destruct (cur_bcode v) as [bc|]; [|apply N]); (destruct (_ && _); [|apply N]); [apply N|].
  destruct (execute_grows E v) as (x & X). destruct (execute E v) as [[u|e| |] w]; cbn [snd] in X; try (exists x; exact X).
  destruct (IH (tick brk) w) as (y & Y). exists (x ++ y). rewrite Y, X, app_assoc. reflexivity.
Qed.
