(* Tools for reasoning about the machine of VmModel.v. *)
From Coq Require Import Lia ZifyBool ZifyNat ZifyN.
From Verif Require Import Base BaseLemmas Num SourceModel LineMapModel ArrayModel BcodeModel SymbolModel VmModel.

(* ---------- invariants of actions ---------- *)

(* P holds afterwards whatever the outcome *)
Definition inv {A} (P : vm -> Prop) (m : M A) : Prop := forall v, P v -> P (snd (m v)).

Lemma inv_ret {A} P (a : A) : inv P (ret a).
Proof. intros v H. exact H. Qed.
Lemma inv_crash {A} P : inv P (@crash A).
Proof. intros v H. exact H. Qed.
Lemma inv_get P : inv P get.
Proof. intros v H. exact H. Qed.
Lemma inv_bind {A B} P (m : M A) (f : A -> M B) :
  inv P m -> (forall a, inv P (f a)) -> inv P (bind m f).
Proof.
  intros Hm Hf v Hv. unfold bind. specialize (Hm v Hv). destruct (m v) as [[a|e| |] v']; cbn [snd] in *;
    [apply Hf, Hm|exact Hm..].
Qed.
Lemma inv_modify (P : vm -> Prop) f : (forall v, P v -> P (f v)) -> inv P (modify f).
Proof. intros H v Hv. apply H, Hv. Qed.
Lemma inv_assert P b : inv P (assert b).
Proof. unfold assert. destruct b; [apply inv_ret|apply inv_crash]. Qed.
Lemma inv_some {A} P (o : option A) : inv P (some_or_crash o).
Proof. unfold some_or_crash. destruct o; [apply inv_ret|apply inv_crash]. Qed.

(* one field (or any function of the state) is left alone *)
Definition keeps {A T} (f : vm -> T) (m : M A) : Prop := forall v, f (snd (m v)) = f v.

Lemma keeps_inv {A T} (f : vm -> T) (m : M A) : keeps f m -> forall c, inv (fun v => f v = c) m.
Proof. intros H c v Hv. rewrite H. exact Hv. Qed.
Lemma inv_keeps {A T} (f : vm -> T) (m : M A) : (forall c, inv (fun v => f v = c) m) -> keeps f m.
Proof. intros H v. exact (H (f v) v eq_refl). Qed.

Lemma keeps_ret {A T} (f : vm -> T) (a : A) : keeps f (ret a).
Proof. intros v. reflexivity. Qed.
Lemma keeps_crash {A T} (f : vm -> T) : keeps f (@crash A).
Proof. intros v. reflexivity. Qed.
Lemma keeps_get {T} (f : vm -> T) : keeps f get.
Proof. intros v. reflexivity. Qed.
Lemma keeps_bind {A B T} (f : vm -> T) (m : M A) (k : A -> M B) :
  keeps f m -> (forall a, keeps f (k a)) -> keeps f (bind m k).
Proof.
  intros Hm Hk v. unfold bind. specialize (Hm v). destruct (m v) as [[a|e| |] v']; cbn [snd] in *;
    [rewrite Hk; exact Hm|exact Hm..].
Qed.
Lemma keeps_modify {T} (f : vm -> T) g : (forall v, f (g v) = f v) -> keeps f (modify g).
Proof. intros H v. apply H. Qed.
Lemma keeps_assert {T} (f : vm -> T) b : keeps f (assert b).
Proof. unfold assert. destruct b; [apply keeps_ret|apply keeps_crash]. Qed.
Lemma keeps_some {A T} (f : vm -> T) (o : option A) : keeps f (some_or_crash o).
Proof. unfold some_or_crash. destruct o; [apply keeps_ret|apply keeps_crash]. Qed.

(* ---------- what run_error, push, pop ... leave alone ---------- *)

Section Frames.
Context {T : Type} (f : vm -> T).

Hypothesis f_err : forall e v, f (set_err e v) = f v.

Lemma keeps_run_error {A} e : keeps f (@run_error A e).
Proof. intros v. apply f_err. Qed.

Lemma keeps_get_bcode : keeps f get_bcode.
Proof. intros v. unfold get_bcode. destruct (cur_bcode v); reflexivity. Qed.

Lemma keeps_get_sym id : keeps f (get_sym id).
Proof. intros v. unfold get_sym. destruct (symbol_at _ _); reflexivity. Qed.

Lemma keeps_find_basic_line n : keeps f (find_basic_line n).
Proof.
  intros v. unfold find_basic_line. destruct (c_index _) as [idx|]; [|apply f_err].
  destruct (lookup_line_mapping idx n); [reflexivity|apply f_err].
Qed.

Section Stack.
Hypothesis f_stack : forall s v, f (set_stack s v) = f v.

Lemma keeps_push x : keeps f (push x).
Proof. intros v. unfold push. destruct (Nat.leb _ _); [apply f_err|apply f_stack]. Qed.
Lemma keeps_pop : keeps f pop.
Proof. intros v. unfold pop. destruct (v_stack v); [apply f_err|apply f_stack]. Qed.
Lemma keeps_push_logic b : keeps f (push_logic b).
Proof. apply keeps_push. Qed.
Lemma keeps_pop_logic : keeps f pop_logic.
Proof.
  unfold pop_logic. apply keeps_bind; [apply keeps_pop|]. intros x.
  destruct (_ || _); [apply keeps_run_error|]. destruct (ftoZ x); [apply keeps_ret|apply keeps_crash].
Qed.
Lemma keeps_pop_unsigned : keeps f pop_unsigned.
Proof.
  unfold pop_unsigned. apply keeps_bind; [apply keeps_pop|]. intros x.
  destruct (_ || _); [apply keeps_run_error|]. destruct (fgtb _ _); [apply keeps_run_error|].
  destruct (ftoZ x); [apply keeps_ret|apply keeps_crash].
Qed.
Lemma keeps_pop_index name : keeps f (pop_index name).
Proof.
  unfold pop_index. apply keeps_bind; [apply keeps_pop|]. intros x.
  destruct (_ || _); [apply keeps_run_error|]. destruct (fgtb _ _); [apply keeps_run_error|].
  destruct (ftoZ x); [apply keeps_ret|apply keeps_crash].
Qed.
Lemma keeps_pop_indexes_loop n name : keeps f (pop_indexes_loop n name).
Proof.
  induction n as [|n IH]; cbn [pop_indexes_loop]; [apply keeps_ret|].
  apply keeps_bind; [apply keeps_pop_index|]. intros i.
  apply keeps_bind; [apply IH|]. intros r. apply keeps_ret.
Qed.
Lemma keeps_pop_indexes d name : keeps f (pop_indexes d name).
Proof. unfold pop_indexes. apply keeps_bind; [apply keeps_assert|]. intros _. apply keeps_pop_indexes_loop. Qed.
End Stack.

Section SStack.
Hypothesis f_sstack : forall s v, f (set_sstack s v) = f v.

Lemma keeps_push_str x : keeps f (push_str x).
Proof. intros v. unfold push_str. destruct (Nat.leb _ _); [apply f_err|apply f_sstack]. Qed.
Lemma keeps_pop_str : keeps f pop_str.
Proof. intros v. unfold pop_str. destruct (v_sstack v); [apply f_err|apply f_sstack]. Qed.
Lemma keeps_compare_strings : keeps f compare_strings.
Proof.
  unfold compare_strings. apply keeps_bind; [apply keeps_pop_str|]. intros t.
  apply keeps_bind; [apply keeps_pop_str|]. intros s. apply keeps_ret.
Qed.
Lemma keeps_push_buf s : keeps f (push_buf s).
Proof. unfold push_buf. destruct (Nat.ltb _ _); [apply keeps_run_error|apply keeps_push_str]. Qed.
End SStack.

Section Out.
Hypothesis f_outcol : forall o c v, f (set_outcol o c v) = f v.

Lemma keeps_put s : keeps f (put s).
Proof. intros v. apply f_outcol. Qed.
Lemma keeps_put_cols s c : keeps f (put_cols s c).
Proof. intros v. apply f_outcol. Qed.
Lemma keeps_dump_for_stack t : keeps f (dump_for_stack t).
Proof.
  intros v. unfold dump_for_stack. destruct (v_for v); [apply keeps_put|].
  destruct (dump_entries _ _); [apply keeps_put|reflexivity].
Qed.
Lemma keeps_dump_for t : keeps f (dump_for t).
Proof.
  intros v. unfold dump_for. destruct (cs_code (v_cs v)) as [r|]; [|reflexivity].
  destruct (c_source _) as [src|]; [|reflexivity]. destruct (nth_error src _); [|reflexivity].
  apply keeps_bind; [apply keeps_put|]. intros _. apply keeps_dump_for_stack.
Qed.
Lemma keeps_trace_for m : keeps f m -> keeps f (trace_for m).
Proof. intros H v. unfold trace_for. destruct (o_trace_for _); [apply H|reflexivity]. Qed.
End Out.

Section Data.
Hypothesis f_data : forall p i v, f (set_data p i v) = f v.
Lemma keeps_find_data : keeps f find_data.
Proof.
  intros v. unfold find_data.
  assert (H : forall im : bool, f (snd (match (if im then c_bcode (v_imm v) else c_bcode (v_stored v)) with
        | None => run_error RE_no_data v
        | Some b =>
            if negb (bc_has_data b) then run_error RE_no_data v
            else
              let dp := if im then v_idata v else v_pdata v in
              let dp' := dp + scan_to is_data (skipn dp (bc_inst b)) in
              match nth_error (bc_inst b) dp' with
              | Some (I_DATA s) =>
                  (Ok s, if im then set_data (v_pdata v) (S dp') v
                         else set_data (S dp') (v_idata v) v)
              | _ => run_error RE_out_of_data v
              end
        end)) = f v).
  { intros im. destruct (if im then _ else _) as [b|]; [|apply f_err].
    destruct (negb _); [apply f_err|]. cbv zeta.
    destruct (nth_error _ _) as [[]|]; try apply f_err. destruct im; apply f_data. }
  destruct (match cs_code (v_cs v) with Some CImmediate => true | _ => false end);
    destruct (c_bcode (v_imm v)) as [b|]; try reflexivity; cbn [andb];
    first [apply (H true)|apply (H false)|apply (H (bc_has_data b))].
Qed.
End Data.

End Frames.

(* Case analysis through an action; named actions are handled by the lemmas
   above when the field is not theirs. *)
Ltac side := first [ assumption | intros; reflexivity ].
Ltac keeps_step :=
  match goal with
  | |- keeps _ (bind _ _) => apply keeps_bind; [|intros ?]
  | |- keeps _ (ret _) => apply keeps_ret
  | |- keeps _ crash => apply keeps_crash
  | |- keeps _ get => apply keeps_get
  | |- keeps _ (assert _) => apply keeps_assert
  | |- keeps _ (some_or_crash _) => apply keeps_some
  | |- keeps _ (run_error _) => apply keeps_run_error; side
  | |- keeps _ get_bcode => apply keeps_get_bcode
  | |- keeps _ (get_sym _) => apply keeps_get_sym
  | |- keeps _ (find_basic_line _) => apply keeps_find_basic_line; side
  | |- keeps _ (push _) => apply keeps_push; side
  | |- keeps _ pop => apply keeps_pop; side
  | |- keeps _ (push_logic _) => apply keeps_push_logic; side
  | |- keeps _ pop_logic => apply keeps_pop_logic; side
  | |- keeps _ pop_unsigned => apply keeps_pop_unsigned; side
  | |- keeps _ (pop_index _) => apply keeps_pop_index; side
  | |- keeps _ (pop_indexes _ _) => apply keeps_pop_indexes; side
  | |- keeps _ (push_str _) => apply keeps_push_str; side
  | |- keeps _ pop_str => apply keeps_pop_str; side
  | |- keeps _ compare_strings => apply keeps_compare_strings; side
  | |- keeps _ (push_buf _) => apply keeps_push_buf; side
  | |- keeps _ (put _) => apply keeps_put; side
  | |- keeps _ (put_cols _ _) => apply keeps_put_cols; side
  | |- keeps _ (dump_for_stack _) => apply keeps_dump_for_stack; side
  | |- keeps _ (dump_for _) => apply keeps_dump_for; side
  | |- keeps _ (trace_for _) => apply keeps_trace_for
  | |- keeps _ find_data => apply keeps_find_data; side
  | |- keeps _ (put_sym _ _) => unfold put_sym
  | |- keeps _ (modify _) => apply keeps_modify; first [side | intros ?; repeat match goal with |- context [match ?x with _ => _ end] => destruct x end; reflexivity]
  | |- keeps _ (if ?b then _ else _) => destruct b
  | |- keeps _ (match ?x with _ => _ end) => destruct x
  | |- keeps _ (adv _) => unfold adv
  | |- keeps _ (jump _) => unfold jump
  | |- keeps _ (unary _) => unfold unary
  | |- keeps _ (binary _) => unfold binary
  | |- keeps _ (compare_num _) => unfold compare_num
  | |- keeps _ (compare_str _) => unfold compare_str
  | |- keeps _ (get_numeric_simple _) => unfold get_numeric_simple
  | |- keeps _ (set_numeric_simple _ _) => unfold set_numeric_simple
  | |- keeps _ (dimension_numeric _ _) => unfold dimension_numeric
  | |- keeps _ (dimension_numeric_auto _ _) => unfold dimension_numeric_auto
  | |- keeps _ (numeric_array_at _ _) => unfold numeric_array_at
  | |- keeps _ (get_numeric_element _ _) => unfold get_numeric_element
  | |- keeps _ (set_numeric_element _ _ _) => unfold set_numeric_element
  | |- keeps _ (set_numeric _ _ _) => unfold set_numeric
  | |- keeps _ (get_string_simple _) => unfold get_string_simple
  | |- keeps _ (set_string_simple _ _) => unfold set_string_simple
  | |- keeps _ (dimension_string _ _) => unfold dimension_string
  | |- keeps _ (dimension_string_auto _ _) => unfold dimension_string_auto
  | |- keeps _ (string_array_at _ _) => unfold string_array_at
  | |- keeps _ (get_string_element _ _) => unfold get_string_element
  | |- keeps _ (set_string_element _ _ _) => unfold set_string_element
  | |- keeps _ (set_string _ _ _) => unfold set_string
  | |- keeps _ (go_to_basic_line _) => unfold go_to_basic_line
  | |- keeps _ (next _) => unfold next
  | |- keeps _ (exec_for _) => unfold exec_for
  | |- keeps _ (call_def _ _) => unfold call_def
  | |- keeps _ end_def => unfold end_def
  | |- keeps _ (exec_def _ _) => unfold exec_def
  | |- keeps _ (exec_dim_num _ _) => unfold exec_dim_num
  | |- keeps _ (exec_dim_str _ _) => unfold exec_dim_str
  | |- keeps _ (exec_on _ _) => unfold exec_on
  | |- keeps _ (skip_to _) => unfold skip_to
  | |- keeps _ (fun _ => _) => intros ?
  end; cbv beta zeta.
Ltac keeps_go := repeat keeps_step.

Lemma keeps_push_return {T} (f : vm -> T) n :
  (forall e v, f (set_err e v) = f v) -> (forall r v, f (set_ret r v) = f v) -> keeps f (push_return n).
Proof. intros He Hr v. unfold push_return. destruct (Nat.leb _ _); [apply He|apply Hr]. Qed.
Lemma keeps_pop_return {T} (f : vm -> T) :
  (forall e v, f (set_err e v) = f v) -> (forall r v, f (set_ret r v) = f v) ->
  (forall c v, f (set_cs c v) = f v) -> keeps f pop_return.
Proof.
  intros He Hr Hc v. unfold pop_return. destruct (v_ret v); [apply He|]. cbn [snd]. rewrite Hc. apply Hr.
Qed.

Ltac keeps_more :=
  first [ keeps_step
        | apply keeps_push_return; side
        | apply keeps_pop_return; side
        | match goal with
          | |- ?f (snd (adv ?m (set_rand ?a ?b ?c ?v))) = _ =>
              transitivity (f (set_rand a b c v));
                [assert (K : keeps f (adv m)); [|apply K]|side]
          | |- context [match ?x with _ => _ end] => destruct x
          | |- _ => reflexivity
          end ].

(* ---------- which instructions touch what ---------- *)

Lemma exec_keeps_stored E i : keeps v_stored (exec_instr E i).
Proof. destruct i; cbn [exec_instr]; repeat keeps_more. Qed.

Lemma exec_keeps_imm E i : keeps v_imm (exec_instr E i).
Proof. destruct i; cbn [exec_instr]; repeat keeps_more. Qed.
Lemma exec_keeps_opt E i : keeps v_opt (exec_instr E i).
Proof. destruct i; cbn [exec_instr]; repeat keeps_more. Qed.
Lemma exec_keeps_stopcs E i : keeps v_stopcs (exec_instr E i).
Proof. destruct i; cbn [exec_instr]; repeat keeps_more. Qed.

Definition touches_ret (i : instr) : bool :=
  match i with I_GOSUB _ | I_ON_GOSUB _ | I_RETURN => true | _ => false end.
Lemma exec_keeps_ret E i : touches_ret i = false -> keeps v_ret (exec_instr E i).
Proof. destruct i; intros H; try discriminate H; clear H; cbn [exec_instr]; repeat keeps_more. Qed.

Definition touches_for (i : instr) : bool :=
  match i with I_FOR _ | I_NEXT_VAR _ | I_NEXT_IMP => true | _ => false end.
Lemma exec_keeps_for E i : touches_for i = false -> keeps v_for (exec_instr E i).
Proof. destruct i; intros H; try discriminate H; clear H; cbn [exec_instr]; repeat keeps_more. Qed.

Definition touches_data (i : instr) : bool :=
  match i with I_READ_NUM _ _ | I_READ_STR _ _ | I_RESTORE | I_RESTORE_LINE _ => true | _ => false end.
Lemma exec_keeps_data E i : touches_data i = false ->
  keeps v_pdata (exec_instr E i) /\ keeps v_idata (exec_instr E i).
Proof.
  destruct i; intros H; try discriminate H; clear H; split; cbn [exec_instr]; repeat keeps_more.
Qed.

Definition touches_def (i : instr) : bool :=
  match i with I_GET_PAREN_NUM _ _ | I_GET_PAREN_STR _ _ => true | _ => false end.
Lemma exec_keeps_def E i : touches_def i = false -> keeps v_def (exec_instr E i).
Proof. destruct i; intros H; try discriminate H; clear H; cbn [exec_instr]; repeat keeps_more. Qed.
Definition touches_fn (i : instr) : bool :=
  match i with I_GET_PAREN_NUM _ _ | I_GET_PAREN_STR _ _ | I_END_DEF => true | _ => false end.
Lemma exec_keeps_fn E i : touches_fn i = false -> keeps v_fn (exec_instr E i).
Proof. destruct i; intros H; try discriminate H; clear H; cbn [exec_instr]; repeat keeps_more. Qed.

Lemma exec_keeps_stopped E i : (match i with I_STOP => true | _ => false end) = false ->
  keeps v_stopped (exec_instr E i).
Proof. destruct i; intros H; try discriminate H; clear H; cbn [exec_instr]; repeat keeps_more. Qed.

Definition touches_rand (i : instr) : bool :=
  match i with I_RAND | I_SEED | I_RND | I_TIME_STR => true | _ => false end.
Lemma exec_keeps_rand E i : touches_rand i = false ->
  keeps (fun v => (v_seed v, v_randk v, v_clock v)) (exec_instr E i).
Proof. destruct i; intros H; try discriminate H; clear H; cbn [exec_instr]; repeat keeps_more. Qed.
