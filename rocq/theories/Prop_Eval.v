(* C23: the values of expressions. C17: the values of user functions. *)
From Coq Require Import Lia.
From Verif Require Import Base Num NumSpec DoubleProofs BcodeModel SymbolModel SymbolSpec SymbolProofs LexModel VmModel VmSpec OpSpec VmTyping ValueSpec ValueProofs
  StoreSpec FnSpec GrammarSpec ParseProofs TypeSpec CodeProofs CompileProofs EvalSpec EvalProofs Examples Prop_Store Prop_Fn.
Local Open Scope nat_scope.
Local Notation num := Num.num.
Local Notation named := StoreSpec.named.

(* Executing the code of an expression gives the value of the expression, or
   the error its evaluation raises: the value comes on top of the stack for its
   type, the memory is what the evaluation makes of it, and nothing else
   changes. The stacks have limits, and with more values than fit the
   execution ends there. *)
Theorem C23_value : forall E g e v m r, env_ok E -> rand_range E -> fit g v -> on_line v -> holds v m -> functions_ok g m ->
  wt g e -> code_here v = ecode e ++ r -> r <> [] ->
  overflows E v \/ machine_gives E v (length (ecode e)) (evaluate E e m).
Proof. intros E g e v m r A B C D F G H. exact (value_computed E g A B e v m r H C D F G). Qed.
Print Assumptions C23_value.

(* In a function the same holds, except that no function can be called. *)
Theorem C23_function_value : forall E g e v m r, env_ok E -> rand_range E -> fit g v -> in_function v -> holds v m -> functions_ok g m ->
  wt g e -> code_here v = ecode e ++ r -> r <> [] ->
  overflows E v \/ machine_gives E v (length (ecode e)) (eval E no_call e m).
Proof. intros E g e v m r A B C D F G H. exact (body_computed E g A B e v m r H C D F G). Qed.
Print Assumptions C23_function_value.

(* The statements of a program, read by the grammar, in which the operators
   have their precedence, use their names correctly. Compiling gives their
   code (C30_outcome). *)
Theorem C23_program : forall kw st src xss st', program_is kw st src xss st' -> fine st -> few_names st' ->
  Forall (Forall (wstmt (sigs (sym_make_unknown_array st')))) xss.
Proof. intros kw st src xss st' P F W. exact (program_good st' W kw st src xss st' P F (Nm_refl st')). Qed.
Print Assumptions C23_program.

(* The machine holds a memory, if its functions come from definitions. *)
Theorem C23_memory : forall g v f, typed g v ->
  (forall id t, named v id KDef t -> match f id with
     | None => function v id = None
     | Some (p, e) => exists d, function v id = Some d /\ body d = definition id p e /\ etype e = vtype_of t
     end) -> holds v (memory_of v f).
Proof. exact memory_holds. Qed.
Print Assumptions C23_memory.

(* A call f(a) of a user function gives the value of its expression with the
   parameter p holding the argument x, and p gets back its value. *)
Theorem C17_value : forall E g id t a p e v m m1 x r, env_ok E -> rand_range E -> fit g v -> on_line v -> holds v m -> functions_ok g m ->
  wt g (EElem id t [a]) -> code_here v = ecode (EElem id t [a]) ++ r -> r <> [] ->
  evaluate E a m = Value (Number x) m1 -> m_obj m1 id = Function (Some (p, e)) ->
  overflows E v \/
  machine_gives E v (length (ecode (EElem id t [a])))
    (and_then (eval E no_call e (with_var m1 p (Number x))) (fun d m2 => Value d (with_var m2 p (m_var m1 p)))).
Proof.
  intros E g id t a p e v m m1 x r A B C D F G H K R V O. pose proof (value_computed E g A B _ v m r H C D F G K R) as Q.
  unfold evaluate in *. cbn [eval and_then] in Q. rewrite V in Q. cbn [and_then] in Q. rewrite O in Q. exact Q.
Qed.
Print Assumptions C17_value.

(* ---------- an example ---------- *)

Definition ex_vals : vm := ex_start []
  [(10, lit "DEF FNA(X)=X*2+Y"); (20, lit "Y=1:X=5:A(2)=7"); (30, lit "PRINT -FNA(3)^2+A(2)*(X<Y OR NOT 0)")]%N.
Definition ex_numeral (z : Z) : expr := ENum (fofZ z).
Definition ex_fna : expr := EBin OAdd (EBin OMul (EVar 27%N TNum) (ex_numeral 2)) (EVar 28%N TNum).
Definition ex_expr : expr :=
  EBin OAdd (ENegs 1 (EBin OPow (EElem 26%N TNum [ex_numeral 3]) (ex_numeral 2)))
            (EBin OMul (EElem 29%N TNum [ex_numeral 2]) (EBin OOr (EBin (ORel RLt) (EVar 27%N TNum) (EVar 28%N TNum)) (ENots 1 (ex_numeral 0)))).
Definition ex_memory (v : vm) : memory := memory_of v (fun id => if (id =? 26)%N then Some (27%N, ex_fna) else None).

Ltac ex_double := unfold ex_numeral; cbn [wt]; apply fofZ_double.
Example ex_expr_typed : wt (sigs (v_st ex_vals)) ex_expr.
Proof.
  unfold ex_expr. cbn [wt etype bin_ok bi_type]. repeat match goal with
    | |- _ /\ _ => split | |- True => exact I | |- _ = _ => reflexivity | |- _ <> _ => discriminate
    | |- Forall _ _ => constructor | |- wt _ (ex_numeral _) => ex_double
    end; try (apply sg_kindb_ok; vm_compute; reflexivity); try (left; apply sg_kindb_ok; vm_compute; reflexivity); try (right; apply sg_kindb_ok; vm_compute; reflexivity).
Qed.
Example ex_value : let v := ex_steps 11 ex_vals in let m := ex_memory v in
  fit (sigs (v_st v)) v /\ on_line v /\ holds v m /\ functions_ok (sigs (v_st v)) m /\ wt (sigs (v_st v)) ex_expr /\
  code_here v = ecode ex_expr ++ [I_PRINT_NUM; I_PRINT_LN] /\
  match evaluate ex_env ex_expr m with Value d m' => d = Number (fofZ (-14)) /\ m_var m' 27%N = Number (fofZ 5) | _ => False end.
Proof.
  intros v m. split; [constructor; [apply typedb_ok|apply values_okb_ok|apply arrays_okb_ok]; vm_compute; reflexivity|].
  split; [split; [apply not_function; vm_compute; reflexivity|left; vm_compute; reflexivity]|].
  assert (W : forall e, wt (sigs (v_st ex_vals)) e -> wt (sigs (v_st v)) e).
  { intros e. replace (sigs (v_st v)) with (sigs (v_st ex_vals)) by (vm_compute; reflexivity). auto. }
  split.
  { apply (memory_holds (sigs (v_st v))); [apply typedb_ok; vm_compute; reflexivity|]. intros id t (s & S & K & Y).
    assert (Q : id = 26%N).
    { unfold symbol_at in S. assert (L : N.to_nat id < 30) by (apply (Nat.lt_le_trans _ (length (st_syms (v_st v)))); [apply nth_error_Some; congruence|apply Nat.leb_le; vm_compute; reflexivity]).
      rewrite <- (N2Nat.id id). set (n := N.to_nat id) in *. clearbody n.
      do 30 (destruct n as [|n]; [first [reflexivity|exfalso; vm_compute in S; injection S as <-; vm_compute in K; discriminate K]|]). exfalso. revert L. clear. lia. }
    subst id. change (26 =? 26)%N with true. cbv iota. eexists. split; [vm_compute; reflexivity|]. split; [vm_compute; reflexivity|].
    vm_compute in S. injection S as <-. destruct t; [reflexivity|vm_compute in Y; discriminate Y]. }
  split.
  { intros id p e H. unfold m, ex_memory in H. cbn [m_obj memory_of] in H. destruct (symbol_at (v_st v) id) as [s|]; [|discriminate H].
    destruct (skind_eqb (s_kind s) KDef); [|discriminate H]. destruct (id =? 26)%N; [|discriminate H]. injection H as <- <-.
    split; [apply W|apply sg_kindb_ok; vm_compute; reflexivity]. unfold ex_fna. cbn [wt etype bin_ok].
    repeat match goal with |- _ /\ _ => split | |- _ = _ => reflexivity | |- _ <> _ => discriminate | |- wt _ (ex_numeral _) => ex_double end;
      apply sg_kindb_ok; vm_compute; reflexivity. }
  split; [apply W, ex_expr_typed|]. split; [vm_compute; reflexivity|]. vm_compute. split; reflexivity.
Qed.
