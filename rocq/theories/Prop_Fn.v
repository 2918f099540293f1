(* C17: user functions. *)
From Verif Require Import Base Num NumSpec BcodeModel SymbolModel VmModel VmSpec OpSpec
  VmTyping ValueSpec StoreSpec FnSpec FnProofs Examples Prop_Store.
Local Open Scope nat_scope.

(* DEF makes the code of the statement the meaning of the function, replacing
   any former one, and goes on after the statement. *)
Theorem C17_def : forall g E v id bc, typed g v -> current v = Some (I_DEF id 1) -> cur_bcode v = Some bc ->
  exists w, execute E v = (Ok tt, set_cs (place_after v (length (through_end (skipn (cs_pc (v_cs v)) (bc_inst bc))))) w) /\ defined_by v id w.
Proof. exact def_ok. Qed.
Print Assumptions C17_def.
Theorem C17_def_params : forall g E v id n s, typed g v -> current v = Some (I_DEF id n) -> symbol_at (v_st v) id = Some s -> n <> 1%N ->
  exists w, execute E v = (Fail (RE_def_params (s_name s)), w) /\ v_cs w = v_cs v.
Proof. exact def_params. Qed.
Print Assumptions C17_def_params.

(* A call with one argument evaluates the code of the definition with the
   parameter holding the argument. If that ends, however long it takes, the
   execution goes on after the call, with what the evaluation has left on the
   stacks, and the parameter variable is what it was before the call. *)
Theorem C17_call : forall g E v t id d p x st bc, typed g v -> current v = Some (call t id 1) -> function v id = Some d -> parameter d = Some p ->
  ~ in_function v -> in_line v -> v_stack v = x :: st -> cur_bcode v = Some bc -> cs_pc (v_cs v) + 1 < length (bc_inst bc) ->
  exists w, execute E v = (Ok tt, w) /\ entered v d p x st w /\
    forall l w', runs E w l w' -> Forall (fun u => current u <> Some I_END_DEF) l -> current w' = Some I_END_DEF ->
    exists z, execute E w' = (Ok tt, z) /\ returned v p w' z.
Proof. exact call_ok. Qed.
Print Assumptions C17_call.

(* Refused: functions not defined, calls while a function is evaluated, and
   other numbers of arguments. *)
Theorem C17_undefined : forall g E v t id n s, typed g v -> current v = Some (call t id n) -> symbol_at (v_st v) id = Some s -> s_kind s = KDef ->
  function v id = None -> raises E v (RE_fn_undefined (s_name s)).
Proof. exact call_undefined. Qed.
Print Assumptions C17_undefined.
Theorem C17_nested : forall g E v t id n d, typed g v -> current v = Some (call t id n) -> function v id = Some d -> in_function v -> raises E v RE_fn_nested.
Proof. exact call_nested. Qed.
Print Assumptions C17_nested.
Theorem C17_params : forall g E v t id n d s, typed g v -> current v = Some (call t id n) -> symbol_at (v_st v) id = Some s -> function v id = Some d ->
  ~ in_function v -> n <> 1%N -> raises E v (RE_fn_params (s_name s) n).
Proof. exact call_params. Qed.
Print Assumptions C17_params.

(* ---------- examples ---------- *)

Definition ex_fn : vm := ex_start []
  [(10, lit "DEF FNA(X)=X*2+Y"); (20, lit "DEF FNB(X)=FNA(X)"); (30, lit "X=5"); (40, lit "PRINT FNA(3);X"); (50, lit "PRINT FNB(1)")]%N.

Example ex_def : let v := ex_steps 1 ex_fn in typed (sigs (v_st v)) v /\ current v = Some (I_DEF 26%N 1) /\
  function v 26%N = None /\
  option_map body (function (ex_steps 2 ex_fn) 26%N) =
    Some [I_DEF 26%N 1; I_PARAM 27%N; I_GET_SIMPLE_NUM 27%N; I_PUSH_NUM (fofZ 2); I_MUL; I_GET_SIMPLE_NUM 28%N; I_ADD; I_END_DEF].
Proof. intros v. split; [apply typedb_ok; vm_compute; reflexivity|]. repeat (split; [vm_compute; reflexivity|]). vm_compute. reflexivity. Qed.

Lemma not_function v : cs_code (fn_cs (v_fn v)) = None -> ~ in_function v.
Proof. unfold in_function. congruence. Qed.
Example ex_call : let v := ex_steps 9 ex_fn in typed (sigs (v_st v)) v /\ current v = Some (call Numbers 26%N 1) /\
  (exists d, function v 26%N = Some d /\ parameter d = Some 27%N) /\ ~ in_function v /\ in_line v /\ v_stack v = [fofZ 3] /\
  option_map (fun bc => Nat.ltb (cs_pc (v_cs v) + 1) (length (bc_inst bc))) (cur_bcode v) = Some true /\
  variable v Numbers 27%N = Number (fofZ 5).
Proof.
  intros v. split; [apply typedb_ok; vm_compute; reflexivity|]. split; [vm_compute; reflexivity|].
  split. { eexists. split; vm_compute; reflexivity. }
  split; [apply not_function; vm_compute; reflexivity|]. split; [left; vm_compute; reflexivity|]. repeat (split; [vm_compute; reflexivity|]). vm_compute. reflexivity.
Qed.
Example ex_return : let w := ex_steps 10 ex_fn in let w' := ex_steps 5 w in let z := ex_steps 6 w in
  runs ex_env w (ex_states 5 w) w' /\ ex_without (fun i => match i with I_END_DEF => true | _ => false end) (ex_states 5 w) = true /\
  current w' = Some I_END_DEF /\ variable w' Numbers 27%N = Number (fofZ 3) /\
  v_stack z = [fofZ 6] /\ variable z Numbers 27%N = Number (fofZ 5) /\ current z = Some I_PRINT_NUM.
Proof.
  intros w w' z. split; [|repeat (split; [vm_compute; reflexivity|]); vm_compute; reflexivity].
  apply ex_runs_states. vm_compute. reflexivity.
Qed.
Example ex_nested : let v := ex_steps 24 ex_fn in typed (sigs (v_st v)) v /\ current v = Some (call Numbers 26%N 1) /\
  (exists d, function v 26%N = Some d) /\ in_function v /\ fst (execute ex_env v) = Fail RE_fn_nested.
Proof.
  intros v. split; [apply typedb_ok; vm_compute; reflexivity|]. split; [vm_compute; reflexivity|].
  split. { eexists. vm_compute. reflexivity. } split; [unfold in_function; vm_compute; discriminate|]. vm_compute. reflexivity.
Qed.
Example ex_undefined : let v := ex_steps 4 (ex_start [] [(10, lit "GOTO 30"); (20, lit "DEF FNA(X)=X"); (30, lit "PRINT FNA(3)")]%N) in
  typed (sigs (v_st v)) v /\ current v = Some (call Numbers 26%N 1) /\ function v 26%N = None /\
  fst (execute ex_env v) = Fail (RE_fn_undefined (lit "FNA")).
Proof. intros v. split; [apply typedb_ok; vm_compute; reflexivity|]. repeat (split; [vm_compute; reflexivity|]). vm_compute. reflexivity. Qed.
