(* C37: a simple variable holds the value last assigned to it. variable v t id
   is what the variable id, of the sort t, holds; push_datum d u is the machine
   u after the value d has been computed. *)
From Verif Require Import Base Num BcodeModel SymbolModel VmModel VmSpec OpSpec VmTyping StoreSpec StoreProofs FnSpec VarSpec VarProofs Examples.
Local Open Scope nat_scope.

(* Reading a variable gives what it holds (0 or the empty string if nothing has
   been assigned) and changes nothing. *)
Theorem C37_read : forall E g v t id, typed g v -> current v = Some (get_variable t id) -> named v id KVariable t ->
  length (v_stack v) < 16 -> length (v_sstack v) < 8 ->
  exists w, execute E v = (Ok tt, set_cs (place_after v 1) (push_datum (variable v t id) w)) /\
    assigned_to v t id (variable v t id) w.
Proof. exact variable_read. Qed.
Print Assumptions C37_read.

(* Assigning changes that variable and nothing else. *)
Theorem C37_assign : forall E g u id d, typed g u -> current u = Some (set_variable (sort_of d) id) ->
  named u id KVariable (sort_of d) ->
  exists w, execute E (push_datum d u) = (Ok tt, set_cs (place_after u 1) w) /\ assigned_to u (sort_of d) id d w.
Proof. exact variable_write. Qed.
Print Assumptions C37_assign.

(* No other instruction changes what the variable holds, even when it fails. *)
Theorem C37_unchanged : forall id g t, sg_kind g id KVariable (vtype_of t) ->
  forall E v, typed g v -> ~ assigns v id -> variable (snd (execute E v)) t id = variable v t id.
Proof. exact var_step. Qed.
Print Assumptions C37_unchanged.

(* So in every execution in which only LET assigns to the variable, it ends up
   with the value last assigned to it, or the one it had before. *)
Theorem C37_history : forall E g t id v l v' ws, runs E v l v' -> assignments t id l ws -> typed g v -> named v id KVariable t ->
  variable v' t id = last ws (variable v t id).
Proof. exact var_history. Qed.
Print Assumptions C37_history.

(* ---------- examples ---------- *)

Definition ex_vars : vm := ex_start []
  [(10, lit "A=7"); (20, lit "B=A+1"); (30, lit "A=B"); (40, lit "PRINT C;C$"); (50, lit "C$=""x""")]%N.
(* A=7, B=A+1, A=B as in C37_history *)
Example ex_var_history : runs ex_env ex_vars (ex_states 11 ex_vars) (ex_steps 11 ex_vars) /\
  assignments Numbers 26%N (ex_states 11 ex_vars) [Number (fofZ 7); Number (fofZ 8)] /\
  typed (sigs (v_st ex_vars)) ex_vars /\ named ex_vars 26%N KVariable Numbers /\
  variable ex_vars Numbers 26%N = Number fzero /\ variable (ex_steps 11 ex_vars) Numbers 26%N = Number (fofZ 8).
Proof.
  split; [apply ex_runs_states; vm_compute; reflexivity|]. split.
  - cbn [ex_states].
    apply As_other; [intros H; vm_compute in H; contradiction|].
    apply As_other; [intros H; vm_compute in H; contradiction|].
    match goal with |- assignments _ _ (?w :: _) _ => replace w with (push_datum (Number (fofZ 7)) (set_stack [] w)) at 1 by (vm_compute; reflexivity) end.
    apply As_let; [vm_compute; reflexivity|reflexivity|].
    do 4 (apply As_other; [intros H; vm_compute in H; contradiction|]).
    apply As_other; [intros H; vm_compute in H; discriminate H|].
    do 2 (apply As_other; [intros H; vm_compute in H; contradiction|]).
    match goal with |- assignments _ _ (?w :: _) _ => replace w with (push_datum (Number (fofZ 8)) (set_stack [] w)) at 1 by (vm_compute; reflexivity) end.
    apply As_let; [vm_compute; reflexivity|reflexivity|]. constructor.
  - split; [apply typedb_ok; vm_compute; reflexivity|]. split; [eexists; split; [vm_compute; reflexivity|split; reflexivity]|].
    split; vm_compute; reflexivity.
Qed.
(* PRINT C;C$ where nothing has been assigned, and C$="x" *)
Example ex_var_read : let v := ex_steps 12 ex_vars in let w := ex_steps 14 ex_vars in
  typed (sigs (v_st v)) v /\ current v = Some (get_variable Numbers 28%N) /\ named v 28%N KVariable Numbers /\
  variable v Numbers 28%N = Number fzero /\
  typed (sigs (v_st w)) w /\ current w = Some (get_variable Texts 29%N) /\ named w 29%N KVariable Texts /\ variable w Texts 29%N = Text [].
Proof.
  intros v w. split; [apply typedb_ok; vm_compute; reflexivity|]. split; [vm_compute; reflexivity|].
  split; [eexists; split; [vm_compute; reflexivity|split; reflexivity]|]. split; [vm_compute; reflexivity|].
  split; [apply typedb_ok; vm_compute; reflexivity|]. split; [vm_compute; reflexivity|].
  split; [eexists; split; [vm_compute; reflexivity|split; reflexivity]|]. vm_compute. reflexivity.
Qed.
Example ex_var_assign : let u := set_sstack [] (ex_steps 19 ex_vars) in ex_steps 19 ex_vars = push_datum (Text (lit "x")) u /\
  typed (sigs (v_st u)) u /\ current u = Some (set_variable Texts 29%N) /\ named u 29%N KVariable Texts.
Proof.
  intros u. split; [vm_compute; reflexivity|]. split; [apply typedb_ok; vm_compute; reflexivity|]. split; [vm_compute; reflexivity|].
  eexists; split; [vm_compute; reflexivity|split; reflexivity].
Qed.
