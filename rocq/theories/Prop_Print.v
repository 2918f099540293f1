(* C19: PRINT positions. *)
From Coq Require Import Lia.
From Verif Require Import Base BaseLemmas Num NumSpec BcodeModel SymbolModel VmModel VmSpec OpSpec ValueSpec PrintSpec PrintProofs Examples.
Local Open Scope nat_scope.

(* In every execution without INPUT and without tracing, the column kept by
   the interpreter is the column reached by the characters it has written. *)
Theorem C19_column : forall E v l v', env_ok E -> values_ok v -> runs E v l v' -> no_input l -> quiet v ->
  (v_col v < 2 ^ 32)%N ->
  exists new, v_out v' = v_out v ++ new /\ v_col v' = column_after (v_col v) new.
Proof. exact print_columns. Qed.
Print Assumptions C19_column.

(* The end of a PRINT without a separator writes a newline. *)
Theorem C19_line : forall E v, current v = Some I_PRINT_LN -> prints E v [NL] 1 (v_stack v) (v_sstack v).
Proof. exact print_line. Qed.
Print Assumptions C19_line.

(* A string is written as it is. *)
Theorem C19_string : forall E v s ss, current v = Some I_PRINT_STR -> v_sstack v = s :: ss ->
  prints E v s (column_after (v_col v) (map OB s)) (v_stack v) ss.
Proof. exact print_string. Qed.
Print Assumptions C19_string.

(* A number is written with a space before and after. *)
Theorem C19_number : forall E v x st, current v = Some I_PRINT_NUM -> v_stack v = x :: st ->
  prints E v (SP :: format_g x ++ [SP]) (column_after (v_col v) (map OB (SP :: format_g x ++ [SP]))) st (v_sstack v).
Proof. exact print_number. Qed.
Print Assumptions C19_number.

(* A comma writes one to eight blanks, up to the next column 1, 9, 17, ... *)
Theorem C19_comma : forall E v, current v = Some I_PRINT_COMMA -> (v_col v < 2 ^ 32)%N ->
  exists n, 1 <= n <= 8 /\ prints E v (blanks n) (column_after (v_col v) (map OB (blanks n))) (v_stack v) (v_sstack v) /\
    (column_after (v_col v) (map OB (blanks n)) mod 8 = 1)%N.
Proof. exact print_comma. Qed.
Print Assumptions C19_comma.

(* SPC(n) writes n blanks. *)
Theorem C19_spc : forall E v x st n, current v = Some I_PRINT_SPC -> v_stack v = x :: st -> double x -> count x n ->
  (v_col v < 2 ^ 32)%N ->
  prints E v (blanks n) (column_after (v_col v) (map OB (blanks n))) st (v_sstack v).
Proof. exact print_spc. Qed.
Print Assumptions C19_spc.

(* TAB(n) goes to column n, on a new line when that is to the left. *)
Theorem C19_tab : forall E v x st n, current v = Some I_PRINT_TAB -> v_stack v = x :: st -> double x -> count x n ->
  (1 <= v_col v < 2 ^ 32)%N ->
  let c := N.to_nat (v_col v) in
  let s := if Nat.leb c n then blanks (n - c) else NL :: blanks (n - 1) in
  prints E v s (column_after (v_col v) (map OB s)) st (v_sstack v) /\
  (1 <= n -> column_after (v_col v) (map OB s) = N.of_nat n).
Proof. exact print_tab. Qed.
Print Assumptions C19_tab.

(* Other arguments of TAB and SPC are errors. *)
Theorem C19_refused : forall E v x st i, current v = Some i -> i = I_PRINT_TAB \/ i = I_PRINT_SPC -> v_stack v = x :: st ->
  double x -> (forall n, ~ count x n) -> raises E v (count_error x).
Proof. exact tab_refused. Qed.
Print Assumptions C19_refused.

(* Non-vacuity of C19_column: 10 PRINT "ABC",1;TAB(20);2;SPC(3);"X"; *)
Definition ex_print : vm := ex_start [] [(10, lit "PRINT ""ABC"",1;TAB(20);2;SPC(3);""X"";")]%N.
Example ex_print_column : runs ex_env ex_print (ex_states 14 ex_print) (ex_steps 14 ex_print) /\
  no_input (ex_states 14 ex_print) /\ values_ok ex_print /\ quiet ex_print /\ v_col ex_print = 1%N /\
  v_col (ex_steps 14 ex_print) = 27%N /\
  v_out (ex_steps 14 ex_print) = map OB (lit "ABC      1          2    X").
Proof.
  split; [apply ex_runs_states; vm_compute; reflexivity|].
  split; [apply (ex_without_ok is_input); vm_compute; reflexivity|].
  split; [apply values_okb_ok; vm_compute; reflexivity|].
  split; [vm_compute; split; reflexivity|]. split; [vm_compute; reflexivity|]. split; [vm_compute; reflexivity|].
  vm_compute. reflexivity.
Qed.
(* ... of the theorems about the items *)
Example ex_print_items : 
  (current (ex_steps 2 ex_print) = Some I_PRINT_STR /\ v_sstack (ex_steps 2 ex_print) = [lit "ABC"]) /\
  (current (ex_steps 3 ex_print) = Some I_PRINT_COMMA /\ v_col (ex_steps 3 ex_print) = 4%N /\ v_col (ex_steps 4 ex_print) = 9%N) /\
  (current (ex_steps 5 ex_print) = Some I_PRINT_NUM /\ v_stack (ex_steps 5 ex_print) = [fofZ 1]) /\
  (current (ex_steps 7 ex_print) = Some I_PRINT_TAB /\ v_stack (ex_steps 7 ex_print) = [fofZ 20] /\ v_col (ex_steps 7 ex_print) = 12%N) /\
  (current (ex_steps 11 ex_print) = Some I_PRINT_SPC /\ v_stack (ex_steps 11 ex_print) = [fofZ 3]).
Proof. vm_compute. repeat split. Qed.
(* TAB to the left goes to a new line; TAB(-1) is an error *)
Definition ex_tab : vm := ex_start [] [(10, lit "PRINT ""ABC"";TAB(2);TAB(-1)")]%N.
Example ex_tab_left : current (ex_steps 4 ex_tab) = Some I_PRINT_TAB /\ v_col (ex_steps 4 ex_tab) = 4%N /\
  v_out (ex_steps 5 ex_tab) = map OB (lit "ABC" ++ [NL] ++ lit " ") /\ v_col (ex_steps 5 ex_tab) = 2%N /\
  current (ex_steps 7 ex_tab) = Some I_PRINT_TAB /\
  fst (execute ex_env (ex_steps 7 ex_tab)) = Fail (RE_nonneg (fofZ (-1))).
Proof. vm_compute. repeat split. Qed.

(* INPUT violates C19: 10 PRINT "A";:INPUT N leaves the interpreter's column
   at 2, when the output has reached column 4 ("A? ") and the user's RETURN
   has taken the screen to column 1. *)
Definition ex_input_column : vm := ex_start (lit "5" ++ [NL]) [(10, lit "PRINT ""A"";:INPUT N")]%N.
Theorem C19_input_refuted : exists v l v', values_ok v /\ runs ex_env v l v' /\ quiet v /\
  v_col v = 1%N /\ v_out v = [] /\ v_out v' = map OB (lit "A? ") /\
  v_col v' = 2%N /\ v_col v' <> column_after 1 (v_out v').
Proof.
  exists ex_input_column, (ex_states 6 ex_input_column), (ex_steps 6 ex_input_column).
  split; [apply values_okb_ok; vm_compute; reflexivity|].
  split; [apply ex_runs_states; vm_compute; reflexivity|].
  split; [vm_compute; split; reflexivity|]. split; [vm_compute; reflexivity|]. split; [vm_compute; reflexivity|].
  split; [vm_compute; reflexivity|]. split; [vm_compute; reflexivity|]. vm_compute. discriminate.
Qed.
Print Assumptions C19_input_refuted.
