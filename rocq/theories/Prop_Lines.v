(* Jumps to program lines (C07), IF and ELSE (C16). *)
From Coq Require Import Lia.
From Verif Require Import Base Num NumSpec SourceModel SourceSpec LineMapModel BcodeModel SymbolModel LexModel ParseModel GrammarSpec VmModel VmSpec
  SessionModel LineSpec LineProofs SessionProofs Examples.
Local Open Scope nat_scope.

(* ---------- C07 ---------- *)

(* A program that has been compiled to be run is loaded, with the statements
   that the grammar finds in its lines; and it stays so while code runs. *)
Theorem C07_compiled : forall s s' src, ensure_program_compiled s = XOk true s' ->
  v_stored (ss_vm s) = mkCode (Some src) None None -> exists xss, loaded (ss_vm s') src xss.
Proof. intros s s' src H S. destruct (ensure_compiles s s' src H S) as (xss & _ & _ & _ & L & _). exists xss. exact L. Qed.
Print Assumptions C07_compiled.
Theorem C07_stays : forall E v l v' src xss, runs E v l v' -> loaded v src xss -> loaded v' src xss.
Proof. exact loaded_runs. Qed.
Print Assumptions C07_stays.

(* The numbers of an entered program are distinct (C01). *)
Theorem C07_distinct : forall src, increasing src -> distinct_lines src.
Proof. exact increasing_distinct. Qed.
Print Assumptions C07_distinct.

(* At the start of line k is its marker, then the code of its statements,
   then the start of line k + 1. *)
Theorem C07_line : forall xss k, k < length xss ->
  skipn (line_start xss k) (pcode 0 xss) = I_SOURCE_LINE k :: lcode (line_stmts xss k) ++ skipn (line_start xss (k + 1)) (pcode 0 xss).
Proof. exact line_code_here. Qed.
Print Assumptions C07_line.

(* Execution of the marker: line k is the current line from there. *)
Theorem C07_marker : forall E v src xss k, loaded v src xss -> k < length xss -> o_trace_basic (v_opt v) = false ->
  cs_code (v_cs v) = Some CStored -> cs_pc (v_cs v) = line_start xss k ->
  execute E v = (Ok tt, set_cs (mkCs (Some CStored) k (S (line_start xss k))) v).
Proof. intros E v src xss k A B C D F. exact (proj2 (marker_step E v src xss k A B C D F)). Qed.
Print Assumptions C07_marker.

(* GOTO, THEN, GOSUB and ON go to the line with the number, or report. *)
Theorem C07_goto : forall E v src xss n, loaded v src xss -> distinct_lines src ->
  current v = Some (I_GOTO n) -> jumps v src xss n (execute E v).
Proof. exact line_goto. Qed.
Print Assumptions C07_goto.
Theorem C07_then : forall E v src xss n x st, loaded v src xss -> distinct_lines src ->
  current v = Some (I_GOTRUE n) -> v_stack v = x :: st ->
  if truth x then jumps (set_stack st v) src xss n (execute E v)
  else execute E v = (Ok tt, set_cs (place_after v 1) (set_stack st v)).
Proof. exact line_then. Qed.
Print Assumptions C07_then.
Theorem C07_gosub : forall E v src xss n, loaded v src xss -> distinct_lines src ->
  current v = Some (I_GOSUB n) -> length (v_ret v) < 8 ->
  jumps (set_ret (place_after v 1 :: v_ret v) v) src xss n (execute E v).
Proof. exact line_gosub. Qed.
Print Assumptions C07_gosub.
Theorem C07_on : forall E v src xss (g : bool) ls x st z, loaded v src xss -> distinct_lines src ->
  on_list v g ls -> v_stack v = x :: st -> double x -> is_integer x z -> (Z.of_nat (length ls) < 2 ^ 32)%Z ->
  (1 <= z <= Z.of_nat (length ls))%Z -> length (v_ret v) < 8 ->
  exists n, nth_error ls (Z.to_nat (z - 1)) = Some n /\
    jumps (if g then set_ret (place_after v (length ls + 1) :: v_ret v) (set_stack st v) else set_stack st v) src xss n (execute E v).
Proof. exact line_on. Qed.
Print Assumptions C07_on.

(* ---------- C16 ---------- *)

(* Each IF with ELSE has its own ELSE later in the line, with only other
   statements between, and conversely. *)
Theorem C16_if_has_else : forall kw text st xs st' pre e post, line_is kw text st xs st' -> xs = pre ++ SIf e true :: post ->
  exists thn els, post = thn ++ SElse :: els /\ Forall neutral thn.
Proof. exact if_has_else. Qed.
Print Assumptions C16_if_has_else.
Theorem C16_else_has_if : forall kw text st xs st' pre els, line_is kw text st xs st' -> xs = pre ++ SElse :: els ->
  exists p e thn, pre = p ++ SIf e true :: thn /\ Forall neutral thn.
Proof. exact else_has_if. Qed.
Print Assumptions C16_else_has_if.

(* With ELSE: to the THEN part if the condition is not zero, else to the
   statement after the ELSE of this IF. The code may be that of the program
   or of an immediate line. *)
Theorem C16_if_else : forall kw st src xss st', program_is kw st src xss st' ->
  forall E v k i thn els x stk, at_if_else v xss k i thn els -> Forall neutral thn -> v_stack v = x :: stk ->
  continues v stk (stmt_start xss k (if truth x then i + 1 else i + 2 + length thn)) (execute E v).
Proof. exact if_else_step. Qed.
Print Assumptions C16_if_else.
(* Without ELSE: to the THEN part or to the next line. *)
Theorem C16_if : forall kw st src xss st', program_is kw st src xss st' ->
  forall E v k i r x stk, at_if v xss k i r -> v_stack v = x :: stk ->
  continues v stk (if truth x then stmt_start xss k (i + 1) else line_start xss (k + 1)) (execute E v).
Proof. intros kw st src xss st' P E v k i r x stk. rewrite (Nat.add_1_r k). apply (if_step kw st src xss st' P). Qed.
Print Assumptions C16_if.
(* At the end of the THEN part: past the ELSE part to the next line. *)
Theorem C16_else : forall kw st src xss st', program_is kw st src xss st' ->
  forall E v k i els, executing v xss k i 0 -> skipn i (line_stmts xss k) = SElse :: els ->
  continues v (v_stack v) (line_start xss (k + 1)) (execute E v).
Proof. intros kw st src xss st' P E v k i els. rewrite (Nat.add_1_r k). apply (else_step kw st src xss st' P). Qed.
Print Assumptions C16_else.

(* IF .. THEN n ELSE m: to line n, or to the next statement, which is the
   jump to line m: nothing that has code is between the two. *)
Theorem C16_if_go : forall src xss E v k i x stk e n r, loaded v src xss -> distinct_lines src ->
  skipn i (line_stmts xss k) = SIfGo e n :: r -> executing v xss k i (length (ecode e)) -> v_stack v = x :: stk ->
  if truth x then jumps (set_stack stk v) src xss n (execute E v) else continues v stk (stmt_start xss k (i + 1)) (execute E v).
Proof. intros src xss E v k i x stk e n r L. exact (if_go_step src xss E v k i x stk e n r v L eq_refl). Qed.
Print Assumptions C16_if_go.
Theorem C16_else_go : forall kw text st xs st' pre n post, line_is kw text st xs st' -> xs = pre ++ SElseGo n :: post ->
  exists p e m silent, pre = p ++ SIfGo e m :: silent /\ lcode silent = [].
Proof. exact else_go_if. Qed.
Print Assumptions C16_else_go.

(* not vacuous: a line with IF and ELSE, its statements, its execution *)
Definition ex_line : bytes := lit "IF 1 THEN END ELSE STOP" ++ [NL].
Definition ex_stmts : list stmt := [SIf (ENum fone) true; SEnd; SElse; SStop].
Definition ex_if : vm := ex_start [] [(10%N, lit "IF 1 THEN END ELSE STOP" ++ [NL])].
Lemma ex_number st w : gram LOr st [T_NUM fone w] (ENum fone) st.
Proof. do 8 (apply G_tighter; [discriminate|]; cbn [tighter]). apply G_num. Qed.
Lemma ex_line_is st : line_is false ex_line st ex_stmts st.
Proof.
  eexists. exists After. eexists. split; [vm_compute; reflexivity|]. split; [|left; reflexivity].
  eapply LSs_step; [eapply LSs_step; [eapply LSs_step; [eapply LSs_step; [constructor|]|]|]|].
  - eapply (LS_if _ _ _ [T_NUM fone _]); [left; reflexivity | | split; [apply ex_number | reflexivity] |].
    + econstructor; [vm_compute; reflexivity|]. econstructor; [vm_compute; reflexivity|]. econstructor; [vm_compute; reflexivity | constructor].
    + discriminate.
  - eapply LS_stmt; [right; reflexivity | | apply GS_end]. econstructor; [vm_compute; reflexivity | constructor].
  - eapply (LS_else _ _ _ _ _ [] _ [SEnd]); [left; reflexivity | | reflexivity]. econstructor; [vm_compute; reflexivity | constructor].
  - eapply (LS_stmt _ _ _ _ _ _ SStop _ [SIf (ENum fone) true; SEnd; SElse]); [left; reflexivity | | apply GS_stop].
    econstructor; [vm_compute; reflexivity | constructor].
Qed.
Example C16_ex : let v := ex_steps 2 ex_if in
  program_is false (init_builtins new_symbol_table) [ex_line] [ex_stmts] (init_builtins new_symbol_table) /\
  at_if_else v [ex_stmts] 0 0 [SEnd] [SStop] /\ Forall neutral [SEnd] /\ v_stack v = [fone].
Proof.
  cbn zeta. split; [econstructor; [apply ex_line_is | constructor]|]. split; [|split; [repeat constructor | vm_compute; reflexivity]].
  exists (ENum fone). split; [reflexivity|]. eexists. split; [vm_compute; reflexivity|]. split; [reflexivity|]. split; [cbn; lia|]. split; [cbn; lia|]. vm_compute. reflexivity.
Qed.
(* with IF 1 the THEN part comes next *)
Example C16_ex_then : current (ex_steps 3 ex_if) = Some I_END.
Proof. vm_compute. reflexivity. Qed.

Definition ex_sess : sess :=
  match fold_left (fun m l => xbind m (fun _ => vm_enter_source_line (fst l) (snd l)))
    [(10%N, lit "GOTO 30" ++ [NL]); (20%N, lit "END" ++ [NL]); (30%N, lit "GOTO 40" ++ [NL])] (xret tt) (mkSess (new_vm ex_opt []) no_files [] [] []) with
  | XOk _ s => s | _ => mkSess (new_vm ex_opt []) no_files [] [] [] end.
Example C07_ex : exists s' xss, ensure_program_compiled ex_sess = XOk true s' /\
  loaded (ss_vm s') (match c_source (v_stored (ss_vm ex_sess)) with Some x => x | None => [] end) xss /\ length xss = 3.
Proof.
  assert (R : exists s', ensure_program_compiled ex_sess = XOk true s') by (eexists; vm_compute; reflexivity).
  destruct R as (s' & R). destruct (ensure_compiles _ _ _ R eq_refl) as (xss & _ & _ & _ & L & _). exists s', xss. split; [exact R|]. split; [exact L|].
  destruct L as (kw & bc & idx & st & _ & P & _). pose proof (CodeProofs.program_length _ _ _ _ _ P) as X. rewrite X. reflexivity.
Qed.
(* the jump to line 30 and the one to line 40, which does not exist *)
Definition ex_jump : vm := ex_start [] [(10%N, lit "GOTO 30" ++ [NL]); (20%N, lit "END" ++ [NL]); (30%N, lit "GOTO 40" ++ [NL])].
Example C07_ex_jump : cs_pc (v_cs (ex_steps 2 ex_jump)) = 4 /\ current (ex_steps 2 ex_jump) = Some (I_SOURCE_LINE 2) /\
  fst (execute ex_env (ex_steps 3 ex_jump)) = Fail (RE_line_not_found 40).
Proof. vm_compute. auto. Qed.
