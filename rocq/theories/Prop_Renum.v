(* RENUM (C05). *)
From Coq Require Import Lia Sorted.
From Verif Require Import Base BaseLemmas Num NumSpec SourceModel SourceSpec SymbolModel SymbolSpec LexModel LexSpec VmModel SessionModel MonitorModel MonSpec MonProofs
  RenumSpec RenumProofs Examples.
Local Open Scope nat_scope.

(* RENUM new,old,inc gives the lines their new numbers, and replaces exactly
   the numbers of lines that stand directly after GOTO, GOSUB, THEN, ELSE or
   RESTORE, wherever these words are found in the text. Not true in general:
   other references (in ON lists after the first, after THEN GOTO) follow. *)
Theorem C05_renum_partial : forall E fuel line rest new old inc s src,
  means line (MCommand C_RENUM rest) -> renum_request rest new old inc ->
  stored_source (ss_vm s) = Some src -> increasing src -> (forall l, In l src -> (ln_num l < 4294967296)%N) -> texts_ok src ->
  (new < 4294967296)%N -> (inc < 4294967296)%N -> fits new old inc src ->
  let nums := new_numbers new old inc src in
  let kw := o_anywhere (v_opt (ss_vm s)) in
  exists ls, Forall2 (fun x l => tokens_of kw (ln_text x) l /\ lexer_gives kw (ln_text x) (map snd l)) src ls /\
    (Forall (plain_refs (becomes src nums)) ls -> exists ts, Forall2 (retext (becomes src nums)) ls ts /\
       interpret E fuel line s = XOk false (set_vm (set_source (program_of nums ts) (ss_vm s)) s)).
Proof. exact renum_typed_ok. Qed.
Print Assumptions C05_renum_partial.

(* The new numbers increase if inc is not 0 and new is above the lines kept. *)
Theorem C05_increasing : forall new old inc src, increasing src -> (1 <= inc)%N -> (forall l, In l (lower old src) -> (ln_num l < new)%N) ->
  StronglySorted N.lt (new_numbers new old inc src).
Proof. exact new_increasing. Qed.
Print Assumptions C05_increasing.

(* Numbers that do not fit are refused with a message. *)
Theorem C05_refused : forall new old inc s src, stored_source (ss_vm s) = Some src -> increasing src ->
  (new < 4294967296)%N -> (inc < 4294967296)%N -> ~ fits new old inc src ->
  exists l n p src', In l (upper old src) /\ (n < p)%N /\ renumber new old inc s = xbind (mod_vm (set_source src')) (fun _ => say (DRenumber (ln_num l) n p)) s.
Proof. exact renumber_no_fit. Qed.
Print Assumptions C05_refused.

Definition ex_sess (src : source) : sess := mkSess (set_stored (mkCode (Some src) None None) (new_vm ex_opt [])) (fun _ => None) [] [] [].
Definition result_of (r : xres unit) : option source := match r with XOk _ s => stored_source (ss_vm s) | _ => None end.

(* The numbers need not be distinct: with inc 0 every line gets the same. *)
Theorem C05_duplicates_refuted : exists src new old inc, increasing src /\
  exists a b r, result_of (renumber new old inc (ex_sess src)) = Some (a :: b :: r) /\ ln_num a = ln_num b.
Proof.
  exists [mkLine 10 (lit "PRINT"); mkLine 20 (lit "END")], 100%N, 1%N, 0%N. split; [repeat constructor|].
  exists (mkLine 100 (lit "PRINT")), (mkLine 100 (lit "END")), []. split; [vm_compute; reflexivity | reflexivity].
Qed.
Print Assumptions C05_duplicates_refuted.

(* Only the first number of an ON list is replaced. *)
Theorem C05_on_list_refuted : exists src, increasing src /\ src = [mkLine 10 (lit "ON A GOTO 10,20"); mkLine 20 (lit "END")] /\
  result_of (renumber 100 1 10 (ex_sess src)) = Some [mkLine 100 (lit "ON A GOTO 100,20"); mkLine 110 (lit "END")].
Proof. eexists. split; [|split; [reflexivity | vm_compute; reflexivity]]. repeat constructor. Qed.
Print Assumptions C05_on_list_refuted.

(* The number after THEN GOTO is not replaced. *)
Theorem C05_then_goto_refuted : exists src, increasing src /\ src = [mkLine 10 (lit "IF A THEN GOTO 20"); mkLine 20 (lit "END")] /\
  result_of (renumber 100 1 10 (ex_sess src)) = Some [mkLine 100 (lit "IF A THEN GOTO 20"); mkLine 110 (lit "END")].
Proof. eexists. split; [|split; [reflexivity | vm_compute; reflexivity]]. repeat constructor. Qed.
Print Assumptions C05_then_goto_refuted.

(* A remark is changed. *)
Theorem C05_remark_refuted : exists src, increasing src /\ src = [mkLine 10 (lit "REM do not GOTO 10")] /\
  result_of (renumber 100 1 10 (ex_sess src)) = Some [mkLine 100 (lit "REM do not GOTO 100")].
Proof. eexists. split; [|split; [reflexivity | vm_compute; reflexivity]]. repeat constructor. Qed.
Print Assumptions C05_remark_refuted.

(* A refused RENUM has already changed some numbers. *)
Theorem C05_refused_changes_refuted : exists src src', increasing src /\ ~ fits 4294967290 1 10 src /\
  result_of (renumber 4294967290 1 10 (ex_sess src)) = Some src' /\ src' <> src.
Proof.
  exists [mkLine 10 (lit "PRINT"); mkLine 20 (lit "END")], [mkLine 4294967290 (lit "PRINT"); mkLine 20 (lit "END")].
  split; [repeat constructor|]. split; [|split; [vm_compute; reflexivity | discriminate]].
  intros H. destruct (H ltac:(discriminate)) as [_ B]. vm_compute in B. discriminate B.
Qed.
Print Assumptions C05_refused_changes_refuted.

Definition ex_renum : source := [mkLine 10 (lit "IF A THEN 30 ELSE PRINT 30"); mkLine 20 (lit "GOTO 10"); mkLine 30 (lit "END")].
Example C05_request_example : renum_request (lit " 100,15,5") 100 15 5.
Proof.
  exists (lit " "), (lit "100"), [], (lit ",15,5"), [], []. split; [reflexivity|]. split; [repeat constructor|]. split; [constructor|]. split; [constructor|]. split; [left; reflexivity|].
  split; [right; split; [discriminate|]; split; [repeat constructor | reflexivity]|]. right. exists [], (lit "15"), (lit ",5"). split; [reflexivity|]. split; [constructor|].
  split; [right; split; [discriminate|]; split; [repeat constructor | reflexivity]|]. right. exists [], (lit "5"). split; [reflexivity|]. split; [constructor|]. right. split; [discriminate|]. split; [repeat constructor | reflexivity].
Qed.
Example C05_example : increasing ex_renum /\ texts_ok ex_renum /\ fits 100 15 5 ex_renum /\ new_numbers 100 15 5 ex_renum = [10; 100; 105]%N /\
  result_of (renumber 100 15 5 (ex_sess ex_renum)) = Some [mkLine 10 (lit "IF A THEN 105 ELSE PRINT 30"); mkLine 100 (lit "GOTO 10"); mkLine 105 (lit "END")].
Proof.
  split; [repeat constructor|]. split.
  - assert (U : forallb (fun l => forallb (fun c => (code c <? 127)%N && negb (ceq c NL)) (ln_text l)) ex_renum = true) by (vm_compute; reflexivity).
    apply Forall_forall. intros l I. rewrite forallb_forall in U. specialize (U l I). rewrite forallb_forall in U. split.
    + apply Forall_forall. intros c C. specialize (U c C). apply andb_prop in U. destruct U as [U _]. apply N.ltb_lt. exact U.
    + intros C. specialize (U NL C). apply andb_prop in U. destruct U as [_ U]. discriminate U.
  - split; [|split; vm_compute; reflexivity]. intros _. split; [|vm_compute; reflexivity]. intros l I. cbn in I. destruct I as [<- | []]. vm_compute. discriminate.
Qed.
