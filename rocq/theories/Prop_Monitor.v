(* The prompt (C36) and LIST (C04). *)
From Coq Require Import Lia.
From Verif Require Import Base BaseLemmas Num SourceModel SourceSpec SymbolModel SymbolSpec LexModel LexSpec VmModel SessionModel MonitorModel MonSpec MonProofs Examples.
Local Open Scope nat_scope.

(* ---------- C36 ---------- *)

(* Every line has exactly one meaning, and that is what is done. *)
Theorem C36_one_meaning : forall line, exists m, means line m /\ (forall m', means line m' -> m' = m) /\
  forall E fuel s, interpret E fuel line s = act E fuel m s.
Proof. exact prompt_line. Qed.
Print Assumptions C36_one_meaning.

Example C36_edit : means (lit "  10 PRINT") (MEdit 10 (Some (lit "PRINT"))).
Proof. apply (Me_edit (lit "  ") (lit "10") (lit " PRINT") (Some (lit "PRINT"))); [repeat constructor | discriminate | repeat constructor | intros (c & r & E & D); injection E as <- _; discriminate D | apply Et_space]. Qed.
Example C36_delete : means (lit "10") (MEdit 10 None).
Proof. apply (Me_edit [] (lit "10") [] None); [constructor | discriminate | repeat constructor | intros (c & r & E & D); discriminate | apply Et_none; left; reflexivity]. Qed.
Example C36_command : means (lit "List 10-20") (MCommand C_LIST (lit " 10-20")).
Proof.
  apply (Me_command [] (lit "List") (lit " 10-20") C_LIST); [constructor | repeat constructor | intros (c & r & E & D); injection E as <- _; discriminate D|].
  exists (lit "LIST"). split; [|reflexivity]. unfold commands. repeat (try (left; reflexivity); right).
Qed.
Example C36_statements : means (lit "LISTA=5") (MStatements (lit "LISTA=5")).
Proof.
  assert (NC : forall c, ~ command_word (lit "LISTA") c).
  { intros c H. apply find_command_word in H. vm_compute in H. discriminate H. }
  apply (Me_statements [] (lit "LISTA") (lit "=5")); [constructor | repeat constructor | | exact NC | |].
  - intros (c & r & E & D). injection E as <- _. discriminate D.
  - intros (c & r & E & D). injection E as <- _. destruct D as [[D|D] | [D|D]]; discriminate D.
  - intros [D | (c & r & E & D)]; [discriminate D|]. injection E as <- _. discriminate D.
Qed.
Example C36_system : means (lit "* ls") (MSystem (lit "ls")).
Proof.
  apply (Me_system [] (lit " ") (lit "ls")); [constructor | repeat constructor | |].
  - intros (c & r & E & D). injection E as <- _. destruct D as [D|D]; discriminate D.
  - intros [D | (c & r & E & D)]; [discriminate D|]. injection E as <- _. discriminate D.
Qed.

(* ---------- C04 ---------- *)

(* LIST with a range prints the lines in the range, in order, each as its
   number, a space and its text. *)
Theorem C04_list : forall E fuel line rest s a b src,
  means line (MCommand C_LIST rest) -> list_request rest a b false ->
  stored_source (ss_vm s) = Some src -> increasing src ->
  interpret E fuel line s = XOk false (prints (shown_all (filter (in_range a b) src)) s).
Proof. exact list_typed_all. Qed.
Print Assumptions C04_list.

(* With pauses: after every 24th line shown, if the program has more lines,
   a line of input is read in place of a newline. *)
Theorem C04_paged : forall E fuel line rest s a b src,
  means line (MCommand C_LIST rest) -> list_request rest a b true ->
  stored_source (ss_vm s) = Some src -> increasing src -> (N.of_nat (length src) < 4294967296)%N ->
  interpret E fuel line s = XOk false (paged 0 (ranged a b src) s).
Proof. exact list_typed_paged. Qed.
Print Assumptions C04_paged.

(* So the lines shown are the same as without pauses. *)
Theorem C04_paged_lines : forall a b src s,
  map fst (ranged a b src) = filter (in_range a b) src /\
  exists seps, length seps = length (ranged a b src) /\ Forall (fun x => x = [NL] \/ x = []) seps /\
    v_out (ss_vm (paged 0 (ranged a b src) s)) =
    v_out (ss_vm s) ++ map OB (concat (map (fun p => shown (fst (fst p)) ++ snd p) (combine (ranged a b src) seps))).
Proof. intros a b src s. split; [apply ranged_fst | apply paged_prints]. Qed.
Print Assumptions C04_paged_lines.

(* What is asked for is clear, and anything else is refused. *)
Theorem C04_request_unique : forall s a b p a' b' p', list_request s a b p -> list_request s a' b' p' -> a = a' /\ b = b' /\ p = p'.
Proof. exact request_unique. Qed.
Print Assumptions C04_request_unique.
Theorem C04_refused : forall E fuel line rest s, means line (MCommand C_LIST rest) -> (forall a b p, ~ list_request rest a b p) ->
  interpret E fuel line s = xbind (say DSyntax) (fun _ => xret false) s.
Proof. exact list_refused. Qed.
Print Assumptions C04_refused.

Definition ex_lines : source := [mkLine 10 (lit "FOR I=1 TO 3"); mkLine 20 (lit "PRINT I"); mkLine 30 (lit "NEXT I")].
Definition ex_sess : sess := mkSess (set_stored (mkCode (Some ex_lines) None None) (new_vm ex_opt [])) (fun _ => None) [] [] [].

Example C04_request_example : list_request (lit " 15-20") 15 20 false.
Proof.
  exists (lit " "), (lit "15"), [], (lit "-20"), [], [], [], []. split; [reflexivity|]. split; [repeat constructor|]. split; [constructor|]. split; [constructor|]. split; [constructor|].
  split; [left; reflexivity|]. split; [right; split; [discriminate|]; split; [repeat constructor | reflexivity]|]. split; [|left; auto].
  right. exists [], (lit "20"). split; [reflexivity|]. split; [constructor|]. right. split; [discriminate|]. split; [repeat constructor | reflexivity].
Qed.
Example C04_list_example : stored_source (ss_vm ex_sess) = Some ex_lines /\ increasing ex_lines /\
  shown_all (filter (in_range 15 20) ex_lines) = lit "20 PRINT I" ++ [NL].
Proof. split; [reflexivity|]. split; [repeat constructor | reflexivity]. Qed.
