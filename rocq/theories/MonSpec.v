(* What the prompt does with a line (C36), LIST (C04). *)
From Verif Require Import Base BaseLemmas Num SourceModel SymbolSpec LexSpec VmModel SessionModel MonitorModel.

Definition gap (c : ascii) : Prop := c = SP \/ c = TABCH.
Definition ends_line (s : bytes) : Prop := s = [] \/ begins_with (eq NL) s.

(* ---------- C36 ---------- *)

(* Meanings of a line: edit a program line (None: delete it), an operating
   system command, nothing, a command of the monitor with the text after it,
   or statements. *)
Inductive meaning :=
| MEdit (n : N) (text : option bytes)
| MSystem (s : bytes)
| MNothing
| MCommand (c : cmd) (s : bytes)
| MStatements (s : bytes).

(* the text of a program line, after its number *)
Inductive edit_text : bytes -> option bytes -> Prop :=
| Et_none r : ends_line r -> edit_text r None
| Et_space r : edit_text (SP :: r) (Some r)
| Et_text r : ~ ends_line r -> ~ begins_with (eq SP) r -> edit_text r (Some r).

Definition command_word (w : bytes) (c : cmd) : Prop := exists name, In (name, c) commands /\ same_name name w.

Inductive means : bytes -> meaning -> Prop :=
| Me_edit b ds r t : Forall gap b -> ds <> [] -> Forall digit ds -> ~ begins_with digit r -> edit_text r t ->
    means (b ++ ds ++ r) (MEdit (u32 (dec_value ds)) t)
| Me_system b g r : Forall gap b -> Forall gap g -> ~ begins_with gap r -> ~ ends_line r ->
    means (b ++ "*"%char :: g ++ r) (MSystem r)
| Me_no_system b g r : Forall gap b -> Forall gap g -> ends_line r -> means (b ++ "*"%char :: g ++ r) MNothing
| Me_nothing b r : Forall gap b -> ends_line r -> means (b ++ r) MNothing
| Me_command b w r c : Forall gap b -> Forall letter w -> ~ begins_with letter r -> command_word w c ->
    means (b ++ w ++ r) (MCommand c r)
| Me_statements b w r : Forall gap b -> Forall letter w -> ~ begins_with letter r -> (forall c, ~ command_word w c) ->
    ~ begins_with (fun c => gap c \/ digit c \/ c = "*"%char) (w ++ r) -> ~ ends_line (w ++ r) ->
    means (b ++ w ++ r) (MStatements (w ++ r)).

(* what is done; true: leave the monitor *)
Definition act (E : env) (fuel : nat) (m : meaning) : X bool :=
  (match m with
   | MEdit n None => vm_delete_source_line n ;;; xret false
   | MEdit n (Some t) => vm_enter_source_line n t ;;; xret false
   | MSystem s => (fun x => XOk false (mkSess (ss_vm x) (ss_fs x) (ss_diag x) (ss_brk x) (ss_os x ++ [s])))
   | MNothing => xret false
   | MCommand c s => command E fuel c s
   | MStatements s => run_immediate E fuel s ;;; xret false
   end)%sess.

(* ---------- C04 ---------- *)

(* decimal digits, or nothing for dflt *)
Definition opt_number (ds : bytes) (n dflt : N) : Prop :=
  (ds = [] /\ n = dflt) \/ (ds <> [] /\ Forall digit ds /\ n = u32 (dec_value ds)).

(* The text after LIST asks for lines a to b, with pauses if p. *)
Definition list_request (s : bytes) (a b : N) (p : bool) : Prop :=
  exists g1 d1 g2 mid g4 pg g5 e, s = g1 ++ d1 ++ g2 ++ mid ++ g4 ++ pg ++ g5 ++ e /\
    Forall gap g1 /\ Forall gap g2 /\ Forall gap g4 /\ Forall gap g5 /\ ends_line e /\
    opt_number d1 a 0 /\
    ((mid = [] /\ b = UINT_MAX) \/ (exists g3 d2, mid = "-"%char :: g3 ++ d2 /\ Forall gap g3 /\ opt_number d2 b UINT_MAX)) /\
    ((pg = [] /\ p = false) \/ ((pg = lit "P" \/ pg = lit "p") /\ p = true)).

Definition in_range (a b : N) (l : line) : bool := (a <=? ln_num l)%N && (ln_num l <=? b)%N.
(* the number, a space and the text *)
Definition shown (l : line) : bytes := dec_of_N (ln_num l) ++ SP :: ln_text l.
Definition shown_all (ls : list line) : bytes := flat_map (fun l => shown l ++ [NL]) ls.

(* v prints t *)
Definition prints (t : bytes) (s : sess) : sess := set_vm (set_out (v_out (ss_vm s) ++ map OB t) (ss_vm s)) s.

(* Pauses: after line number j of the listing the user presses Enter. *)
Definition pause_after (j : nat) (more : bool) : bool := Nat.eqb (j mod 24) 23 && more.
Fixpoint paged (j : nat) (ls : list (line * bool)) (s : sess) : sess :=
  match ls with
  | [] => s
  | (l, more) :: r =>
      let s1 := prints (shown l) s in
      paged (S j) r
        (if pause_after (S j) more
         then set_vm (set_input (v_input (ss_vm s1)) (v_inp (ss_vm s1)) (v_input_pc (ss_vm s1)) (after_newline (v_in (ss_vm s1))) (ss_vm s1)) s1
         else prints [NL] s1)
  end.
(* each line with whether it is not the last of the program *)
Fixpoint with_more (src : source) : list (line * bool) :=
  match src with [] => [] | l :: r => (l, match r with [] => false | _ => true end) :: with_more r end.
(* those of the program in the range *)
Definition ranged (a b : N) (src : source) : list (line * bool) := filter (fun p => in_range a b (fst p)) (with_more src).
