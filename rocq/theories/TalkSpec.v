(* How the prompt takes its input (C39). *)
From Verif Require Import Base Num VmModel SessionModel MonitorModel MonSpec.

(* The characters of a line. *)
Definition line_char (c : ascii) : Prop := c <> NL.

(* The longest line the prompt takes has 126 characters. *)
Definition LONGEST : nat := 126.

(* s after the prompt "> " has been shown and the input up to rest read *)
Definition asked (rest : bytes) (s : sess) : sess :=
  set_vm (set_input (v_input (ss_vm s)) (v_inp (ss_vm s)) (v_input_pc (ss_vm s)) rest (ss_vm s)) s.
Definition prompted (rest : bytes) (s : sess) : sess := asked rest (prints (lit "> ") s).
(* "Command line too long" *)
Definition refused (s : sess) : sess := mkSess (ss_vm s) (ss_fs s) (ss_diag s ++ [DTooLong]) (ss_brk s) (ss_os s).

Definition input (s : sess) : bytes := v_in (ss_vm s).

(* talk E fuel s x: the conversation that begins in s has the outcome x.
   It ends with the input or when a line asks to leave; what a line does
   (act) is done before the next line is taken from what is then left of the
   input. *)
Inductive talk (E : env) (fuel : nat) : sess -> xres unit -> Prop :=
| Tk_end s : input s = [] -> talk E fuel s (XOk tt (prints (lit "> ") s))
| Tk_line s l rest m t x : input s = l ++ NL :: rest -> Forall line_char l -> (length l <= LONGEST)%nat -> means l m ->
    act E fuel m (prompted rest s) = XOk false t -> talk E fuel t x -> talk E fuel s x
| Tk_leave s l rest m t : input s = l ++ NL :: rest -> Forall line_char l -> (length l <= LONGEST)%nat -> means l m ->
    act E fuel m (prompted rest s) = XOk true t -> talk E fuel s (XOk tt t)
| Tk_exit s l rest m t : input s = l ++ NL :: rest -> Forall line_char l -> (length l <= LONGEST)%nat -> means l m ->
    act E fuel m (prompted rest s) = XExit t -> talk E fuel s (XExit t)
| Tk_crash s l rest m t : input s = l ++ NL :: rest -> Forall line_char l -> (length l <= LONGEST)%nat -> means l m ->
    act E fuel m (prompted rest s) = XCrash t -> talk E fuel s (XCrash t)
| Tk_fuel s l rest m t : input s = l ++ NL :: rest -> Forall line_char l -> (length l <= LONGEST)%nat -> means l m ->
    act E fuel m (prompted rest s) = XNoFuel t -> talk E fuel s (XNoFuel t)
| Tk_long s l rest x : input s = l ++ NL :: rest -> Forall line_char l -> (LONGEST < length l)%nat ->
    talk E fuel (refused (prompted rest s)) x -> talk E fuel s x
| Tk_last s x : input s <> [] -> Forall line_char (input s) ->
    talk E fuel (refused (prompted [] s)) x -> talk E fuel s x.

(* no NUL character *)
Definition no_nul (b : bytes) : Prop := Forall (fun c => c <> NUL) b.

(* ---------- C40 ---------- *)

(* text that may stand between double quotes *)
Definition quotable (name : bytes) : Prop := Forall (fun c => c <> NL /\ c <> """"%char) name.
Definition quoted (name : bytes) : bytes := """"%char :: name ++ [""""%char].

(* The commands LOAD "name" and RUN, one after the other; a command that does
   not end in the prompt is the last. *)
Definition load_and_run (E : env) (fuel : nat) (name : bytes) (s : sess) : xres unit :=
  match interpret E fuel (lit "LOAD " ++ quoted name) s with
  | XOk _ t =>
      match interpret E fuel (lit "RUN") t with
      | XOk _ u => XOk tt u
      | XExit u => XExit u
      | XCrash u => XCrash u
      | XNoFuel u => XNoFuel u
      end
  | XExit t => XExit t
  | XCrash t => XCrash t
  | XNoFuel t => XNoFuel t
  end.
