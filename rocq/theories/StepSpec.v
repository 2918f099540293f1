(* What the statements of a program do (C38): a definition on the statements,
   without code, stacks or symbol table. *)
From Coq Require Import SpecFloat.
From Verif Require Import Base Num NumSpec SourceModel ArraySpec BcodeModel SymbolModel VmModel VmSpec OpSpec VmTyping ValueSpec StoreSpec FnSpec GrammarSpec TypeSpec
  ForSpec PrintSpec DataSpec LineSpec EvalSpec.

(* The lines with their numbers. *)
Definition program := list (N * list stmt).
(* Line k, statement i, from 0. *)
Definition spot := (nat * nat)%type.

(* An active loop. It is not live if its variable was cleared since. *)
Record loop := mkLoop { l_var : symid; l_step : num; l_limit : num; l_body : spot; l_live : bool }.

Record state := mkState {
  x_memory : memory;
  x_spot : spot;             (* the next statement *)
  x_loops : list loop;       (* the loop started last is last *)
  x_returns : list spot;     (* where RETURN goes first *)
  x_data : list bytes;       (* the DATA still to be read *)
  x_output : list oev;
  x_column : N;
  x_input : bytes;           (* what has not been read of the standard input *)
  x_line : bytes             (* the line INPUT read last *)
}.
Definition with_memory (m : memory) (s : state) : state :=
  mkState m (x_spot s) (x_loops s) (x_returns s) (x_data s) (x_output s) (x_column s) (x_input s) (x_line s).
Definition with_spot (p : spot) (s : state) : state :=
  mkState (x_memory s) p (x_loops s) (x_returns s) (x_data s) (x_output s) (x_column s) (x_input s) (x_line s).
Definition with_loops (l : list loop) (s : state) : state :=
  mkState (x_memory s) (x_spot s) l (x_returns s) (x_data s) (x_output s) (x_column s) (x_input s) (x_line s).
Definition with_returns (l : list spot) (s : state) : state :=
  mkState (x_memory s) (x_spot s) (x_loops s) l (x_data s) (x_output s) (x_column s) (x_input s) (x_line s).
Definition with_data (l : list bytes) (s : state) : state :=
  mkState (x_memory s) (x_spot s) (x_loops s) (x_returns s) l (x_output s) (x_column s) (x_input s) (x_line s).
Definition with_output (o : list oev) (c : N) (s : state) : state :=
  mkState (x_memory s) (x_spot s) (x_loops s) (x_returns s) (x_data s) o c (x_input s) (x_line s).
Definition with_input (i l : bytes) (s : state) : state :=
  mkState (x_memory s) (x_spot s) (x_loops s) (x_returns s) (x_data s) (x_output s) (x_column s) i l.

(* What something does to the state: a result, a run-time error, or no meaning. *)
Inductive done (A : Type) :=
| Done (a : A) (s : state)
| Failed (e : rterr) (s : state)
| Meaningless.
Arguments Done {A} a s.
Arguments Failed {A} e s.
Arguments Meaningless {A}.
Definition act (A : Type) := state -> done A.
Definition give {A} (a : A) : act A := fun s => Done a s.
Definition fail {A} (e : rterr) : act A := fun s => Failed e s.
Definition nonsense {A} : act A := fun _ => Meaningless.
Definition update (f : state -> state) : act unit := fun s => Done tt (f s).
Definition look {A} (f : state -> A) : act A := fun s => Done (f s) s.
Definition following_by {A B} (a : act A) (k : A -> act B) : act B :=
  fun s => match a s with Done x s' => k x s' | Failed e s' => Failed e s' | Meaningless => Meaningless end.
Declare Scope act_scope.
Delimit Scope act_scope with act.
Notation "'do' x <- a ; k" := (following_by a (fun x => k)) (at level 200, x name, a at level 100, k at level 200) : act_scope.
Notation "a ;; k" := (following_by a (fun _ => k)) (at level 100, k at level 200, right associativity) : act_scope.
Local Open Scope act_scope.
Definition with_answer {A} (f : memory -> answer A) : act A :=
  fun s => match f (x_memory s) with
           | Value a m => Done a (with_memory m s)
           | Error e m => Failed e (with_memory m s)
           | Undefined => Meaningless
           end.

(* Where to go on: with the next statement, elsewhere, or not at all. *)
Inductive turn := Onward | Elsewhere (p : spot) | Halt.

(* ---------- storing ---------- *)

Definition at_index (f : list N -> datum) (idx : list N) (d : datum) : list N -> datum :=
  fun j => if idx_eqb j idx then d else f j.
Definition element_store (id : symid) (a : option (list N * (list N -> datum))) (ds : list datum) (d : datum) (m : memory) : answer unit :=
  match subscripts_of ds with
  | None => Undefined
  | Some (inr x) => Error (subscript_error (m_name m id) x) m
  | Some (inl idx) =>
      match a with
      | Some (b, f) =>
          if within b idx then Value tt (with_obj m id (Array (Some (b, at_index f idx d)))) else Error (RE_subscript (m_name m id)) m
      | None =>
          let b := map (N.max 10) idx in
          if existsb (N.eqb 4294967295) idx then Undefined
          else if (elements_wanted b <=? 65536)%N
          then Value tt (with_obj m id (Array (Some (b, at_index (fun _ => unset (sort_of d)) idx d))))
          else Error (RE_dimensions (m_name m id)) m
      end
  end.
(* The subscripts are already known; more than two have no meaning. *)
Definition store_value (p : place) (ds : list datum) (d : datum) (m : memory) : answer unit :=
  match pl_kind p, ds with
  | KBuiltin, _ => Undefined
  | _, [] => Value tt (with_var m (pl_id p) d)
  | _, _ =>
      match m_obj m (pl_id p) with
      | Array a => if Nat.leb (length ds) 2 then element_store (pl_id p) a ds d m else Undefined
      | Function _ => Undefined
      end
  end.
(* DIM gives an array its bounds and makes all elements unset; an array that
   had bounds has lost them if there is an error. *)
Definition dim_value (p : place) (ds : list datum) (m : memory) : answer unit :=
  let id := pl_id p in
  let lost := with_obj m id (Array None) in
  if Nat.leb (length ds) 2 then
    match subscripts_of ds with
    | None => Undefined
    | Some (inr x) => Error (subscript_error (m_name m id) x) lost
    | Some (inl b) =>
        if existsb (N.eqb 4294967295) b then Undefined
        else if (elements_wanted b <=? 65536)%N
        then Value tt (with_obj m id (Array (Some (b, fun _ => unset (sort_of_type (pl_type p))))))
        else Error (RE_dimensions (m_name m id)) lost
    end
  else Undefined.
Definition cleared_memory (m : memory) : memory :=
  mkMemory (fun id => unset (sort_of (m_var m id)))
           (fun id => match m_obj m id with Array _ => Array None | Function _ => Function None end)
           (m_name m) (m_seed m) (m_drawn m) (m_clock m).

(* ---------- DATA ---------- *)

Definition stmt_data (x : stmt) : list bytes := match x with SData l => l | _ => [] end.
Definition lines_data (xss : list (list stmt)) : list bytes := flat_map (flat_map stmt_data) xss.

(* ---------- INPUT ---------- *)

(* A line as INPUT reads it: up to a newline but no more than 127 characters,
   of which a zero byte ends what is used. At the end of the input the line
   read last is used again. *)
Definition read_line (s : state) : state :=
  match fgets 128 (x_input s) with
  | Some (l, rest) => with_input rest (cstr l) s
  | None => with_input [] (x_line s) s
  end.
Definition field_end (t : bytes) : bool := match t with [] => true | c :: _ => ceq c NL || ceq c "," end.
Definition after_comma (t : bytes) : option bytes :=
  match drop_while is_blank t with c :: r => if ceq c "," then Some r else None | [] => None end.

Section Program.
Variable E : env.
Variable P : program.

Definition value (e : expr) : act datum := with_answer (evaluate E e).
Definition values (l : list expr) : act (list datum) := with_answer (evals E (call_function E) l).
Definition number_value (e : expr) : act num :=
  do d <- value e; match d with Number x => give x | Text _ => nonsense end.
Definition count_value (e : expr) : act nat :=
  do x <- number_value e; match whole x with Some n => give (N.to_nat n) | None => fail (count_error x) end.
Definition store (p : place) (ds : list datum) (d : datum) : act unit := with_answer (store_value p ds d).

(* Output that the interpreter counts in its column, and output that it does
   not. *)
Definition write (t : bytes) : act unit :=
  update (fun s => with_output (x_output s ++ map OB t) (column_after (x_column s) (map OB t)) s).
Definition show (t : bytes) : act unit := update (fun s => with_output (x_output s ++ map OB t) (x_column s) s).

(* ---------- jumps ---------- *)

Definition line_index (n : N) : option nat := find_index (fun l => (fst l =? n)%N) P.
Definition go_line (n : N) : act turn :=
  match line_index n with Some k => give (Elsewhere (k, 0)) | None => fail (RE_line_not_found n) end.
(* at most eight calls *)
Definition call_line (back : spot) (n : N) : act turn :=
  do r <- look x_returns;
  if Nat.leb 8 (length r) then fail RE_gosub_nested
  else update (with_returns (back :: r)) ;; go_line n.
Definition go_back : act turn :=
  do r <- look x_returns;
  match r with [] => fail RE_return_without_gosub | p :: r' => update (with_returns r') ;; give (Elsewhere p) end.
(* ON: the z-th line of the list; other numbers go on, if they are whole *)
Definition choose (x : num) (l : list N) (jump : N -> act turn) : act turn :=
  if (N.of_nat (length l) <? 2 ^ 32)%N then
    match integer_of x with
    | Some z => if (1 <=? z)%Z then match nth_error l (Z.to_nat (z - 1)) with Some n => jump n | None => give Onward end else give Onward
    | None => match x with S754_infinity _ => give Onward | _ => fail (RE_on_invalid x) end
    end
  else nonsense.

(* ---------- loops ---------- *)

Definition is_loop (id : symid) (l : loop) : bool := (l_var l =? id)%N.
Definition loops_without (id : symid) (l : list loop) : list loop := filter (fun f => negb (is_loop id f)) l.
Definition number_in (m : memory) (id : symid) : num := match m_var m id with Number x => x | Text _ => fzero end.
(* what is written when there are too many loops *)
Definition loops_report (m : memory) (l : list loop) : bytes :=
  lit "-- overflow: " ++
  flat_map (fun f => m_name m (l_var f) ++ lit " = " ++ format_g (number_in m (l_var f)) ++ lit ", " ++ format_g (l_limit f) ++ lit "; ") (rev l) ++ [NL].
Definition start_loop (id : symid) (x limit step : num) (body : spot) : act unit :=
  do l <- look x_loops;
  let others := loops_without id l in
  if Nat.leb 8 (length others) then
    if forallb l_live l then (do m <- look x_memory; show (loops_report m l) ;; fail RE_for_nested) else nonsense
  else update (with_loops (others ++ [mkLoop id step limit body true])) ;;
       update (fun s => with_memory (with_var (x_memory s) id (Number x)) s).
Definition passed (f : loop) (x : num) : bool :=
  (fltb fzero (l_step f) && fltb (l_limit f) x) || (fltb (l_step f) fzero && fltb x (l_limit f)).
Definition next_round (f : loop) : act turn :=
  if l_live f then
    do m <- look x_memory;
    let x := fadd (number_in m (l_var f)) (l_step f) in
    if passed f x then update (fun s => with_loops (loops_without (l_var f) (x_loops s)) s) ;; give Onward
    else update (with_memory (with_var m (l_var f) (Number x))) ;; give (Elsewhere (l_body f))
  else nonsense.
Definition next_of (id : symid) : act turn :=
  do l <- look x_loops;
  do m <- look x_memory;
  match find (is_loop id) l with
  | Some f => next_round f
  | None => fail (RE_next_without_for (match l with [] => None | _ => Some (m_name m id) end))
  end.
Fixpoint next_all (l : list symid) : act turn :=
  match l with
  | [] => give Onward
  | id :: r => do t <- next_of id; match t with Onward => next_all r | _ => give t end
  end.
Definition next_innermost : act turn :=
  do l <- look x_loops;
  match last_opt l with Some f => next_round f | None => fail (RE_next_without_for None) end.

(* ---------- PRINT ---------- *)

Definition print_item (i : pitem) : act unit :=
  match i with
  | PExpr e => do d <- value e; match d with Number x => write (SP :: format_g x ++ [SP]) | Text t => write t end
  | PSpc e => do n <- count_value e; write (blanks n)
  | PTab e =>
      do n <- count_value e;
      do c <- look (fun s => N.to_nat (x_column s));
      if Nat.eqb c 0 then nonsense
      else write (if Nat.leb c n then blanks (n - c) else NL :: blanks (n - 1))
  | PComma => do c <- look x_column; write (blanks (8 - N.to_nat ((c + 7) mod 8)))
  | PSemi => give tt
  end.
Fixpoint print_items (l : list pitem) : act unit :=
  match l with [] => give tt | i :: r => print_item i ;; print_items r end.

(* ---------- READ ---------- *)

Definition all_data : list bytes := lines_data (map snd P).
Definition take_item : act bytes :=
  do l <- look x_data;
  match l with
  | t :: r => update (with_data r) ;; give t
  | [] => fail (match all_data with [] => RE_no_data | _ => RE_out_of_data end)
  end.
Definition read_place (p : place) : act unit :=
  do ds <- values (pl_subs p);
  do t <- take_item;
  match item_value (sort_of_type (pl_type p)) t with
  | Some d => store p ds d
  | None => fail (RE_numeric_data t)
  end.
Fixpoint each {A} (f : A -> act unit) (l : list A) : act unit :=
  match l with [] => give tt | a :: r => f a ;; each f r end.

(* ---------- INPUT ---------- *)

(* Give the fields of the text to the places; what is left of the text, or
   nothing if the statement is to be done again. *)
Fixpoint take_fields (first : bool) (l : list place) (text : bytes) : act (option bytes) :=
  match l with
  | [] => give (Some text)
  | p :: r =>
      match (if first then Some text else after_comma text) with
      | None => show (lit "* More input items are expected *" ++ [NL]) ;; give None
      | Some text =>
          do ds <- values (pl_subs p);
          match pl_type p with
          | TNum =>
              match convert text with
              | Some (x, t) =>
                  if field_end t then store p ds (Number x) ;; take_fields false r t
                  else match pl_subs p with [] => show (lit "* Invalid input *" ++ [NL]) ;; give None | _ => nonsense end
              | None => match pl_subs p with [] => show (lit "* Invalid input *" ++ [NL]) ;; give None | _ => nonsense end
              end
          | _ => let (field, t) := span is_field_char text in store p ds (Text field) ;; take_fields false r t
          end
      end
  end.
Definition prompt_text (prompt : option bytes) : bytes := match prompt with Some t => t | None => [] end ++ lit "? ".
Definition input_statement (here : spot) (prompt : option bytes) (l : list place) : act turn :=
  show (prompt_text prompt) ;;
  update read_line ;;
  do text <- look x_line;
  do rest <- take_fields true l text;
  match rest with
  | None => give (Elsewhere here)
  | Some t =>
      match drop_while is_input_space t with
      | [] => give Onward
      | _ => show (lit "* Extra input was discarded *" ++ [NL]) ;; give Onward
      end
  end.
Definition line_input_statement (prompt : option bytes) (p : place) : act turn :=
  show (prompt_text prompt) ;;
  update read_line ;;
  do ds <- values (pl_subs p);
  do text <- look x_line;
  let l := fst (span (fun c => negb (ceq c NL)) text) in
  update (fun s => with_input (x_input s) l s) ;;
  store p ds (Text l) ;; give Onward.

(* ---------- statements ---------- *)

Definition seeded (n : N) (s : state) : state :=
  let m := x_memory s in with_memory (mkMemory (m_var m) (m_obj m) (m_name m) n 0 (m_clock m)) s.
Definition seeded_by_clock (s : state) : state :=
  let m := x_memory s in
  with_memory (mkMemory (m_var m) (m_obj m) (m_name m) (e_time E (m_clock m) mod 2 ^ 32)%N 0 (S (m_clock m))) s.

(* the statement after the ELSE that follows statement i of the line *)
Definition after_else (xs : list stmt) (i : nat) : option nat :=
  match find_index (fun x => match x with SElse => true | _ => false end) (skipn (i + 1) xs) with
  | Some j => Some (i + 1 + j + 1)
  | None => None
  end.

Definition perform (k : nat) (xs : list stmt) (i : nat) (x : stmt) : act turn :=
  match x with
  | SClear =>
      update (fun s => with_loops (map (fun f => mkLoop (l_var f) (l_step f) (l_limit f) (l_body f) false) (x_loops s))
                         (with_memory (cleared_memory (x_memory s)) s)) ;; give Onward
  | SCls => update (fun s => with_output (x_output s ++ [OCls]) 1 s) ;; give Onward
  | SEnd => give (Elsewhere (length P, 0))
  | SReturn => go_back
  | SStop => give Halt
  | SRem | SData _ => give Onward
  | SDef id param body => update (fun s => with_memory (with_obj (x_memory s) id (Function (Some (param, body)))) s) ;; give Onward
  | SDim l => each (fun p => do ds <- values (pl_subs p); with_answer (dim_value p ds)) l ;; give Onward
  | SFor id a b c =>
      do first <- number_value a;
      do limit <- number_value b;
      do step <- match c with Some e => number_value e | None => give fone end;
      start_loop id first limit step (k, i + 1) ;; give Onward
  | SGoto n | SElseGo n => go_line n
  | SGosub n => call_line (k, i + 1) n
  | SIf e has_else =>
      do x <- number_value e;
      if truth x then give Onward
      else if has_else then match after_else xs i with Some j => give (Elsewhere (k, j)) | None => nonsense end
      else give (Elsewhere (k + 1, 0))
  | SIfGo e n => do x <- number_value e; if truth x then go_line n else give Onward
  | SElse => give (Elsewhere (k + 1, 0))
  | SInput prompt l => input_statement (k, i) prompt l
  | SLineInput prompt p => line_input_statement prompt p
  | SLet p e => do ds <- values (pl_subs p); do d <- value e; store p ds d ;; give Onward
  | SNext [] => next_innermost
  | SNext l => next_all l
  | SOn e gosub l => do x <- number_value e; choose x l (if gosub then call_line (k, i + 1) else go_line)
  | SPrint l => print_items l ;; (if separator_last l then give tt else write [NL]) ;; give Onward
  | SRandomize (Some e) => do n <- count_value e; update (seeded (N.of_nat n)) ;; give Onward
  | SRandomize None => update seeded_by_clock ;; give Onward
  | SRead l => each read_place l ;; give Onward
  | SRestore None => update (with_data all_data) ;; give Onward
  | SRestore (Some n) =>
      match line_index n with
      | Some j => update (with_data (lines_data (skipn j (map snd P)))) ;; give Onward
      | None => fail (RE_line_not_found n)
      end
  end.

(* ---------- programs ---------- *)

Inductive outcome := Next (s : state) | Finished (s : state) | Stopped (s : state) | Erred (e : rterr) (s : state) | NoMeaning.

Definition step (s : state) : outcome :=
  let (k, i) := x_spot s in
  match nth_error P k with
  | None => Finished s
  | Some (_, xs) =>
      match nth_error xs i with
      | None => Next (with_spot (k + 1, 0) s)
      | Some x =>
          match perform k xs i x s with
          | Done Onward s' => Next (with_spot (k, i + 1) s')
          | Done (Elsewhere p) s' => Next (with_spot p s')
          | Done Halt s' => Stopped (with_spot (k, i) s')
          | Failed e s' => Erred e (with_spot (k, i) s')
          | Meaningless => NoMeaning
          end
      end
  end.
(* n statements, or fewer if the program ends before *)
Fixpoint steps (n : nat) (s : state) : outcome :=
  match n with
  | O => Next s
  | S m => match step s with Next s' => steps m s' | o => o end
  end.
End Program.

(* Errors of programs, as opposed to those of the machine itself: a full or
   empty stack, code that is not as it should be. *)
Definition ordinary (e : rterr) : Prop :=
  match e with
  | RE_num_overflow | RE_num_empty | RE_str_overflow | RE_str_empty | RE_def_params _ | RE_run_into_param | RE_unexpected_end_def
  | RE_on_line_expected | RE_fn_corrupt _ | RE_fn_param_expected | RE_unknown_opcode => False
  | _ => True
  end.
