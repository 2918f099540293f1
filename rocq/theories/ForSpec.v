(* What FOR and NEXT are to do (C14). *)
From Verif Require Import Base Num NumSpec BcodeModel SymbolModel VmModel VmSpec.

(* id names a number variable *)
Definition number_var (v : vm) (id : symid) : Prop :=
  exists s, symbol_at (v_st v) id = Some s /\ s_kind s = KVariable /\ s_type s = TNum.

(* What reading the number variable id gives: 0 until it is assigned. *)
Definition number_of (v : vm) (id : symid) : num :=
  match symbol_at (v_st v) id with
  | Some s => if s_defined s then match s_val s with VNum x => x | _ => fzero end else fzero
  | None => fzero
  end.

(* It has been assigned, or at least read, since RUN or CLEAR. *)
Definition assigned (v : vm) (id : symid) : Prop :=
  match symbol_at (v_st v) id with Some s => s_defined s = true | None => False end.

(* v with the value x assigned to the variable id and nothing else changed *)
Definition assign (id : symid) (x : num) (v : vm) : vm :=
  match symbol_at (v_st v) id with
  | Some s => set_st (sym_update (v_st v) (N.to_nat id) (define s (VNum x))) v
  | None => v
  end.

(* The loop variables of the active loops are different, and there are at most
   eight. The list starts with the loop started first. *)
Definition loops_ok (v : vm) : Prop :=
  NoDup (map f_sym (v_for v)) /\ length (v_for v) <= 8.

(* The active loops other than that of id. *)
Definition other_loops (v : vm) (id : symid) : list for_loop :=
  filter (fun f => negb (f_sym f =? id)%N) (v_for v).

(* The statement following the FOR of a loop. *)
Definition loop_body (f : for_loop) : code_state :=
  mkCs (cs_code (f_cs f)) (cs_line (f_cs f)) (S (cs_pc (f_cs f))).

(* The value x is past the limit. *)
Definition past (f : for_loop) (x : num) : bool :=
  (fltb fzero (f_step f) && fltb (f_limit f) x) || (fltb (f_step f) fzero && fltb x (f_limit f)).

(* The current statement is the NEXT of f: NEXT names its variable, or names
   none and f is the innermost loop, the one started last. *)
Definition at_next (v : vm) (f : for_loop) : Prop :=
  In f (v_for v) /\
  (current v = Some (I_NEXT_VAR (f_sym f)) \/
   (current v = Some I_NEXT_IMP /\ exists outer, v_for v = outer ++ [f])).

(* The variable has kept its value from v to w. *)
Definition kept (v w : vm) (id : symid) : Prop :=
  number_of w id = number_of v id /\ assigned w id.

(* A loop from the start of its body in v to the statement after it, with the
   values of its variable at the start of each repetition. The body may do
   anything that brings it to the NEXT of this loop with the loop still active
   and its variable unchanged. *)
Inductive looping (E : env) (f : for_loop) : vm -> list num -> vm -> Prop :=
| Looping_last v l w v' :
    runs E v l w -> at_next w f -> kept v w (f_sym f) ->
    execute E w = (Ok tt, v') -> v_cs v' = place_after w 1 -> ~ In f (v_for v') ->
    looping E f v [number_of v (f_sym f)] v'
| Looping_more v l w v1 xs v' :
    runs E v l w -> at_next w f -> kept v w (f_sym f) ->
    execute E w = (Ok tt, v1) -> v_cs v1 = loop_body f -> In f (v_for v1) ->
    looping E f v1 xs v' ->
    looping E f v (number_of v (f_sym f) :: xs) v'.

(* How often FOR i = a TO b STEP s repeats, for whole numbers: at least once. *)
Definition repetitions (a b s : Z) : nat :=
  Z.to_nat (Z.max 1 (if 0 <? s then (b - a) / s + 1 else (a - b) / (- s) + 1)%Z).
