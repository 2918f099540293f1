(* What the properties of the running machine mean (C13, C14, C21 ...). *)
From Verif Require Import Base Num LineMapModel BcodeModel SymbolModel VmModel.

(* The instruction about to be executed. *)
Definition current (v : vm) : option instr :=
  match cur_bcode v with
  | Some bc => nth_error (bc_inst bc) (cs_pc (v_cs v))
  | None => None
  end.

(* The place n instructions further on in the code being executed. *)
Definition place_after (v : vm) (n : nat) : code_state :=
  mkCs (cs_code (v_cs v)) (cs_line (v_cs v)) (cs_pc (v_cs v) + n).

(* An uninterrupted execution without run-time error: the states in which an
   instruction was executed, and the state reached. *)
Inductive runs (E : env) : vm -> list vm -> vm -> Prop :=
| Runs_nil v : runs E v [] v
| Runs_cons v v1 l v' : execute E v = (Ok tt, v1) -> runs E v1 l v' -> runs E v (v :: l) v'.

(* ---------- calls (C13) ---------- *)

Inductive event := Call (back : code_state) | Back | Other.

(* x is one of the whole numbers 1..k *)
Definition selects (x : num) (k : nat) : bool :=
  feqb (ffloor x) x && fgeb x fone && fleb x (fofN (N.of_nat k)).

(* What executing the current instruction means for calls. ON..GOSUB with k
   targets is followed by k instructions holding them. *)
Definition event_of (v : vm) : event :=
  match current v with
  | Some (I_GOSUB _) => Call (place_after v 1)
  | Some (I_ON_GOSUB k) =>
      match v_stack v with
      | x :: _ => if selects x k then Call (place_after v (k + 1)) else Other
      | [] => Other
      end
  | Some I_RETURN => Back
  | _ => Other
  end.

(* The places to return to, innermost first, after a history of events. *)
Fixpoint pending_from (p : list code_state) (h : list event) : list code_state :=
  match h with
  | [] => p
  | Call b :: r => pending_from (b :: p) r
  | Back :: r => pending_from (tl p) r
  | Other :: r => pending_from p r
  end.
Definition pending (h : list event) : list code_state := pending_from [] h.

(* Every call in the history has been returned from, and no other. *)
Inductive balanced : list event -> Prop :=
| Bal_nil : balanced []
| Bal_other h : balanced h -> balanced (Other :: h)
| Bal_call b h h' : balanced h -> balanced h' -> balanced (Call b :: h ++ Back :: h').

(* ---------- stack limits (C21) ---------- *)

Definition within_limits (v : vm) : Prop :=
  length (v_stack v) <= 16 /\ length (v_sstack v) <= 8 /\
  length (v_ret v) <= 8 /\ length (v_for v) <= 8.

(* ---------- jumps ---------- *)

(* Where line n of the stored program is, according to the index made when it
   was compiled. *)
Definition line_place (v : vm) (n : N) : option nat :=
  match c_index (v_stored v) with
  | Some idx => option_map N.to_nat (lookup_line_mapping idx n)
  | None => None
  end.

(* The outcome r of going to line n from v: execution continues there with
   nothing else changed, or the line does not exist. *)
Definition goes_to (v : vm) (n : N) (r : res unit * vm) : Prop :=
  match line_place v n with
  | Some pc => r = (Ok tt, set_cs (mkCs (Some CStored) (cs_line (v_cs v)) pc) v)
  | None => fst r = Fail (RE_line_not_found n) /\ v_cs (snd r) = v_cs v
  end.

(* The instructions following the current one. *)
Definition following (v : vm) : list instr :=
  match cur_bcode v with
  | Some bc => skipn (S (cs_pc (v_cs v))) (bc_inst bc)
  | None => []
  end.

(* ---------- ON (C15) ---------- *)

(* The current instruction is ON x GOTO (or GOSUB) with the list ls. *)
Definition on_list (v : vm) (gosub : bool) (ls : list N) : Prop :=
  current v = Some (if gosub then I_ON_GOSUB (length ls) else I_ON_GOTO (length ls)) /\
  firstn (length ls) (following v) = map I_ON_LINE ls.
