(* What is assigned to a simple variable (C37). *)
From Verif Require Import Base Num BcodeModel SymbolModel VmModel VmSpec StoreSpec FnSpec.

(* The instruction to be executed assigns to id: LET, FOR, NEXT of its loop,
   INPUT, READ, CLEAR, and entry to and exit from a function of which id is the
   parameter. *)
Definition assigns (v : vm) (id : symid) : Prop :=
  match current v with
  | Some (I_SET_SIMPLE_NUM j) | Some (I_SET_SIMPLE_STR j) | Some (I_FOR j) | Some (I_NEXT_VAR j)
  | Some (I_INPUT_NUM j _) | Some (I_INPUT_STR j _) | Some (I_INPUT_LINE j _)
  | Some (I_READ_NUM j _) | Some (I_READ_STR j _) => j = id
  | Some I_NEXT_IMP => exists f, last_opt (v_for v) = Some f /\ f_sym f = id
  | Some (I_GET_PAREN_NUM j _) | Some (I_GET_PAREN_STR j _) => exists d, function v j = Some d /\ parameter d = Some id
  | Some I_END_DEF => in_function v /\ fn_param (v_fn v) = id
  | Some I_CLEAR => True
  | _ => False
  end.

(* The values assigned by LET to id in an execution in which nothing else
   assigns to it. *)
Inductive assignments (t : sort) (id : symid) : list vm -> list datum -> Prop :=
| As_nil : assignments t id [] []
| As_other v l ws : ~ assigns v id -> assignments t id l ws -> assignments t id (v :: l) ws
| As_let u d l ws : current u = Some (set_variable t id) -> sort_of d = t ->
    assignments t id l ws -> assignments t id (push_datum d u :: l) (d :: ws).
