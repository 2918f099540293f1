(* What variables and arrays hold and how instructions change them (C08, C09,
   C10, C12). *)
From Verif Require Import Base Num NumSpec ArrayModel ArraySpec BcodeModel SymbolModel VmModel VmSpec OpSpec.

Inductive datum := Number (x : num) | Text (s : bytes).
Inductive sort := Numbers | Texts.
Definition vtype_of (t : sort) : vtype := match t with Numbers => TNum | Texts => TStr end.
Definition sort_of (d : datum) : sort := match d with Number _ => Numbers | Text _ => Texts end.
(* the value of what has not been assigned *)
Definition unset (t : sort) : datum := match t with Numbers => Number fzero | Texts => Text [] end.

(* id names a simple variable, or an array, of the sort *)
Definition named (v : vm) (id : symid) (k : skind) (t : sort) : Prop :=
  exists s, symbol_at (v_st v) id = Some s /\ s_kind s = k /\ s_type s = vtype_of t.

(* what a simple variable of sort t holds *)
Definition variable (v : vm) (t : sort) (id : symid) : datum :=
  match symbol_at (v_st v) id with
  | Some s => if s_defined s then match s_val s with VNum x => Number x | VStr x => Text x | _ => unset t end else unset t
  | None => unset t
  end.

(* the largest subscripts of an array, in the order written; None until it is
   dimensioned *)
Definition bounds (v : vm) (id : symid) : option (list N) :=
  match symbol_at (v_st v) id with
  | Some s =>
      match s_val s with
      | VNumArr a => Some (rev (as_max (ar_size a)))
      | VStrArr a => Some (rev (as_max (ar_size a)))
      | _ => None
      end
  | None => None
  end.

(* what the element of an array with the given subscripts holds; the last
   subscript comes first in the array object *)
Definition element (v : vm) (t : sort) (id : symid) (idx : list N) : datum :=
  match symbol_at (v_st v) id with
  | Some s =>
      match s_val s with
      | VNumArr a => match read_element a (rev idx) with AOk x => Number x | _ => unset t end
      | VStrArr a => match read_element a (rev idx) with AOk x => Text (opt_str x) | _ => unset t end
      | _ => unset t
      end
  | None => unset t
  end.

(* the n numbers on top of the stack are the subscripts idx *)
Definition subscripts (v : vm) (n : N) (idx : list N) (st : list num) : Prop :=
  exists xs, v_stack v = rev xs ++ st /\ Forall2 (fun x i => double x /\ count x (N.to_nat i)) xs idx /\ N.of_nat (length idx) = n.

Definition push_datum (d : datum) (v : vm) : vm :=
  match d with Number x => set_stack (x :: v_stack v) v | Text s => set_sstack (s :: v_sstack v) v end.

(* the instructions *)
Definition get_variable (t : sort) (id : symid) : instr :=
  match t with Numbers => I_GET_SIMPLE_NUM id | Texts => I_GET_SIMPLE_STR id end.
Definition set_variable (t : sort) (id : symid) : instr :=
  match t with Numbers => I_SET_SIMPLE_NUM id | Texts => I_SET_SIMPLE_STR id end.
Definition get_element (t : sort) (id : symid) (n : N) : instr :=
  match t with Numbers => I_GET_PAREN_NUM id n | Texts => I_GET_PAREN_STR id n end.
Definition set_element (t : sort) (id : symid) (n : N) : instr :=
  match t with Numbers => I_SET_ARRAY_NUM id n | Texts => I_SET_ARRAY_STR id n end.
Definition dim (t : sort) (id : symid) (n : N) : instr :=
  match t with Numbers => I_DIM_NUM id n | Texts => I_DIM_STR id n end.

(* w differs from v only in what id holds *)
Definition only (id : symid) (v w : vm) : Prop :=
  w = set_st (v_st w) v /\
  (forall j, j <> id -> symbol_at (v_st w) j = symbol_at (v_st v) j) /\
  (forall k t, named v id k t -> named w id k t).

(* w is v after DIM of id with the bounds b: all its elements are unset *)
Definition dimensioned (v : vm) (t : sort) (id : symid) (b : list N) (w : vm) : Prop :=
  only id v w /\ bounds w id = Some b /\ forall idx, element w t id idx = unset t.

(* w is v after storing d in an element of id *)
Definition stored (v : vm) (t : sort) (id : symid) (idx : list N) (d : datum) (w : vm) : Prop :=
  only id v w /\ bounds w id = bounds v id /\ element w t id idx = d /\
  forall j, j <> idx -> element w t id j = element v t id j.

(* w is v after storing d in the variable id *)
Definition assigned_to (v : vm) (t : sort) (id : symid) (d : datum) (w : vm) : Prop :=
  only id v w /\ variable w t id = d.

(* one or two dimensions, no more than 65536 elements *)
Definition acceptable (b : list N) : Prop :=
  (length b = 1 \/ length b = 2) /\ (elements_wanted b <= 65536)%N.

(* Array objects in the machine have been made by DIM with acceptable bounds. *)
Definition sound_array {A} (a : array A) : Prop :=
  exists max, acceptable max /\ ar_size a = mkSize 0 max (elements_wanted max) /\
    N.of_nat (length (ar_val a)) = elements_wanted max.
Definition arrays_ok (v : vm) : Prop :=
  Forall (fun s => match s_val s with VNumArr a => sound_array a | VStrArr a => sound_array a | _ => True end)
    (st_syms (v_st v)).

(* why a number is not a subscript of the array called name *)
Definition subscript_error (name : bytes) (x : num) : rterr :=
  if fltb x fzero || negb (feqb (ffloor x) x) then RE_index_nonneg name x else RE_index_range name x.

(* the symbol an instruction is about *)
Definition subject (i : instr) : option symid :=
  match i with
  | I_GET_SIMPLE_NUM id | I_SET_SIMPLE_NUM id | I_GET_SIMPLE_STR id | I_SET_SIMPLE_STR id
  | I_DIM_NUM id _ | I_DIM_STR id _ | I_GET_PAREN_NUM id _ | I_GET_PAREN_STR id _
  | I_SET_ARRAY_NUM id _ | I_SET_ARRAY_STR id _ | I_FOR id | I_NEXT_VAR id
  | I_DEF id _ | I_INPUT_NUM id _ | I_INPUT_STR id _ | I_INPUT_LINE id _ | I_READ_NUM id _ | I_READ_STR id _ => Some id
  | _ => None
  end.

(* the subscripts taken by the current instruction *)
Definition subscript_numbers (v : vm) : list num :=
  match current v with
  | Some (I_DIM_NUM _ n) | Some (I_DIM_STR _ n) | Some (I_GET_PAREN_NUM _ n) | Some (I_GET_PAREN_STR _ n)
  | Some (I_SET_ARRAY_STR _ n) | Some (I_INPUT_NUM _ n) | Some (I_INPUT_STR _ n) | Some (I_INPUT_LINE _ n)
  | Some (I_READ_NUM _ n) | Some (I_READ_STR _ n) => firstn (N.to_nat n) (v_stack v)
  | Some (I_SET_ARRAY_NUM _ n) => firstn (N.to_nat n) (tl (v_stack v))
  | _ => []
  end.
(* no subscript of an array is 4294967295 *)
Definition no_wrap (v : vm) : Prop :=
  forall i id t, current v = Some i -> subject i = Some id -> named v id KArray t ->
    Forall (fun x => ~ is_integer x 4294967295) (subscript_numbers v).

(* The assignments to elements of id in an execution in which id is only read
   and assigned by LET. *)
Inductive history (t : sort) (id : symid) : list vm -> list (list N * datum) -> Prop :=
| Hist_nil : history t id [] []
| Hist_other v l ws : (forall i, current v = Some i -> subject i <> Some id /\ i <> I_CLEAR) ->
    history t id l ws -> history t id (v :: l) ws
| Hist_read v n l ws : current v = Some (get_element t id n) -> history t id l ws -> history t id (v :: l) ws
| Hist_write u n idx st d l ws : current u = Some (set_element t id n) -> sort_of d = t -> subscripts u n idx st ->
    history t id l ws -> history t id (push_datum d u :: l) ((idx, d) :: ws).

(* One of the n numbers on top of the stack, x, is not a subscript, and those
   above it (written after it) are. *)
Definition bad_subscript (v : vm) (n : N) (x : num) : Prop :=
  exists ys idx st, v_stack v = ys ++ x :: st /\ Forall2 (fun x i => double x /\ count x (N.to_nat i)) ys idx /\
    (N.of_nat (length idx) < n)%N /\ double x /\ forall m, ~ count x m.

(* all values are cleared *)
Definition cleared (v w : vm) : Prop :=
  w = set_st (v_st w) v /\
  forall id s, symbol_at (v_st v) id = Some s -> exists s', symbol_at (v_st w) id = Some s' /\
    s_name s' = s_name s /\ s_kind s' = s_kind s /\ s_type s' = s_type s /\
    (s_kind s = KBuiltin -> s' = s) /\ (s_kind s <> KBuiltin -> s_defined s' = false /\ (s_kind s <> KVariable -> s_val s' = VZero)).
