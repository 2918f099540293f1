(* The values of expressions (C23, C17): a definition on the structure of the
   expression, without stack or code. *)
From Coq Require Import SpecFloat.
From Verif Require Import Base Num NumSpec ArraySpec BcodeModel SymbolModel VmModel VmSpec OpSpec VmTyping ValueSpec StoreSpec FnSpec GrammarSpec TypeSpec.

(* ---------- what the names stand for ---------- *)

(* An array is not dimensioned or has bounds and elements; a function is not
   defined or has a parameter and an expression. *)
Inductive object :=
| Array (a : option (list N * (list N -> datum)))
| Function (f : option (symid * expr)).

(* The simple variables, the arrays and functions, the names, and the state of
   the random number generator and the clock. *)
Record memory := mkMemory {
  m_var : symid -> datum;
  m_obj : symid -> object;
  m_name : symid -> bytes;
  m_seed : N;
  m_drawn : nat;
  m_clock : nat
}.
Definition at_id {A} (f : symid -> A) (id : symid) (a : A) : symid -> A := fun j => if (j =? id)%N then a else f j.
Definition with_var (m : memory) (id : symid) (d : datum) : memory :=
  mkMemory (at_id (m_var m) id d) (m_obj m) (m_name m) (m_seed m) (m_drawn m) (m_clock m).
Definition with_obj (m : memory) (id : symid) (o : object) : memory :=
  mkMemory (m_var m) (at_id (m_obj m) id o) (m_name m) (m_seed m) (m_drawn m) (m_clock m).
Definition with_drawn (m : memory) (k : nat) : memory :=
  mkMemory (m_var m) (m_obj m) (m_name m) (m_seed m) k (m_clock m).
Definition with_clock (m : memory) (k : nat) : memory :=
  mkMemory (m_var m) (m_obj m) (m_name m) (m_seed m) (m_drawn m) k.

(* A value, or a run-time error, with the memory then; or the expression has
   no meaning. *)
Inductive answer (A : Type) :=
| Value (a : A) (m : memory)
| Error (e : rterr) (m : memory)
| Undefined.
Arguments Value {A} a m.
Arguments Error {A} e m.
Arguments Undefined {A}.
Definition and_then {A B} (a : answer A) (k : A -> memory -> answer B) : answer B :=
  match a with Value x m => k x m | Error e m => Error e m | Undefined => Undefined end.

(* ---------- numbers ---------- *)

Definition integer_of (x : num) : option Z :=
  match units x with
  | Some u => if (u mod UNIT =? 0)%Z then Some (u / UNIT)%Z else None
  | None => None
  end.
(* a whole number that can be a count or a subscript *)
Definition whole (x : num) : option N :=
  match integer_of x with
  | Some z => if ((0 <=? z) && (z <? 2 ^ 32))%Z then Some (Z.to_N z) else None
  | None => None
  end.
(* an operand of AND, OR and NOT *)
Definition integer32 (x : num) : option Z :=
  match integer_of x with
  | Some z => if ((- 2 ^ 31 <=? z) && (z <? 2 ^ 31))%Z then Some z else None
  | None => None
  end.

(* ---------- operators and built-in functions ---------- *)

Inductive result := Gives (d : datum) | Fails (e : rterr) | Nonsense.
Definition truth_datum (b : bool) : result := Gives (Number (truth_value b)).

Definition related_numbers (r : GrammarSpec.relation) (x y : num) : bool :=
  match r with
  | REq => SFeqb x y | RNe => negb (SFeqb x y) | RLt => SFltb x y | RGt => SFltb y x | RLe => SFleb x y | RGe => SFleb y x
  end.
Definition related_texts (r : GrammarSpec.relation) (s t : bytes) : bool :=
  match r, strcmp s t with
  | REq, Eq | RNe, Lt | RNe, Gt | RLt, Lt | RGt, Gt | RLe, Lt | RLe, Eq | RGe, Gt | RGe, Eq => true
  | _, _ => false
  end.
(* the right operand is looked at first *)
Definition logic (f : Z -> Z -> Z) (x y : num) : result :=
  match integer32 y, integer32 x with
  | None, _ => Fails (RE_logical y)
  | _, None => Fails (RE_logical x)
  | Some b, Some a => Gives (Number (fofZ (f a b)))
  end.
Definition binary_value (E : env) (o : binop) (a b : datum) : result :=
  match o, a, b with
  | OOr, Number x, Number y => logic Z.lor x y
  | OAnd, Number x, Number y => logic Z.land x y
  | ORel r, Number x, Number y => truth_datum (related_numbers r x y)
  | ORel r, Text s, Text t => truth_datum (related_texts r s t)
  | OAdd, Number x, Number y => Gives (Number (fadd x y))
  | OAdd, Text s, Text t =>
      if Nat.leb (length s + length t) 255 then Gives (Text (s ++ t))
      else Fails (RE_concat_too_long (N.of_nat (length s + length t)))
  | OSub, Number x, Number y => Gives (Number (fsub x y))
  | OMul, Number x, Number y => Gives (Number (fmul x y))
  | ODiv, Number x, Number y => Gives (Number (fdiv x y))
  | OPow, Number x, Number y => Gives (Number (e_pow E x y))
  | _, _, _ => Nonsense
  end.
Definition negative (d : datum) : result := match d with Number x => Gives (Number (fneg x)) | Text _ => Nonsense end.
Definition complement (d : datum) : result :=
  match d with
  | Number x => match integer32 x with Some z => Gives (Number (fofZ (Z.lnot z))) | None => Fails (RE_logical x) end
  | Text _ => Nonsense
  end.

Definition of_number (f : num -> result) (ds : list datum) : result :=
  match ds with [Number x] => f x | _ => Nonsense end.
Definition of_text (f : bytes -> result) (ds : list datum) : result :=
  match ds with [Text s] => f s | _ => Nonsense end.
Definition number (f : num -> num) : list datum -> result := of_number (fun x => Gives (Number (f x))).
Definition counted (x : num) (f : nat -> result) : result :=
  match whole x with Some n => f (N.to_nat n) | None => Fails (count_error x) end.

(* the functions that depend on their arguments only *)
Definition functions (E : env) : list (bytes * (list datum -> result)) :=
  [ (lit "ABS", number fabs);
    (lit "ASC", of_text (fun s => Gives (Number (fofZ (match s with
                  | [] => 0
                  | c :: _ => if (code c <? 128)%N then Z.of_N (code c) else Z.of_N (code c) - 256
                  end)))));
    (lit "ATN", number (e_atan E));
    (lit "CHR$", of_number (fun x => match whole x with
                  | Some n => if (n =? 0)%N then Gives (Text []) else if (n <? 256)%N then Gives (Text [chr n]) else Fails (RE_chr x)
                  | None => Fails (RE_chr x)
                  end));
    (lit "COS", number (e_cos E));
    (lit "EXP", number (e_exp E));
    (lit "INT", number ffloor);
    (lit "LEFT$", fun ds => match ds with
                  | [Text s; Number x] => counted x (fun n => Gives (Text (firstn n s)))
                  | _ => Nonsense
                  end);
    (lit "LEN", of_text (fun s => Gives (Number (fofN (N.of_nat (length s))))));
    (lit "LOG", of_number (fun x => if fleb x fzero then Fails RE_log else Gives (Number (e_log E x))));
    (lit "MID$", fun ds => match ds with
                  | [Text s; Number x; Number y] =>
                      counted y (fun n => counted x (fun k =>
                        if Nat.leb 1 k && Nat.leb k (length s) then Gives (Text (firstn n (skipn (k - 1) s))) else Fails RE_string_index))
                  | _ => Nonsense
                  end);
    (lit "RIGHT$", fun ds => match ds with
                  | [Text s; Number x] => counted x (fun n => Gives (Text (skipn (length s - n) s)))
                  | _ => Nonsense
                  end);
    (lit "SGN", number (fun x => if fltb x fzero then fofZ (-1) else if fgtb x fzero then fofZ 1 else x));
    (lit "SIN", number (e_sin E));
    (lit "SQR", number fsqrt);
    (lit "STR$", of_number (fun x => Gives (Text (format_g x))));
    (lit "TAN", number (e_tan E));
    (lit "VAL", of_text (fun s => match convert s with Some (x, []) => Gives (Number x) | _ => Fails (RE_number s) end)) ].

Definition two (n : N) : bytes := if (n <? 10)%N then "0"%char :: dec_of_N n else dec_of_N n.
(* the first of the next hundred numbers that is not RAND_MAX *)
Definition draw (E : env) (m : memory) : answer datum :=
  match find (fun j => (e_rand E (m_seed m) (m_drawn m + j) <? RAND_MAX)%N) (seq 0 100) with
  | Some j => Value (Number (fdiv (fofN (e_rand E (m_seed m) (m_drawn m + j))) (fofN RAND_MAX))) (with_drawn m (m_drawn m + j + 1))
  | None => Undefined
  end.
Definition time_of_day (E : env) (m : memory) : answer datum :=
  let '(h, mi, s) := e_hms E (m_clock m) in
  Value (Text (two h ++ lit ":" ++ two mi ++ lit ":" ++ two s)) (with_clock m (S (m_clock m))).

Definition answer_of (r : result) (m : memory) : answer datum :=
  match r with Gives d => Value d m | Fails e => Error e m | Nonsense => Undefined end.
Definition builtin_value (E : env) (name : bytes) (ds : list datum) (m : memory) : answer datum :=
  if bytes_eqb name (lit "RND") then draw E m
  else if bytes_eqb name (lit "TIME$") then time_of_day E m
  else match find (fun p => bytes_eqb (fst p) name) (functions E) with
       | Some (_, f) => answer_of (f ds) m
       | None => Undefined
       end.

(* ---------- arrays ---------- *)

(* the subscripts, or the last of the numbers that cannot be one *)
Fixpoint subscripts_of (ds : list datum) : option (list N + num) :=
  match ds with
  | [] => Some (inl [])
  | Number x :: r =>
      match subscripts_of r with
      | Some (inl idx) => match whole x with Some n => Some (inl (n :: idx)) | None => Some (inr x) end
      | q => q
      end
  | Text _ :: _ => None
  end.
Fixpoint within (b idx : list N) : bool :=
  match b, idx with
  | [], [] => true
  | m :: b', i :: idx' => (i <=? m)%N && within b' idx'
  | _, _ => false
  end.
(* An array that is not dimensioned gets bounds first: 10, or the subscript if
   that is larger. Neither three subscripts nor the subscript 4294967295 have a
   meaning then. *)
Definition element_value (t : sort) (id : symid) (a : option (list N * (list N -> datum))) (ds : list datum) (m : memory) : answer datum :=
  match subscripts_of ds with
  | None => Undefined
  | Some (inr x) => Error (subscript_error (m_name m id) x) m
  | Some (inl idx) =>
      match a with
      | Some (b, f) => if within b idx then Value (f idx) m else Error (RE_subscript (m_name m id)) m
      | None =>
          let b := map (N.max 10) idx in
          if existsb (N.eqb 4294967295) idx then Undefined
          else if (elements_wanted b <=? 65536)%N
          then Value (unset t) (with_obj m id (Array (Some (b, fun _ => unset t))))
          else Error (RE_dimensions (m_name m id)) m
      end
  end.

(* ---------- expressions ---------- *)

Definition sort_of_type (t : vtype) : sort := match t with TStr => Texts | _ => Numbers end.

Section Eval.
Variable E : env.
(* what a call of a function gives *)
Variable call : symid -> option (symid * expr) -> list datum -> memory -> answer datum.

(* Operands and arguments are evaluated from left to right. *)
Fixpoint eval (e : expr) (m : memory) : answer datum :=
  let evals := fix evals (l : list expr) (m : memory) : answer (list datum) :=
    match l with
    | [] => Value [] m
    | a :: r => and_then (eval a m) (fun d m => and_then (evals r m) (fun ds m => Value (d :: ds) m))
    end in
  match e with
  | ENum x => Value (Number x) m
  | EStr s => Value (Text s) m
  | EVar id _ => Value (m_var m id) m
  | EElem id t args =>
      and_then (evals args m) (fun ds m =>
        match m_obj m id with
        | Array a => if Nat.leb (length ds) 2 then element_value (sort_of_type t) id a ds m else Undefined
        | Function f => call id f ds m
        end)
  | EFun b args => and_then (evals args m) (fun ds m => builtin_value E (bi_name b) ds m)
  | EDrop b a => and_then (eval a m) (fun _ m => builtin_value E (bi_name b) [] m)
  | ENegs n a => and_then (eval a m) (fun d m => if Nat.odd n then answer_of (negative d) m else Value d m)
  | ENots n a => and_then (eval a m) (fun d m => if Nat.odd n then answer_of (complement d) m else Value d m)
  | EBin o a b => and_then (eval a m) (fun x m => and_then (eval b m) (fun y m => answer_of (binary_value E o x y) m))
  | EBad _ _ => Undefined
  end.
Fixpoint evals (l : list expr) (m : memory) : answer (list datum) :=
  match l with
  | [] => Value [] m
  | a :: r => and_then (eval a m) (fun d m => and_then (evals r m) (fun ds m => Value (d :: ds) m))
  end.
End Eval.

(* In the expression of a function no functions can be called. *)
Definition no_call (id : symid) (f : option (symid * expr)) (ds : list datum) (m : memory) : answer datum :=
  match f with None => Error (RE_fn_undefined (m_name m id)) m | Some _ => Error RE_fn_nested m end.
(* A call gives the value of the expression with the parameter holding the
   argument; then the parameter gets back what it held, unless there was an
   error. The number of arguments is counted modulo 256. *)
Definition call_function (E : env) (id : symid) (f : option (symid * expr)) (ds : list datum) (m : memory) : answer datum :=
  match f with
  | None => Error (RE_fn_undefined (m_name m id)) m
  | Some (p, e) =>
      match ds with
      | [Number x] => and_then (eval E no_call e (with_var m p (Number x))) (fun d m' => Value d (with_var m' p (m_var m p)))
      | _ => let n := u8 (N.of_nat (length ds)) in
             if (n =? 1)%N then Undefined else Error (RE_fn_params (m_name m id) n) m
      end
  end.

(* the value of an expression in a program *)
Definition evaluate (E : env) (e : expr) (m : memory) : answer datum := eval E (call_function E) e m.

(* ---------- the machine ---------- *)

(* the code of a user function *)
Definition definition (id p : symid) (e : expr) : list instr := I_DEF id 1 :: I_PARAM p :: ecode e ++ [I_END_DEF].

(* the machine's symbols hold what the memory says *)
Record holds (v : vm) (m : memory) : Prop := {
  h_var : forall id t, StoreSpec.named v id KVariable t -> variable v t id = m_var m id;
  h_arr : forall id t, StoreSpec.named v id KArray t ->
    match m_obj m id with
    | Array None => bounds v id = None
    | Array (Some (b, f)) => bounds v id = Some b /\ forall idx, element v t id idx = f idx
    | Function _ => False
    end;
  h_fun : forall id t, StoreSpec.named v id KDef t ->
    match m_obj m id with
    | Function None => function v id = None
    | Function (Some (p, e)) => exists d, function v id = Some d /\ body d = definition id p e /\ etype e = vtype_of t
    | Array _ => False
    end;
  h_name : forall id s, symbol_at (v_st v) id = Some s -> m_name m id = s_name s;
  h_seed : v_seed v = m_seed m;
  h_drawn : v_randk v = m_drawn m;
  h_clock : v_clock v = m_clock m
}.

(* The machine's tables and values are in order, for the names g. *)
Record fit (g : list sig) (v : vm) : Prop := { f_typed : typed g v; f_values : values_ok v; f_arrays : arrays_ok v }.
Arguments f_typed {g} v _.
Arguments f_values {g} v _.
Arguments f_arrays {g} v _.
(* The functions have expressions with names used correctly, and numeric
   parameters. *)
Definition functions_ok (g : list sig) (m : memory) : Prop :=
  forall id p e, m_obj m id = Function (Some (p, e)) -> wt g e /\ sg_kind g p KVariable TNum.
(* The machine executes the program or an immediate line, not a function. *)
Definition on_line (v : vm) : Prop := ~ in_function v /\ in_line v.

(* What the machine v holds, its functions being those given by f. *)
Definition memory_of (v : vm) (f : symid -> option (symid * expr)) : memory :=
  let sort_at id := match symbol_at (v_st v) id with Some s => sort_of_type (s_type s) | None => Numbers end in
  mkMemory
    (fun id => variable v (sort_at id) id)
    (fun id => match symbol_at (v_st v) id with
               | Some s => if skind_eqb (s_kind s) KDef then Function (f id)
                           else Array (match bounds v id with Some b => Some (b, element v (sort_at id) id) | None => None end)
               | None => Array None
               end)
    (fun id => match symbol_at (v_st v) id with Some s => s_name s | None => [] end)
    (v_seed v) (v_randk v) (v_clock v).

(* the code from the current instruction on *)
Definition code_here (v : vm) : list instr :=
  match cur_bcode v with Some bc => skipn (cs_pc (v_cs v)) (bc_inst bc) | None => [] end.

(* what evaluation does not touch: the programs, the places to return to, the
   loops, the data pointers, input and output, the options, and whether and
   where the program has stopped *)
Definition untouched (v : vm) :=
  (v_stored v, v_imm v, v_ret v, v_for v, (v_pdata v, v_idata v), (v_input v, v_inp v, v_input_pc v, v_in v),
   (v_out v, v_col v), v_opt v, (v_stopped v, v_stopcs v)).

(* w is v with the value d computed by n instructions *)
Record computed (v : vm) (n : nat) (d : datum) (m : memory) (w : vm) : Prop := {
  c_place : v_cs w = place_after v n;
  c_numbers : v_stack w = v_stack (push_datum d v);
  c_texts : v_sstack w = v_sstack (push_datum d v);
  c_memory : holds w m;
  c_function : in_function w <-> in_function v;
  c_untouched : untouched w = untouched v
}.

(* An execution from v ends because a stack is full, with no STOP on the way. *)
Definition overflows (E : env) (v : vm) : Prop :=
  exists l u w e, runs E v l u /\ execute E u = (Fail e, w) /\ v_stopped w = v_stopped v /\
    ((e = RE_num_overflow /\ 16 <= length (v_stack u)) \/ (e = RE_str_overflow /\ 8 <= length (v_sstack u))).

(* Executing n instructions from v gives the answer. *)
Definition machine_gives (E : env) (v : vm) (n : nat) (a : answer datum) : Prop :=
  match a with
  | Value d m => exists l w, runs E v l w /\ computed v n d m w
  | Error e m => exists l u w, runs E v l u /\ execute E u = (Fail e, w) /\ holds w m /\ untouched w = untouched v
  | Undefined => True
  end.
