(* Model of Basic/run.c: the virtual machine executing B-code. *)
From Verif Require Import Base Num SourceModel LineMapModel ArrayModel BcodeModel SymbolModel.

(* ---------- environment ---------- *)

(* What the machine takes from libm, rand() and the clock. e_rand seed k is
   the k-th result of rand() after srand(seed); e_time k and e_hms k are the
   k-th reading of time(NULL) and of the local time of day. *)
Record env := mkEnv {
  e_pow : num -> num -> num;
  e_sin : num -> num;
  e_cos : num -> num;
  e_tan : num -> num;
  e_atan : num -> num;
  e_exp : num -> num;
  e_log : num -> num;
  e_rand : N -> nat -> N;
  e_time : nat -> N;
  e_hms : nat -> N * N * N
}.

(* RAND_MAX of glibc *)
Definition RAND_MAX : N := 2147483647.

(* ---------- state ---------- *)

(* limits, Basic/run.c:26-30 *)
Definition MAX_NUM_STACK : nat := 16.
Definition MAX_STR_STACK : nat := 8.
Definition MAX_RETURN_STACK : nat := 8.
Definition MAX_FOR : nat := 8.
Definition TAB_SIZE : N := 8.

(* CODE, Basic/run.c:34-38 *)
Record codeobj := mkCode {
  c_source : option source;
  c_bcode : option bcode;
  c_index : option linemap
}.

Definition no_code : codeobj := mkCode None None None.

(* the three CODE objects a CODE_STATE can point to *)
Inductive coderef := CStored | CImmediate | CDef.

Definition coderef_eqb (a b : coderef) : bool :=
  match a, b with
  | CStored, CStored | CImmediate, CImmediate | CDef, CDef => true
  | _, _ => false
  end.

(* CODE_STATE, Basic/run.c:51-55; None is the null pointer *)
Record code_state := mkCs {
  cs_code : option coderef;
  cs_line : nat;
  cs_pc : nat
}.

(* clear_code_state, Basic/run.c:57-61 *)
Definition clear_cs : code_state := mkCs None 0 0.

(* struct for_loop, Basic/run.c:79-84 *)
Record for_loop := mkFor {
  f_cs : code_state;
  f_sym : symid;
  f_step : num;
  f_limit : num
}.

(* the anonymous struct fn, Basic/run.c:90-95 *)
Record fnstate := mkFn {
  fn_cs : code_state;
  fn_param : symid;
  fn_defined : bool;
  fn_val : num
}.

(* run-time errors: the calls of run_error (Basic/run.c:394-407) *)
Inductive rterr :=
| RE_num_overflow | RE_num_empty | RE_str_overflow | RE_str_empty
| RE_concat_too_long (n : N)
| RE_for_nested
| RE_next_without_for (name : option bytes)
| RE_def_params (name : bytes)
| RE_run_into_param
| RE_unexpected_end_def
| RE_on_invalid (x : num)
| RE_on_line_expected
| RE_numeric_data (s : bytes)
| RE_no_data
| RE_out_of_data
| RE_logical (x : num)
| RE_nonneg (x : num)
| RE_range (x : num)
| RE_index_nonneg (name : bytes) (x : num)
| RE_index_range (name : bytes) (x : num)
| RE_dimensions (name : bytes)
| RE_subscript (name : bytes)
| RE_line_not_found (n : N)
| RE_gosub_nested
| RE_return_without_gosub
| RE_fn_undefined (name : bytes)
| RE_fn_nested
| RE_fn_params (name : bytes) (n : N)
| RE_fn_corrupt (name : bytes)
| RE_fn_param_expected
| RE_chr (x : num)
| RE_inkey
| RE_too_long
| RE_log
| RE_string_index
| RE_number (s : bytes)
| RE_unknown_opcode.

(* standard output: bytes, and the effect of clear_screen (Shared/os.c) *)
Inductive oev := OB (c : ascii) | OCls.

(* standard error: a run-time error with the source line shown after it
   (Basic/run.c:401-404) *)
Record errev := mkErr { er_err : rterr; er_line : option bytes }.

(* options of struct vm that the program can set (Basic/run.c:101-103).
   trace_log (only stderr) is not modelled. array_base, strict_dim,
   strict_for, strict_on, strict_variables and verbose are never set and
   input_prompt is always true (new_vm, Basic/run.c:116-127); the code they
   select is fixed accordingly below. *)
Record options := mkOpt {
  o_anywhere : bool;
  o_trace_basic : bool;
  o_trace_for : bool
}.

(* struct vm, Basic/run.c:63-114, and the process state it works on.
   - v_stack, v_sstack, v_ret: top of stack first; their lengths are sp, ssp, rsp;
   - v_for: for_stack[0..for_sp-1] in index order;
   - v_input: the C string in input[]; v_inp is None for -1;
   - v_in: unread standard input; v_out, v_err: standard output and error;
   - v_seed, v_randk: state of rand(); v_clock: clock readings so far. *)
Record vm := mkVm {
  v_stored : codeobj;
  v_imm : codeobj;
  v_def : codeobj;
  v_cs : code_state;
  v_st : symtab;
  v_stack : list num;
  v_sstack : list bytes;
  v_ret : list code_state;
  v_stopped : bool;
  v_stopcs : code_state;
  v_col : N;
  v_for : list for_loop;
  v_pdata : nat;
  v_idata : nat;
  v_fn : fnstate;
  v_input : bytes;
  v_inp : option nat;
  v_input_pc : nat;
  v_opt : options;
  v_in : bytes;
  v_out : list oev;
  v_err : list errev;
  v_seed : N;
  v_randk : nat;
  v_clock : nat
}.

(* field updates *)
Definition set_code (c : codeobj) (i d : codeobj) (v : vm) : vm :=
  mkVm c i d (v_cs v) (v_st v) (v_stack v) (v_sstack v) (v_ret v) (v_stopped v) (v_stopcs v)
    (v_col v) (v_for v) (v_pdata v) (v_idata v) (v_fn v) (v_input v) (v_inp v) (v_input_pc v)
    (v_opt v) (v_in v) (v_out v) (v_err v) (v_seed v) (v_randk v) (v_clock v).
Definition set_stored (c : codeobj) (v : vm) : vm := set_code c (v_imm v) (v_def v) v.
Definition set_imm (c : codeobj) (v : vm) : vm := set_code (v_stored v) c (v_def v) v.
Definition set_def (c : codeobj) (v : vm) : vm := set_code (v_stored v) (v_imm v) c v.
Definition set_cs (c : code_state) (v : vm) : vm :=
  mkVm (v_stored v) (v_imm v) (v_def v) c (v_st v) (v_stack v) (v_sstack v) (v_ret v)
    (v_stopped v) (v_stopcs v)
    (v_col v) (v_for v) (v_pdata v) (v_idata v) (v_fn v) (v_input v) (v_inp v) (v_input_pc v)
    (v_opt v) (v_in v) (v_out v) (v_err v) (v_seed v) (v_randk v) (v_clock v).
Definition set_pc (pc : nat) (v : vm) : vm :=
  set_cs (mkCs (cs_code (v_cs v)) (cs_line (v_cs v)) pc) v.
Definition set_st (t : symtab) (v : vm) : vm :=
  mkVm (v_stored v) (v_imm v) (v_def v) (v_cs v) t (v_stack v) (v_sstack v) (v_ret v)
    (v_stopped v) (v_stopcs v)
    (v_col v) (v_for v) (v_pdata v) (v_idata v) (v_fn v) (v_input v) (v_inp v) (v_input_pc v)
    (v_opt v) (v_in v) (v_out v) (v_err v) (v_seed v) (v_randk v) (v_clock v).
Definition set_stack (s : list num) (v : vm) : vm :=
  mkVm (v_stored v) (v_imm v) (v_def v) (v_cs v) (v_st v) s (v_sstack v) (v_ret v)
    (v_stopped v) (v_stopcs v)
    (v_col v) (v_for v) (v_pdata v) (v_idata v) (v_fn v) (v_input v) (v_inp v) (v_input_pc v)
    (v_opt v) (v_in v) (v_out v) (v_err v) (v_seed v) (v_randk v) (v_clock v).
Definition set_sstack (s : list bytes) (v : vm) : vm :=
  mkVm (v_stored v) (v_imm v) (v_def v) (v_cs v) (v_st v) (v_stack v) s (v_ret v)
    (v_stopped v) (v_stopcs v)
    (v_col v) (v_for v) (v_pdata v) (v_idata v) (v_fn v) (v_input v) (v_inp v) (v_input_pc v)
    (v_opt v) (v_in v) (v_out v) (v_err v) (v_seed v) (v_randk v) (v_clock v).
Definition set_ret (r : list code_state) (v : vm) : vm :=
  mkVm (v_stored v) (v_imm v) (v_def v) (v_cs v) (v_st v) (v_stack v) (v_sstack v) r
    (v_stopped v) (v_stopcs v)
    (v_col v) (v_for v) (v_pdata v) (v_idata v) (v_fn v) (v_input v) (v_inp v) (v_input_pc v)
    (v_opt v) (v_in v) (v_out v) (v_err v) (v_seed v) (v_randk v) (v_clock v).
Definition set_stopped (b : bool) (v : vm) : vm :=
  mkVm (v_stored v) (v_imm v) (v_def v) (v_cs v) (v_st v) (v_stack v) (v_sstack v) (v_ret v)
    b (v_stopcs v)
    (v_col v) (v_for v) (v_pdata v) (v_idata v) (v_fn v) (v_input v) (v_inp v) (v_input_pc v)
    (v_opt v) (v_in v) (v_out v) (v_err v) (v_seed v) (v_randk v) (v_clock v).
Definition set_stopcs (c : code_state) (v : vm) : vm :=
  mkVm (v_stored v) (v_imm v) (v_def v) (v_cs v) (v_st v) (v_stack v) (v_sstack v) (v_ret v)
    (v_stopped v) c
    (v_col v) (v_for v) (v_pdata v) (v_idata v) (v_fn v) (v_input v) (v_inp v) (v_input_pc v)
    (v_opt v) (v_in v) (v_out v) (v_err v) (v_seed v) (v_randk v) (v_clock v).
(* output and column together *)
Definition set_outcol (o : list oev) (col : N) (v : vm) : vm :=
  mkVm (v_stored v) (v_imm v) (v_def v) (v_cs v) (v_st v) (v_stack v) (v_sstack v) (v_ret v)
    (v_stopped v) (v_stopcs v)
    col (v_for v) (v_pdata v) (v_idata v) (v_fn v) (v_input v) (v_inp v) (v_input_pc v)
    (v_opt v) (v_in v) o (v_err v) (v_seed v) (v_randk v) (v_clock v).
Definition set_out (o : list oev) (v : vm) : vm := set_outcol o (v_col v) v.
Definition set_col (c : N) (v : vm) : vm := set_outcol (v_out v) c v.
Definition set_for (f : list for_loop) (v : vm) : vm :=
  mkVm (v_stored v) (v_imm v) (v_def v) (v_cs v) (v_st v) (v_stack v) (v_sstack v) (v_ret v)
    (v_stopped v) (v_stopcs v)
    (v_col v) f (v_pdata v) (v_idata v) (v_fn v) (v_input v) (v_inp v) (v_input_pc v)
    (v_opt v) (v_in v) (v_out v) (v_err v) (v_seed v) (v_randk v) (v_clock v).
Definition set_data (p i : nat) (v : vm) : vm :=
  mkVm (v_stored v) (v_imm v) (v_def v) (v_cs v) (v_st v) (v_stack v) (v_sstack v) (v_ret v)
    (v_stopped v) (v_stopcs v)
    (v_col v) (v_for v) p i (v_fn v) (v_input v) (v_inp v) (v_input_pc v)
    (v_opt v) (v_in v) (v_out v) (v_err v) (v_seed v) (v_randk v) (v_clock v).
Definition set_fn (f : fnstate) (v : vm) : vm :=
  mkVm (v_stored v) (v_imm v) (v_def v) (v_cs v) (v_st v) (v_stack v) (v_sstack v) (v_ret v)
    (v_stopped v) (v_stopcs v)
    (v_col v) (v_for v) (v_pdata v) (v_idata v) f (v_input v) (v_inp v) (v_input_pc v)
    (v_opt v) (v_in v) (v_out v) (v_err v) (v_seed v) (v_randk v) (v_clock v).
Definition set_input (b : bytes) (inp : option nat) (pc : nat) (rest : bytes) (v : vm) : vm :=
  mkVm (v_stored v) (v_imm v) (v_def v) (v_cs v) (v_st v) (v_stack v) (v_sstack v) (v_ret v)
    (v_stopped v) (v_stopcs v)
    (v_col v) (v_for v) (v_pdata v) (v_idata v) (v_fn v) b inp pc
    (v_opt v) rest (v_out v) (v_err v) (v_seed v) (v_randk v) (v_clock v).
Definition set_inp (inp : option nat) (v : vm) : vm :=
  set_input (v_input v) inp (v_input_pc v) (v_in v) v.
Definition set_err (e : list errev) (v : vm) : vm :=
  mkVm (v_stored v) (v_imm v) (v_def v) (v_cs v) (v_st v) (v_stack v) (v_sstack v) (v_ret v)
    (v_stopped v) (v_stopcs v)
    (v_col v) (v_for v) (v_pdata v) (v_idata v) (v_fn v) (v_input v) (v_inp v) (v_input_pc v)
    (v_opt v) (v_in v) (v_out v) e (v_seed v) (v_randk v) (v_clock v).
Definition set_rand (seed : N) (k clock : nat) (v : vm) : vm :=
  mkVm (v_stored v) (v_imm v) (v_def v) (v_cs v) (v_st v) (v_stack v) (v_sstack v) (v_ret v)
    (v_stopped v) (v_stopcs v)
    (v_col v) (v_for v) (v_pdata v) (v_idata v) (v_fn v) (v_input v) (v_inp v) (v_input_pc v)
    (v_opt v) (v_in v) (v_out v) (v_err v) seed k clock.

(* new_vm, Basic/run.c:116-127, with the process just started: srand has not
   been called, so the seed is 1 *)
Definition new_vm (o : options) (stdin : bytes) : vm :=
  mkVm no_code no_code no_code clear_cs (init_builtins new_symbol_table) [] [] []
    false clear_cs 1%N [] 0 0 (mkFn clear_cs 0%N false fzero) [] (Some 0) 0 o stdin [] [] 1%N 0 0.

(* ---------- outcomes ---------- *)

(* Fail: run-time error (longjmp to run). Crash: failed assert, null
   dereference or access outside an object. NoFuel: a loop of the model ran
   out of fuel; not a behaviour of the code. *)
Inductive res (A : Type) :=
| Ok (a : A)
| Fail (e : rterr)
| Crash
| NoFuel.
Arguments Ok {A} a.
Arguments Fail {A} e.
Arguments Crash {A}.
Arguments NoFuel {A}.

Definition M (A : Type) : Type := vm -> res A * vm.

Definition ret {A} (a : A) : M A := fun v => (Ok a, v).
Definition bind {A B} (m : M A) (f : A -> M B) : M B :=
  fun v => match m v with
           | (Ok a, v') => f a v'
           | (Fail e, v') => (Fail e, v')
           | (Crash, v') => (Crash, v')
           | (NoFuel, v') => (NoFuel, v')
           end.
Notation "'let*' x ':=' m 'in' k" := (bind m (fun x => k))
  (at level 200, x pattern, m at level 100, k at level 200, right associativity).
Notation "m ;;; k" := (bind m (fun _ => k)) (at level 100, k at level 200, right associativity).

Definition get : M vm := fun v => (Ok v, v).
Definition modify (f : vm -> vm) : M unit := fun v => (Ok tt, f v).
Definition crash {A} : M A := fun v => (Crash, v).
Definition assert (b : bool) : M unit := if b then ret tt else crash.

(* the CODE object a reference denotes *)
Definition code_of (v : vm) (r : coderef) : codeobj :=
  match r with CStored => v_stored v | CImmediate => v_imm v | CDef => v_def v end.

(* run_error, Basic/run.c:394-407 *)
Definition run_error {A} (e : rterr) : M A :=
  fun v =>
    let line := match cs_code (v_cs v) with
                | Some r => match c_source (code_of v r) with
                            | Some src => Some (print_source_line src (cs_line (v_cs v)))
                            | None => None
                            end
                | None => None
                end in
    (Fail e, set_err (v_err v ++ [mkErr e line]) v).

(* vm->code_state.code->bcode; a null pointer on the way is undefined *)
Definition cur_bcode (v : vm) : option bcode :=
  match cs_code (v_cs v) with
  | Some r => c_bcode (code_of v r)
  | None => None
  end.

Definition get_bcode : M bcode :=
  fun v => match cur_bcode v with Some bc => (Ok bc, v) | None => (Crash, v) end.

(* ---------- output ---------- *)

Definition put (s : bytes) : M unit :=
  modify (fun v => set_out (v_out v ++ map OB s) v).
Definition put_cols (s : bytes) (col : N) : M unit :=
  modify (fun v => set_outcol (v_out v ++ map OB s) col v).

(* ---------- stacks ---------- *)

(* push, Basic/run.c:1175-1182 *)
Definition push (x : num) : M unit :=
  fun v => if Nat.leb MAX_NUM_STACK (length (v_stack v)) then run_error RE_num_overflow v
           else (Ok tt, set_stack (x :: v_stack v) v).

(* pop, Basic/run.c:1184-1193 *)
Definition pop : M num :=
  fun v => match v_stack v with
           | [] => run_error RE_num_empty v
           | x :: r => (Ok x, set_stack r v)
           end.

(* push_logic, Basic/run.c:1195-1197 *)
Definition push_logic (b : bool) : M unit := push (if b then fofZ (-1) else fzero).

Definition INT_MIN : Z := (-2147483648)%Z.
Definition INT_MAX : Z := 2147483647%Z.
Definition UINT_MAX : N := 4294967295.

(* pop_logic, Basic/run.c:1199-1204 *)
Definition pop_logic : M Z :=
  let* x := pop in
  if fltb x (fofZ INT_MIN) || fgtb x (fofZ INT_MAX) || fneb x (ffloor x)
  then run_error (RE_logical x)
  else match ftoZ x with Some z => ret z | None => crash end.

(* pop_unsigned, Basic/run.c:1206-1213 *)
Definition pop_unsigned : M N :=
  let* x := pop in
  if fltb x fzero || fneb (ffloor x) x then run_error (RE_nonneg x)
  else if fgtb x (fofN UINT_MAX) then run_error (RE_range x)
  else match ftoZ x with Some z => ret (Z.to_N z) | None => crash end.

(* pop_index, Basic/run.c:1215-1222 *)
Definition pop_index (name : bytes) : M N :=
  let* x := pop in
  if fltb x fzero || fneb (ffloor x) x then run_error (RE_index_nonneg name x)
  else if fgtb x (fofN UINT_MAX) then run_error (RE_index_range name x)
  else match ftoZ x with Some z => ret (Z.to_N z) | None => crash end.

Fixpoint pop_indexes_loop (n : nat) (name : bytes) : M (list N) :=
  match n with
  | O => ret []
  | S m => let* i := pop_index name in
           let* r := pop_indexes_loop m name in
           ret (i :: r)
  end.

(* pop_indexes, Basic/run.c:1224-1228: indexes[0] is the last subscript *)
Definition pop_indexes (dims : N) (name : bytes) : M (list N) :=
  assert (dims <=? N.of_nat MAX_DIMENSIONS)%N ;;;
  pop_indexes_loop (N.to_nat dims) name.

(* push_str, Basic/run.c:1230-1234 *)
Definition push_str (s : bytes) : M unit :=
  fun v => if Nat.leb MAX_STR_STACK (length (v_sstack v)) then run_error RE_str_overflow v
           else (Ok tt, set_sstack (s :: v_sstack v) v).

(* push_str of a possibly null pointer *)
Definition opt_str (s : option bytes) : bytes := match s with Some x => x | None => [] end.

(* pop_str, Basic/run.c:1236-1241 *)
Definition pop_str : M bytes :=
  fun v => match v_sstack v with
           | [] => run_error RE_str_empty v
           | s :: r => (Ok s, set_sstack r v)
           end.

(* compare_strings, Basic/run.c:1243-1250 *)
Definition compare_strings : M comparison :=
  let* t := pop_str in
  let* s := pop_str in
  ret (strcmp s t).

(* ---------- variables ---------- *)

Definition get_sym (id : symid) : M symbol :=
  fun v => match symbol_at (v_st v) id with Some s => (Ok s, v) | None => (Crash, v) end.
Definition put_sym (id : symid) (s : symbol) : M unit :=
  modify (fun v => set_st (sym_update (v_st v) (N.to_nat id) s) v).

(* reading the union as a number, a string, an array, a DEF; None when the
   union holds something else *)
Definition val_num (x : sval) : option num :=
  match x with VZero => Some fzero | VNum n => Some n | _ => None end.
Definition val_str (x : sval) : option (option bytes) :=
  match x with VZero => Some None | VStr s => Some (Some s) | _ => None end.
Definition val_numarr (x : sval) : option (option (array num)) :=
  match x with VZero => Some None | VNumArr a => Some (Some a) | _ => None end.
Definition val_strarr (x : sval) : option (option (array (option bytes))) :=
  match x with VZero => Some None | VStrArr a => Some (Some a) | _ => None end.
Definition val_def (x : sval) : option (option def) :=
  match x with VZero => Some None | VDef d => Some (Some d) | _ => None end.

Definition some_or_crash {A} (o : option A) : M A :=
  match o with Some a => ret a | None => crash end.

Definition is_kind (k : skind) (t : vtype) (s : symbol) : bool :=
  skind_eqb (s_kind s) k && vtype_eqb (s_type s) t.

(* get_numeric_simple, Basic/run.c:1252-1262 *)
Definition get_numeric_simple (id : symid) : M unit :=
  let* s := get_sym id in
  assert (is_kind KVariable TNum s) ;;;
  if s_defined s then
    let* x := some_or_crash (val_num (s_val s)) in push x
  else put_sym id (define s VZero) ;;; push fzero.

(* set_numeric_simple, Basic/run.c:1264-1269 *)
Definition set_numeric_simple (id : symid) (x : num) : M unit :=
  let* s := get_sym id in
  assert (is_kind KVariable TNum s) ;;;
  put_sym id (define s (VNum x)).

(* dimension_numeric, Basic/run.c:1271-1280, with array_base 0 *)
Definition dimension_numeric (id : symid) (max : list N) : M unit :=
  let* s := get_sym id in
  assert (is_kind KArray TNum s) ;;;
  match new_array fzero 0 max with
  | AOk a => put_sym id (define s (VNumArr a))
  | AFail => put_sym id (undefine s) ;;; run_error (RE_dimensions (s_name s))
  | ACrash => crash
  end.

(* dimension_numeric_auto, Basic/run.c:1283-1291 *)
Definition dimension_numeric_auto (id : symid) (indexes : list N) : M unit :=
  let* s := get_sym id in
  let* a := some_or_crash (val_numarr (s_val s)) in
  match a with
  | Some _ => crash
  | None => dimension_numeric id (auto_max indexes)
  end.

(* the common part of get_numeric_element and set_numeric_element,
   Basic/run.c:1300-1309 and 1313-1322: subscripts and the array *)
Definition numeric_array_at (id : symid) (ndim : N) : M (list N * array num) :=
  let* s := get_sym id in
  assert (is_kind KArray TNum s) ;;;
  let* indexes := pop_indexes ndim (s_name s) in
  (if s_defined s then ret tt else dimension_numeric_auto id indexes) ;;;
  let* s' := get_sym id in
  let* a := some_or_crash (val_numarr (s_val s')) in
  let* a' := some_or_crash a in
  ret (indexes, a').

(* get_numeric_element, Basic/run.c:1300-1311, and numeric_element, 1293-1298 *)
Definition get_numeric_element (id : symid) (ndim : N) : M unit :=
  let* (indexes, a) := numeric_array_at id ndim in
  let* s := get_sym id in
  match read_element a indexes with
  | AOk x => push x
  | AFail => run_error (RE_subscript (s_name s))
  | ACrash => crash
  end.

(* set_numeric_element, Basic/run.c:1313-1324 *)
Definition set_numeric_element (id : symid) (ndim : N) (x : num) : M unit :=
  let* (indexes, a) := numeric_array_at id ndim in
  let* s := get_sym id in
  match write_element a indexes x with
  | AOk a' => put_sym id (set_val s (VNumArr a'))
  | AFail => run_error (RE_subscript (s_name s))
  | ACrash => crash
  end.

(* set_numeric, Basic/run.c:1326-1331 *)
Definition set_numeric (id : symid) (ndim : N) (x : num) : M unit :=
  if (ndim =? 0)%N then set_numeric_simple id x else set_numeric_element id ndim x.

(* get_string_simple, Basic/run.c:1333-1344 *)
Definition get_string_simple (id : symid) : M unit :=
  let* s := get_sym id in
  assert (is_kind KVariable TStr s) ;;;
  if s_defined s then
    let* x := some_or_crash (val_str (s_val s)) in push_str (opt_str x)
  else put_sym id (define s VZero) ;;; push_str [].

(* set_string_simple, Basic/run.c:1346-1356 *)
Definition set_string_simple (id : symid) (x : bytes) : M unit :=
  let* s := get_sym id in
  assert (is_kind KVariable TStr s) ;;;
  let* old := some_or_crash (val_str (s_val s)) in
  (match old with Some _ => assert (s_defined s) | None => ret tt end) ;;;
  put_sym id (define s (VStr x)).

(* dimension_string, Basic/run.c:1358-1367 *)
Definition dimension_string (id : symid) (max : list N) : M unit :=
  let* s := get_sym id in
  assert (is_kind KArray TStr s) ;;;
  match new_array None 0 max with
  | AOk a => put_sym id (define s (VStrArr a))
  | AFail => put_sym id (undefine s) ;;; run_error (RE_dimensions (s_name s))
  | ACrash => crash
  end.

(* dimension_string_auto, Basic/run.c:1369-1377 *)
Definition dimension_string_auto (id : symid) (indexes : list N) : M unit :=
  let* s := get_sym id in
  let* a := some_or_crash (val_strarr (s_val s)) in
  match a with
  | Some _ => crash
  | None => dimension_string id (auto_max indexes)
  end.

(* the common part of get_string_element and set_string_element,
   Basic/run.c:1386-1395 and 1399-1408 *)
Definition string_array_at (id : symid) (ndim : N) : M (list N * array (option bytes)) :=
  let* s := get_sym id in
  assert (is_kind KArray TStr s) ;;;
  let* indexes := pop_indexes ndim (s_name s) in
  (if s_defined s then ret tt else dimension_string_auto id indexes) ;;;
  let* s' := get_sym id in
  let* a := some_or_crash (val_strarr (s_val s')) in
  let* a' := some_or_crash a in
  ret (indexes, a').

(* get_string_element, Basic/run.c:1386-1397 *)
Definition get_string_element (id : symid) (ndim : N) : M unit :=
  let* (indexes, a) := string_array_at id ndim in
  let* s := get_sym id in
  match read_element a indexes with
  | AOk x => push_str (opt_str x)
  | AFail => run_error (RE_subscript (s_name s))
  | ACrash => crash
  end.

(* set_string_element, Basic/run.c:1399-1412 *)
Definition set_string_element (id : symid) (ndim : N) (x : bytes) : M unit :=
  let* (indexes, a) := string_array_at id ndim in
  let* s := get_sym id in
  match write_element a indexes (Some x) with
  | AOk a' => put_sym id (set_val s (VStrArr a'))
  | AFail => run_error (RE_subscript (s_name s))
  | ACrash => crash
  end.

(* set_string, Basic/run.c:1414-1419 *)
Definition set_string (id : symid) (ndim : N) (x : bytes) : M unit :=
  if (ndim =? 0)%N then set_string_simple id x else set_string_element id ndim x.

(* ---------- number conversion ---------- *)

Definition is_blank (c : ascii) : bool := ceq c SP || ceq c TABCH.

(* convert, Basic/run.c:1421-1434: value and remaining text *)
Definition convert (s : bytes) : option (num * bytes) :=
  let s1 := drop_while is_blank s in
  match s1 with
  | c :: _ =>
      if is_digit c || ceq c "." || ceq c "-" || ceq c "+" then
        let (x, e) := strtod s1 in Some (x, drop_while is_blank e)
      else None
  | [] => None
  end.

(* ---------- code locations ---------- *)

(* find_basic_line, Basic/run.c:1436-1442 *)
Definition find_basic_line (n : N) : M nat :=
  fun v =>
    match c_index (v_stored v) with
    | None => run_error (RE_line_not_found n) v
    | Some idx =>
        match lookup_line_mapping idx n with
        | Some i => (Ok (N.to_nat i), v)
        | None => run_error (RE_line_not_found n) v
        end
    end.

(* go_to_basic_line, Basic/run.c:1444-1448 *)
Definition go_to_basic_line (n : N) : M unit :=
  let* pc := find_basic_line n in
  modify (fun v => set_cs (mkCs (Some CStored) (cs_line (v_cs v)) pc) v).

(* find_data, Basic/run.c:1452-1485 *)
Definition find_data : M bytes :=
  fun v =>
    let in_imm := match cs_code (v_cs v) with Some CImmediate => true | _ => false end in
    match in_imm, c_bcode (v_imm v) with
    | true, None => (Crash, v)                     (* assert, 1458 *)
    | _, _ =>
        let immediate := in_imm && match c_bcode (v_imm v) with
                                   | Some b => bc_has_data b
                                   | None => false
                                   end in
        let bc := if immediate then c_bcode (v_imm v) else c_bcode (v_stored v) in
        let dp := if immediate then v_idata v else v_pdata v in
        match bc with
        | None => run_error RE_no_data v
        | Some b =>
            if negb (bc_has_data b) then run_error RE_no_data v
            else
              let dp' := dp + scan_to is_data (skipn dp (bc_inst b)) in
              match nth_error (bc_inst b) dp' with
              | Some (I_DATA s) =>
                  (Ok s, if immediate then set_data (v_pdata v) (S dp') v
                         else set_data (S dp') (v_idata v) v)
              | _ => run_error RE_out_of_data v
              end
        end
    end.

(* ---------- control flow ---------- *)

(* push_return, Basic/run.c:1487-1493 *)
Definition push_return (pc : nat) : M unit :=
  fun v => if Nat.leb MAX_RETURN_STACK (length (v_ret v)) then run_error RE_gosub_nested v
           else (Ok tt, set_ret (mkCs (cs_code (v_cs v)) (cs_line (v_cs v)) pc :: v_ret v) v).

(* pop_return, Basic/run.c:1495-1500 *)
Definition pop_return : M unit :=
  fun v => match v_ret v with
           | [] => run_error RE_return_without_gosub v
           | c :: r => (Ok tt, set_cs c (set_ret r v))
           end.

(* find_for, Basic/run.c:1503-1509; None is -1 *)
Definition find_for (fs : list for_loop) (id : symid) : option nat :=
  find_index (fun f => (f_sym f =? id)%N) fs.

(* %g of a loop variable in dump_for_stack *)
Definition sym_num (st : symtab) (id : symid) : option (bytes * num) :=
  match symbol_at st id with
  | Some s => match val_num (s_val s) with Some x => Some (s_name s, x) | None => None end
  | None => None
  end.

Fixpoint dump_entries (st : symtab) (fs : list for_loop) : option bytes :=
  match fs with
  | [] => Some []
  | f :: r =>
      match sym_num st (f_sym f), dump_entries st r with
      | Some (name, x), Some rest =>
          Some (name ++ lit " = " ++ format_g x ++ lit ", " ++ format_g (f_limit f) ++ lit "; " ++ rest)
      | _, _ => None
      end
  end.

(* dump_for_stack, Basic/run.c:1602-1613 (from the top of the stack) *)
Definition dump_for_stack (tag : bytes) : M unit :=
  fun v =>
    let head := lit "-- " ++ tag ++ lit ": " in
    match v_for v with
    | [] => put (head ++ lit "empty" ++ [NL]) v
    | _ => match dump_entries (v_st v) (rev (v_for v)) with
           | Some s => put (head ++ s ++ [NL]) v
           | None => (Crash, v)
           end
    end.

(* dump_for, Basic/run.c:1596-1600 *)
Definition dump_for (tag : bytes) : M unit :=
  fun v =>
    match cs_code (v_cs v) with
    | Some r =>
        match c_source (code_of v r) with
        | Some src =>
            match nth_error src (cs_line (v_cs v)) with
            | Some l =>
                (put (lit "[" ++ tag ++ lit "]" ++ [NL] ++ lit "-- line: " ++ line_text l ++ [NL]) ;;;
                 dump_for_stack (lit "initial stack")) v
            | None => (Crash, v)
            end
        | None => (Crash, v)
        end
    | None => (Crash, v)
    end.

Definition trace_for (m : M unit) : M unit :=
  fun v => if o_trace_for (v_opt v) then m v else (Ok tt, v).

(* next, Basic/run.c:1514-1530 *)
Definition next (si : nat) : M unit :=
  let* v := get in
  let* f := some_or_crash (nth_error (v_for v) si) in
  let* s := get_sym (f_sym f) in
  let* x0 := some_or_crash (val_num (s_val s)) in
  let x := fadd x0 (f_step f) in
  (if (fgtb (f_step f) fzero && fgtb x (f_limit f)) || (fltb (f_step f) fzero && fltb x (f_limit f))
   then modify (fun v => set_for (remove_nth (v_for v) si) v)
   else put_sym (f_sym f) (set_val s (VNum x)) ;;; modify (set_cs (f_cs f))) ;;;
  trace_for (dump_for_stack (lit "final stack")).

(* B_FOR, Basic/run.c:721-757. When a new entry is pushed, the previous
   contents of its slot (step and limit) are not represented; they are
   overwritten by the two pops. *)
Definition exec_for (id : symid) : M unit :=
  trace_for (dump_for (lit "FOR")) ;;;
  let* s := get_sym id in
  assert (is_kind KVariable TNum s) ;;;
  let* v := get in
  (match find_for (v_for v) id with
   | Some si =>
       let* f := some_or_crash (nth_error (v_for v) si) in
       modify (set_for (remove_nth (v_for v) si ++ [f]))
   | None =>
       if Nat.leb MAX_FOR (length (v_for v)) then
         dump_for_stack (lit "overflow") ;;; run_error RE_for_nested
       else modify (set_for (v_for v ++ [mkFor clear_cs 0%N fzero fzero]))
   end) ;;;
  let* v1 := get in
  let si := length (v_for v1) - 1 in
  let* f1 := some_or_crash (nth_error (v_for v1) si) in
  let put_for f := modify (fun w => set_for (list_upd (v_for w) si f) w) in
  put_for (mkFor (v_cs v1) id (f_step f1) (f_limit f1)) ;;;
  let* step := pop in
  put_for (mkFor (v_cs v1) id step (f_limit f1)) ;;;
  let* limit := pop in
  put_for (mkFor (v_cs v1) id step limit) ;;;
  let* x := pop in
  put_sym id (define s (VNum x)) ;;;
  trace_for (dump_for_stack (lit "final stack")).

(* call_def, Basic/run.c:1532-1576 *)
Definition call_def (id : symid) (params : N) : M unit :=
  let* s := get_sym id in
  assert (skind_eqb (s_kind s) KDef) ;;;
  if negb (s_defined s) then run_error (RE_fn_undefined (s_name s)) else
  let* d0 := some_or_crash (val_def (s_val s)) in
  let* d := some_or_crash d0 in
  let* v := get in
  match cs_code (fn_cs (v_fn v)) with
  | Some _ => run_error RE_fn_nested
  | None =>
      if negb (params =? 1)%N then run_error (RE_fn_params (s_name s) params) else
      let* bc := get_bcode in
      if Nat.leb (bc_used bc) (cs_pc (v_cs v) + N.to_nat params)
      then run_error (RE_fn_corrupt (s_name s)) else
      modify (set_fn (mkFn (v_cs v) (fn_param (v_fn v)) (fn_defined (v_fn v)) (fn_val (v_fn v)))) ;;;
      modify (set_def (mkCode (if def_stored d then c_source (v_stored v) else None)
                              (Some (def_bcode d)) None)) ;;;
      modify (set_cs (mkCs (Some CDef) (def_line d) 0)) ;;;
      match nth_error (bc_inst (def_bcode d)) 1 with
      | None => crash
      | Some (I_PARAM pid) =>
          let* ps := get_sym pid in
          assert (is_kind KVariable TNum ps) ;;;
          let* old := some_or_crash (val_num (s_val ps)) in
          modify (set_fn (mkFn (v_cs v) pid (s_defined ps) old)) ;;;
          let* x := pop in
          put_sym pid (define ps (VNum x)) ;;;
          modify (set_pc (N.to_nat params))
      | Some _ => run_error RE_fn_param_expected
      end
  end.

(* end_def, Basic/run.c:1578-1587 *)
Definition end_def : M unit :=
  let* v := get in
  match cs_code (fn_cs (v_fn v)) with
  | None => run_error RE_unexpected_end_def
  | Some _ =>
      let fn := v_fn v in
      modify (set_cs (fn_cs fn)) ;;;
      modify (set_fn (mkFn (mkCs None (cs_line (fn_cs fn)) (cs_pc (fn_cs fn)))
                           (fn_param fn) (fn_defined fn) (fn_val fn))) ;;;
      let* ps := get_sym (fn_param fn) in
      put_sym (fn_param fn) (set_defined (set_val ps (VNum (fn_val fn))) (fn_defined fn))
  end.

(* B_DEF, Basic/run.c:787-811 *)
Definition exec_def (id : symid) (params : N) : M unit :=
  let* s := get_sym id in
  assert (skind_eqb (s_kind s) KDef) ;;;
  let* d0 := some_or_crash (val_def (s_val s)) in
  (match d0 with
   | Some _ => assert (s_defined s) ;;; put_sym id (undefine s)
   | None => ret tt
   end) ;;;
  if negb (params =? 1)%N then run_error (RE_def_params (s_name s)) else
  let* bc := get_bcode in
  let* v := get in
  let pc := cs_pc (v_cs v) in
  let stored := match cs_code (v_cs v) with Some CStored => true | _ => false end in
  put_sym id (define s (VDef (mkDef (bcode_copy_def bc pc) stored
                                    (if stored then cs_line (v_cs v) else O)))) ;;;
  modify (set_pc (S pc + scan_to is_end_def (skipn (S pc) (bc_inst bc)))).

(* B_DIM_NUM, Basic/run.c:510-523 *)
Definition exec_dim_num (id : symid) (params : N) : M unit :=
  let* s := get_sym id in
  assert (is_kind KArray TNum s) ;;;
  let* a := some_or_crash (val_numarr (s_val s)) in
  (match a with
   | Some _ => assert (s_defined s) ;;; put_sym id (undefine s)
   | None => ret tt
   end) ;;;
  let* max := pop_indexes params (s_name s) in
  dimension_numeric id max.

(* B_DIM_STR, Basic/run.c:634-647 *)
Definition exec_dim_str (id : symid) (params : N) : M unit :=
  let* s := get_sym id in
  assert (is_kind KArray TStr s) ;;;
  let* a := some_or_crash (val_strarr (s_val s)) in
  (match a with
   | Some _ => assert (s_defined s) ;;; put_sym id (undefine s)
   | None => ret tt
   end) ;;;
  let* max := pop_indexes params (s_name s) in
  dimension_string id max.

(* B_ON_GOTO and B_ON_GOSUB, Basic/run.c:818-836 *)
Definition exec_on (gosub : bool) (count : nat) : M unit :=
  let* x := pop in
  if fneb x (ffloor x) then run_error (RE_on_invalid x) else
  let* v := get in
  let pc := cs_pc (v_cs v) in
  if fltb x fone || fgtb x (fofN (N.of_nat count)) then modify (set_pc (pc + (count + 1)))
  else
    let* z := some_or_crash (ftoZ x) in
    let* bc := get_bcode in
    match nth_error (bc_inst bc) (pc + Z.to_nat z) with
    | Some (I_ON_LINE n) =>
        (if gosub then push_return (pc + count + 1) else ret tt) ;;;
        go_to_basic_line n
    | _ => run_error RE_on_line_expected
    end.

(* the loops of B_IF_THEN, B_IF_ELSE, B_ELSE, Basic/run.c:839-841, 847-849,
   853-855: pc of the next instruction satisfying f *)
Definition skip_to (f : instr -> bool) : M unit :=
  let* bc := get_bcode in
  modify (fun v => set_pc (S (cs_pc (v_cs v)) + scan_to f (skipn (S (cs_pc (v_cs v))) (bc_inst bc))) v).

(* if (pop(vm)): a double used as a condition *)
Definition truth (x : num) : bool := fneb x fzero.

(* ---------- PRINT ---------- *)

Definition spaces (n : N) : bytes := repeat SP (N.to_nat n).

(* B_PRINT_COMMA, Basic/run.c:880-885: number of blanks and final column;
   at most eight rounds *)
Fixpoint comma_loop (fuel : nat) (col : N) : nat * N :=
  match fuel with
  | O => (O, col)
  | S f =>
      let col' := u32 (col + 1) in
      if (col' mod TAB_SIZE =? 1)%N then (1%nat, col')
      else let (n, c) := comma_loop f col' in (S n, c)
  end.

(* the column after writing s, Basic/run.c:892-898 *)
Definition col_after (col : N) (s : bytes) : N :=
  fold_left (fun c ch => if ceq ch NL then 1%N else u32 (c + 1)) s col.

(* ---------- INPUT ---------- *)

Definition input_rest (v : vm) : option (nat * bytes) :=
  match v_inp v with Some i => Some (i, skipn i (v_input v)) | None => None end.

Definition is_input_space (c : ascii) : bool :=
  ceq c SP || ceq c TABCH || ceq c NL || ceq c CR.

Definition is_field_char (c : ascii) : bool := negb (ceq c NL || ceq c ",").

(* ---------- RND ---------- *)

(* B_RND, Basic/run.c:1122-1129: value and number of rand() calls *)
Fixpoint rnd_loop (fuel : nat) (E : env) (seed : N) (k : nat) : option (num * nat) :=
  match fuel with
  | O => None
  | S f =>
      let x := fdiv (fofN (e_rand E seed k)) (fofN RAND_MAX) in
      if fgeb x fone then rnd_loop f E seed (S k) else Some (x, S k)
  end.

Definition RND_FUEL : nat := 100.

(* %02u of a time component *)
Definition two_digits (n : N) : bytes :=
  if (n <? 10)%N then "0"%char :: dec_of_N n else dec_of_N n.

(* ---------- execute ---------- *)

Definition unary (f : num -> num) : M bool :=
  let* x := pop in push (f x) ;;; ret true.
Definition binary (f : num -> num -> num) : M bool :=
  let* x := pop in let* y := pop in push (f y x) ;;; ret true.
Definition compare_num (f : num -> num -> bool) : M bool :=
  let* x := pop in let* y := pop in push_logic (f y x) ;;; ret true.
Definition compare_str (f : comparison -> bool) : M bool :=
  let* r := compare_strings in push_logic (f r) ;;; ret true.
Definition adv (m : M unit) : M bool := m ;;; ret true.
Definition jump (m : M unit) : M bool := m ;;; ret false.

(* a result built in char buf[256], Basic/run.c:1060-1065 etc. *)
Definition push_buf (s : bytes) : M unit :=
  if Nat.ltb 256 (length s + 1) then run_error RE_too_long else push_str s.

(* The switch of execute, Basic/run.c:474-1171: true for break (the pc is then
   incremented, 1172), false for return. *)
Definition exec_instr (E : env) (i : instr) : M bool :=
  match i with
  | I_NOP => ret true
  | I_SOURCE_LINE l =>
      modify (fun v => set_cs (mkCs (cs_code (v_cs v)) l (cs_pc (v_cs v))) v) ;;;
      (fun v => if o_trace_basic (v_opt v) then
                  match cs_code (v_cs v) with
                  | Some r =>
                      match c_source (code_of v r) with
                      | Some src =>
                          match nth_error src l with
                          | Some ln => (put (lit "[" ++ dec_of_N (ln_num ln) ++ lit "]") ;;; ret true) v
                          | None => (Crash, v)
                          end
                      | None => (Crash, v)
                      end
                  | None => (Crash, v)
                  end
                else (Ok true, v))
  | I_CLEAR => modify (fun v => set_st (clear_symbol_table_values (v_st v)) v) ;;; ret true
  | I_PUSH_NUM x => adv (push x)
  | I_POP_NUM => pop ;;; ret true
  | I_GET_SIMPLE_NUM id => adv (get_numeric_simple id)
  | I_SET_SIMPLE_NUM id => get_sym id ;;; let* x := pop in adv (set_numeric_simple id x)
  | I_DIM_NUM id params => adv (exec_dim_num id params)
  | I_GET_PAREN_NUM id params =>
      let* s := get_sym id in
      assert (vtype_eqb (s_type s) TNum) ;;;
      adv (if skind_eqb (s_kind s) KArray then get_numeric_element id params
           else call_def id params)
  | I_SET_ARRAY_NUM id params =>
      get_sym id ;;; let* x := pop in adv (set_numeric_element id params x)
  | I_NEG => unary fneg
  | I_ADD => binary fadd
  | I_SUB => binary fsub
  | I_MUL => binary fmul
  | I_DIV => binary fdiv
  | I_POW => binary (e_pow E)
  | I_EQ_NUM => compare_num feqb
  | I_LT_NUM => compare_num fltb
  | I_GT_NUM => compare_num fgtb
  | I_NE_NUM => compare_num fneb
  | I_LE_NUM => compare_num fleb
  | I_GE_NUM => compare_num fgeb
  | I_OR => let* b := pop_logic in let* a := pop_logic in adv (push (fofZ (Z.lor a b)))
  | I_AND => let* b := pop_logic in let* a := pop_logic in adv (push (fofZ (Z.land a b)))
  | I_NOT => let* a := pop_logic in adv (push (fofZ (Z.lnot a)))
  | I_PUSH_STR s => adv (push_str s)
  | I_POP_STR => pop_str ;;; ret true
  | I_SET_SIMPLE_STR id => get_sym id ;;; let* s := pop_str in adv (set_string_simple id s)
  | I_GET_SIMPLE_STR id => adv (get_string_simple id)
  | I_DIM_STR id params => adv (exec_dim_str id params)
  | I_GET_PAREN_STR id params =>
      let* s := get_sym id in
      assert (vtype_eqb (s_type s) TStr) ;;;
      adv (if skind_eqb (s_kind s) KArray then get_string_element id params
           else call_def id params)
  | I_SET_ARRAY_STR id params =>
      get_sym id ;;; let* s := pop_str in adv (set_string_element id params s)
  | I_EQ_STR => compare_str (fun c => match c with Eq => true | _ => false end)
  | I_NE_STR => compare_str (fun c => match c with Eq => false | _ => true end)
  | I_LT_STR => compare_str (fun c => match c with Lt => true | _ => false end)
  | I_GT_STR => compare_str (fun c => match c with Gt => true | _ => false end)
  | I_LE_STR => compare_str (fun c => match c with Gt => false | _ => true end)
  | I_GE_STR => compare_str (fun c => match c with Lt => false | _ => true end)
  | I_CONCAT =>
      let* t := pop_str in
      let* s := pop_str in
      if Nat.ltb 256 (length s + length t + 1)
      then run_error (RE_concat_too_long (N.of_nat (length s + length t)))
      else adv (push_str (s ++ t))
  | I_END => let* bc := get_bcode in jump (modify (set_pc (bc_used bc)))
  | I_STOP => jump (modify (set_stopped true))
  | I_GOTO n => jump (go_to_basic_line n)
  | I_GOTRUE n => let* x := pop in if truth x then jump (go_to_basic_line n) else ret true
  | I_GOSUB n =>
      let* v := get in
      push_return (cs_pc (v_cs v) + 1) ;;; jump (go_to_basic_line n)
  | I_RETURN => jump pop_return
  | I_FOR id => adv (exec_for id)
  | I_NEXT_VAR id =>
      trace_for (dump_for (lit "NEXT-VARIABLE")) ;;;
      let* v := get in
      match last_opt (v_for v) with
      | None => run_error (RE_next_without_for None)
      | Some f =>
          if (f_sym f =? id)%N then adv (next (length (v_for v) - 1))
          else
            match find_for (v_for v) id with
            | Some si => adv (next si)
            | None =>
                let* s := get_sym id in
                run_error (RE_next_without_for (Some (s_name s)))
            end
      end
  | I_NEXT_IMP =>
      trace_for (dump_for (lit "NEXT-IMPLICIT")) ;;;
      let* v := get in
      match v_for v with
      | [] => run_error (RE_next_without_for None)
      | _ => adv (next (length (v_for v) - 1))
      end
  | I_DEF id params => adv (exec_def id params)
  | I_PARAM _ => run_error RE_run_into_param
  | I_END_DEF => adv end_def
  | I_ON_GOTO count => jump (exec_on false count)
  | I_ON_GOSUB count => jump (exec_on true count)
  | I_ON_LINE _ => run_error RE_unknown_opcode     (* default case, 1167-1170 *)
  | I_IF_THEN => let* x := pop in if truth x then ret true else jump (skip_to is_source_line)
  | I_IF_ELSE => let* x := pop in if truth x then ret true else adv (skip_to is_else)
  | I_ELSE => jump (skip_to is_source_line)
  | I_PRINT_LN => adv (put_cols [NL] 1)
  | I_PRINT_SPC =>
      let* k := pop_unsigned in
      let* v := get in
      adv (put_cols (spaces k) (u32 (v_col v + k)))
  | I_PRINT_TAB =>
      let* k := pop_unsigned in
      let* v := get in
      let '(pre, col) := if (k <? v_col v)%N then ([NL], 1%N) else ([], v_col v) in
      adv (if (col <? k)%N then put_cols (pre ++ spaces (k - col)) k else put_cols pre col)
  | I_PRINT_COMMA =>
      let* v := get in
      let (n, col) := comma_loop 8 (v_col v) in
      adv (put_cols (repeat SP n) col)
  | I_PRINT_NUM =>
      let* x := pop in
      let* v := get in
      let s := SP :: format_g x ++ [SP] in
      adv (put_cols s (u32 (v_col v + N.of_nat (length s))))
  | I_PRINT_STR =>
      let* s := pop_str in
      let* v := get in
      adv (put_cols s (col_after (v_col v) s))
  | I_CLS => modify (fun v => set_outcol (v_out v ++ [OCls]) 1 v) ;;; ret true
  | I_INPUT_BUF prompt =>
      put (opt_str prompt ++ lit "? ") ;;;
      adv (modify (fun v =>
             match fgets 128 (v_in v) with
             | Some (buf, rest) => set_input (cstr buf) (Some 0) (cs_pc (v_cs v)) rest v
             | None => set_input (v_input v) (Some 0) (cs_pc (v_cs v)) [] v
             end))
  | I_INPUT_END =>
      let* v := get in
      let* (i, s) := some_or_crash (input_rest v) in
      let s' := drop_while is_input_space s in
      modify (set_inp (Some (i + (length s - length s')))) ;;;
      match s' with
      | [] => ret true
      | _ => adv (put (lit "* Extra input was discarded *" ++ [NL]))
      end
  | I_INPUT_SEP =>
      let* v := get in
      let* (i, s) := some_or_crash (input_rest v) in
      let s' := drop_while is_blank s in
      let i' := i + (length s - length s') in
      modify (set_inp (Some i')) ;;;
      match s' with
      | c :: _ =>
          if ceq c "," then modify (set_inp (Some (S i'))) ;;; ret true
          else put (lit "* More input items are expected *" ++ [NL]) ;;;
               jump (modify (set_pc (v_input_pc v)))
      | [] => put (lit "* More input items are expected *" ++ [NL]) ;;;
              jump (modify (set_pc (v_input_pc v)))
      end
  | I_INPUT_NUM id params =>
      let* v := get in
      let* (i, s) := some_or_crash (input_rest v) in
      let invalid :=
        put (lit "* Invalid input *" ++ [NL]) ;;; jump (modify (set_pc (v_input_pc v))) in
      match convert s with
      | Some (x, t) =>
          if match t with [] => true | c :: _ => ceq c NL || ceq c "," end then
            set_numeric id params x ;;;
            adv (modify (set_inp (Some (i + (length s - length t)))))
          else invalid
      | None => invalid
      end
  | I_INPUT_STR id params =>
      let* v := get in
      let* (i, s) := some_or_crash (input_rest v) in
      let (field, _) := span is_field_char s in
      modify (set_inp (Some (i + length field))) ;;;
      adv (set_string id params field)
  | I_INPUT_LINE id params =>
      let* v := get in
      let ln := fst (span (fun c => negb (ceq c NL)) (v_input v)) in
      modify (fun w => set_input ln (v_inp w) (v_input_pc w) (v_in w) w) ;;;
      adv (set_string id params ln)
  | I_DATA _ => ret true
  | I_READ_NUM id params =>
      let* s := find_data in
      match convert s with
      | Some (x, []) => adv (set_numeric id params x)
      | _ => run_error (RE_numeric_data s)
      end
  | I_READ_STR id params => let* s := find_data in adv (set_string id params s)
  | I_RESTORE => adv (modify (set_data 0 0))
  | I_RESTORE_LINE n =>
      let* pc := find_basic_line n in
      adv (modify (fun v => set_data pc (v_idata v) v))
  | I_RAND => adv (modify (fun v => set_rand (u32 (e_time E (v_clock v))) 0 (S (v_clock v)) v))
  | I_SEED =>
      let* n := pop_unsigned in
      adv (modify (fun v => set_rand n 0 (v_clock v) v))
  | I_ASC =>
      let* s := pop_str in
      adv (push (fofZ (match s with [] => 0%Z | c :: _ => schar c end)))
  | I_ABS => unary fabs
  | I_ATN => unary (e_atan E)
  | I_CHR =>
      let* x := pop in
      if fltb x fzero || fgtb x (fofZ 255) || fneb x (ffloor x) then run_error (RE_chr x)
      else let* z := some_or_crash (ftoZ x) in
           adv (push_str (cstr [chr (Z.to_N z)]))
  | I_COS => unary (e_cos E)
  | I_EXP => unary (e_exp E)
  | I_INKEY => run_error RE_inkey
  | I_INT => unary ffloor
  | I_LEFT =>
      let* s := pop_str in
      let* u := pop_unsigned in
      adv (push_buf (if (N.of_nat (length s) <? u)%N then s else firstn (N.to_nat u) s))
  | I_LEN => let* s := pop_str in adv (push (fofN (N.of_nat (length s))))
  | I_LOG =>
      let* x := pop in
      if fleb x fzero then run_error RE_log else adv (push (e_log E x))
  | I_MID3 =>
      let* s := pop_str in
      let* n := pop_unsigned in
      let* u := pop_unsigned in
      let sz := N.of_nat (length s) in
      if (u <? 1)%N || (sz <? u)%N then run_error RE_string_index
      else
        let n' := if (sz - u + 1 <? n)%N then (sz - u + 1)%N else n in
        adv (push_buf (firstn (N.to_nat n') (skipn (N.to_nat (u - 1)) s)))
  | I_STR => let* x := pop in adv (push_str (format_g x))
  | I_RIGHT =>
      let* s := pop_str in
      let* u := pop_unsigned in
      let sz := N.of_nat (length s) in
      let u' := if (sz <? u)%N then sz else u in
      adv (push_buf (skipn (N.to_nat (sz - u')) s))
  | I_RND =>
      fun v => match rnd_loop RND_FUEL E (v_seed v) (v_randk v) with
               | Some (x, k) => (adv (push x)) (set_rand (v_seed v) k (v_clock v) v)
               | None => (NoFuel, v)
               end
  | I_SGN => unary (fun x => if fltb x fzero then fofZ (-1) else if fgtb x fzero then fone else x)
  | I_SIN => unary (e_sin E)
  | I_SQR => unary fsqrt
  | I_TAN => unary (e_tan E)
  | I_TIME_STR =>
      fun v => let '(h, m, s) := e_hms E (v_clock v) in
               adv (push_str (two_digits h ++ lit ":" ++ two_digits m ++ lit ":" ++ two_digits s))
                 (set_rand (v_seed v) (v_randk v) (S (v_clock v)) v)
  | I_VAL =>
      let* s := pop_str in
      match convert s with
      | Some (x, []) => adv (push x)
      | _ => run_error (RE_number s)
      end
  end.

(* execute, Basic/run.c:469-1173 *)
Definition execute (E : env) : M unit :=
  let* bc := get_bcode in
  let* v := get in
  let* i := some_or_crash (nth_error (bc_inst bc) (cs_pc (v_cs v))) in
  let* b := exec_instr E i in
  if b then modify (fun w => set_pc (S (cs_pc (v_cs w))) w) else ret tt.

(* ---------- run ---------- *)

(* The interrupt schedule: None is no interrupt; Some n sets the flag after n
   more instructions (the flag is looked at only between instructions,
   Basic/run.c:342). *)
Definition tick (brk : option nat) : option nat :=
  match brk with Some n => Some (pred n) | None => None end.
Definition interrupted (brk : option nat) : bool :=
  match brk with Some O => true | _ => false end.

(* the loop of run, Basic/run.c:342-343, with what is left of the schedule *)
Fixpoint run_loop (E : env) (fuel : nat) (brk : option nat) (v : vm) : res unit * option nat * vm :=
  match cur_bcode v with
  | None => (Crash, brk, v)
  | Some bc =>
      if Nat.ltb (cs_pc (v_cs v)) (bc_used bc) && negb (v_stopped v) && negb (interrupted brk) then
        match fuel with
        | O => (NoFuel, brk, v)
        | S f =>
            match execute E v with
            | (Ok _, v') => run_loop E f (tick brk) v'
            | (r, v') => (r, tick brk, v')
            end
        end
      else (Ok tt, brk, v)
  end.

(* what is printed when running ends, Basic/run.c:347-357 *)
Definition run_report (brk : option nat) : M unit :=
  fun v =>
    if interrupted brk then put (lit "Break" ++ [NL]) v
    else if v_stopped v then
      match cs_code (v_cs v) with
      | Some r =>
          put (match c_source (code_of v r) with
               | Some src => print_source_line src (cs_line (v_cs v))
               | None => []
               end ++ [NL] ++ lit "Stopped" ++ [NL]) v
      | None => (Crash, v)
      end
    else (Ok tt, v).

(* Basic/run.c:362-367 *)
Definition run_stop_state (brk : option nat) (v : vm) : vm :=
  match cs_code (v_cs v) with
  | Some CStored =>
      if v_stopped v || interrupted brk then set_stopcs (v_cs v) v else set_stopcs clear_cs v
  | _ => v
  end.

(* run, Basic/run.c:336-368. A run-time error ends the loop (setjmp). The
   result is Ok, or Fail e when a run-time error e ended the loop. *)
Definition run (E : env) (fuel : nat) (brk : option nat) : M unit :=
  fun v0 =>
    match cs_code (v_cs v0) with
    | None => (Crash, v0)
    | Some _ =>
        match run_loop E fuel brk (set_stopped false v0) with
        | (Crash, _, v) => (Crash, v)
        | (NoFuel, _, v) => (NoFuel, v)
        | (r, brk', v) =>
            match run_report brk' v with
            | (Ok _, v') => (r, run_stop_state brk' v')
            | (x, v') => (x, v')
            end
        end
    end.

Definition is_stop (i : instr) : bool := match i with I_STOP => true | _ => false end.

(* vm_continue, Basic/run.c:370-382: false when it refuses. The instruction
   at the stopped pc is read even when that pc is past the end of the code. *)
Definition vm_continue (E : env) (fuel : nat) (brk : option nat) : M bool :=
  let* v := get in
  match cs_code (v_stopcs v) with
  | None => ret false
  | Some r =>
      match c_bcode (code_of v r) with
      | None => ret false
      | Some bc =>
          let cs := v_stopcs v in
          let* i := some_or_crash (nth_error (bc_inst bc) (cs_pc cs)) in
          modify (set_cs (mkCs (cs_code cs) (cs_line cs)
                               (if is_stop i then S (cs_pc cs) else cs_pc cs))) ;;;
          run E fuel brk ;;; ret true
      end
  end.

(* reset_control_state, Basic/run.c:162-176 *)
Definition reset_control_state (v : vm) : vm :=
  set_input (v_input v) None 0 (v_in v)
      (set_data 0 0
        (set_for []
          (set_col 1
            (set_ret []
              (set_sstack []
                (set_stack []
                  (set_stopcs clear_cs
                    (set_fn (mkFn clear_cs (fn_param (v_fn v)) (fn_defined (v_fn v)) (fn_val (v_fn v)))
                      (set_cs clear_cs v))))))))).

(* stored_program_changed, Basic/run.c:180-189 *)
Definition stored_program_changed (v : vm) : vm :=
  set_stored (mkCode (c_source (v_stored v)) None None) v.

(* immediate_state, Basic/run.c:313-330; None is a failed assert *)
Fixpoint any_not_stored (l : list code_state) : option bool :=
  match l with
  | [] => Some false
  | c :: r =>
      match cs_code c with
      | None => None
      | Some CStored => any_not_stored r
      | Some _ => Some true
      end
  end.

Definition immediate_state (v : vm) : option bool :=
  match any_not_stored (rev (v_ret v)) with
  | None => None
  | Some true => Some true
  | Some false =>
      match any_not_stored (map f_cs (v_for v)) with
      | None => None
      | Some true => Some true
      | Some false =>
          Some (match cs_code (fn_cs (v_fn v)) with
                | None | Some CStored => false
                | Some _ => true
                end)
      end
  end.
