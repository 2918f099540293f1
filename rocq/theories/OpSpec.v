(* What comparisons, logical operators, string functions and RND are to give
   (C20, C22, C33). *)
From Coq Require Import SpecFloat.
From Verif Require Import Base Num NumSpec BcodeModel VmModel VmSpec.

(* ---------- outcomes ---------- *)

(* The current instruction succeeds: it replaces the stacks, continues with
   the next instruction and changes nothing else. *)
Definition gives (E : env) (v : vm) (st : list num) (ss : list bytes) : Prop :=
  execute E v = (Ok tt, set_cs (place_after v 1) (set_sstack ss (set_stack st v))).

(* The current instruction raises the error e; the variables and the place in
   the program are unchanged. *)
Definition raises (E : env) (v : vm) (e : rterr) : Prop :=
  exists w, execute E v = (Fail e, w) /\ v_st w = v_st v /\ v_cs w = v_cs v.

(* ---------- numbers ---------- *)

(* The value of a double that is not NaN, in units of 2^-1074. *)
Inductive extended := Minus_infinity | Finite (z : Z) | Plus_infinity.
Definition value (x : num) : option extended :=
  match x with
  | S754_infinity true => Some Minus_infinity
  | S754_infinity false => Some Plus_infinity
  | _ => option_map Finite (units x)
  end.
Definition before (a b : extended) : Prop :=
  match a, b with
  | Minus_infinity, Minus_infinity => False
  | Minus_infinity, _ => True
  | Finite x, Finite y => (x < y)%Z
  | Finite _, Plus_infinity => True
  | _, _ => False
  end.

Inductive relation := Equal | Different | Less | Greater | Less_equal | Greater_equal.

(* y R x for values in an order; NaN is different from everything and in no
   other relation *)
Definition related (R : relation) (a b : option extended) : Prop :=
  match a, b with
  | Some x, Some y =>
      match R with
      | Equal => x = y
      | Different => x <> y
      | Less => before x y
      | Greater => before y x
      | Less_equal => before x y \/ x = y
      | Greater_equal => before y x \/ x = y
      end
  | _, _ => R = Different
  end.

Definition compare_numbers (R : relation) : instr :=
  match R with
  | Equal => I_EQ_NUM | Different => I_NE_NUM | Less => I_LT_NUM
  | Greater => I_GT_NUM | Less_equal => I_LE_NUM | Greater_equal => I_GE_NUM
  end.

(* BASIC truth values *)
Definition truth_value (b : bool) : num := if b then fofZ (-1) else fofZ 0.

(* ---------- strings ---------- *)

(* s comes before t in the order of the byte codes *)
Definition string_before (s t : bytes) : Prop :=
  (exists c r, t = s ++ c :: r) \/
  (exists p a b s' t', s = p ++ a :: s' /\ t = p ++ b :: t' /\ (code a < code b)%N).
Definition strings_related (R : relation) (s t : bytes) : Prop :=
  match R with
  | Equal => s = t
  | Different => s <> t
  | Less => string_before s t
  | Greater => string_before t s
  | Less_equal => string_before s t \/ s = t
  | Greater_equal => string_before t s \/ s = t
  end.
Definition compare_texts (R : relation) : instr :=
  match R with
  | Equal => I_EQ_STR | Different => I_NE_STR | Less => I_LT_STR
  | Greater => I_GT_STR | Less_equal => I_LE_STR | Greater_equal => I_GE_STR
  end.

(* ---------- logic ---------- *)

(* x is the 32-bit integer z *)
Definition int32 (x : num) (z : Z) : Prop := is_integer x z /\ (- 2 ^ 31 <= z < 2 ^ 31)%Z.

(* ---------- counts ---------- *)

(* x is the whole number n, small enough to be a count *)
Definition count (x : num) (n : nat) : Prop := is_integer x (Z.of_nat n) /\ (Z.of_nat n < 2 ^ 32)%Z.
(* why x is not a count *)
Definition count_error (x : num) : rterr :=
  if fltb x fzero || negb (feqb (ffloor x) x) then RE_nonneg x else RE_range x.

(* ---------- RND ---------- *)

(* rand() gives numbers from 0 to RAND_MAX, and not RAND_MAX a hundred times
   in a row *)
Definition rand_range (E : env) : Prop := forall seed k, (e_rand E seed k <= RAND_MAX)%N.
Definition rand_varies (E : env) : Prop :=
  forall seed k, exists j, j < 100 /\ (e_rand E seed (k + j) < RAND_MAX)%N.

(* The values RND yields in an execution. *)
Fixpoint rnd_values (E : env) (l : list vm) : list num :=
  match l with
  | [] => []
  | v :: r =>
      match current v, v_stack (snd (execute E v)) with
      | Some I_RND, x :: _ => x :: rnd_values E r
      | _, _ => rnd_values E r
      end
  end.

(* RANDOMIZE does not occur in it. *)
Definition no_randomize (l : list vm) : Prop :=
  Forall (fun v => current v <> Some I_RAND /\ current v <> Some I_SEED) l.

(* 0 <= x < 1 *)
Definition unit_interval (x : num) : Prop := exists u, units x = Some u /\ (0 <= u < UNIT)%Z.

(* one list begins with the other *)
Definition one_continues_other {A} (l m : list A) : Prop := exists t, l = m ++ t \/ m = l ++ t.
