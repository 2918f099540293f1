(* What + - * and / are to give (C41). *)
From Coq Require Import SpecFloat.
From Verif Require Import Base Num NumSpec TextNumSpec BcodeModel VmModel.
Local Open Scope Z_scope.

Inductive operation := Plus | Minus | Times | Over.
Definition instruction_of (op : operation) : instr :=
  match op with Plus => I_ADD | Minus => I_SUB | Times => I_MUL | Over => I_DIV end.

(* The exact result for numbers of a and b units of 1/UNIT: a numerator and
   a positive denominator (b is not 0 in a division). *)
Definition exact (op : operation) (a b : Z) : Z * Z :=
  match op with
  | Plus => (a + b, UNIT)
  | Minus => (a - b, UNIT)
  | Times => (a * b, UNIT * UNIT)
  | Over => (Z.sgn b * a, Z.abs b)
  end.

(* The sign of a result that is exactly zero: positive, except that a
   product or quotient has the sign its factors say and that the sum of two
   negative zeros is a negative zero. *)
Definition zero_sign (op : operation) (s t : bool) : bool :=
  match op with Plus => s && t | Minus => s && negb t | Times | Over => xorb s t end.

(* r is x op y for finite doubles x and y: the double nearest to the exact
   result. *)
Definition result (op : operation) (x y r : num) : Prop :=
  exists a b s t, units x = Some a /\ units y = Some b /\ negative x = Some s /\ negative y = Some t /\
    let (n, d) := exact op a b in
    if n =? 0 then r = S754_zero (zero_sign op s t) else nearest r (n <? 0) (Z.abs n) d.

(* Results with infinities and divisions by zero; None: not a number. *)
Definition special (op : operation) (x y : num) : option num :=
  match op, x, y with
  | Plus, S754_infinity s, S754_infinity t => if Bool.eqb s t then Some x else None
  | Plus, S754_infinity _, _ => Some x
  | Plus, _, S754_infinity _ => Some y
  | Minus, S754_infinity s, S754_infinity t => if Bool.eqb s t then None else Some x
  | Minus, S754_infinity _, _ => Some x
  | Minus, _, S754_infinity t => Some (S754_infinity (negb t))
  | Times, S754_infinity _, S754_zero _ | Times, S754_zero _, S754_infinity _ => None
  | Over, S754_infinity _, S754_infinity _ | Over, S754_zero _, S754_zero _ => None
  | Times, _, _ =>
      match negative x, negative y with Some s, Some t => Some (S754_infinity (xorb s t)) | _, _ => None end
  | Over, _, S754_infinity _ =>
      match negative x, negative y with Some s, Some t => Some (S754_zero (xorb s t)) | _, _ => None end
  | Over, _, _ =>
      match negative x, negative y with Some s, Some t => Some (S754_infinity (xorb s t)) | _, _ => None end
  | _, _, _ => None
  end.
(* neither is NaN, and one is infinite or it is a division by zero *)
Definition is_special (op : operation) (x y : num) : Prop :=
  x <> S754_nan /\ y <> S754_nan /\
  (units x = None \/ units y = None \/ (op = Over /\ units y = Some 0)).

(* z is i op j (i/j has to be an integer) *)
Definition integer_result (op : operation) (i j z : Z) : Prop :=
  match op with Plus => z = i + j | Minus => z = i - j | Times => z = i * j | Over => j <> 0 /\ z * j = i end.

(* ---------- functions of one number ---------- *)

(* r has the value k/UNIT exactly *)
Definition exactly (r : num) (k : Z) : Prop := double r /\ units r = Some k.

(* r is the square root of a/UNIT, rounded: c being r and b any other double
   in the same units, the root lies on r's side of the middle between them;
   if it is in the middle, r has the even fraction. *)
Definition nearest_root (r : num) (a : Z) : Prop :=
  exists c, exactly r c /\ 0 <= c /\
    forall y b, double y -> units y = Some b -> 0 <= b ->
      (c < b -> 4 * a * UNIT < (c + b) * (c + b) \/ (4 * a * UNIT = (c + b) * (c + b) /\ even_fraction r)) /\
      (b < c -> (c + b) * (c + b) < 4 * a * UNIT \/ (4 * a * UNIT = (c + b) * (c + b) /\ even_fraction r)).

(* unary minus and the functions that need no table of values *)
Inductive unary_function := Negation | Abs | Int | Sgn | Sqr.
Definition function_code (f : unary_function) : instr :=
  match f with Negation => I_NEG | Abs => I_ABS | Int => I_INT | Sgn => I_SGN | Sqr => I_SQR end.

(* r is f of x, which is a/UNIT *)
Definition function_result (f : unary_function) (x : num) (a : Z) (r : num) : Prop :=
  match f with
  | Negation => exactly r (- a) /\ negative r = option_map negb (negative x)
  | Abs => exactly r (Z.abs a) /\ negative r = Some false
  | Int => double r /\ exists z, is_integer r z /\ z * UNIT <= a < (z + 1) * UNIT
  | Sgn => (a < 0 -> is_integer r (-1)) /\ (a = 0 -> r = x) /\ (0 < a -> is_integer r 1)
  | Sqr => (a < 0 -> r = S754_nan) /\ (a = 0 -> r = x) /\ (0 < a -> nearest_root r a)
  end.

(* f of infinity (negative if s) *)
Definition function_infinity (f : unary_function) (s : bool) : num :=
  match f with
  | Negation => S754_infinity (negb s)
  | Abs => S754_infinity false
  | Int => S754_infinity s
  | Sgn => if s then fofZ (-1) else fofZ 1
  | Sqr => if s then S754_nan else S754_infinity false
  end.
