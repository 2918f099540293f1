(* C double arithmetic (IEEE-754 binary64, round to nearest even) through
   Coq.Floats.SpecFloat, with floor, conversions, strtod and printf("%g").
   NaN payload and sign are not represented. *)
From Coq Require Import SpecFloat.
From Verif Require Import Base.

Definition num := spec_float.

Definition fzero : num := S754_zero false.
Definition fadd : num -> num -> num := SFadd 53 1024.
Definition fsub : num -> num -> num := SFsub 53 1024.
Definition fmul : num -> num -> num := SFmul 53 1024.
Definition fdiv : num -> num -> num := SFdiv 53 1024.
Definition fsqrt : num -> num := SFsqrt 53 1024.
Definition fneg : num -> num := SFopp.
Definition fabs : num -> num := SFabs.

(* C comparison operators on doubles *)
Definition feqb : num -> num -> bool := SFeqb.
Definition fneb (x y : num) : bool := negb (SFeqb x y).
Definition fltb : num -> num -> bool := SFltb.
Definition fleb : num -> num -> bool := SFleb.
Definition fgtb (x y : num) : bool := SFltb y x.
Definition fgeb (x y : num) : bool := SFleb y x.

(* (double) z *)
Definition fofZ (z : Z) : num := binary_normalize 53 1024 z 0 false.
Definition fofN (n : N) : num := fofZ (Z.of_N n).

Definition fone : num := fofZ 1.

(* floor (math.h) *)
Definition ffloor (x : num) : num :=
  match x with
  | S754_finite s m e =>
      if (0 <=? e)%Z then x
      else binary_normalize 53 1024 (cond_Zopp s (Zpos m) / 2 ^ (- e))%Z 0 s
  | _ => x
  end.

(* Conversion of a double to an integer type discards the fraction. The C
   result is defined only when the value is in range of the type; the callers
   check that. None for infinities and NaN. *)
Definition ftoZ (x : num) : option Z :=
  match x with
  | S754_zero _ => Some 0%Z
  | S754_finite s m e =>
      Some (if (0 <=? e)%Z then cond_Zopp s (Zpos m) * 2 ^ e
            else Z.quot (cond_Zopp s (Zpos m)) (2 ^ (- e)))%Z
  | _ => None
  end.

(* sign * n / d correctly rounded *)
Definition f_of_ratio (s : bool) (n d : positive) : num :=
  let '(q, e, l) := SFdiv_core_binary 53 1024 (Zpos n) 0 (Zpos d) 0 in
  binary_round_aux 53 1024 s q e l.

(* ---------- strtod (glibc, C locale) ---------- *)

Definition is_space (c : ascii) : bool :=
  ((9 <=? code c) && (code c <=? 13))%N || (code c =? 32)%N.

Definition is_hexdigit (c : ascii) : bool :=
  is_digit c || ((97 <=? code (to_lower c)) && (code (to_lower c) <=? 102))%N.

Definition hex_val (c : ascii) : N :=
  if is_digit c then digit_val c else (code (to_lower c) - 87)%N.

Definition digits_value (base : N) (val : ascii -> N) (ds : bytes) : N :=
  fold_left (fun a c => base * a + val c)%N ds 0%N.

(* exponent part: marker, optional sign, at least one digit *)
Definition scan_exponent (marker : ascii) (s : bytes) : Z * bytes :=
  match s with
  | c :: r =>
      if ceq (to_lower c) marker then
        let '(neg, r') :=
          match r with
          | d :: r1 => if ceq d "-" then (true, r1)
                       else if ceq d "+" then (false, r1) else (false, r)
          | [] => (false, r)
          end in
        match span is_digit r' with
        | ([], _) => (0%Z, s)
        | (ds, r2) =>
            let v := Z.of_N (digits_value 10 digit_val ds) in
            ((if neg then - v else v)%Z, r2)
        end
      else (0%Z, s)
  | [] => (0%Z, s)
  end.

(* digits, optional point, digits: integer part, fraction part, rest *)
Definition scan_mantissa (isd : ascii -> bool) (s : bytes) : bytes * bytes * bytes :=
  let (ip, r) := span isd s in
  match r with
  | c :: r1 =>
      if ceq c "." then
        let (fp, r2) := span isd r1 in
        match ip, fp with
        | [], [] => ([], [], s)
        | _, _ => (ip, fp, r2)
        end
      else (ip, [], r)
  | [] => (ip, [], r)
  end.

(* m * 10^e, correctly rounded. Far beyond the double range the result is
   infinity or zero without computing the power. *)
Definition scale10 (neg : bool) (m : N) (ndigits : Z) (e : Z) : num :=
  match m with
  | N0 => S754_zero neg
  | Npos p =>
      if (400 <? e)%Z then S754_infinity neg
      else if (ndigits + e <? -400)%Z then S754_zero neg
      else match e with
           | Zneg k => f_of_ratio neg p (10 ^ k)
           | Z0 => f_of_ratio neg p 1
           | Zpos k => f_of_ratio neg (p * 10 ^ k) 1
           end
  end.

Definition scale2 (neg : bool) (m : N) (e : Z) : num :=
  match m with
  | N0 => S754_zero neg
  | Npos p =>
      if (Zpos (digits2_pos p) + e <? -1080)%Z then S754_zero neg
      else binary_round 53 1024 neg p e
  end.

(* unsigned part of a number; None when nothing can be converted *)
Definition scan_unsigned (neg : bool) (s : bytes) : option (num * bytes) :=
  if striprefix (lit "infinity") s then Some (S754_infinity neg, skipn 8 s)
  else if striprefix (lit "inf") s then Some (S754_infinity neg, skipn 3 s)
  else if striprefix (lit "nan") s then
    let r := skipn 3 s in
    match r with
    | c :: r1 =>
        if ceq c "(" then
          match span (fun d => is_alnum d || ceq d "_") r1 with
          | (_, d :: r2) => if ceq d ")" then Some (S754_nan, r2) else Some (S754_nan, r)
          | _ => Some (S754_nan, r)
          end
        else Some (S754_nan, r)
    | [] => Some (S754_nan, r)
    end
  else
    let hex :=
      match s with
      | z :: x :: r =>
          if ceq z "0" && ceq (to_lower x) "x" then
            match scan_mantissa is_hexdigit r with
            | ([], [], _) => None
            | (ip, fp, r1) =>
                let (e, r2) := scan_exponent "p" r1 in
                let m := digits_value 16 hex_val (ip ++ fp) in
                Some (scale2 neg m (e - 4 * Z.of_nat (length fp)), r2)
            end
          else None
      | _ => None
      end in
    match hex with
    | Some v => Some v
    | None =>
        match scan_mantissa is_digit s with
        | ([], [], _) => None
        | (ip, fp, r1) =>
            let (e, r2) := scan_exponent "e" r1 in
            let m := digits_value 10 digit_val (ip ++ fp) in
            Some (scale10 neg m (Z.of_nat (length (ip ++ fp))) (e - Z.of_nat (length fp)), r2)
        end
    end.

(* strtod(s, &end): the value and the text at end *)
Definition strtod (s : bytes) : num * bytes :=
  let s1 := drop_while is_space s in
  let '(neg, s2) :=
    match s1 with
    | c :: r => if ceq c "-" then (true, r) else if ceq c "+" then (false, r) else (false, s1)
    | [] => (false, s1)
    end in
  match scan_unsigned neg s2 with
  | Some (v, r) => (v, r)
  | None => (fzero, s)
  end.

(* ---------- printf("%g") ---------- *)

(* n/d rounded half to even *)
Definition div_even (n d : Z) : Z :=
  let q := (n / d)%Z in
  let r := (n mod d)%Z in
  match (2 * r ?= d)%Z with
  | Lt => q
  | Gt => (q + 1)%Z
  | Eq => if Z.even q then q else (q + 1)%Z
  end.

(* n / (d * 10^x) as a fraction *)
Definition scaled (n d x : Z) : Z * Z :=
  if (0 <=? x)%Z then (n, d * 10 ^ x)%Z else (n * 10 ^ (- x), d)%Z.

Definition ge_pow10 (n d x : Z) : bool := let (a, c) := scaled n d x in (c <=? a)%Z.

(* largest decimal exponent x <= start with 10^x <= n/d *)
Fixpoint find_exp (fuel : nat) (n d x : Z) : Z :=
  match fuel with
  | O => x
  | S f => if ge_pow10 n d x then x else find_exp f n d (x - 1)
  end.

(* exact decimal digits of a natural number on k places *)
Fixpoint digits_fixed (k : nat) (n : Z) : bytes :=
  match k with
  | O => []
  | S k' => digits_fixed k' (n / 10) ++ [digit_char (Z.to_N (n mod 10))]
  end.

(* remove trailing zeros *)
Fixpoint strip_zeros (l : bytes) : bytes :=
  match l with
  | [] => []
  | c :: r =>
      match strip_zeros r with
      | [] => if ceq c "0" then [] else [c]
      | r' => c :: r'
      end
  end.

Definition with_point (ip fp : bytes) : bytes :=
  match strip_zeros fp with
  | [] => ip
  | f => ip ++ "."%char :: f
  end.

(* An upper bound of the decimal exponent of n/d from the binary lengths;
   the exponent is at most three below it. *)
Definition exp_bound (n d : Z) : Z := ((Zdigits2 n - Zdigits2 d + 1) * 30103 / 100000 + 1)%Z.

(* %g of the positive value n/d: six significant digits *)
Definition format_pos (n d : Z) : bytes :=
  let x0 := find_exp 5 n d (exp_bound n d) in
  let (a, c) := scaled n d (x0 - 5) in
  let q0 := div_even a c in
  let '(q, x) := if (q0 =? 1000000)%Z then (100000, x0 + 1)%Z else (q0, x0) in
  let ds := digits_fixed 6 q in
  if (x <? -4)%Z || (6 <=? x)%Z then
    let ex := Z.abs_N x in
    with_point (firstn 1 ds) (skipn 1 ds) ++ "e"%char ::
      (if (x <? 0)%Z then "-"%char else "+"%char) ::
      (if (ex <? 10)%N then "0"%char :: dec_of_N ex else dec_of_N ex)
  else if (x <? 0)%Z then
    with_point ["0"%char] (repeat "0"%char (Z.to_nat (- x - 1)) ++ ds)
  else
    with_point (firstn (S (Z.to_nat x)) ds) (skipn (S (Z.to_nat x)) ds).

(* sprintf("%g", x) *)
Definition format_g (x : num) : bytes :=
  match x with
  | S754_nan => lit "nan"
  | S754_infinity s => (if s then ["-"%char] else []) ++ lit "inf"
  | S754_zero s => (if s then ["-"%char] else []) ++ lit "0"
  | S754_finite s m e =>
      (if s then ["-"%char] else []) ++
      match e with
      | Zneg k => format_pos (Zpos m) (2 ^ Zpos k)
      | _ => format_pos (Zpos m * 2 ^ e) 1
      end
  end.
