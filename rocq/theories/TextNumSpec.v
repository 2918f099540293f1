(* Numbers written as text (C32). *)
From Coq Require Import SpecFloat.
From Verif Require Import Base Num NumSpec.
Local Open Scope Z_scope.

(* ---------- digits ---------- *)

(* what digits to the base b are worth, by their places *)
Fixpoint worth (b : Z) (val : ascii -> N) (ds : bytes) : Z :=
  match ds with
  | [] => 0
  | c :: r => Z.of_N (val c) * b ^ Z.of_nat (length r) + worth b val r
  end.
Definition all (p : ascii -> bool) (ds : bytes) : Prop := Forall (fun c => p c = true) ds.

(* t is the integer z in plain decimal digits, without needless zeros *)
Definition plain (z : Z) (t : bytes) : Prop :=
  exists ds, t = (if z <? 0 then ["-"%char] else []) ++ ds /\ all is_digit ds /\ worth 10 digit_val ds = Z.abs z /\
    match ds with [] => False | c :: r => c = "0"%char -> r = [] end.

(* ---------- the nearest double ---------- *)

Definition negative (x : num) : option bool :=
  match x with S754_zero s | S754_infinity s | S754_finite s _ _ => Some s | S754_nan => None end.

(* the last bit of the fraction is 0 *)
Definition even_fraction (x : num) : Prop := match x with S754_finite _ m _ => Z.even (Zpos m) = true | _ => True end.
(* x is n/d (with the sign) rounded: infinite if it lies half a place or more
   beyond the largest double, else the double nearest to it; between two
   doubles equally near, the one with the even fraction *)
Definition nearest (x : num) (neg : bool) (n d : Z) : Prop :=
  double x /\ negative x = Some neg /\
  if (2 ^ 1024 - 2 ^ 970) * d <=? n then x = S754_infinity neg
  else exists a, units x = Some a /\
    forall y b, double y -> units y = Some b -> b <> a ->
      let off c := Z.abs (c * d - cond_Zopp neg n * UNIT) in off a < off b \/ (off a = off b /\ even_fraction x).
(* the same for m * b^e *)
Definition nearest_scaled (x : num) (neg : bool) (m b e : Z) : Prop :=
  if 0 <=? e then nearest x neg (m * b ^ e) 1 else nearest x neg m (b ^ (- e)).

(* ---------- the texts that are numbers ---------- *)

(* digits with at most one point among them: the text, the digits before and
   after the point *)
Inductive mantissa (dig : ascii -> bool) : bytes -> bytes -> bytes -> Prop :=
| Mt_whole ip : ip <> [] -> all dig ip -> mantissa dig ip ip []
| Mt_point ip fp : ip ++ fp <> [] -> all dig ip -> all dig fp -> mantissa dig (ip ++ "."%char :: fp) ip fp.
Inductive exponent (mark : ascii) : bytes -> Z -> Prop :=
| Ex_none : exponent mark [] 0
| Ex_plain c ds : to_lower c = mark -> ds <> [] -> all is_digit ds -> exponent mark (c :: ds) (worth 10 digit_val ds)
| Ex_plus c ds : to_lower c = mark -> ds <> [] -> all is_digit ds -> exponent mark (c :: "+"%char :: ds) (worth 10 digit_val ds)
| Ex_minus c ds : to_lower c = mark -> ds <> [] -> all is_digit ds -> exponent mark (c :: "-"%char :: ds) (- worth 10 digit_val ds).

(* A number without sign: decimal or (in C's notation) hexadecimal. The sign is
   that of the number as a whole. *)
Inductive figure (neg : bool) : bytes -> num -> Prop :=
| Fi_decimal t ip fp u e x : mantissa is_digit t ip fp -> exponent "e" u e ->
    nearest_scaled x neg (worth 10 digit_val (ip ++ fp)) 10 (e - Z.of_nat (length fp)) -> figure neg (t ++ u) x
| Fi_hex c t ip fp u e x : to_lower c = "x"%char -> mantissa is_hexdigit t ip fp -> exponent "p" u e ->
    nearest_scaled x neg (worth 16 hex_val (ip ++ fp)) 2 (e - 4 * Z.of_nat (length fp)) -> figure neg ("0"%char :: c :: t ++ u) x.
(* the words C's strtod knows, in capital or small letters *)
Inductive word (neg : bool) : bytes -> num -> Prop :=
| Wo_inf w : map to_lower w = lit "inf" \/ map to_lower w = lit "infinity" -> word neg w (S754_infinity neg)
| Wo_nan w : map to_lower w = lit "nan" -> word neg w S754_nan
| Wo_nan_word w v : map to_lower w = lit "nan" -> all (fun d => is_alnum d || ceq d "_") v -> word neg (w ++ "("%char :: v ++ [")"%char]) S754_nan.
Inductive numeral : bytes -> num -> Prop :=
| Nu_unsigned t x : figure false t x -> numeral t x
| Nu_plus t x : figure false t x \/ word false t x -> numeral ("+"%char :: t) x
| Nu_minus t x : figure true t x \/ word true t x -> numeral ("-"%char :: t) x.

(* The text is a number, with blanks around it. *)
Definition blanks (b : bytes) : Prop := Forall (fun c => c = SP \/ c = TABCH) b.
Definition reads_as (s : bytes) (x : num) : Prop :=
  exists b t c, s = b ++ t ++ c /\ blanks b /\ numeral t x /\ blanks c.

(* x is the integer z (and not the negative zero) *)
Definition number_is (x : num) (z : Z) : Prop := double x /\ is_integer x z /\ (z = 0 -> negative x = Some false).
