(* How numbers are written (C42): six significant digits. *)
From Coq Require Import SpecFloat.
From Verif Require Import Base Num NumSpec TextNumSpec.
Local Open Scope list_scope.
Local Open Scope Z_scope.

(* The number n/d rounded to six digits: of all numbers p * 10^(f-5) with p of
   six digits, q * 10^(e-5) is the nearest, and that with the even p if two are
   equally near. (10^k brings the numbers compared to a common denominator.) *)
Definition six (p : Z) : Prop := 10 ^ 5 <= p < 10 ^ 6.
Definition six_digits (n d q e : Z) : Prop :=
  six q /\
  forall p f k, six p -> 0 <= k -> 0 <= k + e - 5 -> 0 <= k + f - 5 ->
    let this := q * 10 ^ (k + e - 5) in
    let that := p * 10 ^ (k + f - 5) in
    let off w := Z.abs (w * d - n * 10 ^ k) in
    this = that \/ off this < off that \/ (off this = off that /\ Z.even q = true).

(* t is m/10^p in digits, with a point if it is needed and without needless
   zeros *)
Definition decimal_text (t : bytes) (m p : Z) : Prop :=
  exists ip fp, t = match fp with [] => ip | _ => ip ++ "."%char :: fp end /\
    all is_digit (ip ++ fp) /\
    worth 10 digit_val (ip ++ fp) * 10 ^ p = m * 10 ^ Z.of_nat (length fp) /\
    match ip with [] => False | c :: r => c = "0"%char -> r = [] end /\
    last fp "1"%char <> "0"%char.

(* e, a sign and at least two digits *)
Definition exponent_text (u : bytes) (e : Z) : Prop :=
  exists ds, u = "e"%char :: (if e <? 0 then "-"%char else "+"%char) :: ds /\ all is_digit ds /\ worth 10 digit_val ds = Z.abs e /\
    (2 <= length ds)%nat /\ (length ds <> 2%nat -> hd "1"%char ds <> "0"%char).

(* the text of the number q * 10^(e-5) *)
Definition notation (q e : Z) (t : bytes) : Prop :=
  if (-4 <=? e) && (e <? 6) then decimal_text t q (5 - e)
  else exists m u, t = m ++ u /\ decimal_text m q 5 /\ exponent_text u e.

(* the text of a finite number other than zero *)
Definition written (x : num) (t : bytes) : Prop :=
  exists a q e body, units x = Some a /\ six_digits (Z.abs a) UNIT q e /\
    t = (if a <? 0 then ["-"%char] else []) ++ body /\ notation q e body.

(* the text of the other numbers *)
Definition special_text (x : num) : option bytes :=
  match x with
  | S754_zero false => Some (lit "0")
  | S754_zero true => Some (lit "-0")
  | S754_infinity false => Some (lit "inf")
  | S754_infinity true => Some (lit "-inf")
  | S754_nan => Some (lit "nan")
  | S754_finite _ _ _ => None
  end.
