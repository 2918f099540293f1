(* The exact value of a double. *)
From Coq Require Import SpecFloat.
From Verif Require Import Base Num.

(* x is an IEEE-754 binary64 number, infinity or NaN *)
Definition double (x : num) : Prop := valid_binary 53 1024 x = true.

(* Every finite double is a whole multiple of 2^-1074: units x is that
   multiple. *)
Definition units (x : num) : option Z :=
  match x with
  | S754_zero _ => Some 0%Z
  | S754_finite s m e => Some (cond_Zopp s (Zpos m) * 2 ^ (e + 1074))%Z
  | _ => None
  end.

(* the number one, in these units *)
Definition UNIT : Z := (2 ^ 1074)%Z.

(* x is exactly the integer z *)
Definition is_integer (x : num) (z : Z) : Prop := units x = Some (z * UNIT)%Z.
