(* C41: + - * / and the functions that are computed exactly. The notions used
   here are in ArithSpec; nearest and even_fraction are in TextNumSpec. *)
From Coq Require Import Lia SpecFloat.
From Verif Require Import Base Num NumSpec TextNumSpec BcodeModel SymbolModel VmModel VmSpec OpSpec ArithSpec ArithProofs RoundProofs Examples.
Local Open Scope list_scope.
Local Open Scope Z_scope.

(* Adding, subtracting, multiplying or dividing two finite numbers (not
   dividing by zero) puts in their place the double nearest to the exact result;
   it changes nothing else. The second operand is on top. *)
Theorem C41_rounded : forall E v op x y st, current v = Some (instruction_of op) -> v_stack v = y :: x :: st -> (length st < 16)%nat ->
  double x -> double y -> x <> S754_nan -> y <> S754_nan -> ~ is_special op x y ->
  exists r, result op x y r /\ gives E v (r :: st) (v_sstack v).
Proof. exact binary_gives. Qed.
Print Assumptions C41_rounded.

(* There is only one such double. *)
Theorem C41_one : forall op x y r r', (op = Over -> units y <> Some 0) -> result op x y r -> result op x y r' -> r = r'.
Proof. exact result_unique. Qed.
Print Assumptions C41_one.

(* If the exact result is a double, it is that double, ... *)
Theorem C41_exact : forall op x y r a b z c, (op = Over -> b <> 0) -> result op x y r -> units x = Some a -> units y = Some b ->
  double z -> units z = Some c -> c * snd (exact op a b) = fst (exact op a b) * UNIT -> units r = Some c.
Proof. exact result_exact. Qed.
Print Assumptions C41_exact.

(* ... so calculating with integers is exact up to 2^53. *)
Theorem C41_integers : forall op x y r i j z, result op x y r -> is_integer x i -> is_integer y j ->
  integer_result op i j z -> Z.abs z <= 2 ^ 53 -> is_integer r z.
Proof. exact result_integer. Qed.
Print Assumptions C41_integers.
(* The bound is sharp: 2^53 + 1 comes out as 2^53. *)
Theorem C41_bound_sharp : exists x y r i j z, result Plus x y r /\ is_integer x i /\ is_integer y j /\
  integer_result Plus i j z /\ Z.abs z = 2 ^ 53 + 1 /\ ~ is_integer r z.
Proof.
  exists (fofZ (2 ^ 53)), (fofZ 1), (fadd (fofZ (2 ^ 53)) (fofZ 1)), (2 ^ 53), 1, (2 ^ 53 + 1).
  split; [apply (calculate_result Plus); [reflexivity|reflexivity| |discriminate|discriminate]; intros (_ & _ & [H|[H|[H _]]]); discriminate H|].
  split; [vm_compute; reflexivity|]. split; [vm_compute; reflexivity|]. split; [reflexivity|]. split; [reflexivity|]. vm_compute. discriminate.
Qed.
Print Assumptions C41_bound_sharp.

(* Infinities, divisions by zero and NaN: nothing is an error. *)
Theorem C41_special : forall E v op x y st, current v = Some (instruction_of op) -> v_stack v = y :: x :: st -> (length st < 16)%nat ->
  double x -> double y -> is_special op x y ->
  gives E v (match special op x y with Some r => r | None => S754_nan end :: st) (v_sstack v).
Proof. exact binary_special. Qed.
Print Assumptions C41_special.
Theorem C41_nan : forall E v op x y st, current v = Some (instruction_of op) -> v_stack v = y :: x :: st -> (length st < 16)%nat ->
  x = S754_nan \/ y = S754_nan -> gives E v (S754_nan :: st) (v_sstack v).
Proof. exact binary_nan. Qed.
Print Assumptions C41_nan.

(* Unary minus, ABS, INT, SGN and SQR. The first four are exact, INT rounds
   down, SQR gives the double nearest to the root. *)
Theorem C41_function : forall E v f x st a, current v = Some (function_code f) -> v_stack v = x :: st -> (length st < 16)%nat -> double x -> units x = Some a ->
  exists r, function_result f x a r /\ gives E v (r :: st) (v_sstack v).
Proof. exact unary_gives. Qed.
Print Assumptions C41_function.
Theorem C41_function_one : forall f x a r r', units x = Some a -> function_result f x a r -> function_result f x a r' -> units r = units r'.
Proof. exact function_unique. Qed.
Print Assumptions C41_function_one.
Theorem C41_square : forall x r a c, 0 < a -> nearest_root r a -> double x -> units x = Some c -> 0 <= c -> c * c = a * UNIT -> units r = Some c.
Proof. exact root_exact. Qed.
Print Assumptions C41_square.
Theorem C41_infinity : forall E v f s st, current v = Some (function_code f) -> v_stack v = S754_infinity s :: st -> (length st < 16)%nat ->
  gives E v (function_infinity f s :: st) (v_sstack v).
Proof. exact unary_infinite. Qed.
Print Assumptions C41_infinity.
Theorem C41_function_nan : forall E v f st, current v = Some (function_code f) -> v_stack v = S754_nan :: st -> (length st < 16)%nat ->
  gives E v (S754_nan :: st) (v_sstack v).
Proof. exact unary_nan. Qed.
Print Assumptions C41_function_nan.

(* ---------- not vacuous ---------- *)

(* A = 7 / 10 and A = 7 - 10 *)
Definition ex_over : vm := ex_steps 3 (ex_start [] [(10, lit "A=7/10")]%N).
Example C41_rounded_ex : current ex_over = Some (instruction_of Over) /\ v_stack ex_over = [fofZ 10; fofZ 7] /\
  double (fofZ 7) /\ double (fofZ 10) /\ ~ is_special Over (fofZ 7) (fofZ 10).
Proof.
  split; [vm_compute; reflexivity|]. split; [vm_compute; reflexivity|]. split; [reflexivity|]. split; [reflexivity|].
  intros (_ & _ & [H|[H|[_ H]]]); vm_compute in H; discriminate H.
Qed.
Example C41_order_ex : forall r, result Minus (fofZ 7) (fofZ 10) r -> is_integer r (-3).
Proof.
  intros r R. apply (C41_integers Minus (fofZ 7) (fofZ 10) r 7 10 (-3) R); [vm_compute; reflexivity|vm_compute; reflexivity|reflexivity|vm_compute; discriminate].
Qed.
(* 1/0, -1/0 and 0/0 *)
Example C41_special_ex : is_special Over (fofZ 1) (fofZ 0) /\ special Over (fofZ 1) (fofZ 0) = Some (S754_infinity false) /\
  special Over (fofZ (-1)) (fofZ 0) = Some (S754_infinity true) /\ special Over (fofZ 0) (fofZ 0) = None.
Proof. split; [|split; [reflexivity|split; reflexivity]]. split; [discriminate|]. split; [discriminate|]. right. right. split; reflexivity. Qed.
(* A = SQR(2) *)
Definition ex_sqr : vm := ex_steps 2 (ex_start [] [(10, lit "A=SQR(2)")]%N).
Example C41_function_ex : current ex_sqr = Some (function_code Sqr) /\ v_stack ex_sqr = [fofZ 2] /\ double (fofZ 2) /\ units (fofZ 2) = Some (2 * UNIT).
Proof. split; [vm_compute; reflexivity|]. split; [vm_compute; reflexivity|]. split; vm_compute; reflexivity. Qed.
(* INT(-2.5) is -3 *)
Example C41_int_ex : forall r, function_result Int (S754_finite true 5629499534213120 (-51)) (- (5 * 2 ^ 1073)) r -> is_integer r (-3).
Proof.
  intros r (_ & z & Z1 & Z2). assert (z = -3); [|subst z; exact Z1]. change UNIT with (2 * 2 ^ 1073) in Z2. assert (0 < 2 ^ 1073) by (apply Z.pow_pos_nonneg; lia).
  generalize dependent (2 ^ 1073). intros p P H. clear - P H. nia.
Qed.
