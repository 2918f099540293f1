(* C42: how numbers are written. six_digits, notation and written are in
   FormatSpec, reads_as and nearest_scaled in TextNumSpec. *)
From Coq Require Import Lia SpecFloat.
From Verif Require Import Base Num NumSpec TextNumSpec FormatSpec BcodeModel SymbolModel VmModel VmSpec OpSpec PrintSpec ValueSpec FormatProofs NumLemmas RoundProofs Examples.
Local Open Scope list_scope.
Local Open Scope Z_scope.

(* STR$ of a finite number other than zero is the number rounded to six
   significant digits ... *)
Theorem C42_str : forall E v x st a, current v = Some I_STR -> v_stack v = x :: st -> (length (v_sstack v) < 8)%nat -> double x -> units x = Some a -> a <> 0 ->
  exists t, written x t /\ gives E v st (t :: v_sstack v).
Proof. exact str_written. Qed.
Print Assumptions C42_str.

(* ... and PRINT writes this text with a blank before and after. *)
Theorem C42_print : forall E v x st a, current v = Some I_PRINT_NUM -> v_stack v = x :: st -> double x -> units x = Some a -> a <> 0 ->
  exists t, written x t /\ prints E v (SP :: t ++ [SP]) (column_after (v_col v) (map OB (SP :: t ++ [SP]))) st (v_sstack v).
Proof. exact print_written. Qed.
Print Assumptions C42_print.

(* There is one such text: the six digits are determined, and so is the way of
   writing them. *)
Theorem C42_one : forall x t t', written x t -> written x t' -> t = t'.
Proof. exact written_unique. Qed.
Print Assumptions C42_one.
Theorem C42_digits : forall n d q e q' e', 0 < d -> six_digits n d q e -> six_digits n d q' e' -> q = q' /\ e = e'.
Proof. exact six_unique. Qed.
Print Assumptions C42_digits.

(* The other numbers. *)
Theorem C42_str_special : forall E v x st t, current v = Some I_STR -> v_stack v = x :: st -> (length (v_sstack v) < 8)%nat -> special_text x = Some t -> gives E v st (t :: v_sstack v).
Proof. exact str_special. Qed.
Print Assumptions C42_str_special.
Theorem C42_print_special : forall E v x st t, current v = Some I_PRINT_NUM -> v_stack v = x :: st -> special_text x = Some t ->
  prints E v (SP :: t ++ [SP]) (column_after (v_col v) (map OB (SP :: t ++ [SP]))) st (v_sstack v).
Proof. exact print_special. Qed.
Print Assumptions C42_print_special.

(* The text can be read: as the double nearest to the six digits. *)
Theorem C42_reads : forall x t, written x t ->
  exists a q e y, units x = Some a /\ six_digits (Z.abs a) UNIT q e /\ nearest_scaled y (a <? 0) q 10 (e - 5) /\ reads_as t y.
Proof. exact written_reads. Qed.
Print Assumptions C42_reads.

(* A number given by up to six digits, m * 10^f, is written with these digits
   (and zeros) ... *)
Theorem C42_typed : forall neg m f y, 0 < m < 10 ^ 6 -> -307 <= f <= 302 -> nearest_scaled y neg m 10 f ->
  exists a q e j, units y = Some a /\ (a <? 0) = neg /\ six_digits (Z.abs a) UNIT q e /\ 0 <= j /\ q = m * 10 ^ j /\ e - 5 + j = f.
Proof. exact short_digits. Qed.
Print Assumptions C42_typed.
(* ... and its text is read as the same number. *)
Theorem C42_back : forall neg m f y t, 0 < m < 10 ^ 6 -> -307 <= f <= 302 -> nearest_scaled y neg m 10 f -> written y t -> reads_as t y.
Proof. exact short_back. Qed.
Print Assumptions C42_back.

(* ---------- not vacuous ---------- *)

(* A$ = STR$(2/3) *)
Definition ex_third : vm := ex_steps 4 (ex_start [] [(10, lit "A$=STR$(2/3)")]%N).
Definition two_thirds : num := fdiv (fofZ 2) (fofZ 3).
Example C42_str_ex : current ex_third = Some I_STR /\ v_stack ex_third = [two_thirds] /\ double two_thirds /\ units two_thirds <> Some 0 /\ format_g two_thirds = lit "0.666667".
Proof. split; [vm_compute; reflexivity|]. split; [vm_compute; reflexivity|]. split; [vm_compute; reflexivity|]. split; [vm_compute; discriminate|vm_compute; reflexivity]. Qed.
Example C42_texts_ex :
  format_g (fofZ 1234567) = lit "1.23457e+06" /\ format_g (fdiv (fofZ 1) (fofZ 8)) = lit "0.125" /\ format_g (fdiv (fofZ 1) (fofZ 100000)) = lit "1e-05" /\
  format_g (fdiv (fofZ (-9999995)) (fofZ 10)) = lit "-1e+06".
Proof. split; [vm_compute; reflexivity|]. split; [vm_compute; reflexivity|]. split; vm_compute; reflexivity. Qed.
(* 0.1 is 1 * 10^-1 *)
Example C42_typed_ex : nearest_scaled (fdiv (fofZ 1) (fofZ 10)) false 1 10 (-1).
Proof. exact (scale10_nearest false 1 1 (-1) ltac:(lia) ltac:(lia)). Qed.
