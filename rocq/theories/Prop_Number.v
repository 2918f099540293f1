(* C32: numbers written as text and read from text. plain, reads_as and the
   notions they rest on are in TextNumSpec. *)
From Coq Require Import Lia SpecFloat.
From Verif Require Import Base Num NumSpec TextNumSpec BcodeModel SymbolModel VmModel VmSpec OpSpec ValueSpec PrintSpec StoreSpec DataSpec GrammarSpec InputSpec
  TextNumProofs NumberProofs RoundProofs Examples.
Local Open Scope list_scope.
Local Open Scope Z_scope.
Local Notation plain := TextNumSpec.plain.
Local Notation blanks := TextNumSpec.blanks.

(* STR$ of an integer below a million is its plain decimal digits, and this text
   reads back as the number ... *)
Theorem C32_str : forall E v x st z, current v = Some I_STR -> v_stack v = x :: st -> (length (v_sstack v) < 8)%nat -> number_is x z -> Z.abs z < 10 ^ 6 ->
  exists t, plain z t /\ reads_as t x /\ gives E v st (t :: v_sstack v).
Proof. exact str_gives. Qed.
Print Assumptions C32_str.

(* ... and PRINT writes these digits with a blank before and after. *)
Theorem C32_print : forall E v x st z, current v = Some I_PRINT_NUM -> v_stack v = x :: st -> number_is x z -> Z.abs z < 10 ^ 6 ->
  exists t, plain z t /\ prints E v (SP :: t ++ [SP]) (column_after (v_col v) (map OB (SP :: t ++ [SP]))) st (v_sstack v).
Proof. exact print_gives. Qed.
Print Assumptions C32_print.

(* There is one such text for each integer, and one integer for each text. *)
Theorem C32_plain : forall z t, plain z t -> (forall u, plain z u -> u = t) /\ (forall y, plain y t -> y = z).
Proof. intros z t P. split; [intros u U; exact (plain_unique z u t U P)|intros y Y; exact (plain_number y z t Y P)]. Qed.
Print Assumptions C32_plain.

(* VAL of a text that is a number, with blanks around it, is that number: the
   nearest double, and for each text there is only one. Any other text raises an
   error. *)
Theorem C32_val : forall E v s ss, current v = Some I_VAL -> v_sstack v = s :: ss ->
  (forall x, reads_as s x -> (length (v_stack v) < 16)%nat -> gives E v (x :: v_stack v) ss) /\
  ((forall x, ~ reads_as s x) -> raises E v (RE_number s)).
Proof. exact val_gives. Qed.
Print Assumptions C32_val.
Theorem C32_one : forall s x y, reads_as s x -> reads_as s y -> x = y.
Proof. exact reads_unique. Qed.
Print Assumptions C32_one.
Theorem C32_nearest : forall x y neg n d, 0 < d -> nearest x neg n d -> nearest y neg n d -> x = y.
Proof. exact nearest_unique. Qed.
Print Assumptions C32_nearest.

(* READ takes an item as a number (C18_read_variable, C18_not_number), and INPUT
   a field (C24_items), in just these cases. *)
Theorem C32_read : forall s, (forall x, item_value Numbers s = Some (Number x) <-> reads_as s x) /\ (item_value Numbers s = None <-> forall x, ~ reads_as s x).
Proof. exact read_number. Qed.
Print Assumptions C32_read.
Theorem C32_input : forall p s, pl_type p = TNum ->
  (forall x, field_value p s = Some (Number x) <-> reads_as s x) /\ (field_value p s = None <-> forall x, ~ reads_as s x).
Proof. exact input_number. Qed.
Print Assumptions C32_input.

(* The plain digits of an integer, with blanks around them, are read as the
   integer (up to 2^53, as far as each integer is a double). *)
Theorem C32_integer : forall b z t c, Z.abs z < 2 ^ 53 -> plain z t -> blanks b -> blanks c -> exists x, number_is x z /\ reads_as (b ++ t ++ c) x.
Proof. exact reads_back. Qed.
Print Assumptions C32_integer.

(* The zero with a minus sign, which is the integer 0 too, is not written as 0. *)
Definition minus_zero : vm := ex_steps 3 (ex_start [] [(10, lit "PRINT -0")]%N).
Theorem C32_zero_refuted : exists E v x st, current v = Some I_PRINT_NUM /\ v_stack v = x :: st /\ double x /\ is_integer x 0 /\
  exists t, ~ plain 0 t /\ prints E v (SP :: t ++ [SP]) (column_after (v_col v) (map OB (SP :: t ++ [SP]))) st (v_sstack v).
Proof.
  exists ex_env, minus_zero, (S754_zero true), []. split; [vm_compute; reflexivity|]. split; [vm_compute; reflexivity|]. split; [reflexivity|]. split; [reflexivity|]. exists (lit "-0"). split; [|exact (PrintProofs.print_number ex_env minus_zero (S754_zero true) [] ltac:(vm_compute; reflexivity) ltac:(vm_compute; reflexivity))].
  intros (ds & E & A & _). cbn in E. subst ds. inversion A. discriminate.
Qed.
Print Assumptions C32_zero_refuted.

(* ---------- not vacuous ---------- *)

(* STR$(-1234) *)
Definition ex_str : vm := ex_steps 3 (ex_start [] [(10, lit "A$=STR$(-1234)")]%N).
Example C32_str_ex : current ex_str = Some I_STR /\ v_stack ex_str = [fofZ (-1234)] /\ (length (v_sstack ex_str) < 8)%nat /\ number_is (fofZ (-1234)) (-1234).
Proof. split; [vm_compute; reflexivity|]. split; [vm_compute; reflexivity|]. split; [vm_compute; lia|]. apply fofZ_number. reflexivity. Qed.
(* VAL(" 12.5E1 ") *)
Definition ex_val : vm := ex_steps 2 (ex_start [] [(10, lit "A=VAL("" 12.5E1 "")")]%N).
Example C32_val_ex : current ex_val = Some I_VAL /\ v_sstack ex_val = [lit " 12.5E1 "] /\ reads_as (lit " 12.5E1 ") (fofZ 125).
Proof.
  split; [vm_compute; reflexivity|]. split; [vm_compute; reflexivity|]. apply convert_iff. vm_compute. reflexivity.
Qed.
(* " 1 2" and "12a" are no numbers *)
Example C32_val_no : forall x, ~ reads_as (lit " 1 2") x /\ ~ reads_as (lit "12a") x.
Proof. intros x. split; intros H; apply convert_iff in H; vm_compute in H; discriminate H. Qed.
Example C32_plain_ex : plain (-1234) (lit "-1234") /\ plain 0 (lit "0").
Proof. split; [exists (lit "1234")|exists (lit "0")]; (split; [reflexivity|]; split; [repeat constructor|]; split; [reflexivity|]); intros H; first [discriminate H|reflexivity]. Qed.
(* a tie between two doubles: 2^53 + 1 *)
Example C32_tie_ex : reads_as (lit "9007199254740993") (fofZ (2 ^ 53)).
Proof. apply convert_iff. vm_compute. reflexivity. Qed.
