(* C01, C02, C03: program editing, SAVE and LOAD. *)
From Coq Require Import Sorted.
From Verif Require Import Base BaseLemmas SourceModel SourceSpec SourceProofs.

(* C01: after any history of edits that does not enter line 0 into an empty
   program, the program is the increasing listing of the intended map. *)
Theorem C01_program_is_sorted_map : forall es,
  ~ zero_on_empty es ->
  exists src, apply_edits [] es = SOk src /\
    StronglySorted N.lt (map ln_num src) /\
    forall n t, In (mkLine n t) src <-> spec_edits es n = Some t.
Proof. exact edits_ok. Qed.
Print Assumptions C01_program_is_sorted_map.

(* C01: that exception terminates the interpreter, and nothing else does. *)
Theorem C01_line_zero_exit : forall es,
  zero_on_empty es <-> apply_edits [] es = SExit SE_zero_number.
Proof. exact edits_exit. Qed.
Print Assumptions C01_line_zero_exit.

(* C01: the listing determines the program completely. *)
Theorem C01_listing_unique : forall m s1 s2, lists s1 m -> lists s2 m -> s1 = s2.
Proof. exact lists_unique. Qed.
Print Assumptions C01_listing_unique.

Example C01_example :
  apply_edits [] [EdEnter 20 (lit "GOTO 10"); EdEnter 10 (lit "PRINT"); EdEnter 30 (lit "END");
                  EdDelete 30; EdEnter 20 (lit "STOP"); EdDelete 99; EdEnter 0 (lit "REM")]
  = SOk [mkLine 0 (lit "REM"); mkLine 10 (lit "PRINT"); mkLine 20 (lit "STOP")]
  /\ apply_edits [] [EdEnter 10 (lit "X"); EdDelete 10; EdEnter 0 (lit "Y")] = SExit SE_zero_number.
Proof. split; vm_compute; reflexivity. Qed.

(* C02: SAVE then LOAD restores the program exactly. *)
Theorem C02_save_load : forall src,
  StronglySorted N.lt (map ln_num src) -> Forall storable_line src ->
  load_source (save_source src) = SOk src.
Proof. exact save_load_ok. Qed.
Print Assumptions C02_save_load.

(* C02: the guard is exact for texts without newline. *)
Theorem C02_save_load_only_if : forall src,
  Forall (fun l => ~ In NL (ln_text l)) src ->
  load_source (save_source src) = SOk src ->
  StronglySorted N.lt (map ln_num src) /\ Forall storable_line src.
Proof. exact save_load_conv. Qed.
Print Assumptions C02_save_load_only_if.

Example C02_example :
  let src := [mkLine 10 (lit "  FOR I=1 TO 3"); mkLine 20 []; mkLine 4294967295 (lit "5 NEXT")] in
  load_source (save_source src) = SOk src.
Proof. vm_compute. reflexivity. Qed.

(* C03: LOAD succeeds with src iff the file is a well-formed file denoting src. *)
Theorem C03_load_iff : forall file src,
  load_source file = SOk src <-> file_program file src.
Proof. exact load_source_iff. Qed.
Print Assumptions C03_load_iff.

(* C03: every other file terminates the interpreter with an error. *)
Theorem C03_load_total : forall file,
  (exists src, load_source file = SOk src) \/ (exists e, load_source file = SExit e).
Proof. exact load_source_total. Qed.
Print Assumptions C03_load_total.

Example C03_example :
  load_source (lit "10PRINT" ++ [NL] ++ lit "20  STOP" ++ [NL])
    = SOk [mkLine 10 (lit "PRINT"); mkLine 20 (lit " STOP")]
  /\ load_source (lit "10 PRINT") = SExit SE_too_long
  /\ load_source (lit "10 A" ++ [NL] ++ lit "10 B" ++ [NL]) = SExit SE_not_increasing.
Proof. repeat split; vm_compute; reflexivity. Qed.
