(* Error messages (C43). *)
From Verif Require Import Base SourceModel LineMapModel BcodeModel SymbolModel VmModel.

(* the line shown with an error: that at which the machine stands *)
Definition shown_line (v : vm) : option bytes :=
  match cs_code (v_cs v) with
  | Some r => match c_source (code_of v r) with Some src => Some (print_source_line src (cs_line (v_cs v))) | None => None end
  | None => None
  end.
