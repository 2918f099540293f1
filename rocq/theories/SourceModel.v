(* Model of Basic/source.c: the stored program text. *)
From Verif Require Import Base.

(* struct source_line (Basic/source.c:14-17) *)
Record line := mkLine { ln_num : N; ln_text : bytes }.

(* struct source (Basic/source.c:19-24). The array lines[0..used-1] is a list;
   capacity doubling (ensure_space, 86-92) is not represented: every write in
   append and spread is preceded by it. The name is only used in messages. *)
Definition source := list line.

(* Reasons for source_error (Basic/source.c:75-84), which exits the process. *)
Inductive src_err :=
| SE_zero_number
| SE_not_increasing
| SE_too_long
| SE_empty
| SE_no_number.

(* Result of an operation that may terminate the process. SNoFuel is the
   out-of-fuel marker of the model's loops, never a behaviour of the code. *)
Inductive sres (A : Type) :=
| SOk (a : A)
| SExit (e : src_err)
| SNoFuel.
Arguments SOk {A} a.
Arguments SExit {A} e.
Arguments SNoFuel {A}.

(* latest in append, Basic/source.c:99 *)
Definition latest_num (src : source) : N :=
  match last_opt src with Some l => ln_num l | None => 0%N end.

(* append, Basic/source.c:94-107 *)
Definition append_line (src : source) (num : N) (text : bytes) : sres source :=
  if (num =? 0)%N then SExit SE_zero_number
  else if (num <=? latest_num src)%N then SExit SE_not_increasing
  else SOk (src ++ [mkLine num text]).

(* parse_line_number, Basic/source.c:109-122 *)
Definition parse_line_number (s : bytes) : sres (N * bytes) :=
  let (num, rest) := read_u32 s in
  if Nat.eqb (length rest) (length s) then SExit SE_no_number
  else match rest with
       | c :: r => if ceq c SP then SOk (num, r) else SOk (num, rest)
       | [] => SOk (num, rest)
       end.

(* The search loop of enter_source_line with spread inlined,
   Basic/source.c:124-134 and 138-150; None when the loop falls through. *)
Fixpoint enter_loop (src : source) (num : N) (text : bytes) : option source :=
  match src with
  | [] => None
  | l :: r =>
      if (ln_num l =? num)%N then Some (mkLine (ln_num l) text :: r)
      else if (num <? ln_num l)%N then Some (mkLine num text :: l :: r)
      else option_map (cons l) (enter_loop r num text)
  end.

(* enter_source_line, Basic/source.c:136-152 *)
Definition enter_source_line (src : source) (num : N) (text : bytes) : sres source :=
  match enter_loop src num text with
  | Some src' => SOk src'
  | None => append_line src num text
  end.

(* delete_source_line, Basic/source.c:154-162 (no effect out of range) *)
Definition delete_source_line (src : source) (i : nat) : source := remove_nth src i.

(* find_source_linenum, Basic/source.c:264-273 *)
Definition find_source_linenum (src : source) (num : N) : option nat :=
  find_index (fun l => (ln_num l =? num)%N) src.

(* clear_source, Basic/source.c:40-48 *)
Definition clear_source : source := [].

(* One iteration of the load loop after fgets, Basic/source.c:173-186.
   raw is the content of buf as left by fgets. *)
Definition load_one (src : source) (raw : bytes) : sres source :=
  let buf := cstr raw in
  match last_opt buf with
  | Some c =>
      if ceq c NL then
        let buf' := removelast buf in
        match buf' with
        | [] => SExit SE_empty
        | _ :: _ =>
            match parse_line_number buf' with
            | SOk (num, text) => append_line src num text
            | SExit e => SExit e
            | SNoFuel => SNoFuel
            end
        end
      else SExit SE_too_long
  | None => SExit SE_empty
  end.

(* while (fgets(buf, sizeof buf, fp)), Basic/source.c:171-187 *)
Fixpoint load_loop (fuel : nat) (src : source) (file : bytes) : sres source :=
  match fuel with
  | O => SNoFuel
  | S f =>
      match fgets 256 file with
      | None => SOk src
      | Some (raw, rest) =>
          match load_one src raw with
          | SOk src' => load_loop f src' rest
          | SExit e => SExit e
          | SNoFuel => SNoFuel
          end
      end
  end.

(* load_source_file, Basic/source.c:164-189, for a file that can be opened.
   Every fgets consumes at least one byte, hence the fuel. *)
Definition load_source (file : bytes) : sres source :=
  load_loop (S (length file)) [] file.

(* print_source_line, Basic/source.c:70-73, and one save line, 198:
   printf("%u %s", num, text) *)
Definition line_text (l : line) : bytes := dec_of_N (ln_num l) ++ SP :: ln_text l.

Definition print_source_line (src : source) (i : nat) : bytes :=
  match nth_error src i with Some l => line_text l | None => [] end.

(* save_source_file, Basic/source.c:191-201, content of the created file *)
Definition save_source (src : source) : bytes :=
  flat_map (fun l => line_text l ++ [NL]) src.

(* wrap_source_text, Basic/source.c:250-262 *)
Definition wrap_source_text (text : bytes) : source := [mkLine 0 text].

(* strncmp(sl->text + pos, from, from_len) == 0, Basic/source.c:283 *)
Fixpoint has_prefix (p s : bytes) : bool :=
  match p, s with
  | [], _ => true
  | c :: p', d :: s' => ceq c d && has_prefix p' s'
  | _ :: _, [] => false
  end.

(* source_replace, Basic/source.c:275-295; None when it returns false *)
Definition source_replace (src : source) (i : nat) (pos : nat) (from to : bytes) : option source :=
  match nth_error src i with
  | Some l =>
      let t := ln_text l in
      if Nat.leb pos (length t) && Nat.leb (length from) (length t - pos)
         && has_prefix from (skipn pos t)
      then Some (list_upd src i
                   (mkLine (ln_num l) (firstn pos t ++ to ++ skipn (pos + length from) t)))
      else None
  | None => None
  end.

(* set_source_linenum, Basic/source.c:64-68 (index checked by check_line) *)
Definition set_source_linenum (src : source) (i : nat) (num : N) : source :=
  match nth_error src i with
  | Some l => list_upd src i (mkLine num (ln_text l))
  | None => src
  end.

(* line_length, Basic/source.c:203-212, together with the text it measures *)
Definition line_prefix (s : bytes) : bytes := fst (span (fun c => negb (ceq c NL)) s).

(* load_source_string, Basic/source.c:225-248; s is the text before its NUL *)
Fixpoint load_string_loop (fuel : nat) (src : source) (s : bytes) : sres source :=
  match fuel with
  | O => SNoFuel
  | S f =>
      let ln := line_prefix s in
      if Nat.eqb (length ln) 0 then SExit SE_empty
      else if Nat.ltb 256 (length ln + 1) then SExit SE_too_long
      else
        match parse_line_number ln with
        | SOk (num, text) =>
            match append_line src num text with
            | SOk src' =>
                match skipn (length ln) s with
                | _ :: (_ :: _) as rest => load_string_loop f src' rest
                | _ => SOk src'
                end
            | r => r
            end
        | SExit e => SExit e
        | SNoFuel => SNoFuel
        end
  end.

Definition load_source_string (s : bytes) : sres source :=
  load_string_loop (S (length s)) [] s.

(* Program edits as made from the prompt: program_line
   (Monitor/interactive.c:141-152) calling vm_enter_source_line and
   vm_delete_source_line (Basic/run.c:223-241), and NEW (Basic/run.c:214-221). *)
Inductive edit :=
| EdEnter (num : N) (text : bytes)
| EdDelete (num : N)
| EdNew.

Definition apply_edit (src : source) (e : edit) : sres source :=
  match e with
  | EdEnter num text => enter_source_line src num text
  | EdDelete num =>
      match find_source_linenum src num with
      | Some i => SOk (delete_source_line src i)
      | None => SOk src
      end
  | EdNew => SOk clear_source
  end.

(* A history of edits starting from an empty program. *)
Fixpoint apply_edits (src : source) (es : list edit) : sres source :=
  match es with
  | [] => SOk src
  | e :: r =>
      match apply_edit src e with
      | SOk src' => apply_edits src' r
      | SExit x => SExit x
      | SNoFuel => SNoFuel
      end
  end.
