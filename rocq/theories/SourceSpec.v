(* Independent specifications for program editing, SAVE and LOAD. *)
From Coq Require Import Sorted.
From Verif Require Import Base SourceModel BaseLemmas.

(* The intended meaning of a history of edits: what text each number has. *)
Definition progmap := N -> option bytes.

Definition spec_edit (m : progmap) (e : edit) : progmap :=
  match e with
  | EdEnter n t => fun k => if (k =? n)%N then Some t else m k
  | EdDelete n => fun k => if (k =? n)%N then None else m k
  | EdNew => fun _ => None
  end.

Definition spec_edits (es : list edit) : progmap := fold_left spec_edit es (fun _ => None).

(* Strictly increasing line numbers. *)
Definition increasing (src : source) : Prop := StronglySorted N.lt (map ln_num src).

(* src is the program listing of the map m. *)
Definition lists (src : source) (m : progmap) : Prop :=
  increasing src /\ forall n t, In (mkLine n t) src <-> m n = Some t.

(* Line 0 is entered while the program is empty. *)
Definition zero_on_empty (es : list edit) : Prop :=
  exists pre t post, es = pre ++ EdEnter 0 t :: post /\ forall n, spec_edits pre n = None.

(* One line of a well-formed program file, without its newline, and the
   program line it denotes. *)
Definition file_line (raw : bytes) (l : line) : Prop :=
  length raw <= 254 /\ ~ In NL raw /\ ~ In NUL raw /\
  exists digits rest,
    raw = digits ++ rest /\ digits <> [] /\
    Forall (fun c => is_digit c = true) digits /\
    match rest with c :: _ => is_digit c = false | [] => True end /\
    ln_num l = (dec_value digits mod 4294967296)%N /\
    (rest = SP :: ln_text l \/ (rest = ln_text l /\ forall r, rest <> SP :: r)).

(* A well-formed program file and the program it denotes. *)
Definition file_program (file : bytes) (src : source) : Prop :=
  exists raws,
    file = flat_map (fun raw => raw ++ [NL]) raws /\
    Forall2 file_line raws src /\
    increasing src /\ Forall (fun l => ln_num l <> 0%N) src.

(* A program that can be saved and loaded back. *)
Definition storable_line (l : line) : Prop :=
  (0 < ln_num l < 4294967296)%N /\ ~ In NL (ln_text l) /\ ~ In NUL (ln_text l) /\
  length (dec_of_N (ln_num l)) + 1 + length (ln_text l) <= 254.
