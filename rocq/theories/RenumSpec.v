(* What RENUM does (C05). *)
From Verif Require Import Base Num NumSpec SourceModel LexModel LexSpec MonSpec.

(* ---------- the numbers ---------- *)

Definition lower (old : N) (src : source) : source := filter (fun l => (ln_num l <? old)%N) src.
Definition upper (old : N) (src : source) : source := filter (fun l => negb (ln_num l <? old)%N) src.

(* Lines below old keep their numbers; the others are numbered new,
   new + inc, new + 2 * inc, ... *)
Definition new_numbers (new old inc : N) (src : source) : list N :=
  map ln_num (lower old src) ++ map (fun k => (new + N.of_nat k * inc)%N) (seq 0 (length (upper old src))).

(* They can be used: none is below the number of a line that is kept, and
   none is too large. *)
Definition fits (new old inc : N) (src : source) : Prop :=
  upper old src <> [] ->
  (forall l, In l (lower old src) -> (ln_num l <= new)%N) /\
  (new + N.of_nat (length (upper old src) - 1) * inc < 4294967296)%N.

(* n is the number of a line, which becomes n' *)
Definition becomes (src : source) (nums : list N) (n n' : N) : Prop :=
  exists i l, nth_error src i = Some l /\ ln_num l = n /\ nth_error nums i = Some n'.

(* ---------- the texts ---------- *)

(* the words that RENUM looks for *)
Definition refers (t : token) : Prop :=
  t = T_KW K_ELSE \/ t = T_KW K_GOSUB \/ t = T_KW K_GOTO \/ t = T_KW K_RESTORE \/ t = T_KW K_THEN.

(* the token is a number from 1 to 65535, and the number of a line that
   becomes n' *)
Definition old_line (f : N -> N -> Prop) (t : token) (n' : N) : Prop :=
  exists x w n, t = T_NUM x w /\ is_integer x (Z.of_N n) /\ (1 <= n <= 65535)%N /\ f n n'.

(* The text made of the tokens of a line: a number directly after such a
   word is replaced, everything else stays. *)
Inductive retext (f : N -> N -> Prop) : list (bytes * bytes * token) -> bytes -> Prop :=
| Rt_end b w : retext f [(b, w, T_NL)] (b ++ w)
| Rt_number b w t b' w' t' n' l s : refers t -> old_line f t' n' -> retext f l s ->
    retext f ((b, w, t) :: (b', w', t') :: l) (b ++ w ++ b' ++ dec_of_N n' ++ s)
| Rt_no_number b w t b' w' t' l s : refers t -> (forall n', ~ old_line f t' n') -> t' <> T_NL -> retext f l s ->
    retext f ((b, w, t) :: (b', w', t') :: l) (b ++ w ++ b' ++ w' ++ s)
| Rt_word_end b w t b' w' : refers t -> retext f [(b, w, t); (b', w', T_NL)] (b ++ w ++ b' ++ w')
| Rt_other b w t l s : ~ refers t -> t <> T_NL -> retext f l s -> retext f ((b, w, t) :: l) (b ++ w ++ s).

(* The numbers that are replaced are written with digits only: not as 10.
   or 1E1. *)
Inductive plain_refs (f : N -> N -> Prop) : list (bytes * bytes * token) -> Prop :=
| Pr_none : plain_refs f []
| Pr_next b w t l : (refers t -> match l with (_, w', t') :: _ => forall n', old_line f t' n' -> Forall digit w' | [] => True end) ->
    plain_refs f l -> plain_refs f ((b, w, t) :: l).

(* characters of the texts of lines *)
Definition texts_ok (src : source) : Prop := Forall (fun l => Forall allowed (ln_text l) /\ ~ In NL (ln_text l)) src.

(* ---------- the request ---------- *)

(* The text after RENUM: new, old and inc, separated by commas, each
   optional. *)
Definition renum_request (s : bytes) (new old inc : N) : Prop :=
  exists g1 d1 g2 mid g e, s = g1 ++ d1 ++ g2 ++ mid ++ g ++ e /\
    Forall gap g1 /\ Forall gap g2 /\ Forall gap g /\ ends_line e /\ opt_number d1 new 10 /\
    ((mid = [] /\ old = 1%N /\ inc = 10%N) \/
     exists g3 d2 mid2, mid = ","%char :: g3 ++ d2 ++ mid2 /\ Forall gap g3 /\ opt_number d2 old 1 /\
       ((mid2 = [] /\ inc = 10%N) \/ exists g4 d3, mid2 = ","%char :: g4 ++ d3 /\ Forall gap g4 /\ opt_number d3 inc 10)).

(* the program with these numbers and texts *)
Definition program_of (nums : list N) (texts : list bytes) : source := map (fun p => mkLine (fst p) (snd p)) (combine nums texts).
