(* What INPUT does with what is typed (C24). *)
From Verif Require Import Base Num BcodeModel SymbolModel GrammarSpec VmModel ValueSpec StoreSpec DataSpec EvalSpec StepSpec.

(* A line that is typed: at most 126 characters before the newline. *)
Definition entry (e : bytes) : Prop := length e <= 126 /\ Forall (fun c => c <> NL /\ c <> NUL) e.
Definition typed_lines (l : list bytes) : bytes := flat_map (fun e => e ++ [NL]) l.

(* the parts of the line between commas *)
Fixpoint fields (t : bytes) : list bytes :=
  match t with
  | [] => [[]]
  | c :: r => if ceq c "," then [] :: fields r else match fields r with f :: l => (c :: f) :: l | [] => [[c]] end
  end.

(* A numeric item takes a number, which may have blanks around it; a text item
   takes the field as it is. *)
Definition field_value (p : place) (f : bytes) : option datum :=
  match pl_type p with
  | TNum => match convert f with Some (x, []) => Some (Number x) | _ => None end
  | _ => Some (Text f)
  end.

(* What becomes of the fields: the values of the items, and whether there are
   more fields than items; or the values up to the first field that is missing
   or is no number. *)
Inductive verdict := Accepted (ds : list datum) (extra : bool) | TooFew (ds : list datum) | BadField (ds : list datum) (p : place).
Definition preceded (d : datum) (v : verdict) : verdict :=
  match v with Accepted ds x => Accepted (d :: ds) x | TooFew ds => TooFew (d :: ds) | BadField ds p => BadField (d :: ds) p end.
Fixpoint judge (l : list place) (fs : list bytes) : verdict :=
  match l, fs with
  | [], [] => Accepted [] false
  | [], _ :: _ => Accepted [] true
  | _ :: _, [] => TooFew []
  | p :: l', f :: fs' => match field_value p f with Some d => preceded d (judge l' fs') | None => BadField [] p end
  end.
Definition is_accepted (v : verdict) : bool := match v with Accepted _ _ => true | _ => false end.
(* what is printed about the line *)
Definition remark (v : verdict) : bytes :=
  match v with
  | Accepted _ false => []
  | Accepted _ true => lit "* Extra input was discarded *" ++ [NL]
  | TooFew _ => lit "* More input items are expected *" ++ [NL]
  | BadField _ _ => lit "* Invalid input *" ++ [NL]
  end.
(* all that INPUT prints *)
Definition dialogue (prompt : option bytes) (l : list place) (es : list bytes) : bytes :=
  flat_map (fun e => prompt_text prompt ++ remark (judge l (fields e))) es.

(* The values are assigned in order, each as by LET. *)
Fixpoint assign (E : env) (l : list place) (ds : list datum) (m : memory) : answer unit :=
  match l, ds with
  | p :: l', d :: ds' => and_then (evals E (call_function E) (pl_subs p) m) (fun idx m => and_then (store_value p idx d m) (fun _ m => assign E l' ds' m))
  | _, _ => Value tt m
  end.

(* Typing the lines es turns the memory m into m': the last of them is
   accepted, the others are not. An element that gets something that is not a
   number is excluded. *)
Inductive enters (E : env) (l : list place) : list bytes -> memory -> memory -> Prop :=
| En_last e ds x m m' : judge l (fields e) = Accepted ds x -> assign E l ds m = Value tt m' -> enters E l [e] m m'
| En_few e es ds m m1 m' : judge l (fields e) = TooFew ds -> assign E l ds m = Value tt m1 -> enters E l es m1 m' -> enters E l (e :: es) m m'
| En_bad e es ds p m m1 m' : judge l (fields e) = BadField ds p -> pl_subs p = [] -> assign E l ds m = Value tt m1 -> enters E l es m1 m' -> enters E l (e :: es) m m'.

(* the variable id, which held d, after the items have got the values *)
Fixpoint given (l : list place) (ds : list datum) (id : symid) (d : datum) : datum :=
  match l, ds with
  | p :: l', x :: ds' => given l' ds' id (if (pl_id p =? id)%N then x else d)
  | _, _ => d
  end.
