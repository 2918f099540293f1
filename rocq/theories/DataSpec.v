(* What READ and RESTORE are to do (C18). *)
From Verif Require Import Base Num BcodeModel SymbolModel LineMapModel VmModel VmSpec StoreSpec.

(* The DATA items in code, in order. *)
Fixpoint data_items (l : list instr) : list bytes :=
  match l with
  | [] => []
  | I_DATA s :: r => s :: data_items r
  | _ :: r => data_items r
  end.

(* The code has its mark as containing DATA exactly when it does. *)
Definition marked (c : codeobj) : Prop :=
  forall bc, c_bcode c = Some bc -> (bc_has_data bc = true <-> data_items (bc_inst bc) <> []).

(* The items of an object from position p on. *)
Definition items_from (c : codeobj) (p : nat) : list bytes :=
  match c_bcode c with
  | Some bc => data_items (skipn p (bc_inst bc))
  | None => []
  end.

(* An immediate line with DATA of its own reads that; everything else reads
   the DATA of the stored program. *)
Definition reads_own (v : vm) : bool :=
  match cs_code (v_cs v), items_from (v_imm v) 0 with
  | Some CImmediate, _ :: _ => true
  | _, _ => false
  end.

(* The items still to be read. *)
Definition upcoming (v : vm) : list bytes :=
  if reads_own v then items_from (v_imm v) (v_idata v) else items_from (v_stored v) (v_pdata v).

(* Only the position in the DATA differs. *)
Definition same_but_data (v w : vm) : Prop := exists p i, w = set_data p i v.

Definition is_read (i : instr) : bool := match i with I_READ_NUM _ _ | I_READ_STR _ _ => true | _ => false end.
Definition is_restore (i : instr) : bool := match i with I_RESTORE | I_RESTORE_LINE _ => true | _ => false end.

(* The items taken by the READs of an execution. *)
Fixpoint items_read (l : list vm) : list bytes :=
  match l with
  | [] => []
  | v :: r =>
      match current v with
      | Some i => if is_read i then firstn 1 (upcoming v) ++ items_read r else items_read r
      | None => items_read r
      end
  end.

(* The execution is in the program (or its functions) and does not RESTORE. *)
Definition in_program (l : list vm) : Prop :=
  Forall (fun v => cs_code (v_cs v) <> Some CImmediate /\ forall i, current v = Some i -> is_restore i = false) l.

(* the instruction reading into a variable (n = 0) or an element with n
   subscripts *)
Definition read (t : sort) (id : symid) (n : N) : instr :=
  match t with Numbers => I_READ_NUM id n | Texts => I_READ_STR id n end.
(* what an item is as a value of the sort *)
Definition item_value (t : sort) (s : bytes) : option datum :=
  match t with
  | Numbers => match convert s with Some (x, []) => Some (Number x) | _ => None end
  | Texts => Some (Text s)
  end.
