(* Expressions and statements that use their names correctly. *)
From Verif Require Import Base NumSpec BcodeModel SymbolModel LexModel GrammarSpec VmTyping.

Definition bin_ok (o : binop) (a b : vtype) : Prop :=
  match o with
  | OAdd | ORel _ => a = b /\ a <> TErr
  | _ => a = TNum /\ b = TNum
  end.

Section Wt.
Variable g : list sig.
Fixpoint wt (e : expr) : Prop :=
  let all := fix all (l : list expr) : Prop := match l with [] => True | a :: r => wt a /\ all r end in
  match e with
  | ENum x => double x
  | EStr w => length w <= 127
  | EVar id t => t <> TErr /\ sg_kind g id KVariable t
  | EElem id t l => t <> TErr /\ l <> [] /\ (sg_kind g id KArray t \/ sg_kind g id KDef t) /\ Forall (fun a => etype a = TNum) l /\ all l
  | EFun b l => In b builtins /\ bi_type b <> TErr /\
      (Forall2 arg_ok (bi_args b) l \/ (l = [] /\ exists r, bi_args b = ArgDummy :: r)) /\ all l
  | EDrop b a => In b builtins /\ bi_type b <> TErr /\ (exists r, bi_args b = ArgDummy :: r) /\ wt a
  | ENegs _ a | ENots _ a => etype a = TNum /\ wt a
  | EBin o a b => bin_ok o (etype a) (etype b) /\ wt a /\ wt b
  | EBad a b => wt a /\ wt b
  end.
End Wt.

Section Stmt.
Variable g : list sig.
Definition wnum (e : expr) : Prop := wt g e /\ etype e = TNum.
Definition wplace (p : place) : Prop :=
  Forall (wt g) (pl_subs p) /\ Forall (fun a => etype a = TNum) (pl_subs p) /\
  (pl_kind p = KBuiltin \/
   pl_type p <> TErr /\ ((pl_subs p = [] /\ pl_kind p = KVariable /\ sg_kind g (pl_id p) KVariable (pl_type p)) \/
                         (pl_subs p <> [] /\ pl_kind p <> KBuiltin /\ sg_kind g (pl_id p) KArray (pl_type p)))).
Definition nvar (id : symid) : Prop := sg_kind g id KVariable TNum.
Definition short (w : bytes) : Prop := length w <= 127.
Definition witem (i : pitem) : Prop :=
  match i with PExpr e => wt g e /\ etype e <> TErr | PSpc e | PTab e => wnum e | PComma | PSemi => True end.
Definition oall {A} (P : A -> Prop) (o : option A) : Prop := match o with Some a => P a | None => True end.
Definition wstmt (x : stmt) : Prop :=
  match x with
  | SData l => Forall short l
  | SDef id param e => etype e <> TErr /\ sg_kind g id KDef (etype e) /\ nvar param /\ wt g e
  | SDim l => Forall (fun p => wplace p /\ pl_kind p = KArray) l
  | SFor id a b c => nvar id /\ wnum a /\ wnum b /\ oall wnum c
  | SIf e _ | SIfGo e _ => wnum e
  | SInput prompt l => oall short prompt /\ Forall wplace l
  | SLineInput prompt p => oall short prompt /\ wplace p /\ pl_type p = TStr
  | SLet p e => wplace p /\ wt g e /\ etype e = pl_type p
  | SNext l => Forall nvar l
  | SOn e _ _ => wnum e
  | SPrint l => Forall witem l
  | SRandomize e => oall wnum e
  | SRead l => Forall (fun p => wplace p /\ pl_type p <> TErr) l
  | _ => True
  end.
End Stmt.
