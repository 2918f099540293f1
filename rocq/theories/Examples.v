(* Concrete machines for the examples beside the theorems. *)
From Coq Require Import Lia ZifyBool ZifyNat ZifyN.
From Verif Require Import Base BaseLemmas Num SourceModel LineMapModel BcodeModel SymbolModel VmModel VmSpec
  ParseModel SessionModel VmTyping ValueSpec.

(* a libm and a generator that make no difference to the examples *)
Definition ex_env : env :=
  mkEnv (fun x _ => x) (fun x => x) (fun x => x) (fun x => x) (fun x => x) (fun x => x) (fun x => x)
    (fun _ _ => 0%N) (fun _ => 0%N) (fun _ => (0, 0, 0)%N).

Definition ex_opt : options := mkOpt false false false.

(* The machine about to run the first statement of a program, as RUN leaves
   it, after the lines have been entered. *)
Definition ex_start (input : bytes) (lines : list (N * bytes)) : vm :=
  let enter := fold_left (fun m l => xbind m (fun _ => vm_enter_source_line (fst l) (snd l))) lines (xret tt) in
  match xbind enter (fun _ => ensure_program_compiled) (mkSess (new_vm ex_opt input) no_files [] [] []) with
  | XOk _ s => set_cs (mkCs (Some CStored) 0 0) (reset_control_state (ss_vm s))
  | _ => new_vm ex_opt input
  end.

Fixpoint ex_steps (n : nat) (v : vm) : vm :=
  match n with O => v | S m => ex_steps m (snd (execute ex_env v)) end.

(* the state is reached by executions without error *)
Fixpoint ex_runs (n : nat) (v : vm) : bool :=
  match n with
  | O => true
  | S m => match execute ex_env v with (Ok _, v') => ex_runs m v' | _ => false end
  end.
Lemma ex_runs_ok n v : ex_runs n v = true -> exists l, runs ex_env v l (ex_steps n v).
Proof.
  revert v; induction n as [|n IH]; intros v H; cbn [ex_runs ex_steps] in *.
  - exists []. constructor.
  - destruct (execute ex_env v) as [[[]|e| |] v'] eqn:E; try discriminate H. destruct (IH v' H) as (l & R).
    exists (v :: l). econstructor; eassumption.
Qed.

(* the states in which the instructions were executed *)
Fixpoint ex_states (n : nat) (v : vm) : list vm :=
  match n with O => [] | S m => v :: ex_states m (snd (execute ex_env v)) end.
Lemma ex_runs_states n v : ex_runs n v = true -> runs ex_env v (ex_states n v) (ex_steps n v).
Proof.
  revert v; induction n as [|n IH]; intros v H; cbn [ex_runs ex_steps ex_states] in *; [constructor|].
  destruct (execute ex_env v) as [[[]|e| |] v'] eqn:E; try discriminate H. cbn [snd]. econstructor; [exact E|apply IH, H].
Qed.
(* no instruction of the execution is one of the given kind *)
Definition ex_without (f : instr -> bool) (l : list vm) : bool :=
  forallb (fun v => match current v with Some i => negb (f i) | None => true end) l.
Lemma ex_without_ok f l : ex_without f l = true -> Forall (fun v => forall i, current v = Some i -> f i = false) l.
Proof.
  unfold ex_without. rewrite forallb_forall. intros H. apply Forall_forall. intros v V i C. specialize (H v V). rewrite C in H.
  apply Bool.negb_true_iff, H.
Qed.

(* ---------- deciding typed ---------- *)

Definition sg_kindb (g : list sig) (id : symid) (k : skind) (t : vtype) : bool :=
  match nth_error g (N.to_nat id) with
  | Some (_, _, k', t') => skind_eqb k' k && vtype_eqb t' t
  | None => false
  end.
Lemma sg_kindb_ok g id k t : sg_kindb g id k t = true -> sg_kind g id k t.
Proof.
  unfold sg_kindb, sg_kind. destruct (nth_error g (N.to_nat id)) as [[[[nm i] k'] t']|]; [|discriminate].
  intros H. apply andb_prop in H as [A B]. exists nm, i.
  destruct k', k; try discriminate A; destruct t', t; try discriminate B; reflexivity.
Qed.

Definition subs_ok (n : N) : bool := ((1 <=? n) && (n <=? 2))%N.
Definition var_okb g id n t : bool :=
  ((n =? 0)%N && sg_kindb g id KVariable t) || (subs_ok n && sg_kindb g id KArray t).
Definition instr_okb (g : list sig) (i : instr) : bool :=
  match i with
  | I_GET_SIMPLE_NUM id | I_SET_SIMPLE_NUM id | I_FOR id | I_NEXT_VAR id | I_PARAM id => sg_kindb g id KVariable TNum
  | I_GET_SIMPLE_STR id | I_SET_SIMPLE_STR id => sg_kindb g id KVariable TStr
  | I_DIM_NUM id n | I_SET_ARRAY_NUM id n => subs_ok n && sg_kindb g id KArray TNum
  | I_DIM_STR id n | I_SET_ARRAY_STR id n => subs_ok n && sg_kindb g id KArray TStr
  | I_GET_PAREN_NUM id n => (subs_ok n && sg_kindb g id KArray TNum) || sg_kindb g id KDef TNum
  | I_GET_PAREN_STR id n => (subs_ok n && sg_kindb g id KArray TStr) || sg_kindb g id KDef TStr
  | I_DEF id n => sg_kindb g id KDef TNum || sg_kindb g id KDef TStr
  | I_INPUT_NUM id n | I_READ_NUM id n => var_okb g id n TNum
  | I_INPUT_STR id n | I_READ_STR id n | I_INPUT_LINE id n => var_okb g id n TStr
  | _ => true
  end.
Lemma subs_ok_iff n : subs_ok n = true -> (1 <= n <= 2)%N.
Proof. unfold subs_ok. lia. Qed.
Lemma instr_okb_ok g i : instr_okb g i = true -> instr_ok g i.
Proof.
  destruct i; cbn [instr_okb instr_ok]; unfold var_okb, var_ok; intros H; try exact I;
    repeat match goal with
    | H : _ || _ = true |- _ => apply Bool.orb_prop in H as [H|H]
    | H : _ && _ = true |- _ => apply andb_prop in H as [? H]
    | H : sg_kindb _ _ _ _ = true |- _ => apply sg_kindb_ok in H
    | H : subs_ok _ = true |- _ => apply subs_ok_iff in H
    | H : (_ =? _)%N = true |- _ => apply N.eqb_eq in H
    end; eauto.
Qed.

Fixpoint defs_okb (l : list instr) : bool :=
  match l with
  | [] => true
  | I_DEF _ _ :: r => match r with I_PARAM _ :: _ => defs_okb r | _ => false end
  | _ :: r => defs_okb r
  end.
Definition code_okb (g : list sig) (l : list instr) : bool := forallb (instr_okb g) l && defs_okb l.
Lemma code_okb_ok g l : code_okb g l = true -> code_ok g l.
Proof.
  unfold code_okb. intros H. apply andb_prop in H as [A B]. split.
  - apply Forall_forall. rewrite forallb_forall in A. intros i I. apply instr_okb_ok, A, I.
  - clear A. induction l as [|i l IH]; intros [|pc] id n E; try discriminate E.
    + injection E as ->. cbn in B. destruct l as [|[] l]; try discriminate B. cbn. eauto.
    + cbn [nth_error] in *. apply (IH) with (id := id) (n := n); [|exact E].
      destruct i; try exact B. destruct l as [|[] l]; try discriminate B; exact B.
Qed.

Definition fitsb (g : list sig) (s : symbol) : bool :=
  match s_kind s, s_type s with
  | KVariable, TNum => match s_val s with VZero | VNum _ => true | _ => false end
  | KVariable, TStr => match s_val s with VZero => true | VStr _ => s_defined s | _ => false end
  | KArray, TNum => match s_val s with VZero => negb (s_defined s) | VNumArr _ => s_defined s | _ => false end
  | KArray, TStr => match s_val s with VZero => negb (s_defined s) | VStrArr _ => s_defined s | _ => false end
  | KDef, _ => match s_val s with
               | VZero => negb (s_defined s)
               | VDef d => s_defined s && code_okb g (bc_inst (def_bcode d)) &&
                           match nth_error (bc_inst (def_bcode d)) 1 with Some (I_PARAM _) => true | _ => false end
               | _ => false
               end
  | KBuiltin, _ => match s_val s with VBuiltin _ _ => s_defined s | _ => false end
  | _, _ => match s_val s with VZero => negb (s_defined s) | _ => false end
  end.
Lemma fitsb_ok g s : fitsb g s = true -> fits g s.
Proof.
  unfold fitsb, fits. destruct (s_kind s), (s_type s), (s_val s); intros H; try exact I; try discriminate H; try exact H;
    try (apply Bool.negb_true_iff in H); try exact H; try (split; [reflexivity|exact H]).
  all: apply andb_prop in H as [H P]; apply andb_prop in H as [H C]; split; [exact H|]; split; [apply code_okb_ok, C|];
    destruct (nth_error _ 1) as [[]|]; try discriminate P; eauto.
Qed.

Definition typedb (v : vm) : bool :=
  let g := sigs (v_st v) in
  forallb (fitsb g) (st_syms (v_st v)) &&
  forallb (fun f => sg_kindb g (f_sym f) KVariable TNum) (v_for v) &&
  match cs_code (fn_cs (v_fn v)) with None => true | Some _ => sg_kindb g (fn_param (v_fn v)) KVariable TNum end &&
  forallb (fun r => match c_bcode (code_of v r) with Some bc => code_okb g (bc_inst bc) | None => true end)
    [CStored; CImmediate; CDef].
Lemma typedb_ok v : typedb v = true -> typed (sigs (v_st v)) v.
Proof.
  unfold typedb. intros H. apply andb_prop in H as [H D]. apply andb_prop in H as [H C]. apply andb_prop in H as [A B].
  rewrite forallb_forall in A, B, D. constructor.
  - reflexivity.
  - apply Forall_forall. intros s S. apply fitsb_ok, A, S.
  - apply Forall_forall. intros f F. apply sg_kindb_ok, B, F.
  - destruct (cs_code _); [|congruence]. intros _. apply sg_kindb_ok, C.
  - intros r bc E. apply code_okb_ok. specialize (D r). rewrite E in D. apply D. destruct r; cbn; auto.
Qed.

(* ---------- deciding values_ok ---------- *)

Definition string_okb (s : bytes) : bool := Nat.leb (length s) 255.
Lemma string_okb_ok s : string_okb s = true -> string_ok s.
Proof. apply Nat.leb_le. Qed.
Definition opt_okb (s : option bytes) : bool := match s with Some x => string_okb x | None => true end.
Lemma opt_okb_ok s : opt_okb s = true -> opt_ok s.
Proof. destruct s; [apply string_okb_ok|intros; exact I]. Qed.
Definition doubleb (x : num) : bool := SpecFloat.valid_binary 53 1024 x.
Definition const_okb (i : instr) : bool :=
  match i with
  | I_PUSH_NUM x => doubleb x
  | I_PUSH_STR s | I_DATA s => string_okb s
  | _ => true
  end.
Definition consts_okb (bc : bcode) : bool := forallb const_okb (bc_inst bc).
Lemma forallb_Forall {A} (f : A -> bool) (P : A -> Prop) l : (forall x, f x = true -> P x) -> forallb f l = true -> Forall P l.
Proof. intros H F. apply Forall_forall. rewrite forallb_forall in F. intros x X. apply H, F, X. Qed.
Lemma consts_okb_ok bc : consts_okb bc = true -> consts_ok bc.
Proof.
  apply forallb_Forall. intros i. destruct i; cbn; intros H; try exact I; try exact H; apply string_okb_ok, H.
Qed.
Definition value_okb (x : sval) : bool :=
  match x with
  | VNum n => doubleb n
  | VStr s => string_okb s
  | VNumArr a => forallb doubleb (ArrayModel.ar_val a)
  | VStrArr a => forallb opt_okb (ArrayModel.ar_val a)
  | VDef d => consts_okb (def_bcode d)
  | _ => true
  end.
Lemma value_okb_ok x : value_okb x = true -> value_ok x.
Proof.
  destruct x; cbn; intros H; try exact I; try exact H.
  - apply string_okb_ok, H.
  - revert H. apply forallb_Forall. auto.
  - revert H. apply forallb_Forall. exact opt_okb_ok.
  - apply consts_okb_ok, H.
Qed.
Definition values_okb (v : vm) : bool :=
  forallb (fun s => value_okb (s_val s)) (st_syms (v_st v)) &&
  forallb doubleb (v_stack v) && forallb string_okb (v_sstack v) &&
  forallb (fun f => doubleb (f_step f) && doubleb (f_limit f)) (v_for v) &&
  doubleb (fn_val (v_fn v)) &&
  forallb (fun r => match c_bcode (code_of v r) with Some bc => consts_okb bc | None => true end)
    [CStored; CImmediate; CDef] &&
  string_okb (v_input v).
Lemma values_okb_ok v : values_okb v = true -> values_ok v.
Proof.
  unfold values_okb. intros H. apply andb_prop in H as [H H0]. apply andb_prop in H as [H H1]. apply andb_prop in H as [H H2].
  apply andb_prop in H as [H H3]. apply andb_prop in H as [H H4]. apply andb_prop in H as [H H5]. constructor.
  - revert H. apply forallb_Forall. intros s. apply value_okb_ok.
  - revert H5. apply forallb_Forall. auto.
  - revert H4. apply forallb_Forall. exact string_okb_ok.
  - revert H3. apply forallb_Forall. intros f F. apply andb_prop in F. exact F.
  - assumption.
  - intros r bc E. apply consts_okb_ok. rewrite forallb_forall in H1. specialize (H1 r). rewrite E in H1.
    apply H1. destruct r; cbn; auto.
  - apply string_okb_ok. assumption.
Qed.
Lemma ex_env_ok : env_ok ex_env.
Proof. constructor; cbn; auto. intros _. lia. Qed.
