(* In compiled code every DEF is followed by its parameter and a body that is
   an expression. *)
From Coq Require Import Lia ZifyBool ZifyNat ZifyN.
From Verif Require Import Base BaseLemmas Num SourceModel BcodeModel SymbolModel SymbolSpec SymbolProofs
  LexModel LexSpec LexProofs ParseModel GrammarSpec ParseProofs StmtProofs TypeSpec CodeProofs CompileProofs VmModel KindProofs.
Local Open Scope nat_scope.

Definition inn (i : instr) : Prop := inner i = true.
Definition nd (i : instr) : Prop := not_def i.
Lemma inn_nd i : inn i -> nd i.
Proof. unfold inn, nd. destruct i; try discriminate; intros _; exact I. Qed.
Lemma exprop_inn i : exprop i = true -> inn i.
Proof. unfold inn. destruct i; try discriminate; reflexivity. Qed.
Lemma one_inn i : inn i -> Forall inn [i].
Proof. intros. constructor; [assumption | constructor]. Qed.
Lemma one_nd i : nd i -> Forall nd [i].
Proof. intros. constructor; [assumption | constructor]. Qed.
Lemma Forall_inn_nd l : Forall inn l -> Forall nd l.
Proof. apply Forall_impl. exact inn_nd. Qed.

Lemma gram_inn :
  (forall l st ts e st', gram l st ts e st' -> Forall inn (ecode e)) /\
  (forall k st ts es st', gargs k st ts es st' -> Forall inn (flat_map ecode es)) /\
  (forall k st ts name s es st', guse k st ts name s es st' -> Forall inn (flat_map ecode es)).
Proof.
  assert (BP : forall w b, find_builtin w = Some b -> bi_type b <> TErr -> inn (bi_op b)).
  { intros w b F Y. destruct (builtin_op b (find_builtin_in _ _ F) Y) as [A B]. apply exprop_inn, A. }
  assert (OP : forall o t, inn (bin_instr o t)).
  { intros o t. destruct (bin_op_ok o t) as [A B]. apply exprop_inn, A. }
  apply gram_ind3; intros; cbn [ecode flat_map app] in *; try (constructor; fail); auto;
    try (repeat (apply Forall_app; split); auto; try (constructor; [eauto | constructor]); fail).
  - apply Forall_app. split; [auto|]. destruct (Nat.odd _); [apply one_inn; reflexivity | constructor].
  - apply Forall_app. split; [auto|]. destruct (Nat.odd _); [apply one_inn; reflexivity | constructor].
  - apply one_inn. reflexivity.
  - apply one_inn. reflexivity.
  - destruct args as [|a args]; cbn [ecode].
    + destruct (s_type s); apply one_inn; reflexivity.
    + apply Forall_app. split; [auto|]. destruct (s_type s); apply one_inn; reflexivity.
  - apply Forall_app. split; [auto|]. apply Forall_app. split; [|constructor; [eauto | constructor]]. destruct (etype e); try (apply one_inn; reflexivity). constructor.
Qed.

Definition part_nd {A} (gr : symtab -> list token -> A -> symtab -> Prop) (f : A -> list instr) : Prop :=
  forall st ts x st', gr st ts x st' -> Forall nd (f x).
Ltac nd1 := apply one_nd; exact I.
Ltac nd_map := apply Forall_forall; intros ? HH; apply in_map_iff in HH; destruct HH as (? & <- & HH); exact I.
Lemma glist_nd {A} (gr : symtab -> list token -> A -> symtab -> Prop) f : part_nd gr f -> part_nd (glist gr) (flat_map f).
Proof.
  intros H st ts l st' L. induction L as [st ts x st' X | st ts x st1 us l st2 X L IH]; cbn [flat_map]; apply Forall_app;
    (split; [exact (H _ _ _ _ X)|]); [constructor | auto].
Qed.
Lemma gexp_nd t : part_nd (gexp t) ecode.
Proof. intros st ts e st' [G _]. exact (Forall_inn_nd _ (proj1 gram_inn _ _ _ _ _ G)). Qed.
Lemma gplace_nd : part_nd gplace subs_code.
Proof. intros st ts p st' (nm & s & es & U & ->). exact (Forall_inn_nd _ (proj2 (proj2 gram_inn) _ _ _ _ _ _ _ U)). Qed.
Lemma ginput_nd : part_nd gplace input_code.
Proof. intros st ts p st' G. apply Forall_app. split; [exact (gplace_nd _ _ _ _ G)|]. destruct (pl_type p); nd1. Qed.
Lemma gread_nd : part_nd gread read_code.
Proof. intros st ts p st' [G _]. apply Forall_app. split; [exact (gplace_nd _ _ _ _ G)|]. destruct (pl_type p); nd1. Qed.
Lemma gdim_nd : part_nd gdim dim_code.
Proof. intros st ts p st' [G _]. apply Forall_app. split; [exact (gplace_nd _ _ _ _ G)|]. destruct (pl_type p); nd1. Qed.
Lemma gitems_nd : part_nd gitems (flat_map item_code).
Proof.
  intros st ts l st' G. induction G; cbn [flat_map item_code app]; auto.
  - constructor; [exact I | auto].
  - apply Forall_app. split; [|auto]. apply Forall_app. split; [exact (Forall_inn_nd _ (proj1 gram_inn _ _ _ _ _ H))|]. destruct (etype e); nd1.
  - apply Forall_app. split; [|auto]. apply Forall_app. split; [exact (gexp_nd _ _ _ _ _ H0)|]. nd1.
  - apply Forall_app. split; [|auto]. apply Forall_app. split; [exact (gexp_nd _ _ _ _ _ H0)|]. nd1.
Qed.

(* the code of a statement *)
Definition stmt_def (x : stmt) : Prop :=
  match x with SDef _ _ body => Forall inn (ecode body) | _ => Forall nd (scode x) end.

Lemma gstmt_def st ts x st' : gstmt st ts x st' -> stmt_def x.
Proof.
  intros G. destruct G; cbn [stmt_def scode]; try nd1; try constructor.
  - destruct H1 as [G _]. exact (proj1 gram_inn _ _ _ _ _ G).
  - exact (glist_nd _ _ gdim_nd _ _ _ _ H).
  - apply Forall_app. split; [exact (gexp_nd _ _ _ _ _ H0)|]. apply Forall_app. split; [exact (gexp_nd _ _ _ _ _ H1)|].
    constructor; [exact I | nd1].
  - apply Forall_app. split; [exact (gexp_nd _ _ _ _ _ H0)|]. apply Forall_app. split; [exact (gexp_nd _ _ _ _ _ H1)|].
    apply Forall_app. split; [exact (gexp_nd _ _ _ _ _ H2) | nd1].
  - exact I.
  - apply Forall_app. split; [|nd1].
    assert (PP : part_nd gplace (fun q => I_INPUT_SEP :: input_code q)) by (intros st0 ts0 x0 st0' G0; constructor; [exact I | exact (ginput_nd _ _ _ _ G0)]).
    pose proof (glist_nd _ _ PP _ _ _ _ H0) as X.
    destruct l as [|p l]; [constructor|]. cbn [flat_map app] in X. inversion X; subst. assumption.
  - exact I.
  - apply Forall_app. split; [exact (gplace_nd _ _ _ _ H0) | nd1].
  - apply Forall_app. split; [exact (gplace_nd _ _ _ _ H)|]. apply Forall_app. split; [exact (gexp_nd _ _ _ _ _ H0)|].
    unfold set_instr. destruct (pl_subs p), (pl_type p); nd1.
  - apply Forall_app. split; [exact (gplace_nd _ _ _ _ H)|]. apply Forall_app. split; [exact (gexp_nd _ _ _ _ _ H0)|].
    unfold set_instr. destruct (pl_subs p), (pl_type p); nd1.
  - destruct l as [|a l]; [nd1 | nd_map].
  - apply Forall_app. split; [exact (gexp_nd _ _ _ _ _ H)|]. constructor; [exact I | nd_map].
  - apply Forall_app. split; [exact (gexp_nd _ _ _ _ _ H)|]. constructor; [exact I | nd_map].
  - apply Forall_app. split; [exact (gitems_nd _ _ _ _ H)|]. destruct (separator_last l); [constructor | nd1].
  - apply Forall_app. split; [exact (gitems_nd _ _ _ _ H)|]. destruct (separator_last l); [constructor | nd1].
  - apply Forall_app. split; [exact (gexp_nd _ _ _ _ _ H) | nd1].
  - exact (glist_nd _ _ gread_nd _ _ _ _ H).
Qed.

Lemma lstep_def kw ph L st xs ph' L' st' xs' : lstep kw ph L st xs ph' L' st' xs' -> Forall stmt_def xs -> Forall stmt_def xs'.
Proof.
  assert (Z : forall xs x, Forall stmt_def xs -> stmt_def x -> Forall stmt_def (xs ++ [x])).
  { intros. apply Forall_app. split; [assumption|]. constructor; [assumption | constructor]. }
  destruct 1; intros X; try exact X.
  - apply Z; [exact X|]. exact (gstmt_def _ _ _ _ H1).
  - apply Z; [exact X|]. cbn [stmt_def scode]. nd_map.
  - apply Z; [exact X|]. constructor.
  - apply Z; [exact X|]. apply Forall_app. split; [exact (gexp_nd _ _ _ _ _ H1) | nd1].
  - apply Z; [exact X|]. apply Forall_app. split; [exact (gexp_nd _ _ _ _ _ H1) | nd1].
  - apply Forall_app in X. destruct X as [X1 X2]. inversion X2; subst.
    apply Forall_app. split; [exact X1|]. constructor.
    + cbn [stmt_def scode] in H4 |- *. apply Forall_app in H4. apply Forall_app. split; [tauto | nd1].
    + apply Forall_app. split; [assumption|]. constructor; [nd1 | constructor].
  - apply Z; [exact X | nd1].
Qed.
Lemma lsteps_def kw ph L st xs ph' L' st' xs' : lsteps kw ph L st xs ph' L' st' xs' -> Forall stmt_def xs -> Forall stmt_def xs'.
Proof. induction 1; intros X; [exact X|]. exact (lstep_def _ _ _ _ _ _ _ _ _ H0 (IHlsteps X)). Qed.
Lemma line_def kw text st xs st' : line_is kw text st xs st' -> Forall stmt_def xs.
Proof. intros (L & ph & r & A & S & _). exact (lsteps_def _ _ _ _ _ _ _ _ _ S (Forall_nil _)). Qed.
Lemma program_def kw st src xss st' : program_is kw st src xss st' -> Forall (Forall stmt_def) xss.
Proof. induction 1; constructor; [eapply line_def; eassumption | assumption]. Qed.

Lemma def_ok_app l m : def_ok l -> def_ok m -> def_ok (l ++ m).
Proof.
  intros A B pc id n H. destruct (Nat.lt_ge_cases pc (length l)) as [X|X].
  - rewrite nth_error_app1 in H by exact X. destruct (A _ _ _ H) as (pid & body & rest & E & K).
    exists pid, body, (rest ++ m). split; [|exact K]. rewrite skipn_app, E.
    assert (S pc <= length l) by lia. replace (S pc - length l) with 0 by lia. cbn [skipn app]. rewrite <- app_assoc. reflexivity.
  - rewrite nth_error_app2 in H by exact X. destruct (B _ _ _ H) as (pid & body & rest & E & K).
    exists pid, body, rest. split; [|exact K]. rewrite skipn_app, skipn_all2 by lia. replace (S pc - length l) with (S (pc - length l)) by lia. exact E.
Qed.
Lemma def_ok_nd l : Forall nd l -> def_ok l.
Proof. intros F pc id n H. exfalso. rewrite Forall_forall in F. apply nth_error_In in H. exact (F _ H). Qed.
Lemma def_ok_stmt x : stmt_def x -> def_ok (scode x).
Proof.
  destruct x; try (intros H; apply def_ok_nd; exact H). intros H. cbn [scode stmt_def] in *.
  apply (def_code_ok _ param). exists id, 1%N, (ecode body). split; [reflexivity | exact H].
Qed.
Lemma def_ok_lcode xs : Forall stmt_def xs -> def_ok (lcode xs).
Proof. induction 1 as [|x l H _ IH]; [apply def_ok_nd; constructor|]. cbn [lcode flat_map]. apply def_ok_app; [apply def_ok_stmt, H | exact IH]. Qed.
Lemma def_ok_pcode xss : Forall (Forall stmt_def) xss -> forall k, def_ok (pcode k xss).
Proof.
  induction 1 as [|xs l H _ IH]; intros k; cbn [pcode]; [apply def_ok_nd; constructor|].
  apply (def_ok_app [I_SOURCE_LINE k]); [apply def_ok_nd; constructor; [exact I | constructor]|].
  apply def_ok_app; [apply def_ok_lcode, H | apply IH].
Qed.

Lemma compiled_def_ok kw src st bc st' : compiled kw src st bc st' -> def_ok (bc_inst bc).
Proof. intros [_ (xss & st1 & P & _ & -> & _)]. exact (def_ok_pcode _ (program_def _ _ _ _ _ P) 0). Qed.
