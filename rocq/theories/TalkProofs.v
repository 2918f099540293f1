(* The prompt takes the lines of its input one by one (C39). *)
From Coq Require Import Lia ZifyBool ZifyNat ZifyN.
From Verif Require Import Base BaseLemmas Num SourceModel LineMapModel BcodeModel SymbolModel ParseModel VmModel VmLemmas VmSpec ControlProofs ValueSpec ValueProofs
  SessionModel MonitorModel SessionSpec MonSpec MonProofs TalkSpec TypedProofs SystemModel.
Local Open Scope nat_scope.
Local Open Scope sess_scope.
Local Opaque init_builtins new_symbol_table parse_source.

(* ---------- what is left of the input ends the input ---------- *)

Definition tail_of (X b : bytes) : Prop := exists p, X = p ++ b.
Definition left_of (X : bytes) (v : vm) : Prop := tail_of X (v_in v).
Lemma tail_refl X : tail_of X X.
Proof. exists []. reflexivity. Qed.
Lemma tail_app X p b : tail_of X (p ++ b) -> tail_of X b.
Proof. intros (q & ->). exists (q ++ p). rewrite app_assoc. reflexivity. Qed.
Lemma tail_newline X b : tail_of X b -> tail_of X (after_newline b).
Proof.
  induction b as [|c b IH]; intros H; [exact H|]. cbn [after_newline]. pose proof (tail_app X [c] b H) as H'. destruct (ceq c NL); [exact H'|exact (IH H')].
Qed.
Lemma tail_fgets X n b l r : tail_of X b -> fgets_loop n b = (l, r) -> tail_of X r.
Proof. intros H F. destruct (fgets_loop_cases _ _ _ _ F) as (-> & _). exact (tail_app X l r H). Qed.
Lemma tail_length X b : tail_of X b -> length b <= length X.
Proof. intros (p & ->). rewrite app_length. lia. Qed.

Lemma left_keeps {A} X (m : M A) : keeps v_in m -> inv (left_of X) m.
Proof. intros K v H. unfold left_of in *. rewrite (K v). exact H. Qed.
Lemma left_exec X E i : inv (left_of X) (exec_instr E i).
Proof.
  destruct i; try solve [apply left_keeps; cbn [exec_instr]; repeat keeps_more].
  cbn [exec_instr]. apply inv_bind; [apply left_keeps; repeat keeps_more|]. intros _. unfold adv. apply inv_bind; [|intros _; intros v H; exact H].
  intros v H. unfold modify. cbn [snd]. unfold fgets, left_of in *. destruct (v_in v) as [|c r]; [exact H|].
  destruct (fgets_loop (128 - 1) (c :: r)) as [buf rest] eqn:F. exact (tail_fgets _ _ _ _ _ H F).
Qed.
Lemma left_execute X E : inv (left_of X) (execute E).
Proof.
  intros v H. destruct (current v) as [i|] eqn:C; [|rewrite (execute_none E v C); exact H].
  rewrite (execute_eq E v i C). pose proof (left_exec X E i v H) as Q. destruct (exec_instr E i v) as [[[|]|e| |] w]; exact Q.
Qed.
Lemma left_run X E fuel brk : inv (left_of X) (run E fuel brk).
Proof. apply run_inv; [apply left_execute| | |]; intros; assumption. Qed.

Definition xleft {A} X (m : SessionModel.X A) : Prop :=
  forall s, left_of X (ss_vm s) -> match m s with XOk _ t | XExit t | XCrash t | XNoFuel t => left_of X (ss_vm t) end.
Lemma xl_ret {A} X (a : A) : xleft X (xret a).
Proof. intros s H. exact H. Qed.
Lemma xl_bind {A B} X (m : SessionModel.X A) (k : A -> SessionModel.X B) : xleft X m -> (forall a, xleft X (k a)) -> xleft X (xbind m k).
Proof. intros HM HK s H. unfold xbind. pose proof (HM s H) as Q. destruct (m s) as [a t|t|t|t]; try exact Q. exact (HK a t Q). Qed.
Lemma xl_get X : xleft X get_vm.
Proof. intros s H. exact H. Qed.
Lemma xl_mod X f : (forall v, v_in (f v) = v_in v) -> xleft X (mod_vm f).
Proof. intros F s H. unfold mod_vm. cbn [ss_vm set_vm]. unfold left_of in *. rewrite F. exact H. Qed.
Lemma xl_await X : xleft X await_newline.
Proof. intros s H. unfold await_newline, mod_vm. cbn [ss_vm set_vm]. exact (tail_newline X _ H). Qed.
Lemma xl_say X d : xleft X (say d).
Proof. intros s H. exact H. Qed.
Lemma xl_exit {A} X : xleft X (@xexit A).
Proof. intros s H. exact H. Qed.
Lemma xl_crash {A} X : xleft X (@xcrash A).
Proof. intros s H. exact H. Qed.
Lemma xl_fuel {A} X : xleft X (fun s => @XNoFuel A s).
Proof. intros s H. exact H. Qed.
Lemma xl_out X b : xleft X (out b).
Proof. apply xl_mod. reflexivity. Qed.
Lemma xl_run {A} X (m : option nat -> M A) d : (forall b, inv (left_of X) (m b)) -> xleft X (with_run m d).
Proof.
  intros HM s H. unfold with_run. pose proof (HM (match ss_brk s with b :: _ => b | [] => None end) (ss_vm s) H) as Q.
  destruct (m _ (ss_vm s)) as [[a|e| |] v]; exact Q.
Qed.
Lemma xl_compile X src kw : xleft X (compile src kw).
Proof. intros s H. unfold compile. destruct (parse_source _ _ _) as [bc [e|] st| | |]; exact H. Qed.
Ltac xl_step := first
  [ apply xl_ret | apply xl_get | apply xl_say | apply xl_exit | apply xl_crash | apply xl_fuel | apply xl_out | apply xl_compile | apply xl_await
  | apply xl_mod; intros ?; repeat match goal with |- context [match ?x with _ => _ end] => destruct x end; reflexivity
  | apply xl_bind; [|intros ?]
  | match goal with |- xleft _ (match ?x with _ => _ end) => destruct x end ].
Lemma xl_ensure X : xleft X ensure_program_compiled.
Proof. unfold ensure_program_compiled, vm_clear_names. repeat xl_step. Qed.
Lemma xl_list X src : forall a b p c, xleft X (list_loop src a b p c).
Proof. induction src as [|l r IH]; intros a b p c; cbn [list_loop]; repeat first [apply IH|xl_step]. Qed.
Lemma xl_command X E fuel c r : xleft X (command E fuel c r).
Proof.
  destruct c; unfold command, vm_compile, continue_program, vm_new_program, vm_clear_names, vm_clear_values, list_program, renumber, run_program, check_eol; repeat first [apply xl_ensure|apply xl_list|xl_step].
  - apply xl_run. intros b. unfold vm_continue. apply inv_bind; [intros v H; exact H|]. intros v0. destruct (cs_code (v_stopcs v0)) as [r0|]; [|intros v H; exact H].
    destruct (c_bcode _) as [bc|]; [|intros v H; exact H]. cbv zeta. apply inv_bind; [destruct (nth_error _ _); intros v H; exact H|]. intros i.
    apply inv_bind; [intros v H; exact H|]. intros _. apply inv_bind; [apply left_run|]. intros _ v H. exact H.
  - intros s H. unfold vm_load_source. destruct (ss_fs s _); [|exact H]. destruct (load_source _); exact H.
  - apply xl_run. intros brk. apply left_run.
  - intros s H. unfold vm_save_source. destruct (stored_source _); exact H.
Qed.
Lemma xl_interpret X E fuel line : xleft X (interpret E fuel line).
Proof.
  unfold interpret, program_line, oscli, immediate, vm_delete_source_line, vm_enter_source_line, run_immediate.
  repeat first [apply xl_command|apply xl_ensure|xl_step|intros s H; exact H].
  all: apply xl_run; intros brk; apply left_run.
Qed.

(* ---------- reading a line ---------- *)

Lemma cstr_no_nul b : no_nul b -> cstr b = b.
Proof.
  induction 1 as [|c b C _ IH]; [reflexivity|]. cbn [cstr]. destruct (ceq c NUL) eqn:Q; [apply ceq_eq in Q; congruence|]. rewrite IH. reflexivity.
Qed.
Lemma line_in l : Forall line_char l <-> ~ In NL l.
Proof.
  rewrite Forall_forall. unfold line_char. split; [intros H I; exact (H NL I eq_refl)|intros H c I ->; exact (H I)].
Qed.
Lemma after_line l r : Forall line_char l -> after_newline (l ++ NL :: r) = r.
Proof.
  induction 1 as [|c l C _ IH]; [reflexivity|]. cbn [app after_newline]. destruct (ceq c NL) eqn:Q; [apply ceq_eq in Q; congruence|exact IH].
Qed.
Lemma after_last l : Forall line_char l -> after_newline l = [].
Proof.
  induction 1 as [|c l C _ IH]; [reflexivity|]. cbn [after_newline]. destruct (ceq c NL) eqn:Q; [apply ceq_eq in Q; congruence|exact IH].
Qed.
Lemma line_cases b : (Forall line_char b) \/ (exists l r, b = l ++ NL :: r /\ Forall line_char l).
Proof.
  induction b as [|c b IH]; [left; constructor|]. destruct (ceq c NL) eqn:Q.
  - apply ceq_eq in Q. subst c. right. exists [], b. split; [reflexivity|constructor].
  - apply ceq_neq in Q. destruct IH as [H|(l & r & -> & H)]; [left; constructor; assumption|]. right. exists (c :: l), r. split; [reflexivity|constructor; assumption].
Qed.
Lemma line_split l r l' r' : l ++ NL :: r = l' ++ NL :: r' -> Forall line_char l -> Forall line_char l' -> l = l' /\ r = r'.
Proof.
  intros E H. revert l' E. induction H as [|c l C _ IH]; intros l' E H'.
  - destruct l' as [|c' l']; [injection E as <-; auto|]. inversion H'; subst. injection E as <- _. exfalso. apply H1. reflexivity.
  - destruct l' as [|c' l']; [injection E as -> _; exfalso; apply C; reflexivity|]. inversion H'; subst. injection E as <- E. destruct (IH _ E H2) as (-> & ->). auto.
Qed.

Lemma fgets_some b : b <> [] -> fgets 128 b = Some (fgets_loop 127 b).
Proof. destruct b; [congruence|reflexivity]. Qed.

Lemma fgets_line l r : Forall line_char l -> length l <= LONGEST -> fgets 128 (l ++ NL :: r) = Some (l ++ [NL], r).
Proof.
  intros H L. rewrite fgets_some by (destruct l; discriminate). rewrite fgets_loop_short; [reflexivity|apply line_in, H|unfold LONGEST in L; lia].
Qed.
Lemma fgets_loop_fill n : forall l r, Forall line_char l -> n <= length l -> fgets_loop n (l ++ r) = (firstn n l, skipn n l ++ r).
Proof.
  induction n as [|n IH]; intros l r H L; [reflexivity|]. destruct l as [|c l]; [cbn in L; lia|]. inversion H; subst. cbn [app fgets_loop firstn skipn].
  destruct (ceq c NL) eqn:Q; [apply ceq_eq in Q; exfalso; apply H2; exact Q|]. rewrite IH; [reflexivity|assumption|cbn in L; lia].
Qed.
Lemma fgets_loop_all n : forall l, Forall line_char l -> length l <= n -> fgets_loop n l = (l, []).
Proof.
  induction n as [|n IH]; intros l H L; [destruct l; [reflexivity|cbn in L; lia]|]. destruct l as [|c l]; [reflexivity|]. inversion H; subst. cbn [fgets_loop].
  destruct (ceq c NL) eqn:Q; [apply ceq_eq in Q; exfalso; apply H2; exact Q|]. rewrite IH; [reflexivity|assumption|cbn in L; lia].
Qed.
Lemma forall_skipn {A} (P : A -> Prop) n l : Forall P l -> Forall P (skipn n l).
Proof. intros H. rewrite <- (firstn_skipn n l) in H. apply Forall_app in H. apply H. Qed.
Lemma forall_firstn {A} (P : A -> Prop) n l : Forall P l -> Forall P (firstn n l).
Proof. intros H. rewrite <- (firstn_skipn n l) in H. apply Forall_app in H. apply H. Qed.

(* what a call of fgets leaves when the line is too long *)
Lemma fgets_long l r : Forall line_char l -> LONGEST < length l -> exists b t, fgets 128 (l ++ NL :: r) = Some (b, t) /\ tail_of (l ++ NL :: r) t /\
  Forall line_char b /\ b <> [] /\ after_newline t = r.
Proof.
  intros H L. unfold LONGEST in L. exists (firstn 127 l), (skipn 127 l ++ NL :: r). rewrite fgets_some by (destruct l; discriminate). rewrite fgets_loop_fill by (assumption || lia).
  split; [reflexivity|]. split; [exists (firstn 127 l); rewrite app_assoc, firstn_skipn; reflexivity|]. split; [apply forall_firstn, H|].
  split; [destruct l; [cbn in L; lia|discriminate]|]. apply after_line, forall_skipn, H.
Qed.
Lemma fgets_last l : Forall line_char l -> l <> [] -> exists b t, fgets 128 l = Some (b, t) /\ Forall line_char b /\ b <> [] /\ after_newline t = [].
Proof.
  intros H NE. rewrite fgets_some by exact NE. destruct (Nat.le_gt_cases (length l) 127) as [L|L].
  - rewrite fgets_loop_all by assumption. exists l, []. auto.
  - exists (firstn 127 l), (skipn 127 l). pose proof (fgets_loop_fill 127 l [] H ltac:(lia)) as Q. rewrite !app_nil_r in Q. rewrite Q. split; [reflexivity|].
    split; [apply forall_firstn, H|]. split; [destruct l; [congruence|discriminate]|]. apply after_last, forall_skipn, H.
Qed.

Lemma ask_eq s k : get_line (S k) s =
  match fgets 128 (input s) with
  | None => XOk None (prints (lit "> ") s)
  | Some (buf, rest) =>
      match last_opt (cstr buf) with
      | None => get_line k (prompted rest s)
      | Some c => if ceq c NL then XOk (Some (firstn (length (cstr buf) - 1) (cstr buf))) (prompted rest s)
                  else get_line k (refused (prompted (after_newline rest) s))
      end
  end.
Proof.
  cbn [get_line]. unfold xbind at 1, out at 1, mod_vm at 1. unfold xbind at 1, get_vm at 1. unfold input.
  change (v_in (ss_vm (set_vm (set_out (v_out (ss_vm s) ++ map OB (lit "> ")) (ss_vm s)) s))) with (v_in (ss_vm s)).
  destruct (fgets 128 (v_in (ss_vm s))) as [[buf rest]|]; [|reflexivity]. cbv zeta.
  destruct (last_opt (cstr buf)) as [c|]; [destruct (ceq c NL)|]; reflexivity.
Qed.
Lemma ask_line s k l r : input s = l ++ NL :: r -> Forall line_char l -> length l <= LONGEST -> no_nul l ->
  get_line (S k) s = XOk (Some l) (prompted r s).
Proof.
  intros I H L N. rewrite ask_eq, I, (fgets_line l r H L). rewrite cstr_no_nul by (apply Forall_app; split; [exact N|constructor; [discriminate|constructor]]).
  rewrite last_opt_app. change (ceq NL NL) with true. cbv iota. rewrite app_length. cbn [length]. rewrite Nat.add_sub, firstn_app, Nat.sub_diag, firstn_all. cbn [firstn]. rewrite app_nil_r. reflexivity.
Qed.
Lemma last_line b : Forall line_char b -> b <> [] -> exists c, last_opt b = Some c /\ ceq c NL = false.
Proof.
  intros H NE. destruct (last_opt b) as [c|] eqn:Q; [|apply last_opt_None in Q; congruence]. exists c. split; [reflexivity|].
  apply last_opt_Some in Q. destruct Q as (p & ->). apply Forall_app in H. destruct H as [_ H]. inversion H; subst. apply ceq_neq. assumption.
Qed.
Lemma fgets_no_nul b buf t : no_nul b -> fgets 128 b = Some (buf, t) -> no_nul buf.
Proof.
  intros N F. destruct b as [|c b]; [discriminate F|]. rewrite fgets_some in F by discriminate. destruct (fgets_loop 127 (c :: b)) as [l r] eqn:G. injection F as <- <-. destruct (fgets_loop_cases _ _ _ _ G) as (E & _). rewrite E in N. apply Forall_app in N. apply N.
Qed.
Lemma ask_long s k l r : input s = l ++ NL :: r -> Forall line_char l -> LONGEST < length l -> no_nul (input s) ->
  get_line (S k) s = get_line k (refused (prompted r s)).
Proof.
  intros I H L N. destruct (fgets_long l r H L) as (b & t & F & _ & B & NE & A). rewrite ask_eq. pose proof (fgets_no_nul (input s) b t N) as NB. rewrite I in *. specialize (NB F). rewrite F.
  rewrite cstr_no_nul by exact NB. destruct (last_line b B NE) as (c & -> & ->). rewrite A. reflexivity.
Qed.
Lemma ask_last s k : input s <> [] -> Forall line_char (input s) -> no_nul (input s) -> get_line (S k) s = get_line k (refused (prompted [] s)).
Proof.
  intros NE H N. destruct (fgets_last (input s) H NE) as (b & t & F & B & NB & A). rewrite ask_eq, F. rewrite cstr_no_nul by exact (fgets_no_nul _ _ _ N F).
  destruct (last_line b B NB) as (c & -> & ->). rewrite A. reflexivity.
Qed.

(* ---------- the loop ---------- *)

(* Rounds in which nothing is interpreted. *)
Definition told (E : env) (fuel n : nat) (r : xres (option bytes)) : xres unit :=
  match r with
  | XOk None t => XOk tt t
  | XOk (Some line) t =>
      match interpret E fuel line t with
      | XOk true x => XOk tt x
      | XOk false x => interact_loop E fuel n x
      | XExit x => XExit x
      | XCrash x => XCrash x
      | XNoFuel x => XNoFuel x
      end
  | XExit t => XExit t
  | XCrash t => XCrash t
  | XNoFuel t => XNoFuel t
  end.
Lemma loop_told E fuel n s : interact_loop E fuel (S n) s = told E fuel n (get_line (S (length (input s))) s).
Proof. apply interact_loop_eq. Qed.

Lemma talk_loop E fuel : forall n k s, length (input s) < k -> length (input s) < n -> length (input s) <= pred n -> no_nul (input s) ->
  talk E fuel s (told E fuel (pred n) (get_line k s)).
Proof.
  induction n as [n IHn] using lt_wf_ind. induction k as [|k IHk]; intros s LK LN LP N; [lia|].
  destruct (input s) as [|c0 r0] eqn:I.
  { rewrite ask_eq, I. cbn [fgets told]. apply Tk_end. exact I. }
  rewrite <- I in *. assert (NE : input s <> []) by (rewrite I; discriminate). clear I.
  destruct (line_cases (input s)) as [H|(l & r & I & H)].
  { rewrite (ask_last s k NE H N). apply Tk_last; [exact NE|exact H|]. apply IHk; change (input (refused (prompted [] s))) with (@nil ascii); [|cbn [length]; lia..|constructor].
    destruct (input s) as [|c r]; [congruence|]. cbn [length] in *. lia. }
  assert (LR : length (input s) = length l + S (length r)) by (rewrite I, app_length; reflexivity).
  assert (NR : no_nul l /\ no_nul r). { rewrite I in N. apply Forall_app in N. destruct N as [N1 N2]. inversion N2; subst. auto. }
  destruct (Nat.le_gt_cases (length l) LONGEST) as [L|L].
  - rewrite (ask_line s k l r I H L (proj1 NR)). cbn [told]. destruct (means_exists l) as (m & M). rewrite (interpret_means E fuel l m _ M).
    pose proof (xl_interpret r E fuel l (prompted r s)) as XL. rewrite (interpret_means E fuel l m _ M) in XL. specialize (XL (tail_refl r)).
    destruct (act E fuel m (prompted r s)) as [[|] t|t|t|t] eqn:A.
    + exact (Tk_leave E fuel s l r m t I H L M A).
    + apply (Tk_line E fuel s l r m t _ I H L M A). pose proof (tail_length _ _ XL) as LT.
      assert (NT : no_nul (input t)). { destruct XL as (p & XL). destruct NR as [_ NR]. rewrite XL in NR. apply Forall_app in NR. apply NR. }
      unfold input in *. destruct n as [|[|n]]; [lia|lia|]. cbn [pred]. rewrite loop_told. apply (IHn (S n)); unfold input; cbn [pred]; (lia || exact NT).
    + exact (Tk_exit E fuel s l r m t I H L M A).
    + exact (Tk_crash E fuel s l r m t I H L M A).
    + exact (Tk_fuel E fuel s l r m t I H L M A).
  - rewrite (ask_long s k l r I H L N). apply (Tk_long E fuel s l r _ I H L). apply IHk; change (input (refused (prompted r s))) with r; (lia || apply NR).
Qed.

Lemma loop_talk E fuel n s : length (input s) < n -> no_nul (input s) -> talk E fuel s (interact_loop E fuel n s).
Proof.
  intros L N. destruct n as [|n]; [lia|]. rewrite loop_told. apply (talk_loop E fuel (S n)); cbn [pred]; (lia || exact N).
Qed.

Lemma means_unique l m m' : means l m -> means l m' -> m = m'.
Proof. intros H H'. apply means_classify in H. apply means_classify in H'. congruence. Qed.

Lemma talk_unique E fuel s x : talk E fuel s x -> forall y, talk E fuel s y -> x = y.
Proof.
  assert (NL1 : forall (s : sess) l r, input s = l ++ NL :: r -> Forall line_char (input s) -> False).
  { intros s0 l r I H. rewrite I in H. apply Forall_app in H. destruct H as [_ H]. inversion H; subst. apply H2. reflexivity. }
  induction 1; intros y Y; inversion Y; subst; try reflexivity; try solve [exfalso; eauto];
  repeat match goal with
  | H : input ?s = [], H' : input ?s = ?l ++ _ |- _ => rewrite H in H'; destruct l; discriminate H'
  | H : input ?s = [], H' : input ?s <> [] |- _ => contradiction
  | H : input ?s = _ ++ _, H' : input ?s = _ ++ _ |- _ =>
      rewrite H in H'; apply line_split in H'; [|assumption|assumption]; destruct H' as [<- <-]
  | H : means ?l _, H' : means ?l _ |- _ => pose proof (means_unique _ _ _ H H') as <-; clear H'
  | H : act ?E ?f ?m ?s = _, H' : act ?E ?f ?m ?s = _ |- _ => rewrite H in H'; first [discriminate H' | injection H' as <-]
  end; try reflexivity; try lia; eauto.
Qed.

Lemma session_talk E fuel s x : no_nul (input s) -> (talk E fuel s x <-> interact_loop E fuel (S (length (input s))) s = x).
Proof.
  intros N. pose proof (loop_talk E fuel (S (length (input s))) s ltac:(lia) N) as T. split; [intros X; exact (talk_unique E fuel s _ T _ X)|intros <-; exact T].
Qed.

(* ---------- C40 ---------- *)

Lemma interact_talk E fuel o quiet stdin fs brk x : no_nul stdin ->
  (interact E fuel o quiet stdin fs brk = x <->
   talk E fuel (if quiet then new_session o stdin fs brk else prints (puts (puts (lit "Type HELP to list commands"))) (new_session o stdin fs brk)) x).
Proof.
  intros N. unfold interact. destruct quiet.
  - rewrite session_talk by exact N. reflexivity.
  - rewrite session_talk by exact N. reflexivity.
Qed.
Lemma main_talk E fuel argv stdin fs brk o : no_nul stdin ->
  parse_options init_options argv = OpOk o -> op_version o = false -> op_file o = None -> op_mode o = NO_MODE ->
  exists x, main E fuel argv stdin fs brk = MnSession x /\
    talk E fuel (if op_quiet o then session_of E o stdin fs brk else prints (puts (puts (lit "Type HELP to list commands"))) (session_of E o stdin fs brk)) x.
Proof.
  intros N P V F M. unfold main. rewrite P, V, F, M. eexists. split; [reflexivity|].
  assert (I : input (session_of E o stdin fs brk) = stdin) by (unfold input, session_of, seed_of; cbn [ss_vm]; destruct (op_srand o); reflexivity).
  destruct (op_quiet o).
  - apply session_talk; [rewrite I; exact N|]. rewrite I. reflexivity.
  - assert (I' : input (prints (puts (puts (lit "Type HELP to list commands"))) (session_of E o stdin fs brk)) = stdin) by exact I.
    apply session_talk; rewrite I'; [exact N|reflexivity].
Qed.

Lemma demarcate_quoted name : quotable name -> demarcate_string (SP :: quoted name) = Some (name, []).
Proof.
  intros H. unfold demarcate_string. change (skip_space (SP :: quoted name)) with (quoted name). unfold quoted. change (ceq """" DQ) with true. cbv iota.
  assert (S : span (fun d => negb (ceq d NL || ceq d DQ)) (name ++ [""""%char]) = (name, [""""%char])).
  { induction H as [|c name [C1 C2] _ IH]; [reflexivity|]. cbn [app span]. apply ceq_neq in C1. apply ceq_neq in C2. change DQ with """"%char in *. rewrite C1, C2. cbn [orb negb]. rewrite IH. reflexivity. }
  rewrite S. reflexivity.
Qed.
Lemma interpret_load E fuel name s : quotable name ->
  interpret E fuel (lit "LOAD " ++ quoted name) s = (vm_load_source name ;;; xret false) s.
Proof.
  intros Q. change (interpret E fuel (lit "LOAD " ++ quoted name) s) with (command E fuel C_LOAD (SP :: quoted name) s).
  cbn [command]. rewrite (demarcate_quoted name Q). unfold check_eol. change (at_eol (skip_space [])) with true. cbv iota.
  unfold xbind, xret. destruct (vm_load_source name s); reflexivity.
Qed.
Lemma fresh_values : clear_symbol_table_values (init_builtins new_symbol_table) = init_builtins new_symbol_table.
Proof. vm_compute. reflexivity. Qed.
Lemma interpret_run E fuel t : v_st (ss_vm t) = init_builtins new_symbol_table ->
  interpret E fuel (lit "RUN") t = (run_program E fuel ;;; xret false) t.
Proof.
  intros F. change (interpret E fuel (lit "RUN") t) with (command E fuel C_RUN [] t). cbn [command]. unfold xbind at 1, vm_clear_values, mod_vm.
  rewrite F, fresh_values, <- F. assert (V : set_vm (set_st (v_st (ss_vm t)) (ss_vm t)) t = t) by (destruct t as [v a b c d]; destruct v; reflexivity). rewrite V. reflexivity.
Qed.
Lemma session_of_st E o stdin fs brk : v_st (ss_vm (session_of E o stdin fs brk)) = init_builtins new_symbol_table.
Proof. unfold session_of, seed_of. cbn [ss_vm]. destruct (op_srand o); reflexivity. Qed.

Lemma file_run E fuel o file stdin fs brk content : op_mode o = NO_MODE \/ op_mode o = RUN_MODE -> fs file = Some content -> quotable file ->
  process_file E fuel o file stdin fs brk = MnRun (load_and_run E fuel file (session_of E o stdin fs brk)).
Proof.
  intros M F Q. unfold process_file.
  assert (G : (let* ok := vm_load_source file in if ok then run_program E fuel else xret tt)%sess (session_of E o stdin fs brk) = load_and_run E fuel file (session_of E o stdin fs brk)).
  { unfold load_and_run. rewrite interpret_load by exact Q. pose proof (session_of_st E o stdin fs brk) as ST.
    assert (FS : ss_fs (session_of E o stdin fs brk) file = Some content) by exact F.
    set (s := session_of E o stdin fs brk) in *. clearbody s.
    assert (L : vm_load_source file s = match load_source content with SOk src => XOk true (set_vm (stored_program_changed (set_source src (ss_vm s))) s) | SExit _ => XExit s | SNoFuel => XNoFuel s end)
      by (unfold vm_load_source; rewrite FS; destruct (load_source content); reflexivity).
    unfold xbind at 1. unfold xbind at 1. rewrite L. destruct (load_source content) as [src|n|]; [|reflexivity..].
    unfold xret at 1. cbv beta iota. rewrite interpret_run by exact ST. unfold xbind at 1. destruct (run_program E fuel _) as [[] u|u|u|u]; reflexivity. }
  destruct M as [-> | ->]; rewrite G; reflexivity.
Qed.
Lemma file_missing E fuel o file stdin fs brk : op_mode o = NO_MODE \/ op_mode o = RUN_MODE -> fs file = None ->
  process_file E fuel o file stdin fs brk =
    MnRun (XOk tt (mkSess (ss_vm (session_of E o stdin fs brk)) fs [DCannotOpen file] brk [])).
Proof.
  intros M F. unfold process_file.
  assert (G : (let* ok := vm_load_source file in if ok then run_program E fuel else xret tt)%sess (session_of E o stdin fs brk) =
    XOk tt (mkSess (ss_vm (session_of E o stdin fs brk)) fs [DCannotOpen file] brk [])).
  { unfold xbind at 1. unfold vm_load_source. change (ss_fs (session_of E o stdin fs brk) file) with (fs file). rewrite F. reflexivity. }
  destruct M as [-> | ->]; rewrite G; reflexivity.
Qed.
Lemma main_file E fuel argv stdin fs brk o file : parse_options init_options argv = OpOk o -> op_version o = false -> op_file o = Some file ->
  main E fuel argv stdin fs brk = process_file E fuel o file stdin fs brk.
Proof. intros P V F. unfold main. rewrite P, V, F. reflexivity. Qed.
