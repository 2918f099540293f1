(* What is true of the machine whenever a line is awaited. *)
From Coq Require Import Lia ZifyBool ZifyNat ZifyN.
From Verif Require Import Base BaseLemmas Num SourceModel SourceSpec SourceProofs LineMapModel BcodeModel SymbolModel SymbolSpec SymbolProofs
  LexModel ParseModel GrammarSpec ParseProofs StmtProofs CompileProofs LineSpec LineProofs VmModel VmLemmas VmSpec ControlProofs VmTyping KindProofs
  DefProofs SessionModel MonitorModel MonSpec MonProofs SessionSpec PlaceProofs.
Local Open Scope nat_scope.
Local Open Scope sess_scope.
Local Opaque init_builtins new_symbol_table parse_source.

(* ---------- tables ---------- *)

Lemma wfits_unset s : s_val s = VZero -> s_defined s = false -> s_kind s <> KBuiltin -> wfits s.
Proof. intros V D K. unfold wfits. rewrite V, D. destruct (s_kind s), (s_type s); auto; destruct (K eq_refl). Qed.
Lemma name_step_wfits st st' : name_step st st' -> Forall wfits (st_syms st) -> Forall wfits (st_syms st').
Proof.
  intros [st0 name paren k C B | st0 p s k E U K] F.
  - unfold use_name. destruct (sym_lookup st0 name paren); [exact F|]. cbn [fst sym_insert st_syms]. apply Forall_app. split; [exact F|].
    constructor; [|constructor]. apply wfits_unset; [reflexivity|reflexivity|exact B].
  - cbn [sym_update st_syms]. apply Forall_list_upd; [exact F|]. pose proof (Forall_nth _ _ _ _ F E) as X. unfold wfits in X. rewrite U in X.
    assert (Y : s_val s = VZero /\ s_defined s = false) by (destruct (s_type s); exact X). destruct Y.
    apply wfits_unset; try assumption. cbn. destruct K as [-> | ->]; discriminate.
Qed.
Lemma names_wfits st st' : names st st' -> Forall wfits (st_syms st) -> Forall wfits (st_syms st').
Proof. induction 1; intros F; [exact F|]. eapply name_step_wfits; [eassumption|auto]. Qed.
Lemma unknown_wfits st : Forall wfits (st_syms st) -> Forall wfits (st_syms (sym_make_unknown_array st)).
Proof.
  intros F. cbn [sym_make_unknown_array st_syms]. apply Forall_map. eapply Forall_impl; [|exact F]. cbn beta. intros s X.
  destruct (skind_eqb (s_kind s) KUnknown) eqn:K; [|exact X]. apply skind_eq in K. unfold wfits in X. rewrite K in X.
  assert (Y : s_val s = VZero /\ s_defined s = false) by (destruct (s_type s); exact X). destruct Y. apply wfits_unset; try assumption. discriminate.
Qed.
Local Transparent init_builtins new_symbol_table.
Lemma init_wfits : Forall wfits (st_syms (init_builtins new_symbol_table)).
Proof. vm_compute. repeat constructor. Qed.
Local Opaque init_builtins new_symbol_table.

(* the table after compiling *)
Lemma parsed_table src st kw bc e st' : fine st -> parse_source src st kw = PoOk bc e st' ->
  fine st' /\ changes st st' /\ (Forall wfits (st_syms st) -> Forall wfits (st_syms st')).
Proof.
  intros F P. pose proof (parse_source_ok src st kw F) as H. rewrite P in H.
  assert (X : exists st1, names st st1 /\ st' = sym_make_unknown_array st1).
  { destruct bc as [bc|]; [destruct H as (_ & xss & st1 & _ & N & -> & _) | destruct H as (_ & st1 & N & ->)]; eauto. }
  destruct X as (st1 & N & ->). split; [apply fine_unknown; exact (names_fine _ _ N F)|]. split.
  - eapply Chs_step; [exact (names_changes _ _ N)|apply Ch_unknown].
  - intros W. apply unknown_wfits, (names_wfits _ _ N), W.
Qed.
Lemma parsed_ok src st kw bc e st' : fine st -> parse_source src st kw = PoOk (Some bc) e st' ->
  e = None /\ def_ok (bc_inst bc) /\ exists idx, bcode_index bc src = Some idx.
Proof.
  intros F P. pose proof (compile_outcome src st kw F) as H. rewrite P in H. destruct H as (E & C). split; [exact E|].
  split; [exact (compiled_def_ok _ _ _ _ _ C)|]. destruct C as [_ (xss & st1 & Q & _ & I & _)]. exact (index_exists _ _ _ _ _ _ Q I).
Qed.

Lemma changes_sg st st' id : changes st st' -> sg_kind (sigs st) id KVariable TNum -> sg_kind (sigs st') id KVariable TNum.
Proof.
  intros C (nm & i & E). unfold sigs in E. rewrite nth_error_map in E. destruct (nth_error (st_syms st) (N.to_nat id)) as [s|] eqn:Q; [|discriminate E].
  cbn [option_map] in E. unfold sig_of in E. injection E as E1 E2 E3 E4. destruct (changes_evolves _ _ C _ _ Q) as (s' & Q' & (A1 & A2 & A3 & A4 & _)).
  exists nm, i. unfold sigs. rewrite nth_error_map, Q'. cbn [option_map]. unfold sig_of. destruct A4 as [A4|A4]; [congruence|]. rewrite A1, A2, A3, A4, E1, E2, E3, E4. reflexivity.
Qed.
Lemma sigs_named st st' : sigs st' = sigs st -> well_named st -> well_named st'.
Proof.
  intros E W p s H. assert (X : nth_error (sigs st') p = Some (sig_of s)) by (unfold sigs; rewrite nth_error_map, H; reflexivity).
  rewrite E in X. unfold sigs in X. rewrite nth_error_map in X. destruct (nth_error (st_syms st) p) as [s0|] eqn:Q; [|discriminate X].
  cbn [option_map] in X. unfold sig_of in X. injection X as X1 X2 X3 X4. rewrite <- X1, <- X3, <- X4. exact (W p s0 Q).
Qed.
Lemma table_changes st st' : table st -> changes st st' -> table st'.
Proof. apply changes_trans. Qed.

(* ---------- the machine ---------- *)

Definition live (v : vm) : Prop := fine (v_st v) /\ kinded (v_st v) v.

Lemma kinded_self st0 v : kinded st0 v -> kinded (v_st v) v.
Proof.
  intros [C S W F N K]. constructor; try assumption; rewrite ?S; try assumption; [apply Chs_refl | reflexivity].
Qed.
Lemma kinded_grow v st' : kinded (v_st v) v -> changes (v_st v) st' -> Forall wfits (st_syms st') -> kinded st' (set_st st' v).
Proof.
  intros [C S W F N K] X W'. constructor; cbn [v_st set_st]; [apply Chs_refl | reflexivity | exact W' | | | exact K].
  - cbn. eapply Forall_impl; [|exact F]. cbn beta. intros f. apply changes_sg, X.
  - intros H. apply (changes_sg _ _ _ X). apply N, H.
Qed.
Lemma kinded_idle v st' : Forall wfits (st_syms st') -> v_for v = [] -> cs_code (fn_cs (v_fn v)) = None ->
  (forall r bc, c_bcode (code_of v r) = Some bc -> def_ok (bc_inst bc)) -> v_st v = st' -> kinded st' v.
Proof.
  intros W F N K S. constructor; rewrite ?S, ?F; [apply Chs_refl | reflexivity | exact W | constructor | intros X; destruct (X N) | exact K].
Qed.

(* everything pending is in the stored program *)
Definition refs (v : vm) : Prop :=
  Forall (fun c => cs_code c = Some CStored) (v_ret v) /\ Forall (fun f => cs_code (f_cs f) = Some CStored) (v_for v) /\
  (cs_code (fn_cs (v_fn v)) = None \/ cs_code (fn_cs (v_fn v)) = Some CStored) /\
  (cs_code (v_stopcs v) = None \/ cs_code (v_stopcs v) = Some CStored).
Definition idle (v : vm) : Prop :=
  v_ret v = [] /\ v_for v = [] /\ cs_code (fn_cs (v_fn v)) = None /\ cs_code (v_stopcs v) = None.
Lemma idle_refs v : idle v -> refs v.
Proof. intros (A & B & C & D). unfold refs. rewrite A, B. split; [constructor|]. split; [constructor|]. auto. Qed.
Lemma idle_pending allowed v : idle v -> pending_in allowed v.
Proof. intros (A & B & C & D). constructor; rewrite ?A, ?B; [constructor | constructor | intros X; destruct (X C) | auto]. Qed.
Lemma pending_refs v : pending_in (eq CStored) v -> refs v.
Proof.
  intros [R F N S]. split; [|split; [|split]].
  - eapply Forall_impl; [|exact R]. intros c (r & C & <- & _). exact C.
  - eapply Forall_impl; [|exact F]. intros c (r & C & <- & _). exact C.
  - destruct (cs_code (fn_cs (v_fn v))) as [r|] eqn:E; [right|left; reflexivity]. destruct (N ltac:(discriminate)) as (q & C & <- & _). congruence.
  - exact S.
Qed.

Section Prompt.
Variables (o : options) (fr ic : Prop).

(* the stored program has been compiled from src *)
Definition made_from (src : source) (bc : bcode) (v : vm) : Prop :=
  exists st0, parse_source src (init_builtins new_symbol_table) (o_anywhere o) = PoOk (Some bc) None st0 /\
    c_index (v_stored v) = bcode_index bc src /\ changes st0 (v_st v).
Lemma made_from_same src bc v w : c_index (v_stored w) = c_index (v_stored v) -> v_st w = v_st v -> made_from src bc v -> made_from src bc w.
Proof. intros S T (st0 & A & B & C). exists st0. rewrite S, T. auto. Qed.
Definition stored_state (v : vm) : Prop :=
  match c_source (v_stored v), c_bcode (v_stored v) with
  | Some src, None => c_index (v_stored v) = None
  | None, _ => v_stored v = no_code /\ live v /\ pending_in (eq CStored) v
  | Some src, Some bc => (exists src0, made_from src0 bc v /\ (fr -> src0 = src)) /\ live v /\ pending_in (eq CStored) v
  end.
Record prompt (v : vm) : Prop := {
  pr_opt : v_opt v = o;
  pr_refs : refs v;
  pr_codes : forall r bc, c_bcode (code_of v r) = Some bc -> def_ok (bc_inst bc);
  pr_inc : ic -> forall src, c_source (v_stored v) = Some src -> increasing src;
  pr_stored : stored_state v
}.

(* only the screen and the input differ *)
Definition seen_alike (v w : vm) : Prop :=
  v_opt w = v_opt v /\ v_stored w = v_stored v /\ v_imm w = v_imm v /\ v_def w = v_def v /\ v_st w = v_st v /\ v_ret w = v_ret v /\
  v_for w = v_for v /\ v_fn w = v_fn v /\ v_stopcs w = v_stopcs v.
Lemma pending_seen allowed v w : seen_alike v w -> pending_in allowed v -> pending_in allowed w.
Proof.
  intros (A & B & C & D & E & F & G & H & I) [P1 P2 P3 P4].
  assert (X : forall h c, place_in v allowed h c -> place_in w allowed h c).
  { intros h c (r & Q1 & Q2 & Q3). exists r. split; [exact Q1|]. split; [exact Q2|].
    assert (Y : code_at w r = code_at v r) by (unfold code_at; destruct r; cbn [code_of]; rewrite ?B, ?C, ?D; reflexivity). rewrite Y. exact Q3. }
  constructor; rewrite ?F, ?G, ?H, ?I.
  - eapply Forall_impl; [|exact P1]. intros c. apply X.
  - eapply Forall_impl; [|exact P2]. intros c. apply X.
  - intros Y. apply X, P3, Y.
  - exact P4.
Qed.
Lemma kinded_seen st0 v w : seen_alike v w -> kinded st0 v -> kinded st0 w.
Proof.
  intros (A & B & C & D & E & F & G & H & I) [P1 P2 P3 P4 P5 P6]. constructor; rewrite ?E, ?G, ?H; try assumption.
  intros r bc X. apply (P6 r bc). destruct r; cbn [code_of] in *; congruence.
Qed.
Lemma prompt_seen v w : seen_alike v w -> prompt v -> prompt w.
Proof.
  intros S [P1 P2 P3 P4 P5]. pose proof S as (A & B & C & D & E & F & G & H & I). constructor.
  - congruence.
  - unfold refs in *. rewrite F, G, H, I. exact P2.
  - intros r bc X. apply (P3 r bc). destruct r; cbn [code_of] in *; congruence.
  - rewrite B. exact P4.
  - unfold stored_state in *. rewrite B. destruct (c_source (v_stored v)) as [src|].
    + destruct (c_bcode (v_stored v)) as [bc|]; [|exact P5]. destruct P5 as ((src0 & (st0 & M1 & M2 & M3) & M4) & [L1 L2] & P5).
      split; [|split].
      * exists src0. split; [|exact M4]. exists st0. rewrite B, E. auto.
      * split; [rewrite E; exact L1|]. rewrite E. apply (kinded_seen _ v w S L2).
      * exact (pending_seen _ _ _ S P5).
    + destruct P5 as (M & [L1 L2] & J). split; [exact M|]. split.
      * split; [rewrite E; exact L1|]. rewrite E. apply (kinded_seen _ v w S L2).
      * exact (pending_seen _ _ _ S J).
Qed.

(* sessions in which it is so stay so *)
Definition good (s : sess) : Prop := prompt (ss_vm s).
Definition xsafe {A} (m : X A) : Prop := forall s, good s -> match m s with XOk _ s' => good s' | _ => True end.
Lemma xsafe_ret {A} (a : A) : xsafe (xret a).
Proof. intros s H. exact H. Qed.
Lemma xsafe_bind {A B} (m : X A) (k : A -> X B) : xsafe m -> (forall a, xsafe (k a)) -> xsafe (xbind m k).
Proof. intros H K s G. unfold xbind. specialize (H s G). destruct (m s) as [a s'| | |]; try exact I. exact (K a s' H). Qed.
Lemma xsafe_say d : xsafe (say d).
Proof. intros s H. exact H. Qed.
Lemma xsafe_get {B} (k : vm -> X B) : (forall v, xsafe (k v)) -> xsafe (xbind get_vm k).
Proof. intros H s G. exact (H (ss_vm s) s G). Qed.
Lemma xsafe_seen (f : vm -> vm) : (forall v, seen_alike v (f v)) -> xsafe (mod_vm f).
Proof. intros H s G. exact (prompt_seen _ _ (H _) G). Qed.
Lemma xsafe_out b : xsafe (out b).
Proof. apply xsafe_seen. intros v. unfold seen_alike. repeat (split; [reflexivity|]). reflexivity. Qed.
Lemma xsafe_exit {A} : xsafe (@xexit A).
Proof. intros s H. exact I. Qed.

(* ---------- editing ---------- *)

Lemma stale_prompt v src : prompt v -> (ic -> increasing src) -> prompt (stored_program_changed (set_source src v)).
Proof.
  intros [P1 P2 P3 P4 P5] H. constructor; try assumption.
  - intros [| |] bc X; cbn in X; [discriminate X | exact (P3 CImmediate bc X) | exact (P3 CDef bc X)].
  - intros F s E. cbn in E. injection E as <-. exact (H F).
  - reflexivity.
Qed.
Lemma increasing_lists src : increasing src -> exists m, lists src m.
Proof.
  intros I. exists (fun n => option_map ln_text (find (fun l => N.eqb (ln_num l) n) src)). split; [exact I|].
  induction src as [|l src IH]; intros n t; [split; [intros []|discriminate]|].
  apply increasing_cons in I. destruct I as [I B]. specialize (IH I n t). destruct l as [ln lt]. cbn [ln_num] in *. cbn [find ln_num].
  destruct (N.eqb_spec ln n) as [->|NE].
  - cbn [option_map ln_text]. split.
    + intros [E|E]; [injection E as ->; reflexivity|]. exfalso. exact (below_none _ _ _ B E).
    + intros E. injection E as ->. left. reflexivity.
  - rewrite <- IH. split; [intros [E|E]; [congruence|exact E] | intros E; right; exact E].
Qed.

Lemma xsafe_delete n : xsafe (vm_delete_source_line n).
Proof.
  intros s G. unfold vm_delete_source_line, mod_vm. unfold good in *. cbn [ss_vm set_vm]. destruct (stored_source (ss_vm s)) as [src|] eqn:E; [|exact G].
  destruct (find_source_linenum src n) as [i|] eqn:F; [|exact G]. apply stale_prompt; [exact G|]. intros H.
  destruct (increasing_lists src (pr_inc _ G H _ E)) as (m & L). destruct (delete_lists src m n L) as (src' & A & B & _).
  unfold apply_edit in A. rewrite F in A. injection A as <-. exact B.
Qed.
Lemma xsafe_enter n t : xsafe (vm_enter_source_line n t).
Proof.
  intros s G. unfold vm_enter_source_line. unfold xbind, get_vm. cbv zeta.
  destruct (enter_source_line _ n t) as [src'|e|] eqn:E; [|exact I|exact I]. unfold mod_vm, good in *. cbn [ss_vm set_vm]. apply stale_prompt; [exact G|]. intros H.
  assert (INC : increasing (match stored_source (ss_vm s) with Some x => x | None => [] end)).
  { unfold stored_source. destruct (c_source (v_stored (ss_vm s))) as [src|] eqn:Q; [exact (pr_inc _ G H _ Q)|apply increasing_nil]. }
  destruct (increasing_lists _ INC) as (m & L). destruct (enter_lists _ m n t L) as [(_ & _ & A)|(_ & s2 & A & B & _)]; rewrite E in A; [discriminate A|].
  injection A as <-. exact B.
Qed.
Lemma xsafe_load name : xsafe (vm_load_source name).
Proof.
  intros s G. unfold vm_load_source. destruct (ss_fs s name) as [content|]; [|exact G].
  destruct (load_source content) as [src|e|] eqn:L; [|exact I|exact I]. unfold xbind, mod_vm, xret, good in *. cbn [ss_vm set_vm]. apply stale_prompt; [exact G|]. intros _.
  apply load_source_iff in L. destruct L as (ls & A & B & C & D). exact C.
Qed.

(* ---------- names ---------- *)

Lemma no_pending v : v_stored v = no_code -> pending_in (eq CStored) v -> v_ret v = [] /\ v_for v = [] /\ cs_code (fn_cs (v_fn v)) = None.
Proof.
  intros S [R F N P].
  assert (X : forall h c, (forall pc, ~ h [] pc) -> ~ place_in v (eq CStored) h c).
  { intros h c H (r & _ & <- & Q). unfold code_at in Q. cbn [code_of] in Q. rewrite S in Q. exact (H _ Q). }
  split; [|split].
  - destruct (v_ret v) as [|c l]; [reflexivity|]. inversion R; subst. exfalso. eapply X; [|eassumption].
    intros pc (q & [((n & H) & _) | (k & H & _)]); destruct q; discriminate H.
  - destruct (v_for v) as [|c l]; [reflexivity|]. inversion F; subst. exfalso. eapply X; [|eassumption].
    intros pc H. destruct pc; discriminate H.
  - destruct (cs_code (fn_cs (v_fn v))) eqn:Q; [|reflexivity]. exfalso. eapply X; [|apply N; rewrite ?Q; discriminate].
    intros pc (id & n & [H|H]); destruct pc; discriminate H.
Qed.
Lemma pending_st allowed st v : pending_in allowed v -> pending_in allowed (set_st st v).
Proof. intros [R F N P]. constructor; assumption. Qed.
Lemma kinded_codes st0 v : kinded st0 v -> forall r bc, c_bcode (code_of v r) = Some bc -> def_ok (bc_inst bc).
Proof. intros K. apply K. Qed.

(* a table in the place of the one the machine has *)
Lemma prompt_table st' v : prompt v -> (live v -> fine st' /\ changes (v_st v) st' /\ kinded st' (set_st st' v)) -> prompt (set_st st' v).
Proof.
  intros [P1 P2 P3 P4 P5] H. constructor; try assumption.
  unfold stored_state in *. cbn [set_st v_stored]. destruct (c_source (v_stored v)) as [src|].
  - destruct (c_bcode (v_stored v)) as [bc|]; [|exact P5]. destruct P5 as ((src0 & (st0 & M1 & M2 & M3) & M4) & L & P5).
    destruct (H L) as (F & C & K). split; [|split].
    + exists src0. split; [|exact M4]. exists st0. split; [exact M1|]. split; [exact M2|]. cbn [set_st v_st]. exact (changes_trans _ _ _ M3 C).
    + split; [exact F|exact K].
    + apply pending_st, P5.
  - destruct P5 as (M & L & J). destruct (H L) as (F & C & K). split; [exact M|]. split; [split; [exact F|exact K]|]. apply pending_st, J.
Qed.
Lemma xsafe_clear_values : xsafe vm_clear_values.
Proof.
  intros s G. unfold vm_clear_values, mod_vm, good in *. cbn [ss_vm set_vm]. apply prompt_table; [exact G|]. intros [[T W] K].
  pose proof (kn_clear _ _ K) as C. unfold after, modify in C. cbn [fst snd] in C. split; [split|split].
  - eapply Chs_step; [exact T|apply Ch_clear].
  - apply (sigs_named (v_st (ss_vm s))); [|exact W]. apply (kn_sigs _ _ C).
  - apply (kn_changes _ _ C).
  - exact (kinded_self _ _ C).
Qed.
Lemma xsafe_new : xsafe (vm_new_program ;;; vm_clear_names).
Proof.
  intros s G. unfold vm_new_program, vm_clear_names, xbind, mod_vm, good in *. cbn [ss_vm set_vm]. unfold clear_symbol_table_names.
  unfold stored_source. destruct (c_source (v_stored (ss_vm s))) as [src|] eqn:Q.
  - assert (P : prompt (stored_program_changed (set_source clear_source (ss_vm s)))) by (apply stale_prompt; [exact G|intros _; apply increasing_nil]).
    destruct P as [P1 P2 P3 P4 P5]. constructor; try assumption.
  - destruct G as [P1 P2 P3 P4 P5]. unfold stored_state in P5. rewrite Q in P5. destruct P5 as (E & L & J).
    constructor; try assumption.
    + intros [| |] bc X; cbn in X; [discriminate X | exact (P3 CImmediate bc X) | exact (P3 CDef bc X)].
    + unfold stored_state. match goal with |- match c_source (v_stored ?x) with _ => _ end => assert (E' : v_stored x = no_code) by (cbn; rewrite E; reflexivity) end.
      rewrite E'. cbn [no_code c_source]. split; [reflexivity|].
      destruct (no_pending _ E J) as (R & F & N). split.
      * split; [exact fine_init|]. apply kinded_idle; [exact init_wfits | exact F | exact N | | reflexivity].
        intros [| |] bc X; cbn in X; [discriminate X | exact (P3 CImmediate bc X) | exact (P3 CDef bc X)].
      * constructor; cbn; rewrite ?R, ?F; [constructor|constructor|intros X; destruct (X N)|exact (pd_stop _ _ J)].
Qed.

(* ---------- compiling ---------- *)

Definition ready (v : vm) : Prop := c_source (v_stored v) = None \/ c_bcode (v_stored v) <> None.
Lemma ready_live v : prompt v -> ready v -> live v /\ pending_in (eq CStored) v.
Proof.
  intros [_ _ _ _ P] R. unfold stored_state in P. destruct (c_source (v_stored v)) as [src|] eqn:S.
  - destruct (c_bcode (v_stored v)) as [bc|] eqn:B; [destruct P as (_ & L & J); auto|]. destruct R as [R|R]; congruence.
  - destruct P as (_ & L & J). auto.
Qed.

(* the machine when the program has just been compiled *)
Definition fresh_code (src : source) (bc : bcode) (idx : linemap) (st : symtab) (v : vm) : vm :=
  reset_control_state (set_stored (mkCode (Some src) (Some bc) (Some idx)) (set_st st v)).
Lemma ensure_ready s : ready (ss_vm s) -> ensure_program_compiled s = XOk true s.
Proof.
  intros [R|R]; unfold ensure_program_compiled; unfold xbind at 1, get_vm at 1; [rewrite R; reflexivity|].
  destruct (c_source (v_stored (ss_vm s))); [|reflexivity]. destruct (c_bcode (v_stored (ss_vm s))); [reflexivity|congruence].
Qed.
Lemma ensure_stale s src : v_stored (ss_vm s) = mkCode (Some src) None None ->
  ensure_program_compiled s =
  match parse_source src (init_builtins new_symbol_table) (o_anywhere (v_opt (ss_vm s))) with
  | PoOk bc e st =>
      let s1 := match e with
                | Some x => mkSess (set_st st (ss_vm s)) (ss_fs s) (ss_diag s ++ [DParse x]) (ss_brk s) (ss_os s)
                | None => set_vm (set_st st (ss_vm s)) s
                end in
      match bc with
      | None => XOk false s1
      | Some b =>
          match bcode_index b src with
          | Some idx => XOk true (set_vm (fresh_code src b idx st (ss_vm s)) s1)
          | None => XExit s1
          end
      end
  | PoExit => XExit (set_vm (set_st (init_builtins new_symbol_table) (ss_vm s)) s)
  | PoCrash => XCrash (set_vm (set_st (init_builtins new_symbol_table) (ss_vm s)) s)
  | PoNoFuel => XNoFuel (set_vm (set_st (init_builtins new_symbol_table) (ss_vm s)) s)
  end.
Proof.
  intros S. unfold ensure_program_compiled. unfold xbind at 1, get_vm at 1. rewrite S. cbn [c_source c_bcode c_index].
  unfold xbind at 1, xret at 1. unfold xbind at 1, vm_clear_names, mod_vm at 1.
  unfold xbind at 1, compile at 1. unfold clear_symbol_table_names. cbn [ss_vm set_vm v_st set_st].
  destruct (parse_source src (init_builtins new_symbol_table) (o_anywhere (v_opt (ss_vm s)))) as [[bc|] e st | | |]; try reflexivity.
  - destruct e as [x|]; cbv beta iota zeta; unfold say, xbind, xret; cbv beta iota; (destruct (bcode_index bc src); reflexivity).
  - destruct e as [x|]; reflexivity.
Qed.
Lemma ensure_cases s : good s ->
  (ready (ss_vm s) /\ ensure_program_compiled s = XOk true s) \/
  (exists src, v_stored (ss_vm s) = mkCode (Some src) None None /\
    match parse_source src (init_builtins new_symbol_table) (o_anywhere o) with
    | PoOk (Some bc) e st => e = None /\ exists idx, bcode_index bc src = Some idx /\
        ensure_program_compiled s = XOk true (set_vm (fresh_code src bc idx st (ss_vm s)) s)
    | PoOk None e st => exists x, e = Some x /\
        ensure_program_compiled s = XOk false (mkSess (set_st st (ss_vm s)) (ss_fs s) (ss_diag s ++ [DParse x]) (ss_brk s) (ss_os s))
    | PoExit => exists s', ensure_program_compiled s = XExit s' /\ quiet s s'
    | PoCrash => exists s', ensure_program_compiled s = XCrash s' /\ quiet s s'
    | PoNoFuel => False
    end).
Proof.
  intros [P1 P2 P3 P4 P5]. unfold stored_state in P5.
  destruct (v_stored (ss_vm s)) as [so bo io] eqn:S. cbn [c_source c_bcode c_index] in P5.
  destruct so as [src|]; [|assert (R : ready (ss_vm s)) by (left; rewrite S; reflexivity); left; split; [exact R|apply ensure_ready, R]].
  destruct bo as [bc|]; [assert (R : ready (ss_vm s)) by (right; rewrite S; discriminate); left; split; [exact R|apply ensure_ready, R]|].
  right. subst io. exists src. split; [reflexivity|]. pose proof (ensure_stale s src S) as ES. rewrite P1 in ES. rewrite ES.
  pose proof (compile_outcome src _ (o_anywhere o) fine_init) as C. clear ES.
  destruct (parse_source src (init_builtins new_symbol_table) (o_anywhere o)) as [[bc|] e st | | |] eqn:PS.
  - destruct (parsed_ok _ _ _ _ _ _ fine_init PS) as (-> & _ & idx & I). split; [reflexivity|]. exists idx. split; [exact I|].
    cbv beta iota zeta. rewrite I. reflexivity.
  - destruct C as [C _]. destruct e as [x|]; [|congruence]. exists x. split; reflexivity.
  - eexists. split; [reflexivity|]. do 5 (split; [reflexivity|]). reflexivity.
  - eexists. split; [reflexivity|]. do 5 (split; [reflexivity|]). reflexivity.
  - exact C.
Qed.
Lemma idle_reset v : idle (reset_control_state v).
Proof. unfold idle. cbn. repeat (split; [reflexivity|]). reflexivity. Qed.
Lemma fresh_prompt src bc idx st v : prompt v -> c_source (v_stored v) = Some src ->
  parse_source src (init_builtins new_symbol_table) (o_anywhere o) = PoOk (Some bc) None st -> bcode_index bc src = Some idx ->
  prompt (fresh_code src bc idx st v).
Proof.
  intros [P1 P2 P3 P4 P5] S PS I. destruct (parsed_ok _ _ _ _ _ _ fine_init PS) as (_ & D & _).
  destruct (parsed_table _ _ _ _ _ _ fine_init PS) as (F & C & W).
  assert (K : forall r b, c_bcode (code_of (fresh_code src bc idx st v) r) = Some b -> def_ok (bc_inst b)).
  { intros [| |] b X; cbn in X; [injection X as <-; exact D | exact (P3 CImmediate b X) | exact (P3 CDef b X)]. }
  constructor.
  - exact P1.
  - apply idle_refs, idle_reset.
  - exact K.
  - intros H src' X. cbn in X. injection X as <-. exact (P4 H _ S).
  - unfold stored_state. cbn [fresh_code reset_control_state v_stored set_input set_data set_for set_col set_ret set_sstack set_stack set_stopcs set_fn set_cs set_stored c_source c_bcode].
    split; [|split].
    + exists src. split; [|reflexivity]. exists st. split; [exact PS|]. split; [|apply Chs_refl]. symmetry. exact I.
    + split; [exact F|]. apply kinded_idle; [exact (W init_wfits) | reflexivity | reflexivity | exact K | reflexivity].
    + apply idle_pending, idle_reset.
Qed.
Lemma ensure_good s : good s -> match ensure_program_compiled s with XOk b s' => good s' /\ (b = true -> ready (ss_vm s')) | _ => True end.
Proof.
  intros G. destruct (ensure_cases s G) as [[R ->]|(src & S & H)]; [split; [exact G|intros _; exact R]|].
  destruct (parse_source _ _ _) as [[bc|] e st | | |] eqn:PS.
  - destruct H as (-> & idx & I & ->). split; [|intros _; right; discriminate]. unfold good. cbn [ss_vm set_vm].
    apply fresh_prompt; try assumption. rewrite S. reflexivity.
  - destruct H as (x & -> & ->). split; [|discriminate]. unfold good in *. cbn [ss_vm].
    destruct G as [P1 P2 P3 P4 P5]. constructor; try assumption. unfold stored_state. cbn [set_st v_stored]. rewrite S. reflexivity.
  - destruct H as (s' & -> & _). exact I.
  - destruct H as (s' & -> & _). exact I.
  - destruct H.
Qed.

(* ---------- running ---------- *)

Lemma run_keeps {T} (f : vm -> T) E fuel brk v :
  (forall i, keeps f (exec_instr E i)) -> (forall n w, f (set_pc n w) = f w) ->
  (forall b w, f (set_stopped b w) = f w) -> (forall c w, f (set_stopcs c w) = f w) -> (forall x c w, f (set_outcol x c w) = f w) ->
  f (snd (run E fuel brk v)) = f v.
Proof.
  intros H1 H2 H3 H4 H5. apply (run_inv (fun w => f w = f v) E); try (intros; congruence).
  intros w W. apply execute_inv; [intros n x X; rewrite H2; exact X | | exact W]. intros i x X. rewrite (H1 i x). exact X.
Qed.
Definition stays (v : vm) := (v_stored v, v_imm v, v_opt v).
Lemma run_stays E fuel brk v : stays (snd (run E fuel brk v)) = stays v.
Proof.
  apply run_keeps; try reflexivity. intros i w. unfold stays.
  rewrite (exec_keeps_stored E i w), (exec_keeps_imm E i w), (exec_keeps_opt E i w). reflexivity.
Qed.

(* a run from a state in which things are as they should be *)
Lemma run_ok (allowed : coderef -> Prop) E fuel brk u r w : allowed CStored -> ~ allowed CDef -> live u -> placed allowed u -> run E fuel brk u = (r, w) -> r <> Crash ->
  live w /\ placed allowed w /\ changes (v_st u) (v_st w) /\ stays w = stays u.
Proof.
  intros AS AD [F K] P R NC. pose proof (pl_run allowed AS AD (v_st u) E fuel brk u (conj K P)) as H. pose proof (run_stays E fuel brk u) as S.
  rewrite R in *. cbn [fst snd] in *. unfold after in H. cbn [fst snd] in H.
  assert (X : kinded (v_st u) w /\ placed allowed w) by (destruct r; auto; congruence). destruct X as [K' P'].
  pose proof (kn_changes _ _ K') as C. split; [|auto].
  split; [|exact (kinded_self _ _ K')]. destruct F as [T W]. split; [exact (changes_trans _ _ _ T C)|]. exact (sigs_named _ _ (kn_sigs _ _ K') W).
Qed.

(* the machine after such a run, when only the stored program is referred to *)
Lemma prompt_after v w : prompt v -> ready v -> live w -> changes (v_st v) (v_st w) -> pending_in (eq CStored) w ->
  v_stored w = v_stored v -> v_opt w = v_opt v -> prompt w.
Proof.
  intros [P1 P2 P3 P4 P5] R L C P S O. constructor.
  - congruence.
  - apply pending_refs, P.
  - exact (kinded_codes _ _ (proj2 L)).
  - rewrite S. exact P4.
  - unfold stored_state in *. rewrite S. destruct (c_source (v_stored v)) as [src|] eqn:Q.
    + destruct (c_bcode (v_stored v)) as [bc|] eqn:B.
      * destruct P5 as ((src0 & (st0 & M1 & M2 & M3) & M4) & _ & _). split; [|auto]. exists src0. split; [|exact M4]. exists st0.
        split; [exact M1|]. rewrite S. split; [exact M2|]. exact (changes_trans _ _ _ M3 C).
      * destruct R; congruence.
    + destruct P5 as (E & _ & _). auto.
Qed.
Lemma placed_start allowed u : pending_in allowed u -> (exists r, cs_code (v_cs u) = Some r /\ allowed r) -> placed allowed u.
Proof. intros P C. constructor; [exact P|left; exact C]. Qed.
Lemma stays_split v w : stays w = stays v -> v_stored w = v_stored v /\ v_imm w = v_imm v /\ v_opt w = v_opt v.
Proof. unfold stays. intros H. injection H as H1 H2 H3. auto. Qed.

(* RUN and CONT *)
Lemma stored_run E fuel brk v u r w : prompt v -> ready v -> live u -> pending_in (eq CStored) u -> cs_code (v_cs u) = Some CStored ->
  changes (v_st v) (v_st u) -> stays u = stays v -> run E fuel brk u = (r, w) -> r <> Crash -> prompt w.
Proof.
  intros P R L J C CH S X NC.
  assert (PL : placed (eq CStored) u) by (apply placed_start; [exact J|exists CStored; auto]).
  destruct (run_ok (eq CStored) E fuel brk u r w eq_refl ltac:(discriminate) L PL X NC) as (L' & P' & C' & S').
  rewrite S in S'. apply stays_split in S'. destruct S' as (S1 & S2 & S3). apply (prompt_after v); try assumption; [exact (changes_trans _ _ _ CH C')|apply P'].
Qed.
Lemma pending_idle_cs allowed c v : pending_in allowed v -> pending_in allowed (set_cs c v).
Proof. intros [A B C D]. constructor; assumption. Qed.
Lemma live_cs c v : live v -> live (set_cs c v).
Proof. intros [F [A B C D G H]]. split; [exact F|]. constructor; assumption. Qed.
Lemma live_reset v : live v -> live (reset_control_state v).
Proof.
  intros [F [A B C D G H]]. split; [exact F|]. constructor; try assumption; cbn; [constructor|]. intros X. destruct (X eq_refl).
Qed.

Lemma xsafe_run_program E fuel : xsafe (run_program E fuel).
Proof.
  intros s G. unfold run_program. unfold xbind at 1, get_vm at 1. destruct (stored_source (ss_vm s)) as [src|]; [|exact G].
  unfold xbind at 1. pose proof (ensure_good s G) as H. destruct (ensure_program_compiled s) as [[|] s1| | |]; try exact I; [|apply H].
  destruct H as [G1 R1]. specialize (R1 eq_refl). unfold xbind, mod_vm, with_run, good in *. cbn [ss_vm set_vm ss_brk].
  destruct (ready_live _ G1 R1) as [L J].
  match goal with |- context [run E fuel ?b ?x] => destruct (run E fuel b x) as [r w] eqn:X end.
  assert (Y : r <> Crash -> prompt w).
  { intros NC. refine (stored_run E fuel _ (ss_vm s1) _ r w G1 R1 _ _ _ _ _ X NC).
    - apply live_cs, live_reset, L.
    - apply pending_idle_cs, idle_pending, idle_reset.
    - reflexivity.
    - apply Chs_refl.
    - reflexivity. }
  destruct r; try exact I; apply Y; discriminate.
Qed.
Lemma xsafe_continue E fuel : xsafe (continue_program E fuel).
Proof.
  intros s G. unfold continue_program, with_run. unfold good in *. unfold vm_continue. unfold bind at 1, get at 1.
  destruct (cs_code (v_stopcs (ss_vm s))) as [r0|] eqn:S; [|exact G].
  assert (R0 : r0 = CStored) by (destruct (proj2 (proj2 (proj2 (pr_refs _ G)))) as [X|X]; congruence). subst r0.
  cbn [code_of]. destruct (c_bcode (v_stored (ss_vm s))) as [bc|] eqn:B; [|exact G].
  assert (R : ready (ss_vm s)) by (right; congruence). destruct (ready_live _ G R) as [L J].
  destruct (nth_error (bc_inst bc) (cs_pc (v_stopcs (ss_vm s)))) as [i|]; [|exact I]. cbn [some_or_crash]. unfold bind at 1, ret at 1. unfold bind at 1, modify at 1.
  unfold bind at 1. match goal with |- context [run E fuel ?b ?x] => destruct (run E fuel b x) as [r w] eqn:X end.
  assert (Y : r <> Crash -> prompt w).
  { intros NC. refine (stored_run E fuel _ (ss_vm s) _ r w G R _ _ _ _ _ X NC).
    - apply live_cs, L.
    - apply pending_idle_cs, J.
    - reflexivity.
    - apply Chs_refl.
    - reflexivity. }
  destruct r; cbn; try exact I; apply Y; discriminate.
Qed.

(* immediate lines *)
Definition either (r : coderef) : Prop := r = CStored \/ r = CImmediate.
Lemma pending_imm c v : pending_in (eq CStored) v -> pending_in either (set_imm c v).
Proof.
  intros [A B C D].
  assert (X : forall h x, place_in v (eq CStored) h x -> place_in (set_imm c v) either h x).
  { intros h x (r & Q1 & <- & Q3). exists CStored. split; [exact Q1|]. split; [left; reflexivity|exact Q3]. }
  constructor; cbn [v_ret v_for v_fn v_stopcs set_imm].
  - eapply Forall_impl; [|exact A]. intros x. apply X.
  - eapply Forall_impl; [|exact B]. intros x. apply X.
  - intros Y. apply X, C, Y.
  - exact D.
Qed.
Lemma any_not_stored_false l : any_not_stored l = Some false -> Forall (fun c => cs_code c = Some CStored) l.
Proof.
  induction l as [|c l IH]; intros H; [constructor|]. cbn [any_not_stored] in H. destruct (cs_code c) as [[| |]|] eqn:Q; try discriminate H.
  constructor; auto.
Qed.
Lemma immediate_state_false v : immediate_state v = Some false -> pending_in either v -> pending_in (eq CStored) v.
Proof.
  unfold immediate_state. intros H [A B C D].
  destruct (any_not_stored (rev (v_ret v))) as [[|]|] eqn:X1; try discriminate H.
  destruct (any_not_stored (map f_cs (v_for v))) as [[|]|] eqn:X2; try discriminate H.
  apply any_not_stored_false in X1, X2. apply Forall_rev in X1. rewrite rev_involutive in X1. rewrite Forall_map in X2.
  assert (X : forall h x, cs_code x = Some CStored -> place_in v either h x -> place_in v (eq CStored) h x).
  { intros h x E (r & Q1 & _ & Q3). assert (r = CStored) by congruence. subst r. exists CStored. auto. }
  constructor.
  - rewrite Forall_forall in *. intros c I. apply X; auto.
  - rewrite Forall_forall in *. intros c I. apply X; auto.
  - intros Y. apply X; [|apply C, Y]. destruct (cs_code (fn_cs (v_fn v))) as [[| |]|]; try reflexivity; try discriminate H. congruence.
  - exact D.
Qed.
Lemma live_imm c v : live v -> (forall bc, c_bcode c = Some bc -> def_ok (bc_inst bc)) -> live (set_imm c v).
Proof.
  intros [F [A B C D G H]] X. split; [exact F|]. constructor; try assumption.
  intros [| |] bc Y; cbn in Y; [exact (H CStored bc Y)|exact (X bc Y)|exact (H CDef bc Y)].
Qed.
Lemma live_data a b v : live v -> live (set_data a b v).
Proof. intros [F [A B C D G H]]. split; [exact F|]. constructor; assumption. Qed.
Lemma pending_data allowed a b v : pending_in allowed v -> pending_in allowed (set_data a b v).
Proof. intros [A B C D]. constructor; assumption. Qed.
Lemma prompt_imm v : prompt v -> prompt (set_imm no_code v).
Proof.
  intros [P1 P2 P3 P4 P5]. constructor; try assumption.
  - intros [| |] bc X; cbn in X; [exact (P3 CStored bc X) | discriminate X | exact (P3 CDef bc X)].
  - unfold stored_state in *. change (v_stored (set_imm no_code v)) with (v_stored v).
    assert (K : pending_in (eq CStored) v -> pending_in (eq CStored) (set_imm no_code v)).
    { intros [A B C D].
      assert (X : forall h x, place_in v (eq CStored) h x -> place_in (set_imm no_code v) (eq CStored) h x).
      { intros h x (r & Q1 & <- & Q3). exists CStored. split; [exact Q1|]. split; [reflexivity|exact Q3]. }
      constructor; cbn [v_ret v_for v_fn v_stopcs set_imm].
      - eapply Forall_impl; [|exact A]. intros x. apply X.
      - eapply Forall_impl; [|exact B]. intros x. apply X.
      - intros Y. apply X, C, Y.
      - exact D. }
    assert (LI : live v -> live (set_imm no_code v)) by (intros L; apply live_imm; [exact L|intros b Y; discriminate Y]).
    destruct (c_source (v_stored v)) as [src|]; [destruct (c_bcode (v_stored v)) as [bc|]|].
    + destruct P5 as ((src0 & M & M') & L & J). split; [|split; [exact (LI L)|exact (K J)]].
      exists src0. split; [|exact M']. apply (made_from_same src0 bc v); [reflexivity|reflexivity|exact M].
    + exact P5.
    + destruct P5 as (M & L & J). split; [exact M|split; [exact (LI L)|exact (K J)]].
Qed.
Lemma prompt_parse src kw bc e st v : prompt v -> ready v -> parse_source src (v_st v) kw = PoOk bc e st -> prompt (set_st st v).
Proof.
  intros P R PS. destruct (ready_live _ P R) as [L _]. pose proof L as [F K].
  destruct (parsed_table _ _ _ _ _ _ F PS) as (F' & C & W). apply prompt_table; [exact P|]. intros _. split; [exact F'|]. split; [exact C|].
  apply kinded_grow; [exact K|exact C|apply W, K].
Qed.
Lemma ready_st st v : ready v -> ready (set_st st v).
Proof. intros R. exact R. Qed.
Lemma stored_reset v : v_stored (reset_control_state v) = v_stored v.
Proof. reflexivity. Qed.
Lemma codes_reset v r : code_of (reset_control_state v) r = code_of v r.
Proof. destruct r; reflexivity. Qed.
Lemma prompt_reset v : prompt v -> prompt (reset_control_state v).
Proof.
  intros [P1 P2 P3 P4 P5]. constructor.
  - exact P1.
  - apply idle_refs, idle_reset.
  - intros r bc. rewrite codes_reset. apply P3.
  - rewrite stored_reset. exact P4.
  - unfold stored_state in *. rewrite stored_reset.
    destruct (c_source (v_stored v)) as [src|]; [destruct (c_bcode (v_stored v)) as [bc|]|].
    + destruct P5 as ((src0 & M & M') & L & J). split; [|split; [apply live_reset, L|apply idle_pending, idle_reset]].
      exists src0. split; [|exact M']. apply (made_from_same src0 bc v); [reflexivity|reflexivity|exact M].
    + exact P5.
    + destruct P5 as (M & L & J). split; [exact M|]. split; [apply live_reset, L|apply idle_pending, idle_reset].
Qed.

Lemma compile_cases src kw s : good s -> ready (ss_vm s) ->
  match compile src kw s with
  | XOk b s' => exists st e, parse_source src (v_st (ss_vm s)) kw = PoOk b e st /\ ss_vm s' = set_st st (ss_vm s) /\ good s' /\ ready (ss_vm s')
  | _ => True
  end.
Proof.
  intros G R. unfold compile. destruct (parse_source src (v_st (ss_vm s)) kw) as [bc e st | | |] eqn:PS; try exact I.
  pose proof (prompt_parse _ _ _ _ _ _ G R PS) as P. cbv zeta. destruct e as [x|].
  - unfold xbind, say, xret. exists st, (Some x). split; [reflexivity|]. split; [reflexivity|]. split; [exact P|exact R].
  - exists st, None. split; [reflexivity|]. split; [reflexivity|]. split; [exact P|exact R].
Qed.
Lemma xsafe_immediate E fuel line : xsafe (run_immediate E fuel line).
Proof.
  intros s G. unfold run_immediate. unfold xbind at 1, mod_vm at 1.
  assert (G0 : good (set_vm (set_imm no_code (ss_vm s)) s)) by (apply prompt_imm, G).
  unfold xbind at 1. pose proof (ensure_good _ G0) as H. destruct (ensure_program_compiled _) as [[|] s1| | |]; try exact I; [|apply H].
  destruct H as [G1 R1]. specialize (R1 eq_refl). cbv zeta. unfold xbind at 1. pose proof (compile_cases (wrap_source_text line) false s1 G1 R1) as H.
  destruct (compile _ _ s1) as [[b|] s2| | |]; try exact I.
  2:{ destruct H as (st & e & _ & _ & G2 & _). exact G2. }
  destruct H as (st & e & PS & V & G2 & R2). destruct (bcode_index b (wrap_source_text line)) as [idx|]; [|exact I].
  destruct (ready_live _ G1 R1) as [[F1 _] _]. destruct (parsed_ok _ _ _ _ _ _ F1 PS) as (_ & D & _).
  destruct (ready_live _ G2 R2) as [L2 J2]. unfold xbind at 1, mod_vm at 1. unfold xbind at 1, with_run at 1. cbn [ss_vm set_vm ss_brk].
  match goal with |- context [run E fuel ?bk ?x] => destruct (run E fuel bk x) as [r w] eqn:X; set (u := x) in X end.
  assert (Y : r <> Crash -> live w /\ placed either w /\ changes (v_st u) (v_st w) /\ stays w = stays u).
  { intros NC. refine (run_ok either E fuel _ u r w (or_introl eq_refl) _ _ _ X NC); [intros [Z|Z]; discriminate Z | |].
    - apply live_cs, live_data, live_imm; [exact L2|]. intros bc Z. cbn in Z. injection Z as <-. exact D.
    - apply placed_start; [|exists CImmediate; split; [reflexivity|right; reflexivity]]. apply pending_idle_cs, pending_data, pending_imm, J2. }
  assert (Z : r <> Crash -> forall s', ss_vm s' = w -> match (let* v := get_vm in match immediate_state v with
                | None => xcrash | Some true => mod_vm reset_control_state | Some false => xret tt end) s' with XOk _ s'' => good s'' | _ => True end).
  { intros NC s' V'. destruct (Y NC) as (L & P & C & S). apply stays_split in S. destruct S as (S1 & S2 & S3).
    unfold xbind, get_vm. rewrite V'. destruct (immediate_state w) as [[|]|] eqn:IS; [| |exact I].
    - unfold mod_vm, good. cbn [ss_vm set_vm]. rewrite V'.
      apply (prompt_after (ss_vm s2)); try assumption; [apply live_reset, L|apply idle_pending, idle_reset].
    - unfold xret, good. rewrite V'. apply (prompt_after (ss_vm s2)); try assumption. apply immediate_state_false; [exact IS|apply P]. }
  destruct r; try exact I; apply Z; try discriminate; reflexivity.
Qed.

(* RENUM *)
Lemma xsafe_source src : ~ fr -> ~ ic -> forall s, good s -> stored_source (ss_vm s) <> None -> good (set_vm (set_source src (ss_vm s)) s).
Proof.
  intros NF NI s [P1 P2 P3 P4 P5] NS. constructor; try assumption.
  - intros [| |] bc X; cbn in X; [exact (P3 CStored bc X) | exact (P3 CImmediate bc X) | exact (P3 CDef bc X)].
  - intros F. destruct (NI F).
  - unfold stored_state, stored_source in *. cbn [ss_vm set_vm].
    assert (SS : v_stored (set_source src (ss_vm s)) = mkCode (Some src) (c_bcode (v_stored (ss_vm s))) (c_index (v_stored (ss_vm s)))) by reflexivity.
    rewrite SS. cbn [c_source c_bcode c_index].
    destruct (c_source (v_stored (ss_vm s))) as [s0|]; [|congruence].
    destruct (c_bcode (v_stored (ss_vm s))) as [bc|] eqn:B; [|exact P5]. destruct P5 as ((src0 & M & _) & [F [A1 A2 A3 A4 A5 A6]] & [J1 J2 J3 J4]).
    assert (PI : forall h c, place_in (ss_vm s) (eq CStored) h c -> place_in (set_source src (ss_vm s)) (eq CStored) h c).
    { intros h c (r & Q1 & <- & Q3). exists CStored. split; [exact Q1|]. split; [reflexivity|exact Q3]. }
    split; [|split].
    + exists src0. split; [apply (made_from_same src0 bc (ss_vm s)); [reflexivity|reflexivity|exact M]|intros F'; destruct (NF F')].
    + split; [exact F|]. constructor; try assumption. intros [| |] b X; cbn in X; [exact (A6 CStored b X) | exact (A6 CImmediate b X) | exact (A6 CDef b X)].
    + constructor; cbn.
      * eapply Forall_impl; [|exact J1]. intros c. apply PI.
      * eapply Forall_impl; [|exact J2]. intros c. apply PI.
      * intros X. apply PI, J3, X.
      * exact J4.
Qed.
Lemma xsafe_renumber new old inc : ~ fr -> ~ ic -> xsafe (renumber new old inc).
Proof.
  intros NF NI s G. unfold renumber. unfold xbind at 1, get_vm at 1. destruct (stored_source (ss_vm s)) as [src|] eqn:S; [|exact G].
  assert (X : forall src', good (set_vm (set_source src' (ss_vm s)) s)) by (intros src'; apply xsafe_source; congruence).
  destruct (renum_lines _ _ _ _ _ _) as [[src1 m] [d|]]; [exact (X src1)|].
  destruct (renum_texts _ _ _) as [s2|s2| |]; [exact (X s2) | exact (X s2) | exact I | exact I].
Qed.

(* ---------- commands ---------- *)

Lemma xsafe_check_eol s : xsafe (check_eol s).
Proof. unfold check_eol. destruct (at_eol _); [apply xsafe_ret|]. apply xsafe_bind; [apply xsafe_say|intros _; apply xsafe_ret]. Qed.
Lemma xsafe_list_loop src a b p : forall n, xsafe (list_loop src a b p n).
Proof.
  induction src as [|l src IH]; intros n; cbn [list_loop]; [apply xsafe_ret|]. destruct (b <? _)%N; [apply xsafe_ret|]. destruct (a <=? _)%N; [|apply IH].
  apply xsafe_bind; [apply xsafe_out|]. intros _. apply xsafe_bind; [|intros _; apply IH].
  destruct (_ && _); [|apply xsafe_out]. unfold await_newline. apply xsafe_seen. intros v. unfold seen_alike. repeat (split; [reflexivity|]). reflexivity.
Qed.
Lemma xsafe_command E fuel c s : (c = C_RENUM -> ~ fr /\ ~ ic) -> xsafe (command E fuel c s).
Proof.
  assert (CK : forall p (m : X unit), xsafe m -> xsafe (let* ok := check_eol p in (if ok then m else xret tt) ;;; xret false)).
  { intros p m H. apply xsafe_bind; [apply xsafe_check_eol|]. intros ok. apply xsafe_bind; [destruct ok; [exact H|apply xsafe_ret]|intros _; apply xsafe_ret]. }
  assert (NM : forall (m : bytes -> X bool), (forall n, xsafe (m n)) -> xsafe (match demarcate_string s with
      | Some (name, p) => let* ok := check_eol p in (if ok then m name ;;; xret tt else say DFileName) ;;; xret false
      | None => say DFileName ;;; xret false end)).
  { intros m H. destruct (demarcate_string s) as [[name p]|].
    - apply xsafe_bind; [apply xsafe_check_eol|]. intros ok. apply xsafe_bind; [|intros _; apply xsafe_ret].
      destruct ok; [|apply xsafe_say]. apply xsafe_bind; [apply H|intros _; apply xsafe_ret].
    - apply xsafe_bind; [apply xsafe_say|intros _; apply xsafe_ret]. }
  intros NR. destruct c; cbn [command].
  - apply xsafe_check_eol.
  - apply xsafe_bind; [|intros _; apply xsafe_ret]. unfold vm_compile. apply xsafe_bind; [|intros _; apply xsafe_ret].
    intros x G. pose proof (ensure_good x G) as H. destruct (ensure_program_compiled x); try exact I. apply H.
  - apply xsafe_bind; [apply xsafe_continue|]. intros ok. apply xsafe_bind; [destruct ok; [apply xsafe_ret|apply xsafe_say]|intros _; apply xsafe_ret].
  - apply xsafe_bind; [apply xsafe_out|intros _; apply xsafe_ret].
  - destruct (get_list_numbers s) as [[a b] p]. destruct (get_page_flag p) as [pg p1]. apply CK.
    unfold list_program. apply xsafe_get. intros v. destruct (stored_source v); [apply xsafe_list_loop|apply xsafe_ret].
  - apply (NM vm_load_source). apply xsafe_load.
  - apply CK, xsafe_new.
  - destruct (get_renum_numbers s) as [[[a b] d] p]. apply CK, xsafe_renumber; apply NR; reflexivity.
  - apply xsafe_bind; [apply xsafe_clear_values|]. intros _. apply xsafe_bind; [apply xsafe_run_program|intros _; apply xsafe_ret].
  - apply (NM vm_save_source). intros n x G. unfold vm_save_source. destruct (stored_source (ss_vm x)); exact G.
Qed.
Lemma xsafe_act E fuel m : (forall s, m = MCommand C_RENUM s -> ~ fr /\ ~ ic) -> xsafe (act E fuel m).
Proof.
  intros NR. destruct m as [n [t|]|s| |c s|s]; cbn [act].
  - apply xsafe_bind; [apply xsafe_enter|intros _; apply xsafe_ret].
  - apply xsafe_bind; [apply xsafe_delete|intros _; apply xsafe_ret].
  - intros x G. exact G.
  - apply xsafe_ret.
  - apply xsafe_command. intros ->. apply (NR s eq_refl).
  - apply xsafe_bind; [apply xsafe_immediate|intros _; apply xsafe_ret].
Qed.
Lemma xsafe_interpret E fuel line : (fr \/ ic -> no_renum line) -> xsafe (interpret E fuel line).
Proof.
  intros NR s G. destruct (means_exists line) as (m & M). rewrite (interpret_means E fuel line m s M). apply xsafe_act; [|exact G].
  intros t ->. split; intros F; [exact (NR (or_introl F) t M)|exact (NR (or_intror F) t M)].
Qed.

Lemma start_good stdin fs brk : good (new_session o stdin fs brk).
Proof.
  assert (K : forall r bc, c_bcode (code_of (new_vm o stdin) r) = Some bc -> def_ok (bc_inst bc)) by (intros [| |] bc X; discriminate X).
  constructor.
  - reflexivity.
  - apply idle_refs. unfold idle. repeat (split; [reflexivity|]). reflexivity.
  - exact K.
  - intros _ src X. discriminate X.
  - unfold stored_state. cbn [new_session ss_vm new_vm v_stored no_code c_source]. split; [reflexivity|]. split.
    + split; [exact fine_init|]. apply kinded_idle; [exact init_wfits | reflexivity | reflexivity | exact K | reflexivity].
    + apply idle_pending. unfold idle. repeat (split; [reflexivity|]). reflexivity.
Qed.
Lemma randomized_good seed stdin fs brk : good (randomized seed (new_session o stdin fs brk)).
Proof. pose proof (start_good stdin fs brk) as G. unfold good in *. cbn [randomized set_vm ss_vm] in *. eapply prompt_seen; [|exact G]. unfold seen_alike. repeat (split; [reflexivity|]). reflexivity. Qed.
Lemma session_good (ok : bytes -> Prop) s : (fr \/ ic -> forall line, ok line -> no_renum line) -> session o ok s -> good s.
Proof.
  intros NR H. induction H as [stdin fs brk | seed stdin fs brk | E fuel line s s' H IH OK I | s s' H IH W].
  - apply start_good.
  - apply randomized_good.
  - pose proof (xsafe_interpret E fuel line (fun F => NR F line OK) s IH) as X. rewrite I in X. exact X.
  - destruct W. unfold good in *. cbn [ss_vm] in *. eapply prompt_seen; [|exact IH]. unfold seen_alike. repeat (split; [reflexivity|]). reflexivity.
Qed.
End Prompt.
