(* What RUN, CONT and immediate lines run. *)
From Coq Require Import Lia ZifyBool ZifyNat ZifyN.
From Verif Require Import Base BaseLemmas Num SourceModel SourceSpec SourceProofs LineMapModel BcodeModel SymbolModel SymbolSpec SymbolProofs
  LexModel ParseModel GrammarSpec ParseProofs StmtProofs CompileProofs LineSpec LineProofs VmModel VmLemmas VmSpec ControlProofs VmTyping KindProofs
  AlikeProofs DefProofs SessionModel MonitorModel MonSpec MonProofs SessionSpec PlaceProofs PromptProofs.
Local Open Scope nat_scope.
Local Open Scope sess_scope.
Local Opaque init_builtins new_symbol_table parse_source.

(* ---------- tables in which nothing has a value ---------- *)

Definition unset (s : symbol) : Prop := s_kind s = KBuiltin \/ (s_val s = VZero /\ s_defined s = false).
Definition blank (s : symbol) : Prop := seen s = fresh_view (s_kind s) (s_type s) /\ (s_kind s <> KBuiltin -> s_defined s = false).
Lemma unset_blank s : unset s -> blank s.
Proof.
  intros [K|[V D]]; unfold blank, seen, fresh_view.
  - rewrite K. split; [reflexivity|congruence].
  - rewrite D. split; [|reflexivity]. destruct (s_kind s), (s_type s); reflexivity.
Qed.
Lemma name_step_unset st st' : name_step st st' -> Forall unset (st_syms st) -> Forall unset (st_syms st').
Proof.
  intros [st0 name paren k C B | st0 p s k E U K] F.
  - unfold use_name. destruct (sym_lookup st0 name paren); [exact F|]. cbn [fst sym_insert st_syms]. apply Forall_app. split; [exact F|].
    constructor; [|constructor]. right. split; reflexivity.
  - cbn [sym_update st_syms]. apply Forall_list_upd; [exact F|]. pose proof (Forall_nth _ _ _ _ F E) as X. destruct X as [X|X]; [congruence|]. right. exact X.
Qed.
Lemma names_unset st st' : names st st' -> Forall unset (st_syms st) -> Forall unset (st_syms st').
Proof. induction 1; intros F; [exact F|]. eapply name_step_unset; [eassumption|auto]. Qed.
Lemma unknown_unset st : Forall unset (st_syms st) -> Forall unset (st_syms (sym_make_unknown_array st)).
Proof.
  intros F. cbn [sym_make_unknown_array st_syms]. apply Forall_map. eapply Forall_impl; [|exact F]. cbn beta. intros s X.
  destruct (skind_eqb (s_kind s) KUnknown) eqn:K; [|exact X]. apply skind_eq in K. destruct X as [X|X]; [congruence|]. right. exact X.
Qed.
Local Transparent init_builtins new_symbol_table.
Lemma init_unset : Forall unset (st_syms (init_builtins new_symbol_table)).
Proof. apply Forall_forall. vm_compute. intros s H. repeat (destruct H as [<-|H]; [left; reflexivity|]). destruct H. Qed.
Local Opaque init_builtins new_symbol_table.
(* no kind is unknown after compiling *)
Lemma parsed_unset src kw bc e st : parse_source src (init_builtins new_symbol_table) kw = PoOk bc e st ->
  Forall (fun s => unset s /\ s_kind s <> KUnknown) (st_syms st).
Proof.
  intros P. pose proof (parse_source_ok src _ kw fine_init) as H. rewrite P in H.
  assert (X : exists st1, names (init_builtins new_symbol_table) st1 /\ st = sym_make_unknown_array st1).
  { destruct bc as [bc|]; [destruct H as (_ & xss & st1 & _ & N & -> & _) | destruct H as (_ & st1 & N & ->)]; eauto. }
  destruct X as (st1 & N & ->). apply Forall_and; [exact (unknown_unset _ (names_unset _ _ N init_unset))|].
  cbn [sym_make_unknown_array st_syms]. apply Forall_map, Forall_forall. intros s _. destruct (skind_eqb (s_kind s) KUnknown) eqn:K; [discriminate|].
  intros E. rewrite E in K. discriminate K.
Qed.

(* clearing the values of a table that has grown from st0 *)
Lemma cleared_alike st0 st : Forall (fun s => unset s /\ s_kind s <> KUnknown) (st_syms st0) -> changes st0 st -> Forall wfits (st_syms st) ->
  tab_alike (clear_symbol_table_values st) st0.
Proof.
  intros U C W id s0 E. unfold symbol_at in *. destruct (changes_evolves _ _ C _ _ E) as (s & Q & (A1 & A2 & A3 & A4 & _ & A6)).
  pose proof (Forall_nth _ _ _ _ U E) as [U0 NK]. pose proof (Forall_nth _ _ _ _ W Q) as WF.
  destruct A4 as [A4|A4]; [congruence|].
  exists (if s_defined s then undefine_value s else s). split; [unfold clear_symbol_table_values; cbn [st_syms]; rewrite nth_error_map, Q; reflexivity|].
  destruct U0 as [B|[V0 D0]].
  - specialize (A6 B). subst s. replace (if s_defined s0 then undefine_value s0 else s0) with s0; [split; [reflexivity|]; split; [reflexivity|left; reflexivity]|].
    unfold undefine_value. rewrite B. destruct (s_defined s0); reflexivity.
  - assert (NB : s_kind s0 <> KBuiltin \/ s_kind s0 = KBuiltin) by (destruct (s_kind s0); auto; left; discriminate).
    destruct NB as [NB|B]; [|specialize (A6 B); subst s; rewrite D0; split; [reflexivity|]; split; [reflexivity|left; reflexivity]].
    split; [|split].
    + assert (X : sig_of (if s_defined s then undefine_value s else s) = sig_of s).
      { destruct (s_defined s); [|reflexivity]. unfold sig_of, undefine_value. destruct (s_kind s) eqn:KS; try reflexivity; cbn; rewrite KS; reflexivity. }
      rewrite X. unfold sig_of. congruence.
    + rewrite D0. destruct (s_defined s) eqn:D; [|exact D]. unfold undefine_value. rewrite A4. destruct (s_kind s0); try reflexivity; congruence.
    + destruct (s_defined s) eqn:D.
      * left. unfold undefine_value. rewrite A4. destruct (s_kind s0); try congruence; cbn; congruence.
      * unfold wfits in WF. rewrite A4, A3, D in WF. destruct (s_kind s0) eqn:K, (s_type s0) eqn:T; try (destruct WF; congruence);
          destruct (s_val s) eqn:V; try (destruct WF; fail); try (left; congruence); try discriminate WF; try (destruct WF; congruence); try congruence.
        right. split; [exact D0|]. split; [reflexivity|]. split; [reflexivity|]. rewrite V0. split; eexists; reflexivity.
Qed.

(* ---------- RUN ---------- *)

Section Run.
Variables (o : options) (ic : Prop).
Notation good := (good o True ic).
Notation prompt := (prompt o True ic).

(* what the compiled program is *)
Lemma prompt_program v src bc : prompt v -> c_source (v_stored v) = Some src -> c_bcode (v_stored v) = Some bc ->
  exists st idx, compiling o src = PoOk (Some bc) None st /\ bcode_index bc src = Some idx /\ v_stored v = mkCode (Some src) (Some bc) (Some idx) /\ changes st (v_st v).
Proof.
  intros P S B. pose proof (pr_stored _ _ _ _ P) as H. unfold stored_state in H. rewrite S, B in H. destruct H as ((src0 & (st0 & M1 & M2 & M3) & M4) & _ & _).
  specialize (M4 I). subst src0. destruct (parsed_ok _ _ _ _ _ _ fine_init M1) as (_ & _ & idx & X). exists st0, idx. split; [exact M1|]. split; [exact X|]. split; [|exact M3].
  destruct (v_stored v) as [a b c]. cbn in *. congruence.
Qed.
Lemma prompt_compiled v src bc : prompt v -> c_source (v_stored v) = Some src -> c_bcode (v_stored v) = Some bc -> compiled_program v src.
Proof.
  intros P S B. destruct (prompt_program v src bc P S B) as (st & idx & H). exists bc, idx, st. rewrite (pr_opt _ _ _ _ P). exact H.
Qed.

Definition about_to_run (v : vm) : vm := set_cs (mkCs (Some CStored) 0 0) (reset_control_state v).
Definition cleared (v : vm) : vm := set_st (clear_symbol_table_values (v_st v)) v.

Lemma starts_ready v src bc : prompt v -> c_source (v_stored v) = Some src -> c_bcode (v_stored v) = Some bc -> starts src v (about_to_run (cleared v)).
Proof.
  intros P S B. destruct (prompt_program v src bc P S B) as (st & idx & X1 & X2 & X3 & X4). constructor; try reflexivity.
  - exists bc, idx, st. split; [rewrite <- (pr_opt _ _ _ _ P) in X1; exact X1|]. split; [exact X2|]. split; [exact X3|].
    cbn. eapply Chs_step; [exact X4|apply Ch_clear].
  - unfold nothing_pending. cbn. auto.
  - split; reflexivity.
  - intros p s E. cbn in E. rewrite nth_error_map in E. destruct (nth_error (st_syms (v_st v)) p) as [s0|] eqn:Q; [|discriminate E].
    destruct (clear_view (v_st v) p s0 Q) as (s' & Q' & A1 & A2 & A3 & A4 & A5 & A6 & A7).
    cbn in Q'. rewrite nth_error_map, Q in Q'. cbn [option_map] in *. assert (s' = s) by congruence. subst s'. rewrite A3, A4. split; [exact A5|exact A6].
  - repeat (split; [reflexivity|]). reflexivity.
Qed.
Lemma starts_fresh v src bc idx st : v_opt v = o -> compiling o src = PoOk (Some bc) None st -> bcode_index bc src = Some idx ->
  starts src v (about_to_run (fresh_code src bc idx st v)).
Proof.
  intros O C X. constructor; try reflexivity.
  - exists bc, idx, st. split; [rewrite <- O in C; exact C|]. split; [exact X|]. split; [reflexivity|apply Chs_refl].
  - unfold nothing_pending. cbn. auto.
  - split; reflexivity.
  - intros p s E. cbn in E. pose proof (parsed_unset _ _ _ _ _ C) as U. destruct (Forall_nth _ _ _ _ U E) as [U0 _]. apply unset_blank, U0.
  - repeat (split; [reflexivity|]). reflexivity.
Qed.

Lemma with_run_ran E fuel s u : (with_run (run E fuel) tt ;;; xret false) (set_vm u s) = ran s (run E fuel (next_break s) u).
Proof.
  unfold xbind, with_run, ran, after_run. cbn [ss_vm ss_brk ss_fs ss_diag ss_os set_vm]. unfold next_break.
  destruct (run E fuel match ss_brk s with [] => None | b :: _ => b end u) as [[]]; reflexivity.
Qed.
Lemma good_cleared s : good s -> good (set_vm (cleared (ss_vm s)) s).
Proof. intros G. pose proof (xsafe_clear_values o True ic s G) as X. exact X. Qed.
Lemma cleared_stored v : v_stored (cleared v) = v_stored v.
Proof. reflexivity. Qed.
Lemma fresh_cleared src bc idx st v : fresh_code src bc idx st (cleared v) = fresh_code src bc idx st v.
Proof. reflexivity. Qed.

(* how RUN goes *)
Inductive run_goes (E : env) (fuel : nat) (s : sess) : xres bool -> Prop :=
| Rg_empty : c_source (v_stored (ss_vm s)) = None -> run_goes E fuel s (XOk false (set_vm (cleared (ss_vm s)) s))
| Rg_error src x st : c_source (v_stored (ss_vm s)) = Some src -> compiling o src = PoOk None (Some x) st ->
    run_goes E fuel s (XOk false (mkSess (set_st st (ss_vm s)) (ss_fs s) (ss_diag s ++ [DParse x]) (ss_brk s) (ss_os s)))
| Rg_exit src s' : c_source (v_stored (ss_vm s)) = Some src -> compiling o src = PoExit -> quiet s s' -> run_goes E fuel s (XExit s')
| Rg_crash src s' : c_source (v_stored (ss_vm s)) = Some src -> compiling o src = PoCrash -> quiet s s' -> run_goes E fuel s (XCrash s')
| Rg_run src bc st u : c_source (v_stored (ss_vm s)) = Some src -> compiling o src = PoOk (Some bc) None st -> starts src (ss_vm s) u ->
    (ready (ss_vm s) /\ u = about_to_run (cleared (ss_vm s)) \/
     c_bcode (v_stored (ss_vm s)) = None /\ exists idx, bcode_index bc src = Some idx /\ u = about_to_run (fresh_code src bc idx st (ss_vm s))) ->
    run_goes E fuel s (ran s (run E fuel (next_break s) u)).
Lemma run_program_eq E fuel t : (run_program E fuel ;;; xret false) t =
  match stored_source (ss_vm t) with
  | None => XOk false t
  | Some _ =>
      match ensure_program_compiled t with
      | XOk true t' => (with_run (run E fuel) tt ;;; xret false) (set_vm (about_to_run (ss_vm t')) t')
      | XOk false t' => XOk false t'
      | XExit t' => XExit t'
      | XCrash t' => XCrash t'
      | XNoFuel t' => XNoFuel t'
      end
  end.
Proof.
  unfold run_program, xbind, get_vm. destruct (stored_source (ss_vm t)); [|reflexivity].
  destruct (ensure_program_compiled t) as [[|] t'| | |]; reflexivity.
Qed.
Lemma run_command E fuel rest s : good s -> run_goes E fuel s (command E fuel C_RUN rest s).
Proof.
  intros G. pose proof (good_cleared s G) as GC.
  assert (CE : command E fuel C_RUN rest s = (run_program E fuel ;;; xret false) (set_vm (cleared (ss_vm s)) s)) by reflexivity.
  rewrite CE. clear CE. set (t := set_vm (cleared (ss_vm s)) s) in *. rewrite run_program_eq.
  assert (SS : stored_source (ss_vm t) = c_source (v_stored (ss_vm s))) by reflexivity.
  rewrite SS. destruct (c_source (v_stored (ss_vm s))) as [src|] eqn:S.
  2:{ exact (Rg_empty E fuel s S). }
  destruct (ensure_cases o True ic t GC) as [[R ->]|(src' & S' & H)].
  - change t with (set_vm (cleared (ss_vm s)) s). cbn [ss_vm set_vm].
    change (set_vm (about_to_run (cleared (ss_vm s))) (set_vm (cleared (ss_vm s)) s)) with (set_vm (about_to_run (cleared (ss_vm s))) s). rewrite with_run_ran.
    assert (B : exists bc, c_bcode (v_stored (ss_vm s)) = Some bc).
    { destruct R as [R|R]; unfold t in R; cbn [ss_vm set_vm] in R; rewrite cleared_stored in R; [congruence|].
      destruct (c_bcode (v_stored (ss_vm s))); [eauto|congruence]. }
    destruct B as (bc & B). destruct (prompt_program _ _ _ G S B) as (st & idx & X1 & X2 & X3 & X4).
    apply (Rg_run E fuel s src bc st); [exact S|exact X1|exact (starts_ready _ _ _ G S B)|]. left. split; [right; congruence|reflexivity].
  - unfold t in S'. cbn [ss_vm set_vm] in S'. rewrite cleared_stored in S'. assert (src' = src) by (rewrite S' in S; cbn in S; congruence). subst src'.
    fold (compiling o src) in H. destruct (compiling o src) as [[bc|] e st | | |] eqn:C.
    + destruct H as (-> & idx & X & ->). unfold t. cbn [ss_vm set_vm]. rewrite fresh_cleared.
      match goal with |- run_goes _ _ _ (_ (set_vm ?x ?y)) => change (set_vm x y) with (set_vm x s) end. rewrite with_run_ran.
      apply (Rg_run E fuel s src bc st); [exact S|exact C|exact (starts_fresh _ _ _ _ _ (pr_opt _ _ _ _ G) C X)|].
      right. split; [rewrite S'; reflexivity|]. exists idx. auto.
    + destruct H as (x & -> & ->). unfold t. cbn [ss_vm set_vm ss_fs ss_diag ss_brk ss_os].
      assert (Q : set_st st (cleared (ss_vm s)) = set_st st (ss_vm s)) by reflexivity. rewrite Q. exact (Rg_error E fuel s src x st S C).
    + destruct H as (s' & -> & Q). exact (Rg_exit E fuel s src s' S C Q).
    + destruct H as (s' & -> & Q). exact (Rg_crash E fuel s src s' S C Q).
    + destruct H.
Qed.

(* ---------- RUN as in a new machine ---------- *)

Lemma new_good s src : good s -> c_source (v_stored (ss_vm s)) = Some src -> good (set_vm (new_machine src (ss_vm s)) s).
Proof.
  intros G S.
  assert (V : v_stored (new_machine src (ss_vm s)) = mkCode (Some src) None None) by reflexivity. unfold PromptProofs.good. cbn [ss_vm set_vm].
  constructor.
  - exact (pr_opt _ _ _ _ G).
  - apply idle_refs. unfold idle. repeat (split; [reflexivity|]). reflexivity.
  - intros [| |] bc X; discriminate X.
  - intros F src' X. rewrite V in X. cbn in X. injection X as <-. exact (pr_inc _ _ _ _ G F _ S).
  - unfold stored_state. rewrite V. reflexivity.
Qed.
Lemma run_unstopped E fuel brk v r : cs_code (v_cs v) = Some r -> run E fuel brk v = run E fuel brk (set_stopped false v).
Proof.
  intros C. unfold run. cbn [set_stopped v_cs]. rewrite C. reflexivity.
Qed.
Lemma tab_alike_refl st : tab_alike st st.
Proof. intros id s E. exists s. split; [exact E|]. split; [reflexivity|]. split; [reflexivity|left; reflexivity]. Qed.
Lemma like_new E fuel rest s src : good s -> c_source (v_stored (ss_vm s)) = Some src ->
  let s0 := set_vm (new_machine src (ss_vm s)) s in
  match command E fuel C_RUN rest s0, command E fuel C_RUN rest s with
  | XCrash _, _ => True
  | XOk a0 t0, XOk a t => a0 = a /\ same_effects s0 t0 s t
  | XNoFuel t0, XNoFuel t => same_effects s0 t0 s t
  | XExit _, XExit _ => True
  | _, _ => False
  end.
Proof.
  intros G S s0. pose proof (new_good s src G S) as G0. fold s0 in G0. assert (S0 : c_source (v_stored (ss_vm s0)) = Some src) by reflexivity.
  destruct (run_command E fuel rest s0 G0) as [A0 | src0 x0 st0 A0 C0 | src0 t0 A0 C0 Q0 | src0 t0 A0 C0 Q0 | src0 bc0 st0 u0 A0 C0 ST0 U0];
    [congruence | | | exact I |]; assert (src0 = src) by congruence; subst src0;
    destruct (run_command E fuel rest s G) as [A | src1 x st A C | src1 t A C Q | src1 t A C Q | src1 bc st u A C ST U];
    try (destruct (eq_sym A) as []; discriminate S); try congruence; assert (src1 = src) by congruence; subst src1; try congruence; try exact I.
  - assert (x0 = x) by congruence. subst x0. split; [reflexivity|]. unfold same_effects, s0. cbn [ss_vm ss_fs ss_diag ss_brk ss_os set_vm].
    split; [exists []; rewrite !app_nil_r; split; reflexivity|]. split; [exists []; rewrite !app_nil_r; split; reflexivity|].
    repeat (split; [reflexivity|]). reflexivity.
  - assert (bc0 = bc /\ st0 = st) as [-> ->] by (rewrite C0 in C; injection C as -> ->; auto). clear C0.
    destruct U0 as [[[R|R] _]|(_ & idx & X & ->)]; [congruence|destruct (R eq_refl)|].
    destruct (parsed_table _ _ _ _ _ _ fine_init C) as (_ & _ & W). specialize (W init_wfits).
    destruct (parsed_ok _ _ _ _ _ _ fine_init C) as (_ & DOK & _).
    pose proof (pr_opt _ _ _ _ G) as OPT.
    set (u0 := about_to_run (fresh_code src bc idx st (ss_vm s0))) in *.
    assert (NB : next_break s0 = next_break s) by reflexivity. rewrite NB.
    rewrite (run_unstopped E fuel (next_break s) u CStored) by (rewrite (sr_first _ _ _ ST); reflexivity).
    assert (KD : kinded st u0).
    { apply kinded_idle; try reflexivity; [exact W|]. intros [| |] b Y; cbn in Y; [injection Y as <-; exact DOK|discriminate Y|discriminate Y]. }
    assert (NW : forall r, r <> CStored -> nowhere r u0).
    { intros r NR. split; [|split; [constructor|split; [constructor|]]]; unfold elsewhere; cbn; congruence. }
    assert (AL : alike False (fun _ => True) (v_out (ss_vm s)) (v_out (ss_vm s0)) (v_err (ss_vm s)) (v_err (ss_vm s0)) (set_stopped false u) u0).
    { assert (ST1 : v_stored u = v_stored u0 /\ tab_alike (v_st u) st).
      { destruct U as [[R ->]|(B & idx' & X' & ->)].
        - assert (B : c_bcode (v_stored (ss_vm s)) <> None) by (destruct R as [R|R]; congruence).
          destruct (c_bcode (v_stored (ss_vm s))) as [b|] eqn:BB; [clear B|congruence].
          destruct (prompt_program _ _ _ G S BB) as (st' & idx' & X1 & X2 & X3 & X4). rewrite C in X1. injection X1 as <- <-.
          split; [change (v_stored (ss_vm s) = mkCode (Some src) (Some bc) (Some idx)); congruence|].
          change (tab_alike (clear_symbol_table_values (v_st (ss_vm s))) st). apply cleared_alike; [exact (parsed_unset _ _ _ _ _ C)|exact X4|].
          destruct (ready_live o True ic _ G R) as [[_ K] _]. exact (kn_fits _ _ K).
        - assert (idx' = idx) by congruence. subst idx'. split; [reflexivity|apply tab_alike_refl]. }
      destruct ST1 as [ST1 ST2]. destruct ST as [T1 T2 (T3 & T4 & T5 & T6 & T7) T8 (T9 & T10) T11 (T12 & T13 & T14 & T15 & T16 & T17 & T18)].
      assert (UF : v_input u = v_input (ss_vm s) /\ v_inp u = None /\ v_input_pc u = 0 /\ v_col u = 1%N /\ fn_cs (v_fn u) = clear_cs).
      { destruct U as [[_ ->]|(_ & idx' & _ & ->)]; repeat (split; [reflexivity|]); reflexivity. }
      destruct UF as (UF1 & UF2 & UF3 & UF4 & UF5).
      constructor; cbn [set_stopped v_stored v_imm v_def v_cs v_st v_stack v_sstack v_ret v_stopped v_col v_for v_pdata v_idata v_fn v_input v_inp v_input_pc v_opt v_in v_out v_err v_seed v_randk v_clock].
      - exact ST1.
      - right. apply NW. discriminate.
      - right. apply NW. discriminate.
      - rewrite T2. reflexivity.
      - exact ST2.
      - intros f s1 s2 [].
      - rewrite T9. reflexivity.
      - rewrite T10. reflexivity.
      - rewrite T3. reflexivity.
      - reflexivity.
      - rewrite UF4. reflexivity.
      - rewrite T4. reflexivity.
      - rewrite T7. reflexivity.
      - rewrite T8. reflexivity.
      - split; [rewrite UF5; reflexivity|]. intros Y. destruct (Y eq_refl).
      - rewrite UF1. reflexivity.
      - rewrite UF2. reflexivity.
      - rewrite UF3. reflexivity.
      - rewrite T18. reflexivity.
      - rewrite T12. reflexivity.
      - exists []. rewrite !app_nil_r. split; [exact T13|reflexivity].
      - exists []. rewrite !app_nil_r. split; [exact T14|reflexivity].
      - rewrite T15. reflexivity.
      - rewrite T16. reflexivity.
      - rewrite T17. reflexivity. }
    pose proof (twin_run st E fuel (next_break s) _ _ _ _ _ _ KD (or_introl AL)) as T.
    destruct (run E fuel (next_break s) (set_stopped false u)) as [r1 w1]. destruct (run E fuel (next_break s) u0) as [r2 w2].
    assert (EF : alike True (fun _ => False) (v_out (ss_vm s)) (v_out (ss_vm s0)) (v_err (ss_vm s)) (v_err (ss_vm s0)) w1 w2 ->
      same_effects s0 (after_run s0 w2) s (after_run s w1)).
    { intros Q. unfold same_effects. cbn [after_run ss_vm ss_fs ss_diag ss_brk ss_os].
      split; [destruct (al_out _ _ _ _ _ _ _ _ Q) as (x & X1 & X2); exists x; auto|].
      split; [destruct (al_err _ _ _ _ _ _ _ _ Q) as (x & X1 & X2); exists x; auto|].
      split; [symmetry; apply Q|]. split; [symmetry; apply Q|]. split; [symmetry; apply Q|]. split; [symmetry; apply Q|].
      repeat (split; [reflexivity|]). reflexivity. }
    unfold ran. cbn [fst snd]. destruct T as [-> | [-> Q]]; [exact I|]. destruct r2; auto.
Qed.

(* ---------- statements ---------- *)

Lemma name_step_values st st' : name_step st st' -> forall p s, nth_error (st_syms st) p = Some s ->
  exists s', nth_error (st_syms st') p = Some s' /\ s_name s' = s_name s /\ s_defined s' = s_defined s /\ s_val s' = s_val s.
Proof.
  intros [st0 name paren k C B | st0 q s k E U K] p x X.
  - exists x. split; [|auto]. unfold use_name. destruct (sym_lookup st0 name paren); [exact X|]. cbn [fst sym_insert st_syms].
    rewrite nth_error_app1; [exact X|]. apply nth_error_Some. congruence.
  - cbn [sym_update st_syms]. destruct (Nat.eq_dec p q) as [->|NE].
    + assert (x = s) by congruence. subst x. exists (set_kind s k). split; [|auto]. rewrite nth_error_list_upd_eq; [reflexivity|]. apply nth_error_Some. congruence.
    + exists x. split; [|auto]. rewrite nth_error_list_upd_neq by congruence. exact X.
Qed.
Lemma names_values st st' : names st st' -> forall p s, nth_error (st_syms st) p = Some s ->
  exists s', nth_error (st_syms st') p = Some s' /\ s_name s' = s_name s /\ s_defined s' = s_defined s /\ s_val s' = s_val s.
Proof.
  induction 1 as [st|st st1 st2 N IH S]; intros p s E; [exists s; auto|]. destruct (IH p s E) as (s1 & E1 & A1 & A2 & A3).
  destruct (name_step_values _ _ S p s1 E1) as (s2 & E2 & B1 & B2 & B3). exists s2. split; [exact E2|]. repeat split; congruence.
Qed.
Lemma parsed_values src st kw bc e st' : fine st -> parse_source src st kw = PoOk bc e st' -> forall p s, nth_error (st_syms st) p = Some s ->
  exists s', nth_error (st_syms st') p = Some s' /\ s_name s' = s_name s /\ s_defined s' = s_defined s /\ s_val s' = s_val s.
Proof.
  intros F P. pose proof (parse_source_ok src st kw F) as H. rewrite P in H.
  assert (X : exists st1, names st st1 /\ st' = sym_make_unknown_array st1).
  { destruct bc as [bc|]; [destruct H as (_ & xss & st1 & _ & N & -> & _) | destruct H as (_ & st1 & N & ->)]; eauto. }
  destruct X as (st1 & N & ->). intros p s E. destruct (names_values _ _ N p s E) as (s1 & E1 & A1 & A2 & A3).
  cbn [sym_make_unknown_array st_syms]. rewrite nth_error_map, E1. cbn [option_map]. eexists. split; [reflexivity|].
  destruct (skind_eqb (s_kind s1) KUnknown); auto.
Qed.
Lemma parsed_unset_from src st kw bc e st' : fine st -> Forall unset (st_syms st) -> parse_source src st kw = PoOk bc e st' -> Forall unset (st_syms st').
Proof.
  intros F U P. pose proof (parse_source_ok src st kw F) as H. rewrite P in H.
  assert (X : exists st1, names st st1 /\ st' = sym_make_unknown_array st1).
  { destruct bc as [bc|]; [destruct H as (_ & xss & st1 & _ & N & -> & _) | destruct H as (_ & st1 & N & ->)]; eauto. }
  destruct X as (st1 & N & ->). apply unknown_unset, (names_unset _ _ N), U.
Qed.

Definition line_code (text : bytes) (b : bcode) (idx : linemap) (v : vm) : vm :=
  set_cs (mkCs (Some CImmediate) 0 0) (set_data (v_pdata v) 0 (set_imm (mkCode (Some (wrap_source_text text)) (Some b) (Some idx)) v)).
(* the machine with the program compiled *)
Inductive prepared (v : vm) : vm -> Prop :=
| Pp_ready : ready v -> prepared v (set_imm no_code v)
| Pp_stale src bc idx st : v_stored v = mkCode (Some src) None None -> compiling o src = PoOk (Some bc) None st -> bcode_index bc src = Some idx ->
    prepared v (fresh_code src bc idx st (set_imm no_code v)).
Lemma prepared_world v w : prepared v w -> v_out w = v_out v /\ v_err w = v_err v /\ v_in w = v_in v /\ v_seed w = v_seed v /\ v_randk w = v_randk v /\
  v_clock w = v_clock v /\ c_source (v_stored w) = c_source (v_stored v).
Proof.
  intros [R | src bc ix st1 S C Y]; do 6 (split; [reflexivity|]); [reflexivity|]. rewrite S. reflexivity.
Qed.
Inductive line_goes (E : env) (fuel : nat) (text : bytes) (s : sess) : xres bool -> Prop :=
| Lg_error src x st : v_stored (ss_vm s) = mkCode (Some src) None None -> compiling o src = PoOk None (Some x) st ->
    line_goes E fuel text s (XOk false (mkSess (set_st st (set_imm no_code (ss_vm s))) (ss_fs s) (ss_diag s ++ [DParse x]) (ss_brk s) (ss_os s)))
| Lg_exit src s' : c_source (v_stored (ss_vm s)) = Some src -> compiling o src = PoExit -> quiet s s' -> line_goes E fuel text s (XExit s')
| Lg_crash src s' : c_source (v_stored (ss_vm s)) = Some src -> compiling o src = PoCrash -> quiet s s' -> line_goes E fuel text s (XCrash s')
| Lg_line_error v x st : prepared (ss_vm s) v -> parse_source (wrap_source_text text) (v_st v) false = PoOk None (Some x) st ->
    line_goes E fuel text s (XOk false (mkSess (set_st st v) (ss_fs s) (ss_diag s ++ [DParse x]) (ss_brk s) (ss_os s)))
| Lg_line_exit v s' : prepared (ss_vm s) v -> parse_source (wrap_source_text text) (v_st v) false = PoExit -> quiet s s' -> line_goes E fuel text s (XExit s')
| Lg_line_crash v s' : prepared (ss_vm s) v -> parse_source (wrap_source_text text) (v_st v) false = PoCrash -> quiet s s' -> line_goes E fuel text s (XCrash s')
| Lg_run v b idx st : prepared (ss_vm s) v -> parse_source (wrap_source_text text) (v_st v) false = PoOk (Some b) None st ->
    bcode_index b (wrap_source_text text) = Some idx ->
    line_goes E fuel text s (ran_statements s (run E fuel (next_break s) (line_code text b idx (set_st st v)))).

Lemma compile_eq src kw s : compile src kw s =
  match parse_source src (v_st (ss_vm s)) kw with
  | PoOk bc (Some x) st => XOk bc (mkSess (set_st st (ss_vm s)) (ss_fs s) (ss_diag s ++ [DParse x]) (ss_brk s) (ss_os s))
  | PoOk bc None st => XOk bc (set_vm (set_st st (ss_vm s)) s)
  | PoExit => XExit s
  | PoCrash => XCrash s
  | PoNoFuel => XNoFuel s
  end.
Proof. unfold compile. destruct (parse_source src (v_st (ss_vm s)) kw) as [bc [x|] st | | |]; reflexivity. Qed.
Lemma run_immediate_eq E fuel text s : (run_immediate E fuel text ;;; xret false) s =
  match ensure_program_compiled (set_vm (set_imm no_code (ss_vm s)) s) with
  | XOk true t =>
      match compile (wrap_source_text text) false t with
      | XOk None t' => XOk false t'
      | XOk (Some b) t' =>
          match bcode_index b (wrap_source_text text) with
          | None => XExit t'
          | Some idx => ran_statements t' (run E fuel (next_break t') (line_code text b idx (ss_vm t')))
          end
      | XExit t' => XExit t'
      | XCrash t' => XCrash t'
      | XNoFuel t' => XNoFuel t'
      end
  | XOk false t => XOk false t
  | XExit t => XExit t
  | XCrash t => XCrash t
  | XNoFuel t => XNoFuel t
  end.
Proof.
  unfold run_immediate. unfold xbind at 1. unfold xbind at 1, mod_vm at 1. unfold xbind at 1.
  destruct (ensure_program_compiled (set_vm (set_imm no_code (ss_vm s)) s)) as [[|] t| | |]; try reflexivity. cbv zeta. unfold xbind at 1.
  destruct (compile (wrap_source_text text) false t) as [[b|] t'| | |]; try reflexivity.
  destruct (bcode_index b (wrap_source_text text)) as [idx|]; [|reflexivity]. unfold xbind, mod_vm, with_run, get_vm. cbn [ss_vm set_vm ss_brk ss_fs ss_diag ss_os].
  unfold next_break, ran_statements, line_code.
  destruct (run E fuel match ss_brk t' with [] => None | b0 :: _ => b0 end _) as [[] w]; cbn [fst snd ss_vm]; try reflexivity; destruct (immediate_state w) as [[|]|]; reflexivity.
Qed.
Lemma ran_statements_set s t x : ss_fs t = ss_fs s -> ss_diag t = ss_diag s -> ss_brk t = ss_brk s -> ss_os t = ss_os s -> ran_statements t x = ran_statements s x.
Proof. intros A B C D. unfold ran_statements, after_run. rewrite A, B, C, D. reflexivity. Qed.
Lemma prompt_imm_good s : good s -> good (set_vm (set_imm no_code (ss_vm s)) s).
Proof. intros G. apply prompt_imm, G. Qed.
Lemma line_command E fuel text s : good s -> line_goes E fuel text s ((run_immediate E fuel text ;;; xret false) s).
Proof.
  intros G. rewrite run_immediate_eq. pose proof (prompt_imm_good s G) as G0. set (t := set_vm (set_imm no_code (ss_vm s)) s) in *.
  assert (QU : forall v, prepared (ss_vm s) v -> quiet s (set_vm v s)).
  { intros v PV. destruct (prepared_world _ _ PV) as (A & B & C & _). unfold quiet. cbn [ss_vm set_vm ss_fs ss_os ss_diag]. do 5 (split; [first [assumption | reflexivity]|]). reflexivity. }
  assert (K : forall v, prepared (ss_vm s) v -> prompt v -> ready v ->
    line_goes E fuel text s (match compile (wrap_source_text text) false (set_vm v s) with
      | XOk None t' => XOk false t'
      | XOk (Some b) t' =>
          match bcode_index b (wrap_source_text text) with
          | None => XExit t'
          | Some idx => ran_statements t' (run E fuel (next_break t') (line_code text b idx (ss_vm t')))
          end
      | XExit t' => XExit t'
      | XCrash t' => XCrash t'
      | XNoFuel t' => XNoFuel t'
      end)).
  { intros v PV GV RV. rewrite compile_eq. cbn [ss_vm set_vm ss_fs ss_diag ss_brk ss_os].
    destruct (ready_live o True ic v GV RV) as [[F _] _]. pose proof (compile_outcome (wrap_source_text text) _ false F) as CO.
    destruct (parse_source (wrap_source_text text) (v_st v) false) as [[b|] e st | | |] eqn:PS.
    - destruct (parsed_ok _ _ _ _ _ _ F PS) as (-> & _ & idx & X). rewrite X. cbn [ss_vm set_vm].
      rewrite (ran_statements_set s) by reflexivity. exact (Lg_run E fuel text s v b idx st PV PS X).
    - destruct CO as [CO _]. destruct e as [x|]; [|congruence]. exact (Lg_line_error E fuel text s v x st PV PS).
    - exact (Lg_line_exit E fuel text s v _ PV PS (QU v PV)).
    - exact (Lg_line_crash E fuel text s v _ PV PS (QU v PV)).
    - destruct CO. }
  destruct (ensure_cases o True ic t G0) as [[R ->]|(src & S & H)].
  - apply K; [apply Pp_ready; exact R|exact G0|exact R].
  - assert (S' : v_stored (ss_vm s) = mkCode (Some src) None None) by exact S.
    fold (compiling o src) in H. destruct (compiling o src) as [[bc|] e st | | |] eqn:C.
    + destruct H as (-> & idx & X & ->). unfold t. cbn [ss_vm set_vm].
      match goal with |- context [compile _ _ (set_vm ?x ?y)] => change (set_vm x y) with (set_vm x s) end.
      apply K; [exact (Pp_stale _ _ _ _ _ S' C X)| |right; discriminate]. apply fresh_prompt; try assumption. change (c_source (v_stored (ss_vm s)) = Some src). rewrite S'. reflexivity.
    + destruct H as (x & -> & ->). exact (Lg_error E fuel text s src x st S' C).
    + destruct H as (s' & -> & Q). apply (Lg_exit E fuel text s src); [rewrite S'; reflexivity|exact C|exact Q].
    + destruct H as (s' & -> & Q). apply (Lg_crash E fuel text s src); [rewrite S'; reflexivity|exact C|exact Q].
    + destruct H.
Qed.

Lemma prepared_begins text s v b idx st : good s -> prepared (ss_vm s) v -> parse_source (wrap_source_text text) (v_st v) false = PoOk (Some b) None st ->
  bcode_index b (wrap_source_text text) = Some idx -> begins text (ss_vm s) (line_code text b idx (set_st st v)).
Proof.
  intros G PV PS X.
  assert (GV : prompt v /\ ready v).
  { destruct PV as [R | src bc ix st1 S C Y].
    - split; [apply prompt_imm, G|exact R].
    - split; [|right; discriminate]. apply fresh_prompt; try assumption; [apply prompt_imm, G|]. change (c_source (v_stored (ss_vm s)) = Some src). rewrite S. reflexivity. }
  destruct GV as [GV RV]. destruct (ready_live o True ic v GV RV) as [[F K] J].
  destruct (parsed_table _ _ _ _ _ _ F PS) as (F' & CH & W).
  assert (ST : c_source (v_stored v) = c_source (v_stored (ss_vm s))).
  { destruct PV as [R | src bc ix st1 S C Y]; [reflexivity|]. change (Some src = c_source (v_stored (ss_vm s))). rewrite S. reflexivity. }
  constructor.
  - split; [|exact ST]. unfold current_code. change (v_stored (line_code text b idx (set_st st v))) with (v_stored v).
    destruct (c_source (v_stored v)) as [src|] eqn:S.
    + destruct (c_bcode (v_stored v)) as [bc|] eqn:B; [|destruct RV; congruence].
      destruct (prompt_program v src bc GV S B) as (st0 & ix & X1 & X2 & X3 & X4). exists bc, ix, st0.
      split; [rewrite <- (pr_opt _ _ _ _ GV) in X1; exact X1|]. split; [exact X2|]. split; [exact X3|]. exact (changes_trans _ _ _ X4 CH).
    + pose proof (pr_stored _ _ _ _ GV) as Q. unfold stored_state in Q. rewrite S in Q. apply Q.
  - exists b, idx, (v_st v), st. split; [exact PS|]. split; [exact X|]. split; reflexivity.
  - reflexivity.
  - destruct J as [J1 J2 J3 J4].
    assert (PI : forall h c, place_in v (eq CStored) h c -> place_in (line_code text b idx (set_st st v)) (eq CStored) h c).
    { intros h c (r & Q1 & <- & Q3). exists CStored. split; [exact Q1|]. split; [reflexivity|exact Q3]. }
    constructor.
    + eapply Forall_impl; [|exact J1]. intros c. apply PI.
    + eapply Forall_impl; [|exact J2]. intros c. apply PI.
    + intros Y. apply PI, J3, Y.
    + exact J4.
  - intros [S1 S2]. destruct PV as [[R|R] | src bc ix st1 S C Y]; [congruence|congruence|].
    split; [unfold nothing_pending; cbn; auto|]. intros p x Q. apply unset_blank.
    assert (U : Forall unset (st_syms st)).
    { eapply (parsed_unset_from (wrap_source_text text) st1 false); [exact F| |exact PS].
      pose proof (parsed_unset _ _ _ _ _ C) as U. eapply Forall_impl; [|exact U]. intros a [A _]. exact A. }
    exact (Forall_nth _ _ _ _ U Q).
  - intros NS. destruct PV as [R | src bc ix st1 S C Y]; [|destruct NS; split; rewrite S; [discriminate|reflexivity]].
    repeat (split; [reflexivity|]). intros p x Q. exact (parsed_values _ _ _ _ _ _ F PS p x Q).
  - destruct PV as [R | src bc ix st1 S C Y]; repeat (split; [reflexivity|]); reflexivity.
Qed.

(* what the source and its compilation may be when statements are typed *)
Lemma line_outcome E fuel text s : good s ->
  let r := (run_immediate E fuel text ;;; xret false) s in
  (exists u, begins text (ss_vm s) u /\ r = ran_statements s (run E fuel (next_break s) u)) \/
  (exists x t, r = XOk false t /\ not_run x s t /\
     ((exists src st, stale (ss_vm s) /\ c_source (v_stored (ss_vm s)) = Some src /\ compiling o src = PoOk None (Some x) st) \/
      (exists st0 st, parse_source (wrap_source_text text) st0 false = PoOk None (Some x) st))) \/
  (exists t src st0, r = XExit t /\ quiet s t /\ ((c_source (v_stored (ss_vm s)) = Some src /\ compiling o src = PoExit) \/ parse_source (wrap_source_text text) st0 false = PoExit)) \/
  (exists t src st0, r = XCrash t /\ quiet s t /\ ((c_source (v_stored (ss_vm s)) = Some src /\ compiling o src = PoCrash) \/ parse_source (wrap_source_text text) st0 false = PoCrash)).
Proof.
  intros G r. pose proof (line_command E fuel text s G) as H. fold r in H. clearbody r.
  assert (NR : forall x v, prepared (ss_vm s) v -> forall st, not_run x s (mkSess (set_st st v) (ss_fs s) (ss_diag s ++ [DParse x]) (ss_brk s) (ss_os s))).
  { intros x v PV st. unfold not_run. cbn [ss_vm ss_fs ss_diag ss_brk ss_os].
    do 4 (split; [reflexivity|]). exact (prepared_world _ _ PV). }
  destruct H as [src x st S C | src t S C Q | src t S C Q | v x st PV PS | v t PV PS Q | v t PV PS Q | v b idx st PV PS X].
  - right. left. exists x. eexists. split; [reflexivity|]. split.
    + unfold not_run. cbn [ss_vm ss_fs ss_diag ss_brk ss_os]. repeat (split; [reflexivity|]). reflexivity.
    + left. exists src, st. split; [split; rewrite S; [discriminate|reflexivity]|]. split; [rewrite S; reflexivity|exact C].
  - right. right. left. exists t, src, new_symbol_table. auto.
  - right. right. right. exists t, src, new_symbol_table. auto.
  - right. left. exists x. eexists. split; [reflexivity|]. split; [apply NR, PV|]. right. eauto.
  - right. right. left. exists t, [], (v_st v). auto.
  - right. right. right. exists t, [], (v_st v). auto.
  - left. exists (line_code text b idx (set_st st v)). split; [exact (prepared_begins text s v b idx st G PV PS X)|reflexivity].
Qed.

(* ---------- CONT ---------- *)

Lemma vm_continue_eq E fuel brk v : vm_continue E fuel brk v =
  match cs_code (v_stopcs v) with
  | None => (Ok false, v)
  | Some r =>
      match c_bcode (code_of v r) with
      | None => (Ok false, v)
      | Some bc =>
          match nth_error (bc_inst bc) (cs_pc (v_stopcs v)) with
          | None => (Crash, v)
          | Some i =>
              match run E fuel brk (set_cs (mkCs (Some r) (cs_line (v_stopcs v)) (if is_stop i then Datatypes.S (cs_pc (v_stopcs v)) else cs_pc (v_stopcs v))) v) with
              | (Ok _, w) => (Ok true, w)
              | (Fail e, w) => (Fail e, w)
              | (Crash, w) => (Crash, w)
              | (NoFuel, w) => (NoFuel, w)
              end
          end
      end
  end.
Proof.
  unfold vm_continue. unfold bind at 1, get at 1. destruct (cs_code (v_stopcs v)) as [r|] eqn:S; [|reflexivity].
  destruct (c_bcode (code_of v r)) as [bc|]; [|reflexivity]. destruct (nth_error (bc_inst bc) (cs_pc (v_stopcs v))) as [i|]; [|reflexivity].
  cbn [some_or_crash]. unfold bind, ret, modify. cbv zeta. rewrite ?S. destruct (run E fuel brk _) as [[] w]; reflexivity.
Qed.
Lemma cont_command E fuel rest s : good s ->
  let v := ss_vm s in
  let r := command E fuel C_CONT rest s in
  ((cs_code (v_stopcs v) = None \/ c_bcode (v_stored v) = None) /\
     r = XOk false (mkSess v (ss_fs s) (ss_diag s ++ [DCannotContinue]) (tl (ss_brk s)) (ss_os s))) \/
  (exists src bc, cs_code (v_stopcs v) = Some CStored /\ c_source (v_stored v) = Some src /\ c_bcode (v_stored v) = Some bc /\ compiled_program v src /\
    match nth_error (bc_inst bc) (cs_pc (v_stopcs v)) with
    | None => r = XCrash (after_run s v)
    | Some i => r = ran s (run E fuel (next_break s) (set_cs (mkCs (Some CStored) (cs_line (v_stopcs v)) (if is_stop i then Datatypes.S (cs_pc (v_stopcs v)) else cs_pc (v_stopcs v))) v))
    end).
Proof.
  intros G v r.
  assert (R : r = match vm_continue E fuel (next_break s) v with
                  | (Ok true, w) => XOk false (after_run s w)
                  | (Ok false, w) => XOk false (mkSess w (ss_fs s) (ss_diag s ++ [DCannotContinue]) (tl (ss_brk s)) (ss_os s))
                  | (Fail _, w) => XOk false (after_run s w)
                  | (Crash, w) => XCrash (after_run s w)
                  | (NoFuel, w) => XNoFuel (after_run s w)
                  end).
  { unfold r, v. cbn [command]. unfold xbind, continue_program, with_run, next_break, say, xret.
    destruct (vm_continue E fuel match ss_brk s with [] => None | b :: _ => b end (ss_vm s)) as [[[|]|e| |] w]; reflexivity. }
  clearbody r. subst r. rewrite vm_continue_eq.
  destruct (cs_code (v_stopcs v)) as [r0|] eqn:S; [|left; split; [left; reflexivity|reflexivity]].
  assert (R0 : r0 = CStored) by (destruct (proj2 (proj2 (proj2 (pr_refs _ _ _ _ G)))) as [X|X]; fold v in X; congruence). subst r0.
  cbn [code_of]. destruct (c_bcode (v_stored v)) as [bc|] eqn:B; [|left; split; [right; reflexivity|reflexivity]].
  right. assert (SO : exists src, c_source (v_stored v) = Some src).
  { pose proof (pr_stored _ _ _ _ G) as Q. unfold stored_state in Q. fold v in Q. destruct (c_source (v_stored v)) as [src|]; [eauto|]. destruct Q as [Q _]. rewrite Q in B. discriminate B. }
  destruct SO as (src & SO). exists src, bc. split; [reflexivity|]. split; [exact SO|]. split; [reflexivity|]. split; [exact (prompt_compiled v src bc G SO B)|].
  destruct (nth_error (bc_inst bc) (cs_pc (v_stopcs v))) as [i|]; [|reflexivity].
  destruct (run E fuel (next_break s) _) as [[] w]; reflexivity.
Qed.
End Run.
