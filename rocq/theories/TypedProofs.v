(* What typed lines do in a session. *)
From Coq Require Import Lia ZifyBool ZifyNat ZifyN.
From Verif Require Import Base BaseLemmas Num SourceModel SourceSpec SourceProofs LineMapModel BcodeModel SymbolModel SymbolSpec SymbolProofs
  LexModel ParseModel GrammarSpec StmtProofs CompileProofs LineSpec LineProofs SessionProofs VmModel VmLemmas VmSpec ControlProofs VmTyping KindProofs
  AlikeProofs SessionModel MonitorModel MonSpec MonProofs SessionSpec PlaceProofs PromptProofs RunProofs ContProofs.
Local Open Scope nat_scope.
Local Open Scope sess_scope.
Local Opaque init_builtins new_symbol_table parse_source.

Lemma stale_step o s : good o False False s -> stale (ss_vm s) -> good o True False s.
Proof.
  intros [P1 P2 P3 P4 P5] [S B]. constructor; try assumption. unfold stored_state in *.
  destruct (c_source (v_stored (ss_vm s))) as [src|]; [|congruence]. rewrite B in *. exact P5.
Qed.
Lemma in_step_good o s : in_step o s -> good o True False s.
Proof.
  intros [S|[S ST]].
  - apply (session_good o True False no_renum); [auto|exact S].
  - apply stale_step; [exact (session_any o s S)|exact ST].
Qed.
Lemma session_weaken o (a b : bytes -> Prop) s : (forall l, a l -> b l) -> session o a s -> session o b s.
Proof.
  intros W. induction 1 as [| |E fuel line s s' S IH A I|s s' S IH M]; [apply Ses_start|apply Ses_randomized|exact (Ses_line o b E fuel line s s' IH (W _ A) I)|exact (Ses_world o b s s' IH M)].
Qed.
Lemma in_step_any o s : in_step o s -> session o any_line s.
Proof. intros [S|[S _]]; [|exact S]. eapply session_weaken; [|exact S]. intros l _. exact I. Qed.

(* ---------- RUN ---------- *)

Lemma typed_run o s line rest E fuel : in_step o s -> means line (MCommand C_RUN rest) ->
  match c_source (v_stored (ss_vm s)) with
  | None => interpret E fuel line s = XOk false (set_vm (set_st (clear_symbol_table_values (v_st (ss_vm s))) (ss_vm s)) s)
  | Some src =>
      match compiling o src with
      | PoOk (Some _) _ _ => exists u, starts src (ss_vm s) u /\ interpret E fuel line s = ran s (run E fuel (next_break s) u)
      | PoOk None e _ => exists x t, e = Some x /\ interpret E fuel line s = XOk false t /\ not_run x s t
      | PoExit => exists t, interpret E fuel line s = XExit t /\ quiet s t
      | PoCrash => exists t, interpret E fuel line s = XCrash t /\ quiet s t
      | PoNoFuel => False
      end
  end.
Proof.
  intros ST M. apply in_step_good in ST. rewrite (interpret_means E fuel line _ s M). cbn [act].
  destruct (run_command o False E fuel rest s ST) as [S | src x st S C | src t S C Q | src t S C Q | src bc st u S C U _]; rewrite S; [reflexivity| | | |]; rewrite C.
  - exists x. eexists. split; [reflexivity|]. split; [reflexivity|]. unfold not_run. cbn [ss_vm ss_fs ss_diag ss_brk ss_os]. repeat (split; [reflexivity|]). reflexivity.
  - eauto.
  - eauto.
  - eauto.
Qed.

Lemma run_clears o s line rest E fuel : session o any_line s -> means line (MCommand C_RUN rest) ->
  (exists u, clears (ss_vm s) u /\ (interpret E fuel line s = ran s (run E fuel (next_break s) u) \/
     interpret E fuel line s = XOk false (set_vm u s) /\ c_source (v_stored (ss_vm s)) = None)) \/
  (stale (ss_vm s) /\ exists t, interpret E fuel line s = XExit t \/ interpret E fuel line s = XCrash t \/
     exists x, interpret E fuel line s = XOk false t /\ not_run x s t).
Proof.
  intros S M. pose proof (session_any o s S) as G.
  assert (CL : forall v, ~ stale v -> clears v (cleared v)).
  { intros v NS. split.
    - intros p x E0. cbn in E0. rewrite nth_error_map in E0. destruct (nth_error (st_syms (v_st v)) p) as [s0|] eqn:Q; [|discriminate E0].
      destruct (clear_view (v_st v) p s0 Q) as (s' & Q' & A1 & A2 & A3 & A4 & A5 & A6 & A7).
      cbn in Q'. rewrite nth_error_map, Q in Q'. cbn [option_map] in *. assert (s' = x) by congruence. subst s'. rewrite A3, A4. split; [exact A5|exact A6].
    - intros _ p x Q. destruct (clear_view (v_st v) p x Q) as (s' & Q' & A1 & A2 & A3 & A4 & A5 & A6 & A7). exists s'. auto. }
  destruct (c_source (v_stored (ss_vm s))) as [src|] eqn:SO.
  - destruct (c_bcode (v_stored (ss_vm s))) as [bc|] eqn:B.
    + left. assert (NS : ~ stale (ss_vm s)) by (intros [_ X]; congruence). exists (about_to_run (cleared (ss_vm s))). split; [exact (CL _ NS)|]. left.
      rewrite (interpret_means E fuel line _ s M). cbn [act].
      assert (CE : command E fuel C_RUN rest s = (run_program E fuel ;;; xret false) (set_vm (cleared (ss_vm s)) s)) by reflexivity.
      rewrite CE, run_program_eq. assert (SS : stored_source (ss_vm (set_vm (cleared (ss_vm s)) s)) = Some src) by exact SO. rewrite SS.
      rewrite ensure_ready by (right; cbn; rewrite B; discriminate). cbn [ss_vm set_vm].
      change (set_vm (about_to_run (cleared (ss_vm s))) (set_vm (cleared (ss_vm s)) s)) with (set_vm (about_to_run (cleared (ss_vm s))) s). apply with_run_ran.
    + assert (ST : stale (ss_vm s)) by (split; congruence). pose proof (typed_run o s line rest E fuel (or_intror (conj S ST)) M) as H. rewrite SO in H.
      destruct (compiling o src) as [[b|] e st | | |].
      * left. destruct H as (u & U & H). exists u. split; [|left; exact H]. split; [exact (sr_values _ _ _ U)|]. intros NS. destruct (NS ST).
      * right. destruct H as (x & t & _ & H & NR). split; [exact ST|]. exists t. right. right. eauto.
      * right. destruct H as (t & H & _). split; [exact ST|]. exists t. auto.
      * right. destruct H as (t & H & _). split; [exact ST|]. exists t. auto.
      * destruct H.
  - left. assert (NS : ~ stale (ss_vm s)) by (intros [X _]; congruence). exists (cleared (ss_vm s)). split; [exact (CL _ NS)|]. right. split; [|reflexivity].
    rewrite (interpret_means E fuel line _ s M). cbn [act].
    assert (CE : command E fuel C_RUN rest s = (run_program E fuel ;;; xret false) (set_vm (cleared (ss_vm s)) s)) by reflexivity.
    rewrite CE, run_program_eq. assert (SS : stored_source (ss_vm (set_vm (cleared (ss_vm s)) s)) = None) by exact SO. rewrite SS. reflexivity.
Qed.

(* ---------- statements ---------- *)

Lemma typed_statements o s line text E fuel : in_step o s -> means line (MStatements text) ->
  let r := interpret E fuel line s in
  (exists u, begins text (ss_vm s) u /\ r = ran_statements s (run E fuel (next_break s) u)) \/
  (exists x t, r = XOk false t /\ not_run x s t /\
     ((exists src st, stale (ss_vm s) /\ c_source (v_stored (ss_vm s)) = Some src /\ compiling o src = PoOk None (Some x) st) \/
      (exists st0 st, parse_source (wrap_source_text text) st0 false = PoOk None (Some x) st))) \/
  (exists t src st0, r = XExit t /\ quiet s t /\ ((c_source (v_stored (ss_vm s)) = Some src /\ compiling o src = PoExit) \/ parse_source (wrap_source_text text) st0 false = PoExit)) \/
  (exists t src st0, r = XCrash t /\ quiet s t /\ ((c_source (v_stored (ss_vm s)) = Some src /\ compiling o src = PoCrash) \/ parse_source (wrap_source_text text) st0 false = PoCrash)).
Proof.
  intros ST M r. apply in_step_good in ST. pose proof (line_outcome o False E fuel text s ST) as H. unfold r.
  rewrite (interpret_means E fuel line _ s M). cbn [act]. exact H.
Qed.

(* ---------- CONT ---------- *)

Lemma typed_cont o s line rest E fuel : in_step o s -> means line (MCommand C_CONT rest) ->
  let v := ss_vm s in
  let r := interpret E fuel line s in
  ((cs_code (v_stopcs v) = None \/ c_bcode (v_stored v) = None) /\ refuses E fuel line s) \/
  (exists src bc, c_source (v_stored v) = Some src /\ compiled_program v src /\ cs_code (v_stopcs v) = Some CStored /\ c_bcode (v_stored v) = Some bc /\
    match nth_error (bc_inst bc) (cs_pc (v_stopcs v)) with
    | None => r = XCrash (after_run s v)
    | Some i => r = ran s (run E fuel (next_break s) (set_cs (mkCs (Some CStored) (cs_line (v_stopcs v)) (if is_stop i then S (cs_pc (v_stopcs v)) else cs_pc (v_stopcs v))) v))
    end).
Proof.
  intros ST M v r. apply in_step_good in ST. pose proof (cont_command o False E fuel rest s ST) as H. unfold r, refuses.
  rewrite (interpret_means E fuel line _ s M). cbn [act]. cbv zeta in H. fold v in H.
  destruct H as [[A B]|(src & bc & A & B & C & D & H)]; [left; split; [exact A|exact B]|]. right. exists src, bc. auto 10.
Qed.
Lemma stale_cont o s line rest E fuel : session o any_line s -> stale (ss_vm s) -> means line (MCommand C_CONT rest) -> refuses E fuel line s.
Proof.
  intros S ST M. destruct (typed_cont o s line rest E fuel (or_intror (conj S ST)) M) as [[_ H]|(src & bc & _ & _ & _ & B & _)]; [exact H|].
  destruct ST as [_ X]. congruence.
Qed.

(* ---------- the machines in which run is called ---------- *)

Lemma stale_stored o s : good o True False s -> stale (ss_vm s) -> exists src, v_stored (ss_vm s) = mkCode (Some src) None None.
Proof.
  intros G [S B]. pose proof (pr_stored _ _ _ _ G) as P. unfold stored_state in P. destruct (v_stored (ss_vm s)) as [so bo io]. cbn [c_source c_bcode c_index] in *.
  destruct so as [src|]; [|congruence]. subst bo. subst io. eauto.
Qed.
(* the result of compiling *)
Lemma ensure_fresh o s t src : good o True False s -> v_stored (ss_vm s) = mkCode (Some src) None None -> ensure_program_compiled s = XOk true t ->
  exists bc idx st, compiling o src = PoOk (Some bc) None st /\ bcode_index bc src = Some idx /\ t = set_vm (fresh_code src bc idx st (ss_vm s)) s.
Proof.
  intros G SO EN. destruct (ensure_cases o True False s G) as [[R E1]|(src' & SO' & H)].
  - exfalso. destruct R as [R|R]; rewrite SO in R; [discriminate R|destruct (R eq_refl)].
  - assert (src' = src) by congruence. subst src'. fold (compiling o src) in H. destruct (compiling o src) as [[bc|] e st | | |].
    + destruct H as (-> & idx & X & H). exists bc, idx, st. split; [reflexivity|]. split; [exact X|]. rewrite H in EN. injection EN as <-. reflexivity.
    + destruct H as (x & _ & H). rewrite H in EN. discriminate EN.
    + destruct H as (t' & H & _). rewrite H in EN. discriminate EN.
    + destruct H as (t' & H & _). rewrite H in EN. discriminate EN.
    + destruct H.
Qed.
Lemma run_fresh o s t : good o True False s -> stale (ss_vm s) -> ensure_program_compiled (set_vm (cleared (ss_vm s)) s) = XOk true t ->
  exists src, c_source (v_stored (ss_vm s)) = Some src /\ compiled_program (about_to_run (ss_vm t)) src.
Proof.
  intros G ST EN. destruct (stale_stored o s G ST) as (src & SO). exists src. split; [rewrite SO; reflexivity|].
  pose proof (good_cleared o False s G) as GC.
  destruct (ensure_fresh o (set_vm (cleared (ss_vm s)) s) t src GC SO EN) as (bc & idx & st & C & X & ->).
  cbn [ss_vm set_vm]. exact (sr_code _ _ _ (starts_fresh o (cleared (ss_vm s)) src bc idx st (pr_opt _ _ _ _ GC) C X)).
Qed.
Lemma line_fresh o s t t' text b idx : good o True False s -> stale (ss_vm s) -> ensure_program_compiled (set_vm (set_imm no_code (ss_vm s)) s) = XOk true t ->
  compile (wrap_source_text text) false t = XOk (Some b) t' -> bcode_index b (wrap_source_text text) = Some idx ->
  begins text (ss_vm s) (line_code text b idx (ss_vm t')).
Proof.
  intros G ST EN CO X. destruct (stale_stored o s G ST) as (src & SO).
  pose proof (prompt_imm_good o False s G) as GC.
  destruct (ensure_fresh o (set_vm (set_imm no_code (ss_vm s)) s) t src GC SO EN) as (bc & ix & st & C & XI & ->). cbn [ss_vm set_vm] in CO.
  pose proof (Pp_stale o _ src bc ix st SO C XI) as PV.
  assert (F1 : fine (v_st (fresh_code src bc ix st (set_imm no_code (ss_vm s))))).
  { destruct (parsed_table _ _ _ _ _ _ fine_init C) as (F & _). exact F. }
  remember (fresh_code src bc ix st (set_imm no_code (ss_vm s))) as w eqn:W. clear W.
  rewrite compile_eq in CO. cbn [ss_vm set_vm] in CO.
  destruct (parse_source (wrap_source_text text) (v_st w) false) as [b0 e st1 | | |] eqn:PS; try discriminate CO.
  assert (CO' : b0 = Some b /\ ss_vm t' = set_st st1 w).
  { destruct e; injection CO as -> <-; auto. }
  destruct CO' as (-> & V). destruct (parsed_ok _ _ _ _ _ _ F1 PS) as (-> & _).
  rewrite V. exact (prepared_begins o False text s _ b idx st1 G PV PS X).
Qed.
Lemma called_fresh o s u : session o any_line s -> stale (ss_vm s) -> run_called s u ->
  nothing_pending u /\ exists src, c_source (v_stored (ss_vm s)) = Some src /\ compiled_program u src.
Proof.
  intros S ST C. pose proof (stale_step o s (session_any o s S) ST) as G. destruct C as [t NS EN | r bc i Q B I0 | text t t' b idx EN CO X].
  - split; [unfold nothing_pending; cbn; auto|]. exact (run_fresh o s t G ST EN).
  - exfalso. destruct ST as [ST1 ST2]. assert (R0 : r = CStored) by (destruct (proj2 (proj2 (proj2 (pr_refs _ _ _ _ G)))) as [X|X]; congruence). subst r. cbn in B. congruence.
  - pose proof (line_fresh o s t t' text b idx G ST EN CO X) as BG. fold (line_code text b idx (ss_vm t')).
    split; [exact (proj1 (bg_stale _ _ _ BG ST))|]. destruct (stale_stored o s G ST) as (src & SO).
    assert (SO' : c_source (v_stored (ss_vm s)) = Some src) by (rewrite SO; reflexivity).
    exists src. split; [exact SO'|]. pose proof (bg_program _ _ _ BG) as [P1 P2]. unfold current_code in P1. rewrite P2, SO' in P1. exact P1.
Qed.

Lemma called_pending o s u : session o any_line s -> run_called s u -> pending_in (eq CStored) u.
Proof.
  intros S C. pose proof (session_any o s S) as G. destruct C as [t NS EN | r bc i Q B I0 | text t t' b idx EN CO X].
  - apply pending_idle_cs, idle_pending, idle_reset.
  - assert (R0 : r = CStored) by (destruct (proj2 (proj2 (proj2 (pr_refs _ _ _ _ G)))) as [X|X]; congruence). subst r.
    cbn [code_of] in B. assert (R : ready (ss_vm s)) by (right; congruence). destruct (ready_live _ _ _ _ G R) as [L J]. apply pending_idle_cs, J.
  - assert (G0 : good o False False (set_vm (set_imm no_code (ss_vm s)) s)) by (apply prompt_imm, G).
    pose proof (ensure_good o False False _ G0) as H. rewrite EN in H. destruct H as [G1 R1]. specialize (R1 eq_refl).
    pose proof (compile_cases o False False (wrap_source_text text) false t G1 R1) as H. rewrite CO in H. destruct H as (st & e & PS & V & G2 & R2).
    destruct (ready_live _ _ _ _ G2 R2) as [L2 [J1 J2 J3 J4]].
    apply pending_idle_cs, pending_data.
    assert (PI : forall c h x, place_in (ss_vm t') (eq CStored) h x -> place_in (set_imm c (ss_vm t')) (eq CStored) h x).
    { intros c h x (r & Q1 & <- & Q3). exists CStored. split; [exact Q1|]. split; [reflexivity|exact Q3]. }
    constructor.
    + eapply Forall_impl; [|exact J1]. intros c. apply PI.
    + eapply Forall_impl; [|exact J2]. intros c. apply PI.
    + intros Y. apply PI, J3, Y.
    + exact J4.
Qed.

Lemma uncompiled_cont o s line rest E fuel : session o any_line s -> c_bcode (v_stored (ss_vm s)) = None -> means line (MCommand C_CONT rest) -> refuses E fuel line s.
Proof.
  intros S B M. pose proof (session_any o s S) as G. unfold refuses. rewrite (interpret_means E fuel line _ s M). cbn [act command].
  unfold xbind, continue_program, with_run. rewrite vm_continue_eq. destruct (cs_code (v_stopcs (ss_vm s))) as [r|] eqn:Q; [|reflexivity].
  assert (R0 : r = CStored) by (destruct (proj2 (proj2 (proj2 (pr_refs _ _ _ _ G)))) as [X|X]; congruence). subst r.
  cbn [code_of]. rewrite B. reflexivity.
Qed.
(* lines that may run the program or statements *)
Lemma typed_calls o s line m E fuel : session o any_line s -> means line m ->
  (exists rest, m = MCommand C_RUN rest \/ m = MCommand C_CONT rest \/ m = MStatements rest) ->
  (exists u, run_called s u /\ (interpret E fuel line s = ran s (run E fuel (next_break s) u) \/ interpret E fuel line s = ran_statements s (run E fuel (next_break s) u))) \/
  (exists t, (interpret E fuel line s = XOk false t \/ interpret E fuel line s = XExit t \/ interpret E fuel line s = XCrash t) /\
     v_out (ss_vm t) = v_out (ss_vm s) /\ v_err (ss_vm t) = v_err (ss_vm s) /\ v_in (ss_vm t) = v_in (ss_vm s)).
Proof.
  intros S M (rest & K). pose proof (session_any o s S) as G. rewrite (interpret_means E fuel line m s M).
  destruct K as [-> | [-> | ->]]; cbn [act].
  - assert (CE : command E fuel C_RUN rest s = (run_program E fuel ;;; xret false) (set_vm (cleared (ss_vm s)) s)) by reflexivity.
    rewrite CE, run_program_eq. clear CE.
    assert (SS : stored_source (ss_vm (set_vm (cleared (ss_vm s)) s)) = stored_source (ss_vm s)) by reflexivity. rewrite SS.
    destruct (stored_source (ss_vm s)) as [src|] eqn:SO; [|right; eexists; split; [left; reflexivity|]; split; [reflexivity|split; reflexivity]].
    assert (GC : good o False False (set_vm (cleared (ss_vm s)) s)) by exact (xsafe_clear_values o False False s G).
    destruct (ensure_program_compiled (set_vm (cleared (ss_vm s)) s)) as [[|] t|t|t|t] eqn:EN.
    + left. exists (about_to_run (ss_vm t)). split; [apply (Rc_run s t); [congruence|exact EN]|]. left.
      assert (T : ss_fs t = ss_fs s /\ ss_diag t = ss_diag s /\ ss_brk t = ss_brk s /\ ss_os t = ss_os s).
      { destruct (ensure_cases o False False _ GC) as [[_ E1]|(src' & _ & H)]; [rewrite E1 in EN; injection EN as <-; auto|].
        fold (compiling o src') in H. destruct (compiling o src') as [[bc|] e st | | |].
        - destruct H as (_ & idx & _ & H). rewrite H in EN. injection EN as <-. auto.
        - destruct H as (x & _ & H). rewrite H in EN. discriminate EN.
        - destruct H as (x & H & _). rewrite H in EN. discriminate EN.
        - destruct H as (x & H & _). rewrite H in EN. discriminate EN.
        - destruct H. }
      destruct T as (T1 & T2 & T3 & T4). rewrite with_run_ran. unfold ran, after_run, next_break. rewrite T1, T2, T3, T4. reflexivity.
    + right. exists t. split; [left; reflexivity|]. destruct (ensure_cases o False False _ GC) as [[_ E1]|(src' & _ & H)]; [rewrite E1 in EN; discriminate EN|].
      fold (compiling o src') in H. destruct (compiling o src') as [[bc|] e st | | |].
      * destruct H as (_ & idx & _ & H). rewrite H in EN. discriminate EN.
      * destruct H as (x & _ & H). rewrite H in EN. injection EN as <-. split; [reflexivity|split; reflexivity].
      * destruct H as (x & H & _). rewrite H in EN. discriminate EN.
      * destruct H as (x & H & _). rewrite H in EN. discriminate EN.
      * destruct H.
    + right. exists t. split; [right; left; reflexivity|]. destruct (ensure_cases o False False _ GC) as [[_ E1]|(src' & _ & H)]; [rewrite E1 in EN; discriminate EN|].
      fold (compiling o src') in H. destruct (compiling o src') as [[bc|] e st | | |].
      * destruct H as (_ & idx & _ & H). rewrite H in EN. discriminate EN.
      * destruct H as (x & _ & H). rewrite H in EN. discriminate EN.
      * destruct H as (x & H & Q). rewrite H in EN. injection EN as <-. destruct Q as (Q1 & Q2 & Q3 & _). auto.
      * destruct H as (x & H & _). rewrite H in EN. discriminate EN.
      * destruct H.
    + right. exists t. split; [right; right; reflexivity|]. destruct (ensure_cases o False False _ GC) as [[_ E1]|(src' & _ & H)]; [rewrite E1 in EN; discriminate EN|].
      fold (compiling o src') in H. destruct (compiling o src') as [[bc|] e st | | |].
      * destruct H as (_ & idx & _ & H). rewrite H in EN. discriminate EN.
      * destruct H as (x & _ & H). rewrite H in EN. discriminate EN.
      * destruct H as (x & H & _). rewrite H in EN. discriminate EN.
      * destruct H as (x & H & Q). rewrite H in EN. injection EN as <-. destruct Q as (Q1 & Q2 & Q3 & _). auto.
      * destruct H.
    + exfalso. destruct (ensure_cases o False False _ GC) as [[_ E1]|(src' & _ & H)]; [rewrite E1 in EN; discriminate EN|].
      fold (compiling o src') in H. destruct (compiling o src') as [[bc|] e st | | |].
      * destruct H as (_ & idx & _ & H). rewrite H in EN. discriminate EN.
      * destruct H as (x & _ & H). rewrite H in EN. discriminate EN.
      * destruct H as (x & H & _). rewrite H in EN. discriminate EN.
      * destruct H as (x & H & _). rewrite H in EN. discriminate EN.
      * destruct H.
  - cbn [command]. unfold xbind, continue_program, with_run. rewrite vm_continue_eq.
    destruct (cs_code (v_stopcs (ss_vm s))) as [r|] eqn:Q; [|right; eexists; split; [left; reflexivity|]; split; [reflexivity|split; reflexivity]].
    destruct (c_bcode (code_of (ss_vm s) r)) as [bc|] eqn:B; [|right; eexists; split; [left; reflexivity|]; split; [reflexivity|split; reflexivity]].
    destruct (nth_error (bc_inst bc) (cs_pc (v_stopcs (ss_vm s)))) as [i|] eqn:N0; [|right; eexists; split; [right; right; reflexivity|]; split; [reflexivity|split; reflexivity]].
    left. eexists. split; [exact (Rc_cont s r bc i Q B N0)|]. left. fold (next_break s).
    destruct (run E fuel (next_break s) _) as [[] w]; reflexivity.
  - rewrite run_immediate_eq. assert (GI : good o False False (set_vm (set_imm no_code (ss_vm s)) s)) by (apply prompt_imm, G).
    assert (EC : forall t, (ensure_program_compiled (set_vm (set_imm no_code (ss_vm s)) s) = XOk true t \/ ensure_program_compiled (set_vm (set_imm no_code (ss_vm s)) s) = XOk false t \/
       ensure_program_compiled (set_vm (set_imm no_code (ss_vm s)) s) = XExit t \/ ensure_program_compiled (set_vm (set_imm no_code (ss_vm s)) s) = XCrash t) ->
       v_out (ss_vm t) = v_out (ss_vm s) /\ v_err (ss_vm t) = v_err (ss_vm s) /\ v_in (ss_vm t) = v_in (ss_vm s) /\ 
       (ensure_program_compiled (set_vm (set_imm no_code (ss_vm s)) s) = XOk true t -> ss_fs t = ss_fs s /\ ss_diag t = ss_diag s /\ ss_brk t = ss_brk s /\ ss_os t = ss_os s)).
    { intros t T. destruct (ensure_cases o False False _ GI) as [[_ E1]|(src' & _ & H)].
      - rewrite E1 in *. destruct T as [T|[T|[T|T]]]; try discriminate T. injection T as <-. do 3 (split; [reflexivity|]). auto.
      - fold (compiling o src') in H. destruct (compiling o src') as [[bc|] e st | | |].
        + destruct H as (_ & idx & _ & H). rewrite H in *. destruct T as [T|[T|[T|T]]]; try discriminate T. injection T as <-. do 3 (split; [reflexivity|]). auto.
        + destruct H as (x & _ & H). rewrite H in *. destruct T as [T|[T|[T|T]]]; try discriminate T. injection T as <-. do 3 (split; [reflexivity|]). discriminate.
        + destruct H as (x & H & (Q1 & Q2 & Q3 & _)). rewrite H in *. destruct T as [T|[T|[T|T]]]; try discriminate T. injection T as <-. do 3 (split; [assumption|]). discriminate.
        + destruct H as (x & H & (Q1 & Q2 & Q3 & _)). rewrite H in *. destruct T as [T|[T|[T|T]]]; try discriminate T. injection T as <-. do 3 (split; [assumption|]). discriminate.
        + destruct H. }
    pose proof (ensure_good o False False _ GI) as EG.
    destruct (ensure_program_compiled (set_vm (set_imm no_code (ss_vm s)) s)) as [[|] t|t|t|t] eqn:EN.
    + destruct (EC t (or_introl eq_refl)) as (O1 & O2 & O3 & T). destruct (T eq_refl) as (T1 & T2 & T3 & T4). destruct EG as [G1 R1]. specialize (R1 eq_refl).
      destruct (ready_live _ _ _ _ G1 R1) as [[F1 _] _]. pose proof (compile_outcome (wrap_source_text rest) _ false F1) as CO.
      pose proof (compile_eq (wrap_source_text rest) false t) as CE.
      destruct (compile (wrap_source_text rest) false t) as [[b|] t'|t'|t'|t'] eqn:CC.
      * destruct (parse_source (wrap_source_text rest) (v_st (ss_vm t)) false) as [[b'|] e st | | |] eqn:PS; try (destruct e; discriminate CE); try discriminate CE.
        destruct (parsed_ok _ _ _ _ _ _ F1 PS) as (-> & _ & idx & X). injection CE as -> ->. rewrite X.
        left. eexists. split; [exact (Rc_line s rest t _ b' idx EN CC X)|]. right. cbn [ss_vm set_vm]. rewrite (ran_statements_set s) by assumption.
        unfold next_break. cbn [ss_brk set_vm]. rewrite T3. reflexivity.
      * right. exists t'. split; [left; reflexivity|]. destruct (parse_source (wrap_source_text rest) (v_st (ss_vm t)) false) as [bc [x|] st | | |]; try discriminate CE; injection CE as _ ->; cbn [ss_vm set_vm]; auto.
      * right. exists t'. split; [right; left; reflexivity|]. destruct (parse_source (wrap_source_text rest) (v_st (ss_vm t)) false) as [bc [x|] st | | |]; try discriminate CE; injection CE as ->; auto.
      * right. exists t'. split; [right; right; reflexivity|]. destruct (parse_source (wrap_source_text rest) (v_st (ss_vm t)) false) as [bc [x|] st | | |]; try discriminate CE; injection CE as ->; auto.
      * exfalso. destruct (parse_source (wrap_source_text rest) (v_st (ss_vm t)) false) as [bc [x|] st | | |]; try discriminate CE. exact CO.
    + right. exists t. split; [left; reflexivity|]. destruct (EC t (or_intror (or_introl eq_refl))) as (O1 & O2 & O3 & _). auto.
    + right. exists t. split; [right; left; reflexivity|]. destruct (EC t (or_intror (or_intror (or_introl eq_refl)))) as (O1 & O2 & O3 & _). auto.
    + right. exists t. split; [right; right; reflexivity|]. destruct (EC t (or_intror (or_intror (or_intror eq_refl)))) as (O1 & O2 & O3 & _). auto.
    + exfalso. destruct (ensure_cases o False False _ GI) as [[_ E1]|(src' & _ & H)]; [rewrite E1 in EN; discriminate EN|].
      fold (compiling o src') in H. destruct (compiling o src') as [[bc|] e st | | |].
      * destruct H as (_ & idx & _ & H). rewrite H in EN. discriminate EN.
      * destruct H as (x & _ & H). rewrite H in EN. discriminate EN.
      * destruct H as (x & H & _). rewrite H in EN. discriminate EN.
      * destruct H as (x & H & _). rewrite H in EN. discriminate EN.
      * destruct H.
Qed.

(* ---------- what changes the program ---------- *)

Definition src_of (s : sess) : option source := c_source (v_stored (ss_vm s)).
Definition xsame {A} (m : X A) : Prop := forall s, match m s with XOk _ t => src_of t = src_of s | _ => True end.
Lemma xsame_ret {A} (a : A) : xsame (xret a).
Proof. intros s. reflexivity. Qed.
Lemma xsame_bind {A B} (m : X A) (k : A -> X B) : xsame m -> (forall a, xsame (k a)) -> xsame (xbind m k).
Proof.
  intros H K s. unfold xbind. specialize (H s). destruct (m s) as [a t| | |]; try exact I. specialize (K a t). destruct (k a t) as [b t'| | |]; try exact I. congruence.
Qed.
Lemma xsame_get {B} (k : vm -> X B) : (forall v, xsame (k v)) -> xsame (xbind get_vm k).
Proof. intros K. apply xsame_bind; [intros s; reflexivity|exact K]. Qed.
Lemma xsame_say d : xsame (say d).
Proof. intros s. reflexivity. Qed.
Lemma xsame_out b : xsame (out b).
Proof. intros s. reflexivity. Qed.
Lemma xsame_mod f : (forall v, c_source (v_stored (f v)) = c_source (v_stored v)) -> xsame (mod_vm f).
Proof. intros H s. apply H. Qed.
Lemma xsame_eol b : xsame (check_eol b).
Proof. unfold check_eol. destruct (at_eol _); [apply xsame_ret|]. apply xsame_bind; [apply xsame_say|intros; apply xsame_ret]. Qed.
Lemma xsame_compile src kw : xsame (compile src kw).
Proof. intros s. rewrite compile_eq. destruct (parse_source src (v_st (ss_vm s)) kw) as [bc [x|] st | | |]; exact I || reflexivity. Qed.
Lemma xsame_ensure : xsame ensure_program_compiled.
Proof.
  intros s. unfold ensure_program_compiled. unfold xbind at 1, get_vm at 1. destruct (c_source (v_stored (ss_vm s))) as [src|] eqn:S; [|reflexivity].
  destruct (c_bcode (v_stored (ss_vm s))); [reflexivity|]. destruct (c_index (v_stored (ss_vm s))); [exact I|]. unfold xbind at 1, xret at 1.
  unfold xbind at 1, vm_clear_names, mod_vm at 1. unfold xbind at 1.
  match goal with |- context [compile ?a ?b ?c] => pose proof (xsame_compile a b c) as H; destruct (compile a b c) as [[bc|] t| | |] end; try exact I; try exact H.
  destruct (bcode_index bc src); [|exact I]. unfold src_of. rewrite S. reflexivity.
Qed.
Lemma stays_source v w : stays w = stays v -> c_source (v_stored w) = c_source (v_stored v).
Proof. intros H. apply stays_split in H. destruct H as [-> _]. reflexivity. Qed.
Lemma xsame_with_run E fuel : xsame (with_run (run E fuel) tt).
Proof.
  intros s. unfold with_run. set (b := match ss_brk s with [] => None | b :: _ => b end).
  pose proof (run_stays E fuel b (ss_vm s)) as H. destruct (run E fuel b (ss_vm s)) as [[] w]; try exact I; apply stays_source in H; exact H.
Qed.
Lemma xsame_continue E fuel : xsame (continue_program E fuel).
Proof.
  intros s. unfold continue_program, with_run. set (b := match ss_brk s with [] => None | b :: _ => b end). rewrite vm_continue_eq.
  destruct (cs_code (v_stopcs (ss_vm s))) as [r|]; [|reflexivity]. destruct (c_bcode (code_of (ss_vm s) r)) as [bc|]; [|reflexivity].
  destruct (nth_error (bc_inst bc) (cs_pc (v_stopcs (ss_vm s)))) as [i|]; [|exact I].
  match goal with |- context [run E fuel b ?u] => pose proof (run_stays E fuel b u) as H; destruct (run E fuel b u) as [[] w] end; try exact I; apply stays_source in H; exact H.
Qed.
Lemma xsame_list_loop src a b p : forall n, xsame (list_loop src a b p n).
Proof.
  induction src as [|l src IH]; intros n; cbn [list_loop]; [apply xsame_ret|]. destruct (b <? ln_num l)%N; [apply xsame_ret|]. destruct (a <=? ln_num l)%N; [|apply IH]. cbv zeta.
  apply xsame_bind; [apply xsame_out|]. intros _. apply xsame_bind; [|intros; apply IH].
  destruct (_ && _); [|apply xsame_out]. unfold await_newline. apply xsame_mod. reflexivity.
Qed.
(* the source is the same or it has to be compiled *)
Definition xchg {A} (m : X A) : Prop :=
  forall s, match m s with XOk _ t => src_of t = src_of s \/ c_bcode (v_stored (ss_vm t)) = None | _ => True end.
Definition xinert {A} (m : X A) : Prop := forall s, match m s with XOk _ t => v_stored (ss_vm t) = v_stored (ss_vm s) | _ => True end.
Lemma xsame_chg {A} (m : X A) : xsame m -> xchg m.
Proof. intros H s. specialize (H s). destruct (m s); auto. Qed.
Lemma xchg_then {A B} (m : X A) (k : A -> X B) : xchg m -> (forall a, xinert (k a)) -> xchg (xbind m k).
Proof.
  intros H K s. unfold xbind. specialize (H s). destruct (m s) as [a t| | |]; try exact I. specialize (K a t). destruct (k a t) as [b t'| | |]; try exact I.
  unfold src_of in *. rewrite K. exact H.
Qed.
Lemma xchg_after {A B} (m : X A) (k : A -> X B) : xsame m -> (forall a, xchg (k a)) -> xchg (xbind m k).
Proof.
  intros H K s. unfold xbind. specialize (H s). destruct (m s) as [a t| | |]; try exact I. specialize (K a t). destruct (k a t) as [b t'| | |]; try exact I.
  rewrite <- H. exact K.
Qed.
Lemma inert_ret {A} (a : A) : xinert (xret a).
Proof. intros s. reflexivity. Qed.
Lemma xchg_changed (f : vm -> vm) : xchg (mod_vm (fun v => stored_program_changed (f v))).
Proof. intros s. right. reflexivity. Qed.
Lemma xchg_command E fuel c s : c <> C_RENUM -> xchg (command E fuel c s).
Proof.
  assert (CK : forall p (m : X unit), xchg m -> xchg (let* ok := check_eol p in (if ok then m else xret tt) ;;; xret false)).
  { intros p m H. apply xchg_after; [apply xsame_eol|]. intros ok. apply xchg_then; [destruct ok; [exact H|apply xsame_chg, xsame_ret]|intros _; apply inert_ret]. }
  assert (NM : forall (m : bytes -> X bool), (forall n, xchg (m n)) -> xchg (match demarcate_string s with
      | Some (name, p) => let* ok := check_eol p in (if ok then m name ;;; xret tt else say DFileName) ;;; xret false
      | None => say DFileName ;;; xret false end)).
  { intros m H. destruct (demarcate_string s) as [[name p]|].
    - apply xchg_after; [apply xsame_eol|]. intros ok. apply xchg_then; [|intros _; apply inert_ret].
      destruct ok; [|apply xsame_chg, xsame_say]. apply xchg_then; [apply H|intros _; apply inert_ret].
    - apply xsame_chg. apply xsame_bind; [apply xsame_say|intros _; apply xsame_ret]. }
  intros NR. destruct c; cbn [command]; [apply xsame_chg| apply xsame_chg| apply xsame_chg| apply xsame_chg| | | | congruence | apply xsame_chg| ].
  - apply xsame_eol.
  - apply xsame_bind; [|intros _; apply xsame_ret]. unfold vm_compile. apply xsame_bind; [apply xsame_ensure|intros _; apply xsame_ret].
  - apply xsame_bind; [apply xsame_continue|]. intros ok. apply xsame_bind; [destruct ok; [apply xsame_ret|apply xsame_say]|intros _; apply xsame_ret].
  - apply xsame_bind; [apply xsame_out|intros _; apply xsame_ret].
  - destruct (get_list_numbers s) as [[a b] p]. destruct (get_page_flag p) as [pg p1]. apply CK. apply xsame_chg.
    unfold list_program. apply xsame_get. intros v. destruct (stored_source v); [apply xsame_list_loop|apply xsame_ret].
  - apply (NM vm_load_source). intros n x. unfold vm_load_source. destruct (ss_fs x n) as [b|]; [|left; reflexivity]. destruct (load_source b); [right; reflexivity|exact I|exact I].
  - apply CK. apply xchg_then; [apply xchg_changed|]. intros _ x. reflexivity.
  - apply xsame_bind; [apply xsame_mod; reflexivity|]. intros _. apply xsame_bind; [|intros _; apply xsame_ret]. unfold run_program. apply xsame_get. intros v.
    destruct (stored_source v); [|apply xsame_ret]. apply xsame_bind; [apply xsame_ensure|]. intros [|]; [|apply xsame_ret].
    apply xsame_bind; [apply xsame_mod; reflexivity|intros _; apply xsame_with_run].
  - apply (NM vm_save_source). intros n x. unfold vm_save_source. destruct (stored_source (ss_vm x)); left; reflexivity.
Qed.
Lemma xsame_immediate E fuel text : xsame (run_immediate E fuel text).
Proof.
  unfold run_immediate. apply xsame_bind; [apply xsame_mod; reflexivity|]. intros _. apply xsame_bind; [apply xsame_ensure|]. intros [|]; [|apply xsame_ret]. cbv zeta.
  apply xsame_bind; [apply xsame_compile|]. intros [b|]; [|apply xsame_ret]. destruct (bcode_index b _); [|intros x; exact I].
  apply xsame_bind; [apply xsame_mod; reflexivity|]. intros _. apply xsame_bind; [apply xsame_with_run|]. intros _. apply xsame_get. intros v.
  destruct (immediate_state v) as [[|]|]; [apply xsame_mod; reflexivity|apply xsame_ret|intros x; exact I].
Qed.
Lemma changed_stale E fuel line s b t : no_renum line -> interpret E fuel line s = XOk b t ->
  c_source (v_stored (ss_vm t)) = c_source (v_stored (ss_vm s)) \/ c_bcode (v_stored (ss_vm t)) = None.
Proof.
  intros NR H. destruct (means_exists line) as (m & M). rewrite (interpret_means E fuel line m s M) in H.
  assert (X : xchg (act E fuel m)).
  { destruct m as [n [x|]|x| |c x|x]; cbn [act].
    - apply xchg_then; [|intros _; apply inert_ret]. unfold vm_enter_source_line. apply xchg_after; [intros y; reflexivity|]. intros v.
      destruct (enter_source_line _ n x); [apply (xchg_changed (set_source _))|intros y; exact I|intros y; exact I].
    - apply xchg_then; [|intros _; apply inert_ret]. intros y. unfold vm_delete_source_line, mod_vm. cbn [ss_vm set_vm].
      destruct (stored_source (ss_vm y)); [|left; reflexivity]. destruct (find_source_linenum _ n); [right; reflexivity|left; reflexivity].
    - intros y. left. reflexivity.
    - apply xsame_chg, xsame_ret.
    - apply xchg_command. intros ->. exact (NR x M).
    - apply xsame_chg. apply xsame_bind; [apply xsame_immediate|intros _; apply xsame_ret]. }
  specialize (X s). rewrite H in X. exact X.
Qed.

(* ---------- the loop at the prompt ---------- *)

Lemma get_line_world k : forall s, match get_line k s with XOk _ t | XNoFuel t => meanwhile s t | XExit _ | XCrash _ => False end.
Proof.
  assert (TR : forall a b c, meanwhile a b -> meanwhile b c -> meanwhile a c).
  { intros a b c [a0 x i fs ds brk os] H. inversion H; subst. cbn [ss_vm].
    match goal with |- meanwhile ?s (mkSess (set_input _ _ _ ?i (set_out ?x _)) ?f ?d ?bb ?oo) => exact (Meanwhile s x i f d bb oo) end. }
  assert (RE : forall v, set_input (v_input v) (v_inp v) (v_input_pc v) (v_in v) (set_out (v_out v) v) = v) by (intros []; reflexivity).
  assert (IN : forall s i, meanwhile s (set_vm (set_input (v_input (ss_vm s)) (v_inp (ss_vm s)) (v_input_pc (ss_vm s)) i (ss_vm s)) s)).
  { intros s i. pose proof (Meanwhile s (v_out (ss_vm s)) i (ss_fs s) (ss_diag s) (ss_brk s) (ss_os s)) as H.
    assert (Q : set_input (v_input (ss_vm s)) (v_inp (ss_vm s)) (v_input_pc (ss_vm s)) i (set_out (v_out (ss_vm s)) (ss_vm s)) =
                set_input (v_input (ss_vm s)) (v_inp (ss_vm s)) (v_input_pc (ss_vm s)) i (ss_vm s)) by (destruct (ss_vm s); reflexivity).
    rewrite Q in H. exact H. }
  assert (OU : forall s b, match out b s with XOk _ t => meanwhile s t | _ => False end).
  { intros s b. unfold out, mod_vm. pose proof (Meanwhile s (v_out (ss_vm s) ++ map OB b) (v_in (ss_vm s)) (ss_fs s) (ss_diag s) (ss_brk s) (ss_os s)) as H.
    match type of H with meanwhile _ (mkSess ?v _ _ _ _) => assert (Q : v = set_out (v_out (ss_vm s) ++ map OB b) (ss_vm s)) by (destruct (ss_vm s); reflexivity) end.
    rewrite Q in H. exact H. }
  induction k as [|k IH]; intros s; cbn [get_line].
  - pose proof (Meanwhile s (v_out (ss_vm s)) (v_in (ss_vm s)) (ss_fs s) (ss_diag s) (ss_brk s) (ss_os s)) as H. rewrite RE in H. destruct s; exact H.
  - unfold xbind at 1. pose proof (OU s (lit "> ")) as H. destruct (out (lit "> ") s) as [[] t| | |]; try (exfalso; exact H).
    unfold xbind at 1, get_vm at 1. destruct (fgets 128 (v_in (ss_vm t))) as [[buf rest]|]; [|exact H]. cbv zeta.
    destruct (last_opt (cstr buf)) as [c|].
    + destruct (ceq c NL).
      * exact (TR _ _ _ H (IN t rest)).
      * unfold xbind at 1, mod_vm. unfold xbind at 1, say at 1.
        match goal with |- match get_line k ?x with _ => _ end => specialize (IH x); assert (W : meanwhile t x) end.
        { pose proof (Meanwhile t (v_out (ss_vm t)) (after_newline rest) (ss_fs t) (ss_diag t ++ [DTooLong]) (ss_brk t) (ss_os t)) as W.
          assert (Q : set_input (v_input (ss_vm t)) (v_inp (ss_vm t)) (v_input_pc (ss_vm t)) (after_newline rest) (set_out (v_out (ss_vm t)) (ss_vm t)) =
                set_input (v_input (ss_vm t)) (v_inp (ss_vm t)) (v_input_pc (ss_vm t)) (after_newline rest) (ss_vm t)) by (destruct (ss_vm t); reflexivity).
          rewrite Q in W. exact W. }
        match goal with |- match ?m with _ => _ end => destruct m as [a y|y|y|y] end; try exact IH; exact (TR _ _ _ (TR _ _ _ H W) IH).
    + unfold xbind at 1, mod_vm. match goal with |- match get_line k ?x with _ => _ end => specialize (IH x); assert (W : meanwhile t x) by exact (IN t rest) end.
      match goal with |- match ?m with _ => _ end => destruct m as [a y|y|y|y] end; try exact IH; exact (TR _ _ _ (TR _ _ _ H W) IH).
Qed.
Lemma interact_loop_eq E fuel k s : interact_loop E fuel (S k) s =
  match get_line (S (length (v_in (ss_vm s)))) s with
  | XOk None t => XOk tt t
  | XOk (Some line) t =>
      match interpret E fuel line t with
      | XOk true x => XOk tt x
      | XOk false x => interact_loop E fuel k x
      | XExit x => XExit x
      | XCrash x => XCrash x
      | XNoFuel x => XNoFuel x
      end
  | XExit t => XExit t
  | XCrash t => XCrash t
  | XNoFuel t => XNoFuel t
  end.
Proof.
  cbn [interact_loop]. unfold xbind at 1, get_vm at 1. unfold xbind at 1.
  destruct (get_line (S (length (v_in (ss_vm s)))) s) as [[line|] t|t|t|t]; try reflexivity. unfold xbind. destruct (interpret E fuel line t) as [[|] x| | |]; reflexivity.
Qed.
(* The loop passes through states of sessions only: it ends in one, or while
   a line typed in one is interpreted. *)
Lemma loop_sessions o E fuel k : forall s, session o any_line s ->
  (exists t, session o any_line t /\ (interact_loop E fuel k s = XOk tt t \/ interact_loop E fuel k s = XNoFuel t)) \/
  (exists t line, session o any_line t /\
     interact_loop E fuel k s = match interpret E fuel line t with XOk _ x => XOk tt x | XExit x => XExit x | XCrash x => XCrash x | XNoFuel x => XNoFuel x end).
Proof.
  induction k as [|k IH]; intros s S; [left; exists s; split; [exact S|right; reflexivity]|]. rewrite interact_loop_eq.
  pose proof (get_line_world (Datatypes.S (length (v_in (ss_vm s)))) s) as H.
  destruct (get_line (Datatypes.S (length (v_in (ss_vm s)))) s) as [[line|] t|t|t|t]; try (exfalso; exact H).
  - assert (ST : session o any_line t) by exact (Ses_world o any_line s t S H).
    destruct (interpret E fuel line t) as [[|] x| | |] eqn:IE; [right; exists t, line; rewrite IE; split; [exact ST|reflexivity] | | right; exists t, line; rewrite IE; split; [exact ST|reflexivity] ..].
    assert (SX : session o any_line x) by exact (Ses_line o any_line E fuel line t x ST I IE). exact (IH x SX).
  - left. exists t. split; [exact (Ses_world o any_line s t S H)|left; reflexivity].
  - left. exists t. split; [exact (Ses_world o any_line s t S H)|right; reflexivity].
Qed.

(* ---------- RUN depends on ... ---------- *)

Lemma run_same_vm o E fuel rest s1 s2 : good o True False s1 -> good o True False s2 -> ss_vm s1 = ss_vm s2 -> next_break s1 = next_break s2 ->
  (exists src, v_stored (ss_vm s1) = mkCode (Some src) None None) ->
  match command E fuel C_RUN rest s1, command E fuel C_RUN rest s2 with
  | XOk a1 t1, XOk a2 t2 => a1 = a2 /\ ss_vm t1 = ss_vm t2 /\ exists d, ss_diag t1 = ss_diag s1 ++ d /\ ss_diag t2 = ss_diag s2 ++ d
  | XNoFuel t1, XNoFuel t2 => ss_vm t1 = ss_vm t2 /\ exists d, ss_diag t1 = ss_diag s1 ++ d /\ ss_diag t2 = ss_diag s2 ++ d
  | XExit _, XExit _ => True
  | XCrash _, XCrash _ => True
  | _, _ => False
  end.
Proof.
  intros G1 G2 V B (src & SO).
  assert (S1 : c_source (v_stored (ss_vm s1)) = Some src) by (rewrite SO; reflexivity).
  assert (B1 : c_bcode (v_stored (ss_vm s1)) = None) by (rewrite SO; reflexivity).
  assert (S2 : c_source (v_stored (ss_vm s2)) = Some src) by congruence. assert (B2 : c_bcode (v_stored (ss_vm s2)) = None) by congruence.
  destruct (run_command o False E fuel rest s1 G1) as [A1 | src1 x1 st1 A1 C1 | src1 t1 A1 C1 Q1 | src1 t1 A1 C1 Q1 | src1 bc1 st1 u1 A1 C1 ST1 U1]; [congruence| | | |];
    (assert (src1 = src) by congruence); subst src1;
    destruct (run_command o False E fuel rest s2 G2) as [A2 | src2 x2 st2 A2 C2 | src2 t2 A2 C2 Q2 | src2 t2 A2 C2 Q2 | src2 bc2 st2 u2 A2 C2 ST2 U2];
    try congruence; (assert (src2 = src) by congruence); subst src2; try congruence; try exact I.
  - assert (x1 = x2 /\ st1 = st2) as [-> ->] by (rewrite C1 in C2; injection C2 as -> ->; auto). cbn [ss_vm ss_diag]. rewrite V. split; [reflexivity|]. split; [reflexivity|].
    exists [DParse x2]. auto.
  - assert (bc1 = bc2 /\ st1 = st2) as [-> ->] by (rewrite C1 in C2; injection C2 as -> ->; auto).
    destruct U1 as [[[R|R] _]|(_ & i1 & X1 & ->)]; [congruence|congruence|]. destruct U2 as [[[R|R] _]|(_ & i2 & X2 & ->)]; [congruence|congruence|].
    assert (i1 = i2) by congruence. subst i2. rewrite B, V. unfold ran.
    match goal with |- context [run E fuel ?b ?u] => destruct (run E fuel b u) as [[] w] end; cbn [fst snd after_run ss_vm ss_diag]; try exact I;
      repeat (split; [reflexivity|]); exists []; rewrite !app_nil_r; auto.
Qed.
Lemma run_depends o E fuel line rest s1 s2 src : in_step o s1 -> in_step o s2 -> same_ahead s1 s2 -> c_source (v_stored (ss_vm s1)) = Some src ->
  means line (MCommand C_RUN rest) ->
  (exists t, interpret E fuel line (set_vm (new_machine src (ss_vm s1)) s1) = XCrash t) \/
  match interpret E fuel line s1, interpret E fuel line s2 with
  | XOk a1 t1, XOk a2 t2 => a1 = a2 /\ same_shown s1 t1 s2 t2
  | XNoFuel t1, XNoFuel t2 => same_shown s1 t1 s2 t2
  | XExit _, XExit _ => True
  | _, _ => False
  end.
Proof.
  intros I1 I2 [A1 [A2 A3] [A4 A5] A6 A7] S1 M. pose proof (in_step_good o s1 I1) as G1. pose proof (in_step_good o s2 I2) as G2.
  assert (S2 : c_source (v_stored (ss_vm s2)) = Some src) by congruence.
  rewrite !(interpret_means E fuel line _ _ M). cbn [act].
  pose proof (like_new o False E fuel rest s1 src G1 S1) as L1. pose proof (like_new o False E fuel rest s2 src G2 S2) as L2. cbv zeta in L1, L2.
  assert (NM : new_machine src (ss_vm s2) = new_machine src (ss_vm s1)).
  { unfold new_machine. rewrite A2, A3, A4, A5, A6, (pr_opt _ _ _ _ G1), (pr_opt _ _ _ _ G2). reflexivity. }
  pose proof (new_good o False s1 src G1 S1) as N1. pose proof (new_good o False s2 src G2 S2) as N2. rewrite NM in L2, N2.
  set (n1 := set_vm (new_machine src (ss_vm s1)) s1) in *. set (n2 := set_vm (new_machine src (ss_vm s1)) s2) in *.
  assert (VN : ss_vm n1 = ss_vm n2) by reflexivity.
  assert (BN : next_break n1 = next_break n2) by exact A7.
  assert (DN : ss_diag n1 = ss_diag s1 /\ ss_diag n2 = ss_diag s2) by (split; reflexivity). destruct DN as [D1 D2].
  pose proof (run_same_vm o E fuel rest n1 n2 N1 N2 VN BN (ex_intro _ src eq_refl)) as Q.
  destruct (command E fuel C_RUN rest n1) as [a1 m1|m1|m1|m1]; [right | right | left; eauto | right].
  - destruct (command E fuel C_RUN rest n2) as [a2 m2|m2|m2|m2]; try destruct Q as []. destruct H0 as (VM & d & Q1 & Q2).
    destruct (command E fuel C_RUN rest s1) as [b1 t1| | |]; try (exfalso; exact L1). destruct (command E fuel C_RUN rest s2) as [b2 t2| | |]; try (exfalso; exact L2).
    destruct L1 as (<- & (x1 & O1 & O1') & (y1 & E1 & E1') & N1' & _ & _ & _ & _ & DD1 & _). destruct L2 as (<- & (x2 & O2 & O2') & (y2 & E2 & E2') & N2' & _ & _ & _ & _ & DD2 & _).
    split; [assumption|]. rewrite VM in *. rewrite VN in *.
    assert (x1 = x2) by (rewrite O1 in O2; apply app_inv_head in O2; exact O2). assert (y1 = y2) by (rewrite E1 in E2; apply app_inv_head in E2; exact E2). subst x2 y2.
    split; [eauto|]. split; [eauto|]. split; [exists d; split; congruence|congruence].
  - destruct (command E fuel C_RUN rest n2) as [a2 m2|m2|m2|m2]; try destruct Q.
    destruct (command E fuel C_RUN rest s1) as [b1 t1| | |]; try (exfalso; exact L1). destruct (command E fuel C_RUN rest s2) as [b2 t2| | |]; try (exfalso; exact L2). exact I.
  - destruct (command E fuel C_RUN rest n2) as [a2 m2|m2|m2|m2]; try (exfalso; exact Q). destruct Q as (VM & d & Q1 & Q2).
    destruct (command E fuel C_RUN rest s1) as [b1 t1| | |]; try (exfalso; exact L1). destruct (command E fuel C_RUN rest s2) as [b2 t2| | |]; try (exfalso; exact L2).
    destruct L1 as ((x1 & O1 & O1') & (y1 & E1 & E1') & N1' & _ & _ & _ & _ & DD1 & _). destruct L2 as ((x2 & O2 & O2') & (y2 & E2 & E2') & N2' & _ & _ & _ & _ & DD2 & _).
    rewrite VM in *. rewrite VN in *.
    assert (x1 = x2) by (rewrite O1 in O2; apply app_inv_head in O2; exact O2). assert (y1 = y2) by (rewrite E1 in E2; apply app_inv_head in E2; exact E2). subst x2 y2.
    split; [eauto|]. split; [eauto|]. split; [exists d; split; congruence|congruence].
Qed.

(* ---------- the lines of the program (C07) ---------- *)

Lemma compiled_loaded v src : compiled_program v src -> exists xss, loaded v src xss.
Proof.
  intros (bc & idx & st & C & X & S & _). pose proof (compile_outcome src _ (o_anywhere (v_opt v)) fine_init) as H. unfold compiling in C. rewrite C in H.
  destruct H as [_ [_ (xss & st1 & Q & _ & I & _)]]. exists xss, (o_anywhere (v_opt v)), bc, idx, st1. auto.
Qed.
Lemma session_increasing o s src : session o no_renum s -> c_source (v_stored (ss_vm s)) = Some src -> distinct_lines src.
Proof.
  intros S H. apply increasing_distinct. pose proof (session_good o True True no_renum s (fun _ line N => N) S) as G. exact (pr_inc _ _ _ _ G I src H).
Qed.

(* ---------- concrete sessions ---------- *)

Fixpoint typed (E : env) (fuel : nat) (ls : list bytes) (s : sess) : option sess :=
  match ls with
  | [] => Some s
  | l :: r => match interpret E fuel l s with XOk false t => typed E fuel r t | _ => None end
  end.
Lemma typed_session o (ok : bytes -> Prop) E fuel ls : forall s t, session o ok s -> Forall ok ls -> typed E fuel ls s = Some t -> session o ok t.
Proof.
  induction ls as [|l r IH]; intros s t S F H; cbn [typed] in H; [injection H as <-; exact S|]. inversion F; subst.
  destruct (interpret E fuel l s) as [[|] x| | |] eqn:X; try discriminate H. apply (IH x t); [|assumption|exact H]. eapply Ses_line; eassumption.
Qed.
Lemma not_renum line : match classify line with MCommand C_RENUM _ => false | _ => true end = true -> no_renum line.
Proof. intros H s M. rewrite (means_classify _ _ M) in H. discriminate H. Qed.
Lemma session_prompt o s : session o any_line s -> only_stored (ss_vm s) /\ (~ stale (ss_vm s) -> pending_in (eq CStored) (ss_vm s)).
Proof.
  intros S. pose proof (session_any o s S) as G. split; [exact (pr_refs _ _ _ _ G)|]. intros NS.
  assert (R : ready (ss_vm s)).
  { destruct (c_source (v_stored (ss_vm s))) eqn:SO; [right|left; exact SO]. intros B. apply NS. split; congruence. }
  exact (proj2 (ready_live _ _ _ _ G R)).
Qed.
Lemma typed_like_new o E fuel line rest s src : in_step o s -> c_source (v_stored (ss_vm s)) = Some src -> means line (MCommand C_RUN rest) ->
  let s0 := set_vm (new_machine src (ss_vm s)) s in
  match interpret E fuel line s0, interpret E fuel line s with
  | XCrash _, _ => True
  | XOk a0 t0, XOk a t => a0 = a /\ same_effects s0 t0 s t
  | XNoFuel t0, XNoFuel t => same_effects s0 t0 s t
  | XExit _, XExit _ => True
  | _, _ => False
  end.
Proof.
  intros I0 S M s0. pose proof (like_new o False E fuel rest s src (in_step_good o s I0) S) as H.
  rewrite !(interpret_means E fuel line _ _ M). exact H.
Qed.
