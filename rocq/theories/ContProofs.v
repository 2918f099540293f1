(* Stopping and continuing. *)
From Coq Require Import Lia ZifyBool ZifyNat ZifyN.
From Verif Require Import Base BaseLemmas Num SourceModel SourceSpec SourceProofs LineMapModel BcodeModel SymbolModel SymbolSpec SymbolProofs
  LexModel ParseModel GrammarSpec CompileProofs LineSpec LineProofs VmModel VmLemmas VmSpec ControlProofs VmTyping KindProofs
  AlikeProofs SessionModel MonitorModel MonSpec MonProofs SessionSpec PlaceProofs PromptProofs RunProofs.
Local Open Scope nat_scope.
Local Open Scope sess_scope.
Local Opaque init_builtins new_symbol_table parse_source.

(* ---------- the machines in which run is called ---------- *)

Lemma placed_either v : placed (eq CStored) v -> placed either v.
Proof.
  intros [[A B C D] X].
  assert (Y : forall h x, place_in v (eq CStored) h x -> place_in v either h x).
  { intros h x (r & Q1 & <- & Q3). exists CStored. split; [exact Q1|]. split; [left; reflexivity|exact Q3]. }
  constructor.
  - constructor.
    + eapply Forall_impl; [|exact A]. intros c. apply Y.
    + eapply Forall_impl; [|exact B]. intros c. apply Y.
    + intros Z. apply Y, C, Z.
    + exact D.
  - destruct X as [(r & R & <-)|X]; [left; exists CStored; split; [exact R|left; reflexivity]|right; exact X].
Qed.
Lemma called_ok o s u : good o False False s -> run_called s u -> live u /\ placed either u.
Proof.
  intros G [t NS EN | r bc i S B I | text t t' b idx EN CO X].
  - assert (GC : good o False False (set_vm (set_st (clear_symbol_table_values (v_st (ss_vm s))) (ss_vm s)) s)) by exact (xsafe_clear_values o False False s G).
    pose proof (ensure_good o False False _ GC) as H. rewrite EN in H. destruct H as [G1 R1]. specialize (R1 eq_refl). destruct (ready_live _ _ _ _ G1 R1) as [L J].
    split; [apply live_cs, live_reset, L|]. apply placed_either. apply placed_start; [apply pending_idle_cs, idle_pending, idle_reset|exists CStored; auto].
  - assert (R0 : r = CStored) by (destruct (proj2 (proj2 (proj2 (pr_refs _ _ _ _ G)))) as [X|X]; congruence). subst r.
    cbn [code_of] in B. assert (R : ready (ss_vm s)) by (right; congruence). destruct (ready_live _ _ _ _ G R) as [L J].
    split; [apply live_cs, L|]. apply placed_either. apply placed_start; [apply pending_idle_cs, J|exists CStored; auto].
  - assert (G0 : good o False False (set_vm (set_imm no_code (ss_vm s)) s)) by (apply prompt_imm, G).
    pose proof (ensure_good o False False _ G0) as H. rewrite EN in H. destruct H as [G1 R1]. specialize (R1 eq_refl).
    pose proof (compile_cases o False False (wrap_source_text text) false t G1 R1) as H. rewrite CO in H. destruct H as (st & e & PS & V & G2 & R2).
    destruct (ready_live _ _ _ _ G1 R1) as [[F1 _] _]. destruct (parsed_ok _ _ _ _ _ _ F1 PS) as (_ & D & _).
    destruct (ready_live _ _ _ _ G2 R2) as [L2 J2]. split.
    + apply live_cs, live_data, live_imm; [exact L2|]. intros bc Z. cbn in Z. injection Z as <-. exact D.
    + apply placed_start; [|exists CImmediate; split; [reflexivity|right; reflexivity]]. apply pending_idle_cs, pending_data, pending_imm, J2.
Qed.
Lemma session_any o s : session o any_line s -> good o False False s.
Proof. intros H. apply (session_good o False False any_line); [intros [[]|[]]|exact H]. Qed.
Lemma called_kinded o s u : session o any_line s -> run_called s u -> kinded (v_st u) u.
Proof. intros S C. apply (called_ok o s u (session_any _ _ S) C). Qed.

(* ---------- the loop ---------- *)

Lemma runs_kinded st0 E v l u : kinded st0 v -> runs E v l u -> kinded st0 u.
Proof.
  intros K R. induction R as [v|v v1 l u X R IH]; [exact K|]. apply IH. pose proof (kd_execute st0 E v K) as A. rewrite X in A. exact A.
Qed.
(* how the loop ends *)
Lemma loop_ends E fuel : forall brk v b w, run_loop E fuel brk v = (Ok tt, b, w) ->
  exists l, runs E v l w /\ length l <= fuel /\ Forall (fun x => v_stopped x = false) l /\
    (exists bc, cur_bcode w = Some bc /\ (bc_used bc <= cs_pc (v_cs w) \/ v_stopped w = true \/ interrupted b = true)) /\
    (brk = None -> b = None).
Proof.
  induction fuel as [|f IH]; intros brk v b w H; cbn [run_loop] in H; destruct (cur_bcode v) as [bc|] eqn:CB; try discriminate H.
  - destruct (_ && _) eqn:G; [discriminate H|]. injection H as <- <-. exists []. split; [constructor|]. split; [cbn; lia|]. split; [constructor|].
    split; [|auto]. exists bc. split; [exact CB|].
    apply Bool.andb_false_iff in G. rewrite Bool.andb_false_iff, Nat.ltb_ge, !Bool.negb_false_iff in G. tauto.
  - destruct (_ && _) eqn:G.
    + destruct (execute E v) as [[[]|e| |] v'] eqn:X; try discriminate H. destruct (IH _ _ _ _ H) as (l & R & LE & F & EN & NB).
      exists (v :: l). split; [econstructor; eassumption|]. split; [cbn [length]; lia|]. split.
      * constructor; [|exact F]. apply Bool.andb_true_iff in G. destruct G as [G _]. apply Bool.andb_true_iff in G. destruct G as [_ G]. apply Bool.negb_true_iff in G. exact G.
      * split; [exact EN|]. intros ->. apply NB. reflexivity.
    + injection H as <- <-. exists []. split; [constructor|]. split; [cbn; lia|]. split; [constructor|].
      split; [|auto]. exists bc. split; [exact CB|].
      apply Bool.andb_false_iff in G. rewrite Bool.andb_false_iff, Nat.ltb_ge, !Bool.negb_false_iff in G. tauto.
Qed.
(* ---------- STOP ---------- *)

Lemma execute_stopped E v v' : execute E v = (Ok tt, v') -> v_stopped v = false -> v_stopped v' = true ->
  current v = Some I_STOP /\ v' = set_stopped true v.
Proof.
  intros X S0 S1. destruct (current v) as [i|] eqn:C; [|rewrite (execute_none E v C) in X; discriminate X].
  destruct (is_stop i) eqn:IS.
  - destruct i; try discriminate IS. split; [reflexivity|]. rewrite (execute_eq E v _ C) in X. cbn in X. injection X as <-. reflexivity.
  - exfalso. assert (K : v_stopped (snd (execute E v)) = v_stopped v).
    { apply (execute_keeps v_stopped E v i C (fun _ _ => eq_refl)). apply exec_keeps_stopped. exact IS. }
    rewrite X in K. cbn [snd] in K. congruence.
Qed.
Lemma runs_snoc E v l w : runs E v l w -> l <> [] -> exists l' u, l = l' ++ [u] /\ runs E v l' u /\ execute E u = (Ok tt, w).
Proof.
  induction 1 as [v|v v1 l w X R IH]; [congruence|]. intros _. destruct l as [|y l].
  - inversion R; subst. exists [], v. split; [reflexivity|]. split; [constructor|exact X].
  - destruct IH as (l' & u & E1 & R' & X'); [discriminate|]. exists (v :: l'), u. rewrite E1. split; [reflexivity|]. split; [econstructor; eassumption|exact X'].
Qed.
Lemma run_unstopped E f brk v b r : cs_code (v_cs v) = Some r -> run E f brk (set_stopped b v) = run E f brk v.
Proof. intros C. unfold run. change (v_cs (set_stopped b v)) with (v_cs v). rewrite C. reflexivity. Qed.

(* two machines that differ in what they have printed and where CONT would go *)
Lemma differ_alike o1 e1 v out st : o1 = out -> e1 = v_err v ->
  alike False (fun _ => True) o1 (v_out v) e1 (v_err v) (set_stopcs st (set_out out v)) v.
Proof.
  intros -> ->. constructor; try reflexivity; try (left; reflexivity).
  - apply tab_alike_refl.
  - intros f s1 s2 _ _ A B. change (symbol_at (v_st v) (f_sym f) = Some s1) in A. congruence.
  - split; [reflexivity|]. intros _. split; [reflexivity|]. split; [reflexivity|left; reflexivity].
  - exists []. rewrite !app_nil_r. split; reflexivity.
  - exists []. rewrite !app_nil_r. split; reflexivity.
Qed.
Lemma seen_alike s1 s2 : sym_alike s1 s2 ->
  s_name s1 = s_name s2 /\ s_defined s1 = s_defined s2 /\ seen s1 = seen s2 /\ (s_defined s2 = true -> s_val s1 = s_val s2).
Proof.
  intros (SG & D & V). unfold sig_of in SG. injection SG as SN SI K T. split; [exact SN|]. split; [exact D|].
  destruct V as [V | (U & KV & TN & _)].
  - split; [|auto]. unfold seen. rewrite K, T, D, V. reflexivity.
  - split; [|congruence]. unfold seen. rewrite K, T, D, KV, TN, U. reflexivity.
Qed.
Lemma alike_same o1 o2 e1 e2 w1 w2 : alike True (fun _ => False) o1 o2 e1 e2 w1 w2 -> same_but_output o1 o2 e1 e2 w1 w2.
Proof.
  intros V. destruct V as [Fstored Fimm Fdef Fcs Fst Floops Fstack Fsstack Fret Fstopped Fcol Ffor Fpdata Fidata Ffn Finput Finp Finput_pc Fopt Fin Fout Ferr Fseed Frandk Fclock].
  unfold same_but_output. do 10 (split; [assumption|]).
  intros id s2 S. destruct (Fst id s2 S) as (s1 & S1 & A). exists s1. split; [exact S1|]. apply seen_alike, A.
Qed.

Lemma resumes st0 E f brk w u i : kinded st0 u -> current u = Some i -> cs_code (v_cs u) = Some CStored ->
  (exists out b, w = set_stopcs (v_cs u) (set_out out (set_stopped b u))) ->
  goes_on_like w u (vm_continue E f brk w) (run E f brk (if is_stop i then passed_over u else u)).
Proof.
  intros K C R (out & b & W). rewrite vm_continue_eq.
  assert (W1 : v_stopcs w = v_cs u) by (rewrite W; reflexivity).
  assert (W2 : forall r, code_of w r = code_of u r) by (rewrite W; destruct r; reflexivity).
  rewrite W1, R, W2. unfold current in C. unfold cur_bcode in C. rewrite R in C.
  destruct (c_bcode (code_of u CStored)) as [bc|] eqn:B; [|discriminate C]. rewrite C.
  set (pc := if is_stop i then S (cs_pc (v_cs u)) else cs_pc (v_cs u)).
  set (u' := set_pc pc u).
  assert (EU : (if is_stop i then passed_over u else u) = u' \/ v_cs (if is_stop i then passed_over u else u) = v_cs u').
  { unfold u', pc. destruct (is_stop i); [left; reflexivity|right]. cbn. destruct (v_cs u); reflexivity. }
  assert (EV : (if is_stop i then passed_over u else u) = u').
  { unfold u', pc. destruct (is_stop i); [reflexivity|]. unfold set_pc. destruct u. unfold set_cs. cbn. destruct v_cs; reflexivity. }
  rewrite EV. clear EU EV.
  set (w' := set_cs (mkCs (Some CStored) (cs_line (v_cs u)) pc) w).
  assert (T : twin (v_out w) (v_out u) (v_err w) (v_err u) (set_stopped b w') (set_stopped b u')).
  { left.
    assert (EW : set_stopped b w' = set_stopcs (v_cs u) (set_out (v_out w) (set_stopped b u'))).
    { unfold w', u', set_pc. rewrite W, R. reflexivity. }
    rewrite EW.
    apply (differ_alike (v_out w) (v_err w) (set_stopped b u') (v_out w) (v_cs u) eq_refl). rewrite W. reflexivity. }
  assert (KU : kinded st0 (set_stopped b u')).
  { apply kd_keeps_set; [repeat keeps_more|]. unfold u', set_pc. apply kd_keeps_set; [repeat keeps_more|exact K]. }
  pose proof (twin_run st0 E f brk _ _ _ _ _ _ KU T) as H. rewrite (run_unstopped E f brk w' b CStored eq_refl), (run_unstopped E f brk u' b CStored) in H by exact R.
  unfold goes_on_like. destruct (run E f brk w') as [r1 x1]. destruct (run E f brk u') as [r2 x2].
  destruct H as [-> | [-> AL]]; [left; reflexivity|].
  apply alike_same in AL. destruct r2 as [[]|e| |]; [right|right|left|right]; cbn [fst snd]; auto.
Qed.

Lemma stop_state_out b y x : run_stop_state b (set_out y x) =
  match cs_code (v_cs x) with
  | Some CStored => if v_stopped x || interrupted b then set_stopcs (v_cs x) (set_out y x) else set_stopcs clear_cs (set_out y x)
  | _ => set_out y x
  end.
Proof. reflexivity. Qed.
(* the machine that a run leaves is the one in which its loop ended, but for
   what is printed and where CONT goes *)
Lemma run_ends E f brk u0 w : run E f brk u0 = (Ok tt, w) ->
  exists b x, run_loop E f brk (set_stopped false u0) = (Ok tt, b, x) /\
    v_stopped w = v_stopped x /\ v_cs w = v_cs x /\
    (cs_code (v_cs x) = Some CStored -> v_stopped x || interrupted b = true -> 
     w = set_stopcs (v_cs x) (set_out (v_out x ++ map OB (if interrupted b then lit "Break" ++ [NL] else
       match c_source (v_stored x) with Some src => print_source_line src (cs_line (v_cs x)) | None => [] end ++ [NL] ++ lit "Stopped" ++ [NL])) x)).
Proof.
  unfold run. destruct (cs_code (v_cs u0)) as [r|]; [|discriminate].
  destruct (run_loop E f brk (set_stopped false u0)) as [[[[]|e| |] b] x]; try discriminate.
  - intros H. exists b, x. split; [reflexivity|]. revert H. unfold run_report. destruct (interrupted b) eqn:I.
    + unfold put, modify. intros H. injection H as <-. rewrite stop_state_out, I.
      destruct (cs_code (v_cs x)) as [[]|] eqn:C; rewrite ?Bool.orb_true_r;
        (split; [reflexivity|split; [reflexivity|]]); intros Z; try discriminate Z; intros _; reflexivity.
    + destruct (v_stopped x) eqn:SX.
      * destruct (cs_code (v_cs x)) as [r'|] eqn:C; [|discriminate]. unfold put, modify. intros H. injection H as <-. rewrite stop_state_out, I, C.
        destruct r'; rewrite ?SX; cbn [orb]; (split; [exact SX|split; [reflexivity|]]); intros Z; try discriminate Z; intros _; reflexivity.
      * intros H. injection H as <-. unfold run_stop_state. rewrite I, SX. destruct (cs_code (v_cs x)) as [[]|]; (split; [exact SX|split; [reflexivity|]]); intros _ Z; discriminate Z.
  - intros H. exfalso. revert H. destruct (run_report b x) as [[[]|e'| |] y]; discriminate.
Qed.

Lemma stop_resumes o s u0 E f brk w : session o any_line s -> run_called s u0 -> run E f brk u0 = (Ok tt, w) ->
  v_stopped w = true -> cs_code (v_cs w) = Some CStored ->
  exists l u, runs E (set_stopped false u0) l u /\ current u = Some I_STOP /\
    v_cs w = v_cs u /\ v_st w = v_st u /\ v_for w = v_for u /\ v_ret w = v_ret u /\ v_pdata w = v_pdata u /\
    forall E2 f2 brk2, goes_on_like w u (vm_continue E2 f2 brk2 w) (run E2 f2 brk2 (passed_over u)).
Proof.
  intros S C R SW CW. pose proof (called_kinded _ _ _ S C) as K. destruct (run_ends _ _ _ _ _ R) as (b & x & L & S1 & C1 & W).
  destruct (loop_ends _ _ _ _ _ _ L) as (l & RL & _ & F & _ & _).
  assert (NE : l <> []). { intros ->. inversion RL; subst. rewrite SW in S1. discriminate S1. }
  destruct (runs_snoc _ _ _ _ RL NE) as (l' & u & -> & RU & XU).
  apply Forall_app in F. destruct F as [_ F]. apply Forall_inv in F.
  rewrite SW in S1. destruct (execute_stopped E u x XU F (eq_sym S1)) as [CU ->].
  specialize (W ltac:(rewrite <- C1; exact CW) ltac:(rewrite <- S1; reflexivity)).
  exists l', u. split; [exact RU|]. split; [exact CU|]. split; [exact C1|]. do 4 (split; [rewrite W; reflexivity|]).
  intros E2 f2 brk2. assert (CS : cs_code (v_cs u) = Some CStored) by (rewrite C1 in CW; exact CW).
  assert (KU : kinded (v_st u0) u). { eapply runs_kinded; [|exact RU]. apply kd_keeps_set; [repeat keeps_more|exact K]. }
  apply (resumes (v_st u0) E2 f2 brk2 w u I_STOP KU CU CS). eexists _, true. exact W.
Qed.
Lemma loop_none E f : forall brk v b w, run_loop E f brk v = (Ok tt, b, w) ->
  exists k, k <= f /\ forall f2, run_loop E (k + f2) None v = run_loop E f2 None w.
Proof.
  induction f as [|f IH]; intros brk v b w H; cbn [run_loop] in H; destruct (cur_bcode v) as [bc|] eqn:CB; try discriminate H.
  - destruct (_ && _) eqn:G; [discriminate H|]. injection H as <- <-. exists 0. split; [lia|reflexivity].
  - destruct (_ && _) eqn:G.
    + destruct (execute E v) as [[[]|e| |] v'] eqn:X; try discriminate H. destruct (IH _ _ _ _ H) as (k & LE & EQ). exists (S k). split; [lia|]. intros f2.
      cbn [Nat.add run_loop]. rewrite CB. apply Bool.andb_true_iff in G. destruct G as [G _]. rewrite G. cbn [interrupted negb andb tick]. rewrite X. apply EQ.
    + injection H as <- <-. exists 0. split; [lia|reflexivity].
Qed.

Lemma break_resumes o s u0 E f brk w i : session o any_line s -> run_called s u0 -> run E f brk u0 = (Ok tt, w) ->
  v_stopped w = false -> cs_code (v_cs w) = Some CStored -> current w = Some i -> is_stop i = false ->
  exists l u n, runs E (set_stopped false u0) l u /\ (forall f2, run E (n + f2) None u0 = run E f2 None u) /\
    v_cs w = v_cs u /\ v_st w = v_st u /\ v_for w = v_for u /\ v_ret w = v_ret u /\ v_pdata w = v_pdata u /\
    forall E2 f2 brk2, goes_on_like w u (vm_continue E2 f2 brk2 w) (run E2 f2 brk2 u).
Proof.
  intros S C R SW CW IW NS. pose proof (called_kinded _ _ _ S C) as K. destruct (run_ends _ _ _ _ _ R) as (b & x & L & S1 & C1 & W).
  destruct (loop_ends _ _ _ _ _ _ L) as (l & RL & _ & _ & (bc & CB & EN) & _).
  destruct (loop_none _ _ _ _ _ _ L) as (n & _ & TH).
  assert (CX : cs_code (v_cs x) = Some CStored) by congruence.
  assert (SX : v_stopped x = false) by congruence.
  assert (CUR : current x = Some i).
  { revert IW. unfold current, cur_bcode. rewrite C1, CX. cbn [code_of].
    assert (Q : v_stored w = v_stored x).
    { clear - R L. unfold run in R. destruct (cs_code (v_cs u0)); [|discriminate R]. rewrite L in R. unfold run_report in R.
      destruct (interrupted b); [unfold put, modify in R; injection R as <-; rewrite stop_state_out; destruct (cs_code (v_cs x)) as [[]|]; try reflexivity; destruct (_ || _); reflexivity|].
      destruct (v_stopped x); [destruct (cs_code (v_cs x)) as [r|] eqn:CX; [|discriminate R]; unfold put, modify in R; injection R as <-; rewrite stop_state_out; destruct (cs_code (v_cs x)) as [[]|]; try reflexivity; destruct (_ || _); reflexivity|].
      injection R as <-. unfold run_stop_state. destruct (cs_code (v_cs x)) as [[]|]; try reflexivity; destruct (_ || _); reflexivity. }
    rewrite Q. auto. }
  assert (I : interrupted b = true).
  { destruct EN as [EN | [EN | EN]]; [|congruence|exact EN]. exfalso. unfold current in CUR. rewrite CB in CUR.
    assert (Z : nth_error (bc_inst bc) (cs_pc (v_cs x)) <> None) by congruence. apply nth_error_Some in Z. unfold bc_used in EN. lia. }
  specialize (W CX ltac:(rewrite I, Bool.orb_true_r; reflexivity)).
  exists l, x, n. split; [exact RL|]. split.
  - intros f2. assert (X : set_stopped false x = x).
    { clear - SX. destruct x. cbn in SX. subst. reflexivity. }
    assert (CU : cs_code (v_cs u0) <> None) by (intros Z; unfold run in R; rewrite Z in R; discriminate R).
    unfold run. rewrite CX, X, TH. destruct (cs_code (v_cs u0)); [reflexivity|congruence].
  - split; [exact C1|]. do 4 (split; [rewrite W; reflexivity|]). intros E2 f2 brk2.
    assert (KU : kinded (v_st u0) x). { eapply runs_kinded; [|exact RL]. apply kd_keeps_set; [repeat keeps_more|exact K]. }
    pose proof (resumes (v_st u0) E2 f2 brk2 w x i KU CUR CX) as Q. rewrite NS in Q. apply Q. eexists _, false. rewrite W. f_equal. clear - SX. destruct x. cbn in SX. subst. reflexivity.
Qed.
