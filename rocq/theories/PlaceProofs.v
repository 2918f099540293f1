(* Where pending control refers to, in any execution of compiled code. *)
From Coq Require Import Lia ZifyBool ZifyNat ZifyN.
From Verif Require Import Base BaseLemmas Num SourceModel LineMapModel ArrayModel BcodeModel SymbolModel SymbolSpec
  VmModel VmLemmas VmSpec ControlProofs VmTyping KindProofs AlikeProofs SessionSpec.
Local Open Scope nat_scope.

Definition places (v : vm) := (v_stored v, v_imm v, v_def v, cs_code (v_cs v), v_ret v, v_for v, v_fn v, v_stopcs v).

Section Placed.
Variable allowed : coderef -> Prop.
Hypothesis AS : allowed CStored.
Hypothesis AD : ~ allowed CDef.

Definition in_def (v : vm) : Prop :=
  cs_code (fn_cs (v_fn v)) <> None /\ exists bc pid, c_bcode (v_def v) = Some bc /\ def_code (bc_inst bc) pid.
Record placed (v : vm) : Prop := {
  pl_pending : pending_in allowed v;
  pl_cs : (exists r, cs_code (v_cs v) = Some r /\ allowed r) \/ cs_code (v_cs v) = Some CDef /\ in_def v
}.

Lemma place_in_same v w h c : v_stored w = v_stored v -> v_imm w = v_imm v -> place_in v allowed h c -> place_in w allowed h c.
Proof.
  intros S I (r & C & A & H). exists r. split; [exact C|]. split; [exact A|]. unfold code_at in *.
  destruct r; cbn [code_of] in *; [rewrite S; exact H|rewrite I; exact H|destruct (AD A)].
Qed.
(* what is pending has changed at most in these fields *)
Lemma pending_same v w : v_stored w = v_stored v -> v_imm w = v_imm v -> pending_in allowed v ->
  Forall (place_in v allowed after_gosub) (v_ret w) ->
  Forall (fun f => place_in v allowed (fun l pc => nth_error l pc = Some (I_FOR (f_sym f))) (f_cs f)) (v_for w) ->
  (cs_code (fn_cs (v_fn w)) <> None ->
    place_in v allowed (fun l pc => exists id n, nth_error l pc = Some (I_GET_PAREN_NUM id n) \/ nth_error l pc = Some (I_GET_PAREN_STR id n)) (fn_cs (v_fn w))) ->
  v_stopcs w = v_stopcs v -> pending_in allowed w.
Proof.
  intros S I [R F N P] R' F' N' P'. constructor.
  - eapply Forall_impl; [|exact R']. intros c. apply place_in_same; assumption.
  - eapply Forall_impl; [|exact F']. intros c. apply place_in_same; assumption.
  - intros X. apply (place_in_same v w); auto.
  - rewrite P'. exact P.
Qed.
Lemma placed_same v w : places w = places v -> placed v -> placed w.
Proof.
  unfold places. intros H [P C]. injection H as H1 H2 H3 H4 H5 H6 H7 H8. constructor.
  - destruct P as [R F N X]. apply (pending_same v w); try assumption; [constructor; assumption | rewrite H5; exact R | rewrite H6; exact F | rewrite H7; exact N].
  - unfold in_def. rewrite H3, H4, H7. exact C.
Qed.
Lemma pl_keeps {A} (m : M A) : keeps places m -> safe placed m.
Proof. intros K. apply safe_inv. intros v H. exact (placed_same _ _ (K v) H). Qed.
Lemma pl_error {A} e : safe placed (@run_error A e).
Proof. apply pl_keeps, keeps_run_error. reflexivity. Qed.

(* going somewhere *)
Lemma pl_set_cs v c : placed v -> (exists r, cs_code c = Some r /\ allowed r) -> placed (set_cs c v).
Proof.
  intros [P C] R. constructor; [|left; exact R]. destruct P as [P1 P2 P3 P4]. apply (pending_same v); try reflexivity; try assumption. constructor; assumption.
Qed.
Lemma pl_goto n : safe placed (go_to_basic_line n).
Proof.
  unfold go_to_basic_line. apply safe_bind; [apply pl_keeps; repeat keeps_more|]. intros pc v H. unfold modify, after. cbn [fst snd].
  apply pl_set_cs; [exact H|]. exists CStored. auto.
Qed.
Lemma pl_set_pc n v : placed v -> placed (set_pc n v).
Proof. apply placed_same. reflexivity. Qed.

Lemma pl_push_return v pc : placed v -> place_in v allowed after_gosub (mkCs (cs_code (v_cs v)) (cs_line (v_cs v)) pc) -> after placed (push_return pc v).
Proof.
  intros H P. unfold push_return. destruct (Nat.leb _ _); [exact (pl_error _ v H)|]. destruct H as [Q C]. unfold after. cbn [fst snd].
  constructor; [|exact C]. pose proof Q as [P1 P2 P3 P4]. apply (pending_same v); try reflexivity; try assumption. cbn. constructor; assumption.
Qed.
Lemma pl_pop_return : safe placed pop_return.
Proof.
  intros v H. unfold pop_return. destruct (v_ret v) as [|c r] eqn:R; [exact (pl_error _ v H)|]. pose proof H as [[P1 P2 P3 P4] C]. rewrite R in P1. inversion P1; subst.
  unfold after. cbn [fst snd]. apply pl_set_cs.
  - constructor; [|exact C]. apply (pending_same v); try reflexivity; try assumption. apply (pl_pending _ H).
  - destruct H2 as (q & A & B & _). eauto.
Qed.

(* the code being executed is one of the allowed *)
Lemma here v i r : current v = Some i -> cs_code (v_cs v) = Some r -> nth_error (code_at v r) (cs_pc (v_cs v)) = Some i.
Proof. unfold current, cur_bcode, code_at. intros C R. rewrite R in C. destruct (c_bcode (code_of v r)); [exact C|discriminate C]. Qed.
Lemma in_body v i : placed v -> current v = Some i -> (exists r, cs_code (v_cs v) = Some r /\ allowed r) \/
  cs_code (v_cs v) = Some CDef /\ in_def v /\ (inner i = true \/ (exists id n, i = I_DEF id n) \/ (exists id, i = I_PARAM id) \/ i = I_END_DEF).
Proof.
  intros [_ [C|[C D]]] CU; [left; exact C|right]. split; [exact C|]. split; [exact D|]. destruct D as [_ D]. exact (def_code_current v i D C CU).
Qed.
Lemma outside v i : placed v -> current v = Some i -> AlikeProofs.jumps i = true -> exists r, cs_code (v_cs v) = Some r /\ allowed r.
Proof.
  intros H C J. destruct (in_body v i H C) as [X|(_ & _ & [X|[(id & n & ->)|[(id & ->)| ->]]])]; [exact X| | | |]; try discriminate J.
  destruct i; discriminate.
Qed.

Lemma places_keeps E i : AlikeProofs.jumps i = false -> calls i = false -> keeps places (exec_instr E i).
Proof. intros H C. destruct i; try discriminate H; try discriminate C; clear H C; cbn [exec_instr]; repeat keeps_more. Qed.

Lemma pl_for_put v si f : placed v -> place_in v allowed (fun l pc => nth_error l pc = Some (I_FOR (f_sym f))) (f_cs f) ->
  placed (set_for (list_upd (v_for v) si f) v).
Proof.
  intros H F. destruct H as [P C]. constructor; [|exact C]. pose proof P as [P1 P2 P3 P4]. apply (pending_same v); try reflexivity; try assumption.
  cbn. apply Forall_list_upd; assumption.
Qed.
Lemma pl_next si : safe placed (next si).
Proof.
  intros v H. unfold next. unfold bind at 1, get at 1. unfold bind at 1. destruct (nth_error (v_for v) si) as [f|] eqn:F; cbn [some_or_crash]; [|exact I]. unfold ret at 1.
  unfold bind at 1. unfold get_sym. destruct (symbol_at _ _) as [s|]; [|exact I].
  unfold bind at 1. destruct (val_num (s_val s)) as [x|]; cbn [some_or_crash]; [|exact I]. unfold ret at 1. cbv zeta.
  pose proof H as [P C]. pose proof P as [P1 P2 P3 P4].
  apply after_bind; [|intros a w E X; rewrite E in X; assert (K : keeps places (trace_for (dump_for_stack (lit "final stack")))) by (repeat keeps_more); exact (pl_keeps _ K w X)].
  destruct (_ || _).
  - unfold after, modify. cbn [fst snd]. constructor; [|exact C]. apply (pending_same v); try reflexivity; try assumption. cbn. apply Forall_remove_nth; assumption.
  - unfold bind, put_sym, modify, after. cbn [fst snd]. apply pl_set_cs; [apply (placed_same v); [reflexivity|exact H]|].
    pose proof (Forall_nth _ _ _ _ P2 F) as (r & A & B & _). eauto.
Qed.

Lemma pl_exec_for id v : placed v -> current v = Some (I_FOR id) -> after placed (exec_for id v).
Proof.
  intros H CU. destruct (outside v _ H CU eq_refl) as (r & CR & AR).
  assert (HERE : forall w, places w = places v -> v_cs w = v_cs v -> place_in w allowed (fun l pc => nth_error l pc = Some (I_FOR id)) (v_cs v)).
  { intros w PW _. exists r. split; [exact CR|]. split; [exact AR|]. pose proof (here v _ r CU CR) as X. unfold places in PW. injection PW as S1 S2 _ _ _ _ _ _.
    unfold code_at in *. destruct r; cbn [code_of] in *; [rewrite S1|rewrite S2|destruct (AD AR)]; exact X. }
  unfold exec_for. apply after_bind; [assert (K : keeps places (trace_for (dump_for (lit "FOR")))) by (repeat keeps_more); exact (pl_keeps _ K v H)|].
  intros a w EW PW. assert (KK : keeps (fun v => (places v, v_cs v)) (trace_for (dump_for (lit "FOR")))) by (repeat keeps_more).
  specialize (KK v). rewrite EW in KK, PW. cbn [fst snd] in KK, PW. unfold after in PW. cbn [fst snd] in PW. pose proof (f_equal fst KK) as KP. pose proof (f_equal snd KK) as KC. cbn [fst snd] in KP, KC. clear KK.
  clear EW. unfold bind at 1, get_sym at 1. destruct (symbol_at (v_st w) id) as [s|]; [|exact I].
  unfold bind at 1, assert. destruct (is_kind KVariable TNum s); [|exact I]. unfold ret at 1. unfold bind at 1, get at 1.
  assert (TAIL : forall l f, Forall (fun f => place_in w allowed (fun l pc => nth_error l pc = Some (I_FOR (f_sym f))) (f_cs f)) l ->
    after placed ((let* v1 := get in
      let si := length (v_for v1) - 1 in
      let* f1 := some_or_crash (nth_error (v_for v1) si) in
      let put_for f := modify (fun w => set_for (list_upd (v_for w) si f) w) in
      put_for (mkFor (v_cs v1) id (f_step f1) (f_limit f1)) ;;;
      let* step := pop in
      put_for (mkFor (v_cs v1) id step (f_limit f1)) ;;;
      let* limit := pop in
      put_for (mkFor (v_cs v1) id step limit) ;;;
      let* x := pop in
      put_sym id (define s (VNum x)) ;;;
      trace_for (dump_for_stack (lit "final stack"))) (set_for (l ++ [f]) w))).
  { intros l f L. unfold bind at 1, get. cbv zeta. unfold bind at 1. cbn [v_for set_for]. rewrite nth_error_last.
    cbn [some_or_crash]. unfold ret at 1. unfold bind at 1, modify at 1. cbn [v_for set_for v_cs]. rewrite list_upd_last.
    set (Q := fun u => placed u /\ v_stored u = v_stored w /\ v_imm u = v_imm w).
    assert (QP : forall (r : res unit * vm), after Q r -> after placed r).
    { intros [[x|e| |] u] X; unfold after in *; cbn [fst snd] in *; try exact I; apply X. }
    assert (QK : forall {A} (m : M A), keeps places m -> safe Q m).
    { intros A m K u (U1 & U2 & U3). specialize (K u). pose proof (placed_same _ _ K U1) as X. unfold places in K. injection K as K1 K2 _ _ _ _ _ _.
      unfold after. destruct (fst (m u)); try exact I; (split; [exact X|split; congruence]). }
    assert (QF : forall a b, safe Q (modify (fun u => set_for (list_upd (v_for u) (length (l ++ [f]) - 1) (mkFor (v_cs w) id a b)) u))).
    { intros a0 b u (U1 & U2 & U3). unfold after, modify. cbn [fst snd]. split; [|split; assumption]. apply pl_for_put; [exact U1|]. cbn [f_sym f_cs].
      rewrite KC. exists r. split; [exact CR|]. split; [exact AR|]. pose proof (here v _ r CU CR) as X. unfold places in KP. injection KP as S1 S2 _ _ _ _ _ _.
      unfold code_at in *. destruct r; cbn [code_of] in *; [rewrite U2, S1|rewrite U3, S2|destruct (AD AR)]; exact X. }
    apply QP.
    match goal with |- after _ (?m ?w0) => assert (R : safe Q m); [|apply R] end.
    - apply safe_bind; [apply QK; repeat keeps_more|intros step].
      apply safe_bind; [apply QF|intros _].
      apply safe_bind; [apply QK; repeat keeps_more|intros limit].
      apply safe_bind; [apply QF|intros _].
      apply safe_bind; [apply QK; repeat keeps_more|intros x].
      apply QK. repeat keeps_more.
    - split; [|split; reflexivity]. destruct PW as [P C]. constructor; [|exact C]. pose proof P as [P1 P2 P3 P4].
      apply (pending_same w); try reflexivity; try assumption. cbn [v_for set_for]. apply Forall_app. split; [exact L|].
      constructor; [|constructor]. cbn [f_sym f_cs]. rewrite KC. apply HERE; assumption. }
  pose proof (pd_for _ _ (pl_pending _ PW)) as C. unfold bind at 1.
  destruct (find_for (v_for w) id) as [si|].
  - unfold bind at 1. destruct (nth_error (v_for w) si) as [f|]; cbn [some_or_crash]; [|exact I].
    exact (TAIL (remove_nth (v_for w) si) f (Forall_remove_nth _ _ _ C)).
  - destruct (Nat.leb MAX_FOR (length (v_for w))).
    + match goal with |- after _ match ?m w with _ => _ end => assert (R : safe placed m) end.
      { apply pl_keeps; repeat keeps_more. }
      specialize (R w PW).
      destruct ((dump_for_stack (lit "overflow");;; run_error RE_for_nested) w) as [[u|e| |] w0] eqn:E; try exact R.
      apply bind_ok in E as (u0 & w1 & _ & E). discriminate E.
    + exact (TAIL (v_for w) _ C).
Qed.

Lemma pl_end_def : safe placed end_def.
Proof.
  intros v H. unfold end_def. unfold bind at 1, get at 1. destruct (cs_code (fn_cs (v_fn v))) as [r|] eqn:E; [|exact (pl_error _ v H)]. cbv zeta.
  pose proof H as [P C]. pose proof P as [P1 P2 P3 P4]. rewrite E in P3. destruct (P3 ltac:(discriminate)) as (q & A & B & _).
  unfold bind at 1, modify at 1. unfold bind at 1, modify at 1.
  match goal with |- after _ (?m ?w) => assert (R : safe placed m) by (apply pl_keeps; repeat keeps_more); apply R end.
  constructor.
  - apply (pending_same v); try reflexivity; try assumption. cbn. intros X. destruct (X eq_refl).
  - left. cbn. eauto.
Qed.

Lemma pl_call_def st0 id n v : kinded st0 v -> placed v ->
  (exists i m, current v = Some (I_GET_PAREN_NUM i m) \/ current v = Some (I_GET_PAREN_STR i m)) -> after placed (call_def id n v).
Proof.
  intros T H CU. unfold call_def. unfold bind at 1, get_sym at 1. destruct (symbol_at (v_st v) id) as [s|] eqn:SY; [|exact I].
  destruct (kd_sym st0 v id s T SY) as [N Fs].
  unfold bind at 1, assert at 1. destruct (skind_eqb (s_kind s) KDef) eqn:K; [|exact I]. apply skind_eq in K. unfold ret at 1.
  destruct (negb _) eqn:DF; [exact (pl_error _ v H)|].
  unfold bind at 1. destruct (val_def (s_val s)) as [d0|] eqn:D0; cbn [some_or_crash]; [|exact I]. unfold ret at 1.
  unfold bind at 1. destruct d0 as [d|]; cbn [some_or_crash]; [|exact I]. unfold ret at 1.
  unfold bind at 1, get at 1.
  destruct (cs_code (fn_cs (v_fn v))) as [r|] eqn:FN; [exact (pl_error _ v H)|].
  destruct (negb (n =? 1)%N); [exact (pl_error _ v H)|].
  unfold bind at 1, get_bcode.
  destruct (cur_bcode v) as [bc|] eqn:BC; [|exact I].
  destruct (Nat.leb _ _); [exact (pl_error _ v H)|].
  assert (V : s_val s = VDef d) by (destruct (s_val s); cbn [val_def] in D0; congruence).
  unfold wfits in Fs. rewrite K, V in Fs. destruct Fs as (_ & pid & CK). assert (P : nth_error (bc_inst (def_bcode d)) 1 = Some (I_PARAM pid)) by (destruct CK as (? & ? & ? & -> & _); reflexivity). rewrite P.
  unfold bind at 1, modify at 1. unfold bind at 1, modify at 1. unfold bind at 1, modify at 1.
  match goal with |- after _ (_ ?w) => set (v1 := w) end.
  unfold bind at 1, get_sym at 1. change (v_st v1) with (v_st v).
  destruct (symbol_at (v_st v) pid) as [ps|] eqn:PS; [|exact I].
  unfold bind at 1, assert. destruct (is_kind KVariable TNum ps) eqn:PK; [|exact I]. unfold ret at 1.
  unfold bind at 1. destruct (val_num (s_val ps)) as [x|]; cbn [some_or_crash]; [|exact I]. unfold ret at 1. unfold bind at 1, modify at 1.
  match goal with |- after _ (?m ?w) => assert (R : safe placed m) by (apply pl_keeps; repeat keeps_more); apply R end.
  pose proof H as [Q C]. pose proof Q as [P1 P2 P3 P4].
  assert (OUT : exists r, cs_code (v_cs v) = Some r /\ allowed r).
  { destruct C as [C | [_ [C _]]]; [exact C | destruct (C FN)]. }
  destruct OUT as (r & CR & AR). constructor.
  - apply (pending_same v); try reflexivity; try assumption. intros _. cbn. exists r. split; [exact CR|]. split; [exact AR|].
    destruct CU as (i & m & CU). exists i, m. destruct CU as [CU|CU]; [left|right]; exact (here v _ r CU CR).
  - right. split; [reflexivity|]. split; [cbn; congruence|]. exists (def_bcode d), pid. split; [reflexivity|exact CK].
Qed.

Lemma pl_exec_on v (g : bool) k : placed v -> current v = Some (if g then I_ON_GOSUB k else I_ON_GOTO k) -> after placed (exec_on g k v).
Proof.
  intros H CU. assert (J : exists r, cs_code (v_cs v) = Some r /\ allowed r) by (apply (outside v _ H CU); destruct g; reflexivity). destruct J as (r & CR & AR).
  unfold exec_on. apply after_bind; [assert (K : keeps places pop) by (repeat keeps_more); exact (pl_keeps _ K v H)|].
  intros x w E PW. assert (K : keeps (fun u => (places u, v_cs u)) pop) by (repeat keeps_more). specialize (K v). rewrite E in K, PW. cbn [snd] in K. pose proof (f_equal fst K) as KP. pose proof (f_equal snd K) as KC. cbn [fst snd] in KP, KC. clear K.
  unfold after in PW. cbn [fst snd] in PW. clear E. destruct (fneb _ _); [exact (pl_error _ w PW)|]. unfold bind at 1, get at 1. cbv zeta.
  destruct (_ || _); [apply pl_set_pc, PW|].
  unfold bind at 1. destruct (ftoZ x) as [z|]; cbn [some_or_crash]; [|exact I]. unfold ret at 1. unfold bind at 1, get_bcode.
  destruct (cur_bcode w) as [bc|]; [|exact I]. destruct (nth_error (bc_inst bc) _) as [[]|]; try exact (pl_error _ w PW).
  apply after_bind.
  - destruct g; [|exact PW]. apply pl_push_return; [exact PW|]. unfold places in KP. injection KP as S1 S2 _ _ _ _ _ _. exists r. cbn [cs_code cs_pc]. rewrite KC. split; [exact CR|]. split; [exact AR|].
    exists (cs_pc (v_cs v)). right. exists k. split; [|reflexivity]. pose proof (here v _ r CU CR) as X. unfold code_at in *. destruct r; cbn [code_of] in *; [rewrite S1|rewrite S2|destruct (AD AR)]; exact X.
  - intros a u E X. rewrite E in X. exact (pl_goto _ u X).
Qed.

Lemma pl_adv (m : M unit) v (b : bool) : after placed (m v) -> after placed ((m ;;; ret b) v).
Proof. intros H. apply after_bind; [exact H|]. intros a w E X. rewrite E in X. exact X. Qed.

Lemma pl_exec st0 E i v : kinded st0 v -> placed v -> current v = Some i -> after placed (exec_instr E i v).
Proof.
  intros T H CU. destruct (AlikeProofs.jumps i) eqn:J; [|destruct (calls i) eqn:C; [|exact (pl_keeps _ (places_keeps E i J C) v H)]].
  - destruct i; try discriminate J; cbn [exec_instr].
    + apply pl_adv, pl_goto, H.
    + apply after_bind; [assert (K : keeps places pop) by (repeat keeps_more); exact (pl_keeps _ K v H)|]. intros x w E1 X. rewrite E1 in X. unfold after in X; cbn [fst snd] in X.
      destruct (truth x); [apply pl_adv, pl_goto, X|exact X].
    + unfold bind at 1, get at 1. apply after_bind.
      * apply pl_push_return; [exact H|]. destruct (outside v _ H CU eq_refl) as (r & CR & AR). exists r. cbn [cs_code cs_pc]. split; [exact CR|]. split; [exact AR|].
        exists (cs_pc (v_cs v)). left. split; [eexists; exact (here v _ r CU CR) | reflexivity].
      * intros a u E1 X. rewrite E1 in X. apply pl_adv. exact (pl_goto _ u X).
    + apply pl_adv. exact (pl_pop_return v H).
    + apply pl_adv. exact (pl_exec_for _ v H CU).
    + apply after_bind; [assert (K : keeps places (trace_for (dump_for (lit "NEXT-VARIABLE")))) by (repeat keeps_more); exact (pl_keeps _ K v H)|].
      intros a w E1 X. rewrite E1 in X. unfold after in X; cbn [fst snd] in X. unfold bind at 1, get at 1.
      destruct (last_opt (v_for w)) as [f|]; [|exact (pl_error _ w X)]. destruct (_ =? _)%N; [apply pl_adv; exact (pl_next _ w X)|].
      destruct (find_for _ _) as [si|]; [apply pl_adv; exact (pl_next _ w X)|]. match goal with |- after _ (?m w) => assert (K : keeps places m) by (repeat keeps_more); exact (pl_keeps _ K w X) end.
    + apply after_bind; [assert (K : keeps places (trace_for (dump_for (lit "NEXT-IMPLICIT")))) by (repeat keeps_more); exact (pl_keeps _ K v H)|].
      intros a w E1 X. rewrite E1 in X. unfold after in X; cbn [fst snd] in X. unfold bind at 1, get at 1.
      destruct (v_for w) as [|f0 l0] eqn:FF; [exact (pl_error _ w X)|]. apply pl_adv. exact (pl_next _ w X).
    + apply pl_adv. exact (pl_exec_on v false _ H CU).
    + apply pl_adv. exact (pl_exec_on v true _ H CU).
  - assert (PAREN : forall t id n (m : M unit), keeps places m -> (exists i m, current v = Some (I_GET_PAREN_NUM i m) \/ current v = Some (I_GET_PAREN_STR i m)) ->
      after placed ((let* s := get_sym id in assert (vtype_eqb (s_type s) t) ;;; adv (if skind_eqb (s_kind s) KArray then m else call_def id n)) v)).
    { intros t id n m K CC. unfold bind at 1, get_sym. destruct (symbol_at (v_st v) id) as [s|]; [|exact I].
      unfold bind at 1, assert. destruct (vtype_eqb _ _); [|exact I]. unfold ret at 1. apply pl_adv. destruct (skind_eqb _ _); [exact (pl_keeps _ K v H)|]. exact (pl_call_def st0 _ _ v T H CC). }
    destruct i; try discriminate C; cbn [exec_instr].
    + apply PAREN; [repeat keeps_more|eauto].
    + apply PAREN; [repeat keeps_more|eauto].
    + apply pl_adv. exact (pl_end_def v H).
Qed.

Lemma pl_execute st0 E v : kinded st0 v -> placed v -> after placed (execute E v).
Proof. intros T H. apply safe_execute; [intros n w; apply pl_set_pc | intros i C; exact (pl_exec st0 E i v T H C) | exact H]. Qed.

Lemma pl_run st0 E fuel brk : safe (fun v => kinded st0 v /\ placed v) (run E fuel brk).
Proof.
  apply safe_run.
  - intros v [T H]. pose proof (kd_execute st0 E v T) as A. pose proof (pl_execute st0 E v T H) as B. unfold after in *. destruct (fst (execute E v)); auto.
  - intros b v [T H]. split; [apply kd_keeps_set; [repeat keeps_more|exact T]|]. apply (placed_same v); [reflexivity|exact H].
  - intros c v [T H] C. split; [apply kd_keeps_set; [repeat keeps_more|exact T]|]. destruct H as [P CC]. constructor; [|exact CC].
    destruct P as [P1 P2 P3 P4]. constructor; try assumption. cbn. destruct C as [[-> C]| ->]; [right; exact C|left; reflexivity].
  - intros o c v [T H]. split; [apply kd_keeps_set; [repeat keeps_more|exact T]|]. apply (placed_same v); [reflexivity|exact H].
Qed.
End Placed.
