(* What running code keeps, wherever it begins (C31). *)
From Coq Require Import Lia ZifyBool ZifyNat ZifyN.
From Verif Require Import Base BaseLemmas Num NumSpec NumLemmas SourceModel LineMapModel ArrayModel ArraySpec BcodeModel SymbolModel SymbolSpec
  VmModel VmLemmas VmSpec ControlProofs ValueSpec ValueProofs VmTyping KindProofs AlikeProofs StoreSpec StoreFrames GrammarSpec TypeSpec StepSpec DataSpec DataProofs
  SessionModel MonitorModel SafeProofs SafeCode SafeRun SafeSpec SafeTop.
Local Open Scope nat_scope.
Local Notation typed := VmTyping.typed.

Section Inv.
Variable g : list sig.
Local Notation tail := (tail g).

(* the code of a function *)
Definition body_of (t : vtype) (l : list instr) : Prop :=
  exists id p b, l = I_DEF id 1 :: I_PARAM p :: b ++ [I_END_DEF] /\ flow b 0 0 (rn t) (rs t) /\ sg_kind g id KDef t.
Definition sound_fn (s : symbol) : Prop := match s_val s with VDef d => body_of (s_type s) (bc_inst (def_bcode d)) | _ => True end.
Definition sound_fns (v : vm) : Prop := Forall sound_fn (st_syms (v_st v)) /\ forall bc, c_bcode (v_def v) = Some bc -> exists t, body_of t (bc_inst bc).
Lemma sound_defs v : sound_fns v -> defs_good v.
Proof.
  intros [H _]. unfold defs_good. eapply Forall_impl; [|exact H]. intros s. unfold sound_fn, def_good. destruct (s_val s); auto.
  intros (id & p & b & E & F & _). exists id, p, b. auto.
Qed.

Lemma fns_keeps {A} (m : M A) : keeps (fun v => (v_st v, v_def v)) m -> inv sound_fns m.
Proof. intros K v H. specialize (K v). injection K as K1 K2. unfold sound_fns. rewrite K1, K2. exact H. Qed.
Lemma fns_put id s : sound_fn s -> inv sound_fns (put_sym id s).
Proof. intros H v [D B]. unfold sound_fns, put_sym, modify. cbn [snd v_st v_def set_st st_syms sym_update]. split; [apply Forall_list_upd; assumption|exact B]. Qed.
Lemma fns_get_sym {B} id (k : symbol -> M B) : (forall s, sound_fn s -> inv sound_fns (k s)) -> inv sound_fns (bind (get_sym id) k).
Proof.
  intros H v D. unfold bind, get_sym. destruct (symbol_at (v_st v) id) as [s|] eqn:E; [|exact D]. apply H; [|exact D].
  unfold symbol_at in E. eapply VmTyping.Forall_nth; [exact (proj1 D)|exact E].
Qed.
Ltac fns_step :=
  match goal with
  | |- inv _ (bind (get_sym _) _) => apply fns_get_sym; intros ? ?
  | |- inv _ (put_sym _ _) => apply fns_put; unfold sound_fn, define, undefine, set_defined, set_val in *; cbn [s_val s_type] in *; first [exact Logic.I | assumption]
  | |- inv _ (bind _ _) => apply inv_bind; [|intros ?]
  | |- inv _ (ret _) => apply inv_ret
  | |- inv _ crash => apply inv_crash
  | |- inv _ get => apply inv_get
  | |- inv _ (assert _) => apply inv_assert
  | |- inv _ (some_or_crash _) => apply inv_some
  | |- inv _ (if ?b then _ else _) => destruct b eqn:?
  | |- inv _ (match ?x with _ => _ end) => destruct x eqn:?
  | |- inv _ (adv _) => unfold adv
  | |- inv _ (jump _) => unfold jump
  | |- inv _ (get_numeric_simple _) => unfold get_numeric_simple
  | |- inv _ (set_numeric_simple _ _) => unfold set_numeric_simple
  | |- inv _ (get_string_simple _) => unfold get_string_simple
  | |- inv _ (set_string_simple _ _) => unfold set_string_simple
  | |- inv _ (exec_dim_num _ _) => unfold exec_dim_num
  | |- inv _ (exec_dim_str _ _) => unfold exec_dim_str
  | |- inv _ (dimension_numeric _ _) => unfold dimension_numeric
  | |- inv _ (dimension_string _ _) => unfold dimension_string
  | |- inv _ (numeric_array_at _ _) => unfold numeric_array_at
  | |- inv _ (string_array_at _ _) => unfold string_array_at
  | |- inv _ (dimension_numeric_auto _ _) => unfold dimension_numeric_auto
  | |- inv _ (dimension_string_auto _ _) => unfold dimension_string_auto
  | |- inv _ (get_numeric_element _ _) => unfold get_numeric_element
  | |- inv _ (get_string_element _ _) => unfold get_string_element
  | |- inv _ (set_numeric_element _ _ _) => unfold set_numeric_element
  | |- inv _ (set_string_element _ _ _) => unfold set_string_element
  | |- inv _ (set_numeric _ _ _) => unfold set_numeric
  | |- inv _ (set_string _ _ _) => unfold set_string
  | |- inv _ (next _) => unfold next
  | |- inv _ (exec_for _) => unfold exec_for
  | |- inv _ end_def => unfold end_def
  | |- inv _ (modify (set_def _)) => fail 1
  | |- inv _ _ => solve [apply fns_keeps; repeat keeps_more]
  end; cbv beta zeta.
Lemma fns_call id n : inv sound_fns (call_def id n).
Proof.
  unfold call_def. apply fns_get_sym. intros s F. apply inv_bind; [apply inv_assert|]. intros _. destruct (negb (s_defined s)); [repeat fns_step|].
  intros v H. unfold bind at 1. destruct (val_def (s_val s)) as [[d|]|] eqn:D; cbn [some_or_crash]; try exact H. unfold ret at 1. unfold bind at 1. cbn [some_or_crash]. unfold ret at 1.
  assert (B : body_of (s_type s) (bc_inst (def_bcode d))) by (unfold sound_fn in F; destruct (s_val s); try discriminate D; injection D as ->; exact F).
  match goal with |- sound_fns (snd (?m v)) => assert (X : inv sound_fns m); [|exact (X v H)] end.
  apply inv_bind; [apply inv_get|]. intros v0. destruct (cs_code (fn_cs (v_fn v0))); [repeat fns_step|]. destruct (negb (n =? 1)%N); [repeat fns_step|].
  apply inv_bind; [repeat fns_step|]. intros bc. destruct (Nat.leb _ _); [repeat fns_step|]. apply inv_bind; [repeat fns_step|]. intros _.
  apply inv_bind; [|intros _; repeat fns_step].
  intros w [D1 D2]. unfold modify, sound_fns. cbn [snd v_st v_def set_def set_code]. split; [exact D1|]. cbn [c_bcode]. intros b X. injection X as <-. exists (s_type s). exact B.
Qed.
Lemma fns_clear : inv sound_fns (modify (fun v => set_st (clear_symbol_table_values (v_st v)) v)).
Proof.
  intros v [D B]. unfold sound_fns, modify in *. cbn [snd v_st v_def set_st]. split; [|exact B]. unfold clear_symbol_table_values. cbn [st_syms]. apply Forall_map.
  eapply Forall_impl; [|exact D]. intros s H. destruct (s_defined s); [|exact H]. unfold undefine_value, sound_fn in *. destruct (s_kind s); cbn; auto.
Qed.
Lemma fns_exec E i : (forall id n, i <> I_DEF id n) -> inv sound_fns (exec_instr E i).
Proof.
  intros ND. destruct i; try solve [apply fns_keeps; cbn [exec_instr]; repeat keeps_more]; cbn [exec_instr]; try solve [repeat first [apply fns_call|fns_step]].
  - apply inv_bind; [apply fns_clear|intros _; apply inv_ret].
  - destruct (ND id params eq_refl).
  - intros v H. destruct (rnd_loop RND_FUEL E (v_seed v) (v_randk v)) as [[x k]|]; [|exact H].
    assert (X : inv sound_fns (adv (push x))) by (apply fns_keeps; repeat keeps_more). apply X. exact H.
  - intros v H. destruct (e_hms E (v_clock v)) as [[h m] s].
    match goal with |- sound_fns (snd (?f _)) => assert (X : inv sound_fns f) by (apply fns_keeps; repeat keeps_more) end. apply X. exact H.
Qed.

(* a function is defined *)
Lemma tail_def l n s a : tail l n s a -> forall p id k, nth_error l p = Some (I_DEF id k) ->
  k = 1%N /\ exists q b l' t, skipn p l = I_DEF id 1 :: I_PARAM q :: b ++ I_END_DEF :: l' /\ flow b 0 0 (rn t) (rs t) /\ sg_kind g id KDef t.
Proof.
  induction 1 as [n s a|i l n s a p q c d H P WL Q R T IH|i l n s a k H K T IH|t l n s a T IH|l n s T IH|id k l n s K T IH|b lines l n s a N LL T IH|id p b l n s a t F G T IH];
    intros m j k0 E.
  - destruct m; discriminate E.
  - destruct m as [|m]; cbn in E; [injection E as ->; discriminate H|]. exact (IH m j k0 E).
  - destruct m as [|m]; cbn in E; [injection E as ->; discriminate H|]. exact (IH m j k0 E).
  - destruct m as [|m]; cbn in E; [discriminate E|]. exact (IH m j k0 E).
  - destruct m as [|m]; cbn in E; [discriminate E|]. exact (IH m j k0 E).
  - destruct m as [|m]; cbn in E; [discriminate E|]. exact (IH m j k0 E).
  - destruct m as [|m]; cbn [nth_error] in E; [destruct b; discriminate E|].
    destruct (Nat.lt_ge_cases m (length lines)) as [LT|GE].
    + rewrite nth_error_app1 in E by (rewrite map_length; exact LT). rewrite nth_error_map in E. destruct (nth_error lines m); discriminate E.
    + rewrite nth_error_app2 in E by (rewrite map_length; exact GE). rewrite map_length in E. cbn [skipn]. rewrite skipn_app, skipn_all2 by (rewrite map_length; exact GE). rewrite map_length. cbn [app].
      exact (IH _ j k0 E).
  - destruct m as [|[|m]]; cbn [nth_error] in E; [injection E as -> <-; split; [reflexivity|]; exists p, b, l, t; auto|discriminate E|]. cbn [skipn].
    destruct (Nat.lt_ge_cases m (length b)) as [LT|GE].
    + rewrite nth_error_app1 in E by exact LT. destruct (flow_leap _ _ _ _ _ F _ _ E eq_refl).
    + rewrite nth_error_app2 in E by exact GE. rewrite skipn_app, skipn_all2 by exact GE. cbn [app].
      destruct (m - length b) as [|q] eqn:Q; cbn [nth_error] in E; [discriminate E|]. cbn [skipn]. exact (IH q j k0 E).
Qed.
Lemma body_def t l p id k : body_of t l -> nth_error l p = Some (I_DEF id k) ->
  k = 1%N /\ exists q b l' t, skipn p l = I_DEF id 1 :: I_PARAM q :: b ++ I_END_DEF :: l' /\ flow b 0 0 (rn t) (rs t) /\ sg_kind g id KDef t.
Proof.
  intros (id0 & p0 & b & -> & F & G) E. destruct p as [|[|p]]; cbn [nth_error] in E; [injection E as -> <-; split; [reflexivity|]; exists p0, b, [], t; auto|discriminate E|].
  destruct (Nat.lt_ge_cases p (length b)) as [LT|GE].
  - rewrite nth_error_app1 in E by exact LT. destruct (flow_leap _ _ _ _ _ F _ _ E eq_refl).
  - rewrite nth_error_app2 in E by exact GE. destruct (p - length b) as [|[|q]]; discriminate E.
Qed.

(* the code that may run *)
Definition shaped (v : vm) : Prop := forall r bc, r <> CDef -> c_bcode (code_of v r) = Some bc -> tail (bc_inst bc) 0 0 false.
Lemma fns_def E v id k : typed g v -> sound_fns v -> shaped v -> current v = Some (I_DEF id k) -> sound_fns (snd (exec_instr E (I_DEF id k) v)).
Proof.
  intros TY H SH C. cbn [exec_instr]. unfold adv.
  match goal with |- sound_fns (snd (bind ?m ?k0 v)) => assert (X : sound_fns (snd (m v))); [|unfold bind; destruct (m v) as [[[]|e| |] w]; exact X] end.
  unfold exec_def. unfold bind at 1, get_sym. destruct (symbol_at (v_st v) id) as [s|] eqn:SY; [|exact H].
  unfold bind at 1, assert at 1. destruct (skind_eqb (s_kind s) KDef); [|exact H]. unfold ret at 1.
  unfold bind at 1. destruct (val_def (s_val s)) as [d0|]; cbn [some_or_crash]; [|exact H]. unfold ret at 1. unfold bind at 1.
  set (m := match d0 with Some _ => assert (s_defined s) ;;; put_sym id (undefine s) | None => ret tt end).
  assert (M1 : inv sound_fns m) by (subst m; destruct d0; [|apply inv_ret]; apply inv_bind; [apply inv_assert|intros _; apply fns_put; exact Logic.I]).
  assert (M2 : keeps (fun w => (v_stored w, v_imm w, v_def w, v_cs w)) m) by (subst m; repeat keeps_more).
  specialize (M1 v H). specialize (M2 v). destruct (m v) as [[u|e| |] v1]; cbn [snd] in *; try exact M1. injection M2 as Q1 Q2 Q3 Q4.
  destruct (negb (k =? 1)%N); [assert (X : inv sound_fns (@run_error unit (RE_def_params (s_name s)))) by (apply fns_keeps, keeps_run_error; reflexivity); exact (X v1 M1)|].
  assert (CB : cur_bcode v1 = cur_bcode v) by (unfold cur_bcode; rewrite Q4; destruct (cs_code (v_cs v)) as [[]|]; cbn [code_of]; [rewrite Q1|rewrite Q2|rewrite Q3|]; reflexivity).
  unfold bind at 1, get_bcode. rewrite CB. unfold current in C. destruct (cur_bcode v) as [bc|] eqn:CU; [|discriminate C]. unfold bind at 1, get at 1. cbv zeta. rewrite Q4.
  assert (X : exists q b l' t, skipn (cs_pc (v_cs v)) (bc_inst bc) = I_DEF id 1 :: I_PARAM q :: b ++ I_END_DEF :: l' /\ flow b 0 0 (rn t) (rs t) /\ sg_kind g id KDef t).
  { unfold cur_bcode in CU. destruct (cs_code (v_cs v)) as [r|]; [|discriminate CU]. assert (DEC : r = CDef \/ r <> CDef) by (destruct r; [right; discriminate|right; discriminate|left; reflexivity]). destruct DEC as [-> |ND].
    - destruct (proj2 H bc CU) as (t & B). exact (proj2 (body_def _ _ _ _ _ B C)).
    - exact (proj2 (tail_def _ _ _ _ (SH r bc ND CU) _ _ _ C)). }
  destruct X as (q & b & l' & t & SK & F & SG).
  assert (TT : s_type s = t).
  { destruct SG as (nm & i0 & SG). rewrite <- (ty_sigs _ _ TY) in SG. unfold sigs, symbol_at in *. rewrite nth_error_map, SY in SG. injection SG as _ _ _ <-. reflexivity. }
  assert (B : body_of t (bc_inst (bcode_copy_def bc (cs_pc (v_cs v))))).
  { exists id, q, b. split; [|split; [exact F|exact SG]]. rewrite copy_def_inst, SK. cbn [scan_to is_end_def]. rewrite (scan_body _ _ _ _ _ l' F). cbn [firstn app].
    rewrite firstn_app, Nat.sub_diag, firstn_all. cbn [firstn]. rewrite app_nil_r. reflexivity. }
  match goal with |- sound_fns (snd (?m0 v1)) => assert (Y : inv sound_fns m0); [|exact (Y v1 M1)] end.
  apply inv_bind; [apply fns_put; unfold sound_fn, define, set_defined, set_val; cbn [s_val s_type def_bcode]; rewrite TT; exact B|]. intros _. apply fns_keeps. repeat keeps_more.
Qed.

(* ---------- runs ---------- *)

Record clean (v : vm) : Prop := {
  cl_typed : typed g v;
  cl_values : values_ok v;
  cl_arrays : arrays_ok v;
  cl_fns : sound_fns v;
  cl_shaped : shaped v
}.
Lemma shaped_same v w : v_stored w = v_stored v -> v_imm w = v_imm v -> shaped v -> shaped w.
Proof. intros S I H [| |] bc ND; cbn [code_of]; [rewrite S; exact (H CStored bc ND)|rewrite I; exact (H CImmediate bc ND)|destruct (ND eq_refl)]. Qed.
Lemma clean_execute E v : env_ok E -> no_wrap v -> clean v -> clean (snd (execute E v)).
Proof.
  intros EO W [TY VO AO FN SH]. destruct (current v) as [i|] eqn:C; [|rewrite (execute_none E v C); constructor; assumption]. constructor.
  - exact (typed_execute g E v TY).
  - exact (vo_execute E v EO VO).
  - exact (ao_execute E v (ok_stack v VO) W AO).
  - rewrite (execute_eq E v i C). assert (X : sound_fns (snd (exec_instr E i v))).
    { assert (D : (exists id k, i = I_DEF id k) \/ forall id k, i <> I_DEF id k) by (destruct i; try (right; discriminate); left; eauto).
      destruct D as [(id & k & ->)|ND]; [exact (fns_def E v id k TY FN SH C)|exact (fns_exec E i ND v FN)]. }
    destruct (exec_instr E i v) as [[[]|e| |] w]; exact X.
  - apply (shaped_same v); [|  |exact SH].
    + exact (execute_keeps v_stored E v _ C (fun _ _ => eq_refl) (exec_keeps_stored E _)).
    + exact (execute_keeps v_imm E v _ C (fun _ _ => eq_refl) (exec_keeps_imm E _)).
Qed.
Lemma clean_set (f : vm -> vm) v : (forall w, (v_st (f w), v_for (f w), v_fn (f w), (v_stored (f w), v_imm (f w), v_def (f w)), (v_stack (f w), v_sstack (f w), v_input (f w))) = (v_st w, v_for w, v_fn w, (v_stored w, v_imm w, v_def w), (v_stack w, v_sstack w, v_input w))) ->
  clean v -> clean (f v).
Proof.
  intros K [TY VO AO FN SH]. specialize (K v). injection K as K1 K2 K3 K4 K5 K6 K7 K8 K9. constructor.
  - destruct TY as [T1 T2 T3 T4 T5]. constructor; rewrite ?K1, ?K2, ?K3; try assumption. intros r bc X. apply (T5 r bc). destruct r; cbn [code_of] in *; congruence.
  - destruct VO as [V1 V2 V3 V4 V5 V6 V7]. constructor; rewrite ?K1, ?K2, ?K3, ?K7, ?K8, ?K9; try assumption. intros r bc X. apply (V6 r bc). destruct r; cbn [code_of] in *; congruence.
  - unfold arrays_ok. rewrite K1. exact AO.
  - unfold sound_fns. rewrite K1, K6. exact FN.
  - exact (shaped_same v (f v) K4 K5 SH).
Qed.
Lemma clean_loop E fuel : env_ok E -> forall brk v, (forall l w, runs E v l w -> ~ wraps w) -> clean v -> clean (snd (run_loop E fuel brk v)).
Proof.
  intros EO. induction fuel as [|f IH]; intros brk v NW CL; cbn [run_loop]; (destruct (cur_bcode v) as [bc|]; [|exact CL]); (destruct (_ && _); [|exact CL]); [exact CL|].
  assert (W : no_wrap v) by (destruct (wrap_dec v) as [W|W]; [exact W|destruct (NW [] v (Runs_nil _ _) W)]).
  pose proof (clean_execute E v EO W CL) as C1. destruct (execute E v) as [[[]|e| |] w] eqn:X; cbn [snd] in C1; try exact C1.
  apply IH; [|exact C1]. intros l u R. exact (NW (v :: l) u (Runs_cons _ _ _ _ _ X R)).
Qed.
Lemma wraps_stopped b v : wraps (set_stopped b v) -> wraps v.
Proof. intros H. exact H. Qed.
Lemma clean_run E fuel brk v : env_ok E -> (forall l w, runs E (set_stopped false v) l w -> ~ wraps w) -> clean v -> clean (snd (run E fuel brk v)).
Proof.
  intros EO NW CL. unfold run. destruct (cs_code (v_cs v)) as [r0|]; [|exact CL].
  pose proof (clean_loop E fuel EO brk _ NW (clean_set (set_stopped false) v (fun _ => eq_refl) CL)) as HL.
  destruct (run_loop E fuel brk (set_stopped false v)) as [[r b] w]. cbn [snd] in HL.
  assert (HO : forall o c x, clean x -> clean (set_outcol o c x)) by (intros o c x; apply (clean_set (set_outcol o c)); reflexivity).
  assert (HR : clean (snd (run_report b w))).
  { unfold run_report. destruct (interrupted b); [apply HO, HL|]. destruct (v_stopped w); [|exact HL]. destruct (cs_code (v_cs w)); [apply HO, HL|exact HL]. }
  assert (HF : forall x : vm, clean x -> clean (run_stop_state b x)).
  { intros x Hx. unfold run_stop_state. destruct (cs_code (v_cs x)) as [[]|]; auto. destruct (_ || _); [apply (clean_set (set_stopcs (v_cs x)))|apply (clean_set (set_stopcs clear_cs))]; try reflexivity; exact Hx. }
  destruct r; try exact HL; destruct (run_report b w) as [[u'|e'| |] w']; cbn [snd] in *; auto.
Qed.
End Inv.
