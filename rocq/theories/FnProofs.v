(* DEF and calls of functions (C17). *)
From Coq Require Import Lia ZifyBool ZifyNat ZifyN.
From Verif Require Import Base BaseLemmas Num BcodeModel SymbolModel VmModel VmLemmas VmSpec ControlProofs OpSpec OpProofs
  StoreSpec StoreProofs FnSpec VmTyping.
Local Open Scope nat_scope.

Lemma function_sym v id d : function v id = Some d -> exists s, symbol_at (v_st v) id = Some s /\ s_defined s = true /\ s_val s = VDef d.
Proof.
  unfold function. destruct (symbol_at _ _) as [s|]; [|discriminate]. destruct (s_defined s) eqn:D; [|discriminate].
  destruct (s_val s) eqn:V; try discriminate. intros H. injection H as <-. eauto.
Qed.
Lemma param_nth d p : parameter d = Some p -> nth_error (bc_inst (def_bcode d)) 1 = Some (I_PARAM p).
Proof. unfold parameter, body. destruct (bc_inst _) as [|a [|[] l]]; try discriminate. intros H. injection H as <-. reflexivity. Qed.

Section Call.
Variable (g : list sig).

Lemma function_kind v id s d : typed g v -> symbol_at (v_st v) id = Some s -> s_val s = VDef d -> s_kind s = KDef.
Proof.
  intros T H V. pose proof (typed_fits g v id s T H) as F. unfold fits in F. rewrite V in F.
  destruct (s_kind s), (s_type s); try reflexivity; try contradiction; destruct F; discriminate.
Qed.
Lemma param_sym v id s d p : typed g v -> symbol_at (v_st v) id = Some s -> s_val s = VDef d -> parameter d = Some p ->
  exists ps, symbol_at (v_st v) p = Some ps /\ is_kind KVariable TNum ps = true /\
    match s_val ps with VZero | VNum _ => True | _ => False end.
Proof.
  intros T H V P. pose proof (function_kind v id s d T H V) as K. pose proof (typed_fits g v id s T H) as F. unfold fits in F.
  rewrite K, V in F. assert (FF : code_ok g (bc_inst (def_bcode d))) by (destruct (s_type s); apply F). destruct FF as [C _].
  pose proof (Forall_nth _ _ _ _ C (param_nth d p P)) as (nm & i & G). rewrite <- (ty_sigs g v T) in G. unfold sigs in G. rewrite nth_error_map in G.
  unfold symbol_at. destruct (nth_error (st_syms (v_st v)) (N.to_nat p)) as [ps|] eqn:PS; [|discriminate G]. exists ps. split; [reflexivity|].
  cbn in G. unfold sig_of in G. injection G as _ _ K' Y'. split; [unfold is_kind; rewrite K', Y'; reflexivity|].
  pose proof (typed_fits g v p ps T PS) as F2. unfold fits in F2. rewrite K', Y' in F2. exact F2.
Qed.

Lemma call_step E v t id s n : current v = Some (call t id n) -> symbol_at (v_st v) id = Some s -> s_kind s = KDef -> s_type s = vtype_of t ->
  execute E v = finish (adv (call_def id n) v).
Proof.
  intros C H K Y. rewrite (execute_eq E v _ C). destruct t; cbn [call exec_instr]; unfold bind at 1, get_sym; rewrite H, K, Y; reflexivity.
Qed.

Lemma call_type E v t id s n w : current v = Some (call t id n) -> symbol_at (v_st v) id = Some s -> execute E v = (Ok tt, w) -> s_type s = vtype_of t.
Proof.
  intros C H. rewrite (execute_eq E v _ C). destruct t; cbn [call exec_instr]; unfold bind at 1, get_sym; rewrite H;
    destruct (s_type s); cbn; try discriminate; reflexivity.
Qed.

Lemma typed_call_type v t id n s d : typed g v -> current v = Some (call t id n) -> symbol_at (v_st v) id = Some s -> s_val s = VDef d -> s_type s = vtype_of t.
Proof.
  intros T C H V. pose proof (function_kind v id s d T H V) as K. pose proof (typed_current g v _ T C) as I.
  pose proof (typed_sig g v id s T H) as G. destruct t; cbn in I; destruct I as [[_ (a & b & I)]|(a & b & I)]; rewrite G in I; unfold sig_of in I; injection I as _ _ I1 I2; cbn [vtype_of]; congruence.
Qed.

Lemma call_eq v id s d p x st bc : symbol_at (v_st v) id = Some s -> s_kind s = KDef -> s_defined s = true -> s_val s = VDef d ->
  parameter d = Some p -> ~ in_function v -> v_stack v = x :: st -> cur_bcode v = Some bc -> cs_pc (v_cs v) + 1 < length (bc_inst bc) ->
  forall ps, symbol_at (v_st v) p = Some ps -> is_kind KVariable TNum ps = true ->
  forall old, val_num (s_val ps) = Some old ->
  call_def id 1 v = (Ok tt, set_cs (mkCs (Some CDef) (def_line d) 1)
     (set_st (sym_update (v_st v) (N.to_nat p) (define ps (VNum x))) (set_stack st
     (set_fn (mkFn (v_cs v) p (s_defined ps) old)
     (set_def (mkCode (if def_stored d then c_source (v_stored v) else None) (Some (def_bcode d)) None) v))))).
Proof.
  intros H K D V P NF ST B L ps PS PK old O. unfold call_def, bind at 1, get_sym at 1. rewrite H, K, D. cbn [skind_eqb assert negb]. unfold bind at 1, ret at 1.
  rewrite V. cbn [val_def some_or_crash]. unfold bind at 1, ret at 1. cbn [some_or_crash]. unfold bind at 1, ret at 1. unfold bind at 1, get at 1.
  destruct (cs_code (fn_cs (v_fn v))) eqn:F; [exfalso; apply NF; unfold in_function; rewrite F; discriminate|].
  change (negb (1 =? 1)%N) with false. cbv iota. unfold bind at 1, get_bcode at 1. rewrite B.
  change (N.to_nat 1) with 1. destruct (Nat.leb_spec (bc_used bc) (cs_pc (v_cs v) + 1)) as [X|X]; [unfold bc_used in X; lia|].
  unfold bind at 1, modify at 1. unfold bind at 1, modify at 1. unfold bind at 1, modify at 1.
  rewrite (param_nth d p P). unfold bind at 1, get_sym at 1. match goal with |- context [symbol_at (v_st ?u) p] => change (symbol_at (v_st u) p) with (symbol_at (v_st v) p) end. rewrite PS, PK. cbn [assert]. unfold bind at 1, ret at 1.
  rewrite O. cbn [some_or_crash]. unfold bind at 1, ret at 1. unfold bind at 1, modify at 1.
  unfold bind at 1, pop. match goal with |- context [v_stack ?u] => change (v_stack u) with (v_stack v) end. rewrite ST. unfold bind at 1, put_sym, modify. reflexivity.
Qed.

(* the function stays the one being evaluated until END_DEF *)
Lemma fn_exec E i v w b : in_function v -> i <> I_END_DEF -> exec_instr E i v = (Ok b, w) -> v_fn w = v_fn v.
Proof.
  intros F N X. destruct (touches_fn i) eqn:TF.
  2:{ pose proof (exec_keeps_fn E i TF v) as K. rewrite X in K. exact K. }
  assert (NC : forall id n w0, call_def id n v <> (Ok tt, w0)).
  { intros id n w0. unfold call_def, bind at 1, get_sym at 1. destruct (symbol_at _ _) as [s|]; [|discriminate].
    destruct (skind_eqb _ _); [|discriminate]. cbn [assert]. unfold bind at 1, ret at 1. destruct (negb _); [discriminate|].
    destruct (val_def _) as [d0|]; [|discriminate]. cbn [some_or_crash]. unfold bind at 1, ret at 1.
    destruct d0 as [d|]; [|discriminate]. cbn [some_or_crash]. unfold bind at 1, ret at 1. unfold bind at 1, get at 1.
    unfold in_function in F. destruct (cs_code (fn_cs (v_fn v))); [discriminate|congruence]. }
  destruct i; try discriminate TF; try congruence; cbn [exec_instr] in X; unfold bind at 1, get_sym in X;
    (destruct (symbol_at _ _) as [s|]; [|discriminate X]); (destruct (vtype_eqb _ _); [|discriminate X]); cbn [assert] in X;
    unfold bind at 1, ret at 1 in X; destruct (skind_eqb (s_kind s) KArray).
  2,4: unfold adv, bind in X; destruct (call_def _ _ v) as [[[]|e| |] w0] eqn:Y; try discriminate X; exfalso; exact (NC _ _ _ Y).
  all: match type of X with ?m _ = _ => assert (K : keeps v_fn m) by repeat keeps_more end; specialize (K v); rewrite X in K; exact K.
Qed.
Lemma fn_runs E w l w' : runs E w l w' -> in_function w -> Forall (fun u => current u <> Some I_END_DEF) l -> v_fn w' = v_fn w.
Proof.
  induction 1 as [|v v1 l v' X R IH]; intros F A; [reflexivity|]. inversion_clear A as [|? ? A1 A2].
  destruct (current v) as [i|] eqn:C; [|rewrite (execute_none E v C) in X; discriminate].
  rewrite (execute_eq E v i C) in X. destruct (exec_instr E i v) as [[b|e| |] w0] eqn:Y; try discriminate X.
  assert (G : v_fn w0 = v_fn v) by (eapply fn_exec; [exact F| |exact Y]; congruence).
  assert (G1 : v_fn v1 = v_fn v) by (rewrite <- G; destruct b; injection X as <-; reflexivity).
  rewrite IH; [exact G1| |exact A2]. unfold in_function in *. rewrite G1. exact F.
Qed.
Lemma runs_stored E v l v' : runs E v l v' -> v_stored v' = v_stored v /\ v_imm v' = v_imm v.
Proof.
  induction 1 as [|v v1 l v' X R [IH1 IH2]]; [split; reflexivity|]. rewrite IH1, IH2.
  destruct (current v) as [i|] eqn:C; [|rewrite (execute_none E v C) in X; discriminate].
  pose proof (execute_keeps v_stored E v i C (fun _ _ => eq_refl) (exec_keeps_stored E i)) as K1.
  pose proof (execute_keeps v_imm E v i C (fun _ _ => eq_refl) (exec_keeps_imm E i)) as K2. rewrite X in K1, K2. split; assumption.
Qed.

Lemma restored s ps old p v : symbol_at (v_st v) p = Some ps -> val_num (s_val ps) = Some old -> fits g ps -> is_kind KVariable TNum ps = true ->
  forall z, symbol_at (v_st z) p = Some (set_defined (set_val s (VNum old)) (s_defined ps)) ->
  variable z Numbers p = variable v Numbers p /\ assigned_yet z p = assigned_yet v p.
Proof.
  intros PS O F K z Z. apply is_kind_eq in K as [K Y]. unfold fits in F. rewrite K, Y in F.
  unfold variable, assigned_yet. rewrite Z, PS. cbn [s_defined set_defined set_val s_val]. split; [|reflexivity].
  destruct (s_defined ps); [|reflexivity]. destruct (s_val ps); try contradiction; cbn in O; injection O as <-; reflexivity.
Qed.

Theorem call_ok E v t id d p x st bc : typed g v -> current v = Some (call t id 1) -> function v id = Some d -> parameter d = Some p ->
  ~ in_function v -> in_line v -> v_stack v = x :: st -> cur_bcode v = Some bc -> cs_pc (v_cs v) + 1 < length (bc_inst bc) ->
  exists w, execute E v = (Ok tt, w) /\ entered v d p x st w /\
    forall l w', runs E w l w' -> Forall (fun u => current u <> Some I_END_DEF) l -> current w' = Some I_END_DEF ->
    exists z, execute E w' = (Ok tt, z) /\ returned v p w' z.
Proof.
  intros T C FN P NF IL ST B L. destruct (function_sym _ _ _ FN) as (s & H & D & V).
  pose proof (function_kind v id s d T H V) as K. pose proof (typed_call_type v t id 1 s d T C H V) as Y.
  destruct (param_sym v id s d p T H V P) as (ps & PS & PK & PV).
  assert (O : exists old, val_num (s_val ps) = Some old) by (destruct (s_val ps); try contradiction; cbn; eauto). destruct O as (old & O).
  pose proof (call_eq v id s d p x st bc H K D V P NF ST B L ps PS PK old O) as X.
  set (w0 := set_cs _ _) in X. exists (set_pc 2 w0).
  split. { rewrite (call_step E v t id s 1 C H K Y). rewrite (adv_ok _ _ _ X). reflexivity. }
  assert (IF : in_function (set_pc 2 w0)).
  { unfold in_function. cbn [v_fn set_pc set_cs w0 set_st set_stack set_fn fn_cs]. destruct IL as [IL|IL]; rewrite IL; discriminate. }
  split.
  { split; [reflexivity|]. split; [reflexivity|]. split; [exact IF|]. split.
    - unfold variable. cbn [v_st set_pc set_cs w0 set_st]. rewrite (symbol_update_same _ _ _ _ PS). reflexivity.
    - split; [|reflexivity]. intros j J. cbn [v_st set_pc set_cs w0 set_st]. apply symbol_update_other, J. }
  intros l w' R A C'.
  pose proof (fn_runs E _ _ _ R IF A) as FW. cbn [v_fn set_pc set_cs w0 set_st set_stack set_fn] in FW.
  assert (T' : typed g w').
  { eapply typed_runs; [exact R|]. pose proof (typed_execute g E v T) as TE. rewrite (call_step E v t id s 1 C H K Y), (adv_ok _ _ _ X) in TE. exact TE. }
  assert (PS' : exists s', symbol_at (v_st w') p = Some s').
  { pose proof (typed_sig g v p ps T PS) as G. rewrite <- (ty_sigs g w' T') in G. unfold sigs in G. rewrite nth_error_map in G.
    unfold symbol_at. destruct (nth_error _ _); [eauto|discriminate G]. }
  destruct PS' as (s' & PS').
  assert (EX : end_def w' = (Ok tt, set_st (sym_update (v_st w') (N.to_nat p) (set_defined (set_val s' (VNum old)) (s_defined ps)))
      (set_fn (mkFn (mkCs None (cs_line (v_cs v)) (cs_pc (v_cs v))) p (s_defined ps) old) (set_cs (v_cs v) w')))).
  { unfold end_def, bind at 1, get. rewrite FW. cbn [fn_cs fn_param fn_defined fn_val]. destruct IL as [IL|IL]; rewrite IL;
      unfold bind at 1, modify at 1; unfold bind at 1, modify at 1; unfold bind at 1, get_sym; cbn [v_st set_cs set_fn]; rewrite PS'; reflexivity. }
  set (z0 := set_st _ _) in EX.
  exists (set_cs (place_after v 1) z0). split.
  { rewrite (execute_eq E w' _ C'). cbn [exec_instr]. rewrite (adv_ok _ _ _ EX). cbn [finish]. unfold set_pc.
    cbn [v_cs z0 set_st set_fn set_cs]. unfold place_after. rewrite Nat.add_1_r. reflexivity. }
  destruct (runs_stored E _ _ _ R) as [RS RI].
  split; [reflexivity|]. split.
  { unfold cur_bcode, place_after. cbn [v_cs set_cs cs_code]. destruct IL as [IL|IL]; rewrite IL; cbn [code_of v_stored v_imm set_cs z0 set_st set_fn];
      [rewrite RS|rewrite RI]; reflexivity. }
  split. { unfold in_function. cbn. congruence. }
  destruct (restored s' ps old p v PS O (typed_fits g v p ps T PS) PK (set_cs (place_after v 1) z0)) as [R1 R2].
  { cbn [v_st set_cs z0 set_st]. exact (symbol_update_same _ _ _ _ PS'). }
  split; [exact R1|]. split; [exact R2|]. split; [|reflexivity]. intros j J. cbn [v_st set_cs z0 set_st]. apply symbol_update_other, J.
Qed.

(* refused calls *)
Lemma call_raise E v t id s n e : current v = Some (call t id n) -> symbol_at (v_st v) id = Some s -> s_kind s = KDef -> s_type s = vtype_of t ->
  call_def id n v = run_error e v -> raises E v e.
Proof.
  intros C H K Y X. unfold raises. rewrite (call_step E v t id s n C H K Y). unfold adv, bind. rewrite X.
  unfold run_error. eexists. split; [reflexivity|]. split; reflexivity.
Qed.
Lemma def_type v t id n : typed g v -> current v = Some (call t id n) -> forall s, symbol_at (v_st v) id = Some s -> s_kind s = KDef -> s_type s = vtype_of t.
Proof.
  intros T C s H K. pose proof (typed_current g v _ T C) as I.
  pose proof (typed_sig g v id s T H) as G. destruct t; cbn in I; destruct I as [[_ (a & b & I)]|(a & b & I)]; rewrite G in I; unfold sig_of in I; injection I as _ _ I1 I2; cbn [vtype_of]; congruence.
Qed.
Theorem call_undefined E v t id n s : typed g v -> current v = Some (call t id n) -> symbol_at (v_st v) id = Some s -> s_kind s = KDef ->
  function v id = None -> raises E v (RE_fn_undefined (s_name s)).
Proof.
  intros T C H K F. pose proof (def_type v t id n T C s H K) as Y. apply (call_raise E v t id s n _ C H K Y).
  unfold call_def, bind at 1, get_sym at 1. rewrite H, K. cbn [skind_eqb assert]. unfold bind at 1, ret at 1.
  destruct (s_defined s) eqn:D; [|reflexivity]. unfold function in F. rewrite H, D in F.
  pose proof (typed_fits g v id s T H) as FT. unfold fits in FT. rewrite K in FT.
  destruct (s_val s); try discriminate F; destruct (s_type s); try contradiction; congruence.
Qed.
Theorem call_nested E v t id n d : typed g v -> current v = Some (call t id n) -> function v id = Some d -> in_function v -> raises E v RE_fn_nested.
Proof.
  intros T C FN F. destruct (function_sym _ _ _ FN) as (s & H & D & V). pose proof (function_kind v id s d T H V) as K.
  pose proof (def_type v t id n T C s H K) as Y. apply (call_raise E v t id s n _ C H K Y).
  unfold call_def, bind at 1, get_sym at 1. rewrite H, K, D. cbn [skind_eqb assert negb]. unfold bind at 1, ret at 1.
  rewrite V. cbn [val_def some_or_crash]. unfold bind at 1, ret at 1. cbn [some_or_crash]. unfold bind at 1, ret at 1. unfold bind at 1, get at 1.
  unfold in_function in F. destruct (cs_code (fn_cs (v_fn v))); [reflexivity|congruence].
Qed.
Theorem call_params E v t id n d s : typed g v -> current v = Some (call t id n) -> symbol_at (v_st v) id = Some s -> function v id = Some d ->
  ~ in_function v -> n <> 1%N -> raises E v (RE_fn_params (s_name s) n).
Proof.
  intros T C H FN F N1. destruct (function_sym _ _ _ FN) as (s' & H' & D & V). assert (s' = s) by congruence; subst s'. pose proof (function_kind v id s d T H V) as K.
  pose proof (def_type v t id n T C s H K) as Y. apply (call_raise E v t id s n _ C H K Y).
  unfold call_def, bind at 1, get_sym at 1. rewrite H, K, D. cbn [skind_eqb assert negb]. unfold bind at 1, ret at 1.
  rewrite V. cbn [val_def some_or_crash]. unfold bind at 1, ret at 1. cbn [some_or_crash]. unfold bind at 1, ret at 1. unfold bind at 1, get at 1.
  unfold in_function in F. destruct (cs_code (fn_cs (v_fn v))); [exfalso; apply F; discriminate|]. destruct (N.eqb_spec n 1); [contradiction|reflexivity].
Qed.

(* DEF *)
Lemma through_end_eq l : firstn (scan_to is_end_def l) l ++ [I_END_DEF] = through_end l.
Proof. induction l as [|i l IH]; [reflexivity|]. cbn [scan_to through_end]. destruct i; cbn [is_end_def firstn app]; rewrite ?IH; reflexivity. Qed.

Theorem def_ok E v id bc : typed g v -> current v = Some (I_DEF id 1) -> cur_bcode v = Some bc ->
  exists w, execute E v = (Ok tt, set_cs (place_after v (length (through_end (skipn (cs_pc (v_cs v)) (bc_inst bc))))) w) /\ defined_by v id w.
Proof.
  intros T C B. pose proof (typed_current g v _ T C) as (ty & nm & i & G).
  rewrite <- (ty_sigs g v T) in G. unfold sigs in G. rewrite nth_error_map in G.
  assert (H : exists s, symbol_at (v_st v) id = Some s /\ s_kind s = KDef).
  { unfold symbol_at. destruct (nth_error _ _) as [s|]; [|discriminate G]. exists s. split; [reflexivity|]. unfold sig_of in G. cbn in G. congruence. }
  destruct H as (s & H & K). clear G. pose proof (typed_fits g v id s T H) as FT. unfold fits in FT. rewrite K in FT.
  assert (V : (s_val s = VZero /\ s_defined s = false) \/ exists d, s_val s = VDef d /\ s_defined s = true).
  { destruct (s_type s), (s_val s) eqn:SV; try contradiction; auto; right; eexists; (split; [reflexivity|apply FT]). }
  set (pc := cs_pc (v_cs v)).
  assert (CI : nth_error (bc_inst bc) pc = Some (I_DEF id 1)) by (unfold current in C; rewrite B in C; exact C).
  assert (SK : skipn pc (bc_inst bc) = I_DEF id 1 :: skipn (S pc) (bc_inst bc)).
  { clear -CI. revert CI. generalize (bc_inst bc). induction pc as [|n IH]; intros [|a l] H; cbn in *; try discriminate; [congruence|]. exact (IH l H). }
  set (stored := match cs_code (v_cs v) with Some CStored => true | _ => false end).
  set (d1 := mkDef (bcode_copy_def bc pc) stored (if stored then cs_line (v_cs v) else O)).
  set (s1 := define s (VDef d1)).
  assert (X : exists st', (forall j, j <> id -> symbol_at st' j = symbol_at (v_st v) j) /\ (exists s0, symbol_at st' id = Some s0) /\
     exec_def id 1 v = (Ok tt, set_pc (S pc + scan_to is_end_def (skipn (S pc) (bc_inst bc))) (set_st (sym_update st' (N.to_nat id) s1) v))).
  { unfold exec_def, bind at 1, get_sym. rewrite H, K. cbn [skind_eqb assert]. unfold bind at 1, ret at 1.
    destruct V as [[V D]|(d & V & D)]; rewrite V; cbn [val_def some_or_crash]; unfold bind at 1, ret at 1.
    - unfold bind at 1, ret at 1. cbn [negb N.eqb Pos.eqb]. unfold bind at 1, get_bcode. rewrite B. exists (v_st v). split; [auto|]. split; [eauto|]. reflexivity.
    - rewrite D. cbn [assert]. unfold bind at 1. unfold bind at 1, ret at 1, put_sym, modify. cbn [negb N.eqb Pos.eqb]. unfold bind at 1, get_bcode.

      match goal with |- context [cur_bcode ?u] => change (cur_bcode u) with (cur_bcode v) end. rewrite B.
      exists (sym_update (v_st v) (N.to_nat id) (undefine s)). split; [intros j J; apply symbol_update_other, J|].
      split; [eexists; exact (symbol_update_same _ _ _ _ H)|]. reflexivity. }
  destruct X as (st' & O & (s0 & S0) & X). exists (set_st (sym_update st' (N.to_nat id) s1) v). split.
  { rewrite (execute_eq E v _ C). cbn [exec_instr]. rewrite (adv_ok _ _ _ X). cbn [finish]. unfold set_pc, place_after. cbn [v_cs set_cs set_st cs_code cs_line cs_pc].
    assert (LE : S (S pc + scan_to is_end_def (skipn (S pc) (bc_inst bc))) = cs_pc (v_cs v) + length (through_end (skipn (cs_pc (v_cs v)) (bc_inst bc)))).
    { fold pc. rewrite SK. cbn [through_end length]. rewrite <- through_end_eq, app_length, firstn_length. cbn [length].
      pose proof (scan_to_le is_end_def (skipn (S pc) (bc_inst bc))). lia. }
    rewrite LE. reflexivity. }
  split.
  - split; [reflexivity|]. cbn [v_st set_st]. split.
    + intros j J. rewrite symbol_update_other by exact J. apply O, J.
    + intros k t (s2 & H2 & K2 & Y2). assert (s2 = s) by congruence; subst s2. exists s1. cbn [v_st set_st]. rewrite (symbol_update_same _ _ _ _ S0). auto.
  - exists bc, d1. split; [exact B|]. split.
    + unfold function. cbn [v_st set_st]. rewrite (symbol_update_same _ _ _ _ S0). reflexivity.
    + unfold body, d1. cbn [def_bcode]. rewrite copy_def_inst. apply through_end_eq.
Qed.
Theorem def_params E v id n s : typed g v -> current v = Some (I_DEF id n) -> symbol_at (v_st v) id = Some s -> n <> 1%N ->
  exists w, execute E v = (Fail (RE_def_params (s_name s)), w) /\ v_cs w = v_cs v.
Proof.
  intros T C H N1. pose proof (typed_current g v _ T C) as (ty & nm & i & G).
  pose proof (typed_sig g v id s T H) as G'. rewrite G' in G. unfold sig_of in G. injection G as _ _ K _.
  pose proof (typed_fits g v id s T H) as FT. unfold fits in FT. rewrite K in FT.
  assert (V : (s_val s = VZero /\ s_defined s = false) \/ exists d, s_val s = VDef d /\ s_defined s = true).
  { destruct (s_type s), (s_val s) eqn:SV; try contradiction; auto; right; eexists; (split; [reflexivity|apply FT]). }
  rewrite (execute_eq E v _ C). cbn [exec_instr]. unfold adv, bind at 1, exec_def, bind at 1, get_sym. rewrite H, K. cbn [skind_eqb assert]. unfold bind at 1, ret at 1.
  destruct V as [[V D]|(d & V & D)]; rewrite V; cbn [val_def some_or_crash]; unfold bind at 1, ret at 1.
  - unfold bind at 1, ret at 1. destruct (N.eqb_spec n 1); [contradiction|]. eexists. split; reflexivity.
  - rewrite D. cbn [assert]. unfold bind at 1. unfold bind at 1, ret at 1, put_sym, modify. destruct (N.eqb_spec n 1); [contradiction|]. eexists. split; reflexivity.
Qed.
End Call.
