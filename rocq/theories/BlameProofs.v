(* Error messages (C43): where the machine stands when there is an error, and
   which functions it knows. *)
From Coq Require Import Lia ZifyBool ZifyNat ZifyN.
From Verif Require Import Base BaseLemmas Num SourceModel LineMapModel ArrayModel BcodeModel SymbolModel VmModel VmLemmas VmSpec ControlProofs VmTyping OpProofs FnSpec FnProofs ErrSpec.
Local Open Scope nat_scope.

(* ---------- where the machine stands ---------- *)

Definition standing (v : vm) := (cs_code (v_cs v), cs_line (v_cs v), v_stored v, v_imm v, v_def v).
Lemma standing_shown v w : standing w = standing v -> shown_line w = shown_line v.
Proof.
  unfold standing, shown_line. intros H. injection H as H1 H2 H3 H4 H5. rewrite H1, H2. destruct (cs_code (v_cs v)) as [[]|]; cbn [code_of]; rewrite ?H3, ?H4, ?H5; reflexivity.
Qed.

(* errors that never occur: an empty stack, or the code of a function that has
   no parameter *)
Definition inner_error (e : rterr) : bool := match e with RE_num_empty | RE_fn_param_expected => true | _ => false end.
Definition stays {A} (m : M A) : Prop := forall v e w, m v = (Fail e, w) -> inner_error e = false -> standing w = standing v.
Definition no_error {A} (m : M A) : Prop := forall v e w, m v = (Fail e, w) -> inner_error e = true.
Lemma stays_keeps {A} (m : M A) : keeps standing m -> stays m.
Proof. intros K v e w H _. specialize (K v). rewrite H in K. exact K. Qed.
Lemma stays_bind {A B} (m : M A) (k : A -> M B) : keeps standing m -> (forall a, stays (k a)) -> stays (bind m k).
Proof.
  intros K H v e w X I. unfold bind in X. specialize (K v). destruct (m v) as [[a|e'| |] u]; try discriminate X; cbn [snd] in K.
  - rewrite <- K. exact (H a u e w X I).
  - injection X as _ <-. exact K.
Qed.
Lemma stays_end {A B} (m : M A) (k : A -> M B) : stays m -> (forall a, no_error (k a)) -> stays (bind m k).
Proof.
  intros K H v e w X I. unfold bind in X. destruct (m v) as [[a|e'| |] u] eqn:M; try discriminate X.
  - rewrite (H a u e w X) in I. discriminate I.
  - injection X as <- <-. exact (K v e' u M I).
Qed.
Lemma stays_quiet {A} (m : M A) : no_error m -> stays m.
Proof. intros H v e w X I. rewrite (H v e w X) in I. discriminate I. Qed.
Lemma quiet_bind {A B} (m : M A) (k : A -> M B) : no_error m -> (forall a, no_error (k a)) -> no_error (bind m k).
Proof.
  intros K H v e w X. unfold bind in X. destruct (m v) as [[a|e'| |] u] eqn:M; try discriminate X; [exact (H a u e w X)|]. injection X as <- _. exact (K v e' u M).
Qed.
Lemma quiet_modify f : no_error (modify f).
Proof. intros v e w X. discriminate X. Qed.
Lemma quiet_ret {A} (a : A) : no_error (ret a).
Proof. intros v e w X. discriminate X. Qed.
Lemma quiet_crash {A} : no_error (@crash A).
Proof. intros v e w X. discriminate X. Qed.
Lemma quiet_get : no_error get.
Proof. intros v e w X. discriminate X. Qed.
Lemma quiet_assert b : no_error (assert b).
Proof. destruct b; intros v e w X; discriminate X. Qed.
Lemma quiet_some {A} (o : option A) : no_error (some_or_crash o).
Proof. destruct o; intros v e w X; discriminate X. Qed.
Lemma quiet_get_sym id : no_error (get_sym id).
Proof. intros v e w X. unfold get_sym in X. destruct (symbol_at _ _); discriminate X. Qed.
Lemma quiet_get_bcode : no_error get_bcode.
Proof. intros v e w X. unfold get_bcode in X. destruct (cur_bcode v); discriminate X. Qed.
Lemma quiet_pop : no_error pop.
Proof. intros v e w X. unfold pop in X. destruct (v_stack v); [|discriminate X]. apply (f_equal fst) in X. injection X as <-. reflexivity. Qed.
Lemma quiet_put s : no_error (put s).
Proof. intros v e w X. discriminate X. Qed.
Lemma quiet_dump t : no_error (dump_for_stack t).
Proof. intros v e w X. unfold dump_for_stack in X. destruct (v_for v); [discriminate X|]. destruct (dump_entries _ _); discriminate X. Qed.
Lemma quiet_trace m : no_error m -> no_error (trace_for m).
Proof. intros H v e w X. unfold trace_for in X. destruct (o_trace_for _); [exact (H v e w X)|discriminate X]. Qed.
Lemma quiet_param {A} : no_error (@run_error A RE_fn_param_expected).
Proof. intros v e w X. apply (f_equal fst) in X. injection X as <-. reflexivity. Qed.
Ltac quiet_step :=
  match goal with
  | |- no_error (bind _ _) => apply quiet_bind; [|intros ?]
  | |- no_error (modify _) => apply quiet_modify
  | |- no_error (ret _) => apply quiet_ret
  | |- no_error crash => apply quiet_crash
  | |- no_error get => apply quiet_get
  | |- no_error (assert _) => apply quiet_assert
  | |- no_error (some_or_crash _) => apply quiet_some
  | |- no_error (get_sym _) => apply quiet_get_sym
  | |- no_error get_bcode => apply quiet_get_bcode
  | |- no_error pop => apply quiet_pop
  | |- no_error (put_sym _ _) => apply quiet_modify
  | |- no_error (put _) => apply quiet_put
  | |- no_error (dump_for_stack _) => apply quiet_dump
  | |- no_error (trace_for _) => apply quiet_trace
  | |- no_error (run_error _) => apply quiet_param
  | |- no_error (if ?b then _ else _) => destruct b
  | |- no_error (match ?x with _ => _ end) => destruct x
  | |- no_error (fun _ => _) => intros v e w X; repeat match goal with X : context [match ?x with _ => _ end] |- _ => destruct x end; discriminate X
  end; cbv beta zeta.
Ltac stays_step :=
  first
  [ solve [apply stays_keeps; repeat keeps_more]
  | solve [apply stays_quiet; repeat quiet_step]
  | match goal with
    | |- stays (adv _) => unfold adv
    | |- stays (jump _) => unfold jump
    | |- stays (go_to_basic_line _) => unfold go_to_basic_line
    | |- stays (next _) => unfold next
    | |- stays (call_def _ _) => unfold call_def
    | |- stays end_def => unfold end_def
    | |- stays (exec_on _ _) => unfold exec_on
    | |- stays (if ?b then _ else _) => destruct b
    | |- stays (match ?x with _ => _ end) => destruct x
    | |- stays (bind (bind _ _) _) => apply stays_end; [|intros ?; solve [repeat quiet_step]]
    | |- stays (bind (if _ then _ else _) _) => first [apply stays_bind; [solve [repeat keeps_more]|intros ?] | apply stays_end; [|intros ?; solve [repeat quiet_step]]]
    | |- stays (bind _ _) => first [apply stays_bind; [solve [repeat keeps_more]|intros ?] | apply stays_end; [|intros ?; solve [repeat quiet_step]]]
    end ]; cbv beta zeta.
Lemma pop_return_stays : stays pop_return.
Proof.
  intros v e w X _. unfold pop_return in X. destruct (v_ret v) as [|c r]; [|discriminate X]. apply (f_equal snd) in X. cbn [snd] in X. rewrite <- X. reflexivity.
Qed.
Lemma exec_stays E i : stays (exec_instr E i).
Proof. destruct i; cbn [exec_instr]; repeat first [apply pop_return_stays|stays_step]. Qed.
Lemma failed_standing E v e w : execute E v = (Fail e, w) -> inner_error e = false -> standing w = standing v.
Proof.
  intros X I. destruct (current v) as [i|] eqn:C; [|rewrite (execute_none E v C) in X; discriminate X]. rewrite (execute_eq E v i C) in X.
  destruct (exec_instr E i v) as [[b|e'| |] u] eqn:U; cbn [finish] in X; try discriminate X; [destruct b; discriminate X|]. injection X as <- <-. exact (exec_stays E i v e' u U I).
Qed.
Lemma failed_shown E v e w : execute E v = (Fail e, w) -> inner_error e = false -> shown_line w = shown_line v.
Proof. intros X I. exact (standing_shown v w (failed_standing E v e w X I)). Qed.

(* ---------- the functions ---------- *)

Section Defs.
Variable ok : def -> Prop.
Definition fine_value (x : sval) : Prop := match x with VDef d => ok d | _ => True end.
Definition fine_defs (v : vm) : Prop := Forall (fun s => fine_value (s_val s)) (st_syms (v_st v)).

Lemma fine_function v id d : fine_defs v -> function v id = Some d -> ok d.
Proof.
  intros H F. unfold function, symbol_at in F. destruct (nth_error (st_syms (v_st v)) (N.to_nat id)) as [s|] eqn:S; [|discriminate F]. destruct (s_defined s); [|discriminate F].
  pose proof (Forall_nth _ _ _ _ H S) as X. cbn beta in X. destruct (s_val s); try discriminate F. injection F as <-. exact X.
Qed.
Lemma fd_put id s : fine_value (s_val s) -> inv fine_defs (put_sym id s).
Proof. intros H v A. unfold fine_defs. cbn. apply Forall_list_upd; [exact A|exact H]. Qed.
Lemma fd_keeps {A} (m : M A) : keeps v_st m -> inv fine_defs m.
Proof. intros K v H. unfold fine_defs. rewrite (K v). exact H. Qed.
Lemma fd_get_sym {B} id (k : symbol -> M B) : (forall s, fine_value (s_val s) -> inv fine_defs (k s)) -> inv fine_defs (bind (get_sym id) k).
Proof.
  intros H v A. unfold bind, get_sym. destruct (symbol_at (v_st v) id) as [s|] eqn:E; [|exact A].
  apply H; [|exact A]. exact (Forall_nth _ _ _ _ A E).
Qed.
Lemma fd_clear : inv fine_defs (modify (fun v => set_st (clear_symbol_table_values (v_st v)) v)).
Proof.
  intros v H. unfold fine_defs in *. cbn. rewrite Forall_map. eapply Forall_impl; [|exact H].
  intros s S. cbn beta. destruct (s_defined s); [|exact S]. unfold undefine_value. destruct (s_kind s); try exact S; exact I.
Qed.
Ltac fd_step :=
  match goal with
  | |- inv _ (bind (get_sym _) _) => apply fd_get_sym; intros ? ?
  | |- inv _ (put_sym _ _) => apply fd_put; solve [exact I|assumption]
  | |- inv _ (modify (fun v => set_st (clear_symbol_table_values (v_st v)) v)) => apply fd_clear
  | |- inv _ (bind _ _) => apply inv_bind; [|intros ?]
  | |- inv _ (ret _) => apply inv_ret
  | |- inv _ crash => apply inv_crash
  | |- inv _ get => apply inv_get
  | |- inv _ (assert _) => apply inv_assert
  | |- inv _ (some_or_crash _) => apply inv_some
  | |- inv _ (if ?b then _ else _) => destruct b eqn:?
  | |- inv _ (match ?x with _ => _ end) => destruct x eqn:?
  | |- inv _ (get_numeric_simple _) => unfold get_numeric_simple
  | |- inv _ (set_numeric_simple _ _) => unfold set_numeric_simple
  | |- inv _ (dimension_numeric _ _) => unfold dimension_numeric
  | |- inv _ (dimension_numeric_auto _ _) => unfold dimension_numeric_auto
  | |- inv _ (numeric_array_at _ _) => unfold numeric_array_at
  | |- inv _ (get_numeric_element _ _) => unfold get_numeric_element
  | |- inv _ (set_numeric_element _ _ _) => unfold set_numeric_element
  | |- inv _ (set_numeric _ _ _) => unfold set_numeric
  | |- inv _ (get_string_simple _) => unfold get_string_simple
  | |- inv _ (set_string_simple _ _) => unfold set_string_simple
  | |- inv _ (dimension_string _ _) => unfold dimension_string
  | |- inv _ (dimension_string_auto _ _) => unfold dimension_string_auto
  | |- inv _ (string_array_at _ _) => unfold string_array_at
  | |- inv _ (get_string_element _ _) => unfold get_string_element
  | |- inv _ (set_string_element _ _ _) => unfold set_string_element
  | |- inv _ (set_string _ _ _) => unfold set_string
  | |- inv _ (exec_dim_num _ _) => unfold exec_dim_num
  | |- inv _ (exec_dim_str _ _) => unfold exec_dim_str
  | |- inv _ (exec_for _) => unfold exec_for
  | |- inv _ (next _) => unfold next
  | |- inv _ (call_def _ _) => unfold call_def
  | |- inv _ end_def => unfold end_def
  | |- inv _ (adv _) => unfold adv
  | |- inv _ (jump _) => unfold jump
  | |- inv _ _ => solve [apply fd_keeps; repeat keeps_more]
  end; cbv beta zeta.
Lemma fd_exec E i : (forall id n, i <> I_DEF id n) -> inv fine_defs (exec_instr E i).
Proof.
  intros H. destruct i; try (destruct (H _ _ eq_refl)); cbn [exec_instr]; try solve [apply fd_keeps; repeat keeps_more]; try solve [repeat fd_step].
Qed.
Lemma fd_execute E v i : current v = Some i -> (forall id n, i <> I_DEF id n) -> fine_defs v -> fine_defs (snd (execute E v)).
Proof.
  intros C H F. rewrite (execute_eq E v i C). pose proof (fd_exec E i H v F) as X. destruct (exec_instr E i v) as [[[]|e| |] u]; exact X.
Qed.
Lemma fd_def E v id n : current v = Some (I_DEF id n) -> cs_code (v_cs v) = Some CStored -> (forall bc, ok (mkDef bc true (cs_line (v_cs v)))) ->
  fine_defs v -> fine_defs (snd (execute E v)).
Proof.
  intros C CS K F. rewrite (execute_eq E v _ C). cbn [exec_instr].
  assert (G : fine_defs (snd (exec_def id n v))).
  { unfold exec_def. unfold bind at 1, get_sym. destruct (symbol_at (v_st v) id) as [s|] eqn:S; [|exact F].
    unfold bind at 1, assert. destruct (skind_eqb _ _); [|exact F]. unfold ret at 1. unfold bind at 1. destruct (val_def (s_val s)) as [d0|]; [|exact F]. cbn [some_or_crash]. unfold ret at 1.
    unfold bind at 1. match goal with |- fine_defs (snd (let (r, v') := ?x in _)) => assert (G : fine_defs (snd x) /\ v_cs (snd x) = v_cs v); [|destruct x as [[[]|e| |] u]] end.
    { destruct d0 as [d|]; [|split; [exact F|reflexivity]]. unfold bind. destruct (s_defined s); [|split; [exact F|reflexivity]]. unfold ret.
      split; [|reflexivity]. apply fd_put; [|exact F]. cbn [undefine s_val]. unfold undefine_value. destruct (s_kind s); try exact I; exact (Forall_nth _ _ _ _ F S). }
    all: cbn [snd] in G; destruct G as [G1 G2]; try exact G1.
    destruct (negb _); [exact G1|]. unfold bind at 1, get_bcode. destruct (cur_bcode u) as [bc|]; [|exact G1]. cbn [some_or_crash]. unfold bind at 1, get.
    rewrite G2, CS. cbn beta iota. apply (fd_put id (define s (VDef (mkDef (bcode_copy_def bc (cs_pc (v_cs v))) true (cs_line (v_cs v)))))); [apply K|exact G1]. }
  unfold adv, bind. destruct (exec_def id n v) as [[[]|e| |] u]; exact G.
Qed.
End Defs.

(* the functions of w are those of v *)
Definition defs_kept (v w : vm) : Prop := forall ok, fine_defs ok v -> fine_defs ok w.
(* the line shown for an error in the body of a function *)
Definition def_shown (v : vm) (d : def) : option bytes :=
  if def_stored d then match c_source (v_stored v) with Some src => Some (print_source_line src (def_line d)) | None => None end else None.
(* the error left in w is put down to the line of v or to that of a function *)
Definition blame (v w : vm) : Prop := shown_line w = shown_line v \/ exists d, (forall ok, fine_defs ok v -> ok d) /\ shown_line w = def_shown v d.
Lemma blame_after v w z : shown_line w = shown_line v -> v_stored w = v_stored v -> defs_kept v w -> blame w z -> blame v z.
Proof.
  intros S C K [H|(d & D & H)]; [left; congruence|]. right. exists d. split; [intros ok F; exact (D ok (K ok F))|].
  rewrite H. unfold def_shown. rewrite C. reflexivity.
Qed.
Lemma called_shown g E v t id d p x st bc w : typed g v -> current v = Some (call t id 1) -> function v id = Some d -> parameter d = Some p ->
  ~ in_function v -> v_stack v = x :: st -> cur_bcode v = Some bc -> cs_pc (v_cs v) + 1 < length (bc_inst bc) ->
  execute E v = (Ok tt, w) -> shown_line w = def_shown v d.
Proof.
  intros T C FN P NF ST B L XX. destruct (function_sym _ _ _ FN) as (s & H & D & V).
  pose proof (function_kind g v id s d T H V) as K. pose proof (typed_call_type g v t id 1 s d T C H V) as Y.
  destruct (param_sym g v id s d p T H V P) as (ps & PS & PK & PV).
  assert (O : exists old, val_num (s_val ps) = Some old) by (destruct (s_val ps); try contradiction; cbn; eauto). destruct O as (old & O).
  pose proof (call_eq v id s d p x st bc H K D V P NF ST B L ps PS PK old O) as X.
  rewrite (call_step E v t id s 1 C H K Y), (adv_ok _ _ _ X) in XX. cbn [finish] in XX.
  apply (f_equal snd) in XX. cbn [snd] in XX. rewrite <- XX. unfold shown_line, def_shown. cbn [v_cs set_pc set_cs cs_code code_of v_def set_st set_stack set_fn set_def c_source cs_line].
  destruct (def_stored d); reflexivity.
Qed.
