(* Running compiled code raises no internal error (C31). *)
From Coq Require Import Lia ZifyBool ZifyNat ZifyN.
From Verif Require Import Base BaseLemmas Num NumSpec NumLemmas SourceModel LineMapModel ArrayModel BcodeModel SymbolModel SymbolSpec
  VmModel VmLemmas VmSpec ControlProofs ValueSpec ValueProofs VmTyping GrammarSpec TypeSpec StepSpec DataSpec DataProofs SafeProofs SafeCode.
Local Open Scope nat_scope.

(* ---------- positions in code ---------- *)

Section Run.
Variable g : list sig.
Local Notation tail := (tail g).

Lemma flow_leap b n s n' s' : flow b n s n' s' -> forall p i, nth_error b p = Some i -> effect i <> None.
Proof. induction 1 as [|i l n s n' s' p q c d H WL P Q F IH]; intros [|k] j E; cbn in E; try discriminate E; [congruence|eapply IH; exact E]. Qed.
Lemma tail_leap l n s a : tail l n s a -> forall p i k, nth_error l p = Some i -> leap i = Some k -> tail (skipn (S p) l) 0 0 false.
Proof.
  induction 1 as [n s a|i l n s a p q c d H P WL Q R T IH|i l n s a k H K T IH|t l n s a T IH|l n s T IH|id k l n s K T IH|b lines l n s a N LL T IH|id p b l n s a t F G T IH];
    intros m j k0 E L.
  - destruct m; discriminate E.
  - destruct m as [|m]; cbn in E; [injection E as ->; destruct j; discriminate|]. eapply IH; eassumption.
  - destruct m as [|m]; cbn in E; [exact T|]. eapply IH; eassumption.
  - destruct m as [|m]; cbn in E; [injection E as <-; discriminate L|]. eapply IH; eassumption.
  - destruct m as [|m]; cbn in E; [injection E as <-; discriminate L|]. eapply IH; eassumption.
  - destruct m as [|m]; cbn in E; [injection E as <-; discriminate L|]. eapply IH; eassumption.
  - destruct m as [|m]; cbn [nth_error] in E; [injection E as <-; destruct b; discriminate L|]. change (tail (skipn (S m) (map I_ON_LINE lines ++ l)) 0 0 false).
    destruct (Nat.lt_ge_cases m (length lines)) as [LT|GE].
    + rewrite nth_error_app1 in E by (rewrite map_length; exact LT). rewrite nth_error_map in E. destruct (nth_error lines m); [|discriminate E]. injection E as <-. discriminate L.
    + rewrite nth_error_app2 in E by (rewrite map_length; exact GE). rewrite map_length in E. rewrite skipn_app, skipn_all2 by (rewrite map_length; lia). rewrite map_length. cbn [app].
      replace (S m - length lines) with (S (m - length lines)) by lia. eapply IH; eassumption.
  - destruct m as [|[|m]]; cbn [nth_error] in E; [injection E as <-; discriminate L|injection E as <-; discriminate L|]. change (tail (skipn (S m) (b ++ I_END_DEF :: l)) 0 0 false).
    destruct (Nat.lt_ge_cases m (length b)) as [LT|GE].
    + rewrite nth_error_app1 in E by exact LT. destruct (flow_leap _ _ _ _ _ F _ _ E). destruct j; try discriminate L; reflexivity.
    + rewrite nth_error_app2 in E by exact GE. rewrite skipn_app, skipn_all2 by lia. cbn [app]. replace (S m - length b) with (S (m - length b)) by lia.
      destruct (m - length b) as [|q] eqn:Q; cbn [nth_error] in E; [injection E as <-; discriminate L|]. change (tail (skipn (S q) l) 0 0 false). eapply IH; eassumption.
Qed.
Lemma skipn_at {A} (l : list A) p i : nth_error l p = Some i -> skipn p l = i :: skipn (S p) l.
Proof. revert p. induction l as [|a l IH]; intros [|p] E; try discriminate E; [injection E as ->; reflexivity|]. exact (IH p E). Qed.
Lemma tail_marker l n s a p k : tail l n s a -> nth_error l p = Some (I_SOURCE_LINE k) -> tail (skipn p l) 0 0 false.
Proof. intros T E. rewrite (skipn_at _ _ _ E). eapply T_leap; [reflexivity|lia|]. eapply tail_leap; [exact T|exact E|reflexivity]. Qed.
Lemma scan_hit f l : scan_to f l = length l \/ exists i, nth_error l (scan_to f l) = Some i /\ f i = true.
Proof. induction l as [|a l IH]; cbn [scan_to length]; [left; reflexivity|]. destruct (f a) eqn:F; [right; exists a; split; [reflexivity|exact F]|]. destruct IH as [->|IH]; [left; reflexivity|right; exact IH]. Qed.

(* ---------- functions ---------- *)

Definition def_shape (t : vtype) (l : list instr) : Prop :=
  exists id p b, l = I_DEF id 1 :: I_PARAM p :: b ++ [I_END_DEF] /\ flow b 0 0 (rn t) (rs t).
Definition def_good (s : symbol) : Prop := match s_val s with VDef d => def_shape (s_type s) (bc_inst (def_bcode d)) | _ => True end.
Definition defs_good (v : vm) : Prop := Forall def_good (st_syms (v_st v)).

Lemma defs_keeps {A} (m : M A) : keeps v_st m -> inv defs_good m.
Proof. intros K v H. unfold defs_good. rewrite (K v). exact H. Qed.
Lemma defs_put id s : def_good s -> inv defs_good (put_sym id s).
Proof. intros H v D. unfold defs_good, put_sym, modify. cbn [snd v_st set_st st_syms sym_update]. apply Forall_list_upd; assumption. Qed.
Lemma defs_get_sym {B} id (k : symbol -> M B) : (forall s, def_good s -> inv defs_good (k s)) -> inv defs_good (bind (get_sym id) k).
Proof.
  intros H v D. unfold bind, get_sym. destruct (symbol_at (v_st v) id) as [s|] eqn:E; [|exact D]. apply H; [|exact D].
  unfold symbol_at in E. eapply VmTyping.Forall_nth; [exact D|exact E].
Qed.
Ltac defs_step :=
  match goal with
  | |- inv _ (bind (get_sym _) _) => apply defs_get_sym; intros ? ?
  | |- inv _ (put_sym _ _) => apply defs_put; unfold def_good, define, undefine, set_defined, set_val in *; cbn [s_val s_type] in *; first [exact Logic.I | assumption]
  | |- inv _ (bind _ _) => apply inv_bind; [|intros ?]
  | |- inv _ (ret _) => apply inv_ret
  | |- inv _ crash => apply inv_crash
  | |- inv _ get => apply inv_get
  | |- inv _ (assert _) => apply inv_assert
  | |- inv _ (some_or_crash _) => apply inv_some
  | |- inv _ (if ?b then _ else _) => destruct b eqn:?
  | |- inv _ (match ?x with _ => _ end) => destruct x eqn:?
  | |- inv _ (adv _) => unfold adv
  | |- inv _ (jump _) => unfold jump
  | |- inv _ (get_numeric_simple _) => unfold get_numeric_simple
  | |- inv _ (set_numeric_simple _ _) => unfold set_numeric_simple
  | |- inv _ (get_string_simple _) => unfold get_string_simple
  | |- inv _ (set_string_simple _ _) => unfold set_string_simple
  | |- inv _ (exec_dim_num _ _) => unfold exec_dim_num
  | |- inv _ (exec_dim_str _ _) => unfold exec_dim_str
  | |- inv _ (dimension_numeric _ _) => unfold dimension_numeric
  | |- inv _ (dimension_string _ _) => unfold dimension_string
  | |- inv _ (numeric_array_at _ _) => unfold numeric_array_at
  | |- inv _ (string_array_at _ _) => unfold string_array_at
  | |- inv _ (dimension_numeric_auto _ _) => unfold dimension_numeric_auto
  | |- inv _ (dimension_string_auto _ _) => unfold dimension_string_auto
  | |- inv _ (get_numeric_element _ _) => unfold get_numeric_element
  | |- inv _ (get_string_element _ _) => unfold get_string_element
  | |- inv _ (set_numeric_element _ _ _) => unfold set_numeric_element
  | |- inv _ (set_string_element _ _ _) => unfold set_string_element
  | |- inv _ (set_numeric _ _ _) => unfold set_numeric
  | |- inv _ (set_string _ _ _) => unfold set_string
  | |- inv _ (next _) => unfold next
  | |- inv _ (exec_for _) => unfold exec_for
  | |- inv _ (call_def _ _) => unfold call_def
  | |- inv _ end_def => unfold end_def
  | |- inv _ _ => solve [apply defs_keeps; repeat keeps_more]
  end; cbv beta zeta.
Lemma defs_clear : inv defs_good (modify (fun v => set_st (clear_symbol_table_values (v_st v)) v)).
Proof.
  intros v D. unfold defs_good, modify in *. cbn [snd v_st set_st]. unfold clear_symbol_table_values. cbn [st_syms]. apply Forall_map.
  eapply Forall_impl; [|exact D]. intros s H. destruct (s_defined s); [|exact H]. unfold undefine_value, def_good in *. destruct (s_kind s); cbn; auto.
Qed.
Lemma defs_exec E i : (forall id n, i <> I_DEF id n) -> inv defs_good (exec_instr E i).
Proof.
  intros ND. destruct i; try solve [apply defs_keeps; cbn [exec_instr]; repeat keeps_more]; cbn [exec_instr]; try solve [repeat defs_step].
  - apply inv_bind; [apply defs_clear|intros _; apply inv_ret].
  - destruct (ND id params eq_refl).
Qed.

(* ---------- the machine ---------- *)

Variables (code : coderef -> option bcode) (idx : option linemap).
(* the stored program or the line typed *)
Definition at_code (r : coderef) (b : bcode) : Prop := r <> CDef /\ code r = Some b.
(* a statement begins at this position of the code *)
Definition begins (r : coderef) (p : nat) : Prop := exists b, at_code r b /\ tail (skipn p (bc_inst b)) 0 0 false.
Variable E : env.
Hypothesis EO : env_ok E.
Hypothesis IX : forall x n i, idx = Some x -> lookup_line_mapping x n = Some i -> begins CStored (N.to_nat i).

Definition asked (v : vm) (r : coderef) : Prop := begins r (v_input_pc v) /\ v_inp v <> None.
Definition in_line (v : vm) (r : coderef) (p n s : nat) : Prop := exists b a, at_code r b /\ tail (skipn p (bc_inst b)) n s a /\ (a = true -> asked v r).
Definition in_body (v : vm) : Prop :=
  cs_code (v_cs v) = Some CDef /\ exists r, cs_code (fn_cs (v_fn v)) = Some r /\
  exists bc' b t n0 s0 n s, c_bcode (v_def v) = Some bc' /\ skipn (cs_pc (v_cs v)) (bc_inst bc') = b ++ [I_END_DEF] /\ flow b n s (rn t) (rs t) /\
    deep (n0 + n) (s0 + s) v /\ in_line v r (S (cs_pc (fn_cs (v_fn v)))) (rn t + n0) (rs t + s0).
Definition here (v : vm) : Prop := (exists r, cs_code (v_cs v) = Some r /\ exists n s, deep n s v /\ in_line v r (cs_pc (v_cs v)) n s) \/ in_body v.
Definition resumes (c : code_state) (p : nat) : Prop := exists r, cs_code c = Some r /\ begins r p.
Record safe (v : vm) : Prop := {
  sf_typed : typed g v;
  sf_values : values_ok v;
  sf_code : forall r b, at_code r b -> c_bcode (code_of v r) = Some b;
  sf_index : c_index (v_stored v) = idx;
  sf_defs : defs_good v;
  sf_ret : Forall (fun c => resumes c (cs_pc c)) (v_ret v);
  sf_for : Forall (fun f => resumes (f_cs f) (S (cs_pc (f_cs f)))) (v_for v);
  sf_here : here v
}.
(* what one step gives *)
Definition goes (x : res unit * vm) : Prop := match x with (Ok _, w) => safe w | (Fail e, _) => proper e | _ => True end.

Lemma in_line_begins v r p n s : begins r p -> in_line v r p n s.
Proof. intros (b & A & H). exists b, false. split; [exact A|]. split; [|discriminate]. eapply tail_weak; [exact H|lia|lia|auto]. Qed.
Lemma begins_end r b p : at_code r b -> length (bc_inst b) <= p -> begins r p.
Proof. intros A H. exists b. split; [exact A|]. rewrite skipn_all2 by exact H. constructor. Qed.
Lemma deep_zero v : deep 0 0 v.
Proof. split; lia. Qed.

(* the parts of the invariant that do not depend on the place *)
Definition framed (v : vm) : Prop :=
  Forall (fun c => resumes c (cs_pc c)) (v_ret v) /\ Forall (fun f => resumes (f_cs f) (S (cs_pc (f_cs f)))) (v_for v).
Lemma codes_kept v w r : v_stored w = v_stored v -> v_imm w = v_imm v -> r <> CDef -> code_of w r = code_of v r.
Proof. intros S I H. destruct r; cbn [code_of]; congruence. Qed.
Lemma step_safe v i w : safe v -> current v = Some i -> (forall id n, i <> I_DEF id n) -> execute E v = (Ok tt, w) -> framed w -> here w -> safe w.
Proof.
  intros S C ND X [R F] H. destruct S as [S1 SV S2 S3 S4 S5 S6 S7].
  assert (W : w = snd (execute E v)) by (rewrite X; reflexivity).
  assert (ST : v_stored w = v_stored v) by (rewrite W; exact (execute_keeps v_stored E v i C (fun _ _ => eq_refl) (exec_keeps_stored E i))).
  assert (SI : v_imm w = v_imm v) by (rewrite W; exact (execute_keeps v_imm E v i C (fun _ _ => eq_refl) (exec_keeps_imm E i))).
  constructor; try assumption.
  - rewrite W. apply typed_execute. exact S1.
  - rewrite W. apply vo_execute; assumption.
  - intros r b A. rewrite (codes_kept v w r ST SI (proj1 A)). exact (S2 r b A).
  - rewrite ST. exact S3.
  - rewrite W, (execute_eq E v i C). pose proof (defs_exec E i ND v S4) as D. unfold defs_good in *. rewrite (finish_field v_st) by reflexivity. exact D.
Qed.

(* an instruction that goes on with the next one *)
Lemma plain_step v i p q c d n s : current v = Some i -> effect i = Some (p, q, (c, d)) -> parens i = false -> p <= n -> q <= s ->
  forall n0 s0, deep (n0 + n) (s0 + s) v ->
  match execute E v with
  | (Ok _, w) => control w = control (set_pc (S (cs_pc (v_cs v))) v) /\ deep (n0 + (c + (n - p))) (s0 + (d + (s - q))) w
  | (Fail e, _) => proper e
  | _ => True
  end.
Proof.
  intros C H K P Q n0 s0 D. rewrite (execute_eq E v i C). pose proof (eff_exec E i p q c d (n - p) (s - q) H K n0 s0 v) as X.
  replace (p + (n - p)) with n in X by lia. replace (q + (s - q)) with s in X by lia. specialize (X D).
  assert (K2 : keeps control (exec_instr E i)) by (apply control_exec; [congruence|exact K]). specialize (K2 v).
  destruct (exec_instr E i v) as [[b|e| |] u]; cbn [finish]; try exact X. destruct X as [<- X]. cbn [snd] in K2. unfold control in K2. injection K2 as K1 K2 K3 K4 K5 K6 K7 K8.
  split; [|exact X]. unfold control. cbn [v_cs v_ret v_for v_fn v_stored v_imm v_def v_input_pc set_pc set_cs]. rewrite K1, K2, K3, K4, K5, K6, K7, K8. reflexivity.
Qed.
Lemma not_plain_def i x : effect i = Some x -> forall id n, i <> I_DEF id n.
Proof. intros H id n ->. discriminate H. Qed.
Lemma control_framed v w : control w = control v -> framed v -> framed w.
Proof. unfold control, framed. intros H. injection H as _ -> -> _ _ _ _ _. auto. Qed.


(* ---------- instructions that go elsewhere ---------- *)

Definition lands (w : vm) : Prop := resumes (v_cs w) (cs_pc (v_cs w)).
Lemma lands_here w : lands w -> here w.
Proof. intros (r & C & B). left. exists r. split; [exact C|]. exists 0, 0. split; [apply deep_zero|]. apply in_line_begins. exact B. Qed.

Lemma adv_ok m v b w : adv m v = (Ok b, w) -> b = true /\ m v = (Ok tt, w).
Proof. unfold adv, bind, ret. destruct (m v) as [[[]|e| |] u]; intros X; try discriminate X. injection X as <- <-. auto. Qed.
Lemma jump_ok m v b w : jump m v = (Ok b, w) -> b = false /\ m v = (Ok tt, w).
Proof. unfold jump, bind, ret. destruct (m v) as [[[]|e| |] u]; intros X; try discriminate X. injection X as <- <-. auto. Qed.
Lemma pop_ok v x w : pop v = (Ok x, w) -> exists r, w = set_stack r v.
Proof. unfold pop. destruct (v_stack v) as [|y r]; [discriminate|]. intros X. injection X as _ <-. eexists. reflexivity. Qed.
Lemma go_ok n v u w : c_index (v_stored v) = idx -> go_to_basic_line n v = (Ok u, w) -> framed v -> framed w /\ lands w.
Proof.
  intros C. unfold go_to_basic_line, find_basic_line, bind, modify. rewrite C. destruct idx as [x|] eqn:XI; [|discriminate]. destruct (lookup_line_mapping x n) as [i|] eqn:L; [|discriminate].
  intros X. injection X as _ <-. intros F. split; [exact F|]. exists CStored. split; [reflexivity|]. exact (IX _ _ _ eq_refl L).
Qed.

Section Here.
Variables (r : coderef) (bc : bcode).
Hypothesis AC : at_code r bc.
Local Notation stored := (bc_inst bc).
Local Notation ready p := (tail (skipn p stored) 0 0 false).
Lemma ready_begins p : ready p -> begins r p.
Proof. intros H. exists bc. split; [exact AC|exact H]. Qed.
Lemma begins_ready p : begins r p -> ready p.
Proof. intros (b & A & H). assert (b = bc) as -> by (destruct A, AC; congruence). exact H. Qed.
Lemma ready_end p : length stored <= p -> ready p.
Proof. intros H. rewrite skipn_all2 by exact H. constructor. Qed.
Lemma ready_lands v : cs_code (v_cs v) = Some r -> ready (cs_pc (v_cs v)) -> lands v.
Proof. intros C B. exists r. split; [exact C|exact (ready_begins _ B)]. Qed.
Lemma bc_here v : safe v -> c_bcode (code_of v r) = Some bc.
Proof. intros S. exact (sf_code _ S _ _ AC). Qed.

Lemma push_return_ok p v u w : cs_code (v_cs v) = Some r -> ready p -> push_return p v = (Ok u, w) -> framed v -> framed w /\ v_stored w = v_stored v.
Proof.
  intros C B. unfold push_return. destruct (Nat.leb _ _); [discriminate|]. intros X. injection X as _ <-. intros [F1 F2]. split; [|reflexivity]. split; [|exact F2].
  constructor; [|exact F1]. exists r. split; [exact C|exact (ready_begins _ B)].
Qed.
Lemma skip_ok f v u w : cs_code (v_cs v) = Some r -> c_bcode (code_of v r) = Some bc -> skip_to f v = (Ok u, w) ->
  w = set_pc (S (cs_pc (v_cs v)) + scan_to f (skipn (S (cs_pc (v_cs v))) stored)) v.
Proof. intros C B. unfold skip_to, bind, get_bcode, cur_bcode. rewrite C, B. unfold modify. intros X. injection X as _ <-. reflexivity. Qed.
Lemma nth_skip {A} (l : list A) p k : nth_error (skipn p l) k = nth_error l (p + k).
Proof. apply nth_error_skipn. Qed.
Lemma skip_line q : ready q -> ready (q + scan_to is_source_line (skipn q stored)).
Proof.
  intros B. destruct (scan_hit is_source_line (skipn q stored)) as [L|(i & L & F)].
  - apply ready_end. rewrite L, skipn_length. lia.
  - destruct i; try discriminate F. pose proof (tail_marker _ _ _ _ _ _ B L) as T. rewrite skipn_plus in T. exact T.
Qed.
Lemma skip_else q : ready q -> ready (S (q + scan_to is_else (skipn q stored))).
Proof.
  intros B. destruct (scan_hit is_else (skipn q stored)) as [L|(i & L & F)].
  - apply ready_end. rewrite L, skipn_length. lia.
  - destruct i; try discriminate F. pose proof (tail_leap _ _ _ _ B _ _ _ L eq_refl) as T. rewrite skipn_plus in T. replace (S (q + scan_to is_else (skipn q stored))) with (q + S (scan_to is_else (skipn q stored))) by lia. exact T.
Qed.
Lemma trace_ok m (v : vm) u w : keeps (fun v => (v_cs v, v_ret v, v_for v, v_stored v, v_fn v)) m -> trace_for m v = (Ok u, w) ->
  v_cs w = v_cs v /\ v_ret w = v_ret v /\ v_for w = v_for v /\ v_stored w = v_stored v.
Proof.
  intros K. unfold trace_for. destruct (o_trace_for _).
  - intros X. specialize (K v). rewrite X in K. cbn [snd] in K. injection K as -> -> -> -> _. auto.
  - intros X. injection X as _ <-. auto.
Qed.
Ltac traced X := apply trace_ok in X; [|solve [repeat keeps_more]].

Lemma remove_Forall {A} (P : A -> Prop) l i : Forall P l -> Forall P (remove_nth l i).
Proof. apply Forall_remove_nth. Qed.
Lemma next_ok si v u w : lands (set_pc (S (cs_pc (v_cs v))) v) -> next si v = (Ok u, w) -> framed v -> framed w /\ lands (set_pc (S (cs_pc (v_cs w))) w).
Proof.
  intros L X [F1 F2]. unfold next in X. apply bind_ok in X as (v0 & u0 & X0 & X). injection X0 as <- <-.
  apply bind_ok in X as (f & u1 & X1 & X). apply some_ok in X1 as [-> NF]. apply bind_ok in X as (sy & u2 & X2 & X). apply get_sym_ok in X2 as [-> SY].
  apply bind_ok in X as (x0 & u3 & X3 & X). apply some_ok in X3 as [-> VN]. apply bind_ok in X as (u4 & v4 & X4 & X). traced X. destruct X as (Y1 & Y2 & Y3 & Y4).
  destruct (_ || _) in X4.
  - injection X4 as _ <-. cbn [v_cs v_ret v_for set_for] in Y1, Y2, Y3. split.
    + split; [rewrite Y2; exact F1|rewrite Y3; apply remove_Forall; exact F2].
    + unfold lands in *. cbn [v_cs set_pc set_cs] in *. rewrite Y1. exact L.
  - apply bind_ok in X4 as (u5 & v5 & X5 & X4). injection X5 as _ <-. injection X4 as _ <-. cbn [v_cs v_ret v_for set_cs set_st] in Y1, Y2, Y3. split.
    + split; [rewrite Y2; exact F1|rewrite Y3; exact F2].
    + unfold lands in *. cbn [v_cs set_pc set_cs cs_code cs_pc] in *. rewrite Y1. exact (VmTyping.Forall_nth _ _ _ _ F2 NF).
Qed.

Lemma modify_ok f v u w : modify f v = (Ok u, w) -> w = f v.
Proof. unfold modify. intros X. injection X as _ X. congruence. Qed.
Lemma put_sym_ok id s v u w : put_sym id s v = (Ok u, w) -> v_cs w = v_cs v /\ v_ret w = v_ret v /\ v_for w = v_for v /\ v_stored w = v_stored v.
Proof. intros X. apply modify_ok in X as ->. auto. Qed.
Lemma Forall_snoc {A} (P : A -> Prop) l x : Forall P (l ++ [x]) -> Forall P l.
Proof. intros H. apply Forall_app in H as [H _]. exact H. Qed.
Lemma for_ok id v u w : cs_code (v_cs v) = Some r -> ready (S (cs_pc (v_cs v))) -> exec_for id v = (Ok u, w) -> framed v ->
  framed w /\ lands (set_pc (S (cs_pc (v_cs w))) w).
Proof.
  intros C B X [F1 F2]. unfold exec_for in X. apply bind_ok in X as (u0 & v0 & X0 & X). traced X0. destruct X0 as (Z1 & Z2 & Z3 & Z4).
  rewrite <- Z1 in C, B. rewrite <- Z2 in F1. rewrite <- Z3 in F2. clear Z1 Z2 Z3 Z4 v.
  apply bind_ok in X as (sy & u2 & X2 & X). apply get_sym_ok in X2 as [-> SY].
  apply bind_ok in X as (u3 & v3 & X3 & X). unfold assert in X3. destruct (is_kind _ _ _); [|discriminate X3]. injection X3 as _ <-.
  apply bind_ok in X as (v1 & u4 & X4 & X). injection X4 as <- <-. apply bind_ok in X as (u5 & v5 & X5 & X).
  assert (Y : exists fs f, v5 = set_for (fs ++ [f]) v0 /\ Forall (fun f => resumes (f_cs f) (S (cs_pc (f_cs f)))) fs).
  { destruct (find_for (v_for v0) id) as [si|].
    - apply bind_ok in X5 as (f & u6 & X6 & X5). apply some_ok in X6 as [-> NF]. injection X5 as _ <-. eexists _, _. split; [reflexivity|]. apply remove_Forall. exact F2.
    - destruct (Nat.leb _ _).
      + apply bind_ok in X5 as (u6 & v6 & _ & X5). discriminate X5.
      + injection X5 as _ <-. eexists _, _. split; [reflexivity|exact F2]. }
  destruct Y as (fs & f & -> & FS). clear X5 SY u5.
  apply bind_ok in X as (v1 & u4 & X4 & X). injection X4 as <- <-. cbn [v_for set_for] in X.
  apply bind_ok in X as (f1 & u6 & X6 & X). apply some_ok in X6 as [-> NF]. clear NF.
  apply bind_ok in X as (u7 & v7 & X7 & X). apply modify_ok in X7 as ->. cbn [v_for v_cs set_for] in X. rewrite list_upd_last in X.
  apply bind_ok in X as (st & v8 & X8 & X). apply pop_ok in X8 as (r8 & ->).
  apply bind_ok in X as (u9 & v9 & X9 & X). apply modify_ok in X9 as ->. cbn [v_for v_cs set_for set_stack] in X.
  apply bind_ok in X as (li & v10 & X10 & X). apply pop_ok in X10 as (r10 & ->).
  apply bind_ok in X as (u11 & v11 & X11 & X). apply modify_ok in X11 as ->. cbn [v_for v_cs set_for set_stack] in X.
  apply bind_ok in X as (x & v12 & X12 & X). apply pop_ok in X12 as (r12 & ->).
  apply bind_ok in X as (u13 & v13 & X13 & X). apply put_sym_ok in X13 as (W1 & W2 & W3 & _). traced X. destruct X as (Y1 & Y2 & Y3 & _).
  rewrite W1 in Y1. rewrite W2 in Y2. rewrite W3 in Y3. clear W1 W2 W3. cbn [v_cs v_ret v_for set_stack set_for] in Y1, Y2, Y3.
  assert (LU : forall y z, length (fs ++ [y]) - 1 = length (fs ++ [z]) - 1) by (intros; rewrite !app_length; reflexivity).
  split.
  - split; [rewrite Y2; exact F1|]. rewrite Y3.
    match goal with |- Forall _ (list_upd (list_upd (fs ++ [?a]) _ ?b) _ ?c) => rewrite (LU f a) at 1; rewrite (LU f a); rewrite list_upd_last; rewrite (LU a b); rewrite list_upd_last end.
    apply Forall_app. split; [exact FS|]. constructor; [|constructor]. exists r. split; [exact C|exact (ready_begins _ B)].
  - apply ready_lands; cbn [v_cs set_pc set_cs cs_code cs_pc]; rewrite Y1; [exact C|exact B].
Qed.
Lemma on_ok b k v u w : cs_code (v_cs v) = Some r -> c_bcode (code_of v r) = Some bc -> c_index (v_stored v) = idx ->
  ready (cs_pc (v_cs v) + (k + 1)) -> exec_on b k v = (Ok u, w) -> framed v -> framed w /\ lands w.
Proof.
  intros C CB CI B X F. unfold exec_on in X. apply bind_ok in X as (x & v0 & X0 & X). apply pop_ok in X0 as (r0 & ->).
  destruct (fneb x (ffloor x)); [discriminate X|]. apply bind_ok in X as (v1 & u4 & X4 & X). injection X4 as <- <-. cbn [v_cs set_stack] in X.
  destruct (_ || _) in X.
  - injection X as _ <-. split; [exact F|]. apply ready_lands; [exact C|exact B].
  - apply bind_ok in X as (z & u1 & X1 & X). apply some_ok in X1 as [-> Z]. apply bind_ok in X as (bc' & u2 & X2 & X).
    unfold get_bcode, cur_bcode in X2. cbn [v_cs set_stack] in X2. rewrite C in X2. change (code_of (set_stack r0 v) r) with (code_of v r) in X2. rewrite CB in X2. injection X2 as <- <-.
    destruct (nth_error _ _) as [[]|]; try discriminate X. apply bind_ok in X as (u3 & v3 & X3 & X).
    assert (Y : framed v3 /\ v_stored v3 = v_stored v).
    { destruct b; [|injection X3 as _ <-; split; [exact F|reflexivity]].
      refine (push_return_ok _ (set_stack r0 v) _ _ C _ X3 F). replace (cs_pc (v_cs v) + k + 1) with (cs_pc (v_cs v) + (k + 1)) by lia. exact B. }
    destruct Y as [Y1 Y2]. eapply go_ok; [rewrite Y2; exact CI|exact X|exact Y1].
Qed.

(* errors of these instructions *)
Ltac eff_leaps := repeat first [apply eff_logic | apply eff_unsigned | apply eff_indexes | eff_step | progress unfold go_to_basic_line | progress unfold skip_to | progress unfold jump | progress unfold next | progress unfold exec_for ].
Lemma eff_push_return n s p : eff any n s n s (push_return p).
Proof. intros b c v D. unfold push_return. destruct (Nat.leb _ _); [left; exact Logic.I|]. split; [exact Logic.I|exact D]. Qed.
Lemma eff_pop_return n s : eff any n s n s pop_return.
Proof. intros b c v D. unfold pop_return. destruct (v_ret v); [left; exact Logic.I|]. split; [exact Logic.I|exact D]. Qed.
Lemma eff_leap i k : leap i = Some k -> eff any k 0 0 0 (exec_instr E i).
Proof.
  intros H. destruct i; try discriminate H; injection H as <-; cbn [exec_instr];
    try solve [repeat first [apply eff_push_return | apply eff_pop_return | eff_step | progress unfold go_to_basic_line | progress unfold skip_to | progress unfold jump | progress unfold next | progress unfold exec_for]].
  eapply eff_bind; [apply eff_modify; intros v; split; reflexivity|intros _]. intros b c v D. destruct (o_trace_basic _); [|split; [exact Logic.I|exact D]].
  destruct (cs_code _) as [r0|]; [|exact Logic.I]. destruct (c_source _) as [src|]; [|exact Logic.I]. destruct (nth_error src _); [|exact Logic.I]. split; [exact Logic.I|exact D].
Qed.
Lemma fail_proper v i n s n' s' e w : current v = Some i -> eff any n s n' s' (exec_instr E i) -> deep n s v -> execute E v = (Fail e, w) -> proper e.
Proof.
  intros C H D X. rewrite (execute_eq E v i C) in X. specialize (H 0 0 v D). destruct (exec_instr E i v) as [[[]|e'| |] u]; try discriminate X. cbn [finish] in X.
  injection X as <- _. exact H.
Qed.
Lemma exec_ok v i w u : current v = Some i -> execute E v = (Ok u, w) -> exists b w1, exec_instr E i v = (Ok b, w1) /\ w = if b then set_pc (S (cs_pc (v_cs w1))) w1 else w1.
Proof.
  intros C X. rewrite (execute_eq E v i C) in X. destruct (exec_instr E i v) as [[[]|e'| |] w1]; try discriminate X; cbn [finish] in X; apply (f_equal snd) in X; cbn [snd] in X; [exists true, w1|exists false, w1]; auto.
Qed.
Lemma framed_set_pc p w : framed w -> framed (set_pc p w).
Proof. auto. Qed.

Lemma line_keeps l : keeps (fun v => (cs_code (v_cs v), cs_pc (v_cs v), v_ret v, v_for v)) (exec_instr E (I_SOURCE_LINE l)).
Proof. intros v. cbn [exec_instr]. unfold bind, put, ret, modify. cbv beta iota. 
repeat match goal with |- context [match ?x with _ => _ end] => lazymatch x with context [match _ with _ => _ end] => fail | _ => destruct x end end; reflexivity. Qed.

Lemma safe_framed v : safe v -> framed v.
Proof. intros [_ _ _ _ _ R F _]. split; assumption. Qed.
Definition is_stop (i : instr) : bool := match i with I_STOP => true | _ => false end.
Lemma leap_ok v i k u w : safe v -> cs_code (v_cs v) = Some r -> current v = Some i -> leap i = Some k -> is_stop i = false ->
  ready (S (cs_pc (v_cs v))) -> execute E v = (Ok u, w) -> framed w /\ lands w.
Proof.
  intros S CS C L NS B X. pose proof (safe_framed v S) as F. pose proof (bc_here v S) as CB. pose proof (sf_index _ S) as CI. clear S.
  apply (exec_ok _ _ _ _ C) in X as (b & w1 & X & ->). clear C u.
  assert (NX : lands (set_pc (Datatypes.S (cs_pc (v_cs v))) v)) by (apply ready_lands; [exact CS|exact B]).
  destruct i; try discriminate L; try discriminate NS; clear L NS; cbn [exec_instr] in X.
  - pose proof (line_keeps source_line v) as Y. cbn [exec_instr] in Y. rewrite X in Y. cbn [snd] in Y. injection Y as Y1 Y2 Y3 Y4.
    assert (b = true) as ->.
    { unfold bind, modify, put, ret in X. cbv beta iota zeta in X.
      repeat match type of X with context [match ?x with _ => _ end] => destruct x; try discriminate X end; injection X as <- _; reflexivity. }
    split; [unfold framed; cbn [v_ret v_for set_pc set_cs]; rewrite Y3, Y4; exact F|]. apply ready_lands; cbn [v_cs set_pc set_cs cs_code cs_pc]; [rewrite Y1; exact CS|rewrite Y2; exact B].
  - apply bind_ok in X as (bc' & v1 & X1 & X). unfold get_bcode, cur_bcode in X1. rewrite CS, CB in X1. injection X1 as <- <-.
    apply jump_ok in X as [-> X]. apply modify_ok in X as ->. split; [exact F|]. apply ready_lands; [exact CS|]. apply ready_end. cbn. unfold bc_used. lia.
  - apply jump_ok in X as [-> X]. exact (go_ok _ _ _ _ CI X F).
  - apply bind_ok in X as (x & v1 & X1 & X). apply pop_ok in X1 as (r0 & ->). destruct (truth x).
    + apply jump_ok in X as [-> X]. exact (go_ok _ (set_stack r0 v) _ _ CI X F).
    + injection X as <- <-. split; [exact F|exact NX].
  - apply bind_ok in X as (v1 & u4 & X4 & X). injection X4 as <- <-. apply bind_ok in X as (u1 & v1 & X1 & X). apply jump_ok in X as [-> X].
    destruct (push_return_ok _ _ _ _ CS (eq_ind _ (fun p => ready p) B _ (eq_sym (Nat.add_1_r _))) X1 F) as [Y1 Y2].
    apply (go_ok _ v1 _ _ (eq_trans (f_equal c_index Y2) CI) X Y1).
  - apply jump_ok in X as [-> X]. unfold pop_return in X. destruct F as [F1 F2]. destruct (v_ret v) as [|c r0]; [discriminate X|]. injection X as <-. inversion_clear F1 as [|? ? H1 H2].
    split; [split; [exact H2|exact F2]|exact H1].
  - apply adv_ok in X as [-> X]. exact (for_ok _ _ _ _ CS B X F).
  - apply bind_ok in X as (u1 & v1 & X1 & X). traced X1. destruct X1 as (Z1 & Z2 & Z3 & Z4). apply bind_ok in X as (v2 & u4 & X4 & X). injection X4 as <- <-.
    assert (F' : framed v1) by (unfold framed; rewrite Z2, Z3; exact F). assert (NX' : lands (set_pc (Datatypes.S (cs_pc (v_cs v1))) v1)) by (unfold lands; cbn [v_cs set_pc set_cs]; rewrite Z1; exact NX).
    destruct (last_opt (v_for v1)) as [f|]; [|discriminate X]. destruct (_ =? _)%N in X; [apply adv_ok in X as [-> X]; exact (next_ok _ _ _ _ NX' X F')|].
    destruct (find_for _ _) in X; [apply adv_ok in X as [-> X]; exact (next_ok _ _ _ _ NX' X F')|]. apply bind_ok in X as (sy & v3 & _ & X). discriminate X.
  - apply bind_ok in X as (u1 & v1 & X1 & X). traced X1. destruct X1 as (Z1 & Z2 & Z3 & Z4). apply bind_ok in X as (v2 & u4 & X4 & X). injection X4 as <- <-.
    assert (F' : framed v1) by (unfold framed; rewrite Z2, Z3; exact F). assert (NX' : lands (set_pc (Datatypes.S (cs_pc (v_cs v1))) v1)) by (unfold lands; cbn [v_cs set_pc set_cs]; rewrite Z1; exact NX).
    destruct (v_for v1) as [|f r0] eqn:FF; [discriminate X|]. rewrite <- FF in X. apply adv_ok in X as [-> X]; exact (next_ok _ _ _ _ NX' X F').
  - apply bind_ok in X as (x & v1 & X1 & X). apply pop_ok in X1 as (r0 & ->). destruct (truth x); [injection X as <- <-; split; [exact F|exact NX]|].
    apply jump_ok in X as [-> X]. apply skip_ok in X as ->; [|exact CS|exact CB]. split; [exact F|]. apply ready_lands; [exact CS|]. exact (skip_line _ B).
  - apply bind_ok in X as (x & v1 & X1 & X). apply pop_ok in X1 as (r0 & ->). destruct (truth x); [injection X as <- <-; split; [exact F|exact NX]|].
    apply adv_ok in X as [-> X]. apply skip_ok in X as ->; [|exact CS|exact CB]. split; [exact F|]. apply ready_lands; [exact CS|]. exact (skip_else _ B).
  - apply jump_ok in X as [-> X]. apply skip_ok in X as ->; [|exact CS|exact CB]. split; [exact F|]. apply ready_lands; [exact CS|]. exact (skip_line _ B).
Qed.

(* ---------- one step in a line ---------- *)

Lemma effect_not_def i x : effect i = Some x -> forall id n, i <> I_DEF id n.
Proof. intros H id n ->. discriminate H. Qed.
Lemma leap_not_def i x : leap i = Some x -> forall id n, i <> I_DEF id n.
Proof. intros H id n ->. discriminate H. Qed.

(* a line of input stays *)
Lemma inp_exec i : inv (fun v => v_inp v <> None) (exec_instr E i).
Proof.
  assert (K : keeps v_inp (exec_instr E i) -> inv (fun v => v_inp v <> None) (exec_instr E i)) by (intros X v V; rewrite X; exact V).
  destruct i; try (apply K; cbn [exec_instr]; solve [clear K; repeat keeps_more]); clear K; cbn [exec_instr];
    repeat first [apply inv_ret | apply inv_crash | apply inv_some | apply inv_get | (apply inv_modify; intros ? ?; first [discriminate | assumption]) | (apply inv_bind; [|intros ?])
      | match goal with |- inv _ (match ?x with _ => _ end) => destruct x end | match goal with |- inv _ (let (_, _) := ?x in _) => destruct x end | progress unfold adv, jump, put, put_cols
      | match goal with |- inv _ (set_numeric _ _ _) => let V := fresh in intros ? V; match goal with |- v_inp (snd (?m ?w)) <> None => assert (KK : keeps v_inp m) by (repeat keeps_more); rewrite KK; exact V end
                      | |- inv _ (set_string _ _ _) => let V := fresh in intros ? V; match goal with |- v_inp (snd (?m ?w)) <> None => assert (KK : keeps v_inp m) by (repeat keeps_more); rewrite KK; exact V end end].
  apply inv_modify. intros v V. destruct (fgets 128 (v_in v)) as [[buf rest]|]; discriminate.
Qed.
Lemma asked_step v w : execute E v = (Ok tt, w) -> v_input_pc w = v_input_pc v -> asked v r -> asked w r.
Proof.
  intros X Y [A1 A2]. split; [rewrite Y; exact A1|]. destruct (current v) as [i|] eqn:C; [|rewrite (execute_none E v C) in X; discriminate X].
  destruct (exec_ok _ _ _ _ C X) as (b & w1 & X1 & W). pose proof (inp_exec i v A2) as I. rewrite X1 in I. cbn [snd] in I. rewrite W. destruct b; exact I.
Qed.
(* goes on in the same line *)
Lemma line_plain v i p q c d n s a : safe v -> cs_code (v_cs v) = Some r -> current v = Some i -> deep n s v ->
  effect i = Some (p, q, (c, d)) -> parens i = false -> p <= n -> q <= s -> tail (skipn (S (cs_pc (v_cs v))) stored) (c + (n - p)) (d + (s - q)) a ->
  (a = true -> asked v r) -> goes (execute E v).
Proof.
  intros S CS C D H K P Q T A. pose proof (plain_step v i p q c d n s C H K P Q 0 0 D) as X.
  destruct (execute E v) as [[[]|e| |] w] eqn:EX; cbn [goes]; try exact X. destruct X as [X D'].
  eapply step_safe; [exact S|exact C|exact (effect_not_def _ _ H)|exact EX|eapply control_framed; [exact X|exact (safe_framed v S)]|].
  unfold control in X. injection X as X1 X2 X3 X4 X5 X6 X7 X8. left. exists r. rewrite X1. cbn [set_pc set_cs v_cs cs_code cs_pc]. split; [exact CS|].
  eexists _, _. split; [exact D'|]. exists bc, a. split; [exact AC|]. split; [exact T|]. intros HA. exact (asked_step _ _ EX X8 (A HA)).
Qed.

(* an array or a function *)
Lemma call_ok id params v u w s0 : safe v ->
  symbol_at (v_st v) id = Some s0 -> call_def id params v = (Ok u, w) -> framed w /\ cs_code (v_cs w) = Some CDef /\ v_fn w = mkFn (v_cs v) (fn_param (v_fn w)) (fn_defined (v_fn w)) (fn_val (v_fn w)) /\
  cs_pc (v_cs w) = 1 /\ v_input_pc w = v_input_pc v /\ (exists x q, v_stack v = x :: q /\ v_stack w = q /\ v_sstack w = v_sstack v) /\ params = 1%N /\
  exists d, c_bcode (v_def w) = Some (def_bcode d) /\ def_shape (s_type s0) (bc_inst (def_bcode d)).
Proof.
  intros S SY X. unfold call_def in X. apply bind_ok in X as (sy & v1 & X1 & X). apply get_sym_ok in X1 as [-> SY']. assert (sy = s0) as -> by congruence.
  apply bind_ok in X as (u1 & v1 & X1 & X). unfold assert in X1. destruct (skind_eqb _ _); [|discriminate X1]. injection X1 as _ <-.
  destruct (negb (s_defined s0)); [discriminate X|]. apply bind_ok in X as (d0 & v1 & X1 & X). apply some_ok in X1 as [-> VD].
  apply bind_ok in X as (d & v1 & X1 & X). apply some_ok in X1 as [-> ->]. apply bind_ok in X as (v1 & v2 & X1 & X). injection X1 as <- <-.
  destruct (cs_code (fn_cs (v_fn v))); [discriminate X|]. destruct (negb (params =? 1)%N) eqn:PA; [discriminate X|]. assert (params = 1%N) as -> by lia.
  apply bind_ok in X as (bc' & v1 & X1 & X). unfold get_bcode in X1. destruct (cur_bcode v); [|discriminate X1]. injection X1 as <- <-. destruct (Nat.leb _ _); [discriminate X|].
  apply bind_ok in X as (u2 & v2 & X2 & X). apply modify_ok in X2 as ->. apply bind_ok in X as (u3 & v3 & X3 & X). apply modify_ok in X3 as ->.
  apply bind_ok in X as (u4 & v4 & X4 & X). apply modify_ok in X4 as ->. destruct (nth_error (bc_inst (def_bcode d)) 1) as [[]|]; try discriminate X.
  apply bind_ok in X as (ps & v5 & X5 & X). apply get_sym_ok in X5 as [-> PS]. apply bind_ok in X as (u6 & v6 & X6 & X). unfold assert in X6. destruct (is_kind _ _ _); [|discriminate X6]. injection X6 as _ <-.
  apply bind_ok in X as (old & v7 & X7 & X). apply some_ok in X7 as [-> OL]. apply bind_ok in X as (u8 & v8 & X8 & X). apply modify_ok in X8 as ->.
  apply bind_ok in X as (x & v9 & X9 & X). unfold pop in X9. cbn [v_stack set_fn set_cs set_def set_code] in X9. destruct (v_stack v) as [|y q] eqn:SK; [discriminate X9|].
  apply (f_equal (fun z => (fst z, snd z))) in X9. cbn [fst snd] in X9. injection X9 as <- <-.
  apply bind_ok in X as (u10 & v10 & X10 & X). apply modify_ok in X10 as ->. apply modify_ok in X as ->.
  split; [exact (safe_framed v S)|]. split; [reflexivity|]. split; [reflexivity|]. split; [reflexivity|]. split; [reflexivity|]. split; [exists y, q; auto|]. split; [reflexivity|].
  exists d. split; [reflexivity|]. pose proof (sf_defs _ S) as DG. unfold symbol_at in SY. pose proof (VmTyping.Forall_nth _ _ _ _ DG SY) as G. unfold def_good in G.
  destruct (s_val s0); try discriminate VD. cbn in VD. injection VD as ->. exact G.
Qed.

Lemma call_fail id params v e w : safe v -> (in_body v \/ cs_code (v_cs v) = Some r /\ S (cs_pc (v_cs v)) < length stored /\ N.to_nat params <= length (v_stack v)) ->
  call_def id params v = (Fail e, w) -> proper e.
Proof.
  intros S P X. unfold call_def, bind at 1, get_sym in X. destruct (symbol_at (v_st v) id) as [s0|] eqn:SY; [|discriminate X].
  unfold bind at 1, assert at 1 in X. destruct (skind_eqb _ _); [|discriminate X]. unfold ret at 1 in X.
  destruct (negb (s_defined s0)); [injection X as <- _; left; exact Logic.I|]. unfold bind at 1 in X. destruct (val_def (s_val s0)) as [d0|] eqn:VD; cbn [some_or_crash] in X; [|discriminate X]. unfold ret at 1 in X.
  unfold bind at 1 in X. destruct d0 as [d|]; cbn [some_or_crash] in X; [|discriminate X]. unfold ret at 1 in X. unfold bind at 1, get at 1 in X.
  destruct (cs_code (fn_cs (v_fn v))) eqn:FN; [injection X as <- _; left; exact Logic.I|]. destruct (negb (params =? 1)%N) eqn:PA; [injection X as <- _; left; exact Logic.I|]. assert (params = 1%N) as -> by lia.
  destruct P as [(_ & r' & P & _)|(CS & P & P')]; [congruence|].
  unfold bind at 1, get_bcode, cur_bcode in X. rewrite CS, (bc_here v S) in X.
  destruct (Nat.leb _ _) eqn:LE; [apply Nat.leb_le in LE; unfold bc_used in LE; cbn in LE; lia|].
  unfold bind at 1, modify at 1 in X. unfold bind at 1, modify at 1 in X. unfold bind at 1, modify at 1 in X.
  pose proof (sf_defs _ S) as DG. unfold symbol_at in SY. pose proof (VmTyping.Forall_nth _ _ _ _ DG SY) as G. unfold def_good in G.
  destruct (s_val s0); try discriminate VD. cbn in VD. injection VD as ->. destruct G as (i0 & p0 & b0 & G & _). rewrite G in X. cbn [nth_error] in X.
  unfold bind at 1, get_sym in X. cbn [v_st set_cs set_def set_code set_fn] in X. destruct (symbol_at (v_st v) p0) as [ps|]; [|discriminate X].
  unfold bind at 1, assert at 1 in X. destruct (is_kind _ _ _); [|discriminate X]. unfold ret at 1 in X.
  unfold bind at 1 in X. destruct (val_num _); cbn [some_or_crash] in X; [|discriminate X]. unfold ret at 1 in X. unfold bind at 1, modify at 1 in X.
  unfold bind at 1, pop at 1 in X. cbn [v_stack set_fn set_cs set_def set_code] in X. destruct (v_stack v) as [|y q]; [cbn in P'; lia|]. discriminate X.
Qed.
Definition paren_type (i : instr) : vtype := match i with I_GET_PAREN_NUM _ _ => TNum | _ => TStr end.
Definition paren_id (i : instr) : symid := match i with I_GET_PAREN_NUM id _ | I_GET_PAREN_STR id _ => id | _ => 0%N end.
Definition paren_count (i : instr) : N := match i with I_GET_PAREN_NUM _ n | I_GET_PAREN_STR _ n => n | _ => 0%N end.
Lemma paren_effect i : parens i = true -> effect i = Some (N.to_nat (paren_count i), 0, (rn (paren_type i), rs (paren_type i))).
Proof. intros H. destruct i; try discriminate H; reflexivity. Qed.
(* the value of an element, or a call *)
Definition element (i : instr) : M bool := adv (match paren_type i with TNum => get_numeric_element (paren_id i) (paren_count i) | _ => get_string_element (paren_id i) (paren_count i) end).
Lemma paren_exec i v : parens i = true ->
  (exec_instr E i v = (Crash, v)) \/
  exists s, symbol_at (v_st v) (paren_id i) = Some s /\ s_type s = paren_type i /\ exec_instr E i v = (if skind_eqb (s_kind s) KArray then element i v else adv (call_def (paren_id i) (paren_count i)) v).
Proof.
  intros H.
  assert (X : exec_instr E i v = match symbol_at (v_st v) (paren_id i) with
    | Some s => if vtype_eqb (s_type s) (paren_type i) then (if skind_eqb (s_kind s) KArray then element i v else adv (call_def (paren_id i) (paren_count i)) v) else (Crash, v)
    | None => (Crash, v) end).
  { destruct i; try discriminate H; cbn [exec_instr paren_id paren_count paren_type]; unfold bind at 1, get_sym; (destruct (symbol_at (v_st v) id) as [s|]; [|reflexivity]);
      unfold bind at 1, assert; (destruct (vtype_eqb _ _) eqn:T; [|reflexivity]); unfold ret at 1, element; cbn [paren_type paren_id paren_count]; destruct (skind_eqb _ _); reflexivity. }
  rewrite X. destruct (symbol_at (v_st v) (paren_id i)) as [s|]; [|left; reflexivity]. destruct (vtype_eqb _ _) eqn:T; [|left; reflexivity].
  right. exists s. split; [reflexivity|]. split; [|reflexivity]. destruct (s_type s), (paren_type i); first [reflexivity|discriminate T].
Qed.
Lemma eff_element i n s : parens i = true -> eff (eq true) (N.to_nat (paren_count i) + n) s (rn (paren_type i) + n) (rs (paren_type i) + s) (element i).
Proof.
  intros H. destruct i; try discriminate H; unfold element; cbn [paren_type paren_id paren_count needed fst snd Nat.add].
  - unfold adv. eapply eff_bind; [apply eff_get_element|intros _]. apply eff_ret. reflexivity.
  - unfold adv. eapply eff_bind; [apply eff_gets_element|intros _]. apply eff_ret. reflexivity.
Qed.
Lemma control_element i : parens i = true -> keeps control (element i).
Proof. intros H. destruct i; try discriminate H; unfold element; cbn [paren_type paren_id paren_count]; repeat keeps_more. Qed.

Lemma line_paren v i n s a : safe v -> cs_code (v_cs v) = Some r -> current v = Some i -> deep n s v -> parens i = true -> N.to_nat (paren_count i) <= n ->
  S (cs_pc (v_cs v)) < length stored -> tail (skipn (S (cs_pc (v_cs v))) stored) (rn (paren_type i) + (n - N.to_nat (paren_count i))) (rs (paren_type i) + s) a ->
  (a = true -> asked v r) -> goes (execute E v).
Proof.
  intros S CS C D PA LE NE T A. pose proof (effect_not_def _ _ (paren_effect i PA)) as ND. destruct (paren_exec i v PA) as [X|(sy & SY & TY & X)].
  { rewrite (execute_eq E v i C), X. exact Logic.I. }
  destruct (skind_eqb (s_kind sy) KArray).
  - pose proof (eff_element i (n - N.to_nat (paren_count i)) s PA 0 0 v) as Y. replace (N.to_nat (paren_count i) + (n - N.to_nat (paren_count i))) with n in Y by lia. specialize (Y D).
    pose proof (control_element i PA v) as K. rewrite <- X in Y, K. destruct (execute E v) as [[[]|e| |] w] eqn:EX; cbn [goes]; try exact Logic.I.
    + destruct (exec_ok _ _ _ _ C EX) as (b & w1 & X1 & ->). rewrite X1 in Y, K. destruct Y as [<- Y]. cbn [snd] in K. unfold control in K. injection K as K1 K2 K3 K4 K5 K6 K7 K8.
      eapply step_safe; [exact S|exact C|exact ND|exact EX|unfold framed; cbn [v_ret v_for set_pc set_cs]; rewrite K2, K3; exact (safe_framed v S)|].
      left. exists r. cbn [set_pc set_cs v_cs cs_code cs_pc]. rewrite K1. split; [exact CS|]. eexists _, _. split; [exact Y|]. exists bc, a. split; [exact AC|]. split; [exact T|]. intros HA. exact (asked_step _ _ EX K8 (A HA)).
    + rewrite (execute_eq E v i C) in EX. destruct (exec_instr E i v) as [[[]|e'| |] w1]; try discriminate EX. cbn [finish] in EX. injection EX as <- _. exact Y.
  - destruct (execute E v) as [[[]|e| |] w] eqn:EX; cbn [goes]; try exact Logic.I.
    + destruct (exec_ok _ _ _ _ C EX) as (b & w1 & X1 & ->). rewrite X in X1. apply adv_ok in X1 as [-> X1].
      destruct (call_ok _ _ _ _ _ _ S SY X1) as (F & CD & FN & PC & IP & (x & q & SK & SK' & SS) & PQ & d & DB & (id0 & p0 & b0 & DS & FL)).
      eapply step_safe; [exact S|exact C|exact ND|exact EX|exact F|]. right. split; [exact CD|]. exists r. cbn [v_fn set_pc set_cs v_cs cs_pc v_def]. rewrite FN. cbn [fn_cs]. split; [exact CS|].
      exists (def_bcode d), b0, (s_type sy), (n - 1), s, 0, 0. split; [exact DB|]. split; [rewrite PC, DS; reflexivity|]. split; [exact FL|]. split.
      * destruct D as [D1 D2]. split; cbn [v_stack v_sstack set_pc set_cs]; [rewrite SK'; rewrite SK in D1; cbn [length] in D1; lia|rewrite SS; lia].
      * exists bc, a. split; [exact AC|]. rewrite TY. rewrite PQ in T. split; [exact T|]. intros HA. exact (asked_step _ _ EX IP (A HA)).
    + rewrite (execute_eq E v i C), X in EX. unfold adv, bind in EX. destruct (call_def _ _ _) as [[[]|e'| |] w1] eqn:CD; try discriminate EX. cbn [finish] in EX. injection EX as <- _.
      eapply call_fail; [exact S| |exact CD]. right. destruct D as [D1 _]. split; [exact CS|]. split; [exact NE|]. lia.
Qed.

(* ---------- INPUT ---------- *)

Lemma eff_weak {A} (R : A -> Prop) n s n' s' k u (m : M A) : eff R n s n' s' m -> k <= n' -> u <= s' -> eff R n s k u m.
Proof. intros H K U b c v D. specialize (H b c v D). destruct (m v) as [[a|e| |] w]; try exact H. destruct H as [H [H1 H2]]. split; [exact H|]. split; lia. Qed.
Definition asks (i : instr) : option nat := match i with I_INPUT_SEP => Some 0 | I_INPUT_NUM _ k => Some (N.to_nat k) | _ => None end.
Lemma eff_asks i k : asks i = Some k -> eff any k 0 0 0 (exec_instr E i).
Proof.
  intros H. destruct i; try discriminate H; injection H as <-; cbn [exec_instr].
  - apply eff_get; intros v. eapply eff_bind; [apply eff_some|intros [i s]]. cbv zeta. eapply eff_bind; [apply eff_modify; intros; split; reflexivity|intros _].
    destruct (drop_while is_blank s) as [|c q]; [|destruct (ceq c ",")]; unfold jump; eff_go.
  - apply eff_get; intros v. eapply eff_bind; [apply eff_some|intros [i s]]. cbv zeta.
    assert (X : eff any (N.to_nat params) 0 0 0 (put (lit "* Invalid input *" ++ [NL]) ;;; jump (modify (set_pc (v_input_pc v))))) by (eapply eff_weak with (n' := N.to_nat params) (s' := 0); [unfold jump; eff_go|lia|lia]).
    destruct (convert s) as [[x t]|]; [|exact X]. destruct (match t with [] => true | _ :: _ => _ end); [|exact X].
    pose proof (eff_set 0 0 id params x) as Y. rewrite Nat.add_0_r in Y. eapply eff_bind; [exact Y|intros _]. eff_go.
Qed.
Lemma asks_ok i k v b w : asks i = Some k -> exec_instr E i v = (Ok b, w) ->
  v_ret w = v_ret v /\ v_for w = v_for v /\ v_input_pc w = v_input_pc v /\ v_cs w = if b then v_cs v else mkCs (cs_code (v_cs v)) (cs_line (v_cs v)) (v_input_pc v).
Proof.
  intros H X.
  assert (KP : keeps (fun v => (v_ret v, v_for v, v_input_pc v)) (exec_instr E i)) by (destruct i; try discriminate H; cbn [exec_instr]; repeat keeps_more).
  specialize (KP v). rewrite X in KP. cbn [snd] in KP. injection KP as K1 K2 K3. split; [exact K1|]. split; [exact K2|]. split; [exact K3|]. clear K1 K2 K3.
  destruct i; try discriminate H; cbn [exec_instr] in X; apply bind_ok in X as (v0 & u0 & X0 & X); injection X0 as <- <-; apply bind_ok in X as ([i s] & u1 & X1 & X); apply some_ok in X1 as [-> IR]; cbv zeta in X.
  - apply bind_ok in X as (u2 & v2 & X2 & X). apply modify_ok in X2 as ->.
    destruct (drop_while is_blank s) as [|c q]; [|destruct (ceq c ",")].
    + apply bind_ok in X as (u3 & v3 & X3 & X). apply modify_ok in X3 as ->. apply jump_ok in X as [-> X]. apply modify_ok in X as ->. reflexivity.
    + apply bind_ok in X as (u3 & v3 & X3 & X). apply modify_ok in X3 as ->. injection X as <- <-. reflexivity.
    + apply bind_ok in X as (u3 & v3 & X3 & X). apply modify_ok in X3 as ->. apply jump_ok in X as [-> X]. apply modify_ok in X as ->. reflexivity.
  - assert (Y : (put (lit "* Invalid input *" ++ [NL]) ;;; jump (modify (set_pc (v_input_pc v)))) v = (Ok b, w) -> v_cs w = (if b then v_cs v else mkCs (cs_code (v_cs v)) (cs_line (v_cs v)) (v_input_pc v))).
    { clear X. intros X. apply bind_ok in X as (u3 & v3 & X3 & X). apply modify_ok in X3 as ->. apply jump_ok in X as [-> X]. apply modify_ok in X as ->. reflexivity. }
    destruct (convert s) as [[x t]|]; [|exact (Y X)]. destruct (match t with [] => true | _ :: _ => _ end); [|exact (Y X)]. clear Y.
    apply bind_ok in X as (u3 & v3 & X3 & X). apply adv_ok in X as [-> X]. apply modify_ok in X as ->. cbn [v_cs set_inp set_input].
    assert (KC : keeps v_cs (set_numeric id params x)) by (repeat keeps_more). specialize (KC v). rewrite X3 in KC. exact KC.
Qed.
Lemma line_asks v i k n s : safe v -> cs_code (v_cs v) = Some r -> current v = Some i -> deep n s v -> asks i = Some k -> k <= n ->
  tail (skipn (S (cs_pc (v_cs v))) stored) 0 0 true -> asked v r -> goes (execute E v).
Proof.
  intros S CS C D A K T B. destruct (execute E v) as [[[]|e| |] w] eqn:EX; cbn [goes]; try exact Logic.I.
  - destruct (exec_ok _ _ _ _ C EX) as (b & w1 & X & W). destruct (asks_ok _ _ _ _ _ A X) as (X1 & X2 & X3 & X4).
    eapply step_safe; [exact S|exact C|intros id m ->; discriminate A|exact EX| |].
    + rewrite W. destruct b; unfold framed; cbn [v_ret v_for set_pc set_cs]; rewrite X1, X2; exact (safe_framed v S).
    + subst w. destruct b.
      * left. exists r. cbn [v_cs set_pc set_cs cs_code cs_pc]. rewrite X4. split; [exact CS|]. exists 0, 0. split; [apply deep_zero|]. exists bc, true. split; [exact AC|]. split; [exact T|]. intros _. exact (asked_step _ _ EX X3 B).
      * apply lands_here. exists r. rewrite X4. split; [exact CS|exact (proj1 B)].
  - eapply fail_proper; [exact C|exact (eff_asks _ _ A)| |exact EX]. destruct D as [D1 D2]. split; lia.
Qed.
Lemma line_buf v t : safe v -> cs_code (v_cs v) = Some r -> current v = Some (I_INPUT_BUF t) -> tail (skipn (S (cs_pc (v_cs v))) stored) 0 0 true -> goes (execute E v).
Proof.
  intros S CS C T. destruct (execute E v) as [[[]|e| |] w] eqn:EX; cbn [goes]; try exact Logic.I.
  - destruct (exec_ok _ _ _ _ C EX) as (b & w1 & X & W). cbn [exec_instr] in X. apply bind_ok in X as (u1 & v1 & X1 & X). apply modify_ok in X1 as ->. apply adv_ok in X as [-> X]. apply modify_ok in X.
    assert (Y : v_cs w1 = v_cs v /\ framed w1 /\ v_input_pc w1 = cs_pc (v_cs v) /\ v_inp w1 <> None).
    { subst w1. destruct (fgets _ _) as [[buf rest]|]; (split; [reflexivity|split; [exact (safe_framed v S)|split; [reflexivity|discriminate]]]). }
    destruct Y as (Y1 & Y2 & Y3 & Y4). eapply step_safe; [exact S|exact C|discriminate|exact EX|rewrite W; exact Y2|]. subst w.
    left. exists r. cbn [v_cs set_pc set_cs cs_code cs_pc]. rewrite Y1. split; [exact CS|]. exists 0, 0. split; [apply deep_zero|]. exists bc, true. split; [exact AC|]. split; [exact T|]. intros _. split; [|exact Y4]. cbn [v_input_pc set_pc set_cs]. rewrite Y3.
    apply ready_begins. unfold current, cur_bcode in C. rewrite CS, (bc_here v S) in C. rewrite (skipn_at _ _ _ C). constructor. exact T.
  - rewrite (execute_eq E v _ C) in EX. cbn [exec_instr] in EX. unfold bind, put, adv, modify, ret in EX. cbn [finish] in EX. discriminate EX.
Qed.

(* ---------- ON and DEF ---------- *)

Lemma line_on v b lines l n s : safe v -> cs_code (v_cs v) = Some r -> skipn (cs_pc (v_cs v)) stored = on_instr b (length lines) :: map I_ON_LINE lines ++ l ->
  deep n s v -> 1 <= n -> (N.of_nat (length lines) < 2 ^ 32)%N -> tail l 0 0 false -> goes (execute E v).
Proof.
  intros S CS SK D N1 LL T. pose proof (bc_here v S) as CB. pose proof (sf_index _ S) as CI. pose proof (safe_framed v S) as F.
  assert (N0 : forall j, nth_error stored (cs_pc (v_cs v) + j) = nth_error (on_instr b (length lines) :: map I_ON_LINE lines ++ l) j) by (intros j; rewrite <- SK; symmetry; apply nth_skip).
  assert (C : current v = Some (on_instr b (length lines))) by (unfold current, cur_bcode; rewrite CS, CB; rewrite <- (Nat.add_0_r (cs_pc (v_cs v))); exact (N0 0)).
  assert (B : ready (cs_pc (v_cs v) + (length lines + 1))).
  { rewrite <- skipn_plus, SK. replace (length lines + 1) with (Datatypes.S (length lines)) by lia. cbn [skipn]. rewrite skipn_app, skipn_all2 by (rewrite map_length; lia). rewrite map_length, Nat.sub_diag. exact T. }
  destruct (execute E v) as [[[]|e| |] w] eqn:EX; cbn [goes]; try exact Logic.I.
  - destruct (exec_ok _ _ _ _ C EX) as (b' & w1 & X & W).
    assert (X' : jump (exec_on b (length lines)) v = (Ok b', w1)) by (destruct b; exact X). apply jump_ok in X' as [-> X']. subst w.
    destruct (on_ok _ _ _ _ _ CS CB CI B X' F) as [Y1 Y2]. eapply step_safe; [exact S|exact C|destruct b; discriminate|exact EX|exact Y1|exact (lands_here _ Y2)].
  - destruct D as [D _]. destruct (v_stack v) as [|x st] eqn:ST; [cbn in D; lia|]. unfold on_instr in C. rewrite (on_step E v b (length lines) x st C ST) in EX.
    assert (V : double x) by (pose proof (ok_stack _ (sf_values _ S)) as V; rewrite ST in V; inversion V; assumption).
    destruct (feqb (ffloor x) x) eqn:Q; [|injection EX as <- _; left; exact Logic.I].
    apply equal_floor in Q; [|exact V]. destruct (selects x (length lines)) eqn:SE; [|discriminate EX].
    destruct Q as [(z & Z)|(sg & ->)]; [|rewrite selects_infinite in SE by lia; discriminate SE].
    rewrite (selects_integer x _ z V Z) in SE by lia. rewrite (ftoZ_integer x z V Z) in EX. unfold cur_bcode in EX. rewrite CS, CB in EX.
    rewrite N0 in EX. replace (Z.to_nat z) with (Datatypes.S (Z.to_nat (z - 1))) in EX by lia. cbn [nth_error] in EX. rewrite nth_error_app1, nth_error_map in EX by (rewrite map_length; lia).
    destruct (nth_error lines (Z.to_nat (z - 1))) as [ln|] eqn:NL; [|apply nth_error_None in NL; lia]. cbn [option_map] in EX.
    assert (G : forall u, go_to_basic_line ln u = (Fail e, w) -> proper e).
    { intros u X. assert (EL : eff any 0 0 0 0 (go_to_basic_line ln)) by (unfold go_to_basic_line; eff_go). specialize (EL 0 0 u (deep_zero u)). rewrite X in EL. exact EL. }
    destruct b; [|exact (G _ EX)]. destruct (Nat.leb _ _); [injection EX as <- _; left; exact Logic.I|exact (G _ EX)].
Qed.

Lemma scan_body b : forall n s n' s' l, flow b n s n' s' -> scan_to is_end_def (b ++ I_END_DEF :: l) = length b.
Proof.
  induction b as [|i b IH]; intros n s n' s' l F; cbn [app scan_to length]; [reflexivity|]. inversion F; subst.
  assert (is_end_def i = false) as -> by (destruct i; try reflexivity; discriminate). f_equal. eapply IH. eassumption.
Qed.
Lemma copied pc id p b l t : skipn pc stored = I_DEF id 1 :: I_PARAM p :: b ++ I_END_DEF :: l -> flow b 0 0 (rn t) (rs t) -> def_shape t (bc_inst (bcode_copy_def bc pc)).
Proof.
  intros SK F. exists id, p, b. split; [|exact F]. rewrite copy_def_inst, SK. cbn [scan_to is_end_def]. rewrite (scan_body _ _ _ _ _ l F). cbn [firstn app].
  rewrite firstn_app, Nat.sub_diag, firstn_all. cbn [firstn]. rewrite app_nil_r. reflexivity.
Qed.
Lemma line_def v id p b l t : safe v -> cs_code (v_cs v) = Some r -> skipn (cs_pc (v_cs v)) stored = I_DEF id 1 :: I_PARAM p :: b ++ I_END_DEF :: l ->
  flow b 0 0 (rn t) (rs t) -> sg_kind g id KDef t -> tail l 0 0 false -> goes (execute E v).
Proof.
  intros S CS SK FL SG T. pose proof (bc_here v S) as CB. pose proof (safe_framed v S) as F.
  assert (C : current v = Some (I_DEF id 1)).
  { unfold current, cur_bcode. rewrite CS, CB. rewrite <- (Nat.add_0_r (cs_pc (v_cs v))), <- nth_skip, SK. reflexivity. }
  destruct (execute E v) as [[[]|e| |] w] eqn:EX; cbn [goes]; try exact Logic.I.
  - pose proof (typed_execute g E v (sf_typed _ S)) as TY. pose proof (vo_execute E v EO (sf_values _ S)) as VO. rewrite EX in TY, VO. cbn [snd] in TY, VO.
    assert (ST : v_stored w = v_stored v) by (pose proof (execute_keeps v_stored E v _ C (fun _ _ => eq_refl) (exec_keeps_stored E _)) as K; rewrite EX in K; exact K).
    assert (SI : v_imm w = v_imm v) by (pose proof (execute_keeps v_imm E v _ C (fun _ _ => eq_refl) (exec_keeps_imm E _)) as K; rewrite EX in K; exact K).
    destruct (exec_ok _ _ _ _ C EX) as (b' & w1 & X & W). cbn [exec_instr] in X. apply adv_ok in X as [-> X].
    unfold exec_def in X. apply bind_ok in X as (sy & v1 & X1 & X). apply get_sym_ok in X1 as [-> SY]. apply bind_ok in X as (u1 & v1 & X1 & X).
    unfold assert in X1. destruct (skind_eqb _ _) eqn:KD; [|discriminate X1]. injection X1 as _ <-.
    apply bind_ok in X as (d0 & v1 & X1 & X). apply some_ok in X1 as [-> VD]. apply bind_ok in X as (u2 & v2 & X2 & X).
    assert (Y : v_cs v2 = v_cs v /\ v_ret v2 = v_ret v /\ v_for v2 = v_for v /\ code_of v2 r = code_of v r /\ defs_good v2).
    { destruct d0.
      - apply bind_ok in X2 as (u3 & v3 & X3 & X2). unfold assert in X3. destruct (s_defined sy); [|discriminate X3]. injection X3 as _ <-. pose proof (put_sym_ok _ _ _ _ _ X2) as (P1 & P2 & P3 & _). assert (P4 : code_of v2 r = code_of v r) by (apply modify_ok in X2 as ->; reflexivity).
        repeat (split; [assumption|]). assert (I : inv defs_good (put_sym id (undefine sy))) by (apply defs_put; exact Logic.I). specialize (I v (sf_defs _ S)). rewrite X2 in I. exact I.
      - injection X2 as _ <-. repeat (split; [reflexivity|]). exact (sf_defs _ S). }
    destruct Y as (Y1 & Y2 & Y3 & Y4 & Y5). destruct (negb (1 =? 1)%N); [discriminate X|].
    apply bind_ok in X as (bc' & v3 & X3 & X). unfold get_bcode, cur_bcode in X3. rewrite Y1, CS, Y4, CB in X3. injection X3 as <- <-.
    apply bind_ok in X as (v3 & u3 & X3 & X). injection X3 as <- <-. cbv zeta in X. apply bind_ok in X as (u4 & v4 & X4 & X). rewrite Y1 in X4, X.
    pose proof (put_sym_ok _ _ _ _ _ X4) as (P1 & P2 & P3 & P4). apply modify_ok in X as ->.
    assert (TT : s_type sy = t).
    { destruct SG as (nm & i0 & SG). rewrite <- (ty_sigs _ _ (sf_typed _ S)) in SG. unfold sigs, symbol_at in *. rewrite nth_error_map, SY in SG. injection SG as _ _ _ <-. reflexivity. }
    match type of X4 with put_sym id ?x v2 = _ => assert (I : inv defs_good (put_sym id x)) by (apply defs_put; unfold def_good, define, set_defined, set_val; cbn [s_val s_type def_bcode]; rewrite TT; exact (copied _ _ _ _ _ _ SK FL)) end.
    specialize (I v2 Y5). rewrite X4 in I. cbn [snd] in I. clear X4.
    assert (FR : framed w) by (subst w; unfold framed; cbn [v_ret v_for set_pc set_cs]; rewrite P2, P3, Y2, Y3; exact F).
    constructor; try assumption; try apply FR.
    + intros r' b1 A'. rewrite (codes_kept v w r' ST SI (proj1 A')). exact (sf_code _ S r' b1 A').
    + rewrite ST. exact (sf_index _ S).
    + subst w. exact I.
    + apply lands_here. subst w. apply ready_lands; cbn [v_cs set_pc set_cs cs_code cs_pc]; [rewrite P1, Y1; exact CS|].
      replace (Datatypes.S (Datatypes.S (cs_pc (v_cs v)) + scan_to is_end_def (skipn (Datatypes.S (cs_pc (v_cs v))) stored))) with (cs_pc (v_cs v) + (2 + scan_to is_end_def (skipn (Datatypes.S (cs_pc (v_cs v))) stored))) by lia.
      assert (SK1 : skipn (Datatypes.S (cs_pc (v_cs v))) stored = I_PARAM p :: b ++ I_END_DEF :: l) by (replace (Datatypes.S (cs_pc (v_cs v))) with (cs_pc (v_cs v) + 1) by lia; rewrite <- skipn_plus, SK; reflexivity).
      rewrite SK1. cbn [scan_to is_end_def]. rewrite (scan_body _ _ _ _ _ l FL), <- skipn_plus, SK. cbn [Nat.add skipn].
      change (tail (skipn (Datatypes.S (length b)) (b ++ I_END_DEF :: l)) 0 0 false). rewrite skipn_app, skipn_all2 by lia. replace (Datatypes.S (length b) - length b) with 1 by lia. exact T.
  - rewrite (execute_eq E v _ C) in EX. cbn [exec_instr] in EX. exfalso. unfold adv in EX. unfold exec_def in EX.
    assert (NF : forall m : M unit, (forall u e', fst (m u) <> Fail e') -> finish ((m ;;; ret true) v) <> (Fail e, w)).
    { intros m H Q. specialize (H v). unfold bind in Q. destruct (m v) as [[[]|e'| |] u]; try discriminate Q. exact (H e' eq_refl). }
    eapply NF; [|exact EX]. clear. intros u e'. unfold bind at 1, get_sym. destruct (symbol_at _ _) as [sy|]; [|discriminate]. unfold bind at 1, assert at 1. destruct (skind_eqb _ _); [|discriminate]. unfold ret at 1.
    unfold bind at 1. destruct (val_def _) as [d0|]; cbn [some_or_crash]; [|discriminate]. unfold ret at 1. unfold bind at 1.
    assert (Y : forall v1 e1 w1, (match d0 with Some _ => assert (s_defined sy) ;;; put_sym id (undefine sy) | None => ret tt end) v1 <> (Fail e1, w1)).
    { intros v1 e1 w1. destruct d0; [|discriminate]. unfold bind, assert. destruct (s_defined sy); discriminate. }
    specialize (Y u). destruct (match d0 with Some _ => assert (s_defined sy) ;;; put_sym id (undefine sy) | None => ret tt end u) as [[u1|e1| |] v1]; try discriminate; [|destruct (Y e1 v1 eq_refl)].
    change (negb (1 =? 1)%N) with false. cbv iota. unfold bind at 1, get_bcode. destruct (cur_bcode v1) as [b1|]; [|discriminate]. unfold bind at 1, get at 1. cbv zeta. unfold bind, put_sym, modify. discriminate.
Qed.

(* ---------- every step ---------- *)

Lemma line_step v i n s a : safe v -> cs_code (v_cs v) = Some r -> current v = Some i -> deep n s v -> tail (skipn (cs_pc (v_cs v)) stored) n s a ->
  (a = true -> asked v r) -> goes (execute E v).
Proof.
  intros S CS C D T A. pose proof (bc_here v S) as CB.
  assert (N : nth_error stored (cs_pc (v_cs v)) = Some i) by (unfold current, cur_bcode in C; rewrite CS, CB in C; exact C).
  pose proof (skipn_at _ _ _ N) as SK. rewrite SK in T. remember (i :: skipn (Datatypes.S (cs_pc (v_cs v))) stored) as l eqn:L.
  destruct T as [n s a|j l n s a p q c d H P WL LE1 LE2 T|j l n s a k H K T|t l n s a T|l n s T|id k l n s K T|b lines l n s a N1 LL T|id p b l n s a t FL SG T].
  - discriminate L.
  - injection L as -> ->. destruct (parens i) eqn:PA.
    + rewrite (paren_effect i PA) in H. injection H as <- <- <- <-. eapply line_paren; [exact S|exact CS|exact C|exact D|exact PA|exact LE1| | |exact A].
      * assert (NE : skipn (Datatypes.S (cs_pc (v_cs v))) stored <> []) by exact (P eq_refl). destruct (Nat.lt_ge_cases (Datatypes.S (cs_pc (v_cs v))) (length stored)) as [LT|GE]; [exact LT|]. destruct (NE (skipn_all2 _ GE)).
      * rewrite Nat.sub_0_r in T. exact T.
    + eapply line_plain; eassumption.
  - injection L as -> ->. destruct (is_stop i) eqn:ST.
    + destruct i; try discriminate ST. assert (EX : execute E v = (Ok tt, set_stopped true v)) by (rewrite (execute_eq E v _ C); reflexivity). rewrite EX. cbn [goes].
      eapply step_safe; [exact S|exact C|discriminate|exact EX|exact (safe_framed v S)|exact (sf_here _ S)].
    + destruct (execute E v) as [[[]|e| |] w] eqn:EX; cbn [goes]; try exact Logic.I.
      * destruct (leap_ok _ _ _ _ _ S CS C H ST T EX) as [F1 F2]. eapply step_safe; [exact S|exact C|exact (leap_not_def _ _ H)|exact EX|exact F1|exact (lands_here _ F2)].
      * eapply fail_proper; [exact C|exact (eff_leap _ _ H)| |exact EX]. destruct D as [D1 D2]. split; lia.
  - injection L as <- ->. eapply line_buf; eassumption.
  - injection L as <- ->. exact (line_asks v _ 0 n s S CS C D eq_refl (Nat.le_0_l _) T (A eq_refl)).
  - injection L as <- ->. exact (line_asks v _ _ n s S CS C D eq_refl K T (A eq_refl)).
  - injection L as <- EQ. eapply line_on; eassumption.
  - injection L as <- EQ. eapply line_def; eassumption.
Qed.

End Here.

Lemma body_step v i : safe v -> in_body v -> current v = Some i -> goes (execute E v).
Proof.
  intros S IB C. destruct IB as (CS & r & FN & bc' & b & t & n0 & s0 & n & s & DB & SK & FL & D & IL).
  assert (N : nth_error (bc_inst bc') (cs_pc (v_cs v)) = Some i) by (unfold current, cur_bcode in C; rewrite CS in C; cbn [code_of] in C; rewrite DB in C; exact C).
  assert (IB : in_body v) by (split; [exact CS|]; exists r; split; [exact FN|]; exists bc', b, t, n0, s0, n, s; auto).
  pose proof (skipn_at _ _ _ N) as SK'. rewrite SK in SK'. destruct b as [|j b]; cbn [app] in SK'; injection SK' as EQ SK'.
  - subst i. inversion FL; subst.
    destruct (execute E v) as [[[]|e| |] w] eqn:EX; cbn [goes]; try exact Logic.I.
    + destruct (exec_ok _ _ _ _ C EX) as (b' & w1 & X & W). cbn [exec_instr] in X. apply adv_ok in X as [-> X].
      unfold end_def in X. apply bind_ok in X as (v0 & u0 & X0 & X). injection X0 as <- <-. rewrite FN in X. cbv zeta in X.
      apply bind_ok in X as (u1 & v1 & X1 & X). apply modify_ok in X1 as ->. apply bind_ok in X as (u2 & v2 & X2 & X). apply modify_ok in X2 as ->.
      apply bind_ok in X as (ps & v3 & X3 & X). apply get_sym_ok in X3 as [-> PS]. apply modify_ok in X. subst w1.
      eapply step_safe; [exact S|exact C|discriminate|exact EX|subst w; exact (safe_framed v S)|]. subst w. left. exists r. split; [exact FN|].
      exists (rn t + n0), (rs t + s0). split; [|exact IL]. destruct D as [D1 D2]. split; cbn [v_stack v_sstack set_pc set_cs set_st set_fn]; lia.
    + rewrite (execute_eq E v _ C) in EX. cbn [exec_instr] in EX. exfalso. unfold adv, end_def in EX. unfold bind at 1 2, get at 1 in EX. rewrite FN in EX. cbv zeta in EX.
      unfold bind, modify, get_sym in EX. cbn [v_st set_fn set_cs] in EX. destruct (symbol_at _ _); discriminate EX.
  - subst j. inversion FL as [|j b' ? ? ? ? p q c d H WL LE1 LE2 FL']; subst. destruct (parens i) eqn:PA.
    + rewrite (paren_effect i PA) in H. injection H as <- <- <- <-. pose proof (effect_not_def _ _ (paren_effect i PA)) as ND. destruct (paren_exec i v PA) as [X|(sy & SY & TY & X)].
      { rewrite (execute_eq E v i C), X. exact Logic.I. }
      destruct (skind_eqb (s_kind sy) KArray).
      * pose proof (eff_element i (n - N.to_nat (paren_count i)) s PA n0 s0 v) as Y. replace (N.to_nat (paren_count i) + (n - N.to_nat (paren_count i))) with n in Y by lia. specialize (Y D).
        pose proof (control_element i PA v) as K. rewrite <- X in Y, K. destruct (execute E v) as [[[]|e| |] w] eqn:EX; cbn [goes]; try exact Logic.I.
        -- destruct (exec_ok _ _ _ _ C EX) as (b' & w1 & X1 & W). rewrite X1 in Y, K. destruct Y as [<- Y]. cbn [snd] in K. unfold control in K. injection K as K1 K2 K3 K4 K5 K6 K7 K8. subst w.
           eapply step_safe; [exact S|exact C|exact ND|exact EX|unfold framed; cbn [v_ret v_for set_pc set_cs]; rewrite K2, K3; exact (safe_framed v S)|].
           right. unfold in_body. cbn [v_cs v_fn v_def set_pc set_cs cs_code cs_pc]. rewrite K1, K4, K7. split; [exact CS|]. exists r. split; [exact FN|]. eexists bc', b, t, n0, s0, _, _. split; [exact DB|]. split; [symmetry; exact SK'|]. split; [exact FL'|].
           split; [rewrite Nat.sub_0_r; exact Y|]. destruct IL as (b1 & a & IL0 & IL1 & IL2). exists b1, a. split; [exact IL0|]. split; [exact IL1|]. intros HA. exact (asked_step _ _ _ EX K8 (IL2 HA)).
        -- rewrite (execute_eq E v i C) in EX. destruct (exec_instr E i v) as [[[]|e'| |] w1]; try discriminate EX. cbn [finish] in EX. injection EX as <- _. exact Y.
      * destruct (execute E v) as [[[]|e| |] w] eqn:EX; cbn [goes]; try exact Logic.I.
        -- exfalso. destruct (exec_ok _ _ _ _ C EX) as (b' & w1 & X1 & W). rewrite X in X1. apply adv_ok in X1 as [-> X1].
           unfold call_def in X1. apply bind_ok in X1 as (s1 & v1 & Z & X1). apply get_sym_ok in Z as [-> _]. apply bind_ok in X1 as (u1 & v1 & Z & X1). unfold assert in Z. destruct (skind_eqb _ _); [|discriminate Z]. injection Z as _ <-.
           destruct (negb _); [discriminate X1|]. apply bind_ok in X1 as (d0 & v1 & Z & X1). apply some_ok in Z as [-> _]. apply bind_ok in X1 as (d & v1 & Z & X1). apply some_ok in Z as [-> _].
           apply bind_ok in X1 as (v2 & v1 & Z & X1). injection Z as <- <-. rewrite FN in X1. discriminate X1.
        -- rewrite (execute_eq E v i C), X in EX. unfold adv, bind in EX. destruct (call_def _ _ _) as [[[]|e'| |] w1] eqn:CD; try discriminate EX. cbn [finish] in EX. injection EX as <- _.
           destruct IL as (b1 & a1 & AC1 & _). exact (call_fail r b1 AC1 _ _ _ _ _ S (or_introl IB) CD).
    + pose proof (plain_step v i p q c d n s C H PA LE1 LE2 n0 s0 D) as X.
      destruct (execute E v) as [[[]|e| |] w] eqn:EX; cbn [goes]; try exact X. destruct X as [X D'].
      eapply step_safe; [exact S|exact C|exact (effect_not_def _ _ H)|exact EX|eapply control_framed; [exact X|exact (safe_framed v S)]|].
      unfold control in X. injection X as X1 X2 X3 X4 X5 X6 X7 X8. right. unfold in_body. rewrite X1, X4, X7. cbn [v_cs set_pc set_cs cs_code cs_pc]. split; [exact CS|]. exists r. split; [exact FN|].
      eexists bc', b, t, n0, s0, _, _. split; [exact DB|]. split; [symmetry; exact SK'|]. split; [exact FL'|]. split; [exact D'|]. destruct IL as (b1 & a & IL0 & IL1 & IL2). exists b1, a. split; [exact IL0|]. split; [exact IL1|]. intros HA. exact (asked_step _ _ _ EX X8 (IL2 HA)).
Qed.
Lemma safe_step v : safe v -> goes (execute E v).
Proof.
  intros S. destruct (current v) as [i|] eqn:C; [|rewrite (execute_none E v C); exact Logic.I].
  destruct (sf_here _ S) as [(r & CS & n & s & D & b & a & AC & T & A)|IB]; [exact (line_step r b AC v i n s a S CS C D T A)|exact (body_step v i S IB C)].
Qed.
Lemma safe_stopped b v : safe v -> safe (set_stopped b v).
Proof.
  intros S. assert (I : inv (fun w => typed g w) (modify (set_stopped b))) by (apply typed_keeps; repeat keeps_more). specialize (I v (sf_typed _ S)).
  destruct S as [S1 [V1 V2 V3 V4 V5 V6 V7] S2 S3 S4 S5 S6 S7]. constructor; try assumption. constructor; assumption.
Qed.
Lemma safe_loop fuel : forall brk v, safe v -> match run_loop E fuel brk v with (Ok _, _, w) => safe w | (Fail e, _, _) => proper e | _ => True end.
Proof.
  induction fuel as [|f IH]; intros brk v S; cbn [run_loop]; (destruct (cur_bcode v) as [b|]; [|exact Logic.I]); (destruct (_ && _); [|exact S]); [exact Logic.I|].
  pose proof (safe_step v S) as G. destruct (execute E v) as [[[]|e| |] w]; try exact G; try exact Logic.I. apply IH. exact G.
Qed.
Lemma safe_run fuel brk v : safe v -> match fst (run E fuel brk v) with Fail e => proper e | _ => True end.
Proof.
  intros S. unfold run. destruct (cs_code (v_cs v)); [|exact Logic.I]. pose proof (safe_loop fuel brk _ (safe_stopped false v S)) as L.
  destruct (run_loop E fuel brk (set_stopped false v)) as [[[[]|e| |] brk'] w]; try exact Logic.I; destruct (run_report brk' w) as [[[]|e'| |] w'] eqn:R; try exact Logic.I; try exact L;
    exfalso; unfold run_report, put, modify in R; destruct (interrupted brk'); try discriminate R; destruct (v_stopped w); try discriminate R; destruct (cs_code (v_cs w)); discriminate R.
Qed.
End Run.
