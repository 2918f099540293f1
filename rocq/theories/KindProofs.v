(* The symbol table in any execution, whatever the code: names and kinds stay,
   values have the kind of their symbol, built-in symbols stay as they are. *)
From Coq Require Import Lia ZifyBool ZifyNat ZifyN.
From Verif Require Import Base BaseLemmas Num SourceModel LineMapModel ArrayModel BcodeModel SymbolModel SymbolSpec
  VmModel VmLemmas VmSpec ControlProofs VmTyping.

(* ---------- invariants of what does not crash ---------- *)

Definition after {A} (P : vm -> Prop) (r : res A * vm) : Prop :=
  match fst r with Crash => True | _ => P (snd r) end.
Definition safe {A} (P : vm -> Prop) (m : M A) : Prop := forall v, P v -> after P (m v).

Lemma safe_inv {A} P (m : M A) : inv P m -> safe P m.
Proof. intros H v V. specialize (H v V). unfold after. destruct (fst (m v)); auto. Qed.
Lemma safe_ret {A} P (a : A) : safe P (ret a).
Proof. intros v H. exact H. Qed.
Lemma safe_crash {A} P : safe P (@crash A).
Proof. intros v H. exact I. Qed.
Lemma safe_get P : safe P get.
Proof. intros v H. exact H. Qed.
Lemma after_bind {A B} (P : vm -> Prop) (m : M A) (k : A -> M B) v :
  after P (m v) -> (forall a w, m v = (Ok a, w) -> after P (m v) -> after P (k a w)) -> after P (bind m k v).
Proof.
  intros Hm Hk. unfold bind. destruct (m v) as [[a|e| |] w] eqn:E; try exact Hm. apply (Hk a w eq_refl Hm).
Qed.
Lemma safe_bind {A B} P (m : M A) (f : A -> M B) : safe P m -> (forall a, safe P (f a)) -> safe P (bind m f).
Proof. intros Hm Hf v V. apply after_bind; [apply Hm, V|]. intros a w E X. apply Hf. rewrite E in X. exact X. Qed.
Lemma safe_assert P b : safe P (assert b).
Proof. unfold assert. destruct b; [apply safe_ret|apply safe_crash]. Qed.
Lemma safe_some {A} P (o : option A) : safe P (some_or_crash o).
Proof. unfold some_or_crash. destruct o; [apply safe_ret|apply safe_crash]. Qed.

Lemma safe_execute (P : vm -> Prop) E v : (forall n w, P w -> P (set_pc n w)) ->
  (forall i, current v = Some i -> after P (exec_instr E i v)) -> P v -> after P (execute E v).
Proof.
  intros Hp Hi Hv. destruct (current v) as [i|] eqn:C.
  - rewrite (execute_eq E v i C). specialize (Hi i eq_refl). unfold after in *.
    destruct (exec_instr E i v) as [[[]|e| |] w]; cbn [finish fst snd] in *; auto.
  - rewrite (execute_none E v C). exact I.
Qed.

Lemma safe_run_loop (P : vm -> Prop) E : (forall v, P v -> after P (execute E v)) ->
  forall fuel brk v, P v -> let '(r, _, w) := run_loop E fuel brk v in r = Crash \/ P w.
Proof.
  intros H fuel. induction fuel as [|f IH]; intros brk v Hv; cbn [run_loop];
    (destruct (cur_bcode v) as [bc|]; [|left; reflexivity]); destruct (_ && _); auto.
  specialize (H v Hv). unfold after in H. destruct (execute E v) as [[u|e| |] w]; cbn [fst snd] in *; auto.
  apply IH. exact H.
Qed.

Lemma safe_run (P : vm -> Prop) E :
  (forall v, P v -> after P (execute E v)) ->
  (forall b v, P v -> P (set_stopped b v)) ->
  (forall c v, P v -> (c = v_cs v /\ cs_code c = Some CStored \/ c = clear_cs) -> P (set_stopcs c v)) ->
  (forall o c v, P v -> P (set_outcol o c v)) ->
  forall fuel brk, safe P (run E fuel brk).
Proof.
  intros He Hs Hc Ho fuel brk v Hv. unfold run. destruct (cs_code (v_cs v)); [|exact I].
  pose proof (safe_run_loop P E He fuel brk _ (Hs false v Hv)) as HL.
  destruct (run_loop E fuel brk (set_stopped false v)) as [[r b] w].
  assert (HF : forall x : vm, P x -> P (run_stop_state b x)).
  { intros x Hx. unfold run_stop_state. destruct (cs_code (v_cs x)) as [[]|] eqn:CS; auto.
    destruct (_ || _); apply Hc; auto. }
  assert (HR : P w -> after P (run_report b w)).
  { intros W. unfold run_report. destruct (interrupted b); [apply Ho, W|]. destruct (v_stopped w); [|exact W].
    destruct (cs_code (v_cs w)); [apply Ho, W|exact I]. }
  destruct r; try (destruct HL as [X | HL]; [discriminate X|]); try exact I; try exact HL.
  all: specialize (HR HL); destruct (run_report b w) as [[u'|e'| |] w']; try exact I; unfold after in *; cbn [fst snd] in *; auto.
Qed.

(* ---------- symbols ---------- *)

(* instructions that a function body may have *)
Definition inner (i : instr) : bool :=
  match i with
  | I_FOR _ | I_NEXT_VAR _ | I_NEXT_IMP | I_GOTO _ | I_GOTRUE _ | I_GOSUB _ | I_RETURN | I_ON_GOTO _ | I_ON_GOSUB _
  | I_DEF _ _ | I_PARAM _ | I_END_DEF => false
  | _ => true
  end.
Definition body_ok (l : list instr) : Prop := Forall (fun i => inner i = true) l.

(* every DEF is followed by its parameter and a body *)
Definition def_ok (l : list instr) : Prop :=
  forall pc id n, nth_error l pc = Some (I_DEF id n) ->
    exists pid body rest, skipn (S pc) l = I_PARAM pid :: body ++ I_END_DEF :: rest /\ body_ok body.
(* the copy that is kept of it *)
Definition def_code (l : list instr) (pid : symid) : Prop :=
  exists id n body, l = I_DEF id n :: I_PARAM pid :: body ++ [I_END_DEF] /\ body_ok body.

(* the value is one for the kind and type *)
Definition wfits (s : symbol) : Prop :=
  match s_kind s, s_type s with
  | KVariable, TNum => match s_val s with VZero | VNum _ => True | _ => False end
  | KVariable, TStr => match s_val s with VZero => True | VStr _ => s_defined s = true | _ => False end
  | KArray, TNum => match s_val s with VZero => s_defined s = false | VNumArr _ => s_defined s = true | _ => False end
  | KArray, TStr => match s_val s with VZero => s_defined s = false | VStrArr _ => s_defined s = true | _ => False end
  | KDef, _ => match s_val s with
               | VZero => s_defined s = false
               | VDef d => s_defined s = true /\ exists pid, def_code (bc_inst (def_bcode d)) pid
               | _ => False
               end
  | KBuiltin, _ => match s_val s with VBuiltin _ _ => s_defined s = true | _ => False end
  | _, _ => s_val s = VZero /\ s_defined s = false
  end.

Record kinded (st0 : symtab) (v : vm) : Prop := {
  kn_changes : changes st0 (v_st v);
  kn_sigs : sigs (v_st v) = sigs st0;
  kn_fits : Forall wfits (st_syms (v_st v));
  kn_for : Forall (fun f => sg_kind (sigs st0) (f_sym f) KVariable TNum) (v_for v);
  kn_fn : cs_code (fn_cs (v_fn v)) <> None -> sg_kind (sigs st0) (fn_param (v_fn v)) KVariable TNum;
  kn_code : forall r bc, c_bcode (code_of v r) = Some bc -> def_ok (bc_inst bc)
}.

Lemma body_scan body rest : body_ok body -> scan_to is_end_def (body ++ I_END_DEF :: rest) = length body.
Proof.
  induction 1 as [|i l A B IH]; [reflexivity|]. cbn [app scan_to length]. rewrite IH. destruct i; try reflexivity; discriminate A.
Qed.
Lemma def_code_ok l pid : def_code l pid -> def_ok l.
Proof.
  intros (id & n & body & -> & B) pc id' n' E. destruct pc as [|[|pc]]; cbn [nth_error] in E.
  - exists pid, body, []. auto.
  - discriminate E.
  - exfalso. destruct (Nat.lt_ge_cases pc (length body)) as [L|L].
    + rewrite nth_error_app1 in E by exact L. pose proof (Forall_nth _ _ _ _ B E) as X. discriminate X.
    + rewrite nth_error_app2 in E by exact L. destruct (pc - length body) as [|[|q]]; discriminate E.
Qed.
Lemma skipn_cons_nth {A} (l : list A) p x : nth_error l p = Some x -> skipn p l = x :: skipn (S p) l.
Proof. revert l; induction p as [|p IH]; intros [|a l] H; try discriminate H; [injection H as ->; reflexivity|]. apply (IH l H). Qed.
Lemma copy_def_params bc pc id n : def_ok (bc_inst bc) -> nth_error (bc_inst bc) pc = Some (I_DEF id n) ->
  exists pid, def_code (bc_inst (bcode_copy_def bc pc)) pid.
Proof.
  intros D H. destruct (D pc id n H) as (pid & body & rest & E & B). exists pid, id, n, body. split; [|exact B].
  rewrite copy_def_inst. rewrite (skipn_cons_nth _ _ _ H), E. cbn [scan_to is_end_def].
  rewrite (body_scan _ _ B). cbn [firstn app]. rewrite firstn_app, firstn_all2 by lia. replace (length body - length body) with 0 by lia.
  cbn [firstn]. rewrite app_nil_r. reflexivity.
Qed.

Section Kinded.
Variable st0 : symtab.
Let g : list sig := sigs st0.

Lemma kd_put_sym id s : nth_error g (N.to_nat id) = Some (sig_of s) -> s_kind s <> KBuiltin -> wfits s -> safe (kinded st0) (put_sym id s).
Proof.
  intros N B F v [X S A L P C]. unfold put_sym, modify, after. cbn [fst snd].
  assert (exists s0, nth_error (st_syms (v_st v)) (N.to_nat id) = Some s0 /\ sig_of s0 = sig_of s) as (s0 & E0 & G0).
  { unfold g in N. rewrite <- S in N. unfold sigs in N. rewrite nth_error_map in N.
    destruct (nth_error (st_syms (v_st v)) (N.to_nat id)) as [s0|]; cbn [option_map] in N; [|discriminate N]. exists s0. split; congruence. }
  assert (S0 : s = set_defined (set_val s0 (s_val s)) (s_defined s)).
  { destruct s, s0. unfold sig_of in G0. cbn in *. injection G0 as -> -> -> ->. reflexivity. }
  constructor; try assumption; cbn [v_st set_st].
  - eapply Chs_step; [exact X|]. rewrite S0 at 1. apply Ch_value; [exact E0|]. unfold sig_of in G0. congruence.
  - rewrite sigs_update; [exact S|]. rewrite S. exact N.
  - cbn [sym_update st_syms]. apply Forall_list_upd; assumption.
Qed.

Lemma kd_sym v id s : kinded st0 v -> symbol_at (v_st v) id = Some s -> nth_error g (N.to_nat id) = Some (sig_of s) /\ wfits s.
Proof.
  intros T E. split.
  - destruct T as [_ S _ _ _ _]. unfold symbol_at in E. unfold g. rewrite <- S. unfold sigs. rewrite nth_error_map, E. reflexivity.
  - destruct T as [_ _ A _ _ _]. eapply Forall_nth; [exact A|exact E].
Qed.
Lemma kd_get_sym {B} id (k : symbol -> M B) :
  (forall s, nth_error g (N.to_nat id) = Some (sig_of s) -> wfits s -> safe (kinded st0) (k s)) ->
  safe (kinded st0) (bind (get_sym id) k).
Proof.
  intros H v T. unfold bind, get_sym. destruct (symbol_at (v_st v) id) as [s|] eqn:E; [|exact I].
  destruct (kd_sym v id s T E). apply H; assumption.
Qed.

Lemma kd_assert {B} b (k : unit -> M B) :
  (b = true -> safe (kinded st0) (k tt)) -> safe (kinded st0) (bind (assert b) k).
Proof. intros H v T. destruct b; [apply (H eq_refl), T|exact I]. Qed.

Lemma kd_some {A B} (o : option A) (k : A -> M B) :
  (forall a, o = Some a -> safe (kinded st0) (k a)) -> safe (kinded st0) (bind (some_or_crash o) k).
Proof. intros H v T. destruct o; [apply (H _ eq_refl), T|exact I]. Qed.

Lemma kd_get {B} (k : vm -> M B) :
  (forall v, kinded st0 v -> safe (kinded st0) (k v)) -> safe (kinded st0) (bind get k).
Proof. intros H v T. apply (H v T), T. Qed.

Lemma kd_same_kind s s' id : nth_error g (N.to_nat id) = Some (sig_of s) ->
  nth_error g (N.to_nat id) = Some (sig_of s') -> s_kind s' = s_kind s /\ s_type s' = s_type s.
Proof. unfold sig_of. intros -> H. injection H as _ _ -> ->. split; reflexivity. Qed.

(* states differing only in fields the invariant does not mention *)
Lemma kd_keeps {A} (m : M A) : keeps typed_fields m -> safe (kinded st0) m.
Proof.
  intros K. apply safe_inv. intros v [X S F L P C]. specialize (K v). unfold typed_fields in K.
  injection K as K1 K2 K3 K4 K5 K6. constructor; rewrite ?K1, ?K2, ?K3; try assumption.
  intros r bc H. apply (C r bc). destruct r; cbn [code_of] in *; congruence.
Qed.
Lemma kd_keeps_set (f : vm -> vm) v : keeps typed_fields (modify f) -> kinded st0 v -> kinded st0 (f v).
Proof. intros K T. exact (kd_keeps (modify f) K v T). Qed.

Lemma kn_err {A} e : safe (kinded st0) (@run_error A e).
Proof. apply kd_keeps, keeps_run_error. reflexivity. Qed.

Ltac kinds :=
  repeat match goal with
  | H : is_kind _ _ _ = true |- _ => apply is_kind_eq in H as [? ?]
  | H : skind_eqb _ _ = true |- _ => apply skind_eq in H
  end.

Ltac fit :=
  kinds; unfold wfits, define, undefine, set_defined, set_val in *; cbn [s_kind s_type s_val s_defined] in *;
  repeat match goal with
         | H : s_kind ?s = _ |- context [s_kind ?s] => rewrite H
         | H : s_type ?s = _ |- context [s_type ?s] => rewrite H
         end;
  repeat match goal with
         | H : s_kind ?s = _, H' : context [s_kind ?s] |- _ => rewrite H in H'
         | H : s_type ?s = _, H' : context [s_type ?s] |- _ => rewrite H in H'
         end;
  auto.

Ltac kn_step :=
  match goal with
  | |- safe _ (bind (get_sym _) _) => apply kd_get_sym; intros ? ? ?
  | |- safe _ (bind (assert _) _) => apply kd_assert; intros ?
  | |- safe _ (bind (some_or_crash _) _) => apply kd_some; intros ? ?
  | |- safe _ (bind get _) => apply kd_get; intros ? ?
  | |- safe _ (put_sym _ _) => apply kd_put_sym; [first [assumption|cbv beta; cbn; assumption]|kinds; cbn [define undefine set_defined set_val s_kind]; congruence|fit]
  | |- safe _ (bind _ _) => apply safe_bind; [|intros ?]
  | |- safe _ (ret _) => apply safe_ret
  | |- safe _ crash => apply safe_crash
  | |- safe _ get => apply safe_get
  | |- safe _ (assert _) => apply safe_assert
  | |- safe _ (some_or_crash _) => apply safe_some
  | |- safe _ (if ?b then _ else _) => destruct b eqn:?
  | |- safe _ (match ?x with _ => _ end) => destruct x eqn:?
  | |- safe _ _ => solve [apply kd_keeps; repeat keeps_more]
  end; cbv beta zeta.

Lemma kn_get_numeric_simple id : safe (kinded st0) (get_numeric_simple id).
Proof. unfold get_numeric_simple. repeat kn_step. Qed.
Lemma kn_set_numeric_simple id x : safe (kinded st0) (set_numeric_simple id x).
Proof. unfold set_numeric_simple. repeat kn_step. Qed.
Lemma kn_dimension_numeric id mx : safe (kinded st0) (dimension_numeric id mx).
Proof. unfold dimension_numeric. repeat kn_step. Qed.
Lemma kn_numeric_array_at id n : safe (kinded st0) (numeric_array_at id n).
Proof.
  unfold numeric_array_at, dimension_numeric_auto. repeat first [apply kn_dimension_numeric|kn_step].
Qed.
Lemma kn_get_string_simple id : safe (kinded st0) (get_string_simple id).
Proof. unfold get_string_simple. repeat kn_step. Qed.
Lemma kn_set_string_simple id x : safe (kinded st0) (set_string_simple id x).
Proof. unfold set_string_simple. repeat kn_step. Qed.
Lemma kn_dimension_string id mx : safe (kinded st0) (dimension_string id mx).
Proof. unfold dimension_string. repeat kn_step. Qed.
Lemma kn_string_array_at id n : safe (kinded st0) (string_array_at id n).
Proof.
  unfold string_array_at, dimension_string_auto. repeat first [apply kn_dimension_string|kn_step].
Qed.

Lemma kn_set_numeric_element id n x : safe (kinded st0) (set_numeric_element id n x).
Proof.
  intros v T. apply after_bind; [apply kn_numeric_array_at, T|]. intros [ix a] w E T1. rewrite E in T1. unfold after in T1. cbn [fst snd] in T1.
  apply numeric_array_at_post in E as (s & G & V). unfold bind, get_sym. rewrite G. destruct (kd_sym w id s T1 G) as [N F].
  destruct (write_element a ix x) as [a'| |]; [|exact (kn_err _ w T1)|exact I].
  unfold wfits in F. rewrite V in F. apply kd_put_sym; [exact N| | |exact T1].
  - cbn [set_val s_kind]. intros K. rewrite K in F. destruct (s_type s); destruct F.
  - unfold wfits. cbn [set_val s_kind s_type s_val s_defined].
    destruct (s_kind s), (s_type s); try exact F; destruct F; discriminate.
Qed.
Lemma kn_set_string_element id n x : safe (kinded st0) (set_string_element id n x).
Proof.
  intros v T. apply after_bind; [apply kn_string_array_at, T|]. intros [ix a] w E T1. rewrite E in T1. unfold after in T1. cbn [fst snd] in T1.
  apply string_array_at_post in E as (s & G & V). unfold bind, get_sym. rewrite G. destruct (kd_sym w id s T1 G) as [N F].
  destruct (write_element a ix (Some x)) as [a'| |]; [|exact (kn_err _ w T1)|exact I].
  unfold wfits in F. rewrite V in F. apply kd_put_sym; [exact N| | |exact T1].
  - cbn [set_val s_kind]. intros K. rewrite K in F. destruct (s_type s); destruct F.
  - unfold wfits. cbn [set_val s_kind s_type s_val s_defined].
    destruct (s_kind s), (s_type s); try exact F; destruct F; discriminate.
Qed.
Lemma kn_set_numeric id n x : safe (kinded st0) (set_numeric id n x).
Proof. unfold set_numeric. destruct (_ =? _)%N; [apply kn_set_numeric_simple|apply kn_set_numeric_element]. Qed.
Lemma kn_set_string id n x : safe (kinded st0) (set_string id n x).
Proof. unfold set_string. destruct (_ =? _)%N; [apply kn_set_string_simple|apply kn_set_string_element]. Qed.

Lemma kn_exec_dim_num id n : safe (kinded st0) (exec_dim_num id n).
Proof. unfold exec_dim_num. repeat first [apply kn_dimension_numeric|kn_step]. Qed.
Lemma kn_exec_dim_str id n : safe (kinded st0) (exec_dim_str id n).
Proof. unfold exec_dim_str. repeat first [apply kn_dimension_string|kn_step]. Qed.
Lemma kn_set_fn f : (cs_code (fn_cs f) <> None -> sg_kind g (fn_param f) KVariable TNum) -> safe (kinded st0) (modify (set_fn f)).
Proof. intros H v [X A B C D K]. constructor; assumption. Qed.

Lemma kd_variable s id : nth_error g (N.to_nat id) = Some (sig_of s) -> sg_kind g id KVariable TNum -> s_kind s = KVariable /\ s_type s = TNum.
Proof. intros N (nm & i & K). pose proof (eq_trans (eq_sym K) N) as Q. injection Q as _ _ K1 K2. auto. Qed.
Lemma kn_next si : safe (kinded st0) (next si).
Proof.
  unfold next. apply kd_get. intros v T. apply kd_some. intros f F.
  assert (K : sg_kind g (f_sym f) KVariable TNum) by (destruct T as [_ _ _ L _ _]; exact (Forall_nth _ _ _ _ L F)).
  apply kd_get_sym. intros s N Fs. apply kd_some. intros x0 X. cbv zeta.
  apply safe_bind; [|intros _; apply kd_keeps; repeat keeps_more].
  destruct (_ || _).
  - intros w [Y A B C D E]. constructor; try assumption. cbn. apply Forall_remove_nth, C.
  - apply safe_bind; [|intros _; apply kd_keeps; repeat keeps_more].
    destruct (kd_variable s _ N K) as [K1 K2].
    apply kd_put_sym; [exact N|cbn; congruence|]. unfold wfits. cbn [set_val s_kind s_type s_val]. rewrite K1, K2. exact I.
Qed.

Lemma kn_list_for si f : sg_kind g (f_sym f) KVariable TNum -> safe (kinded st0) (modify (fun w => set_for (list_upd (v_for w) si f) w)).
Proof. intros K v [X A B C D E]. constructor; try assumption. cbn. apply Forall_list_upd; assumption. Qed.

Lemma kn_get_numeric_element id n : safe (kinded st0) (get_numeric_element id n).
Proof. unfold get_numeric_element. repeat first [apply kn_numeric_array_at|kn_step]. Qed.
Lemma kn_get_string_element id n : safe (kinded st0) (get_string_element id n).
Proof. unfold get_string_element. repeat first [apply kn_string_array_at|kn_step]. Qed.

Lemma kn_exec_for id : safe (kinded st0) (exec_for id).
Proof.
  unfold exec_for. apply safe_bind; [apply kd_keeps; repeat keeps_more|intros _].
  apply kd_get_sym. intros s N Fs. apply kd_assert. intros K. apply is_kind_eq in K as [K1 K2].
  assert (K : sg_kind g id KVariable TNum) by (eapply sg_kind_of; eassumption).
  intros v T. unfold bind at 1, get at 1.
  assert (TAIL : forall l f, Forall (fun f => sg_kind g (f_sym f) KVariable TNum) l ->
    after (kinded st0) ((let* v1 := get in
      let si := length (v_for v1) - 1 in
      let* f1 := some_or_crash (nth_error (v_for v1) si) in
      let put_for f := modify (fun w => set_for (list_upd (v_for w) si f) w) in
      put_for (mkFor (v_cs v1) id (f_step f1) (f_limit f1)) ;;;
      let* step := pop in
      put_for (mkFor (v_cs v1) id step (f_limit f1)) ;;;
      let* limit := pop in
      put_for (mkFor (v_cs v1) id step limit) ;;;
      let* x := pop in
      put_sym id (define s (VNum x)) ;;;
      trace_for (dump_for_stack (lit "final stack"))) (set_for (l ++ [f]) v))).
  { intros l f L. unfold bind at 1, get. cbv zeta. unfold bind at 1. cbn [v_for set_for]. rewrite nth_error_last.
    cbn [some_or_crash]. unfold ret at 1. unfold bind at 1, modify at 1. cbn [v_for set_for v_cs].
    rewrite list_upd_last.
    match goal with |- after _ (?m ?w) => assert (R : safe (kinded st0) m); [|apply R] end.
    - apply safe_bind; [apply kd_keeps; repeat keeps_more|intros step].
      apply safe_bind; [apply kn_list_for; exact K|intros _].
      apply safe_bind; [apply kd_keeps; repeat keeps_more|intros limit].
      apply safe_bind; [apply kn_list_for; exact K|intros _].
      apply safe_bind; [apply kd_keeps; repeat keeps_more|intros x].
      apply safe_bind; [|intros _; apply kd_keeps; repeat keeps_more].
      apply kd_put_sym; [exact N|cbn; congruence|]. unfold wfits. cbn. rewrite K1, K2. exact I.
    - destruct T as [X A B C D E]. constructor; try assumption.
      cbn [v_for set_for]. apply Forall_app. split; [exact L|]. constructor; [exact K|constructor]. }
  pose proof (kn_for _ _ T) as C. unfold bind at 1.
  destruct (find_for (v_for v) id) as [si|].
  - unfold bind at 1. destruct (nth_error (v_for v) si) as [f|]; cbn [some_or_crash]; [|exact I].
    exact (TAIL (remove_nth (v_for v) si) f (Forall_remove_nth _ _ _ C)).
  - destruct (Nat.leb MAX_FOR (length (v_for v))).
    + match goal with |- after _ match ?m v with _ => _ end => assert (R : safe (kinded st0) m) end.
      { apply kd_keeps; repeat keeps_more. }
      specialize (R v T).
      destruct ((dump_for_stack (lit "overflow");;; run_error RE_for_nested) v) as [[u|e| |] w] eqn:E; try exact R.
      apply bind_ok in E as (u0 & w0 & _ & E). discriminate E.
    + exact (TAIL (v_for v) _ C).
Qed.

Lemma kn_set_cs c : safe (kinded st0) (modify (set_cs c)).
Proof. apply kd_keeps. repeat keeps_more. Qed.

Lemma kn_call_def id n : safe (kinded st0) (call_def id n).
Proof.
  unfold call_def. apply kd_get_sym. intros s N Fs. apply kd_assert. intros K. apply skind_eq in K.
  destruct (negb _) eqn:DF; [apply kd_keeps; repeat keeps_more|].
  apply kd_some. intros d0 D0. apply kd_some. intros d D. subst d0. intros v T. unfold bind at 1, get.
  destruct (cs_code (fn_cs (v_fn v))) as [r|] eqn:FN; [exact (kn_err _ v T)|].
  destruct (negb (n =? 1)%N); [exact (kn_err _ v T)|].
  unfold bind at 1, get_bcode.
  destruct (cur_bcode v) as [bc|]; [|exact I].
  destruct (Nat.leb _ _); [exact (kn_err _ v T)|].
  assert (V : s_val s = VDef d) by (destruct (s_val s); cbn [val_def] in D0; congruence).
  unfold wfits in Fs. rewrite K, V in Fs. destruct Fs as (_ & pid & CK). assert (P : nth_error (bc_inst (def_bcode d)) 1 = Some (I_PARAM pid)) by (destruct CK as (? & ? & ? & -> & _); reflexivity). rewrite P.
  unfold bind at 1, modify at 1. unfold bind at 1, modify at 1. unfold bind at 1, modify at 1.
  match goal with |- after _ (_ ?w) => set (v1 := w) end.
  unfold bind at 1, get_sym at 1. change (v_st v1) with (v_st v).
  destruct (symbol_at (v_st v) pid) as [ps|] eqn:PS; [|exact I]. destruct (kd_sym v pid ps T PS) as [PN PF].
  unfold bind at 1, assert. destruct (is_kind KVariable TNum ps) eqn:PK; [|exact I]. apply is_kind_eq in PK as [PK1 PK2]. unfold ret at 1.
  unfold bind at 1. destruct (val_num (s_val ps)) as [x|]; cbn [some_or_crash]; [|exact I]. unfold ret at 1. unfold bind at 1, modify at 1.
  match goal with |- after _ (?m ?w) => assert (R : safe (kinded st0) m); [|apply R] end.
  - apply safe_bind; [apply kd_keeps; repeat keeps_more|intros y].
    apply safe_bind; [|intros _; apply kd_keeps; repeat keeps_more].
    apply kd_put_sym; [exact PN|cbn; congruence|].
    unfold wfits. cbn [define set_defined set_val s_kind s_type s_val]. rewrite PK1, PK2. exact I.
  - destruct T as [X A B C E F]. constructor; try assumption.
    + intros _. exact (sg_kind_of g ps pid KVariable TNum PN PK1 PK2).
    + intros [| |] b H; cbn in H.
      * exact (F CStored b H).
      * exact (F CImmediate b H).
      * injection H as <-. exact (def_code_ok _ _ CK).
Qed.

Lemma kn_end_def : safe (kinded st0) end_def.
Proof.
  unfold end_def. apply kd_get. intros v T.
  destruct (cs_code (fn_cs (v_fn v))) as [r|] eqn:E; [|apply kd_keeps; repeat keeps_more]. cbv zeta.
  assert (K : sg_kind g (fn_param (v_fn v)) KVariable TNum) by (apply (kn_fn _ _ T); congruence).
  apply safe_bind; [apply kn_set_cs|intros _].
  apply safe_bind; [apply kn_set_fn; intros _; exact K|intros _].
  apply kd_get_sym. intros s N F. destruct (kd_variable s _ N K) as [K1 K2]. apply kd_put_sym; [exact N|cbn; congruence|].
  unfold wfits. cbn [set_defined set_val s_kind s_type s_val]. rewrite K1, K2. exact I.
Qed.

Lemma kn_exec_def id n v : current v = Some (I_DEF id n) -> kinded st0 v -> after (kinded st0) (exec_def id n v).
Proof.
  intros CU T. unfold exec_def. unfold bind at 1, get_sym. destruct (symbol_at (v_st v) id) as [s|] eqn:SY; [|exact I].
  destruct (kd_sym v id s T SY) as [N F].
  unfold bind at 1, assert at 1. destruct (skind_eqb (s_kind s) KDef) eqn:K; [|exact I]. apply skind_eq in K. unfold ret at 1.
  unfold bind at 1. destruct (val_def (s_val s)) as [d0|] eqn:D0; cbn [some_or_crash]; [|exact I]. unfold ret at 1.
  unfold bind at 1.
  set (m := match d0 with Some _ => _ | None => _ end).
  assert (M1 : safe (kinded st0) m).
  { subst m. destruct d0; [|apply safe_ret]. apply safe_bind; [apply safe_assert|intros _].
    apply kd_put_sym; [exact N|cbn; congruence|]. unfold wfits, undefine. cbn. rewrite K. reflexivity. }
  assert (M2 : keeps (fun w => (v_stored w, v_imm w, v_def w, v_cs w)) m).
  { subst m. repeat keeps_more. }
  specialize (M1 v T). specialize (M2 v). destruct (m v) as [[u|e| |] v1]; unfold after in M1; cbn [fst snd] in *; try exact M1.
  injection M2 as Q1 Q2 Q3 Q4.
  destruct (negb (n =? 1)%N); [exact (kn_err _ v1 M1)|].
  unfold bind at 1, get_bcode.
  assert (CB : cur_bcode v1 = cur_bcode v).
  { unfold cur_bcode. rewrite Q4. destruct (cs_code (v_cs v)) as [[]|]; cbn [code_of]; congruence. }
  rewrite CB. unfold current in CU. destruct (cur_bcode v) as [bc|] eqn:BC; [|exact I].
  unfold bind at 1, get at 1. unfold bind at 1.
  assert (CO : def_ok (bc_inst bc)).
  { unfold cur_bcode in BC. destruct (cs_code (v_cs v)) as [r|]; [|discriminate]. exact (kn_code _ _ T r bc BC). }
  rewrite Q4. pose proof (copy_def_params bc (cs_pc (v_cs v)) id n CO CU) as C1.
  match goal with |- context [put_sym id ?x v1] => assert (R : after (kinded st0) (put_sym id x v1)) end.
  { apply kd_put_sym; [exact N|cbn; congruence| |exact M1]. unfold wfits. cbn. rewrite K. split; [reflexivity|exact C1]. }
  unfold put_sym, modify, after in *. cbn [fst snd] in *. apply kd_keeps_set; [repeat keeps_more|exact R].
Qed.

Lemma kn_clear : safe (kinded st0) (modify (fun v => set_st (clear_symbol_table_values (v_st v)) v)).
Proof.
  intros v [X A B C D E]. constructor; try assumption; cbn [snd modify v_st set_st].
  - eapply Chs_step; [exact X|apply Ch_clear].
  - rewrite <- A. unfold sigs, clear_symbol_table_values. cbn [st_syms]. rewrite map_map. apply map_ext. intros s.
    destruct (s_defined s); [|reflexivity]. unfold undefine_value. destruct (s_kind s); reflexivity.
  - unfold clear_symbol_table_values. cbn [st_syms]. apply Forall_map. eapply Forall_impl; [|exact B]. cbn beta.
    intros s F. destruct (s_defined s) eqn:DF; [|exact F]. unfold undefine_value, wfits in *.
    destruct (s_kind s) eqn:K; cbn; rewrite ?K.
    all: destruct (s_type s); try exact F; try (destruct (s_val s); try discriminate F; try destruct F; congruence); auto; split; auto; apply F.
Qed.

Lemma kd_exec E i v : current v = Some i -> kinded st0 v -> after (kinded st0) (exec_instr E i v).
Proof.
  intros CU T.
  destruct i; cbn [exec_instr];
    try (match goal with |- after _ (adv (exec_def _ _) v) => fail 1 | |- after _ (?m v) => assert (R : safe (kinded st0) m); [|exact (R v T)] end);
    try solve [apply kd_keeps; repeat keeps_more];
    try solve [unfold adv; repeat first
      [ apply kn_clear | apply kn_get_numeric_simple | apply kn_set_numeric_simple | apply kn_exec_dim_num
      | apply kn_get_numeric_element | apply kn_call_def | apply kn_set_numeric_element
      | apply kn_get_string_simple | apply kn_set_string_simple | apply kn_exec_dim_str
      | apply kn_get_string_element | apply kn_set_string_element
      | apply kn_set_numeric | apply kn_set_string | apply kn_exec_for | apply kn_next | apply kn_end_def | kn_step ]].
  - apply after_bind; [apply (kn_exec_def _ _ _ CU T)|]. intros a w E1 R. rewrite E1 in R. exact R.
  - destruct (rnd_loop _ _ _ _) as [[x k]|]; [|exact T].
    assert (R : safe (kinded st0) (adv (push x))) by (apply kd_keeps; repeat keeps_more). apply R.
    apply kd_keeps_set; [repeat keeps_more|exact T].
  - destruct (e_hms E (v_clock v)) as [[h m] s].
    match goal with |- after _ (?m _) => assert (R : safe (kinded st0) m) by (apply kd_keeps; repeat keeps_more); apply R end.
    apply kd_keeps_set; [repeat keeps_more|exact T].
Qed.

Lemma kd_set_pc n v : kinded st0 v -> kinded st0 (set_pc n v).
Proof. apply kd_keeps_set. repeat keeps_more. Qed.

Lemma kd_execute E v : kinded st0 v -> after (kinded st0) (execute E v).
Proof. intros T. apply safe_execute; [intros n w; apply kd_set_pc | intros i C; exact (kd_exec E i v C T) | exact T]. Qed.

Lemma kd_runs E v l v' : runs E v l v' -> kinded st0 v -> kinded st0 v'.
Proof.
  induction 1 as [|v v1 l v' X R IH]; intros T; [exact T|]. apply IH. pose proof (kd_execute E v T) as H. rewrite X in H. exact H.
Qed.

Lemma kd_run E fuel brk : safe (kinded st0) (run E fuel brk).
Proof.
  apply safe_run.
  - apply kd_execute.
  - intros b v. apply kd_keeps_set. repeat keeps_more.
  - intros c v T _. apply kd_keeps_set; [repeat keeps_more|exact T].
  - intros o c v. apply kd_keeps_set. repeat keeps_more.
Qed.
End Kinded.
