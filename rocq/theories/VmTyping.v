(* The symbols keep their names and kinds and hold values of their kind in
   every execution, whatever the code. *)
From Coq Require Import Lia ZifyBool ZifyNat ZifyN.
From Verif Require Import Base BaseLemmas Num SourceModel LineMapModel ArrayModel BcodeModel SymbolModel SymbolSpec
  VmModel VmLemmas VmSpec ControlProofs.

(* name, identifier, kind and type of a symbol *)
Definition sig_of (s : symbol) := (s_name s, s_id s, s_kind s, s_type s).
Definition sigs (st : symtab) := map sig_of (st_syms st).

Definition sig := (bytes * symid * skind * vtype)%type.
Definition sg_kind (g : list sig) (id : symid) (k : skind) (t : vtype) : Prop :=
  exists name i, nth_error g (N.to_nat id) = Some (name, i, k, t).

(* an instruction names symbols of the kind it works on, and at most two
   subscripts *)
Definition var_ok (g : list sig) (id : symid) (n : N) (t : vtype) : Prop :=
  (n = 0%N /\ sg_kind g id KVariable t) \/ ((1 <= n <= 2)%N /\ sg_kind g id KArray t).
Definition instr_ok (g : list sig) (i : instr) : Prop :=
  match i with
  | I_GET_SIMPLE_NUM id | I_SET_SIMPLE_NUM id | I_FOR id | I_NEXT_VAR id | I_PARAM id => sg_kind g id KVariable TNum
  | I_GET_SIMPLE_STR id | I_SET_SIMPLE_STR id => sg_kind g id KVariable TStr
  | I_DIM_NUM id n | I_SET_ARRAY_NUM id n => (1 <= n <= 2)%N /\ sg_kind g id KArray TNum
  | I_DIM_STR id n | I_SET_ARRAY_STR id n => (1 <= n <= 2)%N /\ sg_kind g id KArray TStr
  | I_GET_PAREN_NUM id n => ((1 <= n <= 2)%N /\ sg_kind g id KArray TNum) \/ sg_kind g id KDef TNum
  | I_GET_PAREN_STR id n => ((1 <= n <= 2)%N /\ sg_kind g id KArray TStr) \/ sg_kind g id KDef TStr
  | I_DEF id n => exists t, sg_kind g id KDef t
  | I_INPUT_NUM id n | I_READ_NUM id n => var_ok g id n TNum
  | I_INPUT_STR id n | I_READ_STR id n | I_INPUT_LINE id n => var_ok g id n TStr
  | _ => True
  end.

(* every instruction is correct and every DEF is followed by its parameter *)
Definition code_ok (g : list sig) (l : list instr) : Prop :=
  Forall (instr_ok g) l /\
  forall pc id n, nth_error l pc = Some (I_DEF id n) -> exists pid, nth_error l (S pc) = Some (I_PARAM pid).

(* the value is one for the kind and type *)
Definition fits (g : list sig) (s : symbol) : Prop :=
  match s_kind s, s_type s with
  | KVariable, TNum => match s_val s with VZero | VNum _ => True | _ => False end
  | KVariable, TStr => match s_val s with VZero => True | VStr _ => s_defined s = true | _ => False end
  | KArray, TNum => match s_val s with VZero => s_defined s = false | VNumArr _ => s_defined s = true | _ => False end
  | KArray, TStr => match s_val s with VZero => s_defined s = false | VStrArr _ => s_defined s = true | _ => False end
  | KDef, _ => match s_val s with
               | VZero => s_defined s = false
               | VDef d => s_defined s = true /\ code_ok g (bc_inst (def_bcode d)) /\
                           exists pid, nth_error (bc_inst (def_bcode d)) 1 = Some (I_PARAM pid)
               | _ => False
               end
  | KBuiltin, _ => match s_val s with VBuiltin _ _ => s_defined s = true | _ => False end
  | _, _ => s_val s = VZero /\ s_defined s = false
  end.

Record typed (g : list sig) (v : vm) : Prop := {
  ty_sigs : sigs (v_st v) = g;
  ty_fits : Forall (fits g) (st_syms (v_st v));
  ty_for : Forall (fun f => sg_kind g (f_sym f) KVariable TNum) (v_for v);
  ty_fn : cs_code (fn_cs (v_fn v)) <> None -> sg_kind g (fn_param (v_fn v)) KVariable TNum;
  ty_code : forall r bc, c_bcode (code_of v r) = Some bc -> code_ok g (bc_inst bc)
}.

Lemma sigs_update st p s : nth_error (sigs st) p = Some (sig_of s) -> sigs (sym_update st p s) = sigs st.
Proof.
  unfold sigs, sym_update. cbn [st_syms]. revert p. induction (st_syms st) as [|a l IH]; intros [|p] H; cbn [map list_upd nth_error] in *;
    try reflexivity; try discriminate.
  - assert (E : sig_of a = sig_of s) by congruence. rewrite E. reflexivity.
  - rewrite IH by exact H. reflexivity.
Qed.

Lemma Forall_list_upd {A} (P : A -> Prop) l i x : Forall P l -> P x -> Forall P (list_upd l i x).
Proof. intros H Hx. revert i; induction H; intros [|i]; cbn; constructor; auto. Qed.

Lemma Forall_nth {A} (P : A -> Prop) l i x : Forall P l -> nth_error l i = Some x -> P x.
Proof. intros H E. rewrite Forall_forall in H. apply H. eapply nth_error_In, E. Qed.

Section Typed.
Variable g : list sig.

Lemma typed_put_sym id s : nth_error g (N.to_nat id) = Some (sig_of s) -> fits g s -> inv (typed g) (put_sym id s).
Proof.
  intros N F v [S A L P C]. unfold put_sym, modify. cbn [snd]. constructor; try assumption.
  - cbn [v_st set_st]. rewrite sigs_update; [exact S|]. rewrite S. exact N.
  - cbn [v_st set_st sym_update st_syms]. apply Forall_list_upd; assumption.
Qed.

Lemma typed_get_sym {B} id (k : symbol -> M B) :
  (forall s, nth_error g (N.to_nat id) = Some (sig_of s) -> fits g s -> inv (typed g) (k s)) ->
  inv (typed g) (bind (get_sym id) k).
Proof.
  intros H v T. unfold bind, get_sym. destruct (symbol_at (v_st v) id) as [s|] eqn:E; [|exact T].
  apply H; [| |exact T].
  - destruct T as [S _ _ _ _]. unfold symbol_at in E. rewrite <- S. unfold sigs. rewrite nth_error_map, E. reflexivity.
  - destruct T as [_ A _ _ _]. eapply Forall_nth; [exact A|exact E].
Qed.

Lemma typed_assert {B} b (k : unit -> M B) :
  (b = true -> inv (typed g) (k tt)) -> inv (typed g) (bind (assert b) k).
Proof. intros H v T. destruct b; [apply (H eq_refl), T|exact T]. Qed.

Lemma typed_some {A B} (o : option A) (k : A -> M B) :
  (forall a, o = Some a -> inv (typed g) (k a)) -> inv (typed g) (bind (some_or_crash o) k).
Proof. intros H v T. destruct o; [apply (H _ eq_refl), T|exact T]. Qed.

Lemma typed_get {B} (k : vm -> M B) :
  (forall v, typed g v -> inv (typed g) (k v)) -> inv (typed g) (bind get k).
Proof. intros H v T. apply (H v T), T. Qed.

Lemma typed_same_kind s s' id : nth_error g (N.to_nat id) = Some (sig_of s) ->
  nth_error g (N.to_nat id) = Some (sig_of s') -> s_kind s' = s_kind s /\ s_type s' = s_type s.
Proof. unfold sig_of. intros -> H. injection H as _ _ -> ->. split; reflexivity. Qed.

(* states differing only in fields the invariant does not mention *)
Definition typed_fields (v : vm) := (v_st v, v_for v, v_fn v, (v_stored v, v_imm v, v_def v)).
Lemma typed_keeps {A} (m : M A) : keeps typed_fields m -> inv (typed g) m.
Proof.
  intros K v [S F L P C]. specialize (K v). unfold typed_fields in K.
  injection K as K1 K2 K3 K4 K5 K6. constructor; rewrite ?K1, ?K2, ?K3; try assumption.
  intros r bc H. apply (C r bc). destruct r; cbn [code_of] in *; congruence.
Qed.

Lemma ty_err {A} e : inv (typed g) (@run_error A e).
Proof. apply typed_keeps, keeps_run_error. reflexivity. Qed.

Lemma is_kind_eq k t s : is_kind k t s = true -> s_kind s = k /\ s_type s = t.
Proof.
  unfold is_kind. intros H. apply andb_prop in H as [H1 H2].
  destruct (s_kind s), k; try discriminate H1; destruct (s_type s), t; try discriminate H2; split; reflexivity.
Qed.
Lemma skind_eq a b : skind_eqb a b = true -> a = b.
Proof. destruct a, b; intros H; try discriminate H; reflexivity. Qed.

Ltac kinds :=
  repeat match goal with
  | H : is_kind _ _ _ = true |- _ => apply is_kind_eq in H as [? ?]
  | H : skind_eqb _ _ = true |- _ => apply skind_eq in H
  end.

Ltac fit :=
  kinds; unfold fits, define, undefine, set_defined, set_val in *; cbn [s_kind s_type s_val s_defined] in *;
  repeat match goal with
         | H : s_kind ?s = _ |- context [s_kind ?s] => rewrite H
         | H : s_type ?s = _ |- context [s_type ?s] => rewrite H
         end;
  repeat match goal with
         | H : s_kind ?s = _, H' : context [s_kind ?s] |- _ => rewrite H in H'
         | H : s_type ?s = _, H' : context [s_type ?s] |- _ => rewrite H in H'
         end;
  auto.

Ltac ty_step :=
  match goal with
  | |- inv _ (bind (get_sym _) _) => apply typed_get_sym; intros ? ? ?
  | |- inv _ (bind (assert _) _) => apply typed_assert; intros ?
  | |- inv _ (bind (some_or_crash _) _) => apply typed_some; intros ? ?
  | |- inv _ (bind get _) => apply typed_get; intros ? ?
  | |- inv _ (put_sym _ _) => apply typed_put_sym; [first [assumption|cbv beta; cbn; assumption]|fit]
  | |- inv _ (bind _ _) => apply inv_bind; [|intros ?]
  | |- inv _ (ret _) => apply inv_ret
  | |- inv _ crash => apply inv_crash
  | |- inv _ get => apply inv_get
  | |- inv _ (assert _) => apply inv_assert
  | |- inv _ (some_or_crash _) => apply inv_some
  | |- inv _ (if ?b then _ else _) => destruct b eqn:?
  | |- inv _ (match ?x with _ => _ end) => destruct x eqn:?
  | |- inv _ _ => solve [apply typed_keeps; repeat keeps_more]
  end; cbv beta zeta.

Lemma sig_define s v : sig_of (define s v) = sig_of s. Proof. reflexivity. Qed.

Lemma ty_get_numeric_simple id : inv (typed g) (get_numeric_simple id).
Proof. unfold get_numeric_simple. repeat ty_step. Qed.
Lemma ty_set_numeric_simple id x : inv (typed g) (set_numeric_simple id x).
Proof. unfold set_numeric_simple. repeat ty_step. Qed.
Lemma ty_dimension_numeric id mx : inv (typed g) (dimension_numeric id mx).
Proof. unfold dimension_numeric. repeat ty_step. Qed.
Lemma ty_numeric_array_at id n : inv (typed g) (numeric_array_at id n).
Proof.
  unfold numeric_array_at, dimension_numeric_auto. repeat first [apply ty_dimension_numeric|ty_step].
Qed.
Lemma ty_get_string_simple id : inv (typed g) (get_string_simple id).
Proof. unfold get_string_simple. repeat ty_step. Qed.
Lemma ty_set_string_simple id x : inv (typed g) (set_string_simple id x).
Proof. unfold set_string_simple. repeat ty_step. Qed.
Lemma ty_dimension_string id mx : inv (typed g) (dimension_string id mx).
Proof. unfold dimension_string. repeat ty_step. Qed.
Lemma ty_string_array_at id n : inv (typed g) (string_array_at id n).
Proof.
  unfold string_array_at, dimension_string_auto. repeat first [apply ty_dimension_string|ty_step].
Qed.

Lemma bind_ok {A B} (m : M A) (k : A -> M B) v b w : bind m k v = (Ok b, w) ->
  exists a v1, m v = (Ok a, v1) /\ k a v1 = (Ok b, w).
Proof. unfold bind. destruct (m v) as [[a|e| |] v1]; intros H; try discriminate H. eauto. Qed.
Lemma get_sym_ok id v s w : get_sym id v = (Ok s, w) -> w = v /\ symbol_at (v_st v) id = Some s.
Proof. unfold get_sym. destruct (symbol_at _ _); intros H; inversion H; subst; split; reflexivity. Qed.
Lemma some_ok {A} (o : option A) v a w : some_or_crash o v = (Ok a, w) -> w = v /\ o = Some a.
Proof. destruct o; intros H; inversion H; subst; split; reflexivity. Qed.

Lemma numeric_array_at_post id n v ix a w : numeric_array_at id n v = (Ok (ix, a), w) ->
  exists s, symbol_at (v_st w) id = Some s /\ s_val s = VNumArr a.
Proof.
  unfold numeric_array_at. intros H.
  apply bind_ok in H as (s0 & v0 & _ & H). apply bind_ok in H as (u & v1 & _ & H).
  apply bind_ok in H as (ixs & v2 & _ & H). apply bind_ok in H as (u' & v3 & _ & H).
  apply bind_ok in H as (s & v4 & G & H). apply get_sym_ok in G as [-> G].
  apply bind_ok in H as (o & v5 & O & H). apply some_ok in O as [-> O].
  apply bind_ok in H as (a' & v6 & O' & H). apply some_ok in O' as [-> O'].
  inversion H; subst. exists s. split; [exact G|]. destruct (s_val s); inversion O; subst; reflexivity.
Qed.
Lemma string_array_at_post id n v ix a w : string_array_at id n v = (Ok (ix, a), w) ->
  exists s, symbol_at (v_st w) id = Some s /\ s_val s = VStrArr a.
Proof.
  unfold string_array_at. intros H.
  apply bind_ok in H as (s0 & v0 & _ & H). apply bind_ok in H as (u & v1 & _ & H).
  apply bind_ok in H as (ixs & v2 & _ & H). apply bind_ok in H as (u' & v3 & _ & H).
  apply bind_ok in H as (s & v4 & G & H). apply get_sym_ok in G as [-> G].
  apply bind_ok in H as (o & v5 & O & H). apply some_ok in O as [-> O].
  apply bind_ok in H as (a' & v6 & O' & H). apply some_ok in O' as [-> O'].
  inversion H; subst. exists s. split; [exact G|]. destruct (s_val s); inversion O; subst; reflexivity.
Qed.

Lemma ty_set_numeric_element id n x : inv (typed g) (set_numeric_element id n x).
Proof.
  intros v T. unfold set_numeric_element, bind at 1. pose proof (ty_numeric_array_at id n v T) as T1.
  destruct (numeric_array_at id n v) as [[[ix a]|e| |] w] eqn:E; try exact T1. cbn [snd] in T1.
  apply numeric_array_at_post in E as (s & G & V). unfold bind, get_sym. rewrite G.
  assert (F : fits g s) by (destruct T1 as [_ A _ _ _]; eapply Forall_nth; [exact A|exact G]).
  assert (N : nth_error g (N.to_nat id) = Some (sig_of s)).
  { destruct T1 as [S _ _ _ _]. unfold symbol_at in G. rewrite <- S. unfold sigs. rewrite nth_error_map, G. reflexivity. }
  destruct (write_element a ix x) as [a'| |];
    [|exact (ty_err _ w T1)|exact T1].
  apply typed_put_sym; [exact N| |exact T1].
  unfold fits in *. cbn [set_val s_kind s_type s_val s_defined]. rewrite V in F.
  destruct (s_kind s), (s_type s); try exact F; destruct F; discriminate.
Qed.
Lemma ty_set_string_element id n x : inv (typed g) (set_string_element id n x).
Proof.
  intros v T. unfold set_string_element, bind at 1. pose proof (ty_string_array_at id n v T) as T1.
  destruct (string_array_at id n v) as [[[ix a]|e| |] w] eqn:E; try exact T1. cbn [snd] in T1.
  apply string_array_at_post in E as (s & G & V). unfold bind, get_sym. rewrite G.
  assert (F : fits g s) by (destruct T1 as [_ A _ _ _]; eapply Forall_nth; [exact A|exact G]).
  assert (N : nth_error g (N.to_nat id) = Some (sig_of s)).
  { destruct T1 as [S _ _ _ _]. unfold symbol_at in G. rewrite <- S. unfold sigs. rewrite nth_error_map, G. reflexivity. }
  destruct (write_element a ix (Some x)) as [a'| |];
    [|exact (ty_err _ w T1)|exact T1].
  apply typed_put_sym; [exact N| |exact T1].
  unfold fits in *. cbn [set_val s_kind s_type s_val s_defined]. rewrite V in F.
  destruct (s_kind s), (s_type s); try exact F; destruct F; discriminate.
Qed.
Lemma ty_set_numeric id n x : inv (typed g) (set_numeric id n x).
Proof. unfold set_numeric. destruct (_ =? _)%N; [apply ty_set_numeric_simple|apply ty_set_numeric_element]. Qed.
Lemma ty_set_string id n x : inv (typed g) (set_string id n x).
Proof. unfold set_string. destruct (_ =? _)%N; [apply ty_set_string_simple|apply ty_set_string_element]. Qed.

Lemma ty_exec_dim_num id n : inv (typed g) (exec_dim_num id n).
Proof. unfold exec_dim_num. repeat first [apply ty_dimension_numeric|ty_step]. Qed.
Lemma ty_exec_dim_str id n : inv (typed g) (exec_dim_str id n).
Proof. unfold exec_dim_str. repeat first [apply ty_dimension_string|ty_step]. Qed.
Lemma sg_kind_of s id k t : nth_error g (N.to_nat id) = Some (sig_of s) -> s_kind s = k -> s_type s = t -> sg_kind g id k t.
Proof. intros H <- <-. exists (s_name s), (s_id s). exact H. Qed.

Lemma ty_set_fn f : (cs_code (fn_cs f) <> None -> sg_kind g (fn_param f) KVariable TNum) -> inv (typed g) (modify (set_fn f)).
Proof. intros H v [A B C D K]. constructor; assumption. Qed.

Lemma Forall_remove_nth {A} (P : A -> Prop) l i : Forall P l -> Forall P (remove_nth l i).
Proof. intros H. revert i; induction H; intros [|i]; cbn; auto. Qed.

Lemma ty_next si : inv (typed g) (next si).
Proof.
  unfold next. apply typed_get. intros v T. apply typed_some. intros f F.
  assert (K : sg_kind g (f_sym f) KVariable TNum) by (destruct T as [_ _ L _ _]; exact (Forall_nth _ _ _ _ L F)).
  apply typed_get_sym. intros s N Fs. apply typed_some. intros x0 X. cbv zeta.
  apply inv_bind; [|intros _; apply typed_keeps; repeat keeps_more].
  destruct (_ || _).
  - intros w [A B C D E]. constructor; try assumption. cbn. apply Forall_remove_nth, C.
  - apply inv_bind; [|intros _; apply typed_keeps; repeat keeps_more].
    apply typed_put_sym; [exact N|].
    destruct K as (nm & i & K). rewrite K in N. injection N as -> -> K1 K2. unfold fits. cbn [set_val s_kind s_type s_val].
    rewrite <- K1, <- K2. exact I.
Qed.

Lemma ty_list_for si f : sg_kind g (f_sym f) KVariable TNum -> inv (typed g) (modify (fun w => set_for (list_upd (v_for w) si f) w)).
Proof.
  intros K v [A B C D E]. constructor; try assumption. cbn. apply Forall_list_upd; assumption.
Qed.

Lemma ty_get_numeric_element id n : inv (typed g) (get_numeric_element id n).
Proof. unfold get_numeric_element. repeat first [apply ty_numeric_array_at|ty_step]. Qed.
Lemma ty_get_string_element id n : inv (typed g) (get_string_element id n).
Proof. unfold get_string_element. repeat first [apply ty_string_array_at|ty_step]. Qed.

(* the entry pushed by FOR is completed before anything can fail, but its
   variable is set only afterwards *)
Lemma nth_error_last {A} (l : list A) x : nth_error (l ++ [x]) (length (l ++ [x]) - 1) = Some x.
Proof. rewrite app_length. cbn [length]. rewrite nth_error_app2 by lia. replace (_ - _) with 0 by lia. reflexivity. Qed.
Lemma list_upd_last {A} (l : list A) x y : list_upd (l ++ [x]) (length (l ++ [x]) - 1) y = l ++ [y].
Proof.
  rewrite app_length. cbn [length]. replace (length l + 1 - 1) with (length l) by lia.
  induction l as [|a l IH]; cbn; [reflexivity|]. rewrite IH. reflexivity.
Qed.

Lemma ty_exec_for id : inv (typed g) (exec_for id).
Proof.
  unfold exec_for. apply inv_bind; [apply typed_keeps; repeat keeps_more|intros _].
  apply typed_get_sym. intros s N Fs. apply typed_assert. intros K. apply is_kind_eq in K as [K1 K2].
  assert (K : sg_kind g id KVariable TNum) by (eapply sg_kind_of; eassumption).
  intros v T. cbn [bind get]. unfold bind at 1, get at 1.
  assert (TAIL : forall l f, Forall (fun f => sg_kind g (f_sym f) KVariable TNum) l ->
    typed g (snd ((let* v1 := get in
      let si := length (v_for v1) - 1 in
      let* f1 := some_or_crash (nth_error (v_for v1) si) in
      let put_for f := modify (fun w => set_for (list_upd (v_for w) si f) w) in
      put_for (mkFor (v_cs v1) id (f_step f1) (f_limit f1)) ;;;
      let* step := pop in
      put_for (mkFor (v_cs v1) id step (f_limit f1)) ;;;
      let* limit := pop in
      put_for (mkFor (v_cs v1) id step limit) ;;;
      let* x := pop in
      put_sym id (define s (VNum x)) ;;;
      trace_for (dump_for_stack (lit "final stack"))) (set_for (l ++ [f]) v)))).
  { intros l f L. unfold bind at 1, get. cbv zeta. unfold bind at 1. cbn [v_for set_for]. rewrite nth_error_last.
    cbn [some_or_crash]. unfold ret at 1. unfold bind at 1, modify at 1. cbn [v_for set_for v_cs].
    rewrite list_upd_last.
    match goal with |- typed g (snd (?m ?w)) => assert (R : inv (typed g) m); [|apply R] end.
    - apply inv_bind; [apply typed_keeps; repeat keeps_more|intros step].
      apply inv_bind; [apply ty_list_for; exact K|intros _].
      apply inv_bind; [apply typed_keeps; repeat keeps_more|intros limit].
      apply inv_bind; [apply ty_list_for; exact K|intros _].
      apply inv_bind; [apply typed_keeps; repeat keeps_more|intros x].
      apply inv_bind; [|intros _; apply typed_keeps; repeat keeps_more].
      apply typed_put_sym; [exact N|]. unfold fits. cbn. rewrite K1, K2. exact I.
    - destruct T as [A B C D E]. constructor; try assumption.
      cbn [v_for set_for]. apply Forall_app. split; [exact L|]. constructor; [exact K|constructor]. }
  unfold bind at 1. pose proof (ty_for _ _ T) as C.
  destruct (find_for (v_for v) id) as [si|].
  - unfold bind at 1. destruct (nth_error (v_for v) si) as [f|]; cbn [some_or_crash]; [|exact T].
    exact (TAIL (remove_nth (v_for v) si) f (Forall_remove_nth _ _ _ C)).
  - destruct (Nat.leb MAX_FOR (length (v_for v))).
    + match goal with |- typed g (snd match ?m v with _ => _ end) => assert (R : inv (typed g) m) end.
      { apply typed_keeps; repeat keeps_more. }
      specialize (R v T).
      destruct ((dump_for_stack (lit "overflow");;; run_error RE_for_nested) v) as [[u|e| |] w] eqn:E; try exact R.
      apply bind_ok in E as (u0 & w0 & _ & E). discriminate E.
    + exact (TAIL (v_for v) _ C).
Qed.


Lemma ty_set_cs c : inv (typed g) (modify (set_cs c)).
Proof. apply typed_keeps. repeat keeps_more. Qed.

Lemma ty_call_def id n : inv (typed g) (call_def id n).
Proof.
  unfold call_def. apply typed_get_sym. intros s N Fs. apply typed_assert. intros K. apply skind_eq in K.
  destruct (negb _) eqn:DF; [apply typed_keeps; repeat keeps_more|].
  apply typed_some. intros d0 D0. apply typed_some. intros d D. subst d0. intros v T. unfold bind at 1, get.
  destruct (cs_code (fn_cs (v_fn v))) as [r|] eqn:FN; [exact (ty_err _ v T)|].
  destruct (negb (n =? 1)%N); [exact (ty_err _ v T)|].
  unfold bind at 1, get_bcode.
  destruct (cur_bcode v) as [bc|]; [|exact T].
  destruct (Nat.leb _ _); [exact (ty_err _ v T)|].
  assert (V : s_val s = VDef d) by (destruct (s_val s); cbn [val_def] in D0; congruence).
  unfold fits in Fs. rewrite K, V in Fs. destruct Fs as (_ & CK & pid & P). rewrite P.
  assert (KP : sg_kind g pid KVariable TNum).
  { destruct CK as [CK _]. exact (Forall_nth _ _ _ _ CK P). }
  unfold bind at 1, modify at 1. unfold bind at 1, modify at 1. unfold bind at 1, modify at 1.
  match goal with |- typed g (snd (_ ?w)) => set (v1 := w) end.
  destruct T as [A B C E F]. unfold bind at 1, get_sym at 1. change (v_st v1) with (v_st v).
  destruct KP as (nm & i & KP).
  assert (exists ps, symbol_at (v_st v) pid = Some ps /\ sig_of ps = (nm, i, KVariable, TNum)) as (ps & PS & PG).
  { unfold symbol_at. rewrite <- A in KP. unfold sigs in KP. rewrite nth_error_map in KP.
    destruct (nth_error (st_syms (v_st v)) (N.to_nat pid)) as [ps|]; cbn [option_map] in KP; [|discriminate].
    exists ps. split; [reflexivity|congruence]. }
  assert (PF : fits g ps) by (exact (Forall_nth _ _ _ _ B PS)).
  rewrite PS. assert (PK : s_kind ps = KVariable /\ s_type ps = TNum) by (unfold sig_of in PG; split; congruence).
  destruct PK as [PK1 PK2].
  unfold bind at 1, assert. unfold is_kind. rewrite PK1, PK2. cbn [skind_eqb vtype_eqb andb]. unfold ret at 1.
  unfold fits in PF. rewrite PK1, PK2 in PF.
  assert (exists x, val_num (s_val ps) = Some x) as (x & PX).
  { destruct (s_val ps); try (now destruct PF); cbn; eauto. }
  unfold bind at 1. rewrite PX. cbn [some_or_crash]. unfold ret at 1. unfold bind at 1, modify at 1.
  match goal with |- typed g (snd (?m ?w)) => assert (R : inv (typed g) m); [|apply R] end.
  - apply inv_bind; [apply typed_keeps; repeat keeps_more|intros y].
    apply inv_bind; [|intros _; apply typed_keeps; repeat keeps_more].
    apply typed_put_sym; [unfold define, sig_of in *; cbn [set_defined set_val s_name s_id s_kind s_type]; congruence|].
    unfold fits. cbn [define set_defined set_val s_kind s_type s_val]. rewrite PK1, PK2. exact I.
  - constructor; try assumption.
    + intros _. exists nm, i. exact KP.
    + intros [| |] b H; cbn in H.
      * exact (F CStored b H).
      * exact (F CImmediate b H).
      * injection H as <-. exact CK.
Qed.

Lemma ty_end_def : inv (typed g) end_def.
Proof.
  unfold end_def. apply typed_get. intros v T.
  destruct (cs_code (fn_cs (v_fn v))) as [r|] eqn:E; [|apply typed_keeps; repeat keeps_more]. cbv zeta.
  assert (K : sg_kind g (fn_param (v_fn v)) KVariable TNum) by (apply (ty_fn _ _ T); congruence).
  apply inv_bind; [apply ty_set_cs|intros _].
  apply inv_bind; [apply ty_set_fn; intros _; exact K|intros _].
  apply typed_get_sym. intros s N F. apply typed_put_sym; [exact N|].
  destruct K as (nm & i & K). rewrite K in N. injection N as _ _ K1 K2.
  unfold fits. cbn [set_defined set_val s_kind s_type s_val]. rewrite <- K1, <- K2. exact I.
Qed.

(* what DEF copies is correct code starting with DEF and the parameter *)
Lemma scan_to_spec f l : forall p i, p < scan_to f l -> nth_error l p = Some i -> f i = false.
Proof.
  induction l as [|a l IH]; cbn [scan_to]; intros p i H E; [lia|].
  destruct (f a) eqn:A; [lia|]. destruct p as [|p]; cbn in E; [congruence|]. apply (IH p); [lia|exact E].
Qed.
Lemma scan_to_le f l : scan_to f l <= length l.
Proof. induction l as [|a l IH]; cbn; [lia|]. destruct (f a); lia. Qed.

Lemma copy_def_inst bc pc : bc_inst (bcode_copy_def bc pc) =
  firstn (scan_to is_end_def (skipn pc (bc_inst bc))) (skipn pc (bc_inst bc)) ++ [I_END_DEF].
Proof. unfold bcode_copy_def, def_end. cbn [bc_inst]. do 2 f_equal. lia. Qed.

Lemma Forall_firstn' {A} (P : A -> Prop) n l : Forall P l -> Forall P (firstn n l).
Proof. intros H. revert n; induction H; intros [|n]; cbn; auto. Qed.
Lemma Forall_skipn' {A} (P : A -> Prop) n l : Forall P l -> Forall P (skipn n l).
Proof. intros H. revert n; induction H; intros [|n]; cbn; auto. Qed.

Lemma copy_def_ok bc pc id n : code_ok g (bc_inst bc) -> nth_error (bc_inst bc) pc = Some (I_DEF id n) ->
  code_ok g (bc_inst (bcode_copy_def bc pc)) /\
  exists pid, nth_error (bc_inst (bcode_copy_def bc pc)) 1 = Some (I_PARAM pid).
Proof.
  intros [C D] H. rewrite copy_def_inst. set (l := skipn pc (bc_inst bc)). set (k := scan_to is_end_def l).
  assert (KL : k <= length l) by apply scan_to_le.
  assert (NX : forall p id' n', p < k -> nth_error l p = Some (I_DEF id' n') ->
            exists pid, nth_error l (S p) = Some (I_PARAM pid) /\ S p < k).
  { intros p id' n' P E. unfold l in E. rewrite nth_error_skipn in E. apply D in E as (pid & E).
    exists pid. replace (S (pc + p)) with (pc + S p) in E by lia. rewrite <- nth_error_skipn in E. fold l in E.
    split; [exact E|]. destruct (Nat.eq_dec (S p) k) as [X|X]; [|lia].
    exfalso. clear -X E KL. unfold k in X. revert p E X. clear KL k. induction l as [|a l IH]; intros p E X; cbn in X; [lia|].
    destruct (is_end_def a) eqn:A; [lia|]. cbn in E. destruct p as [|p].
    - destruct l as [|b l]; [discriminate|]. cbn in E. injection E as ->. cbn in X. discriminate.
    - apply (IH p E). lia. }
  assert (H0 : nth_error l 0 = Some (I_DEF id n)) by (unfold l; rewrite nth_error_skipn; replace (pc + 0) with pc by lia; exact H).
  assert (K0 : 0 < k).
  { unfold k. destruct l as [|a l']; [discriminate|]. injection H0 as ->. cbn. lia. }
  split; [split|].
  - apply Forall_app. split; [|repeat constructor]. apply Forall_firstn', Forall_skipn', C.
  - intros p id' n' E.
    assert (P : p < k).
    { destruct (Nat.lt_ge_cases p k) as [P|P]; [exact P|]. rewrite nth_error_app2 in E by (rewrite firstn_length; lia).
      destruct (p - _) as [|[|q]]; discriminate E. }
    rewrite nth_error_app1 in E by (rewrite firstn_length; lia). rewrite nth_error_firstn_lt in E by lia.
    destruct (NX p id' n' P E) as (pid & E' & P'). exists pid.
    rewrite nth_error_app1 by (rewrite firstn_length; lia). rewrite nth_error_firstn_lt by lia. exact E'.
  - destruct (NX 0 id n K0 H0) as (pid & E' & P'). exists pid.
    rewrite nth_error_app1 by (rewrite firstn_length; lia). rewrite nth_error_firstn_lt by lia. exact E'.
Qed.

Lemma ty_exec_def id n v : current v = Some (I_DEF id n) -> typed g v -> typed g (snd (exec_def id n v)).
Proof.
  intros CU T. unfold exec_def. unfold bind at 1, get_sym. destruct (symbol_at (v_st v) id) as [s|] eqn:SY; [|exact T].
  assert (F : fits g s) by (destruct T as [_ A _ _ _]; eapply Forall_nth; [exact A|exact SY]).
  assert (N : nth_error g (N.to_nat id) = Some (sig_of s)).
  { destruct T as [S _ _ _ _]. unfold symbol_at in SY. rewrite <- S. unfold sigs. rewrite nth_error_map, SY. reflexivity. }
  unfold bind at 1, assert at 1. destruct (skind_eqb (s_kind s) KDef) eqn:K; [|exact T]. apply skind_eq in K. unfold ret at 1.
  unfold bind at 1. destruct (val_def (s_val s)) as [d0|] eqn:D0; cbn [some_or_crash]; [|exact T]. unfold ret at 1.
  unfold bind at 1.
  set (m := match d0 with Some _ => _ | None => _ end).
  assert (M1 : inv (typed g) m).
  { subst m. destruct d0; [|apply inv_ret]. apply inv_bind; [apply inv_assert|intros _].
    apply typed_put_sym; [exact N|]. unfold fits, undefine. cbn. rewrite K. reflexivity. }
  assert (M2 : keeps (fun w => (v_stored w, v_imm w, v_def w, v_cs w)) m).
  { subst m. repeat keeps_more. }
  specialize (M1 v T). specialize (M2 v). destruct (m v) as [[u|e| |] v1]; cbn [snd] in *; try exact M1.
  injection M2 as Q1 Q2 Q3 Q4.
  destruct (negb (n =? 1)%N); [exact (ty_err _ v1 M1)|].
  unfold bind at 1, get_bcode.
  assert (CB : cur_bcode v1 = cur_bcode v).
  { unfold cur_bcode. rewrite Q4. destruct (cs_code (v_cs v)) as [[]|]; cbn [code_of]; congruence. }
  rewrite CB. unfold current in CU. destruct (cur_bcode v) as [bc|] eqn:BC; [|exact M1].
  unfold bind at 1, get at 1. unfold bind at 1.
  assert (CO : code_ok g (bc_inst bc)).
  { unfold cur_bcode in BC. destruct (cs_code (v_cs v)) as [r|]; [|discriminate]. exact (ty_code _ _ T r bc BC). }
  rewrite Q4. destruct (copy_def_ok bc (cs_pc (v_cs v)) id n CO CU) as (C1 & C2).
  match goal with |- context [put_sym id ?x v1] => assert (R : typed g (snd (put_sym id x v1))) end.
  { apply typed_put_sym; [exact N| |exact M1]. unfold fits. cbn. rewrite K. split; [reflexivity|]. split; assumption. }
  unfold put_sym, modify in *. cbn [snd] in *.
  match goal with |- typed g (set_pc ?p _) =>
    apply (typed_keeps (modify (set_pc p))); [repeat keeps_more|exact R] end.
Qed.

Lemma ty_clear : inv (typed g) (modify (fun v => set_st (clear_symbol_table_values (v_st v)) v)).
Proof.
  intros v [A B C D E]. constructor; try assumption; cbn [snd modify v_st set_st].
  - rewrite <- A. unfold sigs, clear_symbol_table_values. cbn [st_syms]. rewrite map_map. apply map_ext. intros s.
    destruct (s_defined s); [|reflexivity]. unfold undefine_value. destruct (s_kind s); reflexivity.
  - unfold clear_symbol_table_values. cbn [st_syms]. apply Forall_map. eapply Forall_impl; [|exact B]. cbn beta.
    intros s F. destruct (s_defined s) eqn:DF; [|exact F]. unfold undefine_value, fits in *.
    destruct (s_kind s) eqn:K; cbn; rewrite ?K.
    all: destruct (s_type s); try exact F; try (destruct (s_val s); try discriminate F; try destruct F; congruence); auto; split; auto; apply F.
Qed.

Lemma typed_exec E i v : current v = Some i -> typed g v -> typed g (snd (exec_instr E i v)).
Proof.
  intros CU T.
  destruct i; cbn [exec_instr];
    try (match goal with |- typed g (snd (adv (exec_def _ _) v)) => fail 1 | |- typed g (snd (?m v)) => assert (R : inv (typed g) m); [|exact (R v T)] end);
    try solve [apply typed_keeps; repeat keeps_more];
    try solve [unfold adv; repeat first
      [ apply ty_clear | apply ty_get_numeric_simple | apply ty_set_numeric_simple | apply ty_exec_dim_num
      | apply ty_get_numeric_element | apply ty_call_def | apply ty_set_numeric_element
      | apply ty_get_string_simple | apply ty_set_string_simple | apply ty_exec_dim_str
      | apply ty_get_string_element | apply ty_set_string_element
      | apply ty_set_numeric | apply ty_set_string | apply ty_exec_for | apply ty_next | apply ty_end_def | ty_step ]].
  - unfold adv. pose proof (ty_exec_def _ _ _ CU T) as R. unfold bind. destruct (exec_def id params v) as [[u|e| |] w]; exact R.
  - destruct (rnd_loop _ _ _ _) as [[x k]|]; [|exact T].
    assert (R : inv (typed g) (adv (push x))) by (apply typed_keeps; repeat keeps_more). apply R.
    apply (typed_keeps (modify (set_rand (v_seed v) k (v_clock v)))); [repeat keeps_more|exact T].
  - destruct (e_hms E (v_clock v)) as [[h m] s].
    match goal with |- typed g (snd (?m _)) => assert (R : inv (typed g) m) by (apply typed_keeps; repeat keeps_more); apply R end.
    apply (typed_keeps (modify (set_rand (v_seed v) (v_randk v) (S (v_clock v))))); [repeat keeps_more|exact T].
Qed.

Lemma typed_set_pc n v : typed g v -> typed g (set_pc n v).
Proof. apply (typed_keeps (modify (set_pc n))). repeat keeps_more. Qed.

Lemma typed_execute E v : typed g v -> typed g (snd (execute E v)).
Proof.
  intros T. destruct (current v) as [i|] eqn:C.
  - rewrite (execute_eq E v i C). pose proof (typed_exec E i v C T) as R.
    destruct (exec_instr E i v) as [[[]|e| |] w]; cbn [finish snd] in *; try exact R. apply typed_set_pc, R.
  - rewrite (execute_none E v C). exact T.
Qed.

Lemma typed_runs E v l v' : runs E v l v' -> typed g v -> typed g v'.
Proof.
  induction 1 as [|v v1 l v' X R IH]; intros T; [exact T|]. apply IH. pose proof (typed_execute E v T) as H. rewrite X in H. exact H.
Qed.

Lemma typed_run E fuel brk : inv (typed g) (run E fuel brk).
Proof.
  apply run_inv.
  - apply typed_execute.
  - intros b v. apply (typed_keeps (modify (set_stopped b))). repeat keeps_more.
  - intros c v. apply (typed_keeps (modify (set_stopcs c))). repeat keeps_more.
  - intros o c v. apply (typed_keeps (modify (set_outcol o c))). repeat keeps_more.
Qed.
End Typed.
