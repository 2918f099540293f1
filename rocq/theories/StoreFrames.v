(* What executions leave alone: arrays are sound and keep their elements (C08). *)
From Coq Require Import Lia ZifyBool ZifyNat ZifyN SpecFloat.
From Verif Require Import Base BaseLemmas Num NumSpec NumLemmas ArrayModel ArraySpec ArrayProofs BcodeModel SymbolModel VmModel VmLemmas VmSpec
  ControlProofs VmTyping OpSpec OpProofs ValueSpec ValueProofs StoreSpec StoreProofs.
Local Open Scope nat_scope.

(* ---------- the symbol of another name ---------- *)

Section Frame.
Variables (id : symid).
Let F (v : vm) := symbol_at (v_st v) id.

Lemma keeps_put_other j s : j <> id -> keeps F (put_sym j s).
Proof. intros H v. unfold F. cbn. apply symbol_update_other. congruence. Qed.

Ltac fr := repeat first [apply keeps_put_other; assumption | keeps_more].

Definition calls (i : instr) : bool :=
  match i with
  | I_GET_PAREN_NUM _ _ | I_GET_PAREN_STR _ _ | I_END_DEF | I_NEXT_VAR _ | I_NEXT_IMP | I_CLEAR => true | _ => false
  end.
Lemma frame_plain E i : subject i <> Some id -> calls i = false -> keeps F (exec_instr E i).
Proof.
  intros H K. destruct i; try discriminate K; cbn [subject] in H;
    try (match type of H with Some ?j <> _ => assert (NE : j <> id) by congruence end); cbn [exec_instr]; fr.
  - match goal with |- F (snd (?m _)) = _ => assert (R : keeps F m) by fr; rewrite R end. reflexivity.
  - match goal with |- F (snd (?m _)) = _ => assert (R : keeps F m) by fr; rewrite R end. reflexivity.
Qed.

(* id is an array *)
Variables (g : list sig) (t : vtype).
Hypothesis KA : sg_kind g id KArray t.

Lemma not_variable j t' : sg_kind g j KVariable t' -> j <> id.
Proof. intros (a & b & H) ->. destruct KA as (c & d & K). rewrite H in K. discriminate K. Qed.

Lemma frame_next si v : typed g v -> F (snd (next si v)) = F v.
Proof.
  intros T. unfold next, bind at 1, get. unfold bind at 1. destruct (nth_error (v_for v) si) as [f|] eqn:NE; [|reflexivity].
  cbn [some_or_crash]. unfold ret at 1.
  assert (J : f_sym f <> id) by (apply (not_variable _ TNum); exact (Forall_nth _ _ _ _ (ty_for g v T) NE)).
  match goal with |- F (snd (?m v)) = _ => assert (K : keeps F m); [|apply K] end. fr.
Qed.
Lemma frame_end_def v : typed g v -> F (snd (end_def v)) = F v.
Proof.
  intros T. unfold end_def, bind at 1, get. destruct (cs_code (fn_cs (v_fn v))) eqn:C; [|apply (keeps_run_error F); reflexivity].
  assert (J : fn_param (v_fn v) <> id) by (apply (not_variable _ TNum); apply (ty_fn g v T); congruence).
  match goal with |- F (snd (?m v)) = _ => assert (K : keeps F m); [|apply K] end. fr.
Qed.

(* the parameter of a function is a variable *)
Lemma def_param v j s d pid : typed g v -> symbol_at (v_st v) j = Some s -> s_kind s = KDef -> s_val s = VDef d ->
  nth_error (bc_inst (def_bcode d)) 1 = Some (I_PARAM pid) -> pid <> id.
Proof.
  intros T H K V P. pose proof (typed_fits g v j s T H) as Fi. unfold fits in Fi. rewrite K, V in Fi.
  assert (C : code_ok g (bc_inst (def_bcode d))) by (destruct (s_type s); destruct Fi as (_ & C & _); exact C).
  destruct C as [C _]. pose proof (Forall_nth _ _ _ _ C P) as I. cbn in I. exact (not_variable _ _ I).
Qed.
Lemma frame_call j n v : typed g v -> F (snd (call_def j n v)) = F v.
Proof.
  intros T. unfold call_def, bind at 1, get_sym at 1. destruct (symbol_at (v_st v) j) as [s|] eqn:H; [|reflexivity].
  destruct (skind_eqb (s_kind s) KDef) eqn:K; [|reflexivity]. apply skind_eq in K. cbn [assert]. unfold bind at 1, ret at 1.
  destruct (negb (s_defined s)); [apply (keeps_run_error F); reflexivity|].
  destruct (s_val s) as [| | | | |d|] eqn:V; try reflexivity. cbn [val_def some_or_crash]. unfold bind at 1, ret at 1. cbn [some_or_crash]. unfold bind at 1, ret at 1.
  unfold bind at 1, get at 1.
  destruct (nth_error (bc_inst (def_bcode d)) 1) as [i|] eqn:P.
  2:{ match goal with |- F (snd (?m v)) = _ => assert (Q : keeps F m); [|apply Q] end. fr. }
  match goal with |- F (snd (?m v)) = _ => assert (Q : keeps F m); [|apply Q] end.
  destruct i; try solve [fr]. pose proof (def_param v j s d id0 T H K V P) as J. fr.
Qed.

Lemma frame_exec E i v : typed g v -> subject i <> Some id -> i <> I_CLEAR -> F (snd (exec_instr E i v)) = F v.
Proof.
  intros T H NC. destruct (calls i) eqn:K; [|apply frame_plain; assumption].
  destruct i; try discriminate K; try congruence; cbn [subject exec_instr] in *.
  - assert (J : id0 <> id) by congruence. unfold bind at 1, get_sym. destruct (symbol_at (v_st v) id0) as [s|] eqn:Y; [|reflexivity].
    destruct (vtype_eqb _ _); [|reflexivity]. cbn [assert]. unfold bind at 1, ret at 1. destruct (skind_eqb (s_kind s) KArray).
    + match goal with |- F (snd (?m v)) = _ => assert (Q : keeps F m); [|apply Q] end. fr.
    + unfold adv, bind. pose proof (frame_call id0 params v T) as R. destruct (call_def _ _ v) as [[]]; exact R.
  - assert (J : id0 <> id) by congruence. unfold bind at 1, get_sym. destruct (symbol_at (v_st v) id0) as [s|] eqn:Y; [|reflexivity].
    destruct (vtype_eqb _ _); [|reflexivity]. cbn [assert]. unfold bind at 1, ret at 1. destruct (skind_eqb (s_kind s) KArray).
    + match goal with |- F (snd (?m v)) = _ => assert (Q : keeps F m); [|apply Q] end. fr.
    + unfold adv, bind. pose proof (frame_call id0 params v T) as R. destruct (call_def _ _ v) as [[]]; exact R.
  - unfold bind at 1. assert (TD : keeps typed_fields (trace_for (dump_for (lit "NEXT-VARIABLE")))) by (repeat keeps_more).
    assert (FD : keeps F (trace_for (dump_for (lit "NEXT-VARIABLE")))) by fr.
    specialize (FD v). pose proof (typed_keeps g _ TD v T) as T'. destruct (trace_for _ v) as [[[]|e| |] w]; cbn [snd] in *; try exact FD.
    rewrite <- FD. unfold bind at 1, get. destruct (last_opt (v_for w)); [|apply (keeps_run_error F); reflexivity].
    destruct (_ =? _)%N; [unfold adv, bind; pose proof (frame_next (length (v_for w) - 1) w T') as R; destruct (next _ w) as [[]]; exact R|].
    destruct (find_for _ _) as [si|]; [unfold adv, bind; pose proof (frame_next si w T') as R; destruct (next _ w) as [[]]; exact R|].
    match goal with |- F (snd (?m w)) = _ => assert (Q : keeps F m); [|apply Q] end. fr.
  - unfold bind at 1. assert (TD : keeps typed_fields (trace_for (dump_for (lit "NEXT-IMPLICIT")))) by (repeat keeps_more).
    assert (FD : keeps F (trace_for (dump_for (lit "NEXT-IMPLICIT")))) by fr.
    specialize (FD v). pose proof (typed_keeps g _ TD v T) as T'. destruct (trace_for _ v) as [[[]|e| |] w]; cbn [snd] in *; try exact FD.
    rewrite <- FD. unfold bind at 1, get. destruct (v_for w); [apply (keeps_run_error F); reflexivity|].
    unfold adv, bind. match goal with |- context [next ?si w] => pose proof (frame_next si w T') as R; destruct (next si w) as [[]]; exact R end.
  - unfold adv, bind. pose proof (frame_end_def v T) as R. destruct (end_def v) as [[]]; exact R.
Qed.
Lemma frame_execute E v : typed g v -> (forall i, current v = Some i -> subject i <> Some id /\ i <> I_CLEAR) -> F (snd (execute E v)) = F v.
Proof.
  intros T H. destruct (current v) as [i|] eqn:C.
  - destruct (H i eq_refl) as [H1 H2]. rewrite (execute_eq E v i C). pose proof (frame_exec E i v T H1 H2) as R.
    destruct (exec_instr E i v) as [[[]|e| |] w]; exact R.
  - rewrite (execute_none E v C). reflexivity.
Qed.
End Frame.

(* ---------- arrays stay sound ---------- *)

Definition sound_value (x : sval) : Prop :=
  match x with VNumArr a => sound_array a | VStrArr a => sound_array a | _ => True end.
Lemma ao_put id s : sound_value (s_val s) -> inv arrays_ok (put_sym id s).
Proof. intros H v A. unfold arrays_ok. cbn. apply Forall_list_upd; [exact A|exact H]. Qed.
Lemma ao_keeps {A} (m : M A) : keeps v_st m -> inv arrays_ok m.
Proof. intros K v H. unfold arrays_ok. rewrite (K v). exact H. Qed.
Lemma ao_get_sym {B} id (k : symbol -> M B) : (forall s, sound_value (s_val s) -> inv arrays_ok (k s)) -> inv arrays_ok (bind (get_sym id) k).
Proof.
  intros H v A. unfold bind, get_sym. destruct (symbol_at (v_st v) id) as [s|] eqn:E; [|exact A].
  apply H; [|exact A]. exact (Forall_nth _ _ _ _ A E).
Qed.

Ltac ao_step :=
  match goal with
  | |- inv _ (bind (get_sym _) _) => apply ao_get_sym; intros ? ?
  | |- inv _ (put_sym _ _) => apply ao_put; solve [exact I|assumption]
  | |- inv _ (bind _ _) => apply inv_bind; [|intros ?]
  | |- inv _ (ret _) => apply inv_ret
  | |- inv _ crash => apply inv_crash
  | |- inv _ get => apply inv_get
  | |- inv _ (assert _) => apply inv_assert
  | |- inv _ (some_or_crash _) => apply inv_some
  | |- inv _ (if ?b then _ else _) => destruct b eqn:?
  | |- inv _ (match ?x with _ => _ end) => destruct x eqn:?
  | |- inv _ _ => solve [apply ao_keeps; repeat keeps_more]
  end; cbv beta zeta.

Definition works_on_array (i : instr) : bool :=
  match i with
  | I_DIM_NUM _ _ | I_DIM_STR _ _ | I_GET_PAREN_NUM _ _ | I_GET_PAREN_STR _ _ | I_SET_ARRAY_NUM _ _ | I_SET_ARRAY_STR _ _
  | I_INPUT_NUM _ _ | I_INPUT_STR _ _ | I_INPUT_LINE _ _ | I_READ_NUM _ _ | I_READ_STR _ _ => true
  | _ => false
  end.
Lemma ao_call id n : inv arrays_ok (call_def id n).
Proof. unfold call_def. repeat ao_step. Qed.
Lemma ao_set_num id x : inv arrays_ok (set_numeric_simple id x).
Proof. unfold set_numeric_simple. repeat ao_step. Qed.
Lemma ao_set_str id x : inv arrays_ok (set_string_simple id x).
Proof. unfold set_string_simple. repeat ao_step. Qed.
Lemma ao_clear : inv arrays_ok (modify (fun v => set_st (clear_symbol_table_values (v_st v)) v)).
Proof.
  intros v H. unfold arrays_ok in *. cbn. rewrite Forall_map. eapply Forall_impl; [|exact H].
  intros s S. cbn beta. destruct (s_defined s); [|exact S]. unfold undefine_value. destruct (s_kind s); try exact S; exact I.
Qed.
Lemma ao_plain E i : works_on_array i = false -> inv arrays_ok (exec_instr E i).
Proof.
  intros H. destruct i; try discriminate H; cbn [exec_instr]; unfold adv;
    try solve [apply ao_keeps; repeat keeps_more];
    try solve [repeat first [apply ao_clear|apply ao_set_num|apply ao_set_str|unfold get_numeric_simple, get_string_simple, exec_for, next, end_def, exec_def; ao_step]].
  - intros v A. cbn beta. destruct (rnd_loop _ _ _ _) as [[x k]|]; [|exact A].
    assert (R : inv arrays_ok (adv (push x))) by (apply ao_keeps; repeat keeps_more). apply R. exact A.
  - intros v A. cbn beta. destruct (e_hms E (v_clock v)) as [[h m] s].
    match goal with |- arrays_ok (snd (?m _)) => assert (R : inv arrays_ok m) by (apply ao_keeps; repeat keeps_more); apply R end. exact A.
Qed.

(* instructions that may dimension an array *)
Definition AP (n : nat) (v : vm) : Prop :=
  arrays_ok v /\ Forall double (v_stack v) /\ Forall (fun x => ~ is_integer x 4294967295) (firstn n (v_stack v)).
Definition pre {A} (n : nat) (m : M A) : Prop := forall v, AP n v -> arrays_ok (snd (m v)).

Lemma pops_st n name : keeps v_st (pop_indexes_loop n name).
Proof. induction n as [|n IH]; cbn [pop_indexes_loop]; [apply keeps_ret|]. apply keeps_bind; [repeat keeps_more|intros i]. apply keeps_bind; [exact IH|intros r; apply keeps_ret]. Qed.
Lemma pop_index_ok name v i w : pop_index name v = (Ok i, w) -> exists x st, v_stack v = x :: st /\ w = set_stack st v /\
  (double x -> is_integer x (Z.of_N i) /\ (i <= 4294967295)%N).
Proof.
  unfold pop_index, bind, pop. destruct (v_stack v) as [|x st] eqn:S; [intros Q; discriminate Q|]. intros Q. exists x, st. split; [reflexivity|].
  unfold fneb in Q. change SFeqb with feqb in Q. destruct (fltb x fzero || negb (feqb (ffloor x) x)) eqn:F; [discriminate Q|]. rewrite fgtb_uint in Q.
  destruct (fgtb x (fofZ 4294967295)) eqn:G; [discriminate Q|]. destruct (ftoZ x) as [z|] eqn:Z; [|discriminate Q]. inversion Q; subst.
  split; [reflexivity|]. intros V. apply orb_false_iff in F as [F1 F2].
  destruct (whole_or_not x V) as [(z' & I)|[([] & ->)|[F _]]]; try discriminate.
  - rewrite (ftoZ_integer x z' V I) in Z. injection Z as <-. rewrite (fgtb_int x z') in G by (try assumption; lia). rewrite (fltb_zero x z' V I) in F1.
    assert (E : Z.of_N (Z.to_N z') = z') by lia. rewrite E. split; [exact I|lia].
  - rewrite F in F2. discriminate.
Qed.
Lemma pops_below : forall n name v ix w, Forall double (v_stack v) -> Forall (fun x => ~ is_integer x 4294967295) (firstn n (v_stack v)) ->
  pop_indexes_loop n name v = (Ok ix, w) -> below_max32 ix.
Proof.
  induction n as [|n IH]; intros name v ix w D W Q; cbn [pop_indexes_loop] in Q.
  - inversion Q; subst. constructor.
  - apply bind_ok in Q as (i & v1 & Q1 & Q). apply pop_index_ok in Q1 as (x & st & S & -> & H). rewrite S in D, W. cbn [firstn] in W.
    inversion D; subst. inversion W; subst. apply bind_ok in Q as (r & v2 & Q2 & Q). inversion Q; subst. constructor.
    + destruct (H ltac:(assumption)) as [I B]. destruct (N.eq_dec i 4294967295) as [->|NE]; [contradiction|lia].
    + eapply IH; [| |exact Q2]; assumption.
Qed.
Lemma auto_below ix : below_max32 ix -> below_max32 (map (N.max 10) ix).
Proof. unfold below_max32. intros H. rewrite Forall_map. eapply Forall_impl; [|exact H]. cbn beta. intros; lia. Qed.

Lemma pre_keeps {A B} n (m : M A) (k : A -> M B) : keeps (fun v => (v_st v, v_stack v)) m -> (forall a, pre n (k a)) -> pre n (bind m k).
Proof.
  intros K H v (A0 & D & W). unfold bind. specialize (K v). destruct (m v) as [[a|e| |] w]; cbn [snd] in K; injection K as K1 K2;
    try (cbn [snd]; unfold arrays_ok; rewrite K1; exact A0).
  apply H. unfold AP, arrays_ok. rewrite K1, K2. auto.
Qed.
Lemma pre_inv {A B} n (m : M A) (k : A -> M B) : inv arrays_ok m -> keeps v_stack m -> (forall a, pre n (k a)) -> pre n (bind m k).
Proof.
  intros I K H v (A0 & D & W). unfold bind. specialize (K v). specialize (I v A0). destruct (m v) as [[a|e| |] w]; cbn [snd] in *; try exact I.
  apply H. unfold AP. rewrite K. auto.
Qed.
Lemma pre_get_sym {B} n id (k : symbol -> M B) : (forall s, sound_value (s_val s) -> pre n (k s)) -> pre n (bind (get_sym id) k).
Proof.
  intros H v A. unfold bind, get_sym. destruct (symbol_at (v_st v) id) as [s|] eqn:E; [|exact (proj1 A)].
  apply H; [|exact A]. exact (Forall_nth _ _ _ _ (proj1 A) E).
Qed.
Lemma pre_of {A} n (m : M A) : inv arrays_ok m -> pre n m.
Proof. intros H v A0. apply H, A0. Qed.
Lemma pre_then {A B} n (m : M A) (k : A -> M B) : pre n m -> (forall a, inv arrays_ok (k a)) -> pre n (bind m k).
Proof. intros H K v A0. unfold bind. specialize (H v A0). destruct (m v) as [[a|e| |] w]; cbn [snd] in *; try exact H. apply K, H. Qed.

Lemma ao_dimension_numeric id max : below_max32 max -> inv arrays_ok (dimension_numeric id max).
Proof.
  intros B. unfold dimension_numeric. apply ao_get_sym. intros s S. apply inv_bind; [apply inv_assert|intros _].
  destruct (new_array_cases fzero max B) as [[D ->]|[D ->]].
  - apply ao_put. cbn. apply (arr_sound _ max). split; [exact D|]. split; [reflexivity|]. cbn. apply repeat_length.
  - apply inv_bind; [apply ao_put; exact I|intros _]. apply ao_keeps; repeat keeps_more.
Qed.
Lemma ao_at_numeric id n v : AP (N.to_nat n) v ->
  arrays_ok (snd (numeric_array_at id n v)) /\ forall ix a w, numeric_array_at id n v = (Ok (ix, a), w) -> sound_array a.
Proof.
  intros (A & D & W). 
  assert (FST : arrays_ok (snd (numeric_array_at id n v))).
  { unfold numeric_array_at. unfold bind at 1, get_sym at 1. destruct (symbol_at (v_st v) id) as [s|] eqn:H; [|exact A].
    unfold bind at 1, assert at 1. destruct (is_kind _ _ _); [|exact A]. unfold ret at 1. unfold bind at 1.
    pose proof (pops_st (N.to_nat n) (s_name s)) as K.
    unfold pop_indexes, bind at 1, assert. destruct (n <=? _)%N; [|exact A]. unfold ret at 1.
    specialize (K v). destruct (pop_indexes_loop (N.to_nat n) (s_name s) v) as [[ix|e| |] w] eqn:P; cbn [snd] in *;
      try (unfold arrays_ok; rewrite K; exact A).
    pose proof (pops_below _ _ _ _ _ D W P) as B.
    assert (A' : arrays_ok w) by (unfold arrays_ok; rewrite K; exact A). revert w P K A'.
    match goal with |- forall w, _ -> _ -> _ -> arrays_ok (snd (?m w)) => assert (R : inv arrays_ok m); [|intros w _ _ A'; exact (R w A')] end.
    apply inv_bind; [|intros []; repeat ao_step]. destruct (s_defined s); [apply inv_ret|].
    unfold dimension_numeric_auto. repeat first [apply ao_dimension_numeric; rewrite auto_max_max; apply auto_below, B|ao_step]. }
  split; [exact FST|]. intros ix a w Q. rewrite Q in FST. cbn [snd] in FST. unfold numeric_array_at in Q.
  apply bind_ok in Q as (s & v1 & Q1 & Q). apply bind_ok in Q as (u1 & v2 & Q2 & Q). apply bind_ok in Q as (ix' & v3 & Q3 & Q).
  apply bind_ok in Q as (u2 & v4 & Q4 & Q). apply bind_ok in Q as (s' & v5 & Q5 & Q). apply get_sym_ok in Q5 as [-> H].
  apply bind_ok in Q as (o & v6 & Q6 & Q). apply some_ok in Q6 as [-> O]. apply bind_ok in Q as (a' & v7 & Q7 & Q).
  apply some_ok in Q7 as [-> ->]. inversion Q; subst.
  pose proof (Forall_nth _ _ _ _ FST H) as X. cbn beta in X. destruct (s_val s'); try discriminate O. injection O as ->. exact X.
Qed.
Lemma ao_set_numeric_element id n x v : AP (N.to_nat n) v -> arrays_ok (snd (set_numeric_element id n x v)).
Proof.
  intros P. destruct (ao_at_numeric id n v P) as [A1 A2]. unfold set_numeric_element, bind at 1.
  destruct (numeric_array_at id n v) as [[[ix a]|e| |] w] eqn:Q; try exact A1. specialize (A2 ix a w eq_refl). cbn [snd] in A1.
  revert A1. generalize w. match goal with |- forall w, arrays_ok w -> arrays_ok (snd (?m w)) => change (inv arrays_ok m) end.
  apply ao_get_sym. intros s S. destruct (write_element a ix x) as [a'| |] eqn:WR; [|apply ao_keeps; repeat keeps_more|apply inv_crash].
  apply ao_put. cbn. destruct (sound_arr a A2) as (max & O). destruct (in_bounds_dec max ix) as [IB|IB].
  - destruct (ArrayProofs.write_ok a max ix x O IB) as (a'' & W1 & W2 & _). rewrite W1 in WR. injection WR as <-. exact (arr_sound _ _ W2).
  - rewrite (ArrayProofs.write_fail a max ix x O IB) in WR. discriminate WR.
Qed.
Lemma ao_get_numeric_element id n v : AP (N.to_nat n) v -> arrays_ok (snd (get_numeric_element id n v)).
Proof.
  intros P. destruct (ao_at_numeric id n v P) as [A1 A2]. unfold get_numeric_element, bind at 1.
  destruct (numeric_array_at id n v) as [[[ix a]|e| |] w] eqn:Q; try exact A1. cbn [snd] in A1.
  revert A1. generalize w. match goal with |- forall w, arrays_ok w -> arrays_ok (snd (?m w)) => change (inv arrays_ok m) end. repeat ao_step.
Qed.
Lemma ao_set_numeric id n x v : AP (N.to_nat n) v -> arrays_ok (snd (set_numeric id n x v)).
Proof.
  intros P. unfold set_numeric. destruct (n =? 0)%N; [apply ao_set_num, P|apply ao_set_numeric_element, P].
Qed.
Lemma ao_exec_dim_num id n v : AP (N.to_nat n) v -> arrays_ok (snd (exec_dim_num id n v)).
Proof.
  intros P. unfold exec_dim_num. revert v P. match goal with |- forall v, AP ?k v -> arrays_ok (snd (?m v)) => change (pre k m) end.
  apply pre_get_sym. intros s S. apply pre_keeps; [repeat keeps_more|intros _]. apply pre_keeps; [repeat keeps_more|intros o].
  apply pre_inv; [destruct o; repeat ao_step|destruct o; repeat keeps_more|intros _].
  intros v (A & D & W). unfold bind at 1. unfold pop_indexes, bind at 1, assert. destruct (n <=? _)%N; [|exact A]. unfold ret at 1.
  pose proof (pops_st (N.to_nat n) (s_name s) v) as K. destruct (pop_indexes_loop (N.to_nat n) (s_name s) v) as [[ix|e| |] w] eqn:Q; cbn [snd] in *;
    try (unfold arrays_ok; rewrite K; exact A).
  apply ao_dimension_numeric; [exact (pops_below _ _ _ _ _ D W Q)|]. unfold arrays_ok; rewrite K; exact A.
Qed.

Lemma ao_dimension_string id max : below_max32 max -> inv arrays_ok (dimension_string id max).
Proof.
  intros B. unfold dimension_string. apply ao_get_sym. intros s S. apply inv_bind; [apply inv_assert|intros _].
  destruct (new_array_cases (@None bytes) max B) as [[D ->]|[D ->]].
  - apply ao_put. cbn. apply (arr_sound _ max). split; [exact D|]. split; [reflexivity|]. cbn. apply repeat_length.
  - apply inv_bind; [apply ao_put; exact I|intros _]. apply ao_keeps; repeat keeps_more.
Qed.
Lemma ao_at_string id n v : AP (N.to_nat n) v ->
  arrays_ok (snd (string_array_at id n v)) /\ forall ix a w, string_array_at id n v = (Ok (ix, a), w) -> sound_array a.
Proof.
  intros (A & D & W). 
  assert (FST : arrays_ok (snd (string_array_at id n v))).
  { unfold string_array_at. unfold bind at 1, get_sym at 1. destruct (symbol_at (v_st v) id) as [s|] eqn:H; [|exact A].
    unfold bind at 1, assert at 1. destruct (is_kind _ _ _); [|exact A]. unfold ret at 1. unfold bind at 1.
    pose proof (pops_st (N.to_nat n) (s_name s)) as K.
    unfold pop_indexes, bind at 1, assert. destruct (n <=? _)%N; [|exact A]. unfold ret at 1.
    specialize (K v). destruct (pop_indexes_loop (N.to_nat n) (s_name s) v) as [[ix|e| |] w] eqn:P; cbn [snd] in *;
      try (unfold arrays_ok; rewrite K; exact A).
    pose proof (pops_below _ _ _ _ _ D W P) as B.
    assert (A' : arrays_ok w) by (unfold arrays_ok; rewrite K; exact A). revert w P K A'.
    match goal with |- forall w, _ -> _ -> _ -> arrays_ok (snd (?m w)) => assert (R : inv arrays_ok m); [|intros w _ _ A'; exact (R w A')] end.
    apply inv_bind; [|intros []; repeat ao_step]. destruct (s_defined s); [apply inv_ret|].
    unfold dimension_string_auto. repeat first [apply ao_dimension_string; rewrite auto_max_max; apply auto_below, B|ao_step]. }
  split; [exact FST|]. intros ix a w Q. rewrite Q in FST. cbn [snd] in FST. unfold string_array_at in Q.
  apply bind_ok in Q as (s & v1 & Q1 & Q). apply bind_ok in Q as (u1 & v2 & Q2 & Q). apply bind_ok in Q as (ix' & v3 & Q3 & Q).
  apply bind_ok in Q as (u2 & v4 & Q4 & Q). apply bind_ok in Q as (s' & v5 & Q5 & Q). apply get_sym_ok in Q5 as [-> H].
  apply bind_ok in Q as (o & v6 & Q6 & Q). apply some_ok in Q6 as [-> O]. apply bind_ok in Q as (a' & v7 & Q7 & Q).
  apply some_ok in Q7 as [-> ->]. inversion Q; subst.
  pose proof (Forall_nth _ _ _ _ FST H) as X. cbn beta in X. destruct (s_val s'); try discriminate O. injection O as ->. exact X.
Qed.
Lemma ao_set_string_element id n x v : AP (N.to_nat n) v -> arrays_ok (snd (set_string_element id n x v)).
Proof.
  intros P. destruct (ao_at_string id n v P) as [A1 A2]. unfold set_string_element, bind at 1.
  destruct (string_array_at id n v) as [[[ix a]|e| |] w] eqn:Q; try exact A1. specialize (A2 ix a w eq_refl). cbn [snd] in A1.
  revert A1. generalize w. match goal with |- forall w, arrays_ok w -> arrays_ok (snd (?m w)) => change (inv arrays_ok m) end.
  apply ao_get_sym. intros s S. destruct (write_element a ix (Some x)) as [a'| |] eqn:WR; [|apply ao_keeps; repeat keeps_more|apply inv_crash].
  apply ao_put. cbn. destruct (sound_arr a A2) as (max & O). destruct (in_bounds_dec max ix) as [IB|IB].
  - destruct (ArrayProofs.write_ok a max ix (Some x) O IB) as (a'' & W1 & W2 & _). rewrite W1 in WR. injection WR as <-. exact (arr_sound _ _ W2).
  - rewrite (ArrayProofs.write_fail a max ix (Some x) O IB) in WR. discriminate WR.
Qed.
Lemma ao_get_string_element id n v : AP (N.to_nat n) v -> arrays_ok (snd (get_string_element id n v)).
Proof.
  intros P. destruct (ao_at_string id n v P) as [A1 A2]. unfold get_string_element, bind at 1.
  destruct (string_array_at id n v) as [[[ix a]|e| |] w] eqn:Q; try exact A1. cbn [snd] in A1.
  revert A1. generalize w. match goal with |- forall w, arrays_ok w -> arrays_ok (snd (?m w)) => change (inv arrays_ok m) end. repeat ao_step.
Qed.
Lemma ao_set_string id n x v : AP (N.to_nat n) v -> arrays_ok (snd (set_string id n x v)).
Proof.
  intros P. unfold set_string. destruct (n =? 0)%N; [apply ao_set_str, P|apply ao_set_string_element, P].
Qed.
Lemma ao_exec_dim_str id n v : AP (N.to_nat n) v -> arrays_ok (snd (exec_dim_str id n v)).
Proof.
  intros P. unfold exec_dim_str. revert v P. match goal with |- forall v, AP ?k v -> arrays_ok (snd (?m v)) => change (pre k m) end.
  apply pre_get_sym. intros s S. apply pre_keeps; [repeat keeps_more|intros _]. apply pre_keeps; [repeat keeps_more|intros o].
  apply pre_inv; [destruct o; repeat ao_step|destruct o; repeat keeps_more|intros _].
  intros v (A & D & W). unfold bind at 1. unfold pop_indexes, bind at 1, assert. destruct (n <=? _)%N; [|exact A]. unfold ret at 1.
  pose proof (pops_st (N.to_nat n) (s_name s) v) as K. destruct (pop_indexes_loop (N.to_nat n) (s_name s) v) as [[ix|e| |] w] eqn:Q; cbn [snd] in *;
    try (unfold arrays_ok; rewrite K; exact A).
  apply ao_dimension_string; [exact (pops_below _ _ _ _ _ D W Q)|]. unfold arrays_ok; rewrite K; exact A.
Qed.

Lemma no_arr_numeric id n v : (forall t, ~ named v id KArray t) -> snd (numeric_array_at id n v) = v /\ forall a w, numeric_array_at id n v <> (Ok a, w).
Proof.
  intros H. assert (Q : numeric_array_at id n v = (Crash, v)).
  { unfold numeric_array_at, bind at 1, get_sym at 1. destruct (symbol_at (v_st v) id) as [s|] eqn:Y; [|reflexivity].
    destruct (is_kind KArray TNum s) eqn:K; [apply is_kind_eq in K as [K1 K2]; destruct (H Numbers); exists s; auto|reflexivity]. }
  rewrite Q. split; [reflexivity|discriminate].
Qed.
Lemma no_set_numeric id n x v : (forall t, ~ named v id KArray t) -> arrays_ok v -> arrays_ok (snd (set_numeric_element id n x v)).
Proof.
  intros H A. destruct (no_arr_numeric id n v H) as [H1 H2]. unfold set_numeric_element, bind at 1.
  destruct (numeric_array_at id n v) as [[[ix a]|e| |] w]; [destruct (H2 _ _ eq_refl)|..]; cbn in *; rewrite H1; exact A.
Qed.
Lemma no_put_numeric id n x v : (forall t, ~ named v id KArray t) -> arrays_ok v -> arrays_ok (snd (set_numeric id n x v)).
Proof. intros H A. unfold set_numeric. destruct (n =? 0)%N; [apply ao_set_num, A|apply no_set_numeric; assumption]. Qed.
Lemma no_dim_num id n v : (forall t, ~ named v id KArray t) -> arrays_ok v -> arrays_ok (snd (exec_dim_num id n v)).
Proof.
  intros H A. unfold exec_dim_num, bind at 1, get_sym at 1. destruct (symbol_at (v_st v) id) as [s|] eqn:Y; [|exact A].
  destruct (is_kind KArray TNum s) eqn:K; [apply is_kind_eq in K as [K1 K2]; destruct (H Numbers); exists s; auto|]. exact A.
Qed.
Lemma no_arr_string id n v : (forall t, ~ named v id KArray t) -> snd (string_array_at id n v) = v /\ forall a w, string_array_at id n v <> (Ok a, w).
Proof.
  intros H. assert (Q : string_array_at id n v = (Crash, v)).
  { unfold string_array_at, bind at 1, get_sym at 1. destruct (symbol_at (v_st v) id) as [s|] eqn:Y; [|reflexivity].
    destruct (is_kind KArray TStr s) eqn:K; [apply is_kind_eq in K as [K1 K2]; destruct (H Texts); exists s; auto|reflexivity]. }
  rewrite Q. split; [reflexivity|discriminate].
Qed.
Lemma no_set_string id n x v : (forall t, ~ named v id KArray t) -> arrays_ok v -> arrays_ok (snd (set_string_element id n x v)).
Proof.
  intros H A. destruct (no_arr_string id n v H) as [H1 H2]. unfold set_string_element, bind at 1.
  destruct (string_array_at id n v) as [[[ix a]|e| |] w]; [destruct (H2 _ _ eq_refl)|..]; cbn in *; rewrite H1; exact A.
Qed.
Lemma no_put_string id n x v : (forall t, ~ named v id KArray t) -> arrays_ok v -> arrays_ok (snd (set_string id n x v)).
Proof. intros H A. unfold set_string. destruct (n =? 0)%N; [apply ao_set_str, A|apply no_set_string; assumption]. Qed.
Lemma no_dim_str id n v : (forall t, ~ named v id KArray t) -> arrays_ok v -> arrays_ok (snd (exec_dim_str id n v)).
Proof.
  intros H A. unfold exec_dim_str, bind at 1, get_sym at 1. destruct (symbol_at (v_st v) id) as [s|] eqn:Y; [|exact A].
  destruct (is_kind KArray TStr s) eqn:K; [apply is_kind_eq in K as [K1 K2]; destruct (H Texts); exists s; auto|]. exact A.
Qed.

(* the condition on the state in which the instruction works on its subject *)
Definition AQ (id : symid) (n : nat) (v : vm) : Prop :=
  AP n v \/ (arrays_ok v /\ forall t, ~ named v id KArray t).
Definition preq {A} (id : symid) (n : nat) (m : M A) : Prop := forall v, AQ id n v -> arrays_ok (snd (m v)).
Lemma preq_keeps {A B} id n (m : M A) (k : A -> M B) : keeps (fun v => (v_st v, v_stack v)) m -> (forall a, preq id n (k a)) -> preq id n (bind m k).
Proof.
  intros K H v Q. assert (A0 : arrays_ok v) by (destruct Q as [Q|Q]; apply Q). unfold bind. specialize (K v).
  destruct (m v) as [[a|e| |] w]; cbn [snd] in K; injection K as K1 K2; try (cbn [snd]; unfold arrays_ok; rewrite K1; exact A0).
  apply H. unfold AQ, AP, arrays_ok, named. rewrite K1, K2. exact Q.
Qed.
Lemma preq_then {A B} id n (m : M A) (k : A -> M B) : preq id n m -> (forall a, inv arrays_ok (k a)) -> preq id n (bind m k).
Proof. intros H K v A0. unfold bind. specialize (H v A0). destruct (m v) as [[a|e| |] w]; cbn [snd] in *; try exact H. apply K, H. Qed.
Lemma preq_of {A} id n (m : M A) : inv arrays_ok m -> preq id n m.
Proof. intros H v [A0|A0]; apply H, A0. Qed.
Lemma preq_num id n x : preq id (N.to_nat n) (set_numeric id n x).
Proof. intros v [A|[A B]]; [apply ao_set_numeric, A|apply no_put_numeric; assumption]. Qed.
Lemma preq_str id n x : preq id (N.to_nat n) (set_string id n x).
Proof. intros v [A|[A B]]; [apply ao_set_string, A|apply no_put_string; assumption]. Qed.
Lemma preq_num_element id n x : preq id (N.to_nat n) (set_numeric_element id n x).
Proof. intros v [A|[A B]]; [apply ao_set_numeric_element, A|apply no_set_numeric; assumption]. Qed.
Lemma preq_str_element id n x : preq id (N.to_nat n) (set_string_element id n x).
Proof. intros v [A|[A B]]; [apply ao_set_string_element, A|apply no_set_string; assumption]. Qed.
Lemma preq_dim_num id n : preq id (N.to_nat n) (exec_dim_num id n).
Proof. intros v [A|[A B]]; [apply ao_exec_dim_num, A|apply no_dim_num; assumption]. Qed.
Lemma preq_dim_str id n : preq id (N.to_nat n) (exec_dim_str id n).
Proof. intros v [A|[A B]]; [apply ao_exec_dim_str, A|apply no_dim_str; assumption]. Qed.

Ltac pq := repeat first
  [ apply preq_num | apply preq_str | apply preq_num_element | apply preq_str_element | apply preq_dim_num | apply preq_dim_str
  | solve [apply preq_of; unfold adv; repeat ao_step]
  | match goal with
    | |- preq _ _ (bind (set_numeric _ _ _) _) => apply preq_then; [|intros ?; unfold adv; repeat ao_step]
    | |- preq _ _ (adv _) => unfold adv; apply preq_then; [|intros ?; repeat ao_step]
    | |- preq _ _ (bind _ _) => apply preq_keeps; [solve [repeat keeps_more]|intros ?]
    | |- preq _ _ (if ?b then _ else _) => destruct b eqn:?
    | |- preq _ _ (match ?x with _ => _ end) => destruct x eqn:?
    end ].

Lemma named_dec v id : (exists t, named v id KArray t) \/ (forall t, ~ named v id KArray t).
Proof.
  destruct (symbol_at (v_st v) id) as [s|] eqn:Y.
  2:{ right. intros t (s & H & _). congruence. }
  destruct (skind_eqb (s_kind s) KArray) eqn:K.
  - apply skind_eq in K. destruct (s_type s) eqn:T.
    + right. intros t (s' & H & _ & T'). rewrite Y in H. injection H as <-. rewrite T in T'. destruct t; discriminate T'.
    + left. exists Numbers, s. auto.
    + left. exists Texts, s. auto.
  - right. intros t (s' & H & K' & _). rewrite Y in H. injection H as <-. rewrite K' in K. discriminate K.
Qed.
Lemma aq_intro v i id n : current v = Some i -> subject i = Some id -> no_wrap v -> Forall double (v_stack v) -> arrays_ok v ->
  subscript_numbers v = firstn n (v_stack v) -> AQ id n v.
Proof.
  intros C S W D A F. unfold AQ, AP. destruct (named_dec v id) as [[t N]|N]; [|right; auto]. left. split; [exact A|]. split; [exact D|].
  rewrite <- F. exact (W i id t C S N).
Qed.

Lemma ao_exec E i v : current v = Some i -> Forall double (v_stack v) -> no_wrap v -> arrays_ok v -> arrays_ok (snd (exec_instr E i v)).
Proof.
  intros C D W A. destruct (works_on_array i) eqn:K; [|apply ao_plain; assumption].
  destruct i; try discriminate K; clear K; cbn [exec_instr];
  try (match type of C with current v = Some ?i => match i with I_GET_PAREN_NUM _ _ => fail 2 | I_GET_PAREN_STR _ _ => fail 2 | I_SET_ARRAY_NUM _ _ => fail 2 | _ =>
    match eval cbn in (subject i) with Some ?id => match i with _ _ ?n =>
      let Q := fresh "Q" in assert (Q : AQ id (N.to_nat n) v) by (apply (aq_intro v _ id _ C eq_refl W D A); unfold subscript_numbers; rewrite C; reflexivity);
      revert v Q C D W A; match goal with |- forall v, AQ _ _ v -> _ -> _ -> _ -> _ -> arrays_ok (snd (?m v)) => assert (P : preq id (N.to_nat n) m); [|intros v Q _ _ _ _; exact (P v Q)] end
    end end end end);
  try solve [pq].
  - unfold bind at 1, get_sym. destruct (symbol_at (v_st v) id) as [s|] eqn:Y; [|exact A].
    unfold bind at 1, assert. destruct (vtype_eqb (s_type s) TNum) eqn:VT; [|exact A]. unfold ret at 1. unfold adv.
    destruct (skind_eqb (s_kind s) KArray) eqn:K.
    + assert (Q : AP (N.to_nat params) v).
      { split; [exact A|]. split; [exact D|]. apply skind_eq in K. specialize (W _ id Numbers C eq_refl). unfold subscript_numbers in W. rewrite C in W.
        apply W. exists s. split; [exact Y|]. split; [exact K|]. destruct (s_type s); try discriminate VT; reflexivity. }
      unfold bind. pose proof (ao_get_numeric_element id params v Q) as R. destruct (get_numeric_element id params v) as [[[]|e| |] w]; exact R.
    + unfold bind. pose proof (ao_call id params v A) as R. destruct (call_def id params v) as [[[]|e| |] w]; exact R.
  - unfold bind at 1, get_sym. destruct (symbol_at (v_st v) id) as [s|] eqn:Y; [|exact A]. unfold bind at 1, pop.
    destruct (v_stack v) as [|x st] eqn:S; [exact A|]. inversion D; subst.
    assert (Q : AQ id (N.to_nat params) (set_stack st v)).
    { destruct (named_dec v id) as [[t N]|N]; [left|right; auto]. split; [exact A|]. split; [assumption|].
      specialize (W _ id t C eq_refl N). unfold subscript_numbers in W. rewrite C, S in W. exact W. }
    unfold adv, bind. pose proof (preq_num_element id params x _ Q) as R.
    destruct (set_numeric_element id params x (set_stack st v)) as [[[]|e| |] w]; exact R.
  - unfold bind at 1, get_sym. destruct (symbol_at (v_st v) id) as [s|] eqn:Y; [|exact A].
    unfold bind at 1, assert. destruct (vtype_eqb (s_type s) TStr) eqn:VT; [|exact A]. unfold ret at 1. unfold adv.
    destruct (skind_eqb (s_kind s) KArray) eqn:K.
    + assert (Q : AP (N.to_nat params) v).
      { split; [exact A|]. split; [exact D|]. apply skind_eq in K. specialize (W _ id Texts C eq_refl). unfold subscript_numbers in W. rewrite C in W.
        apply W. exists s. split; [exact Y|]. split; [exact K|]. destruct (s_type s); try discriminate VT; reflexivity. }
      unfold bind. pose proof (ao_get_string_element id params v Q) as R. destruct (get_string_element id params v) as [[[]|e| |] w]; exact R.
    + unfold bind. pose proof (ao_call id params v A) as R. destruct (call_def id params v) as [[[]|e| |] w]; exact R.
Qed.

Lemma ao_execute E v : Forall double (v_stack v) -> no_wrap v -> arrays_ok v -> arrays_ok (snd (execute E v)).
Proof.
  intros D W A. destruct (current v) as [i|] eqn:C.
  - rewrite (execute_eq E v i C). pose proof (ao_exec E i v C D W A) as R. destruct (exec_instr E i v) as [[[]|e| |] w]; exact R.
  - rewrite (execute_none E v C). exact A.
Qed.

(* Along an execution arrays stay sound. *)
Theorem arrays_sound E v l v' : env_ok E -> runs E v l v' -> values_ok v -> arrays_ok v -> Forall no_wrap l -> arrays_ok v'.
Proof.
  intros EO R. induction R as [|v v1 l v' X R IH]; intros V A W; [exact A|]. inversion W; subst.
  pose proof (ao_execute E v (ok_stack v V) ltac:(assumption) A) as A1. rewrite X in A1. apply IH; try assumption.
  apply (vo_runs E v [v] v1 EO); [|exact V]. econstructor; [exact X|constructor].
Qed.

(* ---------- the elements of an array along an execution ---------- *)

Definition typed_defined (v : vm) (t : sort) (id : symid) : Prop :=
  exists s, symbol_at (v_st v) id = Some s /\ s_kind s = KArray /\ s_type s = vtype_of t /\ s_defined s = true.
Lemma typed_def g v t id b : typed g v -> named v id KArray t -> bounds v id = Some b -> typed_defined v t id.
Proof.
  intros T (s & H & K & Y) B. exists s. repeat split; try assumption. pose proof (typed_fits g v id s T H) as X. unfold fits in X. rewrite K, Y in X.
  unfold bounds in B. rewrite H in B. destruct t; cbn in X; destruct (s_val s); try discriminate B; try contradiction; exact X.
Qed.
Lemma frame_read E v t id n b : typed_defined v t id -> current v = Some (get_element t id n) -> bounds v id = Some b ->
  symbol_at (v_st (snd (execute E v))) id = symbol_at (v_st v) id.
Proof.
  intros (s & H & K & Y & D) C B. rewrite (execute_eq E v _ C). set (F := fun v => symbol_at (v_st v) id).
  change (F (snd (finish (exec_instr E (get_element t id n) v))) = F v).
  assert (R : F (snd (exec_instr E (get_element t id n) v)) = F v).
  2:{ destruct (exec_instr E (get_element t id n) v) as [[[]|e| |] w]; exact R. }
  destruct t; cbn [get_element exec_instr].
  - unfold bind at 1, get_sym. rewrite H. unfold bind at 1, assert. rewrite Y. cbn [vtype_of vtype_eqb]. unfold ret at 1. rewrite K. cbn [skind_eqb]. unfold adv.
    unfold get_numeric_element, numeric_array_at, bind at 1. unfold bind at 1. unfold bind at 1, get_sym at 1. rewrite H. unfold bind at 1, is_kind. rewrite K, Y.
    cbn [vtype_of skind_eqb vtype_eqb andb assert]. unfold ret at 1. rewrite D.
    match goal with |- context [bind (pop_indexes n (s_name s)) ?k] => assert (Q : keeps F (bind (pop_indexes n (s_name s)) k)) by (repeat keeps_more) end.
    specialize (Q v). match type of Q with F (snd (?m v)) = _ => destruct (m v) as [[[ix a]|e| |] w]; cbn [snd] in *; try exact Q end.
    match goal with |- F (snd ((match ?m w with _ => _ end))) = _ => idtac | _ => idtac end.
    rewrite <- Q. match goal with |- context [bind (get_sym id) ?k w] => assert (Q2 : keeps F (bind (get_sym id) k)) by (repeat keeps_more) end.
    specialize (Q2 w). match type of Q2 with F (snd (?m w)) = _ => destruct (m w) as [[[]|e| |] w']; exact Q2 end.
  - unfold bind at 1, get_sym. rewrite H. unfold bind at 1, assert. rewrite Y. cbn [vtype_of vtype_eqb]. unfold ret at 1. rewrite K. cbn [skind_eqb]. unfold adv.
    unfold get_string_element, string_array_at, bind at 1. unfold bind at 1. unfold bind at 1, get_sym at 1. rewrite H. unfold bind at 1, is_kind. rewrite K, Y.
    cbn [vtype_of skind_eqb vtype_eqb andb assert]. unfold ret at 1. rewrite D.
    match goal with |- context [bind (pop_indexes n (s_name s)) ?k] => assert (Q : keeps F (bind (pop_indexes n (s_name s)) k)) by (repeat keeps_more) end.
    specialize (Q v). match type of Q with F (snd (?m v)) = _ => destruct (m v) as [[[ix a]|e| |] w]; cbn [snd] in *; try exact Q end.
    match goal with |- F (snd ((match ?m w with _ => _ end))) = _ => idtac | _ => idtac end.
    rewrite <- Q. match goal with |- context [bind (get_sym id) ?k w] => assert (Q2 : keeps F (bind (get_sym id) k)) by (repeat keeps_more) end.
    specialize (Q2 w). match type of Q2 with F (snd (?m w)) = _ => destruct (m w) as [[[]|e| |] w']; exact Q2 end.
Qed.

Lemma same_symbol v w id : symbol_at (v_st w) id = symbol_at (v_st v) id ->
  bounds w id = bounds v id /\ (forall t idx, element w t id idx = element v t id idx) /\ forall k t, named v id k t -> named w id k t.
Proof. intros H. unfold bounds, element, named. rewrite H. auto. Qed.

Lemma typed_same g v w : typed_fields w = typed_fields v -> typed g v -> typed g w.
Proof.
  intros K [S F L P C]. unfold typed_fields in K. injection K as K1 K2 K3 K4 K5 K6. constructor; rewrite ?K1, ?K2, ?K3; try assumption.
  intros r bc H. apply (C r bc). destruct r; cbn [code_of] in *; congruence.
Qed.

Theorem array_history E g t id v l v' ws b : env_ok E -> runs E v l v' -> history t id l ws ->
  typed g v -> values_ok v -> arrays_ok v -> Forall no_wrap l -> named v id KArray t -> bounds v id = Some b ->
  bounds v' id = Some b /\ Forall (fun w => in_bounds b (fst w)) ws /\
  forall idx, element v' t id idx = last_stored (element v t id idx) ws idx.
Proof.
  intros EO R. revert ws. induction R as [|v v1 l v' X R IH]; intros ws H T V A W Hn B.
  - inversion H; subst. auto.
  - inversion W as [|? ? W1 W2]; subst.
    assert (T1 : typed g v1) by (pose proof (typed_execute g E v T) as Q; rewrite X in Q; exact Q).
    assert (V1 : values_ok v1) by (apply (vo_runs E v [v] v1 EO); [econstructor; [exact X|constructor]|exact V]).
    assert (A1 : arrays_ok v1) by (pose proof (ao_execute E v (ok_stack v V) W1 A) as Q; rewrite X in Q; exact Q).
    assert (SG : sg_kind g id KArray (vtype_of t)).
    { destruct Hn as (s & Hs & K & Y). exists (s_name s), (s_id s). rewrite (typed_sig g v id s T Hs). unfold sig_of. rewrite K, Y. reflexivity. }
    inversion H as [|? ? ? OT H'|? n ? ? C H'|u n idx st d ? ws' C SD SU H']; subst.
    + pose proof (frame_execute id g (vtype_of t) SG E v T OT) as Q. rewrite X in Q. cbn [snd] in Q.
      destruct (same_symbol v v1 id Q) as (Q1 & Q2 & Q3). rewrite <- Q1 in B.
      destruct (IH ws H' T1 V1 A1 W2 (Q3 _ _ Hn) B) as (I1 & I2 & I3). split; [exact I1|]. split; [exact I2|].
      intros idx. rewrite I3, Q2. reflexivity.
    + pose proof (frame_read E v t id n b (typed_def g v t id b T Hn B) C B) as Q. rewrite X in Q. cbn [snd] in Q.
      destruct (same_symbol v v1 id Q) as (Q1 & Q2 & Q3). rewrite <- Q1 in B.
      destruct (IH ws H' T1 V1 A1 W2 (Q3 _ _ Hn) B) as (I1 & I2 & I3). split; [exact I1|]. split; [exact I2|].
      intros idx. rewrite I3, Q2. reflexivity.
    + assert (ST : v_st (push_datum d u) = v_st u) by (destruct d; reflexivity).
      assert (Hu : named u id KArray (sort_of d)) by (unfold named in *; rewrite ST in Hn; exact Hn).
      assert (Bu : bounds u id = Some b) by (unfold bounds in *; rewrite ST in B; exact B).
      assert (Eu : forall j, element (push_datum d u) (sort_of d) id j = element u (sort_of d) id j) by (intros j; unfold element; rewrite ST; reflexivity).
      assert (Au : arrays_ok u) by (unfold arrays_ok in *; rewrite ST in A; exact A).
      assert (Tu : typed g u) by (apply (typed_same g (push_datum d u)); [destruct d; reflexivity|exact T]).
      destruct (in_bounds_dec b idx) as [IB|IB].
      * destruct (element_write E g u id n d idx st b Tu Au C Hu SU Bu IB) as (w & XW & (O & BW & EW & EO') & AW).
        rewrite XW in X. injection X as X. assert (ST1 : v_st v1 = v_st w) by (rewrite <- X; reflexivity).
        assert (B1 : bounds v1 id = Some b) by (rewrite <- Bu; unfold bounds in *; rewrite ST1; exact BW).
        assert (N1 : named v1 id KArray (sort_of d)) by (unfold named; rewrite ST1; apply O; exact Hu).
        destruct (IH ws' H' T1 V1 A1 W2 N1 B1) as (I1 & I2 & I3). split; [exact I1|]. split; [constructor; [exact IB|exact I2]|].
        intros j. rewrite I3, Eu. unfold last_stored. cbn [fold_left fst snd]. f_equal.
        assert (E1 : forall i, element v1 (sort_of d) id i = element w (sort_of d) id i) by (intros i; unfold element; rewrite ST1; reflexivity). rewrite E1.
        destruct (idx_eqb j idx) eqn:Q; [apply idx_eqb_eq in Q as ->; exact EW|].
        apply EO'. intros ->. rewrite (proj2 (idx_eqb_eq idx idx) eq_refl) in Q. discriminate Q.
      * destruct (element_write_refused E g u id n d idx st b Tu Au C Hu SU Bu IB) as (s & _ & w & XW & _). rewrite XW in X. discriminate X.
Qed.

(* ---------- numbers that are no subscripts ---------- *)

Lemma pops_bad v n x name : bad_subscript v n x -> (n <= 2)%N ->
  exists w, pop_indexes n name v = (Fail (subscript_error name x), w) /\ v_st w = v_st v /\ v_cs w = v_cs v.
Proof.
  intros (ys & idx & st & S & F & L & D & B) N2. unfold pop_indexes, bind, assert. replace (n <=? _)%N with true by (cbn; lia). unfold ret.
  replace (N.to_nat n) with (length idx + Datatypes.S (N.to_nat n - length idx - 1)) by lia. exact (pop_loop_bad name idx ys v x st _ S F D B).
Qed.

Lemma at_bad_num v id n x s : symbol_at (v_st v) id = Some s -> s_kind s = KArray -> s_type s = TNum -> bad_subscript v n x -> (n <= 2)%N ->
  exists w, numeric_array_at id n v = (Fail (subscript_error (s_name s) x), w) /\ v_st w = v_st v /\ v_cs w = v_cs v.
Proof.
  intros H K Y B N2. destruct (pops_bad v n x (s_name s) B N2) as (w & W & W1 & W2). exists w. split; [|auto].
  unfold numeric_array_at, bind at 1, get_sym at 1. rewrite H. unfold is_kind. rewrite K, Y. cbn [skind_eqb vtype_eqb andb assert].
  unfold bind at 1, ret at 1. unfold bind at 1. rewrite W. reflexivity.
Qed.
Lemma at_bad_str v id n x s : symbol_at (v_st v) id = Some s -> s_kind s = KArray -> s_type s = TStr -> bad_subscript v n x -> (n <= 2)%N ->
  exists w, string_array_at id n v = (Fail (subscript_error (s_name s) x), w) /\ v_st w = v_st v /\ v_cs w = v_cs v.
Proof.
  intros H K Y B N2. destruct (pops_bad v n x (s_name s) B N2) as (w & W & W1 & W2). exists w. split; [|auto].
  unfold string_array_at, bind at 1, get_sym at 1. rewrite H. unfold is_kind. rewrite K, Y. cbn [skind_eqb vtype_eqb andb assert].
  unfold bind at 1, ret at 1. unfold bind at 1. rewrite W. reflexivity.
Qed.

Theorem element_read_bad E g v t id n x : typed g v -> current v = Some (get_element t id n) -> named v id KArray t -> bad_subscript v n x ->
  exists s, symbol_at (v_st v) id = Some s /\ raises E v (subscript_error (s_name s) x).
Proof.
  intros T C Hn B. assert (N2 : (n <= 2)%N).
  { pose proof (typed_current g v _ T C) as I. destruct t; cbn in I; (destruct I as [[I _]|I]; [lia|]);
      destruct (typed_named g v id KArray _ _ _ T Hn I) as [Q _]; discriminate Q. }
  destruct Hn as (s & H & K & Y). exists s. split; [exact H|]. unfold raises. rewrite (execute_eq E v _ C). destruct t; cbn [get_element vtype_of exec_instr] in *.
  - destruct (at_bad_num v id n x s H K Y B N2) as (w & W & W1 & W2). exists w.
    unfold bind at 1, get_sym at 1. rewrite H. unfold bind at 1. rewrite Y. cbn [vtype_eqb assert]. unfold ret at 1. rewrite K. cbn [skind_eqb].
    unfold adv, bind at 1. unfold get_numeric_element, bind at 1. rewrite W. auto.
  - destruct (at_bad_str v id n x s H K Y B N2) as (w & W & W1 & W2). exists w.
    unfold bind at 1, get_sym at 1. rewrite H. unfold bind at 1. rewrite Y. cbn [vtype_eqb assert]. unfold ret at 1. rewrite K. cbn [skind_eqb].
    unfold adv, bind at 1. unfold get_string_element, bind at 1. rewrite W. auto.
Qed.
Theorem element_write_bad E g u d id n x : typed g u -> current u = Some (set_element (sort_of d) id n) -> named u id KArray (sort_of d) -> bad_subscript u n x ->
  exists s, symbol_at (v_st u) id = Some s /\ raises E (push_datum d u) (subscript_error (s_name s) x).
Proof.
  intros T C Hn B. pose proof (set_two g u id n _ T C) as N2. destruct Hn as (s & H & K & Y). exists s. split; [exact H|].
  unfold raises. rewrite (store_step E u id n d C) by (exists s; exact H).
  assert (W : exists w, store id n d u = (Fail (subscript_error (s_name s) x), w) /\ v_st w = v_st u /\ v_cs w = v_cs u).
  { destruct d; cbn [store sort_of vtype_of] in *.
    - destruct (at_bad_num u id n x s H K Y B N2) as (w & W & W1 & W2). exists w. unfold set_numeric_element, bind at 1. rewrite W. auto.
    - destruct (at_bad_str u id n x s H K Y B N2) as (w & W & W1 & W2). exists w. unfold set_string_element, bind at 1. rewrite W. auto. }
  destruct W as (w & W & W1 & W2). exists w. unfold adv, bind. rewrite W. cbn [finish]. destruct d; auto.
Qed.
Lemma bad_stack v w n x : v_stack w = v_stack v -> bad_subscript v n x -> bad_subscript w n x.
Proof. intros H. unfold bad_subscript. rewrite H. auto. Qed.
Theorem dim_bad E g v t id n x : typed g v -> current v = Some (dim t id n) -> named v id KArray t -> bad_subscript v n x ->
  exists s w, symbol_at (v_st v) id = Some s /\ execute E v = (Fail (subscript_error (s_name s) x), w) /\ v_cs w = v_cs v.
Proof.
  intros T C (s & H & K & Y) B. pose proof (dim_two g v id n _ T C) as N2. pose proof (typed_fits g v id s T H) as F. unfold fits in F. rewrite K, Y in F.
  exists s. rewrite (execute_eq E v _ C). destruct t; cbn [dim vtype_of exec_instr] in *.
  - unfold adv, exec_dim_num. unfold bind at 1. unfold bind at 1, get_sym at 1. rewrite H. unfold bind at 1, is_kind. rewrite K, Y. cbn [skind_eqb vtype_eqb andb assert]. unfold ret at 1.
    destruct (s_val s); try contradiction; cbn [val_numarr some_or_crash].
    + unfold bind at 1, ret at 1. unfold bind at 1, ret at 1. destruct (pops_bad v n x (s_name s) B N2) as (w & W & W1 & W2).
      exists w. split; [reflexivity|]. unfold bind at 1. rewrite W. auto.
    + unfold bind at 1, ret at 1. rewrite F. cbn [assert]. unfold bind at 1. unfold bind at 1, ret at 1. unfold put_sym, modify at 1.
      match goal with |- context [bind (pop_indexes n _) _ ?u] => destruct (pops_bad u n x (s_name s) (bad_stack v u n x eq_refl B) N2) as (w & W & W1 & W2) end.
      exists w. split; [reflexivity|]. unfold bind at 1. rewrite W. auto.
  - unfold adv, exec_dim_str. unfold bind at 1. unfold bind at 1, get_sym at 1. rewrite H. unfold bind at 1, is_kind. rewrite K, Y. cbn [skind_eqb vtype_eqb andb assert]. unfold ret at 1.
    destruct (s_val s); try contradiction; cbn [val_strarr some_or_crash].
    + unfold bind at 1, ret at 1. unfold bind at 1, ret at 1. destruct (pops_bad v n x (s_name s) B N2) as (w & W & W1 & W2).
      exists w. split; [reflexivity|]. unfold bind at 1. rewrite W. auto.
    + unfold bind at 1, ret at 1. rewrite F. cbn [assert]. unfold bind at 1. unfold bind at 1, ret at 1. unfold put_sym, modify at 1.
      match goal with |- context [bind (pop_indexes n _) _ ?u] => destruct (pops_bad u n x (s_name s) (bad_stack v u n x eq_refl B) N2) as (w & W & W1 & W2) end.
      exists w. split; [reflexivity|]. unfold bind at 1. rewrite W. auto.
Qed.

(* ---------- CLEAR ---------- *)

Lemma cleared_symbols g v : typed g v -> cleared v (set_st (clear_symbol_table_values (v_st v)) v).
Proof.
  intros T. split; [reflexivity|]. intros id s H. unfold symbol_at. cbn [v_st set_st clear_symbol_table_values st_syms].
  rewrite nth_error_map. unfold symbol_at in H. rewrite H. cbn [option_map]. eexists. split; [reflexivity|].
  pose proof (typed_fits g v id s T H) as F. unfold fits in F.
  destruct (s_defined s) eqn:D.
  - unfold undefine_value. destruct (s_kind s) eqn:K; cbn; rewrite ?K; repeat split; auto; try congruence.
    destruct (s_type s); destruct F as [F _]; intros; exact F.
  - repeat split; auto; try congruence. intros NV.
    destruct (s_kind s), (s_type s); try (destruct F as [F _]; exact F); try congruence; destruct (s_val s); try contradiction;
      try reflexivity; try discriminate F; try (destruct F; congruence).
Qed.
Theorem clear_instr E g v : typed g v -> current v = Some I_CLEAR ->
  exists w, execute E v = (Ok tt, set_cs (place_after v 1) w) /\ cleared v w.
Proof.
  intros T C. eexists. split; [|exact (cleared_symbols g v T)]. rewrite (execute_eq E v _ C). cbn [exec_instr].
  apply finish_place; reflexivity.
Qed.
(* what that means for variables, arrays and functions *)
Lemma cleared_views v w : cleared v w -> forall id t,
  (named v id KVariable t -> named w id KVariable t /\ variable w t id = unset t) /\
  (named v id KArray t -> named w id KArray t /\ bounds w id = None) /\
  (forall s, symbol_at (v_st v) id = Some s -> s_kind s = KDef -> exists s', symbol_at (v_st w) id = Some s' /\ s_kind s' = KDef /\ s_defined s' = false).
Proof.
  intros (_ & H) id t. split; [|split].
  - intros (s & Hs & K & Y). destruct (H id s Hs) as (s' & Hs' & N' & K' & Y' & _ & B). split; [exists s'; repeat split; congruence|].
    destruct B as [D _]; [congruence|]. unfold variable. rewrite Hs', D. reflexivity.
  - intros (s & Hs & K & Y). destruct (H id s Hs) as (s' & Hs' & N' & K' & Y' & _ & B). split; [exists s'; repeat split; congruence|].
    destruct B as [D V]; [congruence|]. unfold bounds. rewrite Hs', V by congruence. reflexivity.
  - intros s Hs K. destruct (H id s Hs) as (s' & Hs' & N' & K' & Y' & _ & B). exists s'. split; [exact Hs'|]. split; [congruence|]. apply B. congruence.
Qed.
