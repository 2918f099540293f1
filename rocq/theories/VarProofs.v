(* Simple variables hold what was last assigned to them (C37). *)
From Coq Require Import Lia ZifyBool ZifyNat ZifyN.
From Verif Require Import Base BaseLemmas Num BcodeModel SymbolModel VmModel VmLemmas VmSpec ControlProofs ForProofs VmTyping OpSpec OpProofs
  ValueSpec ValueProofs StoreSpec StoreProofs StoreFrames FnSpec FnProofs VarSpec.
Local Open Scope nat_scope.

Section Var.
Variables (id : symid) (g : list sig) (t : sort).
Let F (v : vm) := symbol_at (v_st v) id.
Hypothesis KV : sg_kind g id KVariable (vtype_of t).

Ltac fr := repeat first [apply keeps_put_other; assumption | keeps_more].

Lemma other_kind j k t' : sg_kind g j k t' -> k <> KVariable -> j <> id.
Proof. intros (a & b & H) K ->. destruct KV as (c & d & V). rewrite H in V. injection V as _ _ V _. congruence. Qed.

Lemma last_nth {A} (l : list A) : l <> [] -> nth_error l (length l - 1) = last_opt l.
Proof.
  destruct l as [|y l _] using rev_ind; [congruence|]. intros _. rewrite last_opt_app, app_length. cbn [length].
  rewrite nth_error_app2 by lia. replace (length l + 1 - 1 - length l) with 0 by lia. reflexivity.
Qed.
Lemma var_next si v : (forall f, nth_error (v_for v) si = Some f -> f_sym f <> id) -> F (snd (next si v)) = F v.
Proof.
  intros T. unfold next, bind at 1, get. unfold bind at 1. destruct (nth_error (v_for v) si) as [f|] eqn:NE; [|reflexivity].
  cbn [some_or_crash]. unfold ret at 1.
  assert (J : f_sym f <> id) by (apply T; reflexivity).
  match goal with |- F (snd (?m v)) = _ => assert (K : keeps F m); [|apply K] end. fr.
Qed.
Lemma var_end_def v : (in_function v -> fn_param (v_fn v) <> id) -> F (snd (end_def v)) = F v.
Proof.
  intros T. unfold end_def, bind at 1, get. destruct (cs_code (fn_cs (v_fn v))) eqn:C; [|apply (keeps_run_error F); reflexivity].
  assert (J : fn_param (v_fn v) <> id) by (apply T; unfold in_function; congruence).
  match goal with |- F (snd (?m v)) = _ => assert (K : keeps F m); [|apply K] end. fr.
Qed.
Lemma var_call j n v : (forall d, function v j = Some d -> parameter d <> Some id) -> F (snd (call_def j n v)) = F v.
Proof.
  intros T. unfold call_def, bind at 1, get_sym at 1. destruct (symbol_at (v_st v) j) as [s|] eqn:H; [|reflexivity].
  destruct (skind_eqb (s_kind s) KDef) eqn:K; [|reflexivity]. apply skind_eq in K. cbn [assert]. unfold bind at 1, ret at 1.
  destruct (s_defined s) eqn:D; [|apply (keeps_run_error F); reflexivity]. cbn [negb].
  destruct (s_val s) as [| | | | |d|] eqn:V; try reflexivity. cbn [val_def some_or_crash]. unfold bind at 1, ret at 1. cbn [some_or_crash]. unfold bind at 1, ret at 1.
  unfold bind at 1, get at 1. specialize (T d). unfold function in T. rewrite H, D, V in T. specialize (T eq_refl).
  destruct (nth_error (bc_inst (def_bcode d)) 1) as [i|] eqn:P.
  2:{ match goal with |- F (snd (?m v)) = _ => assert (Q : keeps F m); [|apply Q] end. fr. }
  match goal with |- F (snd (?m v)) = _ => assert (Q : keeps F m); [|apply Q] end.
  destruct i; try solve [fr].
  assert (J : id0 <> id).
  { intros ->. apply T. unfold parameter, body. destruct (bc_inst (def_bcode d)) as [|a [|b l]]; cbn in P; try discriminate P. injection P as ->. reflexivity. }
  fr.
Qed.

Definition reads (i : instr) : bool :=
  match i with I_GET_SIMPLE_NUM j | I_GET_SIMPLE_STR j => (j =? id)%N | _ => false end.

Lemma var_frame E i v : typed g v -> current v = Some i -> ~ assigns v id -> reads i = false -> F (snd (exec_instr E i v)) = F v.
Proof.
  intros T C H R. pose proof (typed_current g v i T C) as I. unfold assigns in H. rewrite C in H.
  destruct (calls i) eqn:K.
  2:{ apply frame_plain; [|exact K]. destruct i; cbn [subject reads instr_ok] in *; try discriminate; try (apply N.eqb_neq in R; congruence); try congruence.
      - destruct I as [_ I]. pose proof (other_kind _ _ _ I ltac:(discriminate)). congruence.
      - destruct I as [_ I]. pose proof (other_kind _ _ _ I ltac:(discriminate)). congruence.
      - destruct I as [_ I]. pose proof (other_kind _ _ _ I ltac:(discriminate)). congruence.
      - destruct I as [_ I]. pose proof (other_kind _ _ _ I ltac:(discriminate)). congruence.
      - destruct I as [t' I]. pose proof (other_kind _ _ _ I ltac:(discriminate)). congruence. }
  destruct i; try discriminate K; try (exfalso; apply H; exact Logic.I); cbn [exec_instr instr_ok] in *.
  - assert (J : id0 <> id) by (destruct I as [[_ I]|I]; apply (other_kind _ _ _ I); discriminate).
    unfold bind at 1, get_sym. destruct (symbol_at (v_st v) id0) as [s|] eqn:Y; [|reflexivity].
    destruct (vtype_eqb _ _); [|reflexivity]. cbn [assert]. unfold bind at 1, ret at 1. destruct (skind_eqb (s_kind s) KArray).
    + match goal with |- F (snd (?m v)) = _ => assert (Q : keeps F m); [|apply Q] end. fr.
    + unfold adv, bind. assert (Z : F (snd (call_def id0 params v)) = F v) by (apply var_call; intros d D P; apply H; eauto).
      destruct (call_def _ _ v) as [[]]; exact Z.
  - assert (J : id0 <> id) by (destruct I as [[_ I]|I]; apply (other_kind _ _ _ I); discriminate).
    unfold bind at 1, get_sym. destruct (symbol_at (v_st v) id0) as [s|] eqn:Y; [|reflexivity].
    destruct (vtype_eqb _ _); [|reflexivity]. cbn [assert]. unfold bind at 1, ret at 1. destruct (skind_eqb (s_kind s) KArray).
    + match goal with |- F (snd (?m v)) = _ => assert (Q : keeps F m); [|apply Q] end. fr.
    + unfold adv, bind. assert (Z : F (snd (call_def id0 params v)) = F v) by (apply var_call; intros d D P; apply H; eauto).
      destruct (call_def _ _ v) as [[]]; exact Z.
  - unfold bind at 1. assert (FD : keeps F (trace_for (dump_for (lit "NEXT-VARIABLE")))) by fr.
    specialize (FD v). destruct (trace_for _ v) as [[[]|e| |] w]; cbn [snd] in *; try exact FD.
    rewrite <- FD. unfold bind at 1, get. destruct (last_opt (v_for w)) as [f|] eqn:L; [|apply (keeps_run_error F); reflexivity].
    destruct (_ =? _)%N eqn:Q.
    + apply N.eqb_eq in Q. unfold adv, bind. 
      assert (Z : F (snd (next (length (v_for w) - 1) w)) = F w).
      { apply var_next. intros f' N. rewrite last_nth, L in N by (intros W; rewrite W in L; discriminate L). congruence. }
      destruct (next _ w) as [[]]; exact Z.
    + pose proof (find_for_spec (v_for w) id0) as S0. destruct (find_for _ _) as [si|].
      * destruct S0 as (a & f0 & b & S1 & S2 & S3 & _). unfold adv, bind.
        assert (Z : F (snd (next si w)) = F w).
        { apply var_next. intros f' N. rewrite S1, nth_error_app2, S2, Nat.sub_diag in N by lia. injection N as <-. congruence. }
        destruct (next _ w) as [[]]; exact Z.
      * match goal with |- F (snd (?m w)) = _ => assert (Q' : keeps F m); [|apply Q'] end. fr.
  - unfold bind at 1. assert (FD : keeps F (trace_for (dump_for (lit "NEXT-IMPLICIT")))) by fr.
    assert (VD : keeps v_for (trace_for (dump_for (lit "NEXT-IMPLICIT")))) by fr.
    specialize (FD v). specialize (VD v). destruct (trace_for _ v) as [[[]|e| |] w]; cbn [snd] in *; try exact FD.
    rewrite <- FD. unfold bind at 1, get. destruct (v_for w) as [|f0 fs0] eqn:W; [apply (keeps_run_error F); reflexivity|].
    unfold adv, bind. match goal with |- context [next ?si w] => assert (Z : F (snd (next si w)) = F w) end.
    { apply var_next. intros f N Q. apply H. exists f. split; [|exact Q]. rewrite <- VD, <- N, <- last_nth, W by discriminate. reflexivity. }
    match goal with |- context [next ?si w] => destruct (next si w) as [[]]; exact Z end.
  - unfold adv, bind. assert (Z : F (snd (end_def v)) = F v) by (apply var_end_def; intros I1 Q; apply H; auto).
    destruct (end_def v) as [[]]; exact Z.
Qed.

Lemma finish_var (m : M bool) v : variable (snd (m v)) t id = variable v t id -> variable (snd (finish (m v))) t id = variable v t id.
Proof. destruct (m v) as [[[]|e| |] w]; exact (fun H => H). Qed.

Theorem var_step E v : typed g v -> ~ assigns v id -> variable (snd (execute E v)) t id = variable v t id.
Proof.
  intros T H. destruct (current v) as [i|] eqn:C; [|rewrite (execute_none E v C); reflexivity].
  assert (SAME : forall w, F w = F v -> variable w t id = variable v t id) by (intros w Q; unfold variable, F in *; rewrite Q; reflexivity).
  rewrite (execute_eq E v i C). apply finish_var.
  destruct (reads i) eqn:R; [|apply SAME, var_frame; assumption].
  assert (PUT : forall s, F v = Some s -> s_defined s = false ->
    forall w, F w = F (set_st (sym_update (v_st v) (N.to_nat id) (define s VZero)) v) -> variable w t id = variable v t id).
  { intros s H1 D w Q. unfold F in *. cbn [v_st set_st] in Q. rewrite (symbol_update_same _ _ _ s H1) in Q. unfold variable. rewrite Q, H1, D. reflexivity. }
  destruct i; cbn [reads] in R; try discriminate R; apply N.eqb_eq in R; subst; cbn [exec_instr].
  - unfold get_numeric_simple, adv. unfold bind at 2, get_sym. unfold bind at 1. destruct (symbol_at (v_st v) id) as [s|] eqn:Y; [|reflexivity].
    destruct (is_kind _ _ _) eqn:K; [|reflexivity]. cbn [assert]. unfold bind at 1, ret at 1.
    destruct (s_defined s) eqn:D.
    + destruct (val_num (s_val s)) as [x|]; [|reflexivity]. cbn [some_or_crash]. unfold bind at 1, ret at 1.
      assert (Q : keeps F (push x)) by fr. specialize (Q v). destruct (push x v) as [[[]|e| |] w]; apply SAME; exact Q.
    + unfold bind at 1, put_sym, modify. assert (Q : keeps F (push fzero)) by fr.
      match goal with |- context [push fzero ?w] => specialize (Q w); destruct (push fzero w) as [[[]|e| |] w'] end; apply (PUT s Y D); exact Q.
  - unfold get_string_simple, adv. unfold bind at 2, get_sym. unfold bind at 1. destruct (symbol_at (v_st v) id) as [s|] eqn:Y; [|reflexivity].
    destruct (is_kind _ _ _) eqn:K; [|reflexivity]. cbn [assert]. unfold bind at 1, ret at 1.
    destruct (s_defined s) eqn:D.
    + match goal with |- context [bind ?m ?k v] => assert (Q : keeps F (bind m k)) by fr; specialize (Q v); destruct (bind m k v) as [[[]|e| |] w] end; apply SAME; exact Q.
    + unfold bind at 1, put_sym, modify. assert (Q : keeps F (push_str [])) by fr.
      match goal with |- context [push_str [] ?w] => specialize (Q w); destruct (push_str [] w) as [[[]|e| |] w'] end; apply (PUT s Y D); exact Q.
Qed.
End Var.

Theorem var_history E g t id v l v' ws : runs E v l v' -> assignments t id l ws -> typed g v -> named v id KVariable t ->
  variable v' t id = last ws (variable v t id).
Proof.
  intros R. revert ws. induction R as [|v v1 l v' X R IH]; intros ws H T Hn.
  - inversion H; subst. reflexivity.
  - assert (T1 : typed g v1) by (pose proof (typed_execute g E v T) as Q; rewrite X in Q; exact Q).
    assert (SG : sg_kind g id KVariable (vtype_of t)).
    { destruct Hn as (s & Hs & K & Y). exists (s_name s), (s_id s). rewrite (typed_sig g v id s T Hs). unfold sig_of. rewrite K, Y. reflexivity. }
    assert (N1 : named v1 id KVariable t).
    { destruct SG as (a & b & G). rewrite <- (ty_sigs g v1 T1) in G. unfold sigs in G. rewrite nth_error_map in G.
      unfold named, symbol_at. destruct (nth_error (st_syms (v_st v1)) (N.to_nat id)) as [s|] eqn:Q; [|discriminate G].
      injection G as _ _ G1 G2. exists s. auto. }
    inversion H as [|? ? ? OT H'|u d ? ws' C SD H']; subst.
    + rewrite (IH ws H' T1 N1). pose proof (var_step id g t SG E v T OT) as Q. rewrite X in Q. cbn [snd] in Q. rewrite Q. reflexivity.
    + assert (ST : v_st (push_datum d u) = v_st u) by (destruct d; reflexivity).
      assert (Hu : named u id KVariable (sort_of d)) by (unfold named in *; rewrite ST in Hn; exact Hn).
      assert (Tu : typed g u) by (apply (typed_same g (push_datum d u)); [destruct d; reflexivity|exact T]).
      destruct (variable_write E g u id d Tu C Hu) as (w & XW & O & V). rewrite XW in X. injection X as X.
      rewrite (IH ws' H' T1 N1). assert (V1 : variable v1 (sort_of d) id = d) by (rewrite <- X; exact V). rewrite V1.
      clear. revert d. induction ws' as [|e ws' IH]; intros d; [reflexivity|]. cbn [last]. destruct ws'; [reflexivity|]. exact (IH d).
Qed.
