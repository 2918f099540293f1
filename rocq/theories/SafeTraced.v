(* The line that is traced exists also when statements are typed (C31). *)
From Coq Require Import Lia ZifyBool ZifyNat ZifyN.
From Verif Require Import Base BaseLemmas Num NumSpec NumLemmas SourceModel LineMapModel ArrayModel BcodeModel SymbolModel SymbolSpec
  VmModel VmLemmas VmSpec ControlProofs ValueSpec ValueProofs VmTyping GrammarSpec TypeSpec StepSpec DataSpec DataProofs SafeProofs SafeCode SafeRun SafeCrash SafeTop FnProofs.
Local Open Scope nat_scope.

Section Traced.
Variables (sto imo : codeobj) (n : nat).
Hypothesis LM : forall x m i, c_index sto = Some x -> lookup_line_mapping x m = Some i -> 0 < n.
(* the number of the line is that of a line of the source *)
Definition lok (c : code_state) : Prop :=
  match cs_code c with Some CStored => cs_line c < n | Some CImmediate => cs_line c = 0 | _ => True end.
Record held (v : vm) : Prop := {
  hd_sto : v_stored v = sto;
  hd_imm : v_imm v = imo;
  hd_cs : lok (v_cs v);
  hd_ret : Forall lok (v_ret v);
  hd_for : Forall (fun f => lok (f_cs f)) (v_for v);
  hd_fn : lok (fn_cs (v_fn v))
}.
Definition part (v : vm) := (v_stored v, v_imm v, v_cs v, v_ret v, v_for v, v_fn v).
Lemma held_part v w : part w = part v -> held v -> held w.
Proof. unfold part. intros K [A1 A2 A3 A4 A5 A6]. injection K as K1 K2 K3 K4 K5 K6. constructor; congruence. Qed.
Lemma held_keeps {A} (m : M A) : keeps part m -> inv held m.
Proof. intros K v. apply held_part, K. Qed.
Lemma held_get {A} (k : vm -> M A) : (forall v, held v -> inv held (k v)) -> inv held (bind get k).
Proof. intros H v D. exact (H v D v D). Qed.
Lemma held_some {A B} (o : option A) (k : A -> M B) : (forall a, o = Some a -> inv held (k a)) -> inv held (bind (some_or_crash o) k).
Proof. intros H v D. unfold bind. destruct o as [a|]; cbn [some_or_crash ret]; [exact (H a eq_refl v D)|exact D]. Qed.
Lemma held_cs c v : lok c -> held v -> held (set_cs c v).
Proof. intros L [A1 A2 A3 A4 A5 A6]. constructor; assumption. Qed.
Lemma held_pc p v : held v -> held (set_pc p v).
Proof. intros H. apply held_cs; [exact (hd_cs v H)|exact H]. Qed.
Lemma held_for l v : Forall (fun f => lok (f_cs f)) l -> held v -> held (set_for l v).
Proof. intros L [A1 A2 A3 A4 A5 A6]. constructor; assumption. Qed.
Lemma held_fn f v : lok (fn_cs f) -> held v -> held (set_fn f v).
Proof. intros L [A1 A2 A3 A4 A5 A6]. constructor; assumption. Qed.
Lemma held_push p : inv held (push_return p).
Proof.
  intros v H. unfold push_return. destruct (Nat.leb _ _); [apply (held_part v); [reflexivity|exact H]|]. destruct H as [A1 A2 A3 A4 A5 A6]. constructor; try assumption. constructor; assumption.
Qed.
Lemma held_pop : inv held pop_return.
Proof.
  intros v H. unfold pop_return. destruct (v_ret v) as [|c r] eqn:R; [apply (held_part v); [reflexivity|exact H]|]. destruct H as [A1 A2 A3 A4 A5 A6]. rewrite R in A4. inversion A4; subst. constructor; assumption.
Qed.
Lemma Forall_rm {A} (P : A -> Prop) l i : Forall P l -> Forall P (remove_nth l i).
Proof. intros H. revert i. induction H as [|x l X H IH]; intros [|i]; cbn; try constructor; auto. Qed.
Ltac held_step :=
  match goal with
  | |- inv _ (bind (some_or_crash _) _) => apply held_some; intros ? ?
  | |- inv _ (bind get _) => apply held_get; intros ? ?
  | |- inv _ (bind _ _) => apply inv_bind; [|intros ?]
  | |- inv _ (ret _) => apply inv_ret
  | |- inv _ crash => apply inv_crash
  | |- inv _ get => apply inv_get
  | |- inv _ (assert _) => apply inv_assert
  | |- inv _ (some_or_crash _) => apply inv_some
  | |- inv _ (if ?b then _ else _) => destruct b eqn:?
  | |- inv _ (match ?x with _ => _ end) => destruct x eqn:?
  | |- inv _ (adv _) => unfold adv
  | |- inv _ (jump _) => unfold jump
  | |- inv _ (push_return _) => apply held_push
  | |- inv _ pop_return => apply held_pop
  | |- inv _ (modify (set_pc _)) => apply inv_modify; intros ? ?; apply held_pc; assumption
  | |- inv _ (skip_to _) => unfold skip_to
  | |- inv _ (modify (fun v => set_pc _ v)) => apply inv_modify; intros ? ?; apply held_pc; assumption
  | |- inv _ _ => solve [apply held_keeps; repeat keeps_more]
  end; cbv beta zeta.
Lemma held_next si : inv held (next si).
Proof.
  unfold next. repeat held_step; apply inv_modify; intros w W.
  - apply held_for; [apply Forall_rm; exact (hd_for w W)|exact W].
  - apply held_cs; [|exact W]. match goal with H : held ?v, N : nth_error (v_for ?v) _ = Some _ |- _ => exact (VmTyping.Forall_nth _ _ _ _ (hd_for v H) N) end.
Qed.
Lemma Forall_upd {A} (P : A -> Prop) l : forall i x, P x -> Forall P l -> Forall P (list_upd l i x).
Proof. intros i x X H. apply Forall_list_upd; assumption. Qed.
Lemma held_exec_for id : inv held (exec_for id).
Proof.
  unfold exec_for. repeat held_step; apply inv_modify; intros w W; (apply held_for; [|exact W]); try (apply Forall_upd; [|exact (hd_for w W)]; cbn [f_cs]; match goal with H : held ?v |- lok (v_cs ?v) => exact (hd_cs v H) end).
  - apply Forall_app. match goal with H : held ?v, N : nth_error (v_for ?v) _ = Some _ |- _ => split; [apply Forall_rm; exact (hd_for v H)|constructor; [exact (VmTyping.Forall_nth _ _ _ _ (hd_for v H) N)|constructor]] end.
  - apply Forall_app. match goal with H : held ?v |- Forall _ (v_for ?v) /\ _ => split; [exact (hd_for v H)|constructor; [exact Logic.I|constructor]] end.
Qed.
Lemma held_call id k : inv held (call_def id k).
Proof.
  unfold call_def. repeat held_step; apply inv_modify; intros w W; first [apply held_fn; [|exact W]; cbn [fn_cs]; match goal with H : held ?v |- lok (v_cs ?v) => exact (hd_cs v H) end | apply held_cs; [exact Logic.I|exact W] | idtac].
Qed.
Lemma held_end : inv held end_def.
Proof.
  unfold end_def. repeat held_step; apply inv_modify; intros w W; first [apply held_fn; [exact Logic.I|exact W] | apply held_cs; [|exact W]; match goal with H : held ?v |- lok (fn_cs (v_fn ?v)) => exact (hd_fn v H) end].
Qed.
Definition goes_to (i : instr) : bool := match i with I_GOTO _ | I_GOTRUE _ | I_GOSUB _ | I_ON_GOTO _ | I_ON_GOSUB _ | I_SOURCE_LINE _ => true | _ => false end.
Lemma held_exec E i : goes_to i = false -> inv held (exec_instr E i).
Proof.
  intros G. destruct i; try discriminate G; try solve [apply held_keeps; cbn [exec_instr]; repeat keeps_more]; cbn [exec_instr].
  all: repeat first [apply held_next | apply held_exec_for | apply held_call | apply held_end | unfold exec_def; held_step | held_step].
Qed.
(* jumps *)
Definition placed (v : vm) : Prop := held v /\ (cs_code (v_cs v) = Some CStored \/ cs_code (v_cs v) = Some CImmediate).
Lemma placed_keeps {A} (m : M A) : keeps part m -> inv placed m.
Proof. intros K v [H C]. split; [exact (held_keeps m K v H)|]. specialize (K v). unfold part in K. injection K as _ _ K _ _ _. rewrite K. exact C. Qed.
Lemma placed_go m : inv placed (go_to_basic_line m).
Proof.
  intros v [H C]. unfold go_to_basic_line, bind, find_basic_line. rewrite (hd_sto v H). destruct (c_index sto) as [x|] eqn:X; [|apply (placed_keeps (run_error (A := unit) (RE_line_not_found m))); [repeat keeps_more|split; assumption]].
  destruct (lookup_line_mapping x m) as [i|] eqn:L; [|apply (placed_keeps (run_error (A := unit) (RE_line_not_found m))); [repeat keeps_more|split; assumption]].
  pose proof (LM _ _ _ eq_refl L) as N0. cbn [modify snd]. split; [|left; reflexivity]. apply held_cs; [|exact H]. pose proof (hd_cs v H) as Q. unfold lok in *. cbn [cs_code cs_line]. destruct C as [C|C]; rewrite C in Q; lia.
Qed.
Lemma placed_push p : inv placed (push_return p).
Proof. intros v [H C]. split; [exact (held_push p v H)|]. unfold push_return. destruct (Nat.leb _ _); exact C. Qed.
Ltac placed_step :=
  match goal with
  | |- inv _ (bind _ _) => apply inv_bind; [|intros ?]
  | |- inv _ (ret _) => apply inv_ret
  | |- inv _ (if ?b then _ else _) => destruct b eqn:?
  | |- inv _ (match ?x with _ => _ end) => destruct x eqn:?
  | |- inv _ (adv _) => unfold adv
  | |- inv _ (jump _) => unfold jump
  | |- inv _ (exec_on _ _) => unfold exec_on
  | |- inv _ (push_return _) => apply placed_push
  | |- inv _ (go_to_basic_line _) => apply placed_go
  | |- inv _ (modify (set_pc _)) => apply inv_modify; intros ? [? ?]; split; [apply held_pc; assumption|assumption]
  | |- inv _ _ => solve [apply placed_keeps; repeat keeps_more]
  end; cbv beta zeta.
Lemma placed_exec E i : goes_to i = true -> (forall k, i <> I_SOURCE_LINE k) -> inv placed (exec_instr E i).
Proof. intros G M0. destruct i; try discriminate G; [destruct (M0 _ eq_refl)|..]; cbn [exec_instr]; repeat placed_step. Qed.
Lemma held_line E k v : lok (mkCs (cs_code (v_cs v)) k (cs_pc (v_cs v))) -> held v -> held (snd (exec_instr E (I_SOURCE_LINE k) v)).
Proof.
  intros L H. cbn [exec_instr]. unfold bind at 1, modify at 1. set (v1 := set_cs _ v). assert (H1 : held v1) by (apply held_cs; assumption).
  destruct (o_trace_basic (v_opt v1)); [|exact H1]. destruct (cs_code (v_cs v1)); [|exact H1]. destruct (c_source _); [|exact H1]. destruct (nth_error _ _); [|exact H1].
  match goal with |- held (snd (?f v1)) => assert (I0 : inv held f) by (repeat held_step); exact (I0 v1 H1) end.
Qed.

(* ---------- running ---------- *)

Variables (g : list sig) (code : coderef -> option bcode) (idx : option linemap) (E : env).
Hypothesis EO : env_ok E.
Hypothesis IX : forall x m i, idx = Some x -> lookup_line_mapping x m = Some i -> begins g code CStored (N.to_nat i).
Hypothesis SC : c_bcode sto = code CStored.
Hypothesis IC : c_bcode imo = code CImmediate.
Hypothesis SM : forall b p k, code CStored = Some b -> nth_error (bc_inst b) p = Some (I_SOURCE_LINE k) -> k < n.
Hypothesis IM : forall b p k, code CImmediate = Some b -> nth_error (bc_inst b) p = Some (I_SOURCE_LINE k) -> k = 0.
Local Notation safe := (safe g code idx).

(* where an instruction that is not part of a function is *)
Lemma outside_code v i : safe v -> current v = Some i -> effect i = None -> i <> I_END_DEF ->
  exists r b, (r = CStored \/ r = CImmediate) /\ cs_code (v_cs v) = Some r /\ code r = Some b /\ nth_error (bc_inst b) (cs_pc (v_cs v)) = Some i.
Proof.
  intros SF C EF NE. unfold current, cur_bcode in C. destruct (sf_here _ _ _ _ SF) as [(r & CS & nn & ss & _ & b & a & AC & _)|(CS & r & _ & bc' & b & t & n0 & s0 & n1 & s1 & DB & SK & FL & _)]; rewrite CS in C.
  - pose proof (sf_code _ _ _ _ SF r b AC) as B. rewrite B in C. destruct AC as [ND AC]. exists r, b. split; [destruct r; auto; destruct (ND eq_refl)|auto].
  - exfalso. cbn [code_of] in C. rewrite DB in C. rewrite (skipn_at _ _ _ C) in SK. destruct b as [|j b]; cbn [app] in SK; injection SK as -> _; [destruct (NE eq_refl)|]. inversion FL; subst. congruence.
Qed.
Lemma held_execute v u w : safe v -> held v -> execute E v = (Ok u, w) -> held w.
Proof.
  intros SF H X. destruct (current v) as [i|] eqn:C; [|rewrite (execute_none E v C) in X; discriminate X].
  assert (Y : held (snd (exec_instr E i v))).
  { destruct (goes_to i) eqn:G; [|exact (held_exec E i G v H)].
    assert (EF : effect i = None) by (destruct i; try discriminate G; reflexivity). assert (NE : i <> I_END_DEF) by (intros ->; discriminate G).
    destruct (outside_code v i SF C EF NE) as (r & b & R & CS & B & NT).
    assert (PL : placed v) by (split; [exact H|destruct R as [-> | ->]; auto]).
    destruct i; try discriminate G; try (apply placed_exec; [reflexivity|discriminate|exact PL]). apply held_line; [|exact H]. unfold lok. cbn [cs_code cs_line]. rewrite CS.
    destruct R as [-> | ->]; [exact (SM b _ _ B NT)|exact (IM b _ _ B NT)]. }
  rewrite (execute_eq E v i C) in X. destruct (exec_instr E i v) as [[[]|e| |] w1]; cbn [finish] in X; try discriminate X; apply (f_equal snd) in X; cbn [snd] in X, Y; subst w; [apply held_pc|]; exact Y.
Qed.
Lemma held_runs v l x : runs E v l x -> safe v -> held v -> safe x /\ held x.
Proof.
  induction 1 as [v|v v1 l w X R IH]; [auto|]. intros SF H. apply IH; [|exact (held_execute v tt v1 SF H X)]. pose proof (safe_step g code idx E EO IX v SF) as G. rewrite X in G. exact G.
Qed.
Variables (src isrc : source).
Hypothesis SS : forall b, code CStored = Some b -> c_source sto = Some src /\ n <= length src.
Hypothesis IS : c_source imo = Some isrc /\ 0 < length isrc.
Lemma held_tells v l x : runs E v l x -> safe v -> held v -> telling x.
Proof.
  intros R SF H. destruct (held_runs v l x R SF H) as [SX HX]. intros i C.
  assert (L : forall r b k, (r = CStored \/ r = CImmediate) -> cs_code (v_cs x) = Some r -> code r = Some b -> lok (mkCs (Some r) k 0) -> has_line x k).
  { intros r b k [-> | ->] CS B LK; unfold lok in LK; cbn in LK.
    - destruct (SS b B) as [S1 S2]. destruct (nth_error src k) as [y|] eqn:N; [|apply nth_error_None in N; lia]. exists CStored, src, y. cbn [code_of]. rewrite (hd_sto x HX). auto.
    - destruct IS as [S1 S2]. destruct (nth_error isrc k) as [y|] eqn:N; [|apply nth_error_None in N; lia]. exists CImmediate, isrc, y. cbn [code_of]. rewrite (hd_imm x HX). auto. }
  assert (Y : effect i = None -> i <> I_END_DEF -> has_line x (cs_line (v_cs x))).
  { intros EF NE. destruct (outside_code x i SX C EF NE) as (r & b & RR & CS & B & NT). apply (L r b _ RR CS B). pose proof (hd_cs x HX) as Q. unfold lok in *. rewrite CS in Q. exact Q. }
  destruct i; cbn [tells]; try exact Logic.I; intros _; try (apply Y; [reflexivity|discriminate]).
  destruct (outside_code x _ SX C eq_refl ltac:(discriminate)) as (r & b & RR & CS & B & NT). apply (L r b _ RR CS B). unfold lok. cbn [cs_code cs_line]. destruct RR as [-> | ->]; [exact (SM b _ _ B NT)|exact (IM b _ _ B NT)].
Qed.
End Traced.
