(* A program runs as its statements say (C38). *)
From Coq Require Import Lia ZifyBool ZifyNat ZifyN SpecFloat.
From Verif Require Import Base BaseLemmas Num NumSpec NumLemmas DoubleProofs QuotientProofs SourceModel LineMapModel ArrayModel ArraySpec ArrayProofs BcodeModel SymbolModel VmModel
  VmLemmas VmSpec ControlProofs OpSpec OpProofs VmTyping ValueSpec ValueProofs ForSpec ForProofs PrintSpec PrintProofs StoreSpec StoreProofs StoreFrames DataSpec DataProofs FnSpec FnProofs
  GrammarSpec TypeSpec CodeProofs LineSpec LineProofs EvalSpec EvalOps ErrSpec BlameProofs EvalProofs StepSpec.
Local Open Scope nat_scope.
Local Notation num := Num.num.
Local Notation named := StoreSpec.named.
Local Notation quiet := PrintSpec.quiet.
Local Notation stacks := EvalOps.stacks.

Section Step.
Variables (E : env) (g : list sig).
Hypothesis EO : env_ok E.
Hypothesis RR : rand_range E.
Variables (src : source) (xss : list (list stmt)).
Hypothesis HD : distinct_lines src.
Local Notation code := (pcode 0 xss).
Local Notation P := (combine (map ln_num src) xss).
Local Notation fit := (EvalSpec.fit g).
Local Notation functions_ok := (EvalSpec.functions_ok g).

(* ---------- the machine and the state ---------- *)

Definition at_spot (p : spot) : code_state := mkCs (Some CStored) (fst p) (stmt_start xss (fst p) (snd p)).
Definition loop_entry (f : loop) : for_loop :=
  mkFor (mkCs (Some CStored) (fst (l_body f)) (pred (stmt_start xss (fst (l_body f)) (snd (l_body f))))) (l_var f) (l_step f) (l_limit f).

(* what holds throughout *)
Record steady (v : vm) : Prop := {
  s_typed : typed g v;
  s_values : values_ok v;
  s_loaded : loaded v src xss;
  s_quiet : quiet v;
  s_stored : marked (v_stored v);
  s_imm : marked (v_imm v);
  s_nodup : nodup_loops v;
  s_limits : within_limits v
}.
(* what the state says of the machine *)
Record shows (v : vm) (s : state) : Prop := {
  w_memory : holds v (x_memory s);
  w_loops : v_for v = map loop_entry (x_loops s);
  w_returns : v_ret v = map at_spot (x_returns s);
  w_data : items_from (v_stored v) (v_pdata v) = x_data s;
  w_output : v_out v = x_output s;
  w_column : v_col v = x_column s;
  w_input : v_in v = x_input s;
  w_line : v_input v = x_line s
}.
Definition live (v : vm) (s : state) : Prop := Forall (fun f => l_live f = true -> assigned_yet v (l_var f) = true) (x_loops s).
(* functions are those of DEF statements of the program *)
Definition fdef (d : def) : Prop := def_stored d = true /\ exists id p e, In (SDef id p e) (line_stmts xss (def_line d)).
Record ready (v : vm) (s : state) : Prop := {
  r_steady : steady v;
  r_shows : shows v s;
  r_arrays : arrays_ok v;
  r_funs : functions_ok (x_memory s);
  r_fn : ~ in_function v;
  r_code : cs_code (v_cs v) = Some CStored;
  r_stopped : v_stopped v = false;
  r_live : live v s;
  r_defs : fine_defs fdef v;
  r_col : (x_column s < 2 ^ 32)%N
}.

Lemma steady_step v w : steady v -> execute E v = (Ok tt, w) -> steady w.
Proof.
  intros [A1 A2 A3 A4 A5 A6 A7 A8] X.
  destruct (current v) as [i|] eqn:C; [|rewrite (execute_none _ _ C) in X; discriminate X].
  pose proof (execute_keeps v_stored E v i C (fun _ _ => eq_refl) (exec_keeps_stored E i)) as K1.
  pose proof (execute_keeps v_imm E v i C (fun _ _ => eq_refl) (exec_keeps_imm E i)) as K2.
  pose proof (execute_keeps v_opt E v i C (fun _ _ => eq_refl) (exec_keeps_opt E i)) as K3.
  pose proof (typed_execute g E v A1) as B1. pose proof (vo_execute E v EO A2) as B2. pose proof (lim_execute E v A8) as B8.
  rewrite X in K1, K2, K3, B1, B2, B8. cbn [snd] in *. constructor; try assumption.
  - exact (loaded_runs E v [v] w src xss (runs_one _ _ _ X) A3).
  - unfold quiet in *. rewrite K3. exact A4.
  - rewrite K1. exact A5.
  - rewrite K2. exact A6.
  - exact (nd_runs E v [v] w (runs_one _ _ _ X) A7).
Qed.
Lemma steady_runs v l w : runs E v l w -> steady v -> steady w.
Proof. induction 1 as [|v v1 l w X R IH]; intros H; [exact H|]. apply IH, (steady_step v _ H X). Qed.

Lemma ready_fit v s : ready v s -> fit v.
Proof. intros H. constructor; apply H. Qed.
Lemma ready_line v s : ready v s -> on_line v.
Proof. intros H. split; [apply H|left; apply H]. Qed.

(* ---------- positions ---------- *)

Definition at_ (k pc : nat) (p : list num * list bytes) (v : vm) : Prop := v_cs v = mkCs (Some CStored) k pc /\ stacks v = p.
Definition code_at (pc : nat) (l : list instr) : Prop := exists r, skipn pc code = l ++ r.

Lemma code_app pc a b : code_at pc (a ++ b) <-> code_at pc a /\ code_at (pc + length a) b.
Proof.
  split.
  - intros (r & H). rewrite <- app_assoc in H. split; [eexists; exact H|]. exists r. rewrite <- skipn_skipn', H, skipn_app, skipn_all, Nat.sub_diag. reflexivity.
  - intros [(r & H) (q & G)]. exists q. rewrite <- skipn_skipn', H, skipn_app, skipn_all, Nat.sub_diag in G. cbn [app skipn] in G. rewrite H, G, app_assoc. reflexivity.
Qed.
Lemma code_cons pc a b : code_at pc (a :: b) <-> code_at pc [a] /\ code_at (S pc) b.
Proof. rewrite (code_app pc [a] b). cbn [length]. rewrite Nat.add_1_r. reflexivity. Qed.
Lemma code_nil pc : code_at pc [].
Proof. eexists. reflexivity. Qed.

Lemma ready_bcode v s : ready v s -> exists bc, cur_bcode v = Some bc /\ bc_inst bc = code /\ v_stored v = mkCode (Some src) (Some bc) (c_index (v_stored v)).
Proof.
  intros R. destruct (s_loaded v (r_steady v s R)) as (kw & bc & idx & st & S & _ & I & _). exists bc.
  split; [unfold cur_bcode; rewrite (r_code v s R); cbn [code_of]; rewrite S; reflexivity|]. split; [exact I|]. rewrite S. reflexivity.
Qed.
Lemma code_from v s k pc p : ready v s -> at_ k pc p v -> code_here v = skipn pc code.
Proof. intros R [A _]. destruct (ready_bcode v s R) as (bc & B & I & _). unfold code_here. rewrite B, A, I. reflexivity. Qed.
Lemma at_current v s k pc p i l : ready v s -> at_ k pc p v -> code_at pc (i :: l) -> current v = Some i.
Proof. intros R A (r & C). apply (current_code v i (l ++ r)). rewrite (code_from v s k pc p R A), C. reflexivity. Qed.

(* ---------- what actions lead to ---------- *)

(* the error is put down to the line k or to that of a function *)
Definition blamed (k : nat) (w : vm) : Prop := shown_line w = Some (print_source_line src k) \/
  exists j id p e, In (SDef id p e) (line_stmts xss j) /\ shown_line w = Some (print_source_line src j).
Definition leads {A} (k : nat) (v : vm) (r : done A) (Q : A -> vm -> Prop) : Prop :=
  match r with
  | Done a s' => overflows E v \/ exists l w, runs E v l w /\ ready w s' /\ Q a w
  | Failed e s' => overflows E v \/ exists l u w, runs E v l u /\ execute E u = (Fail e, w) /\ v_stopped w = false /\ shows w s' /\ blamed k w
  | Meaningless => True
  end.
Lemma leads_over {A} {ln} v (r : done A) Q : overflows E v -> leads ln v r Q.
Proof. intros O. destruct r; cbn; auto. Qed.
Lemma leads_runs {A} {ln} v l w (r : done A) Q : runs E v l w -> v_stopped w = false -> leads ln w r Q -> leads ln v r Q.
Proof.
  intros R S H. assert (S' : v_stopped w = v_stopped v) by (rewrite (proj2 (runs_stopped E v l w R S)); exact S). destruct r as [a s'|e s'|]; [| |exact I].
  - destruct H as [H|(k & z & R' & Z)]; [left; exact (overflows_after _ _ _ _ R S' H)|]. right. exists (l ++ k), z. split; [exact (runs_app _ _ _ _ _ _ R R')|exact Z].
  - destruct H as [H|(k & u & z & R' & Z)]; [left; exact (overflows_after _ _ _ _ R S' H)|]. right. exists (l ++ k), u, z. split; [exact (runs_app _ _ _ _ _ _ R R')|exact Z].
Qed.
Lemma leads_done {A} {ln} v s (a : A) (Q : A -> vm -> Prop) : ready v s -> Q a v -> leads ln v (Done a s) Q.
Proof. intros R H. right. exists [], v. split; [constructor|]. split; assumption. Qed.
Lemma leads_one {A} {ln} v w s (a : A) (Q : A -> vm -> Prop) : execute E v = (Ok tt, w) -> ready w s -> Q a w -> leads ln v (Done a s) Q.
Proof. intros X R H. exact (leads_runs v [v] w _ Q (runs_one _ _ _ X) (r_stopped w s R) (leads_done w s a Q R H)). Qed.
Lemma at_shown v s k pc p : ready v s -> at_ k pc p v -> shown_line v = Some (print_source_line src k).
Proof.
  intros R [A _]. destruct (ready_bcode v s R) as (bc & _ & _ & S). unfold shown_line. rewrite A. cbn [cs_code code_of cs_line]. rewrite S. reflexivity.
Qed.
Lemma leads_fail {A} {ln} v e s w (Q : A -> vm -> Prop) s0 pc p : execute E v = (Fail e, w) -> ready v s0 -> at_ ln pc p v -> inner_error e = false -> shows w s -> leads ln v (Failed e s) Q.
Proof.
  intros X R AT IE H. right. exists [], v, w. split; [constructor|]. split; [exact X|]. split; [rewrite (failed_stopped E v e w X); apply R|]. split; [exact H|].
  left. rewrite (failed_shown E v e w X IE). exact (at_shown v s0 ln pc p R AT).
Qed.
Lemma leads_bind {A B} {ln} v (a : act A) (k : A -> act B) s (Q : A -> vm -> Prop) (R : B -> vm -> Prop) : leads ln v (a s) Q ->
  (forall x s' w, a s = Done x s' -> ready w s' -> Q x w -> leads ln w (k x s') R) -> leads ln v (following_by a k s) R.
Proof.
  intros H K. unfold following_by. destruct (a s) as [x s'|e s'|]; [|exact H|exact I].
  destruct H as [H|(l & w & R1 & R2 & R3)]; [apply leads_over, H|]. exact (leads_runs v l w _ _ R1 (r_stopped w s' R2) (K x s' w eq_refl R2 R3)).
Qed.
Lemma leads_more {A} {ln} v (r : done A) (Q R : A -> vm -> Prop) : leads ln v r Q -> (forall x w, Q x w -> R x w) -> leads ln v r R.
Proof. intros H K. destruct r; [|exact H|exact I]. destruct H as [H|(l & w & R1 & R2 & R3)]; [left; exact H|right; exists l, w; auto]. Qed.
Lemma leads_look {A B} {ln} v (f : state -> A) (k : A -> act B) s R : leads ln v (k (f s) s) R -> leads ln v (following_by (look f) k s) R.
Proof. intros H. exact H. Qed.
Lemma leads_give {A B} {ln} v (a : A) (k : A -> act B) s R : leads ln v (k a s) R -> leads ln v (following_by (give a) k s) R.
Proof. intros H. exact H. Qed.
Lemma leads_update {B} {ln} v (f : state -> state) (k : unit -> act B) s R : leads ln v (k tt (f s)) R -> leads ln v (following_by (update f) k s) R.
Proof. intros H. exact H. Qed.
Lemma leads_assoc {A B C} {ln} v (a : act A) (b : A -> act B) (c : B -> act C) s Q :
  leads ln v (following_by a (fun x => following_by (b x) c) s) Q -> leads ln v (following_by (following_by a b) c s) Q.
Proof. unfold following_by. destruct (a s); auto. Qed.

(* ---------- values ---------- *)

Lemma shows_memory v s w m : shows v s -> holds w m -> untouched w = untouched v -> shows w (with_memory m s).
Proof.
  intros [A1 A2 A3 A4 A5 A6 A7 A8] H U. unfold untouched in U. injection U as U1 U2 U3 U4 U5 U6 U7 U8 U9 U10 U11 U12 U13 U14 U15.
  constructor; cbn [x_memory x_loops x_returns x_data x_output x_column x_input x_line with_memory]; try congruence.
Qed.
Lemma ready_after v s n p m w l : ready v s -> runs E v l w -> after g v n p m w -> ready w (with_memory m s).
Proof.
  intros R RU A. pose proof (a_rest _ _ _ _ _ _ A) as U. constructor.
  - exact (steady_runs v l w RU (r_steady v s R)).
  - exact (shows_memory v s w m (r_shows v s R) (a_holds _ _ _ _ _ _ A) U).
  - apply A.
  - apply A.
  - rewrite (a_fn _ _ _ _ _ _ A). apply R.
  - rewrite (a_cs _ _ _ _ _ _ A). apply R.
  - unfold untouched in U. rewrite <- (r_stopped v s R). congruence.
  - pose proof (r_live v s R) as L. unfold live in *. cbn [x_loops with_memory]. revert L. apply Forall_impl. intros f H Y. apply (a_yet _ _ _ _ _ _ A), H, Y.
  - apply (a_defs _ _ _ _ _ _ A), R.
  - apply R.
Qed.
Lemma at_after v k pc p q n m w : at_ k pc p v -> after g v n q m w -> at_ k (pc + n) q w.
Proof. intros [A _] F. split; [rewrite (a_cs _ _ _ _ _ _ F); unfold place_after; rewrite A; reflexivity|apply F]. Qed.

Lemma comes_leads {A} v s k pc p n (Q : A -> Prop) (q : A -> list num * list bytes) (f : memory -> answer A) :
  ready v s -> at_ k pc p v -> comes E v (fun d m w => Q d /\ after g v n (q d) m w) (f (x_memory s)) ->
  leads k v (with_answer f s) (fun d w => Q d /\ at_ k (pc + n) (q d) w /\ untouched w = untouched v).
Proof.
  intros R AT C. unfold with_answer. destruct (f (x_memory s)) as [d m|e m|]; [| |exact I].
  - destruct C as [C|(l & w & RU & [X F] & _)]; [left; exact C|]. right. exists l, w. split; [exact RU|]. split; [exact (ready_after v s _ _ m w l R RU F)|].
    split; [exact X|]. split; [exact (at_after _ _ _ _ _ _ _ _ AT F)|apply F].
  - destruct C as [C|(l & u & w & RU & X & H & U & BL)]; [left; exact C|]. right. exists l, u, w. split; [exact RU|]. split; [exact X|].
    split; [rewrite (untouched_stopped _ _ U); apply R|]. split; [exact (shows_memory v s w m (r_shows v s R) H U)|].
    destruct BL as [BL|(d & D & BL)]; [left; rewrite BL; exact (at_shown v s k pc p R AT)|]. right. destruct (D fdef (r_defs v s R)) as (DS & id & pa & b & IN).
    exists (def_line d), id, pa, b. split; [exact IN|]. rewrite BL. unfold def_shown. rewrite DS. destruct (ready_bcode v s R) as (bc & _ & _ & S). rewrite S. reflexivity.
Qed.
Lemma code_nonempty v s k pc p l i : ready v s -> at_ k pc p v -> code_at pc (l ++ [i]) -> exists r, code_here v = l ++ i :: r.
Proof. intros R A (r & C). exists r. rewrite (code_from v s k pc p R A), C, <- app_assoc. reflexivity. Qed.

Lemma value_leads e v s k pc p i : wt g e -> ready v s -> at_ k pc p v -> code_at pc (ecode e ++ [i]) ->
  leads k v (value E e s) (fun d w => vtype_of (sort_of d) = etype e /\ at_ k (pc + length (ecode e)) (push_on p d) w /\ untouched w = untouched v).
Proof.
  intros W R A C. destruct (code_nonempty v s k pc p _ i R A C) as (r & CH).
  apply (comes_leads v s k pc p (length (ecode e)) (fun d => vtype_of (sort_of d) = etype e) (push_on p) (evaluate E e) R A).
  rewrite <- (proj2 A). exact (line_value E g EO RR e v (x_memory s) (i :: r) W (ready_fit v s R) (ready_line v s R) (w_memory v s (r_shows v s R)) (r_funs v s R) CH ltac:(discriminate)).
Qed.
Lemma values_leads l v s k pc p i : Forall (wt g) l -> ready v s -> at_ k pc p v -> code_at pc (flat_map ecode l ++ [i]) ->
  leads k v (values E l s) (fun ds w => Forall2 (fun d e => vtype_of (sort_of d) = etype e) ds l /\ at_ k (pc + length (flat_map ecode l)) (pushes ds p) w /\ untouched w = untouched v).
Proof.
  intros W R A C. destruct (code_nonempty v s k pc p _ i R A C) as (r & CH).
  apply (comes_leads v s k pc p (length (flat_map ecode l)) (fun ds => Forall2 (fun d e => vtype_of (sort_of d) = etype e) ds l) (fun ds => pushes ds p) (evals E (call_function E) l) R A).
  rewrite <- (proj2 A). apply (args_comes E g on_line (call_function E) (line_after g) l) with (r := i :: r); try assumption; try discriminate.
  - apply Forall_forall. intros e _. exact (line_value E g EO RR e).
  - exact (ready_fit v s R).
  - exact (ready_line v s R).
  - exact (w_memory v s (r_shows v s R)).
  - exact (r_funs v s R).
Qed.
Lemma number_leads e v s k pc p i : wnum g e -> ready v s -> at_ k pc p v -> code_at pc (ecode e ++ [i]) ->
  leads k v (number_value E e s) (fun x w => double x /\ at_ k (pc + length (ecode e)) (x :: fst p, snd p) w /\ untouched w = untouched v).
Proof.
  intros [W T] R A C. unfold number_value. eapply leads_bind; [exact (value_leads e v s k pc p i W R A C)|].
  intros d s' w _ R' (TD & AW & U). rewrite T in TD. destruct d as [x|t]; [|discriminate TD]. apply leads_done; [exact R'|].
  split; [|split; [exact AW|exact U]]. pose proof (ok_stack w (s_values w (r_steady w s' R'))) as D. destruct AW as [_ S]. destruct (stacks_eq _ _ S) as [S1 _]. cbn in S1. rewrite S1 in D. inversion D; assumption.
Qed.

(* ---------- one instruction ---------- *)

Definition shown (v : vm) := (v_st v, (v_seed v, v_randk v, v_clock v), v_for v, v_ret v, v_stored v, v_pdata v, (v_out v, v_col v), (v_in v, v_input v)).
Lemma shows_same v w s : shown w = shown v -> shows v s -> shows w s.
Proof.
  intros U [A1 A2 A3 A4 A5 A6 A7 A8]. unfold shown in U. injection U as U1 U2 U3 U4 U5 U6 U7 U8 U9 U10 U11 U12.
  constructor; try congruence. exact (holds_same v w _ U1 U2 U3 U4 A1).
Qed.
Lemma shows_error {A} e v s w : shows v s -> @run_error A e v = (Fail e, w) -> shows w s.
Proof. intros H X. apply (f_equal snd) in X. cbn [snd] in X. apply (shows_same v w s); [rewrite <- X; reflexivity|exact H]. Qed.
Lemma finish_error e v w : shown w = shown v -> exists u, finish (run_error e w) = (Fail e, u) /\ shown u = shown v.
Proof. intros H. eexists. split; [reflexivity|]. rewrite <- H. reflexivity. Qed.
Lemma leads_error {A} {k} v s i e u (Q : A -> vm -> Prop) pc p : ready v s -> at_ k pc p v -> inner_error e = false -> current v = Some i -> exec_instr E i v = run_error e u -> shown u = shown v -> leads k v (Failed e s) Q.
Proof.
  intros R AT IE C X S. destruct (finish_error e v u S) as (w & F & S'). apply (leads_fail v e s w Q s pc p); try assumption.
  - rewrite (execute_eq E v i C), X. exact F.
  - apply (shows_same v w s S'), R.
Qed.

Definition tame (i : instr) : bool := negb (touches_fn i) && match i with I_STOP => false | _ => true end.
Definition calm (i : instr) : bool := tame i && match i with I_DEF _ _ => false | _ => true end.
Lemma ready_tame v s i w s' : ready v s -> current v = Some i -> tame i = true -> fine_defs fdef w -> execute E v = (Ok tt, w) -> arrays_ok w -> shows w s' ->
  functions_ok (x_memory s') -> cs_code (v_cs w) = Some CStored -> live w s' -> (x_column s' < 2 ^ 32)%N -> ready w s'.
Proof.
  intros R C CA ND X A S F CS L B. apply andb_prop in CA as [CA1 CA2]. apply negb_true_iff in CA1.
  pose proof (execute_keeps v_fn E v i C (fun _ _ => eq_refl) (exec_keeps_fn E i CA1)) as K1.
  assert (CS' : (match i with I_STOP => true | _ => false end) = false) by (destruct i; try reflexivity; discriminate CA2).
  pose proof (execute_keeps v_stopped E v i C (fun _ _ => eq_refl) (exec_keeps_stopped E i CS')) as K2.
  rewrite X in K1, K2. cbn [snd] in *. constructor; try assumption.
  - exact (steady_step v w (r_steady v s R) X).
  - unfold in_function. rewrite K1. apply R.
  - rewrite K2. apply R.
Qed.
Lemma ready_step v s i w s' : ready v s -> current v = Some i -> calm i = true -> execute E v = (Ok tt, w) -> arrays_ok w -> shows w s' ->
  functions_ok (x_memory s') -> cs_code (v_cs w) = Some CStored -> live w s' -> (x_column s' < 2 ^ 32)%N -> ready w s'.
Proof.
  intros R C CA X. apply andb_prop in CA as [CA1 CA2]. apply (ready_tame v s i w s' R C CA1); [|exact X].
  pose proof (fd_execute fdef E v i C ltac:(intros id n ->; discriminate CA2) (r_defs v s R)) as D. rewrite X in D. exact D.
Qed.
(* instructions that do not move *)
Definition still (i : instr) : bool :=
  match i with
  | I_SET_SIMPLE_NUM _ | I_SET_SIMPLE_STR _ | I_SET_ARRAY_NUM _ _ | I_SET_ARRAY_STR _ _ | I_DIM_NUM _ _ | I_DIM_STR _ _
  | I_INPUT_NUM _ _ | I_INPUT_STR _ _ | I_INPUT_LINE _ _ | I_READ_NUM _ _ | I_READ_STR _ _ => true
  | _ => false
  end.
Lemma still_standing i : still i = true -> keeps standing (exec_instr E i).
Proof. intros X. destruct i; try discriminate X; cbn [exec_instr]; repeat keeps_more. Qed.
Lemma still_calm i : still i = true -> calm i = true.
Proof. intros X. destruct i; try discriminate X; reflexivity. Qed.
(* the symbols are not touched *)
Lemma ready_plain v s i w s' : ready v s -> current v = Some i -> calm i = true -> execute E v = (Ok tt, w) -> v_st w = v_st v ->
  x_memory s' = x_memory s -> shows w s' -> cs_code (v_cs w) = Some CStored -> Forall (fun f => l_live f = true -> assigned_yet v (l_var f) = true) (x_loops s') -> (x_column s' < 2 ^ 32)%N -> ready w s'.
Proof.
  intros R C CA X S M SH CS L B. apply (ready_step v s i w s' R C CA X); try assumption.
  - exact (arrays_same v w S (r_arrays v s R)).
  - rewrite M. apply R.
  - unfold live, assigned_yet in *. rewrite S. exact L.
Qed.

(* the place after n instructions *)
Lemma at_next_pc v k pc p n : at_ k pc p v -> place_after v n = mkCs (Some CStored) k (pc + n).
Proof. intros [A _]. unfold place_after. rewrite A. reflexivity. Qed.

(* ---------- PRINT ---------- *)

Lemma printed v s k pc p i t st ss : ready v s -> at_ k pc p v -> current v = Some i -> calm i = true ->
  prints E v t (column_after (v_col v) (map OB t)) st ss ->
  leads k v (write t s) (fun _ w => at_ k (pc + 1) (st, ss) w).
Proof.
  intros R A C CA X. unfold prints in X. eapply leads_one; [exact X|..].
  - apply (ready_plain v s i _ _ R C CA X); try reflexivity.
    + destruct (r_shows v s R) as [A1 A2 A3 A4 A5 A6 A7 A8]. constructor; try assumption; cbn [x_memory x_output x_column with_output].
      * apply (holds_same v); try reflexivity. exact A1.
      * cbn [v_out set_cs set_outcol]. rewrite A5. reflexivity.
      * cbn [v_col set_cs set_outcol]. rewrite A6. reflexivity.
    + apply R.
    + exact (r_live v s R).
    + apply column_bound, R.
  - split; [exact (at_next_pc v k pc p 1 A)|reflexivity].
Qed.
Lemma count_bad_eq {B} (k : N -> M B) v x st : v_stack v = x :: st -> double x -> (forall n, ~ count x n) ->
  bind pop_unsigned k v = run_error (count_error x) (set_stack st v).
Proof.
  intros S V N. unfold bind at 1, pop_unsigned. rewrite (bind_pop _ v x st S). unfold count_error, run_error.
  unfold fneb. change SFeqb with feqb. destruct (fltb x fzero || negb (feqb (ffloor x) x)) eqn:F; [reflexivity|].
  rewrite fgtb_uint. assert (G : fgtb x (fofZ 4294967295) = true).
  { apply orb_false_iff in F as [F1 F2]. destruct (whole_or_not x V) as [(z & I)|[([] & ->)|[F _]]].
    - rewrite (fgtb_int x z) by (try assumption; lia). rewrite (fltb_zero x z V I) in F1.
      assert (~ count x (Z.to_nat z)) as C by apply N. unfold count in C.
      destruct (Z.ltb_spec 4294967295 z); [reflexivity|]. exfalso. apply C.
      replace (Z.of_nat (Z.to_nat z)) with z by lia. split; [exact I|lia].
    - discriminate F1.
    - reflexivity.
    - rewrite F in F2. discriminate. }
  rewrite G. reflexivity.
Qed.
(* an instruction that takes a count *)
Lemma count_leads e v s k pc p i (f : N -> M bool) : exec_instr E i = bind pop_unsigned f -> wnum g e -> ready v s -> at_ k pc p v -> code_at pc (ecode e ++ [i]) ->
  leads k v (count_value E e s) (fun n w => exists x, double x /\ count x n /\ at_ k (pc + length (ecode e)) (x :: fst p, snd p) w).
Proof.
  intros X W R A C. unfold count_value. eapply leads_bind; [exact (number_leads e v s k pc p i W R A C)|].
  intros x s' w _ R' (D & AW & U). pose proof (proj2 (proj1 (code_app _ _ _) C)) as C'. pose proof (at_current _ _ _ _ _ _ _ R' AW C') as CU.
  destruct (stacks_eq _ _ (proj2 AW)) as [S1 _]. cbn [fst] in S1.
  destruct (whole x) as [n|] eqn:WX.
  - apply leads_done; [exact R'|]. exists x. split; [exact D|]. split; [exact (whole_some x n WX)|exact AW].
  - apply (leads_error w s' i (count_error x) (set_stack (fst p) w) _ _ _ R' AW); try assumption; [unfold count_error; destruct (_ || _); reflexivity| |reflexivity].
    rewrite X. exact (count_bad_eq f w x (fst p) S1 D (whole_none x WX)).
Qed.
Lemma item_comma c : (c < 2 ^ 32)%N -> forall n, 1 <= n <= 8 -> (u32 (c + N.of_nat n) mod 8 = 1)%N -> n = 8 - N.to_nat ((c + 7) mod 8).
Proof. intros C n H M. unfold u32 in M. lia. Qed.
Lemma at_eq k pc pc' p p' v : at_ k pc p v -> pc = pc' -> p = p' -> at_ k pc' p' v.
Proof. intros H -> ->. exact H. Qed.
Lemma pair_eta {A B} (p : A * B) : (fst p, snd p) = p.
Proof. destruct p; reflexivity. Qed.
Lemma item_leads i v s k pc p : witem g i -> ready v s -> at_ k pc p v -> code_at pc (item_code i) ->
  leads k v (print_item E i s) (fun _ w => at_ k (pc + length (item_code i)) p w).
Proof.
  intros W R A C. destruct i as [e|e|e| |]; cbn [item_code print_item witem] in *.
  - rewrite app_length. cbn [length]. eapply leads_bind; [exact (value_leads e v s k pc p _ (proj1 W) R A C)|].
    intros d s' w _ R' (TD & AW & U). pose proof (proj2 (proj1 (code_app _ _ _) C)) as C'. pose proof (at_current _ _ _ _ _ _ _ R' AW C') as CU.
    destruct (stacks_eq _ _ (proj2 AW)) as [S1 S2]. destruct d as [x|t]; cbn [sort_of vtype_of push_on fst snd] in *; rewrite <- TD in CU.
    + eapply leads_more; [exact (printed w s' k _ _ _ _ _ _ R' AW CU eq_refl (print_number E w x (fst p) CU S1))|].
      intros ? z AZ. apply (at_eq _ _ _ _ _ _ AZ); [lia|]. rewrite S2. apply pair_eta.
    + eapply leads_more; [exact (printed w s' k _ _ _ _ _ _ R' AW CU eq_refl (print_string E w t (snd p) CU S2))|].
      intros ? z AZ. apply (at_eq _ _ _ _ _ _ AZ); [lia|]. rewrite S1. apply pair_eta.
  - rewrite app_length. cbn [length]. eapply leads_bind; [exact (count_leads e v s k pc p I_PRINT_SPC _ eq_refl W R A C)|].
    intros n s' w _ R' (x & D & K & AW). pose proof (proj2 (proj1 (code_app _ _ _) C)) as C'. pose proof (at_current _ _ _ _ _ _ _ R' AW C') as CU.
    destruct (stacks_eq _ _ (proj2 AW)) as [S1 S2]. cbn [fst snd] in *. pose proof (r_col w s' R') as B. rewrite <- (w_column w s' (r_shows w s' R')) in B.
    eapply leads_more; [exact (printed w s' k _ _ _ _ _ _ R' AW CU eq_refl (print_spc E w x (fst p) n CU S1 D K B))|].
    intros ? z AZ. apply (at_eq _ _ _ _ _ _ AZ); [lia|]. rewrite S2. apply pair_eta.
  - rewrite app_length. cbn [length]. eapply leads_bind; [exact (count_leads e v s k pc p I_PRINT_TAB _ eq_refl W R A C)|].
    intros n s' w _ R' (x & D & K & AW). pose proof (proj2 (proj1 (code_app _ _ _) C)) as C'. pose proof (at_current _ _ _ _ _ _ _ R' AW C') as CU.
    destruct (stacks_eq _ _ (proj2 AW)) as [S1 S2]. cbn [fst snd] in *. pose proof (r_col w s' R') as B. rewrite <- (w_column w s' (r_shows w s' R')) in B.
    apply leads_look. rewrite <- (w_column w s' (r_shows w s' R')). destruct (Nat.eqb_spec (N.to_nat (v_col w)) 0) as [Z0|Z0]; [exact I|].
    assert (B' : (1 <= v_col w < 2 ^ 32)%N) by lia.
    eapply leads_more; [exact (printed w s' k _ _ _ _ _ _ R' AW CU eq_refl (proj1 (print_tab E w x (fst p) n CU S1 D K B')))|].
    intros ? z AZ. apply (at_eq _ _ _ _ _ _ AZ); [lia|]. rewrite S2. apply pair_eta.
  - apply leads_look. pose proof (at_current _ _ _ _ _ _ _ R A C) as CU. pose proof (r_col v s R) as B. rewrite <- (w_column v s (r_shows v s R)) in *.
    destruct (print_comma E v CU B) as (n & N1 & PR & MO).
    assert (EQ : n = 8 - N.to_nat ((v_col v + 7) mod 8)).
    { apply (item_comma _ B n N1). rewrite column_plain in MO; [|apply plain_spaces|destruct n; [lia|discriminate]]. unfold blanks in MO. rewrite repeat_length in MO. exact MO. }
    rewrite <- EQ. eapply leads_more; [exact (printed v s k _ _ _ _ _ _ R A CU eq_refl PR)|].
    intros ? z AZ. apply (at_eq _ _ _ _ _ _ AZ); [reflexivity|]. rewrite <- (proj2 A). reflexivity.
  - apply leads_done; [exact R|]. apply (at_eq _ _ _ _ _ _ A); [cbn; lia|reflexivity].
Qed.
Lemma items_leads l : forall v s k pc p, Forall (witem g) l -> ready v s -> at_ k pc p v -> code_at pc (flat_map item_code l) ->
  leads k v (print_items E l s) (fun _ w => at_ k (pc + length (flat_map item_code l)) p w).
Proof.
  induction l as [|i l IH]; intros v s k pc p W R A C; cbn [flat_map print_items length] in *.
  - apply leads_done; [exact R|]. apply (at_eq _ _ _ _ _ _ A); [lia|reflexivity].
  - inversion W as [|? ? W1 W2]; subst. apply code_app in C as [C1 C2]. eapply leads_bind; [exact (item_leads i v s k pc p W1 R A C1)|].
    intros u s' w _ R' AW. eapply leads_more; [exact (IH w s' k _ p W2 R' AW C2)|]. intros ? z AZ. apply (at_eq _ _ _ _ _ _ AZ); [rewrite app_length; lia|reflexivity].
Qed.
Lemma print_leads l v s k pc p : Forall (witem g) l -> ready v s -> at_ k pc p v -> code_at pc (scode (SPrint l)) ->
  leads k v ((print_items E l ;; (if separator_last l then give tt else write [NL]))%act s) (fun _ w => at_ k (pc + length (scode (SPrint l))) p w).
Proof.
  intros W R A C. cbn [scode] in *. apply code_app in C as [C1 C2]. rewrite app_length. eapply leads_bind; [exact (items_leads l v s k pc p W R A C1)|].
  intros u s' w _ R' AW. destruct (separator_last l).
  - apply leads_done; [exact R'|]. apply (at_eq _ _ _ _ _ _ AW); [cbn; lia|reflexivity].
  - pose proof (at_current _ _ _ _ _ _ _ R' AW C2) as CU.
    eapply leads_more; [exact (printed w s' k _ _ _ _ _ _ R' AW CU eq_refl (print_line E w CU))|].
    intros ? z AZ. apply (at_eq _ _ _ _ _ _ AZ); [cbn; lia|]. rewrite <- (proj2 AW). reflexivity.
Qed.

(* ---------- statements without expressions ---------- *)

Definition stands (v : vm) (p : spot) : Prop :=
  v_cs v = at_spot p \/ (snd p = 0 /\ cs_code (v_cs v) = Some CStored /\ cs_pc (v_cs v) = line_start xss (fst p)).
(* where execution is after statement i of line k *)
Definition arrives (k i : nat) (t : turn) (w : vm) : Prop :=
  match t with
  | Onward => at_ k (stmt_start xss k (i + 1)) ([], []) w
  | Elsewhere p => stands w p /\ stacks w = ([], [])
  | Halt => current w = Some I_STOP /\ cs_line (v_cs w) = k
  end.

Lemma same_length v s : ready v s -> length src = length xss.
Proof.
  intros R. destruct (s_loaded v (r_steady v s R)) as (kw & bc & idx & st & _ & PI & _). rewrite (program_length _ _ _ _ _ PI), map_length. reflexivity.
Qed.
Lemma find_index_spec {A} (f : A -> bool) l : match find_index f l with
  | Some k => exists a, nth_error l k = Some a /\ f a = true
  | None => forall k a, nth_error l k = Some a -> f a = false end.
Proof.
  induction l as [|x l IH]; cbn [find_index].
  - intros [|k] a H; discriminate H.
  - destruct (f x) eqn:F; [exists x; auto|]. destruct (find_index f l) as [k|]; cbn [option_map]; [exact IH|].
    intros [|k] a H; [injection H as <-; exact F|exact (IH k a H)].
Qed.
Lemma nth_combine {A B} (l : list A) : forall (m : list B) k, nth_error (combine l m) k =
  match nth_error l k, nth_error m k with Some a, Some b => Some (a, b) | _, _ => None end.
Proof.
  induction l as [|a l IH]; intros m k; [destruct k; reflexivity|]. destruct m as [|b m].
  - destruct k; cbn [combine nth_error]; [reflexivity|]. destruct (nth_error l k); reflexivity.
  - destruct k as [|k]; [reflexivity|]. exact (IH m k).
Qed.
Lemma line_index_spec n : length src = length xss -> match line_index P n with
  | Some k => line_numbered src n k
  | None => forall k, ~ line_numbered src n k end.
Proof.
  intros L. unfold line_index. pose proof (find_index_spec (fun l => (fst l =? n)%N) P) as F. destruct (find_index _ _) as [k|].
  - destruct F as ([m xs] & H & Q). rewrite nth_combine, nth_error_map in H. destruct (nth_error src k) as [ln|] eqn:NS; [|discriminate H]. cbn [option_map] in H.
    destruct (nth_error xss k); [|discriminate H]. injection H as <- <-. exists ln. split; [exact NS|]. cbn [fst] in Q. lia.
  - intros k (ln & NS & Q). assert (X : exists xs, nth_error xss k = Some xs).
    { destruct (nth_error xss k) eqn:NX; [eauto|]. apply nth_error_None in NX. assert (nth_error src k <> None) by congruence. apply nth_error_Some in H. lia. }
    destruct X as (xs & NX). specialize (F k (ln_num ln, xs)). rewrite nth_combine, nth_error_map, NS, NX in F. specialize (F eq_refl). cbn [fst] in F. lia.
Qed.
Lemma go_eq v s u n : ready v s -> v_stored u = v_stored v ->
  go_to_basic_line n u = match line_index P n with
    | Some k => (Ok tt, set_cs (mkCs (Some CStored) (cs_line (v_cs u)) (line_start xss k)) u)
    | None => run_error (RE_line_not_found n) u end.
Proof.
  intros R SU. pose proof (line_index_spec n (same_length v s R)) as L. destruct (s_loaded v (r_steady v s R)) as (kw & bc & idx & st & S & PI & I & BI).
  pose proof (index_lookup kw _ src xss st bc idx PI I BI HD n) as X. unfold go_to_basic_line, bind, find_basic_line. rewrite SU, S. cbn [c_index].
  destruct (line_index P n) as [k|].
  - rewrite (proj2 (X (N.of_nat (line_start xss k)))) by (exists k; auto). rewrite Nat2N.id. reflexivity.
  - destruct (lookup_line_mapping idx n) as [q|] eqn:LK; [|reflexivity]. destruct (proj1 (X q) eq_refl) as (k & K & _). destruct (L k K).
Qed.

(* after a jump: the machine w differs in the place only *)
Lemma ready_moved v s i w s' : ready v s -> current v = Some i -> calm i = true -> execute E v = (Ok tt, w) -> v_st w = v_st v ->
  x_memory s' = x_memory s -> x_loops s' = x_loops s -> x_column s' = x_column s -> shows w s' -> cs_code (v_cs w) = Some CStored -> ready w s'.
Proof.
  intros R C CA X S M L B SH CS. apply (ready_plain v s i w s' R C CA X S M SH CS); [rewrite L; exact (r_live v s R)|rewrite B; apply R].
Qed.

Lemma goto_leads n v s k i pc : ready v s -> at_ k pc ([], []) v -> code_at pc [I_GOTO n] -> leads k v (go_line P n s) (arrives k i).
Proof.
  intros R A C. pose proof (at_current _ _ _ _ _ _ _ R A C) as CU.
  assert (X : execute E v = match go_to_basic_line n v with (Ok _, w) => (Ok tt, w) | (Fail e, w) => (Fail e, w) | (Crash, w) => (Crash, w) | (Exit, w) => (Exit, w) end).
  { rewrite (execute_eq E v _ CU). cbn [exec_instr]. unfold jump, bind. destruct (go_to_basic_line n v) as [[[]|e| |] w]; reflexivity. }
  rewrite (go_eq v s v n R eq_refl) in X. unfold go_line. destruct (line_index P n) as [j|].
  - cbn beta iota in X. eapply leads_one; [exact X|..].
    + apply (ready_moved v s _ _ _ R CU eq_refl X); try reflexivity. apply (shows_same v); [reflexivity|apply R].
    + split; [|exact (proj2 A)]. right. split; [reflexivity|]. split; reflexivity.
  - unfold run_error in X. cbn beta iota in X. eapply leads_fail; [exact X|exact R|exact A|reflexivity|]. apply (shows_same v); [reflexivity|apply R].
Qed.
Lemma shows_returns v s r l : shows v s -> r = map at_spot l -> shows (set_ret r v) (with_returns l s).
Proof. intros [A1 A2 A3 A4 A5 A6 A7 A8] ->. constructor; try assumption; try reflexivity. apply (holds_same v); try reflexivity. exact A1. Qed.
Lemma gosub_leads n v s k i pc : ready v s -> at_ k pc ([], []) v -> code_at pc [I_GOSUB n] -> pc + 1 = stmt_start xss k (i + 1) ->
  leads k v (call_line P (k, i + 1) n s) (arrives k i).
Proof.
  intros R A C NX. pose proof (at_current _ _ _ _ _ _ _ R A C) as CU. pose proof (gosub_step E v n CU) as X. pose proof (w_returns v s (r_shows v s R)) as WR.
  unfold call_line. apply leads_look. rewrite WR, map_length in X. destruct (Nat.leb 8 (length (x_returns s))).
  - eapply leads_fail; [exact X|exact R|exact A|reflexivity|]. apply (shows_same v); [reflexivity|apply R].
  - apply leads_update. rewrite (at_next_pc v k pc _ 1 A), NX in X. set (u := set_ret (mkCs _ _ _ :: map at_spot (x_returns s)) v) in X.
    assert (SU : shows u (with_returns ((k, i + 1) :: x_returns s) s)) by (apply shows_returns; [apply R|reflexivity]).
    rewrite (go_eq v s u n R eq_refl) in X. unfold go_line. destruct (line_index P n) as [j|].
    + eapply leads_one; [exact X|..].
      * apply (ready_moved v s _ _ _ R CU eq_refl X); try reflexivity. apply (shows_same u); [reflexivity|exact SU].
      * split; [|exact (proj2 A)]. right. split; [reflexivity|]. split; reflexivity.
    + eapply leads_fail; [exact X|exact R|exact A|reflexivity|]. apply (shows_same u); [reflexivity|exact SU].
Qed.
Lemma return_leads v s k i pc : ready v s -> at_ k pc ([], []) v -> code_at pc [I_RETURN] -> leads k v (go_back s) (arrives k i).
Proof.
  intros R A C. pose proof (at_current _ _ _ _ _ _ _ R A C) as CU. pose proof (return_step E v CU) as X. pose proof (w_returns v s (r_shows v s R)) as WR.
  unfold go_back. apply leads_look. rewrite WR in X. destruct (x_returns s) as [|p r]; cbn [map] in X.
  - eapply leads_fail; [exact X|exact R|exact A|reflexivity|]. apply (shows_same v); [reflexivity|apply R].
  - apply leads_update. eapply leads_one; [exact X|..].
    + apply (ready_moved v s _ _ _ R CU eq_refl X); try reflexivity. apply (shows_same (set_ret (map at_spot r) v)); [reflexivity|]. apply shows_returns; [apply R|reflexivity].
    + split; [left; reflexivity|exact (proj2 A)].
Qed.
(* an instruction that changes what is shown and goes on *)
Lemma onward v s i k pc p u s' : ready v s -> at_ k pc p v -> current v = Some i -> calm i = true -> execute E v = (Ok tt, set_cs (place_after v 1) u) ->
  v_st u = v_st v -> stacks u = stacks v -> x_memory s' = x_memory s -> x_loops s' = x_loops s -> (x_column s' < 2 ^ 32)%N -> shows u s' ->
  leads k v (Done tt s') (fun _ w => at_ k (pc + 1) p w).
Proof.
  intros R A C CA X S1 S2 M L B SH. eapply leads_one; [exact X|..].
  - apply (ready_plain v s i _ s' R C CA X S1 M); [apply (shows_same u); [reflexivity|exact SH]| |rewrite L; exact (r_live v s R)|exact B]. rewrite (at_next_pc v k pc p 1 A). reflexivity.
  - split; [exact (at_next_pc v k pc p 1 A)|]. rewrite <- (proj2 A). exact S2.
Qed.
Lemma cls_leads v s k pc p : ready v s -> at_ k pc p v -> code_at pc [I_CLS] ->
  leads k v (update (fun s => with_output (x_output s ++ [OCls]) 1 s) s) (fun _ w => at_ k (pc + 1) p w).
Proof.
  intros R A C. pose proof (at_current _ _ _ _ _ _ _ R A C) as CU. apply (onward v s I_CLS k pc p (set_outcol (v_out v ++ [OCls]) 1 v)); try assumption; try reflexivity.
  - rewrite (execute_eq E v _ CU). cbn [exec_instr]. unfold bind, modify, ret. cbn [finish]. rewrite (set_pc_place v); reflexivity.
  - destruct (r_shows v s R) as [A1 A2 A3 A4 A5 A6 A7 A8]. constructor; try assumption.
    + apply (holds_same v); try reflexivity. exact A1.
    + cbn. rewrite A5. reflexivity.
    + reflexivity.
Qed.
Lemma line_start_end yss : forall m, line_start yss (length yss) = length (pcode m yss).
Proof. induction yss as [|ys yss IH]; intros m; [reflexivity|]. cbn [line_start length pcode]. rewrite (IH (S m)), app_length. lia. Qed.
Lemma end_leads v s k i pc : ready v s -> at_ k pc ([], []) v -> code_at pc [I_END] -> leads k v (Done (Elsewhere (length P, 0)) s) (arrives k i).
Proof.
  intros R A C. pose proof (at_current _ _ _ _ _ _ _ R A C) as CU. destruct (ready_bcode v s R) as (bc & B & I & _).
  assert (X : execute E v = (Ok tt, set_pc (bc_used bc) v)).
  { rewrite (execute_eq E v _ CU). cbn [exec_instr]. unfold bind, get_bcode, jump, modify. rewrite B. reflexivity. }
  assert (LP : length P = length xss) by (rewrite combine_length, map_length, (same_length v s R); apply Nat.min_id).
  eapply leads_one; [exact X|..].
  - apply (ready_moved v s _ _ _ R CU eq_refl X); try reflexivity; [apply (shows_same v); [reflexivity|apply R]|]. apply R.
  - split; [|exact (proj2 A)]. right. split; [reflexivity|]. split; [apply R|]. cbn [fst]. rewrite LP. unfold bc_used. cbn [v_cs set_pc set_cs cs_pc]. rewrite I.
    symmetry. apply line_start_end.
Qed.
Lemma data_leads l : forall v s k pc p, ready v s -> at_ k pc p v -> code_at pc (map I_DATA l) -> leads k v (Done tt s) (fun _ w => at_ k (pc + length l) p w).
Proof.
  induction l as [|t l IH]; intros v s k pc p R A C; cbn [map length] in *.
  - apply leads_done; [exact R|]. apply (at_eq _ _ _ _ _ _ A); [lia|reflexivity].
  - apply code_cons in C as [C1 C2]. pose proof (at_current _ _ _ _ _ _ _ R A C1) as CU.
    assert (X : execute E v = (Ok tt, set_cs (place_after v 1) v)). { rewrite (execute_eq E v _ CU). cbn [exec_instr]. unfold ret. cbn [finish]. rewrite (set_pc_place v); reflexivity. }
    apply (leads_runs v [v] _ _ _ (runs_one _ _ _ X)); [exact (r_stopped v s R)|]. rewrite (at_next_pc v k pc p 1 A) in X |- *. eapply leads_more; [apply IH|].
    + apply (ready_moved v s _ _ _ R CU eq_refl X); try reflexivity. apply (shows_same v); [reflexivity|apply R].
    + split; [reflexivity|exact (proj2 A)].
    + rewrite Nat.add_1_r. exact C2.
    + intros ? z AZ. apply (at_eq _ _ _ _ _ _ AZ); [lia|reflexivity].
Qed.

(* ---------- statements at their places ---------- *)

Definition here (k i : nat) (x : stmt) : Prop := k < length xss /\ exists r, skipn i (line_stmts xss k) = x :: r.
Lemma here_in k i x : here k i x -> In x (line_stmts xss k).
Proof. intros (_ & r & H). rewrite <- (firstn_skipn i (line_stmts xss k)), H. apply in_or_app. right. left. reflexivity. Qed.
Lemma here_lt k i x : here k i x -> i < length (line_stmts xss k).
Proof. intros (_ & r & H). destruct (Nat.lt_ge_cases i (length (line_stmts xss k))) as [|G]; [assumption|]. rewrite skipn_all2 in H by exact G. discriminate H. Qed.
Lemma here_code k i x : here k i x -> code_at (stmt_start xss k i) (scode x).
Proof.
  intros H. pose proof (here_lt _ _ _ H) as L. destruct H as (K & r & S). pose proof (stmt_skip xss k i 0 _ K L ltac:(lia) eq_refl) as X. cbn [skipn] in X. rewrite S in X.
  rewrite Nat.add_0_r in X. unfold code_at. rewrite X. exists (lcode r ++ pcode (Datatypes.S k) (skipn (Datatypes.S k) xss)). unfold lcode at 1. cbn [flat_map]. rewrite <- app_assoc. reflexivity.
Qed.
Lemma here_next k i x : here k i x -> stmt_start xss k (i + 1) = stmt_start xss k i + length (scode x).
Proof. intros (_ & r & S). exact (stmt_start_next xss k i x r S). Qed.
Lemma here_executing v s k i x j p : ready v s -> here k i x -> at_ k (stmt_start xss k i + j) p v -> executing v xss k i j.
Proof.
  intros R H A. destruct (ready_bcode v s R) as (bc & B & I & _). exists bc. split; [exact B|]. split; [exact I|]. split; [apply H|]. split; [exact (here_lt _ _ _ H)|]. rewrite (proj1 A). reflexivity.
Qed.
Lemma ready_program v s : ready v s -> exists kw st st', program_is kw st (map ln_text src) xss st'.
Proof. intros R. destruct (s_loaded v (r_steady v s R)) as (kw & bc & idx & st & _ & PI & _). eauto. Qed.

Lemma jump_leads v s u s' i n k j pc p : ready v s -> at_ k pc p v -> current v = Some i -> calm i = true -> execute E v = go_to_basic_line n u -> v_st u = v_st v -> v_stored u = v_stored v ->
  shows u s' -> x_memory s' = x_memory s -> x_loops s' = x_loops s -> x_column s' = x_column s -> stacks u = ([], []) -> leads k v (go_line P n s') (arrives k j).
Proof.
  intros R A C CA X S1 S2 SH M L B ST. rewrite (go_eq v s u n R S2) in X. unfold go_line. destruct (line_index P n) as [q|].
  - eapply leads_one; [exact X|..].
    + apply (ready_moved v s _ _ _ R C CA X); try assumption; try reflexivity. apply (shows_same u); [reflexivity|exact SH].
    + split; [|exact ST]. right. split; [reflexivity|]. split; reflexivity.
  - eapply leads_fail; [exact X|exact R|exact A|reflexivity|]. apply (shows_same u); [reflexivity|exact SH].
Qed.
Lemma continues_leads {A} {k} (t : A) v s i st pc (Q : A -> vm -> Prop) : ready v s -> current v = Some i -> calm i = true -> continues v st pc (execute E v) ->
  Q t (set_cs (mkCs (cs_code (v_cs v)) (cs_line (v_cs v)) pc) (set_stack st v)) -> leads k v (Done t s) Q.
Proof.
  intros R C CA X H. unfold continues in X. eapply leads_one; [exact X|..]; [|exact H].
  apply (ready_moved v s _ _ _ R C CA X); try reflexivity; [apply (shows_same v); [reflexivity|apply R]|apply R].
Qed.

Lemma after_else_spec xs i e thn els : skipn i xs = SIf e true :: thn ++ SElse :: els -> Forall neutral thn -> after_else xs i = Some (i + 2 + length thn).
Proof.
  intros H N. unfold after_else. replace (i + 1) with (1 + i) by lia. rewrite <- skipn_skipn, H. cbn [skipn].
  assert (F : forall l, Forall neutral l -> find_index (fun x => match x with SElse => true | _ => false end) (l ++ SElse :: els) = Some (length l)).
  { clear. induction 1 as [|x l Nx _ IH]; [reflexivity|]. cbn [app find_index length]. destruct x; try contradiction Nx; rewrite IH; reflexivity. }
  rewrite (F thn N). f_equal. lia.
Qed.
Lemma if_leads e b v s k i : wnum g e -> ready v s -> here k i (SIf e b) -> at_ k (stmt_start xss k i) ([], []) v ->
  leads k v (perform E P k (line_stmts xss k) i (SIf e b) s) (arrives k i).
Proof.
  intros W R H A. pose proof (here_code _ _ _ H) as C. cbn [scode perform] in *. destruct (ready_program v s R) as (kw & st & st' & PI).
  eapply leads_bind; [exact (number_leads e v s k _ _ _ W R A C)|].
  intros x s' w _ R' (D & AW & U). pose proof (proj2 (proj1 (code_app _ _ _) C)) as C'. pose proof (at_current _ _ _ _ _ _ _ R' AW C') as CU.
  destruct (stacks_eq _ _ (proj2 AW)) as [S1 S2]. cbn [fst snd] in *. pose proof (here_executing w s' k i _ _ _ R' H AW) as EX. destruct H as (K & r & SK). destruct b.
  - destruct (program_line _ _ _ _ _ _ PI K) as (text & st1 & st2 & LI).
    assert (SP : exists thn els, r = thn ++ SElse :: els /\ Forall neutral thn).
    { apply (if_has_else _ _ _ _ _ (firstn i (line_stmts xss k)) e r LI). rewrite <- SK. symmetry. apply firstn_skipn. }
    destruct SP as (thn & els & -> & NT). pose proof (if_else_step _ _ _ _ _ PI E w k i thn els x [] ltac:(exists e; split; [exact SK|exact EX]) NT S1) as X.
    rewrite (after_else_spec _ _ _ _ _ SK NT). destruct (truth x).
    + apply (continues_leads Onward w s' _ _ _ _ R' CU eq_refl X). split; [cbn [v_cs set_cs]; rewrite (proj1 AW); reflexivity|]. unfold stacks. cbn. rewrite S2. reflexivity.
    + apply (continues_leads (Elsewhere _) w s' _ _ _ _ R' CU eq_refl X). split; [left; cbn [v_cs set_cs]; rewrite (proj1 AW); reflexivity|]. unfold stacks. cbn. rewrite S2. reflexivity.
  - pose proof (if_step _ _ _ _ _ PI E w k i r x [] ltac:(exists e; split; [exact SK|exact EX]) S1) as X. destruct (truth x).
    + apply (continues_leads Onward w s' _ _ _ _ R' CU eq_refl X). split; [cbn [v_cs set_cs]; rewrite (proj1 AW); reflexivity|]. unfold stacks. cbn. rewrite S2. reflexivity.
    + apply (continues_leads (Elsewhere _) w s' _ _ _ _ R' CU eq_refl X). split; [right; cbn [v_cs set_cs fst snd]; rewrite (proj1 AW), Nat.add_1_r; repeat split; reflexivity|]. unfold stacks. cbn. rewrite S2. reflexivity.
Qed.
Lemma else_leads v s k i : ready v s -> here k i SElse -> at_ k (stmt_start xss k i) ([], []) v ->
  leads k v (perform E P k (line_stmts xss k) i SElse s) (arrives k i).
Proof.
  intros R H A. pose proof (here_code _ _ _ H) as C. cbn [scode perform] in *. destruct (ready_program v s R) as (kw & st & st' & PI).
  pose proof (at_current _ _ _ _ _ _ _ R A C) as CU. pose proof (here_executing v s k i _ 0 _ R H ltac:(rewrite Nat.add_0_r; exact A)) as EX. destruct H as (K & r & SK).
  pose proof (else_step _ _ _ _ _ PI E v k i r EX SK) as X. apply (continues_leads (Elsewhere _) v s _ _ _ _ R CU eq_refl X).
  split; [right; cbn [v_cs set_cs fst snd]; rewrite (proj1 A), Nat.add_1_r; repeat split; reflexivity|]. exact (proj2 A).
Qed.
Lemma gotrue_exact v n x st : current v = Some (I_GOTRUE n) -> v_stack v = x :: st ->
  execute E v = if truth x then go_to_basic_line n (set_stack st v) else (Ok tt, set_cs (place_after v 1) (set_stack st v)).
Proof.
  intros C S. rewrite (execute_eq _ _ _ C). cbn [exec_instr]. rewrite (bind_pop _ v x st S). destruct (truth x).
  - unfold jump, bind. destruct (go_to_basic_line n (set_stack st v)) as [[[]| | |] w]; reflexivity.
  - unfold ret. cbn [finish]. rewrite (set_pc_place v); reflexivity.
Qed.
Lemma ifgo_leads e n v s k i : wnum g e -> ready v s -> here k i (SIfGo e n) -> at_ k (stmt_start xss k i) ([], []) v ->
  leads k v (perform E P k (line_stmts xss k) i (SIfGo e n) s) (arrives k i).
Proof.
  intros W R H A. pose proof (here_code _ _ _ H) as C. pose proof (here_next _ _ _ H) as NX. cbn [scode perform] in *. rewrite app_length in NX. cbn [length] in NX.
  eapply leads_bind; [exact (number_leads e v s k _ _ _ W R A C)|].
  intros x s' w _ R' (D & AW & U). pose proof (proj2 (proj1 (code_app _ _ _) C)) as C'. pose proof (at_current _ _ _ _ _ _ _ R' AW C') as CU.
  destruct (stacks_eq _ _ (proj2 AW)) as [S1 S2]. cbn [fst snd] in *. pose proof (gotrue_exact w n x [] CU S1) as X. destruct (truth x).
  - eapply (jump_leads w s' _ s' _ n k i _ _ R' AW CU eq_refl X); try reflexivity; [apply (shows_same w); [reflexivity|apply R']|]. unfold stacks. cbn. rewrite S2. reflexivity.
  - rewrite (at_next_pc w k _ _ 1 AW) in X. eapply leads_one; [exact X|..].
    + apply (ready_moved w s' _ _ _ R' CU eq_refl X); try reflexivity. apply (shows_same w); [reflexivity|apply R'].
    + split; [rewrite NX, Nat.add_assoc; reflexivity|]. unfold stacks. cbn. rewrite S2. reflexivity.
Qed.
Lemma on_leads e b l v s k i : wnum g e -> ready v s -> here k i (SOn e b l) -> at_ k (stmt_start xss k i) ([], []) v ->
  leads k v (perform E P k (line_stmts xss k) i (SOn e b l) s) (arrives k i).
Proof.
  intros W R H A. pose proof (here_code _ _ _ H) as C. pose proof (here_next _ _ _ H) as NX. cbn [scode perform] in *. rewrite app_length in NX. cbn [length] in NX. rewrite map_length in NX.
  eapply leads_bind; [|].
  { apply code_app in C as [C1 C2]. apply code_cons in C2 as [C2 C3]. exact (number_leads e v s k _ _ _ W R A (proj2 (code_app _ _ _) (conj C1 C2))). }
  intros x s' w _ R' (D & AW & U). pose proof (proj2 (proj1 (code_app _ _ _) C)) as C'. pose proof (at_current _ _ _ _ _ _ _ R' AW C') as CU.
  destruct (stacks_eq _ _ (proj2 AW)) as [S1 S2]. cbn [fst snd] in *. unfold choose. destruct (N.ltb_spec (N.of_nat (length l)) (2 ^ 32)) as [LL|]; [|exact I].
  assert (CU' : current w = Some (if b then I_ON_GOSUB (length l) else I_ON_GOTO (length l))) by exact CU.
  assert (CA : calm (if b then I_ON_GOSUB (length l) else I_ON_GOTO (length l)) = true) by (destruct b; reflexivity).
  pose proof (on_step E w b (length l) x [] CU' S1) as X.
  assert (ON : forall q, q = length l + 1 -> execute E w = (Ok tt, set_pc (cs_pc (v_cs w) + q) (set_stack [] w)) -> leads k w (Done Onward s') (arrives k i)).
  { intros q -> Y. eapply leads_one; [exact Y|..].
    - apply (ready_moved w s' _ _ _ R' CU' CA Y); try reflexivity; [apply (shows_same w); [reflexivity|apply R']|]. apply R'.
    - split; [|unfold stacks; cbn; rewrite S2; reflexivity]. cbn [v_cs set_pc set_cs set_stack]. rewrite (proj1 AW), NX. cbn [cs_code cs_line cs_pc]. f_equal. lia. }
  destruct (whole_or_not x D) as [(z & IZ)|[(sg & ->)|[F NI]]].
  - rewrite (proj2 (integer_of_spec x z) IZ). rewrite (floor_integer x z D IZ), (selects_integer x (length l) z D IZ) in X by lia. rewrite (ftoZ_integer x z D IZ) in X.
    destruct (Z.leb_spec 1 z) as [Z1|Z1]; cbn [andb] in X; [|exact (ON _ eq_refl X)]. destruct (Z.leb_spec z (Z.of_nat (length l))) as [Z2|Z2].
    + destruct (nth_error l (Z.to_nat (z - 1))) as [n|] eqn:NL; [|apply nth_error_None in NL; lia].
      destruct (ready_bcode w s' R') as (bc & B & I & _). rewrite B in X.
      assert (NT : nth_error (bc_inst bc) (cs_pc (v_cs w) + Z.to_nat z) = Some (I_ON_LINE n)).
      { rewrite I, (proj1 AW). cbn [cs_pc]. rewrite <- nth_error_skipn. destruct C' as (q & C'). rewrite C'. replace (Z.to_nat z) with (Datatypes.S (Z.to_nat (z - 1))) by lia.
        cbn [app nth_error]. rewrite nth_error_app1 by (rewrite map_length; apply nth_error_Some; congruence). rewrite nth_error_map, NL. reflexivity. }
      rewrite NT in X. destruct b.
      * unfold call_line. apply leads_look. rewrite (w_returns w s' (r_shows w s' R')), map_length in X. destruct (Nat.leb 8 (length (x_returns s'))).
        -- eapply leads_fail; [exact X|exact R'|exact AW|reflexivity|]. apply (shows_same w); [reflexivity|apply R'].
        -- apply leads_update. eapply (jump_leads w s' _ _ _ n k i _ _ R' AW CU' CA X); try reflexivity.
           ++ apply shows_returns; [apply (shows_same w); [reflexivity|apply R']|]. cbn [map]. f_equal. rewrite (at_next_pc w k _ _ _ AW). unfold at_spot. cbn [fst snd]. f_equal. lia.
           ++ unfold stacks. cbn. rewrite S2. reflexivity.
      * eapply (jump_leads w s' _ s' _ n k i _ _ R' AW CU' CA X); try reflexivity; [apply (shows_same w); [reflexivity|apply R']|]. unfold stacks. cbn. rewrite S2. reflexivity.
    + rewrite (proj2 (nth_error_None l _)) by lia. exact (ON _ eq_refl X).
  - change (integer_of (S754_infinity sg)) with (@None Z). cbn beta iota. rewrite selects_infinite in X by lia. change (feqb (ffloor (S754_infinity sg)) (S754_infinity sg)) with (SFeqb (S754_infinity sg) (S754_infinity sg)) in X.
    destruct sg; exact (ON _ eq_refl X).
  - destruct (integer_of x) as [z|] eqn:IO; [apply integer_of_spec in IO; destruct (NI z IO)|]. rewrite F in X.
    assert (Y : (match x with S754_infinity _ => StepSpec.give Onward | _ => fail (RE_on_invalid x) end) s' = Failed (RE_on_invalid x) s') by (destruct x as [|[]| |]; try reflexivity; discriminate F).
    rewrite Y. eapply leads_fail; [exact X|exact R'|exact AW|reflexivity|]. apply (shows_same w); [reflexivity|apply R'].
Qed.

(* ---------- RANDOMIZE, RESTORE and CLEAR ---------- *)

Lemma onward_more v s i k pc p q u s' : ready v s -> at_ k pc p v -> current v = Some i -> calm i = true -> execute E v = (Ok tt, set_cs (place_after v 1) u) ->
  arrays_ok u -> shows u s' -> functions_ok (x_memory s') -> live u s' -> (x_column s' < 2 ^ 32)%N -> stacks u = q ->
  leads k v (Done tt s') (fun _ w => at_ k (pc + 1) q w).
Proof.
  intros R A C CA X AO SH F L B S. eapply leads_one; [exact X|..].
  - apply (ready_step v s i _ s' R C CA X); try assumption; [apply (shows_same u); [reflexivity|exact SH]|]. rewrite (at_next_pc v k pc p 1 A). reflexivity.
  - split; [exact (at_next_pc v k pc p 1 A)|exact S].
Qed.
Lemma holds_seeded v m n c i : holds v m -> holds (set_rand n i c v) (mkMemory (m_var m) (m_obj m) (m_name m) n i c).
Proof. intros [H1 H2 H3 H4 H5 H6 H7]. constructor; try assumption; reflexivity. Qed.
Lemma shows_with_memory v s w m : shows v s -> holds w m -> (v_for w, v_ret w, v_stored w, v_pdata w, (v_out w, v_col w), (v_in w, v_input w)) = (v_for v, v_ret v, v_stored v, v_pdata v, (v_out v, v_col v), (v_in v, v_input v)) ->
  shows w (with_memory m s).
Proof. intros [A1 A2 A3 A4 A5 A6 A7 A8] H U. injection U as U1 U2 U3 U4 U5 U6 U7 U8. constructor; cbn [x_memory x_loops x_returns x_data x_output x_column x_input x_line with_memory]; try congruence. Qed.
Lemma rand_leads v s k pc p : ready v s -> at_ k pc p v -> code_at pc [I_RAND] -> leads k v (update (seeded_by_clock E) s) (fun _ w => at_ k (pc + 1) p w).
Proof.
  intros R A C. pose proof (at_current _ _ _ _ _ _ _ R A C) as CU. unfold update, seeded_by_clock.
  pose proof (h_clock v _ (w_memory v s (r_shows v s R))) as HC. rewrite <- HC.
  apply (onward_more v s I_RAND k pc p p (set_rand (u32 (e_time E (v_clock v))) 0 (Datatypes.S (v_clock v)) v)); try assumption; try reflexivity; try apply R.
  - rewrite (execute_eq E v _ CU). cbn [exec_instr]. apply finish_place; reflexivity.
  - eapply shows_with_memory; [exact (r_shows v s R)|exact (holds_seeded _ _ _ _ _ (w_memory v s (r_shows v s R)))|reflexivity].
  - exact (proj2 A).
Qed.
Lemma seed_leads e v s k pc p : wnum g e -> ready v s -> at_ k pc p v -> code_at pc (ecode e ++ [I_SEED]) ->
  leads k v (following_by (count_value E e) (fun n => update (seeded (N.of_nat n))) s) (fun _ w => at_ k (pc + (length (ecode e) + 1)) p w).
Proof.
  intros W R A C. eapply leads_bind; [exact (count_leads e v s k pc p I_SEED _ eq_refl W R A C)|].
  intros n s' w _ R' (x & D & K & AW). pose proof (proj2 (proj1 (code_app _ _ _) C)) as C'. pose proof (at_current _ _ _ _ _ _ _ R' AW C') as CU.
  destruct (stacks_eq _ _ (proj2 AW)) as [S1 S2]. cbn [fst snd] in *. unfold update, seeded. rewrite Nat.add_assoc.
  pose proof (h_clock w _ (w_memory w s' (r_shows w s' R'))) as HC. rewrite <- HC.
  apply (onward_more w s' I_SEED k _ _ p (set_rand (N.of_nat n) 0 (v_clock w) (set_stack (fst p) w)) _ R' AW CU); try reflexivity; try apply R'.
  - rewrite (execute_eq E w _ CU). cbn [exec_instr]. rewrite (bind_count _ w x (fst p) n S1 D K). change (place_after w 1) with (place_after (set_stack (fst p) w) 1). apply finish_place; reflexivity.
  - eapply shows_with_memory; [exact (r_shows w s' R')| |reflexivity]. apply (holds_seeded (set_stack (fst p) w)). apply (holds_same w); try reflexivity. apply R'.
  - unfold stacks. cbn. rewrite S2. destruct p; reflexivity.
Qed.

Lemma no_data l : Forall (fun i => exprop i = true) l -> data_items l = [].
Proof. induction 1 as [|i l H _ IH]; [reflexivity|]. cbn [data_items]. destruct i; try exact IH. discriminate H. Qed.
Lemma expr_data e : wt g e -> data_items (ecode e) = [].
Proof. intros W. apply no_data. apply Forall_impl with (2 := ecode_exprop g e W). intros i H. apply H. Qed.
Lemma flat_data {A} (f : A -> list instr) l : Forall (fun a => data_items (f a) = []) l -> data_items (flat_map f l) = [].
Proof. induction 1 as [|a l H _ IH]; [reflexivity|]. cbn [flat_map]. rewrite data_items_app, H, IH. reflexivity. Qed.
Lemma place_data p : wplace g p -> data_items (subs_code p) = [].
Proof. intros (W & _). apply flat_data. apply Forall_impl with (2 := W). exact expr_data. Qed.
Lemma stmt_data_items x : wstmt g x -> data_items (scode x) = stmt_data x.
Proof.
  intros W. destruct x as [| | | | | |l|id param e|l|id a b c|n|n|e b|e n| |n|pr l|pr p|p e|l|e b l|l|e|l|n]; cbn [wstmt scode stmt_data] in *; try reflexivity.
  - clear W. induction l as [|t l IH]; [reflexivity|]. cbn [map data_items]. rewrite IH. reflexivity.
  - cbn [data_items]. rewrite data_items_app, expr_data by apply W. reflexivity.
  - apply flat_data. apply Forall_impl with (2 := W). intros p (Wp & _). unfold dim_code. rewrite data_items_app, place_data by exact Wp. destruct (pl_type p); reflexivity.
  - destruct W as (_ & [W1 _] & [W2 _] & W3). rewrite !data_items_app, !expr_data by assumption. destruct c as [c|]; [rewrite expr_data by apply W3|]; reflexivity.
  - rewrite data_items_app, expr_data by apply W. destruct b; reflexivity.
  - rewrite data_items_app, expr_data by apply W. reflexivity.
  - cbn [data_items]. rewrite data_items_app. destruct W as (_ & W).
    assert (IC : forall p, wplace g p -> data_items (input_code p) = []) by (intros p Wp; unfold input_code; rewrite data_items_app, place_data by exact Wp; destruct (pl_type p); reflexivity).
    destruct l as [|p r]; [reflexivity|]. inversion W; subst. rewrite data_items_app, IC by assumption. rewrite flat_data; [reflexivity|].
    apply Forall_impl with (2 := H2). intros q Wq. cbn [data_items]. apply IC, Wq.
  - cbn [data_items]. rewrite data_items_app, place_data by apply W. reflexivity.
  - rewrite !data_items_app, place_data, expr_data by apply W. unfold set_instr. destruct (pl_subs p), (pl_type p); reflexivity.
  - destruct l as [|a l]; [reflexivity|]. clear W. induction (a :: l) as [|b m IH]; [reflexivity|]. exact IH.
  - rewrite data_items_app, expr_data by apply W. destruct b; cbn [app data_items]; (induction l as [|m l IH]; [reflexivity|exact IH]).
  - rewrite data_items_app. rewrite flat_data; [destruct (separator_last l); reflexivity|]. apply Forall_impl with (2 := W). intros i Wi. destruct i as [e|e|e| |]; cbn [item_code witem] in *; try reflexivity.
    all: rewrite data_items_app, expr_data by apply Wi; try reflexivity. destruct (etype e); reflexivity.
  - destruct e as [e|]; [|reflexivity]. rewrite data_items_app, expr_data by apply W. reflexivity.
  - apply flat_data. apply Forall_impl with (2 := W). intros p (Wp & _). unfold read_code. rewrite data_items_app, place_data by exact Wp. destruct (pl_type p); reflexivity.
  - destruct n; reflexivity.
Qed.
Lemma line_data_items xs : Forall (wstmt g) xs -> data_items (lcode xs) = flat_map stmt_data xs.
Proof. induction 1 as [|x xs H _ IH]; [reflexivity|]. unfold lcode in *. cbn [flat_map]. rewrite data_items_app, IH, (stmt_data_items x H). reflexivity. Qed.
Lemma program_data yss : Forall (Forall (wstmt g)) yss -> forall m, data_items (pcode m yss) = lines_data yss.
Proof.
  induction 1 as [|ys yss H _ IH]; intros m; [reflexivity|]. cbn [pcode data_items]. rewrite data_items_app, IH, (line_data_items ys H). reflexivity.
Qed.

Hypothesis WS : Forall (Forall (wstmt g)) xss.

Lemma snd_program v s : ready v s -> map snd P = xss.
Proof.
  intros R. pose proof (same_length v s R) as L. rewrite <- (map_length ln_num) in L. revert L. generalize (map ln_num src). clear. induction xss as [|xs r IH]; intros [|n l] L; try discriminate L; [reflexivity|].
  cbn [combine map snd]. f_equal. apply IH. cbn in L. congruence.
Qed.
Lemma items_start v s k : ready v s -> k <= length xss -> items_from (v_stored v) (line_start xss k) = lines_data (skipn k xss).
Proof.
  intros R K. destruct (ready_bcode v s R) as (bc & _ & I & S). rewrite S. unfold items_from. cbn [c_bcode]. rewrite I, (line_start_skip xss k 0 K). apply program_data.
  apply Forall_skipn', WS.
Qed.
Lemma items_all v s : ready v s -> items_from (v_stored v) 0 = all_data P.
Proof.
  intros R. unfold all_data. rewrite (snd_program v s R). destruct (ready_bcode v s R) as (bc & _ & I & S). rewrite S. unfold items_from. cbn [c_bcode skipn]. rewrite I. apply program_data, WS.
Qed.
Lemma shows_data v s p i l : shows v s -> items_from (v_stored v) p = l -> shows (set_data p i v) (with_data l s).
Proof. intros [A1 A2 A3 A4 A5 A6 A7 A8] H. constructor; try assumption. apply (holds_same v); try reflexivity. exact A1. Qed.
Lemma restore_leads v s k pc p : ready v s -> at_ k pc p v -> code_at pc [I_RESTORE] -> leads k v (update (with_data (all_data P)) s) (fun _ w => at_ k (pc + 1) p w).
Proof.
  intros R A C. pose proof (at_current _ _ _ _ _ _ _ R A C) as CU.
  apply (onward_more v s I_RESTORE k pc p p (set_data 0 0 v)); try assumption; try reflexivity; try apply R.
  - rewrite (execute_eq E v _ CU). cbn [exec_instr]. apply finish_place; reflexivity.
  - apply shows_data; [apply R|exact (items_all v s R)].
  - exact (proj2 A).
Qed.
Lemma restore_line_leads n v s k pc p : ready v s -> at_ k pc p v -> code_at pc [I_RESTORE_LINE n] ->
  leads k v (match line_index P n with Some j => update (with_data (lines_data (skipn j (map snd P)))) | None => fail (RE_line_not_found n) end s) (fun _ w => at_ k (pc + 1) p w).
Proof.
  intros R A C. pose proof (at_current _ _ _ _ _ _ _ R A C) as CU. pose proof (execute_eq E v _ CU) as X. cbn [exec_instr] in X.
  pose proof (line_index_spec n (same_length v s R)) as L. destruct (s_loaded v (r_steady v s R)) as (kw & bc & idx & st & S & PI & I & BI).
  pose proof (index_lookup kw _ src xss st bc idx PI I BI HD n) as Y. unfold bind at 1, find_basic_line in X. rewrite S in X. cbn [c_index] in X.
  destruct (line_index P n) as [j|].
  - rewrite (proj2 (Y (N.of_nat (line_start xss j)))) in X by (exists j; auto). rewrite Nat2N.id in X. rewrite (snd_program v s R). unfold update.
    apply (onward_more v s (I_RESTORE_LINE n) k pc p p (set_data (line_start xss j) (v_idata v) v)); try assumption; try reflexivity; try apply R.
    + rewrite X. apply finish_place; reflexivity.
    + apply shows_data; [apply R|]. apply (items_start v s j R). destruct L as (ln & NS & _). assert (nth_error src j <> None) by congruence. apply nth_error_Some in H. pose proof (same_length v s R). lia.
    + exact (proj2 A).
  - destruct (lookup_line_mapping idx n) as [q|] eqn:LK; [destruct (proj1 (Y q) eq_refl) as (j & K & _); destruct (L j K)|].
    eapply leads_fail; [exact X|exact R|exact A|reflexivity|]. apply (shows_same v); [reflexivity|apply R].
Qed.

Definition clean (s : symbol) : symbol := if s_defined s then undefine_value s else s.
Lemma symbol_clean st id : symbol_at (clear_symbol_table_values st) id = option_map clean (symbol_at st id).
Proof. unfold symbol_at, clear_symbol_table_values. cbn [st_syms]. apply nth_error_map. Qed.
Lemma clean_sig s : sig_of (clean s) = sig_of s.
Proof. unfold clean. destruct (s_defined s); [|reflexivity]. unfold undefine_value. destruct (s_kind s); reflexivity. Qed.
Lemma clean_named v id k t : named (set_st (clear_symbol_table_values (v_st v)) v) id k t -> exists s, symbol_at (v_st v) id = Some s /\ s_kind s = k /\ s_type s = vtype_of t /\
  symbol_at (clear_symbol_table_values (v_st v)) id = Some (clean s).
Proof.
  intros (s & SA & K & T). cbn [v_st set_st] in SA. pose proof SA as SA'. rewrite symbol_clean in SA. destruct (symbol_at (v_st v) id) as [s0|]; [|discriminate SA]. injection SA as <-.
  exists s0. pose proof (clean_sig s0) as Q. unfold sig_of in Q. injection Q as Q1 Q2 Q3 Q4. rewrite Q3 in K. rewrite Q4 in T. auto.
Qed.
Lemma fits_here v id s : typed g v -> symbol_at (v_st v) id = Some s -> fits g s.
Proof. intros T H. exact (VmTyping.Forall_nth _ _ _ _ (ty_fits g v T) H). Qed.
Lemma holds_cleared v m : typed g v -> holds v m -> holds (set_st (clear_symbol_table_values (v_st v)) v) (cleared_memory m).
Proof.
  intros T H. constructor; try apply H; cbn [m_var m_obj m_name cleared_memory].
  - intros id t N. destruct (clean_named v id _ _ N) as (s & SA & K & TS & SC). rewrite <- (h_var v m H id t) by (exists s; auto).
    pose proof (fits_here v id s T SA) as F. unfold fits in F. rewrite K, TS in F. unfold variable. cbn [v_st set_st]. rewrite SC, SA. unfold clean, undefine_value. rewrite K.
    destruct (s_defined s) eqn:D; [|rewrite D; destruct t; reflexivity]. cbn [undefine set_defined set_val s_defined]. destruct t; cbn [vtype_of] in F; destruct (s_val s); try contradiction; reflexivity.
  - intros id t N. destruct (clean_named v id _ _ N) as (s & SA & K & TS & SC). pose proof (h_arr v m H id t ltac:(exists s; auto)) as HA.
    pose proof (fits_here v id s T SA) as F. unfold fits in F. rewrite K, TS in F.
    assert (B : bounds (set_st (clear_symbol_table_values (v_st v)) v) id = None).
    { unfold bounds. cbn [v_st set_st]. rewrite SC. unfold clean, undefine_value. rewrite K. destruct (s_defined s) eqn:D; [reflexivity|]. destruct t; cbn [vtype_of] in F; destruct (s_val s); try contradiction; try reflexivity; discriminate F. }
    destruct (m_obj m id) as [[[b f]|]|f]; [exact B|exact B|exact HA].
  - intros id t N. destruct (clean_named v id _ _ N) as (s & SA & K & TS & SC). pose proof (h_fun v m H id t ltac:(exists s; auto)) as HA.
    assert (B : function (set_st (clear_symbol_table_values (v_st v)) v) id = None).
    { unfold function. cbn [v_st set_st]. rewrite SC. unfold clean, undefine_value. rewrite K. destruct (s_defined s) eqn:D; [reflexivity|rewrite D; reflexivity]. }
    destruct (m_obj m id) as [a|[[p e]|]]; [exact HA|exact B|exact B].
  - intros id s SA. cbn [v_st set_st] in SA. rewrite symbol_clean in SA. destruct (symbol_at (v_st v) id) as [s0|] eqn:SA0; [|discriminate SA]. injection SA as <-.
    rewrite (h_name v m H id s0 SA0). pose proof (clean_sig s0) as Q. unfold sig_of in Q. injection Q as Q1 Q2 Q3 Q4. congruence.
Qed.
Lemma arrays_cleared v : arrays_ok v -> arrays_ok (set_st (clear_symbol_table_values (v_st v)) v).
Proof.
  unfold arrays_ok, clear_symbol_table_values. cbn [v_st set_st st_syms]. intros H. apply Forall_map. apply Forall_impl with (2 := H). intros s Hs.
  destruct (s_defined s); [|exact Hs]. unfold undefine_value. destruct (s_kind s); exact Hs || exact Logic.I.
Qed.
Lemma clear_leads v s k pc p : ready v s -> at_ k pc p v -> code_at pc [I_CLEAR] ->
  leads k v (update (fun s => with_loops (map (fun f => mkLoop (l_var f) (l_step f) (l_limit f) (l_body f) false) (x_loops s)) (with_memory (cleared_memory (x_memory s)) s)) s) (fun _ w => at_ k (pc + 1) p w).
Proof.
  intros R A C. pose proof (at_current _ _ _ _ _ _ _ R A C) as CU. unfold update.
  apply (onward_more v s I_CLEAR k pc p p (set_st (clear_symbol_table_values (v_st v)) v)); try assumption; try reflexivity; try apply R.
  - rewrite (execute_eq E v _ CU). cbn [exec_instr]. exact (finish_place v (modify (fun v => set_st (clear_symbol_table_values (v_st v)) v)) _ eq_refl eq_refl).
  - apply arrays_cleared, R.
  - pose proof (holds_cleared v _ (s_typed v (r_steady v s R)) (w_memory v s (r_shows v s R))) as H. destruct (r_shows v s R) as [A1 A2 A3 A4 A5 A6 A7 A8].
    constructor; cbn [x_memory x_loops x_returns x_data x_output x_column x_input x_line with_memory with_loops]; try assumption. cbn [v_for set_st]. rewrite A2, map_map. apply map_ext. intros f. reflexivity.
  - intros id q e Q. cbn [x_memory with_loops with_memory cleared_memory m_obj] in Q. destruct (m_obj (x_memory s) id); discriminate Q.
  - unfold live. cbn [x_loops with_loops]. apply Forall_map. apply Forall_forall. intros f _ Q. discriminate Q.
  - exact (proj2 A).
Qed.

(* ---------- storing ---------- *)

Local Notation give := DataProofs.give.
Definition aside (v : vm) := ((v_seed v, v_randk v, v_clock v), v_for v, v_ret v, v_stored v, v_pdata v, (v_out v, v_col v), (v_in v, v_input v)).
Definition inputs (v : vm) := (v_inp v, v_input_pc v).
Lemma shown_aside v w : v_st w = v_st v -> aside w = aside v -> shown w = shown v.
Proof. unfold shown, aside. intros H A. injection A. intros. congruence. Qed.

(* m does to v what the answer says *)
Definition puts (m : M unit) (v : vm) (q : list num * list bytes) (z : option nat * nat) (a : answer unit) : Prop :=
  match a with
  | Value _ m' => exists w, m v = (Ok tt, w) /\ (aside w = aside v /\ v_cs w = v_cs v /\ stacks w = q /\ inputs w = z) /\ holds w m' /\ functions_ok m' /\ arrays_ok w /\
      (forall j, assigned_yet v j = true -> assigned_yet w j = true)
  | Error e m' => exists w, m v = (Fail e, w) /\ holds w m' /\ aside w = aside v
  | Undefined => True
  end.
Lemma only_aside id v st w : only id (set_stack st v) w -> aside w = aside v /\ v_cs w = v_cs v /\ stacks w = (st, v_sstack v) /\ inputs w = inputs v.
Proof. intros (-> & _). repeat split. Qed.
Lemma give_typed t id n d v : typed g v -> typed g (snd (give t id n d v)).
Proof. intros T. destruct d; [exact (ty_set_numeric g id n x v T)|exact (ty_set_string g id n s v T)]. Qed.
Lemma give_aside t id n d v : aside (snd (give t id n d v)) = aside v.
Proof.
  assert (K : keeps aside (give t id n d)) by (destruct d; cbn [give]; keeps_go). exact (K v).
Qed.
Lemma give_zero t id d : give t id 0 d = assign_var id d.
Proof. destruct d; reflexivity. Qed.
Lemma give_elem t id n d : n <> 0%N -> give t id n d = StoreProofs.store id n d.
Proof. intros H. destruct d; cbn [give StoreProofs.store]; unfold set_numeric, set_string; rewrite (proj2 (N.eqb_neq n 0) H); reflexivity. Qed.
Lemma fails_puts m v q z e mm w : m v = (Fail e, w) -> v_st w = v_st v -> aside w = aside v -> holds v mm -> puts m v q z (Error e mm).
Proof. intros X S A H. exists w. split; [exact X|]. split; [|exact A]. unfold aside in A. injection A as A1 A2 A3 A4 A5 A6 A7 A8 A9 A10 A11. exact (holds_same v w mm S A1 A2 A3 H). Qed.

Lemma store_auto_typed u id n d idx st : typed g u -> arrays_ok u ->
  named u id KArray (sort_of d) -> subscripts u n idx st -> bounds u id = None -> (n <= 2)%N ->
  Forall (fun m => (m < 4294967295)%N) idx -> acceptable (map (N.max 10) idx) ->
  exists w, dimensioned u (sort_of d) id (map (N.max 10) idx) w /\ arrays_ok w /\ typed g w /\ StoreProofs.store id n d u = StoreProofs.store id n d w.
Proof.
  intros T A Hn S B N2 BB AC.
  assert (BB' : Forall (fun m => (m < 4294967295)%N) (map (N.max 10) idx)).
  { apply Forall_map. eapply Forall_impl; [|exact BB]. cbn beta. lia. }
  destruct Hn as (s & H & K & Y). destruct d; cbn [StoreProofs.store sort_of vtype_of] in *.
  - destruct (auto_num g u id n idx st T S s H K Y B N2 BB AC) as (a & NA & X).
    destruct (made_num id u s (map (N.max 10) idx) a H K Y BB' AC NA A) as (D & AW). eexists. split; [exact D|]. split; [exact AW|].
    split. { apply typed_define; try assumption. unfold fits. cbn [s_kind s_type s_val define set_defined set_val]. rewrite K, Y. reflexivity. }
    unfold set_numeric_element. unfold bind at 1. rewrite X. reflexivity.
  - destruct (auto_str g u id n idx st T S s H K Y B N2 BB AC) as (a & NA & X).
    destruct (made_str id u s (map (N.max 10) idx) a H K Y BB' AC NA A) as (D & AW). eexists. split; [exact D|]. split; [exact AW|].
    split. { apply typed_define; try assumption. unfold fits. cbn [s_kind s_type s_val define set_defined set_val]. rewrite K, Y. reflexivity. }
    unfold set_string_element. unfold bind at 1. rewrite X. reflexivity.
Qed.
Lemma put_element v mm t id a ds d q : fit v -> holds v mm -> functions_ok mm -> sort_of d = t -> named v id KArray t -> m_obj mm id = Array a ->
  Forall (fun x => sort_of x = Numbers) ds -> ds <> [] -> length ds <= 2 -> stacks v = pushes ds q ->
  puts (give t id (N.of_nat (length ds)) d) v q (inputs v) (element_store id a ds d mm).
Proof.
  intros F H O <- N MO NS NE L2 S. destruct (numbers_only ds NS) as (xs & ->). rewrite map_length in *.
  pose proof (fit_data g v _ q F S) as DO. rewrite pushes_numbers in S. destruct (stacks_eq _ _ S) as [S1 S2]. cbn [fst snd] in S1, S2.
  assert (DX : Forall double xs) by (clear - DO; induction xs; [constructor|inversion DO; subst; constructor; [assumption|auto]]).
  assert (NZ : N.of_nat (length xs) <> 0%N) by (destruct xs; cbn in *; [congruence|lia]).
  pose proof (give_typed (sort_of d) id (N.of_nat (length xs)) d v (f_typed v F)) as TW. pose proof (give_aside (sort_of d) id (N.of_nat (length xs)) d v) as AW.
  rewrite (give_elem (sort_of d) id _ d NZ) in *. pose proof N as (sy & HS & K & Y).
  unfold element_store. pose proof (subscripts_good xs DX _ eq_refl) as SG. destruct (subscripts_of _) as [[idx|x]|]; [| |contradiction].
  - assert (LI : length idx = length xs) by (symmetry; exact (Forall2_len _ _ _ SG)).
    assert (SUB : subscripts v (N.of_nat (length xs)) idx (fst q)) by (exists xs; split; [exact S1|split; [exact SG|lia]]).
    pose proof (h_arr v mm H id (sort_of d) N) as HA. rewrite MO in HA. destruct a as [[b f]|].
    + destruct HA as (B & EL). destruct (within b idx) eqn:W.
      * apply within_spec in W. destruct (store_ok g v id _ d idx (fst q) b (f_typed v F) (f_arrays v F) SUB N B ltac:(lia) W) as (w & X & (OW & BW & EW & EO') & AO).
        rewrite X in TW. cbn [snd] in TW. destruct (only_aside id v (fst q) w OW) as (Q1 & Q2 & Q3 & Q4). exists w. split; [exact X|].
        split; [split; [exact Q1|split; [exact Q2|split; [|exact Q4]]]; rewrite Q3, S2; apply pair_eta|].
        pose proof (named_same g w v id _ _ TW (f_typed v F) N) as NW. unfold aside in Q1. injection Q1 as R1 R2 R3 _ _ _ _ _ _ _ _.
        split; [|split; [|split; [exact AO|]]].
        -- apply (holds_change g id v w mm _ (f_typed v F) TW); try (cbn; rewrite ?R1, ?R2, ?R3; apply H); try assumption.
           ++ apply OW.
           ++ reflexivity.
           ++ intros j J. cbn. rewrite at_other by exact J. auto.
           ++ intros t' N'. destruct (named_unique _ _ _ _ _ _ N' NW) as [Q _]. discriminate Q.
           ++ intros t' N'. destruct (named_unique _ _ _ _ _ _ N' NW) as [_ ->]. cbn. rewrite at_same. split; [rewrite BW; exact B|].
              intros j. unfold at_index. destruct (idx_eqb j idx) eqn:JE; [apply idx_eqb_eq in JE; subst j; exact EW|].
              rewrite EO' by (intros ->; rewrite (proj2 (idx_eqb_eq idx idx) eq_refl) in JE; discriminate JE). apply EL.
           ++ intros t' N'. destruct (named_unique _ _ _ _ _ _ N' NW) as [Q _]. discriminate Q.
        -- intros j p e. cbn. unfold at_id. destruct (j =? id)%N; [discriminate|apply O].
        -- intros j. apply (yet_only id (set_stack (fst q) v) w j OW). apply (yet_array g w id (sort_of d) b TW NW). rewrite BW. exact B.
      * assert (NB : ~ in_bounds b idx) by (intros Q; apply within_spec in Q; congruence). rewrite (h_name v mm H id sy HS).
        assert (W' : exists w, StoreProofs.store id (N.of_nat (length xs)) d v = (Fail (RE_subscript (s_name sy)), w) /\ v_st w = v_st v /\ v_cs w = v_cs v).
        { destruct d; cbn [StoreProofs.store sort_of vtype_of] in *.
          - exact (store_num_refused g v id _ idx _ (f_typed v F) (f_arrays v F) SUB sy b x HS K Y B ltac:(lia) NB).
          - exact (store_str_refused g v id _ idx _ (f_typed v F) (f_arrays v F) SUB sy b s HS K Y B ltac:(lia) NB). }
        destruct W' as (w & X & W1 & _). rewrite X in AW. exact (fails_puts _ v q _ _ mm w X W1 AW H).
    + destruct (existsb (N.eqb 4294967295) idx) eqn:EX; [exact I|].
      assert (BB : Forall (fun m => (m < 4294967295)%N) idx).
      { apply Forall_forall. intros i Hi. pose proof (subs_bound v _ idx _ SUB) as SB. rewrite Forall_forall in SB. specialize (SB i Hi).
        assert (i <> 4294967295%N); [|lia]. intros ->. assert (existsb (N.eqb 4294967295) idx = true) by (apply existsb_exists; exists 4294967295%N; split; [exact Hi|reflexivity]). congruence. }
      assert (LX : length xs = 1 \/ length xs = 2) by (destruct xs as [|? [|? [|? ?]]]; cbn in *; try lia; congruence).
      assert (AC : acceptable (map (N.max 10) idx) <-> (elements_wanted (map (N.max 10) idx) <= 65536)%N).
      { unfold acceptable. rewrite map_length, LI. tauto. }
      cbv zeta. destruct (N.leb_spec (elements_wanted (map (N.max 10) idx)) 65536) as [W|W].
      * destruct (store_auto_typed v id _ d idx (fst q) (f_typed v F) (f_arrays v F) N SUB HA ltac:(lia) BB (proj2 AC W)) as (u & (OU & BU & EU) & AU & TU & XU).
        assert (IB : in_bounds (map (N.max 10) idx) idx) by (unfold in_bounds; clear; induction idx as [|i idx IH]; cbn [map]; constructor; [lia|exact IH]).
        assert (SU : subscripts u (N.of_nat (length xs)) idx (fst q)) by (destruct OU as (-> & _); exact SUB).
        pose proof (named_same g u v id _ _ TU (f_typed v F) N) as NU.
        destruct (store_ok g u id _ d idx (fst q) _ TU AU SU NU BU ltac:(lia) IB) as (w & X & (OW & BW & EW & EO') & AO).
        assert (OV : only id (set_stack (fst q) v) w).
        { destruct OU as (OU1 & OU2 & OU3), OW as (OW1 & OW2 & OW3). split; [|split].
          - rewrite OW1 at 1. rewrite OU1 at 1. reflexivity.
          - intros j J. rewrite (OW2 j J). cbn [v_st set_stack]. rewrite (OU2 j J). reflexivity.
          - intros k t N'. apply OW3. apply OU3. exact N'. }
        rewrite XU, X in TW. cbn [snd] in TW. destruct (only_aside id v (fst q) w OV) as (Q1 & Q2 & Q3 & Q4). exists w. split; [rewrite XU; exact X|].
        split; [split; [exact Q1|split; [exact Q2|split; [|exact Q4]]]; rewrite Q3, S2; apply pair_eta|].
        pose proof (named_same g w v id _ _ TW (f_typed v F) N) as NW. unfold aside in Q1. injection Q1 as R1 R2 R3 _ _ _ _ _ _ _ _.
        split; [|split; [|split; [exact AO|]]].
        -- apply (holds_change g id v w mm _ (f_typed v F) TW); try (cbn; rewrite ?R1, ?R2, ?R3; apply H); try assumption.
           ++ apply OV.
           ++ reflexivity.
           ++ intros j J. cbn. rewrite at_other by exact J. auto.
           ++ intros t' N'. destruct (named_unique _ _ _ _ _ _ N' NW) as [Q _]. discriminate Q.
           ++ intros t' N'. destruct (named_unique _ _ _ _ _ _ N' NW) as [_ ->]. cbn. rewrite at_same. split; [rewrite BW; exact BU|].
              intros j. unfold at_index. destruct (idx_eqb j idx) eqn:JE; [apply idx_eqb_eq in JE; subst j; exact EW|].
              rewrite EO' by (intros ->; rewrite (proj2 (idx_eqb_eq idx idx) eq_refl) in JE; discriminate JE). apply EU.
           ++ intros t' N'. destruct (named_unique _ _ _ _ _ _ N' NW) as [Q _]. discriminate Q.
        -- intros j p e. cbn. unfold at_id. destruct (j =? id)%N; [discriminate|apply O].
        -- intros j. apply (yet_only id (set_stack (fst q) v) w j OV). apply (yet_array g w id (sort_of d) (map (N.max 10) idx) TW NW). rewrite BW. exact BU.
      * assert (NA : ~ acceptable (map (N.max 10) idx)) by (rewrite AC; lia). rewrite (h_name v mm H id sy HS).
        assert (W' : exists w, StoreProofs.store id (N.of_nat (length xs)) d v = (Fail (RE_dimensions (s_name sy)), w) /\ v_st w = v_st v /\ v_cs w = v_cs v).
        { destruct d; cbn [StoreProofs.store sort_of vtype_of] in *.
          - destruct (auto_num_refused g v id _ idx (fst q) (f_typed v F) SUB sy HS K Y HA ltac:(lia) BB NA) as (w & Z & W1 & W2). exists w.
            split; [|split; assumption]. unfold set_numeric_element, bind at 1. rewrite Z. reflexivity.
          - destruct (auto_str_refused g v id _ idx (fst q) (f_typed v F) SUB sy HS K Y HA ltac:(lia) BB NA) as (w & Z & W1 & W2). exists w.
            split; [|split; assumption]. unfold set_string_element, bind at 1. rewrite Z. reflexivity. }
        destruct W' as (w & X & W1 & _). rewrite X in AW. exact (fails_puts _ v q _ _ mm w X W1 AW H).
  - destruct SG as (pre & post & idx & -> & FP & D & NC). rewrite (h_name v mm H id sy HS).
    assert (BS : bad_subscript v (N.of_nat (length (pre ++ x :: post))) x).
    { exists (rev post), (rev idx), (rev pre ++ fst q). split; [|split; [|split; [|split]]]; try assumption.
      - rewrite S1, rev_app_distr. cbn [rev]. rewrite <- !app_assoc. reflexivity.
      - apply Forall2_rev', FP.
      - rewrite rev_length, <- (Forall2_len _ _ _ FP), app_length. cbn [length]. lia. }
    assert (W' : exists w, StoreProofs.store id (N.of_nat (length (pre ++ x :: post))) d v = (Fail (subscript_error (s_name sy) x), w) /\ v_st w = v_st v /\ v_cs w = v_cs v).
    { destruct d as [y|y]; cbn [StoreProofs.store sort_of vtype_of] in *.
      - destruct (at_bad_num v id _ x sy HS K Y BS ltac:(lia)) as (w & Z & W1 & W2). exists w. unfold set_numeric_element, bind at 1. rewrite Z. auto.
      - destruct (at_bad_str v id _ x sy HS K Y BS ltac:(lia)) as (w & Z & W1 & W2). exists w. unfold set_string_element, bind at 1. rewrite Z. auto. }
    destruct W' as (w & X & W1 & _). rewrite X in AW. exact (fails_puts _ v q _ _ mm w X W1 AW H).
Qed.
Definition value_of (d : datum) : sval := match d with Number x => VNum x | Text t => VStr t end.
Lemma assign_eq u id d s : typed g u -> symbol_at (v_st u) id = Some s -> s_kind s = KVariable -> s_type s = vtype_of (sort_of d) ->
  assign_var id d u = (Ok tt, set_st (sym_update (v_st u) (N.to_nat id) (define s (value_of d))) u).
Proof.
  intros T H K Y. pose proof (typed_fits g u id s T H) as F. unfold fits in F. rewrite K, Y in F. destruct d as [x|x]; cbn [sort_of vtype_of assign_var value_of] in *.
  - unfold set_numeric_simple, bind, get_sym. rewrite H. unfold is_kind. rewrite K, Y. reflexivity.
  - unfold set_string_simple, bind, get_sym. rewrite H. unfold is_kind. rewrite K, Y. cbn. destruct (s_val s) eqn:X; try contradiction; cbn; rewrite ?F; reflexivity.
Qed.
Lemma assign_puts v mm t id d : fit v -> holds v mm -> functions_ok mm -> sort_of d = t -> named v id KVariable t ->
  puts (give t id 0 d) v (stacks v) (inputs v) (Value tt (with_var mm id d)).
Proof.
  intros F H O <- N. rewrite give_zero. pose proof (give_typed (sort_of d) id 0 d v (f_typed v F)) as TW. rewrite give_zero in TW.
  destruct (assign_ok g v id d (f_typed v F) N) as (w & X & OW & VW). rewrite X in TW. cbn [snd] in TW.
  assert (OV : only id (set_stack (v_stack v) v) w) by exact OW. destruct (only_aside id v (v_stack v) w OV) as (Q1 & Q2 & Q3 & Q4).
  exists w. split; [exact X|]. split; [split; [exact Q1|split; [exact Q2|split; [exact Q3|exact Q4]]]|]. unfold aside in Q1. injection Q1 as R1 R2 R3 _ _ _ _ _ _ _ _.
  pose proof (named_same g w v id _ _ TW (f_typed v F) N) as NW.
  assert (AW : arrays_ok w /\ assigned_yet w id = true).
  { destruct N as (s & HS & K & Y). rewrite (assign_eq v id d s (f_typed v F) HS K Y) in X. apply (f_equal snd) in X. cbn [snd] in X. rewrite <- X. split.
    - apply arrays_define; [exact (f_arrays v F)|]. destruct d; exact Logic.I.
    - unfold assigned_yet. cbn [v_st set_st]. rewrite (symbol_update_same _ _ _ s HS). reflexivity. }
  destruct AW as [AW YW].
  split; [|split; [exact (functions_var g mm id d O)|split; [exact AW|]]].
  - apply (holds_change g id v w mm _ (f_typed v F) TW); try (cbn; rewrite ?R1, ?R2, ?R3; apply H); try assumption.
    + apply OW.
    + reflexivity.
    + intros j J. cbn. rewrite at_other by exact J. auto.
    + intros t' N'. destruct (named_unique _ _ _ _ _ _ N' NW) as [_ ->]. cbn. rewrite at_same. exact VW.
    + intros t' N'. destruct (named_unique _ _ _ _ _ _ N' NW) as [Q _]. discriminate Q.
    + intros t' N'. destruct (named_unique _ _ _ _ _ _ N' NW) as [Q _]. discriminate Q.
  - intros j. exact (yet_only id v w j OW YW).
Qed.
Lemma few_nsubs p : length (pl_subs p) <= 2 -> nsubs p = N.of_nat (length (pl_subs p)).
Proof. intros H. unfold nsubs, u8. apply N.mod_small. lia. Qed.
Lemma put_value v mm p ds d q : fit v -> holds v mm -> functions_ok mm -> wplace g p -> vtype_of (sort_of d) = pl_type p ->
  Forall2 (fun d e => vtype_of (sort_of d) = etype e) ds (pl_subs p) -> stacks v = pushes ds q ->
  puts (give (sort_of d) (pl_id p) (nsubs p) d) v q (inputs v) (store_value p ds d mm).
Proof.
  intros F H O (W1 & W2 & W) TD F2 S. unfold store_value. pose proof (Forall2_len _ _ _ F2) as LD.
  destruct W as [-> |(NT & [(E0 & K & SK)|(NE & K & SK)])]; [exact I| |].
  - rewrite K. rewrite E0 in F2. inversion F2; subst. change (pushes [] q) with q in S. rewrite <- S. unfold nsubs. rewrite E0. apply assign_puts; try assumption; try reflexivity.
    rewrite <- TD in SK. exact (kind_named g v _ _ _ (f_typed v F) SK).
  - destruct ds as [|d0 ds]; [destruct (pl_subs p); [congruence|discriminate LD]|].
    assert (X : puts (give (sort_of d) (pl_id p) (nsubs p) d) v q (inputs v)
      match m_obj mm (pl_id p) with Array a => if Nat.leb (length (d0 :: ds)) 2 then element_store (pl_id p) a (d0 :: ds) d mm else Undefined | Function _ => Undefined end).
    { destruct (m_obj mm (pl_id p)) as [a|f] eqn:MO; [|exact I]. destruct (Nat.leb_spec (length (d0 :: ds)) 2) as [L|L]; [|exact I].
      rewrite few_nsubs by lia. rewrite <- LD. rewrite <- TD in SK. apply (put_element v mm (sort_of d) (pl_id p) a (d0 :: ds) d q F H O eq_refl (kind_named g v _ _ _ (f_typed v F) SK) MO); try assumption.
      - exact (number_data _ _ F2 W2).
      - discriminate. }
    destruct (pl_kind p); exact X || contradiction.
Qed.
Lemma puts_inp m v q z a j : puts m v q z a -> puts (m ;;; modify (set_inp (Some j))) v q (Some j, snd z) a.
Proof.
  destruct a as [[] mm|e mm|]; [| |auto].
  - intros (w & X & (A1 & A2 & A3 & A4) & H & F & AO & Y). exists (set_inp (Some j) w). split; [unfold bind at 1; rewrite X; reflexivity|].
    split; [split; [exact A1|split; [exact A2|split; [exact A3|]]]; rewrite <- A4; reflexivity|]. split; [apply (holds_same w); try reflexivity; exact H|]. split; [exact F|]. split; [exact AO|exact Y].
  - intros (w & X & H & A). exists w. split; [unfold bind at 1; rewrite X; reflexivity|]. auto.
Qed.
(* an instruction that does m, having done to the machine what leads to u *)
Lemma puts_leads v s k pc p i m u s1 q z f : ready v s -> at_ k pc p v -> current v = Some i -> still i = true -> exec_instr E i v = adv m u ->
  v_cs u = v_cs v -> v_st u = v_st v -> shows u s1 -> x_loops s1 = x_loops s -> (x_column s1 < 2 ^ 32)%N -> puts m u q z (f (x_memory s1)) ->
  leads k v (with_answer f s1) (fun _ w => at_ k (pc + 1) q w /\ inputs w = z).
Proof.
  intros R A C CA X CS ST SH LO CO PU. unfold with_answer. destruct (f (x_memory s1)) as [[] mm|e mm|]; [| |exact I].
  - destruct PU as (w & Y & (A1 & A2 & A3 & A4) & H & F & AO & YE).
    assert (XX : execute E v = (Ok tt, set_cs (place_after v 1) w)).
    { rewrite (execute_eq E v i C), X, (finish_place u m w Y A2). unfold place_after. rewrite CS. reflexivity. }
    eapply leads_one; [exact XX|..].
    + apply (ready_step v s i _ _ R C (still_calm i CA) XX AO); try assumption.
      * apply (shows_same w); [reflexivity|]. apply (shows_with_memory u s1 w mm SH H). unfold aside in A1. injection A1. intros. congruence.
      * rewrite (at_next_pc v k pc p 1 A). reflexivity.
      * unfold live. cbn [x_loops with_memory]. rewrite LO. apply Forall_impl with (2 := r_live v s R). intros l L1 L2. apply YE. specialize (L1 L2). unfold assigned_yet in *. rewrite ST. exact L1.
    + split; [split; [exact (at_next_pc v k pc p 1 A)|exact A3]|exact A4].
  - destruct PU as (w & Y & H & A1). assert (XX : execute E v = (Fail e, w)) by (rewrite (execute_eq E v i C), X; unfold adv, bind; rewrite Y; reflexivity).
    right. exists [], v, w. split; [constructor|]. split; [exact XX|]. split; [rewrite (failed_stopped E v e w XX); apply R|]. split.
    + apply (shows_with_memory u s1 w mm SH H). unfold aside in A1. injection A1. intros. congruence.
    + left. rewrite <- (at_shown v s k pc p R A). apply standing_shown. pose proof (execute_keeps standing E v i C (fun _ _ => eq_refl) (still_standing i CA)) as K. rewrite XX in K. exact K.
Qed.

(* ---------- LET ---------- *)

Lemma fit_like v u s : ready v s -> typed_fields u = typed_fields v -> Forall double (v_stack u) -> Forall string_ok (v_sstack u) -> string_ok (v_input u) -> fit u.
Proof.
  intros R H D S J. pose proof H as H0. unfold typed_fields in H0. injection H0 as H1 H2 H3 H4 H5 H6. pose proof (s_values v (r_steady v s R)) as [V1 V2 V3 V4 V5 V6 V7]. constructor.
  - apply (typed_same g v u H). apply R.
  - constructor; rewrite ?H1, ?H2, ?H3; try assumption. intros r bc C. apply (V6 r bc). destruct r; cbn [code_of] in *; congruence.
  - exact (arrays_same v u H1 (r_arrays v s R)).
Qed.
Lemma fit_less v s p d : ready v s -> stacks v = push_on p d -> fit (with_stacks p v).
Proof.
  intros R S. destruct (stacks_eq _ _ S) as [S1 S2]. pose proof (s_values v (r_steady v s R)) as [V1 V2 V3 V4 V5 V6 V7]. rewrite S1 in V2. rewrite S2 in V3.
  apply (fit_like v _ s R); [reflexivity| | |exact V7]; destruct d; cbn [push_on fst snd with_stacks v_stack v_sstack set_stack set_sstack] in *.
  all: first [exact V2 | exact V3 | (clear V3; inversion V2; assumption) | (clear V2; inversion V3; assumption)].
Qed.
Lemma subs_leads p v s k pc q i : wplace g p -> ready v s -> at_ k pc q v -> code_at pc (subs_code p ++ [i]) ->
  leads k v (values E (pl_subs p) s) (fun ds w => Forall2 (fun d e => vtype_of (sort_of d) = etype e) ds (pl_subs p) /\ at_ k (pc + length (subs_code p)) (pushes ds q) w /\ untouched w = untouched v).
Proof. intros (W & _). apply values_leads, W. Qed.
Lemma first_code l i r pc : code_at pc (l ++ i :: r) -> code_at pc (l ++ [i]).
Proof. intros (q & C). exists (r ++ q). rewrite C, <- !app_assoc. reflexivity. Qed.
Lemma store_leads v s k pc p0 i u s1 q p ds d m z : ready v s -> at_ k pc p0 v -> current v = Some i -> still i = true -> wplace g p -> vtype_of (sort_of d) = pl_type p ->
  Forall2 (fun d e => vtype_of (sort_of d) = etype e) ds (pl_subs p) ->
  (pl_kind p <> KBuiltin -> length (pl_subs p) <= 2 -> exec_instr E i v = adv m u) -> (forall a, puts (give (sort_of d) (pl_id p) (nsubs p) d) u q (inputs u) a -> puts m u q z a) ->
  v_cs u = v_cs v -> typed_fields u = typed_fields v -> shows u s1 -> x_memory s1 = x_memory s -> x_loops s1 = x_loops s -> x_column s1 = x_column s ->
  Forall double (v_stack u) -> Forall string_ok (v_sstack u) -> string_ok (v_input u) -> stacks u = pushes ds q ->
  leads k v (StepSpec.store p ds d s1) (fun _ w => at_ k (pc + 1) q w /\ inputs w = z).
Proof.
  intros R A C CA W TD F2 X PM CS TF SH SM SL SC V2 V3 V7 S. unfold StepSpec.store. pose proof TF as TF'. unfold typed_fields in TF'. injection TF' as T1 _ _ _ _ _.
  destruct (skind_eqb (pl_kind p) KBuiltin) eqn:NB'.
  { unfold with_answer, store_value. destruct (pl_kind p); try discriminate NB'. exact I. }
  assert (NB : pl_kind p <> KBuiltin) by (intros Q; rewrite Q in NB'; discriminate NB').
  destruct (Nat.leb_spec (length (pl_subs p)) 2) as [L2|L2].
  2: { rewrite <- (Forall2_len _ _ _ F2) in L2. unfold with_answer, store_value. destruct ds as [|d1 [|d2 [|d3 ds]]]; cbn [length] in L2; try lia. destruct (m_obj _ _), (pl_kind p); exact I. }
  apply (puts_leads v s k pc p0 i m u s1 q z (store_value p ds d) R A C CA (X NB L2) CS T1 SH SL).
  - rewrite SC. apply R.
  - apply PM. apply put_value; try assumption.
    + exact (fit_like v u s R TF V2 V3 V7).
    + apply SH.
    + rewrite SM. apply R.
Qed.
Lemma with_numbers v q : v_sstack v = snd q -> set_stack (fst q) v = with_stacks q v.
Proof. intros H. unfold with_stacks. rewrite <- H. destruct v. reflexivity. Qed.
Lemma with_texts v q : v_stack v = fst q -> set_sstack (snd q) v = with_stacks q v.
Proof. intros H. unfold with_stacks. rewrite <- H. destruct v. reflexivity. Qed.
Lemma set_exec p d v q s : wplace g p -> vtype_of (sort_of d) = pl_type p -> pl_kind p <> KBuiltin -> length (pl_subs p) <= 2 -> ready v s -> stacks v = push_on q d ->
  exec_instr E (set_instr p) v = adv (give (sort_of d) (pl_id p) (nsubs p) d) (with_stacks q v).
Proof.
  intros (W1 & W2 & W) TD NB L2 R S. destruct (stacks_eq _ _ S) as [S1 S2]. destruct W as [W|(NT & W)]; [contradiction|]. pose proof (s_typed v (r_steady v s R)) as T.
  assert (HS : exists sy, symbol_at (v_st v) (pl_id p) = Some sy).
  { rewrite <- TD in W. destruct W as [(_ & _ & SK)|(_ & _ & SK)]; destruct (kind_named g v _ _ _ T SK) as (sy & HS & _); eauto. }
  destruct HS as (sy & HS). rewrite few_nsubs by exact L2. unfold set_instr. rewrite few_nsubs by exact L2. rewrite <- TD.
  destruct d as [x|x]; cbn [sort_of vtype_of push_on fst snd] in *; destruct (pl_subs p) as [|e l]; cbn [exec_instr]; unfold bind at 1, get_sym; rewrite HS;
    [rewrite (bind_pop _ v x _ S1), (with_numbers v q S2)|rewrite (bind_pop _ v x _ S1), (with_numbers v q S2)|rewrite (bind_pop_str _ v x _ S2), (with_texts v q S1)|rewrite (bind_pop_str _ v x _ S2), (with_texts v q S1)];
    cbn [give]; unfold set_numeric, set_string; [reflexivity| |reflexivity|]; rewrite (proj2 (N.eqb_neq (N.of_nat (length (e :: l))) 0)) by (cbn; lia); reflexivity.
Qed.
Lemma let_leads p e v s k pc : wplace g p -> wt g e -> etype e = pl_type p -> ready v s -> at_ k pc ([], []) v -> code_at pc (scode (SLet p e)) ->
  leads k v (following_by (values E (pl_subs p)) (fun ds => following_by (value E e) (fun d => StepSpec.store p ds d)) s) (fun _ w => at_ k (pc + length (scode (SLet p e))) ([], []) w).
Proof.
  intros W WE TE R A C. cbn [scode] in *. rewrite !app_length. cbn [length].
  destruct (ecode e ++ [set_instr p]) as [|i r] eqn:EC; [destruct (ecode e); discriminate EC|].
  eapply leads_bind; [exact (subs_leads p v s k pc _ i W R A (first_code _ _ _ _ C))|].
  rewrite <- EC in C. intros ds s1 w1 _ R1 (F2 & A1 & _). apply code_app in C as [_ C].
  eapply leads_bind; [exact (value_leads e w1 s1 k _ _ _ WE R1 A1 C)|].
  intros d s2 w2 _ R2 (TD & A2 & _). apply code_app in C as [_ C]. pose proof (at_current _ _ _ _ _ _ _ R2 A2 C) as CU. unfold StepSpec.store.
  destruct (stacks_eq _ _ (proj2 A2)) as [S1 S2]. rewrite TE in TD.
  pose proof (fit_less w2 s2 _ _ R2 (proj2 A2)) as FU. destruct (f_values _ FU) as [_ V2 V3 _ _ _ V7].
  eapply leads_more.
  - apply (store_leads w2 s2 k _ _ (set_instr p) (with_stacks (pushes ds ([], [])) w2) s2 ([], []) p ds d (give (sort_of d) (pl_id p) (nsubs p) d) (inputs w2) R2 A2 CU); try assumption; try reflexivity.
    + unfold set_instr. destruct (pl_subs p), (pl_type p); reflexivity.
    + intros NB L2. exact (set_exec p d w2 (pushes ds ([], [])) s2 W TD NB L2 R2 (proj2 A2)).
    + intros a H. exact H.
    + apply (shows_same w2); [reflexivity|apply R2].
    + destruct (pushes ds ([], [])); reflexivity.
  - intros ? z [AZ _]. apply (at_eq _ _ _ _ _ _ AZ); [lia|reflexivity].
Qed.

(* ---------- READ ---------- *)

Lemma own_no v s : ready v s -> reads_own v = false.
Proof. intros R. unfold reads_own. rewrite (r_code v s R). reflexivity. Qed.
Lemma upcoming_data v s : ready v s -> upcoming v = x_data s.
Proof. intros R. unfold upcoming. rewrite (own_no v s R). apply R. Qed.
Lemma with_data_leads {X} t id n v s k pc p (f : bytes -> act X) Q : ready v s -> at_ k pc p v -> code_at pc [read t id n] ->
  (forall d r u, x_data s = d :: r -> find_data v = (Ok d, u) -> same_but_data v u -> shows u (with_data r s) -> leads k v (f d (with_data r s)) Q) ->
  leads k v (following_by (take_item P) f s) Q.
Proof.
  intros R A C K. pose proof (at_current _ _ _ _ _ _ _ R A C) as CU. pose proof (upcoming_data v s R) as U. pose proof (s_stored v (r_steady v s R)) as MS. pose proof (s_imm v (r_steady v s R)) as MI.
  unfold take_item. apply leads_assoc, leads_look. destruct (x_data s) as [|d r] eqn:D.
  - pose proof (find_data_eq v _ MS MI CU) as F. cbv zeta in F. rewrite (own_no v s R), (items_all v s R) in F.
    assert (FE : find_data v = run_error (match all_data P with [] => RE_no_data | _ => RE_out_of_data end) v).
    { rewrite F. destruct (all_data P) as [|y l]; [reflexivity|]. rewrite upcoming_eq, (own_no v s R) in U. unfold items_from in U. destruct (c_bcode (v_stored v)) as [b|] eqn:B.
      - pose proof (next_item (bc_inst b) (v_pdata v)) as NI. rewrite U in NI. destruct (nth_error _ _) as [[]|]; try reflexivity. discriminate NI.
      - destruct (ready_bcode v s R) as (bc & _ & _ & S). rewrite S in B. discriminate B. }
    change (leads k v (@Failed X (match all_data P with [] => RE_no_data | _ => RE_out_of_data end) s) Q). apply (leads_error v s (read t id n) _ v Q _ _ R A); [destruct (all_data P); reflexivity|exact CU| |reflexivity]. destruct t; cbn [read exec_instr]; unfold bind; rewrite FE; reflexivity.
  - destruct (find_data_ok v _ d r MS MI CU U) as (u & F & SD & UP). change (leads k v (f d (with_data r s)) Q). apply (K d r u eq_refl F SD). destruct SD as (pp & ii & ->). apply shows_data; [apply R|].
    assert (RO : reads_own (set_data pp ii v) = false) by exact (own_no v s R). unfold upcoming in UP. rewrite RO in UP. exact UP.
Qed.
Lemma read_one_leads p v s k pc q : wplace g p -> pl_type p <> TErr -> ready v s -> at_ k pc q v -> code_at pc (read_code p) ->
  leads k v (read_place E P p s) (fun _ w => at_ k (pc + length (read_code p)) q w).
Proof.
  intros W NT R A C. assert (RC : read_code p = subs_code p ++ [read (sort_of_type (pl_type p)) (pl_id p) (nsubs p)]) by (unfold read_code; destruct (pl_type p); try contradiction; reflexivity).
  rewrite RC in *. unfold read_place. rewrite app_length. cbn [length].
  eapply leads_bind; [exact (subs_leads p v s k pc _ _ W R A C)|]. intros ds s1 w1 _ R1 (F2 & A1 & _). apply code_app in C as [_ C]. pose proof (at_current _ _ _ _ _ _ _ R1 A1 C) as CU.
  eapply with_data_leads; [exact R1|exact A1|exact C|]. intros t r u D F SD SH. destruct (item_value _ t) as [d|] eqn:IV.
  - assert (TD : vtype_of (sort_of d) = pl_type p).
    { destruct (pl_type p); try contradiction; cbn [sort_of_type item_value] in IV; [destruct (convert t) as [[x [|]]|]; try discriminate IV|]; injection IV as <-; reflexivity. }
    pose proof (s_values w1 (r_steady w1 s1 R1)) as [_ V2 V3 _ _ _ V7]. eapply leads_more.
    + apply (store_leads w1 s1 k _ _ _ u (with_data r s1) q p ds d (give (sort_of d) (pl_id p) (nsubs p) d) (inputs w1) R1 A1 CU); try assumption; try reflexivity; try (destruct SD as (? & ? & ->); assumption || reflexivity).
      * destruct (sort_of_type (pl_type p)); reflexivity.
      * intros _ _. destruct (sort_of_type (pl_type p)); cbn [read exec_instr item_value] in *; unfold bind; rewrite F.
        -- destruct (convert t) as [[x [|]]|]; try discriminate IV. injection IV as <-. reflexivity.
        -- injection IV as <-. reflexivity.
      * destruct SD as (? & ? & ->). intros a H. exact H.
      * destruct SD as (? & ? & ->). exact (proj2 A1).
    + intros ? z [AZ _]. apply (at_eq _ _ _ _ _ _ AZ); [lia|reflexivity].
  - assert (X : exec_instr E (read (sort_of_type (pl_type p)) (pl_id p) (nsubs p)) w1 = run_error (RE_numeric_data t) u).
    { destruct (sort_of_type (pl_type p)); cbn [read exec_instr item_value] in *; [|discriminate IV]. unfold bind at 1. rewrite F. destruct (convert t) as [[x [|]]|]; try reflexivity. discriminate IV. }
    apply (leads_fail w1 _ _ (snd (run_error (A := bool) (RE_numeric_data t) u)) _ _ _ _) with (2 := R1) (3 := A1); [|reflexivity|].
    + rewrite (execute_eq E w1 _ CU), X. reflexivity.
    + apply (shows_same u); [reflexivity|exact SH].
Qed.
Lemma each_leads {B} (f : B -> act unit) (c : B -> list instr) (Q : B -> Prop) l :
  (forall b v s k pc q, Q b -> ready v s -> at_ k pc q v -> code_at pc (c b) -> leads k v (f b s) (fun _ w => at_ k (pc + length (c b)) q w)) ->
  forall v s k pc q, Forall Q l -> ready v s -> at_ k pc q v -> code_at pc (flat_map c l) -> leads k v (each f l s) (fun _ w => at_ k (pc + length (flat_map c l)) q w).
Proof.
  intros K. induction l as [|b l IH]; intros v s k pc q F R A C; cbn [each flat_map length] in *.
  - apply leads_done; [exact R|]. apply (at_eq _ _ _ _ _ _ A); [lia|reflexivity].
  - inversion F as [|? ? F1 F2]; subst. apply code_app in C as [C1 C2]. eapply leads_bind; [exact (K b v s k pc q F1 R A C1)|].
    intros ? s1 w _ R1 A1. eapply leads_more; [exact (IH w s1 k _ q F2 R1 A1 C2)|]. intros ? z AZ. apply (at_eq _ _ _ _ _ _ AZ); [rewrite app_length; lia|reflexivity].
Qed.
Lemma read_leads l v s k pc q : Forall (fun p => wplace g p /\ pl_type p <> TErr) l -> ready v s -> at_ k pc q v -> code_at pc (flat_map read_code l) ->
  leads k v (each (read_place E P) l s) (fun _ w => at_ k (pc + length (flat_map read_code l)) q w).
Proof. apply each_leads. intros p v' s' k' pc' q' [W NT]. exact (read_one_leads p v' s' k' pc' q' W NT). Qed.

(* ---------- DIM ---------- *)

Definition dim_m (t : sort) (id : symid) (n : N) : M unit := match t with Numbers => exec_dim_num id n | Texts => exec_dim_str id n end.
Lemma dim_typed t id n v : typed g v -> typed g (snd (dim_m t id n v)).
Proof. intros T. destruct t; [exact (ty_exec_dim_num g id n v T)|exact (ty_exec_dim_str g id n v T)]. Qed.
Lemma dim_aside t id n v : aside (snd (dim_m t id n v)) = aside v.
Proof. assert (K : keeps aside (dim_m t id n)) by (destruct t; cbn [dim_m]; keeps_go). exact (K v). Qed.
Lemma dim_m_bad v t id n x : typed g v -> named v id KArray t -> bad_subscript v n x -> (n <= 2)%N ->
  exists s w, symbol_at (v_st v) id = Some s /\ dim_m t id n v = (Fail (subscript_error (s_name s) x), w) /\ bounds w id = None /\ forall j, j <> id -> symbol_at (v_st w) j = symbol_at (v_st v) j.
Proof.
  intros T (s & H & K & Y) B N2. pose proof (typed_fits g v id s T H) as F. unfold fits in F. rewrite K, Y in F.
  exists s. destruct t; cbn [dim_m vtype_of] in *.
  - unfold exec_dim_num. unfold bind at 1, get_sym at 1. rewrite H. unfold bind at 1, is_kind. rewrite K, Y. cbn [skind_eqb vtype_eqb andb assert]. unfold ret at 1.
    destruct (s_val s) eqn:SV; try contradiction; cbn [val_numarr some_or_crash].
    + unfold bind at 1, ret at 1. unfold bind at 1, ret at 1. destruct (pops_bad v n x (s_name s) B N2) as (w & W & W1 & W2).
      exists w. split; [first [reflexivity|exact H]|]. unfold bind at 1. rewrite W. split; [reflexivity|]. rewrite W1. split; [unfold bounds; rewrite W1, H, SV; reflexivity|reflexivity].
    + unfold bind at 1, ret at 1. rewrite F. cbn [assert]. unfold bind at 1. unfold bind at 1, ret at 1. unfold put_sym, modify at 1.
      match goal with |- context [bind (pop_indexes n _) _ ?u] => destruct (pops_bad u n x (s_name s) (bad_stack v u n x eq_refl B) N2) as (w & W & W1 & W2) end.
      exists w. split; [first [reflexivity|exact H]|]. unfold bind at 1. rewrite W. split; [reflexivity|]. rewrite W1. cbn [v_st set_st]. split.
      * unfold bounds. rewrite W1. cbn [v_st set_st]. rewrite (symbol_update_same _ _ _ s H). unfold undefine, undefine_value; cbn; rewrite ?K, ?Y; reflexivity.
      * intros j J. apply symbol_update_other. exact J.
  - unfold exec_dim_str. unfold bind at 1, get_sym at 1. rewrite H. unfold bind at 1, is_kind. rewrite K, Y. cbn [skind_eqb vtype_eqb andb assert]. unfold ret at 1.
    destruct (s_val s) eqn:SV; try contradiction; cbn [val_strarr some_or_crash].
    + unfold bind at 1, ret at 1. unfold bind at 1, ret at 1. destruct (pops_bad v n x (s_name s) B N2) as (w & W & W1 & W2).
      exists w. split; [first [reflexivity|exact H]|]. unfold bind at 1. rewrite W. split; [reflexivity|]. rewrite W1. split; [unfold bounds; rewrite W1, H, SV; reflexivity|reflexivity].
    + unfold bind at 1, ret at 1. rewrite F. cbn [assert]. unfold bind at 1. unfold bind at 1, ret at 1. unfold put_sym, modify at 1.
      match goal with |- context [bind (pop_indexes n _) _ ?u] => destruct (pops_bad u n x (s_name s) (bad_stack v u n x eq_refl B) N2) as (w & W & W1 & W2) end.
      exists w. split; [first [reflexivity|exact H]|]. unfold bind at 1. rewrite W. split; [reflexivity|]. rewrite W1. cbn [v_st set_st]. split.
      * unfold bounds. rewrite W1. cbn [v_st set_st]. rewrite (symbol_update_same _ _ _ s H). unfold undefine, undefine_value; cbn; rewrite ?K, ?Y; reflexivity.
      * intros j J. apply symbol_update_other. exact J.
Qed.
Lemma lost_puts m v mm t id e w q z : typed g v -> typed g w -> holds v mm -> named v id KArray t -> m v = (Fail e, w) -> aside w = aside v -> bounds w id = None ->
  (forall j, j <> id -> symbol_at (v_st w) j = symbol_at (v_st v) j) -> puts m v q z (Error e (with_obj mm id (Array None))).
Proof.
  intros T TW H N X A B O. exists w. split; [exact X|]. split; [|exact A]. unfold aside in A. injection A as R1 R2 R3 _ _ _ _ _ _ _ _.
  pose proof (named_same g w v id _ _ TW T N) as NW.
  apply (holds_change g id v w mm _ T TW O); try (cbn; rewrite ?R1, ?R2, ?R3; apply H); try assumption.
  - reflexivity.
  - intros j J. cbn. rewrite at_other by exact J. auto.
  - intros t' N'. destruct (named_unique _ _ _ _ _ _ N' NW) as [Q _]. discriminate Q.
  - intros t' N'. cbn. rewrite at_same. exact B.
  - intros t' N'. destruct (named_unique _ _ _ _ _ _ N' NW) as [Q _]. discriminate Q.
Qed.
Lemma put_dim v mm p ds q t : fit v -> holds v mm -> functions_ok mm -> wplace g p -> pl_kind p = KArray -> sort_of_type (pl_type p) = t ->
  Forall2 (fun d e => vtype_of (sort_of d) = etype e) ds (pl_subs p) -> stacks v = pushes ds q ->
  puts (dim_m t (pl_id p) (nsubs p)) v q (inputs v) (dim_value p ds mm).
Proof.
  intros F H O (W1 & W2 & W) PK PT F2 S. unfold dim_value. cbv zeta. pose proof (Forall2_len _ _ _ F2) as LD. destruct (Nat.leb_spec (length ds) 2) as [L2|L2]; [|exact I].
  destruct W as [W|(NT & [(E0 & K & SK)|(NE & K & SK)])]; [congruence|congruence|]. rewrite few_nsubs, <- LD by lia. rewrite PT.
  assert (VT : pl_type p = vtype_of t) by (rewrite <- PT; destruct (pl_type p); try contradiction; reflexivity). rewrite VT in SK. pose proof (kind_named g v _ _ _ (f_typed v F) SK) as N.
  set (id := pl_id p) in *. pose proof (number_data _ _ F2 W2) as NS. assert (NE' : ds <> []) by (destruct ds; [destruct (pl_subs p); [congruence|discriminate LD]|discriminate]).
  clear W1 W2 PK PT F2 LD NT NE K SK VT. destruct (numbers_only ds NS) as (xs & ->). rewrite map_length in *.
  pose proof (fit_data g v _ q F S) as DO. rewrite pushes_numbers in S. destruct (stacks_eq _ _ S) as [S1 S2]. cbn [fst snd] in S1, S2.
  assert (DX : Forall double xs) by (clear - DO; induction xs; [constructor|inversion DO; subst; constructor; [assumption|auto]]).
  pose proof (dim_typed t id (N.of_nat (length xs)) v (f_typed v F)) as TW. pose proof (dim_aside t id (N.of_nat (length xs)) v) as AW.
  pose proof N as (sy & HS & K & Y).
  pose proof (subscripts_good xs DX _ eq_refl) as SG. destruct (subscripts_of _) as [[idx|x]|]; [| |contradiction].
  - assert (LI : length idx = length xs) by (symmetry; exact (Forall2_len _ _ _ SG)).
    assert (SUB : subscripts v (N.of_nat (length xs)) idx (fst q)) by (exists xs; split; [exact S1|split; [exact SG|lia]]).
    destruct (existsb (N.eqb 4294967295) idx) eqn:EX; [exact I|].
    assert (BB : Forall (fun m => (m < 4294967295)%N) idx).
    { apply Forall_forall. intros i Hi. pose proof (subs_bound v _ idx _ SUB) as SB. rewrite Forall_forall in SB. specialize (SB i Hi).
      assert (i <> 4294967295%N); [|lia]. intros ->. assert (existsb (N.eqb 4294967295) idx = true) by (apply existsb_exists; exists 4294967295%N; split; [exact Hi|reflexivity]). congruence. }
    assert (LX : length xs = 1 \/ length xs = 2) by (destruct xs as [|? [|? [|? ?]]]; cbn in *; try lia; congruence).
    assert (AC : acceptable idx <-> (elements_wanted idx <= 65536)%N) by (unfold acceptable; rewrite LI; tauto).
    destruct (N.leb_spec (elements_wanted idx) 65536) as [W|W].
    + assert (DM : exists w, dim_m t id (N.of_nat (length xs)) v = (Ok tt, w) /\ dimensioned (set_stack (fst q) v) t id idx w /\ arrays_ok w).
      { destruct t; cbn [dim_m vtype_of] in *.
        - exact (dim_num_ok g v id _ idx _ (f_typed v F) (f_arrays v F) SUB sy HS K Y ltac:(lia) BB (proj2 AC W)).
        - exact (dim_str_ok g v id _ idx _ (f_typed v F) (f_arrays v F) SUB sy HS K Y ltac:(lia) BB (proj2 AC W)). }
      destruct DM as (w & X & (OW & BW & EW) & AO). rewrite X in TW. cbn [snd] in TW. destruct (only_aside id v (fst q) w OW) as (Q1 & Q2 & Q3 & Q4). exists w. split; [exact X|].
      split; [split; [exact Q1|split; [exact Q2|split; [|exact Q4]]]; rewrite Q3, S2; apply pair_eta|].
      pose proof (named_same g w v id _ _ TW (f_typed v F) N) as NW. unfold aside in Q1. injection Q1 as R1 R2 R3 _ _ _ _ _ _ _ _.
      split; [|split; [|split; [exact AO|]]].
      * apply (holds_change g id v w mm _ (f_typed v F) TW); try (cbn; rewrite ?R1, ?R2, ?R3; apply H); try assumption.
        -- apply OW.
        -- reflexivity.
        -- intros j J. cbn. rewrite at_other by exact J. auto.
        -- intros t' N'. destruct (named_unique _ _ _ _ _ _ N' NW) as [Q _]. discriminate Q.
        -- intros t' N'. destruct (named_unique _ _ _ _ _ _ N' NW) as [_ ->]. cbn. rewrite at_same. split; [exact BW|exact EW].
        -- intros t' N'. destruct (named_unique _ _ _ _ _ _ N' NW) as [Q _]. discriminate Q.
      * intros j p' e. cbn. unfold at_id. destruct (j =? id)%N; [discriminate|apply O].
      * intros j. apply (yet_only id (set_stack (fst q) v) w j OW). exact (yet_array g w id t idx TW NW BW).
    + assert (NA : ~ acceptable idx) by (rewrite AC; lia). rewrite (h_name v mm H id sy HS).
      assert (DM : exists w, dim_m t id (N.of_nat (length xs)) v = (Fail (RE_dimensions (s_name sy)), w) /\ bounds w id = None /\ v_cs w = v_cs v /\ forall j, j <> id -> symbol_at (v_st w) j = symbol_at (v_st v) j).
      { destruct t; cbn [dim_m vtype_of] in *.
        - exact (dim_num_refused g v id _ idx _ (f_typed v F) (f_arrays v F) SUB sy HS K Y ltac:(lia) BB NA).
        - exact (dim_str_refused g v id _ idx _ (f_typed v F) (f_arrays v F) SUB sy HS K Y ltac:(lia) BB NA). }
      destruct DM as (w & X & B & _ & OT). rewrite X in AW, TW. exact (lost_puts _ v mm t id _ w q _ (f_typed v F) TW H N X AW B OT).
  - destruct SG as (pre & post & idx & -> & FP & D & NC). rewrite (h_name v mm H id sy HS).
    assert (BS : bad_subscript v (N.of_nat (length (pre ++ x :: post))) x).
    { exists (rev post), (rev idx), (rev pre ++ fst q). split; [|split; [|split; [|split]]]; try assumption.
      - rewrite S1, rev_app_distr. cbn [rev]. rewrite <- !app_assoc. reflexivity.
      - apply Forall2_rev', FP.
      - rewrite rev_length, <- (Forall2_len _ _ _ FP), app_length. cbn [length]. lia. }
    destruct (dim_m_bad v t id _ x (f_typed v F) N BS ltac:(lia)) as (s' & w & HS' & X & B & OT). rewrite HS in HS'. injection HS' as <-.
    rewrite X in AW, TW. exact (lost_puts _ v mm t id _ w q _ (f_typed v F) TW H N X AW B OT).
Qed.
Lemma dim_one_leads p v s k pc q : wplace g p -> pl_kind p = KArray -> ready v s -> at_ k pc q v -> code_at pc (dim_code p) ->
  leads k v (following_by (values E (pl_subs p)) (fun ds => with_answer (dim_value p ds)) s) (fun _ w => at_ k (pc + length (dim_code p)) q w).
Proof.
  intros W PK R A C. unfold dim_code in *. rewrite app_length. cbn [length].
  eapply leads_bind; [exact (subs_leads p v s k pc _ _ W R A C)|]. intros ds s1 w1 _ R1 (F2 & A1 & _). apply code_app in C as [_ C]. pose proof (at_current _ _ _ _ _ _ _ R1 A1 C) as CU.
  eapply leads_more.
  - apply (puts_leads w1 s1 k _ _ _ (dim_m (sort_of_type (pl_type p)) (pl_id p) (nsubs p)) w1 s1 q (inputs w1) (dim_value p ds) R1 A1 CU); try reflexivity.
    + destruct (pl_type p); reflexivity.
    + destruct (pl_type p); reflexivity.
    + apply R1.
    + apply R1.
    + apply put_dim; try assumption; try reflexivity; try apply R1; [exact (ready_fit w1 s1 R1)|exact (proj2 A1)].
  - intros ? z [AZ _]. apply (at_eq _ _ _ _ _ _ AZ); [lia|reflexivity].
Qed.
Lemma dim_leads l v s k pc q : Forall (fun p => wplace g p /\ pl_kind p = KArray) l -> ready v s -> at_ k pc q v -> code_at pc (flat_map dim_code l) ->
  leads k v (each (fun p => following_by (values E (pl_subs p)) (fun ds => with_answer (dim_value p ds))) l s) (fun _ w => at_ k (pc + length (flat_map dim_code l)) q w).
Proof. apply each_leads. intros p v' s' k' pc' q' [W PK]. exact (dim_one_leads p v' s' k' pc' q' W PK). Qed.

(* ---------- DEF ---------- *)

Lemma through_plain l r : Forall (fun i => exprop i = true) l -> through_end (l ++ I_END_DEF :: r) = l ++ [I_END_DEF].
Proof. induction 1 as [|i l H _ IH]; [reflexivity|]. cbn [app through_end]. rewrite IH. destruct i; try reflexivity. discriminate H. Qed.
Lemma arrays_only id v w d : only id v w -> function w id = Some d -> arrays_ok v -> arrays_ok w.
Proof.
  intros (_ & O & _) F A. unfold arrays_ok in *. rewrite Forall_forall in *. intros s Hs. apply In_nth_error in Hs as (n & Hn).
  assert (SA : symbol_at (v_st w) (N.of_nat n) = Some s) by (unfold symbol_at; rewrite Nat2N.id; exact Hn).
  destruct (N.eq_dec (N.of_nat n) id) as [J|J].
  - rewrite J in SA. unfold function in F. rewrite SA in F. destruct (s_defined s); [|discriminate F]. destruct (s_val s); try discriminate F. exact Logic.I.
  - rewrite (O _ J) in SA. apply A. unfold symbol_at in SA. apply nth_error_In in SA. exact SA.
Qed.
Lemma def_leads id p e v s k pc : In (SDef id p e) (line_stmts xss k) -> etype e <> TErr -> sg_kind g id KDef (etype e) -> nvar g p -> wt g e -> ready v s -> at_ k pc ([], []) v -> code_at pc (definition id p e) ->
  leads k v (update (fun s => with_memory (with_obj (x_memory s) id (Function (Some (p, e)))) s) s) (fun _ w => at_ k (pc + length (definition id p e)) ([], []) w).
Proof.
  intros IN NT SK NV W R A C. pose proof (at_current _ _ _ _ _ _ _ R A C) as CU. destruct (ready_bcode v s R) as (bc & B & I & _). destruct C as (r & C).
  pose proof (s_typed v (r_steady v s R)) as T. destruct (def_ok g E v id bc T CU B) as (w & X & OW & bc' & d & B' & F & BD).
  assert (TE : through_end (skipn pc (bc_inst bc)) = definition id p e).
  { rewrite I, C. unfold definition. cbn [app through_end]. rewrite <- app_assoc. cbn [app]. rewrite through_plain; [reflexivity|]. apply Forall_impl with (2 := ecode_exprop g e W). intros i H. apply H. }
  rewrite B in B'. injection B' as <-. rewrite (proj1 A) in X, BD. cbn [cs_pc] in X, BD. rewrite TE in X, BD. rewrite (at_next_pc v k pc _ _ A) in X.
  assert (OV : only id (set_stack (v_stack v) v) w) by (destruct v; exact OW). destruct (only_aside id v (v_stack v) w OV) as (Q1 & Q2 & Q3 & Q4).
  assert (TW : typed g w).
  { pose proof (typed_execute g E v T) as TX. rewrite X in TX. cbn [snd] in TX. apply (typed_same g _ w) with (2 := TX). reflexivity. }
  assert (VT : exists t, etype e = vtype_of t) by (destruct (etype e); [contradiction|exists Numbers; reflexivity|exists Texts; reflexivity]). destruct VT as (t & VT).
  rewrite VT in SK. pose proof (kind_named g w _ _ _ TW SK) as NW. unfold aside in Q1. injection Q1 as R1 R2 R3 R4 R5 R6 R7 R8 R9 R10 R11.
  pose proof (w_memory v s (r_shows v s R)) as H.
  assert (HW : holds w (with_obj (x_memory s) id (Function (Some (p, e))))).
  { apply (holds_change g id v w (x_memory s) _ T TW); try (cbn; rewrite ?R1, ?R2, ?R3; apply H); try assumption.
    - apply OW.
    - reflexivity.
    - intros j J. cbn. rewrite at_other by exact J. auto.
    - intros t' N'. destruct (named_unique _ _ _ _ _ _ N' NW) as [Q _]. discriminate Q.
    - intros t' N'. destruct (named_unique _ _ _ _ _ _ N' NW) as [Q _]. discriminate Q.
    - intros t' N'. destruct (named_unique _ _ _ _ _ _ N' NW) as [_ ->]. cbn. rewrite at_same. exists d. auto. }
  unfold update. eapply leads_one; [exact X|..].
  - apply (ready_tame v s _ _ _ R CU) with (3 := X); [reflexivity|..].
    + pose proof (fd_def fdef E v id 1 CU (r_code v s R)) as D. rewrite X in D. apply D; [|apply R]. intros bc'. split; [reflexivity|]. exists id, p, e. cbn [def_line]. rewrite (proj1 A). exact IN.
    + exact (arrays_only id v w d OW F (r_arrays v s R)).
    + apply (shows_same w); [reflexivity|]. apply (shows_with_memory v s w _ (r_shows v s R) HW). congruence.
    + intros j q b. cbn. unfold at_id. destruct (j =? id)%N; [|apply (r_funs v s R)]. intros Q. injection Q as <- <-. split; [exact W|exact NV].
    + reflexivity.
    + unfold live. cbn [x_loops with_memory]. apply Forall_impl with (2 := r_live v s R). intros l L1 L2. apply (yet_only id v w _ OW); [|exact (L1 L2)].
      unfold assigned_yet. unfold function in F. destruct (symbol_at (v_st w) id) as [sy|]; [|discriminate F]. destruct (s_defined sy); [reflexivity|discriminate F].
    + apply R.
  - split; [reflexivity|]. transitivity (stacks v); [exact Q3|exact (proj2 A)].
Qed.

(* ---------- FOR and NEXT ---------- *)

Lemma entry_others v s id : ready v s -> other_loops v id = map loop_entry (loops_without id (x_loops s)).
Proof.
  intros R. unfold other_loops, loops_without. rewrite (w_loops v s (r_shows v s R)). induction (x_loops s) as [|f l IH]; [reflexivity|]. cbn [map filter].
  change (f_sym (loop_entry f)) with (l_var f). unfold is_loop at 1. destruct (l_var f =? id)%N; cbn [negb]; [exact IH|]. cbn [map]. rewrite IH. reflexivity.
Qed.
Lemma number_named v id : named v id KVariable Numbers -> number_var v id.
Proof. intros (s & H & K & Y). exists s. auto. Qed.
Lemma number_in_of v m id : holds v m -> named v id KVariable Numbers -> number_in m id = number_of v id.
Proof.
  intros H N. pose proof (h_var v m H id Numbers N) as V. unfold number_in. rewrite <- V. unfold variable, number_of. destruct (symbol_at (v_st v) id) as [s|]; [|reflexivity].
  destruct (s_defined s); [|reflexivity]. destruct (s_val s); reflexivity.
Qed.
Lemma loop_named v s f : ready v s -> In f (x_loops s) -> named v (l_var f) KVariable Numbers.
Proof.
  intros R H. pose proof (s_typed v (r_steady v s R)) as T. pose proof (ty_for g v T) as TF. rewrite (w_loops v s (r_shows v s R)) in TF. rewrite Forall_forall in TF.
  specialize (TF (loop_entry f) (in_map _ _ _ H)). exact (kind_named g v (l_var f) KVariable Numbers T TF).
Qed.
Lemma live_number v s f : ready v s -> In f (x_loops s) -> l_live f = true -> sym_num (v_st v) (l_var f) = Some (m_name (x_memory s) (l_var f), number_in (x_memory s) (l_var f)).
Proof.
  intros R H L. pose proof (w_memory v s (r_shows v s R)) as HM. pose proof (loop_named v s f R H) as N. rewrite (number_in_of v _ _ HM N). pose proof (r_live v s R) as LV. unfold live in LV. rewrite Forall_forall in LV.
  specialize (LV f H L). destruct N as (sy & HS & K & Y). rewrite (h_name v _ HM _ sy HS). pose proof (typed_fits g v _ sy (s_typed v (r_steady v s R)) HS) as FT. unfold fits in FT. rewrite K, Y in FT. cbn [vtype_of] in FT.
  unfold assigned_yet in LV. unfold sym_num, number_of. rewrite HS in *. rewrite LV. destruct (s_val sy); try contradiction; try reflexivity; congruence.
Qed.
Lemma report_entries v s l : ready v s -> (forall f, In f l -> In f (x_loops s) /\ l_live f = true) ->
  dump_entries (v_st v) (map loop_entry l) =
  Some (flat_map (fun f => m_name (x_memory s) (l_var f) ++ lit " = " ++ format_g (number_in (x_memory s) (l_var f)) ++ lit ", " ++ format_g (l_limit f) ++ lit "; ") l).
Proof.
  intros R. induction l as [|f l IH]; intros H; [reflexivity|]. cbn [map dump_entries flat_map]. change (f_sym (loop_entry f)) with (l_var f).
  destruct (H f (or_introl eq_refl)) as [H1 H2]. rewrite (live_number v s f R H1 H2), IH by (intros q Q; apply H; right; exact Q). rewrite <- !app_assoc. reflexivity.
Qed.
Lemma for_report v s id : ready v s -> current v = Some (I_FOR id) -> number_var v id -> 8 <= length (loops_without id (x_loops s)) -> forallb l_live (x_loops s) = true ->
  exists w, execute E v = (Fail RE_for_nested, w) /\ shown w = shown (set_outcol (v_out v ++ map OB (loops_report (x_memory s) (x_loops s))) (v_col v) v).
Proof.
  intros R C (sy & SY & K1 & K2) LE LV. pose proof (r_steady v s R) as ST. pose proof (s_nodup v ST) as ND. pose proof (s_quiet v ST) as QU.
  pose proof (s_limits v ST) as LI. pose proof (entry_others v s id R) as EO'. rewrite (execute_eq E v _ C). cbn [exec_instr]. unfold adv, exec_for.
  unfold bind at 1. unfold bind at 1, trace_for at 1. rewrite (proj2 QU).
  unfold bind at 1, get_sym. rewrite SY. unfold bind at 1, assert, is_kind. rewrite K1, K2. cbn [skind_eqb vtype_eqb andb].
  unfold ret at 1. unfold bind at 1, get at 1. unfold bind at 1.
  assert (LE' : 8 <= length (other_loops v id)) by (rewrite EO', map_length; exact LE).
  pose proof (find_for_spec (v_for v) id) as F. destruct (find_for (v_for v) id) as [si|].
  - exfalso. destruct F as (a & f & b & EQ & L & <- & A). rewrite (others_split v a f b ND EQ) in LE'. destruct LI as (_ & _ & _ & LI).
    rewrite EQ in LI. rewrite app_length in *. cbn [length] in LI. lia.
  - unfold other_loops in LE'. rewrite filter_others in LE' by exact F. change MAX_FOR with 8.
    destruct (Nat.leb 8 (length (v_for v))) eqn:LB; [|apply Nat.leb_gt in LB; lia].
    unfold bind at 1, dump_for_stack. pose proof (w_loops v s (r_shows v s R)) as WL. destruct (v_for v) as [|f0 l0] eqn:EF; [cbn in LE'; lia|].
    rewrite WL, <- map_rev, (report_entries v s (rev (x_loops s)) R).
    2: { intros f IN. apply in_rev in IN. split; [exact IN|]. rewrite forallb_forall in LV. apply LV, IN. }
    unfold put, modify. eexists. split; [reflexivity|]. unfold shown, loops_report. cbn [v_st v_seed v_randk v_clock v_for v_ret v_stored v_pdata v_out v_col v_in v_input set_err set_out set_outcol].
    rewrite <- !app_assoc. reflexivity.
Qed.
(* the number x assigned to id, when only other things have changed from v to u *)
Lemma assign_facts v u id x m : typed g v -> typed g (ForSpec.assign id x u) -> v_st u = v_st v -> (v_seed u, v_randk u, v_clock u) = (v_seed v, v_randk v, v_clock v) ->
  named v id KVariable Numbers -> holds v m -> arrays_ok v ->
  holds (ForSpec.assign id x u) (with_var m id (Number x)) /\ arrays_ok (ForSpec.assign id x u) /\ assigned_yet (ForSpec.assign id x u) id = true /\
  (forall j, assigned_yet v j = true -> assigned_yet (ForSpec.assign id x u) j = true) /\ exists st, ForSpec.assign id x u = set_st st u.
Proof.
  intros T TW S RN N H A. pose proof N as (s & HS & K & Y). injection RN as R1 R2 R3. assert (HS' : symbol_at (v_st u) id = Some s) by (rewrite S; exact HS).
  assert (EQ : ForSpec.assign id x u = set_st (sym_update (v_st u) (N.to_nat id) (define s (VNum x))) u) by (unfold ForSpec.assign; rewrite HS'; reflexivity).
  rewrite EQ in *. clear EQ.
  assert (OT : forall j, j <> id -> symbol_at (sym_update (v_st u) (N.to_nat id) (define s (VNum x))) j = symbol_at (v_st v) j) by (intros j J; rewrite symbol_update_other by exact J; rewrite S; reflexivity).
  assert (YE : assigned_yet (set_st (sym_update (v_st u) (N.to_nat id) (define s (VNum x))) u) id = true).
  { unfold assigned_yet. cbn [v_st set_st]. rewrite (symbol_update_same _ _ _ s HS'). reflexivity. }
  split; [|split; [|split; [exact YE|split]]].
  - apply (holds_var g v _ id (Number x) m T TW); try assumption.
    + cbn [v_seed v_randk v_clock set_st]. auto.
    + unfold variable. cbn [v_st set_st]. rewrite (symbol_update_same _ _ _ s HS'). reflexivity.
  - apply arrays_define; [exact (arrays_same v u S A)|exact Logic.I].
  - intros j J. destruct (N.eq_dec j id) as [->|NJ]; [exact YE|]. unfold assigned_yet in *. cbn [v_st set_st]. rewrite OT by exact NJ. exact J.
  - eexists. reflexivity.
Qed.
Lemma assign_cs' id x v c : set_cs c (ForSpec.assign id x v) = ForSpec.assign id x (set_cs c v).
Proof. unfold ForSpec.assign. cbn [v_st set_cs]. destruct (symbol_at (v_st v) id); reflexivity. Qed.
Lemma start_leads id x limit step v s k i pc : nvar g id -> ready v s -> at_ k pc ([step; limit; x], []) v -> code_at pc [I_FOR id] -> pc + 1 = stmt_start xss k (i + 1) ->
  leads k v (start_loop id x limit step (k, i + 1) s) (fun _ w => at_ k (pc + 1) ([], []) w).
Proof.
  intros NV R A C NX. pose proof (at_current _ _ _ _ _ _ _ R A C) as CU. pose proof (r_steady v s R) as ST. pose proof (s_typed v ST) as T.
  pose proof (kind_named g v id KVariable Numbers T NV) as N. pose proof (number_named v id N) as NU. destruct (stacks_eq _ _ (proj2 A)) as [S1 S2]. cbn [fst snd] in S1, S2.
  unfold start_loop. apply leads_look. cbv zeta. destruct (Nat.leb_spec 8 (length (loops_without id (x_loops s)))) as [LE|LT].
  - destruct (forallb l_live (x_loops s)) eqn:LV; [|exact I]. apply leads_look. destruct (for_report v s id R CU NU LE LV) as (w & X & SW).
    change (leads k v (@Failed unit RE_for_nested (with_output (x_output s ++ map OB (loops_report (x_memory s) (x_loops s))) (x_column s) s)) (fun _ w => at_ k (pc + 1) ([], []) w)).
    apply (leads_fail v _ _ w _ _ _ _ X R A eq_refl). apply (shows_same _ w _ SW). destruct (r_shows v s R) as [B1 B2 B3 B4 B5 B6 B7 B8].
    constructor; cbn [x_memory x_loops x_returns x_data x_output x_column x_input x_line with_output]; try assumption.
    + apply (holds_same v); try reflexivity. exact B1.
    + cbn [v_out set_outcol]. rewrite B5. reflexivity.
  - set (f := mkLoop id step limit (k, i + 1) true). set (l := loops_without id (x_loops s)).
    change (leads k v (Done tt (with_memory (with_var (x_memory s) id (Number x)) (with_loops (l ++ [f]) s))) (fun _ w => at_ k (pc + 1) ([], []) w)).
    pose proof (entry_others v s id R) as EO'. fold l in EO'.
    assert (FE : mkFor (v_cs v) id step limit = loop_entry f).
    { unfold loop_entry, f. cbn [l_var l_step l_limit l_body fst snd]. rewrite (proj1 A), <- NX, Nat.add_1_r. reflexivity. }
    pose proof (for_step E v id step limit x [] CU (proj2 (s_quiet v ST)) S1 NU (s_nodup v ST) ltac:(rewrite EO', map_length; exact LT)) as X.
    rewrite FE, EO', (at_next_pc v k pc _ 1 A), assign_cs' in X. set (u := set_cs _ _) in X.
    pose proof (typed_execute g E v T) as TW. rewrite X in TW. cbn [snd] in TW.
    destruct (assign_facts v u id x (x_memory s) T TW eq_refl eq_refl N (w_memory v s (r_shows v s R)) (r_arrays v s R)) as (HW & AW & YW & YM & stt & EQ).
    eapply leads_one; [exact X|..].
    + apply (ready_step v s _ _ _ R CU eq_refl X AW).
      * destruct (r_shows v s R) as [B1 B2 B3 B4 B5 B6 B7 B8]. constructor; cbn [x_memory x_loops x_returns x_data x_output x_column x_input x_line with_memory with_loops]; [exact HW| | | | | | |]; rewrite EQ; try assumption.
        cbn [v_for set_st]. unfold u. cbn [v_for set_cs set_stack set_for]. rewrite map_app. reflexivity.
      * apply functions_var, R.
      * rewrite EQ. reflexivity.
      * unfold live. cbn [x_loops with_memory with_loops]. apply Forall_app. split; [|constructor; [intros _; exact YW|constructor]].
        apply Forall_forall. intros q Hq L. unfold l, loops_without in Hq. apply filter_In in Hq as [Hq _]. pose proof (r_live v s R) as LV. unfold live in LV. rewrite Forall_forall in LV. apply YM, LV; assumption.
      * apply R.
    + split; [rewrite EQ; reflexivity|]. rewrite EQ. unfold stacks, u. cbn. rewrite S2. reflexivity.
Qed.

Definition goes (k pc : nat) (p : list num * list bytes) (t : turn) (w : vm) : Prop :=
  match t with Onward => at_ k pc p w | Elsewhere q => stands w q /\ stacks w = p | Halt => False end.
Lemma stmt_start_pos k i : stmt_start xss k i = Datatypes.S (pred (stmt_start xss k i)).
Proof. unfold stmt_start. lia. Qed.
Lemma round_leads f v s k pc p i : ready v s -> at_ k pc p v -> current v = Some i -> calm i = true -> In f (x_loops s) -> at_next v (loop_entry f) ->
  leads k v (next_round f s) (goes k (pc + 1) p).
Proof.
  intros R A CU CA IN AN. unfold next_round. destruct (l_live f) eqn:LV; [|exact I]. apply leads_look. cbv zeta. pose proof (r_steady v s R) as ST. pose proof (s_typed v ST) as T.
  pose proof (loop_named v s f R IN) as N. pose proof (w_memory v s (r_shows v s R)) as HM. rewrite (number_in_of v _ _ HM N).
  assert (AS : assigned v (f_sym (loop_entry f))).
  { pose proof (r_live v s R) as LL. unfold live in LL. rewrite Forall_forall in LL. specialize (LL f IN LV). unfold assigned_yet in LL. unfold assigned. change (f_sym (loop_entry f)) with (l_var f). destruct (symbol_at _ _); [exact LL|discriminate LL]. }
  assert (LO : loops_ok v) by (split; [exact (s_nodup v ST)|apply (s_limits v ST)]).
  pose proof (next_step E g v (loop_entry f) T LO (proj2 (s_quiet v ST)) AN AS) as X. cbv zeta in X.
  change (f_sym (loop_entry f)) with (l_var f) in X. change (f_step (loop_entry f)) with (l_step f) in X. set (x := fadd _ _) in *. change (past (loop_entry f) x) with (passed f x) in X.
  destruct (passed f x).
  - apply leads_update. rewrite (entry_others v s (l_var f) R), (at_next_pc v k pc p 1 A) in X. eapply leads_one; [exact X|..].
    + apply (ready_plain v s i _ _ R CU CA X); try reflexivity.
      * destruct (r_shows v s R) as [B1 B2 B3 B4 B5 B6 B7 B8]. constructor; cbn [x_memory x_loops x_returns x_data x_output x_column x_input x_line with_loops]; try assumption; try reflexivity. apply (holds_same v); try reflexivity. exact B1.
      * cbn [x_loops with_loops]. apply Forall_forall. intros q Hq. unfold loops_without in Hq. apply filter_In in Hq as [Hq _]. pose proof (r_live v s R) as LL. unfold live in LL. rewrite Forall_forall in LL. apply LL, Hq.
      * apply R.
    + split; [reflexivity|exact (proj2 A)].
  - change (leads k v (Done (Elsewhere (l_body f)) (with_memory (with_var (x_memory s) (l_var f) (Number x)) s)) (goes k (pc + 1) p)).
    rewrite assign_cs' in X. set (u := set_cs _ _) in X. pose proof (typed_execute g E v T) as TW. rewrite X in TW. cbn [snd] in TW.
    destruct (assign_facts v u (l_var f) x (x_memory s) T TW eq_refl eq_refl N HM (r_arrays v s R)) as (HW & AW & YW & YM & stt & EQ).
    eapply leads_one; [exact X|..].
    + apply (ready_step v s _ _ _ R CU CA X AW).
      * apply (shows_with_memory v s _ _ (r_shows v s R) HW). rewrite EQ. reflexivity.
      * apply functions_var, R.
      * rewrite EQ. reflexivity.
      * unfold live. cbn [x_loops with_memory]. apply Forall_impl with (2 := r_live v s R). intros q L1 L2. apply YM, L1, L2.
      * apply R.
    + split; [|rewrite EQ; exact (proj2 A)]. left. rewrite EQ. cbn [v_cs set_st]. unfold u. cbn [v_cs set_cs]. unfold loop_body, loop_entry, at_spot. cbn [f_cs cs_code cs_line cs_pc].
      rewrite <- stmt_start_pos. reflexivity.
Qed.
Lemma find_loop id l : match find (is_loop id) l with Some f => In f l /\ l_var f = id | None => Forall (fun f => l_var f <> id) l end.
Proof.
  induction l as [|f l IH]; cbn [find]; [constructor|]. unfold is_loop at 1. destruct (N.eqb_spec (l_var f) id) as [Q|Q]; [split; [left; reflexivity|exact Q]|].
  destruct (find (is_loop id) l); [split; [right; apply IH|apply IH]|constructor; assumption].
Qed.
Lemma next_var_leads id v s k pc p : nvar g id -> ready v s -> at_ k pc p v -> code_at pc [I_NEXT_VAR id] -> leads k v (next_of id s) (goes k (pc + 1) p).
Proof.
  intros NV R A C. pose proof (at_current _ _ _ _ _ _ _ R A C) as CU. unfold next_of. apply leads_look, leads_look. pose proof (find_loop id (x_loops s)) as FL.
  pose proof (w_loops v s (r_shows v s R)) as WL. pose proof (s_typed v (r_steady v s R)) as T. destruct (find (is_loop id) (x_loops s)) as [f|].
  - destruct FL as [IN Q]. apply (round_leads f v s k pc p _ R A CU eq_refl IN). split; [rewrite WL; apply in_map, IN|]. left. change (f_sym (loop_entry f)) with (l_var f). rewrite Q. exact CU.
  - destruct (kind_named g v id KVariable Numbers T NV) as (sy & HS & _). rewrite (h_name v _ (w_memory v s (r_shows v s R)) id sy HS).
    assert (FN : find_for (v_for v) id = None).
    { pose proof (find_for_spec (v_for v) id) as FS. destruct (find_for (v_for v) id) as [si|]; [|reflexivity]. exfalso. destruct FS as (a & f & b & EQ & _ & Q & _). rewrite WL in EQ.
      assert (IN : In f (map loop_entry (x_loops s))) by (rewrite EQ; apply in_or_app; right; left; reflexivity). apply in_map_iff in IN as (q & <- & IN). rewrite Forall_forall in FL. exact (FL q IN Q). }
    apply (leads_error v s (I_NEXT_VAR id) _ v _ _ _ R A); [destruct (x_loops s); reflexivity|exact CU| |reflexivity]. cbn [exec_instr]. unfold bind at 1, trace_for. rewrite (proj2 (s_quiet v (r_steady v s R))). unfold bind at 1, get at 1.
    destruct (x_loops s) as [|f0 l0].
    + rewrite WL. reflexivity.
    + destruct (last_opt (v_for v)) as [f|] eqn:LA.
      * assert (IN : In f (v_for v)).
        { destruct (v_for v) as [|a0 m0] eqn:VF; [discriminate LA|]. destruct (exists_last (l := a0 :: m0) ltac:(discriminate)) as (q & z & QZ). rewrite QZ, last_opt_snoc in LA. injection LA as <-. rewrite QZ. apply in_or_app. right. left. reflexivity. }
        rewrite WL in IN. apply in_map_iff in IN as (q & <- & IN). rewrite Forall_forall in FL. change (f_sym (loop_entry q)) with (l_var q). rewrite (proj2 (N.eqb_neq _ _) (FL q IN)), FN.
        unfold bind at 1, get_sym. rewrite HS. reflexivity.
      * exfalso. rewrite WL in LA. destruct (exists_last (l := map loop_entry (f0 :: l0)) ltac:(discriminate)) as (q & z & QZ). rewrite QZ, last_opt_snoc in LA. discriminate LA.
Qed.
Lemma next_all_leads l : forall v s k pc p, Forall (nvar g) l -> ready v s -> at_ k pc p v -> code_at pc (map I_NEXT_VAR l) -> leads k v (next_all l s) (goes k (pc + length l) p).
Proof.
  induction l as [|id l IH]; intros v s k pc p F R A C; cbn [map length next_all] in *.
  - apply leads_done; [exact R|]. apply (at_eq _ _ _ _ _ _ A); [lia|reflexivity].
  - inversion F as [|? ? F1 F2]; subst. apply code_cons in C as [C1 C2]. eapply leads_bind; [exact (next_var_leads id v s k pc p F1 R A C1)|].
    intros [|q|] s1 w _ R1 G; cbn [goes] in G.
    + rewrite Nat.add_1_r in G. eapply leads_more; [exact (IH w s1 k _ p F2 R1 G C2)|]. rewrite Nat.add_succ_r. intros t z Z. exact Z.
    + apply leads_done; [exact R1|exact G].
    + contradiction.
Qed.
Lemma next_innermost_leads v s k pc p : ready v s -> at_ k pc p v -> code_at pc [I_NEXT_IMP] -> leads k v (next_innermost s) (goes k (pc + 1) p).
Proof.
  intros R A C. pose proof (at_current _ _ _ _ _ _ _ R A C) as CU. unfold next_innermost. apply leads_look. pose proof (w_loops v s (r_shows v s R)) as WL.
  destruct (x_loops s) as [|f0 l0] eqn:XL.
  - cbn [last_opt]. apply (leads_error v s I_NEXT_IMP _ v _ _ _ R A); [reflexivity|exact CU| |reflexivity]. cbn [exec_instr]. unfold bind at 1, trace_for. rewrite (proj2 (s_quiet v (r_steady v s R))). unfold bind at 1, get at 1. rewrite WL. reflexivity.
  - destruct (exists_last (l := f0 :: l0) ltac:(discriminate)) as (q & z & QZ). rewrite QZ, last_opt_snoc. rewrite QZ in XL, WL. apply (round_leads z v s k pc p _ R A CU eq_refl).
    + rewrite XL. apply in_or_app. right. left. reflexivity.
    + rewrite map_app in WL. cbn [map] in WL. split; [rewrite WL; apply in_or_app; right; left; reflexivity|]. right. split; [exact CU|]. exists (map loop_entry q). exact WL.
Qed.

(* ---------- FOR ---------- *)

Lemma default_leads v s k pc p x i : double x -> ready v s -> at_ k pc p v -> code_at pc [I_PUSH_NUM x; i] ->
  leads k v (Done x s) (fun y w => double y /\ at_ k (pc + 1) (y :: fst p, snd p) w /\ untouched w = untouched v).
Proof.
  intros D R A C. pose proof (value_leads (ENum x) v s k pc p i D R A C) as H. unfold value, with_answer in H. cbn [evaluate] in H.
  pose proof (number_leads (ENum x) v s k pc p i (conj D eq_refl) R A C) as H'.
  assert (Q : number_value E (ENum x) s = Done x s) by (destruct s; reflexivity). rewrite Q in H'. exact H'.
Qed.
Lemma for_leads id a b c v s k i : wstmt g (SFor id a b c) -> ready v s -> here k i (SFor id a b c) -> at_ k (stmt_start xss k i) ([], []) v ->
  leads k v (perform E P k (line_stmts xss k) i (SFor id a b c) s) (arrives k i).
Proof.
  intros (NV & WA & WB & WC) R H A. pose proof (here_code _ _ _ H) as C. pose proof (here_next _ _ _ H) as NX. cbn [scode perform] in *. rewrite !app_length in NX. cbn [length] in NX.
  set (stp := match c with Some e => ecode e | None => [I_PUSH_NUM fone] end) in *. set (pc := stmt_start xss k i) in *.
  assert (NEb : exists j r, ecode b ++ stp ++ [I_FOR id] = j :: r) by (destruct (ecode b) as [|j r]; [destruct stp as [|j r]|]; eexists; eexists; reflexivity).
  assert (NEc : exists j r, stp ++ [I_FOR id] = j :: r) by (destruct stp as [|j r]; eexists; eexists; reflexivity).
  pose proof C as C0. apply code_app in C as [_ C1]. pose proof C1 as C1'. apply code_app in C1 as [_ C2]. pose proof C2 as C2'. apply code_app in C2 as [_ C3].
  destruct NEb as (jb & rb & NEb). rewrite NEb in C0. destruct NEc as (jc & rc & NEc). rewrite NEc in C1'.
  eapply leads_bind; [exact (number_leads a v s k _ _ _ WA R A (first_code _ _ _ _ C0))|]. intros x s1 w1 _ R1 (D1 & A1 & _).
  eapply leads_bind; [exact (number_leads b w1 s1 k _ _ _ WB R1 A1 (first_code _ _ _ _ C1'))|]. intros y s2 w2 _ R2 (D2 & A2 & _).
  eapply leads_bind with (Q := fun z w => double z /\ at_ k (pc + length (ecode a) + length (ecode b) + length stp) ([z; y; x], []) w /\ untouched w = untouched w2).
  - unfold stp in *. destruct c as [e|].
    + exact (number_leads e w2 s2 k _ _ _ WC R2 A2 C2').
    + apply (default_leads w2 s2 k _ _ fone (I_FOR id) ltac:(vm_compute; reflexivity) R2 A2 C2').
  - intros z s3 w3 _ R3 (D3 & A3 & _). eapply leads_bind; [exact (start_leads id x y z w3 s3 k i _ NV R3 A3 C3 ltac:(lia))|].
    intros ? s4 w4 _ R4 A4. apply leads_done; [exact R4|]. apply (at_eq _ _ _ _ _ _ A4); [lia|reflexivity].
Qed.
Lemma next_leads l v s k i : wstmt g (SNext l) -> ready v s -> here k i (SNext l) -> at_ k (stmt_start xss k i) ([], []) v ->
  leads k v (perform E P k (line_stmts xss k) i (SNext l) s) (arrives k i).
Proof.
  intros W R H A. pose proof (here_code _ _ _ H) as C. pose proof (here_next _ _ _ H) as NX.
  assert (G : forall t w, goes k (stmt_start xss k (i + 1)) ([], []) t w -> arrives k i t w) by (intros [|q|] w Z; cbn [goes arrives] in *; [exact Z|exact Z|contradiction]).
  destruct l as [|id l]; cbn [scode perform] in *.
  - eapply leads_more; [exact (next_innermost_leads v s k _ _ R A C)|]. rewrite NX in G. exact G.
  - eapply leads_more; [exact (next_all_leads (id :: l) v s k _ _ W R A C)|]. rewrite NX in G. cbn [length map] in *. rewrite map_length in G. exact G.
Qed.

(* ---------- INPUT ---------- *)

Definition ends (s t : bytes) : Prop := exists p, s = p ++ t.
Lemma ends_refl s : ends s s. Proof. exists []. reflexivity. Qed.
Lemma ends_trans a b c : ends a b -> ends b c -> ends a c.
Proof. intros (p & ->) (q & ->). exists (p ++ q). apply app_assoc. Qed.
Lemma ends_cons c a b : ends a b -> ends (c :: a) b.
Proof. intros (p & ->). exists (c :: p). reflexivity. Qed.
Lemma ends_skipn n s : ends s (skipn n s).
Proof. exists (firstn n s). symmetry. apply firstn_skipn. Qed.
Lemma ends_drop f s : ends s (drop_while f s).
Proof. induction s as [|c s IH]; cbn [drop_while]; [apply ends_refl|]. destruct (f c); [apply ends_cons, IH|apply ends_refl]. Qed.
Lemma ends_span f s p q : span f s = (p, q) -> ends s q.
Proof. intros H. destruct (span_spec f s p q H) as (-> & _). exists p. reflexivity. Qed.
Lemma ends_tail s t n : ends s t -> n = length s - length t -> skipn n s = t.
Proof. intros (p & ->) ->. rewrite app_length, Nat.add_sub, skipn_app, skipn_all, Nat.sub_diag. reflexivity. Qed.
Lemma ends_mantissa f s ip fp r : scan_mantissa f s = (ip, fp, r) -> ends s r.
Proof.
  unfold scan_mantissa. destruct (span f s) as [a b] eqn:S. apply ends_span in S. destruct b as [|c b].
  - intros H. injection H as <- <- <-. exact S.
  - destruct (ceq c "."%char); [|intros H; injection H as <- <- <-; exact S]. destruct (span f b) as [a' b'] eqn:S'. apply ends_span in S'.
    destruct a, a'; intros H; injection H as <- <- <-; try apply ends_refl; apply (ends_trans _ _ _ S), ends_cons, S'.
Qed.
Lemma ends_exponent m s e r : Num.scan_exponent m s = (e, r) -> ends s r.
Proof.
  unfold Num.scan_exponent. destruct s as [|c s]; [intros H; injection H as <- <-; apply ends_refl|]. destruct (ceq _ m); [|intros H; injection H as <- <-; apply ends_refl].
  assert (Q : forall n t, ends s t -> (let '(neg, r') := (n, t) in match span is_digit r' with ([], _) => (0%Z, c :: s) | (ds, r2) => let v := Z.of_N (digits_value 10 digit_val ds) in ((if neg : bool then - v else v)%Z, r2) end) = (e, r) -> ends (c :: s) r).
  { intros n t T. destruct (span is_digit t) as [a b] eqn:S. apply ends_span in S. destruct a; intros H; injection H as <- <-; [apply ends_refl|apply ends_cons, (ends_trans _ _ _ T S)]. }
  destruct s as [|d s]; [exact (Q false _ (ends_refl _))|]. destruct (ceq d "-"%char); [exact (Q true _ (ends_cons d _ _ (ends_refl _)))|]. destruct (ceq d "+"%char); [exact (Q false _ (ends_cons d _ _ (ends_refl _)))|exact (Q false _ (ends_refl _))].
Qed.
Lemma ends_unsigned n s x r : scan_unsigned n s = Some (x, r) -> ends s r.
Proof.
  unfold scan_unsigned. destruct (striprefix _ s); [intros H; injection H as <- <-; exact (ends_skipn 8 s)|]. destruct (striprefix _ s); [intros H; injection H as <- <-; exact (ends_skipn 3 s)|].
  destruct (striprefix _ s).
  { pose proof (ends_skipn 3 s) as T. destruct (skipn 3 s) as [|c r1]; [intros H; injection H as <- <-; exact T|]. destruct (ceq c "("%char); [|intros H; injection H as <- <-; exact T].
    destruct (span _ r1) as [a b] eqn:S. apply ends_span in S. destruct b as [|d r2]; [intros H; injection H as <- <-; exact T|]. destruct (ceq d ")"%char); intros H; injection H as <- <-; [|exact T].
    apply (ends_trans _ _ _ T), ends_cons, (ends_trans _ _ _ S), ends_cons, ends_refl. }
  cbv zeta. set (hex := match s with [] => None | _ => _ end).
  assert (HX : forall y t, hex = Some (y, t) -> ends s t).
  { unfold hex. intros y t. destruct s as [|z [|x' s]]; try discriminate. destruct (_ && _); [|discriminate]. destruct (scan_mantissa is_hexdigit s) as [[ip fp] r1] eqn:M. apply ends_mantissa in M.
    destruct (Num.scan_exponent "p" r1) as [e r2] eqn:X. apply ends_exponent in X. destruct ip, fp; try discriminate; intros H; injection H as <- <-; apply ends_cons, ends_cons, (ends_trans _ _ _ M X). }
  destruct hex as [[y t]|]; [intros H; injection H as <- <-; exact (HX _ _ eq_refl)|]. clear HX. destruct (scan_mantissa is_digit s) as [[ip fp] r1] eqn:M. apply ends_mantissa in M.
  destruct (Num.scan_exponent "e" r1) as [e r2] eqn:X. apply ends_exponent in X. destruct ip, fp; try discriminate; intros H; injection H as <- <-; exact (ends_trans _ _ _ M X).
Qed.
Lemma ends_strtod s : ends s (snd (strtod s)).
Proof.
  unfold strtod. pose proof (ends_drop is_space s) as D. set (s1 := drop_while is_space s) in *.
  assert (Q : forall n t, ends s t -> ends s (snd (match scan_unsigned n t with Some (v, r) => (v, r) | None => (fzero, s) end))).
  { intros n t T. destruct (scan_unsigned n t) as [[y r]|] eqn:U; [exact (ends_trans _ _ _ T (ends_unsigned _ _ _ _ U))|apply ends_refl]. }
  destruct s1 as [|c r]; [exact (Q false _ D)|]. assert (DR : ends s r) by (apply (ends_trans _ _ _ D), ends_cons, ends_refl).
  destruct (ceq c "-"%char); [exact (Q true _ DR)|]. destruct (ceq c "+"%char); [exact (Q false _ DR)|exact (Q false _ D)].
Qed.
Lemma ends_convert s x t : convert s = Some (x, t) -> ends s t.
Proof.
  unfold convert. cbv zeta. pose proof (ends_drop is_blank s) as D. set (s1 := drop_while is_blank s) in *. destruct s1 as [|c r]; [discriminate|]. destruct (_ || _); [|discriminate].
  pose proof (ends_strtod (c :: r)) as T. destruct (strtod (c :: r)) as [y e]. intros H. injection H as <- <-. apply (ends_trans _ _ _ D), (ends_trans _ _ _ T), ends_drop.
Qed.

(* the interpreter has still this text of the line, and goes back to c to ask again *)
Definition fed (c : nat) (v : vm) (text : bytes) : Prop := exists n, inputs v = (Some n, c) /\ skipn n (v_input v) = text.
Lemma fed_untouched c v w text : untouched w = untouched v -> fed c v text -> fed c w text.
Proof. intros U (n & I & S). unfold untouched in U. injection U as U1 U2 U3 U4 U5 U6 U7 U8 U9 U10 U11 U12 U13 U14 U15. exists n. unfold inputs in *. split; [rewrite U8, U9; exact I|rewrite U7; exact S]. Qed.
Lemma fed_rest c v text : fed c v text -> exists n, v_inp v = Some n /\ v_input_pc v = c /\ skipn n (v_input v) = text /\ input_rest v = Some (n, text).
Proof. intros (n & I & S). unfold inputs in I. injection I as I1 I2. exists n. split; [exact I1|]. split; [exact I2|]. split; [exact S|]. unfold input_rest. rewrite I1, S. reflexivity. Qed.
Lemma skip_more n m (l : bytes) t u : skipn n l = t -> ends t u -> m = length t - length u -> skipn (n + m) l = u.
Proof. intros H T ->. rewrite <- skipn_skipn', H. apply ends_tail; [exact T|reflexivity]. Qed.

Lemma leads_group {A B C} {k} v (a : act A) (b : A -> act B) (c : B -> act C) s Q :
  leads k v (following_by (following_by a b) c s) Q -> leads k v (following_by a (fun x => following_by (b x) c) s) Q.
Proof. unfold following_by. destruct (a s); auto. Qed.

Lemma shows_written v s t : shows v s -> shows (set_out (v_out v ++ map OB t) v) (with_output (x_output s ++ map OB t) (x_column s) s).
Proof.
  intros [A1 A2 A3 A4 A5 A6 A7 A8]. constructor; try assumption.
  - apply (holds_same v); try reflexivity. exact A1.
  - cbn. rewrite A5. reflexivity.
Qed.
Lemma buf_leads prompt v s k pc p : ready v s -> at_ k pc p v -> code_at pc [I_INPUT_BUF prompt] ->
  leads k v (following_by (show (prompt_text prompt)) (fun _ => update read_line) s) (fun _ w => at_ k (pc + 1) p w /\ fed pc w (v_input w)).
Proof.
  intros R A C. pose proof (at_current _ _ _ _ _ _ _ R A C) as CU.
  set (s1 := with_output (x_output s ++ map OB (prompt_text prompt)) (x_column s) s). set (u1 := set_out (v_out v ++ map OB (prompt_text prompt)) v).
  pose proof (shows_written v s (prompt_text prompt) (r_shows v s R)) as SH. fold u1 s1 in SH.
  set (u := match fgets 128 (v_in u1) with Some (buf, rest) => set_input (cstr buf) (Some 0) (cs_pc (v_cs u1)) rest u1 | None => set_input (v_input u1) (Some 0) (cs_pc (v_cs u1)) [] u1 end).
  change (leads k v (Done tt (read_line s1)) (fun _ w => at_ k (pc + 1) p w /\ fed pc w (v_input w))).
  assert (X : execute E v = (Ok tt, set_cs (place_after v 1) u)).
  { rewrite (execute_eq E v _ CU). cbn [exec_instr]. unfold bind at 1, put, modify at 1. change (set_out (v_out v ++ map OB (opt_str prompt ++ lit "? ")) v) with u1.
    rewrite (finish_place u1 (modify (fun v => match fgets 128 (v_in v) with Some (buf, rest) => set_input (cstr buf) (Some 0) (cs_pc (v_cs v)) rest v | None => set_input (v_input v) (Some 0) (cs_pc (v_cs v)) [] v end)) u eq_refl).
    - reflexivity.
    - unfold u. destruct (fgets 128 (v_in u1)) as [[a b]|]; reflexivity. }
  assert (FE : fed pc u (v_input u)).
  { exists 0. split; [|reflexivity]. unfold u, inputs. destruct (fgets 128 (v_in u1)) as [[a b]|]; cbn [v_inp v_input_pc set_input]; change (v_cs u1) with (v_cs v); rewrite (proj1 A); reflexivity. }
  assert (SH2 : shows u (read_line s1)).
  { unfold read_line, u. rewrite <- (w_input u1 s1 SH). destruct SH as [A1 A2 A3 A4 A5 A6 A7 A8].
    destruct (fgets 128 (v_in u1)) as [[a b]|]; constructor; try assumption; try reflexivity; apply (holds_same u1); try reflexivity; exact A1. }
  assert (SM : x_memory (read_line s1) = x_memory s /\ x_loops (read_line s1) = x_loops s /\ x_column (read_line s1) = x_column s) by (unfold read_line; destruct (fgets 128 (x_input s1)) as [[a b]|]; auto).
  assert (SU : v_st u = v_st v /\ stacks u = stacks v) by (unfold u; destruct (fgets 128 (v_in u1)) as [[a b]|]; auto).
  destruct SM as (SM1 & SM2 & SM3), SU as (SU1 & SU2). clearbody u.
  eapply leads_one; [exact X|..].
  - apply (ready_plain v s _ _ _ R CU eq_refl X SU1 SM1); [apply (shows_same u); [reflexivity|exact SH2]| | |].
    + rewrite (at_next_pc v k pc p 1 A). reflexivity.
    + rewrite SM2. exact (r_live v s R).
    + rewrite SM3. apply R.
  - split; [split; [exact (at_next_pc v k pc p 1 A)|rewrite <- (proj2 A); exact SU2]|exact FE].
Qed.
(* asking again *)
Lemma again_leads {X} v s k pc p i t c n (Q : option X -> vm -> Prop) : ready v s -> at_ k pc p v -> current v = Some i -> calm i = true ->
  exec_instr E i v = (put t ;;; jump (modify (set_pc c))) (set_inp n v) -> (forall w, at_ k c p w -> Q None w) ->
  leads k v (following_by (show t) (fun _ => StepSpec.give None) s) Q.
Proof.
  intros R A CU CA X' K. set (w := set_pc c (set_out (v_out v ++ map OB t) (set_inp n v))).
  assert (XX : execute E v = (Ok tt, w)) by (rewrite (execute_eq E v i CU), X'; reflexivity).
  change (leads k v (Done (@None X) (with_output (x_output s ++ map OB t) (x_column s) s)) Q). eapply leads_one; [exact XX|..].
  - apply (ready_plain v s i w (with_output (x_output s ++ map OB t) (x_column s) s) R CU CA XX eq_refl eq_refl); [|apply R|exact (r_live v s R)|apply R].
    apply (shows_same (set_out (v_out v ++ map OB t) v)); [reflexivity|]. apply shows_written, R.
  - apply K. split; [|exact (proj2 A)]. change (v_cs w) with (mkCs (cs_code (v_cs v)) (cs_line (v_cs v)) c). rewrite (proj1 A). reflexivity.
Qed.
Lemma store_line p ds d s x s' : StepSpec.store p ds d s = Done x s' -> x_line s' = x_line s.
Proof. unfold StepSpec.store, with_answer. destruct (store_value p ds d (x_memory s)); intros H; inversion H; reflexivity. Qed.
Lemma sep_ok c v s k pc p text r : ready v s -> at_ k pc p v -> code_at pc [I_INPUT_SEP] -> fed c v text -> after_comma text = Some r ->
  leads k v (Done tt s) (fun _ w => at_ k (pc + 1) p w /\ fed c w r).
Proof.
  intros R A C F AC. pose proof (at_current _ _ _ _ _ _ _ R A C) as CU. destruct (fed_rest c v text F) as (n & I1 & I2 & SK & IR). unfold after_comma in AC.
  pose proof (ends_drop is_blank text) as D. set (t := drop_while is_blank text) in *. set (m := length text - length t). destruct t as [|c0 t'] eqn:T; [discriminate AC|]. destruct (ceq c0 ","%char) eqn:CC; [|discriminate AC]. injection AC as <-.
  assert (X : execute E v = (Ok tt, set_cs (place_after v 1) (set_inp (Some (Datatypes.S (n + m))) v))).
  { rewrite (execute_eq E v _ CU). cbn [exec_instr]. unfold bind at 1, get at 1. rewrite IR. cbn [some_or_crash]. unfold bind at 1, ret at 1. fold t. rewrite T. fold m. unfold bind at 1, modify at 1. rewrite CC. unfold bind at 1, modify at 1, ret. cbn [finish].
    rewrite (set_pc_place v) by reflexivity. reflexivity. }
  eapply leads_one; [exact X|..].
  - apply (ready_plain v s _ _ _ R CU eq_refl X eq_refl eq_refl); [apply (shows_same v); [reflexivity|apply R]| |exact (r_live v s R)|apply R].
    rewrite (at_next_pc v k pc p 1 A). reflexivity.
  - split; [split; [exact (at_next_pc v k pc p 1 A)|exact (proj2 A)]|]. exists (Datatypes.S (n + m)). split; [unfold inputs; cbn; rewrite I2; reflexivity|].
    cbn [v_input set_cs set_inp set_input]. replace (Datatypes.S (n + m)) with ((n + m) + 1) by lia. rewrite <- skipn_skipn'. rewrite (skip_more n m _ text (c0 :: t') SK D eq_refl). reflexivity.
Qed.
Lemma stored_fed c v s s' w p ds d x m t n j : ready v s -> ready w s' -> StepSpec.store p ds d s = Done x s' -> v_inp v = Some n -> v_input_pc v = c -> skipn n (v_input v) = t -> inputs w = (Some (n + m), c) ->
  ends t j -> m = length t - length j -> fed c w j.
Proof.
  intros R R' SL I1 I2 SK I T Q. exists (n + m). split; [exact I|]. rewrite (w_line w s' (r_shows w s' R')), (store_line _ _ _ _ _ _ SL), <- (w_line v s (r_shows v s R)). exact (skip_more n m _ t j SK T Q).
Qed.
Lemma field_leads c p (K : bytes -> act (option bytes)) v s k pc text (Q : option bytes -> vm -> Prop) : wplace g p -> ready v s -> at_ k pc ([], []) v -> fed c v text -> code_at pc (input_code p) ->
  (forall t s' w, ready w s' -> at_ k (pc + length (input_code p)) ([], []) w -> fed c w t -> leads k w (K t s') Q) -> (forall w, at_ k c ([], []) w -> Q None w) ->
  leads k v (following_by (values E (pl_subs p)) (fun ds =>
    match pl_type p with
    | TNum => match convert text with
              | Some (x, t) => if field_end t then following_by (StepSpec.store p ds (Number x)) (fun _ => K t)
                               else match pl_subs p with [] => following_by (show (lit "* Invalid input *" ++ [NL])) (fun _ => StepSpec.give None) | _ => nonsense end
              | None => match pl_subs p with [] => following_by (show (lit "* Invalid input *" ++ [NL])) (fun _ => StepSpec.give None) | _ => nonsense end
              end
    | _ => let (field, t) := span is_field_char text in following_by (StepSpec.store p ds (Text field)) (fun _ => K t)
    end) s) Q.
Proof.
  intros W R A F C KO KA. unfold input_code in *. rewrite app_length in KO. cbn [length] in KO.
  eapply leads_bind; [exact (subs_leads p v s k pc _ _ W R A C)|]. intros ds s1 w1 _ R1 (F2 & A1 & U1). apply code_app in C as [_ C]. pose proof (at_current _ _ _ _ _ _ _ R1 A1 C) as CU.
  pose proof (fed_untouched c v w1 text U1 F) as F1. destruct (fed_rest c w1 text F1) as (n & I1 & I2 & SK & IR).
  pose proof (s_values w1 (r_steady w1 s1 R1)) as [_ V2 V3 _ _ _ V7].
  assert (TE : pl_type p <> TErr \/ pl_kind p = KBuiltin) by (destruct W as (_ & _ & [B|[B _]]); [right; exact B|left; exact B]).
  assert (NS : forall d (k' : act (option bytes)), pl_kind p = KBuiltin -> leads k w1 (following_by (StepSpec.store p ds d) (fun _ => k') s1) Q).
  { intros d k' B. unfold following_by, StepSpec.store, with_answer, store_value. rewrite B. exact I. }
  destruct (pl_type p) eqn:PT.
  - destruct TE as [TE|TE]; [contradiction TE; reflexivity|]. destruct (span is_field_char text) as [fl t]. apply NS, TE.
  - assert (AG : exec_instr E (I_INPUT_NUM (pl_id p) (nsubs p)) w1 = (put (lit "* Invalid input *" ++ [NL]) ;;; jump (modify (set_pc c))) (set_inp (v_inp w1) w1) ->
      leads k w1 (match pl_subs p with [] => following_by (show (lit "* Invalid input *" ++ [NL])) (fun _ => StepSpec.give None) | _ => nonsense end s1) Q).
    { intros X. destruct (pl_subs p) as [|e0 l0]; [|exact I]. assert (DS : ds = []) by (clear - F2; inversion F2; reflexivity). rewrite DS in A1. cbn [pushes] in A1. exact (again_leads w1 s1 k _ _ _ _ c _ Q R1 A1 CU eq_refl X KA). }
    assert (SI : set_inp (v_inp w1) w1 = w1) by (destruct w1; reflexivity). rewrite SI in AG. clear SI.
    destruct (convert text) as [[x t]|] eqn:CV.
    2: { apply AG. cbn [exec_instr]. unfold bind at 1, get at 1. rewrite IR. cbn [some_or_crash]. unfold bind at 1, ret at 1. rewrite CV, I2. reflexivity. }
    destruct (field_end t) eqn:FE.
    2: { apply AG. cbn [exec_instr]. unfold bind at 1, get at 1. rewrite IR. cbn [some_or_crash]. unfold bind at 1, ret at 1. rewrite CV, I2. unfold field_end in FE. rewrite FE. reflexivity. }
    pose proof (ends_convert _ _ _ CV) as EN. set (m := length text - length t).
    eapply leads_bind.
    + apply (store_leads w1 s1 k _ _ _ w1 s1 ([], []) p ds (Number x) (set_numeric (pl_id p) (nsubs p) x ;;; modify (set_inp (Some (n + m)))) (Some (n + m), snd (inputs w1)) R1 A1 CU); try assumption; try reflexivity.
      * symmetry. exact PT.
      * intros _ _. cbn [exec_instr]. unfold bind at 1, get at 1. rewrite IR. cbn [some_or_crash]. unfold bind at 1, ret at 1. rewrite CV. unfold field_end in FE. rewrite FE. fold m.
        unfold adv, bind. destruct (set_numeric (pl_id p) (nsubs p) x w1) as [[]]; reflexivity.
      * intros a H. exact (puts_inp _ _ _ _ _ _ H).
      * apply R1.
      * exact (proj2 A1).
    + intros ? s2 w2 SL R2 [A2 IN2]. apply (KO t s2 w2 R2).
      * apply (at_eq _ _ _ _ _ _ A2); [lia|reflexivity].
      * apply (stored_fed c w1 s1 s2 w2 p ds _ _ m text n t R1 R2 SL I1 I2 SK); [|exact EN|reflexivity]. rewrite IN2. unfold inputs. cbn [snd]. rewrite I2. reflexivity.
  - destruct (span is_field_char text) as [fl t] eqn:SP. pose proof (ends_span _ _ _ _ SP) as EN. destruct (span_spec _ _ _ _ SP) as (TX & _).
    eapply leads_bind.
    + apply (store_leads w1 s1 k _ _ _ (set_inp (Some (n + length fl)) w1) s1 ([], []) p ds (Text fl) (set_string (pl_id p) (nsubs p) fl) (inputs (set_inp (Some (n + length fl)) w1)) R1 A1 CU); try assumption; try reflexivity.
      * symmetry. exact PT.
      * intros _ _. cbn [exec_instr]. unfold bind at 1, get at 1. rewrite IR. cbn [some_or_crash]. unfold bind at 1, ret at 1. rewrite SP. reflexivity.
      * intros a H. exact H.
      * apply (shows_same w1); [reflexivity|apply R1].
      * exact (proj2 A1).
    + intros ? s2 w2 SL R2 [A2 IN2]. apply (KO t s2 w2 R2).
      * apply (at_eq _ _ _ _ _ _ A2); [lia|reflexivity].
      * apply (stored_fed c w1 s1 s2 w2 p ds _ _ (length fl) text n t R1 R2 SL I1 I2 SK); [|exact EN|rewrite TX, app_length; lia]. rewrite IN2. unfold inputs. cbn. rewrite I2. reflexivity.
Qed.
Definition next_code (q : place) : list instr := I_INPUT_SEP :: input_code q.
Lemma fields_leads c l : forall v s k pc text, Forall (wplace g) l -> ready v s -> at_ k pc ([], []) v -> fed c v text -> code_at pc (flat_map next_code l) ->
  leads k v (take_fields E false l text s) (fun r w => match r with Some t => at_ k (pc + length (flat_map next_code l)) ([], []) w /\ fed c w t | None => at_ k c ([], []) w end).
Proof.
  induction l as [|p l IH]; intros v s k pc text W R A F C; cbn [take_fields flat_map] in *.
  - apply leads_done; [exact R|]. split; [|exact F]. apply (at_eq _ _ _ _ _ _ A); [cbn [length]; lia|reflexivity].
  - inversion W as [|? ? W1 W2]; subst. apply code_app in C as [C1 C3]. unfold next_code at 1 in C1. apply code_cons in C1 as [C1 C2]. destruct (after_comma text) as [t|] eqn:AC.
    + pose proof (sep_ok c v s k pc _ text t R A C1 F AC) as SO. destruct SO as [SO|(l' & w & RU & RW & AW & FW)]; [apply leads_over, SO|]. apply (leads_runs v l' w _ _ RU (r_stopped w s RW)).
      apply (field_leads c p (take_fields E false l) w s k (pc + 1) t); try assumption.
      * rewrite Nat.add_1_r. exact C2.
      * intros t' s' w' R' A' F'. eapply leads_more; [apply (IH w' s' k (pc + length (next_code p)) t' W2 R'); [|exact F'|exact C3]|].
        -- apply (at_eq _ _ _ _ _ _ A'); [unfold next_code; cbn [length]; lia|reflexivity].
        -- intros [r|] z H; [|exact H]. destruct H as [H1 H2]. split; [|exact H2]. apply (at_eq _ _ _ _ _ _ H1); [rewrite app_length; lia|reflexivity].
      * intros w' H. exact H.
    + pose proof (at_current _ _ _ _ _ _ _ R A C1) as CU. destruct (fed_rest c v text F) as (n & I1 & I2 & SK & IR).
      apply (again_leads v s k pc _ _ _ c (Some (n + (length text - length (drop_while is_blank text)))) _ R A CU eq_refl).
      * cbn [exec_instr]. unfold bind at 1, get at 1. rewrite IR. cbn [some_or_crash]. unfold bind at 1, ret at 1. unfold bind at 1, modify at 1. rewrite I2. unfold after_comma in AC.
        destruct (drop_while is_blank text) as [|c0 r0]; [reflexivity|]. destruct (ceq c0 ","%char); [discriminate AC|reflexivity].
      * intros w' H. exact H.
Qed.
Lemma input_end v s k pc c t : ready v s -> at_ k pc ([], []) v -> fed c v t -> code_at pc [I_INPUT_END] ->
  leads k v (match drop_while is_input_space t with [] => StepSpec.give Onward | _ => following_by (show (lit "* Extra input was discarded *" ++ [NL])) (fun _ => StepSpec.give Onward) end s)
    (fun x w => x = Onward /\ at_ k (pc + 1) ([], []) w).
Proof.
  intros R A F C. pose proof (at_current _ _ _ _ _ _ _ R A C) as CU. destruct (fed_rest c v t F) as (n & I1 & I2 & SK & IR).
  set (u := set_inp (Some (n + (length t - length (drop_while is_input_space t)))) v).
  assert (X : exec_instr E I_INPUT_END v = match drop_while is_input_space t with [] => ret true u | _ => adv (put (lit "* Extra input was discarded *" ++ [NL])) u end).
  { cbn [exec_instr]. unfold bind at 1, get at 1. rewrite IR. cbn [some_or_crash]. unfold bind at 1, ret at 1. unfold bind at 1, modify at 1. fold u. destruct (drop_while is_input_space t); reflexivity. }
  pose proof (execute_eq E v _ CU) as XX. rewrite X in XX. destruct (drop_while is_input_space t) as [|c0 r0].
  - unfold ret in XX. cbn [finish] in XX. rewrite (set_pc_place v u eq_refl), (at_next_pc v k pc _ 1 A) in XX. eapply leads_one; [exact XX|..].
    + apply (ready_plain v s _ _ _ R CU eq_refl XX eq_refl eq_refl); [apply (shows_same v); [reflexivity|apply R]|reflexivity|exact (r_live v s R)|apply R].
    + split; [reflexivity|]. split; [reflexivity|exact (proj2 A)].
  - set (m := lit "* Extra input was discarded *" ++ [NL]) in *. rewrite (finish_place u (put m) (set_out (v_out u ++ map OB m) u) eq_refl eq_refl) in XX.
    change (place_after u 1) with (place_after v 1) in XX. rewrite (at_next_pc v k pc _ 1 A) in XX.
    change (leads k v (Done Onward (with_output (x_output s ++ map OB m) (x_column s) s)) (fun x w => x = Onward /\ at_ k (pc + 1) ([], []) w)).
    eapply leads_one; [exact XX|..].
    + apply (ready_plain v s _ _ (with_output (x_output s ++ map OB m) (x_column s) s) R CU eq_refl XX eq_refl eq_refl); [|reflexivity|exact (r_live v s R)|apply R].
      apply (shows_same (set_out (v_out v ++ map OB m) v)); [reflexivity|]. apply shows_written, R.
    + split; [reflexivity|]. split; [reflexivity|exact (proj2 A)].
Qed.
Definition fields_code (l : list place) : list instr := match l with [] => [] | p :: r => input_code p ++ flat_map (fun q => I_INPUT_SEP :: input_code q) r end.
Lemma all_fields_leads c l v s k pc text : Forall (wplace g) l -> ready v s -> at_ k pc ([], []) v -> fed c v text -> code_at pc (fields_code l) ->
  leads k v (take_fields E true l text s) (fun r w => match r with Some t => at_ k (pc + length (fields_code l)) ([], []) w /\ fed c w t | None => at_ k c ([], []) w end).
Proof.
  intros W R A F C. destruct l as [|p l]; cbn [take_fields fields_code] in *.
  - apply leads_done; [exact R|]. split; [|exact F]. apply (at_eq _ _ _ _ _ _ A); [cbn [length]; lia|reflexivity].
  - inversion W as [|? ? W1 W2]; subst. apply code_app in C as [C1 C3]. apply (field_leads c p (take_fields E false l) v s k pc text); try assumption.
    + intros t' s' w' R' A' F'. eapply leads_more; [exact (fields_leads c l w' s' k _ t' W2 R' A' F' C3)|].
      intros [r|] z H; [|exact H]. destruct H as [H1 H2]. split; [|exact H2]. apply (at_eq _ _ _ _ _ _ H1); [rewrite app_length; unfold next_code; lia|reflexivity].
    + intros w' H. exact H.
Qed.
Lemma input_leads prompt l v s k i : wstmt g (SInput prompt l) -> ready v s -> here k i (SInput prompt l) -> at_ k (stmt_start xss k i) ([], []) v ->
  leads k v (perform E P k (line_stmts xss k) i (SInput prompt l) s) (arrives k i).
Proof.
  intros [_ W] R H A. pose proof (here_code _ _ _ H) as C. pose proof (here_next _ _ _ H) as NX. cbn [scode perform] in *. fold (fields_code l) in *. cbn [length] in NX. rewrite app_length in NX. cbn [length] in NX.
  apply code_cons in C as [C1 C]. apply code_app in C as [C2 C3]. unfold input_statement. apply leads_group.
  eapply leads_bind; [exact (buf_leads prompt v s k _ _ R A C1)|]. intros ? s1 w1 _ R1 (A1 & F1). apply leads_look. rewrite <- (w_line w1 s1 (r_shows w1 s1 R1)). rewrite Nat.add_1_r in A1.
  eapply leads_bind; [exact (all_fields_leads _ l w1 s1 k _ _ W R1 A1 F1 C2)|]. intros [t|] s2 w2 _ R2 H2.
  - destruct H2 as [A2 F2]. eapply leads_more; [exact (input_end w2 s2 k _ _ t R2 A2 F2 C3)|]. intros y0 z [-> AZ]. apply (at_eq _ _ _ _ _ _ AZ); [lia|reflexivity].
  - apply leads_done; [exact R2|]. split; [left; exact (proj1 H2)|exact (proj2 H2)].
Qed.
Lemma line_input_leads prompt p v s k i : wstmt g (SLineInput prompt p) -> ready v s -> here k i (SLineInput prompt p) -> at_ k (stmt_start xss k i) ([], []) v ->
  leads k v (perform E P k (line_stmts xss k) i (SLineInput prompt p) s) (arrives k i).
Proof.
  intros (_ & W & PT) R H A. pose proof (here_code _ _ _ H) as C. pose proof (here_next _ _ _ H) as NX. cbn [scode perform] in *. cbn [length] in NX. rewrite app_length in NX. cbn [length] in NX.
  apply code_cons in C as [C1 C]. unfold line_input_statement. apply leads_group.
  eapply leads_bind; [exact (buf_leads prompt v s k _ _ R A C1)|]. intros ? s1 w1 _ R1 (A1 & F1). rewrite Nat.add_1_r in A1.
  eapply leads_bind; [exact (subs_leads p w1 s1 k _ _ _ W R1 A1 C)|]. intros ds s2 w2 _ R2 (F2 & A2 & _). apply code_app in C as [_ C]. pose proof (at_current _ _ _ _ _ _ _ R2 A2 C) as CU.
  apply leads_look. cbv zeta. rewrite <- (w_line w2 s2 (r_shows w2 s2 R2)). set (t := fst (span (fun c => negb (ceq c NL)) (v_input w2))). apply leads_update.
  set (u := set_input t (v_inp w2) (v_input_pc w2) (v_in w2) w2). set (s3 := with_input (x_input s2) t s2).
  pose proof (s_values w2 (r_steady w2 s2 R2)) as [_ V2 V3 _ _ _ V7].
  eapply leads_bind.
  - apply (store_leads w2 s2 k _ _ _ u s3 ([], []) p ds (Text t) (set_string (pl_id p) (nsubs p) t) (inputs u) R2 A2 CU); try assumption; try reflexivity.
    + symmetry. exact PT.
    + intros a HH. exact HH.
    + destruct (r_shows w2 s2 R2) as [B1 B2 B3 B4 B5 B6 B7 B8]. constructor; try assumption; try reflexivity. apply (holds_same w2); try reflexivity. exact B1.
    + unfold string_ok in *. unfold u. cbn [v_input set_input]. unfold t. pose proof (span_length (fun c => negb (ceq c NL)) (v_input w2)). lia.
    + exact (proj2 A2).
  - intros ? s4 w4 _ R4 [A4 _]. apply leads_done; [exact R4|]. apply (at_eq _ _ _ _ _ _ A4); [lia|reflexivity].
Qed.

(* ---------- every statement ---------- *)

Lemma finishing {X} (a : act X) v s k i x : here k i x -> leads k v (a s) (fun _ w => at_ k (stmt_start xss k i + length (scode x)) ([], []) w) ->
  leads k v (following_by a (fun _ => StepSpec.give Onward) s) (arrives k i).
Proof.
  intros H L. eapply leads_bind; [exact L|]. intros ? s' w _ R A. apply leads_done; [exact R|]. cbn [arrives]. rewrite (here_next _ _ _ H). exact A.
Qed.
Lemma leads_same {X} {k} v (r r' : done X) Q : r = r' -> leads k v r Q -> leads k v r' Q.
Proof. intros <-. auto. Qed.
Lemma perform_leads x v s k i : wstmt g x -> ready v s -> here k i x -> at_ k (stmt_start xss k i) ([], []) v ->
  leads k v (perform E P k (line_stmts xss k) i x s) (arrives k i).
Proof.
  intros W R H A. pose proof (here_code _ _ _ H) as C. destruct x.
  - apply (finishing _ v s k i _ H). exact (clear_leads v s k _ _ R A C).
  - apply (finishing _ v s k i _ H). exact (cls_leads v s k _ _ R A C).
  - exact (end_leads v s k i _ R A C).
  - exact (return_leads v s k i _ R A C).
  - apply leads_done; [exact R|]. split; [exact (at_current _ _ _ _ _ _ _ R A C)|rewrite (proj1 A); reflexivity].
  - apply leads_done; [exact R|]. cbn [arrives]. rewrite (here_next _ _ _ H). cbn [scode length]. rewrite Nat.add_0_r. exact A.
  - cbn [scode] in C. pose proof (data_leads l v s k _ _ R A C) as D. apply (finishing (StepSpec.give tt) v s k i _ H). cbn [scode]. rewrite map_length. exact D.
  - destruct W as (W1 & W2 & W3 & W4). apply (finishing _ v s k i _ H). exact (def_leads id param body v s k _ (here_in _ _ _ H) W1 W2 W3 W4 R A C).
  - apply (finishing _ v s k i _ H). exact (dim_leads l v s k _ _ W R A C).
  - exact (for_leads _ _ _ _ v s k i W R H A).
  - exact (goto_leads n v s k i _ R A C).
  - exact (gosub_leads n v s k i _ R A C ltac:(rewrite (here_next _ _ _ H); reflexivity)).
  - exact (if_leads _ _ v s k i W R H A).
  - exact (ifgo_leads _ _ v s k i W R H A).
  - exact (else_leads v s k i R H A).
  - exact (goto_leads n v s k i _ R A C).
  - exact (input_leads _ _ v s k i W R H A).
  - exact (line_input_leads _ _ v s k i W R H A).
  - destruct W as (W1 & W2 & W3). pose proof (finishing _ v s k i _ H (let_leads p e v s k _ W1 W2 W3 R A C)) as L. revert L. apply leads_same. cbn [perform]. unfold following_by.
    destruct (values E (pl_subs p) s) as [ds s1|e1 s1|]; [|reflexivity|reflexivity]. destruct (value E e s1) as [d s2|e2 s2|]; reflexivity.
  - exact (next_leads _ v s k i W R H A).
  - exact (on_leads _ _ _ v s k i W R H A).
  - cbn [perform]. apply leads_group. apply (finishing _ v s k i _ H). exact (print_leads l v s k _ _ W R A C).
  - destruct e as [e|].
    + cbn [perform]. apply leads_group. apply (finishing _ v s k i _ H). cbn [scode] in C |- *. rewrite app_length. cbn [length]. exact (seed_leads e v s k _ _ W R A C).
    + apply (finishing _ v s k i _ H). exact (rand_leads v s k _ _ R A C).
  - apply (finishing _ v s k i _ H). exact (read_leads l v s k _ _ W R A C).
  - destruct n as [n|].
    + pose proof (finishing _ v s k i _ H (restore_line_leads n v s k _ _ R A C)) as L. revert L. apply leads_same. cbn [perform]. unfold following_by. destruct (line_index P n); reflexivity.
    + apply (finishing _ v s k i _ H). exact (restore_leads v s k _ _ R A C).
Qed.

(* ---------- programs ---------- *)

Definition related (v : vm) (s : state) : Prop := ready v s /\ stands v (x_spot s) /\ stacks v = ([], []).
Lemma shows_spot v s p : shows v s -> shows v (with_spot p s).
Proof. intros [A1 A2 A3 A4 A5 A6 A7 A8]. constructor; assumption. Qed.
Lemma ready_spot v s p : ready v s -> ready v (with_spot p s).
Proof. intros [A1 A2 A3 A4 A5 A6 A7 A8 A9 A10]. constructor; try assumption. apply shows_spot, A2. Qed.
Definition simulated (v : vm) (o : outcome) : Prop :=
  match o with
  | Next s' => overflows E v \/ exists l w, runs E v l w /\ related w s'
  | Finished s' => overflows E v \/ exists l w, runs E v l w /\ related w s' /\ current w = None
  | Stopped s' => overflows E v \/ exists l w, runs E v l w /\ ready w s' /\ current w = Some I_STOP /\ cs_line (v_cs w) = fst (x_spot s')
  | Erred e s' => overflows E v \/ exists l u w, runs E v l u /\ execute E u = (Fail e, w) /\ v_stopped w = false /\ shows w s' /\ blamed (fst (x_spot s')) w
  | NoMeaning => True
  end.
Lemma simulated_after v l w o : runs E v l w -> v_stopped w = false -> simulated w o -> simulated v o.
Proof.
  intros R S H. assert (S' : v_stopped w = v_stopped v) by (rewrite (proj2 (runs_stopped E v l w R S)); exact S).
  destruct o as [s'|s'|s'|e s'|]; [| | | |exact I]; (destruct H as [H|H]; [left; exact (overflows_after _ _ _ _ R S' H)|right]).
  - destruct H as (k & z & R' & Z). exists (l ++ k), z. split; [exact (runs_app _ _ _ _ _ _ R R')|exact Z].
  - destruct H as (k & z & R' & Z). exists (l ++ k), z. split; [exact (runs_app _ _ _ _ _ _ R R')|exact Z].
  - destruct H as (k & z & R' & Z). exists (l ++ k), z. split; [exact (runs_app _ _ _ _ _ _ R R')|exact Z].
  - destruct H as (k & u & z & R' & Z). exists (l ++ k), u, z. split; [exact (runs_app _ _ _ _ _ _ R R')|exact Z].
Qed.
Lemma program_line v s k : ready v s -> match nth_error P k with Some (n, xs) => k < length xss /\ xs = line_stmts xss k | None => length xss <= k end.
Proof.
  intros R. pose proof (same_length v s R) as L. assert (LP : length P = length xss) by (rewrite combine_length, map_length, L; apply Nat.min_id).
  destruct (nth_error P k) as [[n xs]|] eqn:N.
  - assert (K : k < length xss) by (rewrite <- LP; apply nth_error_Some; congruence). split; [exact K|].
    apply nth_error_nth with (d := (0%N, [])) in N. unfold line_stmts. rewrite combine_nth in N by (rewrite map_length; lia). congruence.
  - apply nth_error_None in N. lia.
Qed.
Lemma line_wstmt k i x : k < length xss -> nth_error (line_stmts xss k) i = Some x -> wstmt g x.
Proof.
  intros K N. pose proof WS as F. rewrite Forall_forall in F. specialize (F (line_stmts xss k) (nth_In xss [] K)). rewrite Forall_forall in F. apply F. exact (nth_error_In _ _ N).
Qed.
Lemma nth_skip {X} (l : list X) i x : nth_error l i = Some x -> exists r, skipn i l = x :: r.
Proof. revert i. induction l as [|a l IH]; intros [|i] H; try discriminate H; cbn in *; [injection H as <-; eexists; reflexivity|apply IH, H]. Qed.
Lemma past_end v s pc : ready v s -> cs_pc (v_cs v) = pc -> length code <= pc -> current v = None.
Proof. intros R <- L. destruct (ready_bcode v s R) as (bc & B & I & _). unfold current. rewrite B, I. apply nth_error_None, L. Qed.
Lemma line_end k : k < length xss -> line_start xss (k + 1) = line_start xss k + 1 + length (lcode (line_stmts xss k)).
Proof.
  clear. unfold line_stmts. revert k. induction xss as [|xs r IH]; intros k K; cbn [length] in K; [lia|]. destruct k as [|k].
  - change (line_start (xs :: r) (0 + 1)) with (Datatypes.S (length (lcode xs)) + line_start r 0). change (nth 0 (xs :: r) []) with xs. destruct r; cbn [line_start]; lia.
  - change (line_start (xs :: r) (Datatypes.S k + 1)) with (Datatypes.S (length (lcode xs)) + line_start r (k + 1)). change (nth (Datatypes.S k) (xs :: r) []) with (nth k r []).
    change (line_start (xs :: r) (Datatypes.S k)) with (Datatypes.S (length (lcode xs)) + line_start r k). rewrite (IH k) by lia. lia.
Qed.
Lemma line_start_big k : length xss <= k -> line_start xss k = length code.
Proof.
  intros K. rewrite <- (line_start_end xss 0). clear - K. revert k K. induction xss as [|xs r IH]; intros k K; [destruct k; reflexivity|]. destruct k as [|k]; cbn [length] in K; [lia|]. cbn [line_start length]. rewrite (IH k) by lia. reflexivity.
Qed.
Lemma step_from v s : ready v s -> v_cs v = at_spot (x_spot s) -> stacks v = ([], []) -> simulated v (step E P s).
Proof.
  intros R CS S. unfold step. destruct (x_spot s) as [k i] eqn:XS. pose proof (program_line v s k R) as PL. destruct (nth_error P k) as [[n xs]|].
  2: { right. exists [], v. split; [constructor|]. split; [split; [exact R|split; [left; rewrite XS; exact CS|exact S]]|]. apply (past_end v s _ R eq_refl). rewrite CS. unfold at_spot, stmt_start. cbn [cs_pc fst snd].
       rewrite (line_start_big k PL). lia. }
  destruct PL as [K ->]. destruct (nth_error (line_stmts xss k) i) as [x|] eqn:NX.
  2: { right. exists [], v. split; [constructor|]. split; [apply ready_spot, R|]. split; [|exact S]. right. cbn [x_spot with_spot fst snd]. split; [reflexivity|]. split; [apply R|].
       rewrite CS. unfold at_spot, stmt_start. cbn [cs_pc fst snd]. rewrite (line_end k K). apply nth_error_None in NX. rewrite firstn_all2 by exact NX. reflexivity. }
  pose proof (perform_leads x v s k i (line_wstmt k i x K NX) R (conj K (nth_skip _ _ _ NX)) (conj CS S)) as L. destruct (perform E P k (line_stmts xss k) i x s) as [[|p|] s'|e s'|]; cbn [leads] in L; [| | | |exact Logic.I].
  - destruct L as [L|(l & w & RU & RW & AW)]; [left; exact L|]. right. exists l, w. split; [exact RU|]. split; [apply ready_spot, RW|]. split; [left; exact (proj1 AW)|exact (proj2 AW)].
  - destruct L as [L|(l & w & RU & RW & AW)]; [left; exact L|]. right. exists l, w. split; [exact RU|]. split; [apply ready_spot, RW|]. exact AW.
  - destruct L as [L|(l & w & RU & RW & AW)]; [left; exact L|]. right. exists l, w. split; [exact RU|]. split; [apply ready_spot, RW|exact AW].
  - destruct L as [L|(l & u & w & RU & X & SW & RW)]; [left; exact L|]. right. exists l, u, w. split; [exact RU|]. split; [exact X|]. split; [exact SW|]. split; [apply shows_spot, RW|exact (proj2 RW)].
Qed.
Lemma step_simulated v s : related v s -> simulated v (step E P s).
Proof.
  intros (R & ST & S). destruct ST as [ST|(I0 & CC & PC)]; [exact (step_from v s R ST S)|]. destruct (x_spot s) as [k i] eqn:XS. cbn [fst snd] in I0, PC. subst i.
  destruct (Nat.lt_ge_cases k (length xss)) as [K|K].
  - destruct (marker_step E v src xss k (s_loaded v (r_steady v s R)) K (proj1 (s_quiet v (r_steady v s R))) CC PC) as [CU X].
    apply (simulated_after v [v] _ _ (runs_one _ _ _ X) (r_stopped v s R)). apply step_from.
    + apply (ready_moved v s _ _ _ R CU eq_refl X); try reflexivity. apply (shows_same v); [reflexivity|apply R].
    + rewrite XS. unfold at_spot, stmt_start. cbn [fst snd firstn v_cs set_cs]. change (lcode []) with (@nil instr). cbn [length]. f_equal. lia.
    + exact S.
  - unfold step. rewrite XS. pose proof (program_line v s k R) as PL. destruct (nth_error P k) as [[n xs]|]; [lia|]. right. exists [], v. split; [constructor|].
    split; [split; [exact R|split; [right; rewrite XS; auto|exact S]]|]. apply (past_end v s _ R eq_refl). rewrite PC, (line_start_big k K). lia.
Qed.
Lemma steps_simulated n : forall v s, related v s -> simulated v (steps E P n s).
Proof.
  induction n as [|n IH]; intros v s R; cbn [steps].
  - right. exists [], v. split; [constructor|exact R].
  - pose proof (step_simulated v s R) as H. destruct (step E P s) as [s'|s'|s'|e s'|]; try exact H. destruct H as [H|(l & w & RU & RW)].
    + destruct (steps E P n s') as [x|x|x|e x|]; [left; exact H|left; exact H|left; exact H|left; exact H|exact Logic.I].
    + exact (simulated_after v l w _ RU (r_stopped w s' (proj1 RW)) (IH w s' RW)).
Qed.
End Step.
