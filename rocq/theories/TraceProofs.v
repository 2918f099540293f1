(* Tracing (C44). *)
From Coq Require Import Lia ZifyBool ZifyNat ZifyN.
From Verif Require Import Base BaseLemmas Num SourceModel LineMapModel ArrayModel BcodeModel SymbolModel LexModel ParseModel VmModel SessionModel MonitorModel SystemModel TraceSpec.
From Verif Require OptProofs.
Local Open Scope nat_scope.
Local Open Scope list_scope.

Local Opaque init_builtins new_symbol_table parse_source.

Lemma adds_app o l : forall a b, adds o a b -> adds o (a ++ l) (b ++ l).
Proof.
  induction l as [|x l IH]; intros a b H; [rewrite !app_nil_r; exact H|].
  change (x :: l) with ([x] ++ l). rewrite !app_assoc. apply IH. constructor. exact H.
Qed.
Lemma adds_untraced o a b : o_trace_basic o = false -> o_trace_for o = false -> adds o a b -> b = a.
Proof. intros H1 H2. induction 1 as [|x a b H IH|t a b T H IH]; [reflexivity|rewrite IH; reflexivity|]. destruct T; congruence. Qed.

Section Trace.
Variable o : options.

(* ---------- the machine ---------- *)

Definition fit (v : vm) (b : list oev) : Prop := v_opt v = untraced o /\ adds o (v_out v) b.
(* p with tracing, q without *)
Definition rel {A} (p q : res A * vm) : Prop :=
  fst p = Crash \/ (fst p = fst q /\ exists b, snd p = but_for o b (snd q) /\ fit (snd q) b).
Definition blind {A} (m : M A) : Prop := forall v b, fit v b -> rel (m (but_for o b v)) (m v).

Lemma blind_ret {A} (a : A) : blind (ret a).
Proof. intros v b H. right. split; [reflexivity|]. exists b. auto. Qed.
Lemma blind_crash {A} : blind (@crash A).
Proof. intros v b H. left. reflexivity. Qed.
Lemma blind_assert c : blind (assert c).
Proof. destruct c; [apply blind_ret|apply blind_crash]. Qed.
Lemma blind_some {A} (x : option A) : blind (some_or_crash x).
Proof. destruct x; [apply blind_ret|apply blind_crash]. Qed.
Lemma blind_bind {A B} (m : M A) (k : A -> M B) : blind m -> (forall a, blind (k a)) -> blind (bind m k).
Proof.
  intros H K v b F. unfold bind. destruct (H v b F) as [C|(R & b' & P & F')].
  - destruct (m (but_for o b v)) as [r w]. cbn in C. subst r. left. reflexivity.
  - destruct (m (but_for o b v)) as [r w]. destruct (m v) as [r' w']. cbn [fst snd] in *. subst r w. destruct r' as [a|e| |]; [apply K; exact F'| | |]; right; (split; [reflexivity|]; exists b'; auto).
Qed.
Lemma blind_get {A} (k : vm -> M A) : (forall v b, k (but_for o b v) = k v) -> (forall v, blind (k v)) -> blind (bind get k).
Proof. intros E K v b F. unfold bind, get. rewrite E. apply K. exact F. Qed.
(* the output is neither read nor written *)
Lemma blind_still {A} (m : M A) : (forall v b, m (but_for o b v) = (fst (m v), but_for o b (snd (m v)))) -> (forall v, v_out (snd (m v)) = v_out v) -> (forall v, v_opt (snd (m v)) = v_opt v) -> blind m.
Proof. intros H H1 H2 v b [F1 F2]. rewrite H. right. split; [reflexivity|]. exists b. split; [reflexivity|]. split; [rewrite H2; exact F1|rewrite H1; exact F2]. Qed.
Ltac cases := repeat match goal with |- context [match ?x with _ => _ end] => destruct x end.
Ltac still := apply blind_still; intros; cbv delta [run_error push pop push_str pop_str get_sym get_bcode find_basic_line find_data push_return pop_return modify]; cbv beta zeta; cbn [cur_bcode]; unfold cur_bcode, code_of; cbn; cases; reflexivity.
Lemma blind_run_error {A} e : blind (@run_error A e).
Proof. still. Qed.
Lemma blind_push x : blind (push x).
Proof. still. Qed.
Lemma blind_pop : blind pop.
Proof. still. Qed.
Lemma blind_push_str x : blind (push_str x).
Proof. still. Qed.
Lemma blind_pop_str : blind pop_str.
Proof. still. Qed.
Lemma blind_get_sym id : blind (get_sym id).
Proof. still. Qed.
Lemma blind_get_bcode : blind get_bcode.
Proof. still. Qed.
Lemma blind_find_basic_line n : blind (find_basic_line n).
Proof. still. Qed.
Lemma blind_find_data : blind find_data.
Proof. still. Qed.
Lemma blind_push_return n : blind (push_return n).
Proof. still. Qed.
Lemma blind_pop_return : blind pop_return.
Proof. still. Qed.
Lemma blind_modify f : (forall v b, f (but_for o b v) = but_for o b (f v)) -> (forall v, v_out (f v) = v_out v) -> (forall v, v_opt (f v) = v_opt v) -> blind (modify f).
Proof. intros H H1 H2. apply blind_still; intros; unfold modify; cbn [fst snd]; rewrite ?H, ?H1, ?H2; reflexivity. Qed.
Lemma blind_write f l : (forall v b, f (but_for o b v) = but_for o (b ++ l) (f v)) -> (forall v, v_out (f v) = v_out v ++ l) -> (forall v, v_opt (f v) = v_opt v) -> blind (modify f).
Proof.
  intros H H1 H2 v b [F1 F2]. unfold modify. rewrite H. right. split; [reflexivity|]. exists (b ++ l). split; [reflexivity|]. cbn [snd]. split; [rewrite H2; exact F1|]. rewrite H1. apply adds_app. exact F2.
Qed.
Lemma blind_put s : blind (put s).
Proof. apply (blind_write _ (map OB s)); reflexivity. Qed.
Lemma blind_put_cols s c : blind (put_cols s c).
Proof. apply (blind_write _ (map OB s)); reflexivity. Qed.
Lemma blind_cls : blind (modify (fun v => set_outcol (v_out v ++ [OCls]) 1 v)).
Proof. apply (blind_write _ [OCls]); reflexivity. Qed.
Lemma blind_dump_for_stack t : blind (dump_for_stack t).
Proof.
  intros v b F. unfold dump_for_stack. change (v_for (but_for o b v)) with (v_for v). change (v_st (but_for o b v)) with (v_st v). destruct (v_for v); [apply blind_put; exact F|].
  destruct (dump_entries _ _); [apply blind_put; exact F|]. left. reflexivity.
Qed.
Lemma blind_rnd E : blind (exec_instr E I_RND).
Proof. apply blind_still; intros; cbn [exec_instr]; change (v_seed (but_for o b v)) with (v_seed v) || idtac; change (v_randk (but_for o b v)) with (v_randk v) || idtac.
  all: destruct (rnd_loop _ _ _ _) as [[x k]|]; [|reflexivity].
  all: unfold adv, bind, push; cbn [but_for set_rand v_stack]; destruct (Nat.leb _ _); reflexivity. Qed.
Lemma blind_time E : blind (exec_instr E I_TIME_STR).
Proof. apply blind_still; intros; cbn [exec_instr]; change (v_clock (but_for o b v)) with (v_clock v) || idtac.
  all: destruct (e_hms E (v_clock v)) as [[h m] s].
  all: unfold adv, bind, push_str; cbn [but_for set_rand v_sstack]; destruct (Nat.leb _ _); reflexivity. Qed.
(* the traces themselves *)
Definition silent (m : M unit) : Prop := forall v b, fit v b -> fst (m (but_for o b v)) = Crash \/ (fst (m (but_for o b v)) = Ok tt /\ exists b', snd (m (but_for o b v)) = but_for o b' v /\ fit v b').
Lemma silent_trace m : (o_trace_for o = true -> silent m) -> blind (trace_for m).
Proof.
  intros H v b F. unfold trace_for. rewrite (proj1 F). change (o_trace_for (untraced o)) with false. change (v_opt (but_for o b v)) with o. destruct (o_trace_for o).
  - destruct (H eq_refl v b F) as [C|(R & b' & P & F')]; [left; exact C|]. right. split; [exact R|]. exists b'. auto.
  - right. split; [reflexivity|]. exists b. auto.
Qed.
Lemma silent_put t : trace_text o t -> silent (put t).
Proof. intros T v b [F1 F2]. right. split; [reflexivity|]. exists (b ++ map OB t). split; [reflexivity|]. split; [exact F1|]. apply Adds_trace; assumption. Qed.
Lemma silent_stack tag : o_trace_for o = true -> In tag [lit "initial stack"; lit "final stack"] -> silent (dump_for_stack tag).
Proof.
  intros T I v b F. unfold dump_for_stack. change (v_for (but_for o b v)) with (v_for v). change (v_st (but_for o b v)) with (v_st v).
  assert (P : forall t, trace_text o ((lit "-- " ++ tag ++ lit ": ") ++ t ++ [NL])) by (intros t; rewrite <- !app_assoc; constructor; assumption).
  destruct (v_for v); [exact (silent_put _ (P (lit "empty")) v b F)|]. destruct (dump_entries _ _) as [s|]; [exact (silent_put _ (P s) v b F)|]. left. reflexivity.
Qed.
Lemma silent_for tag : o_trace_for o = true -> In tag [lit "FOR"; lit "NEXT-VARIABLE"; lit "NEXT-IMPLICIT"] -> silent (dump_for tag).
Proof.
  intros T I v b F. unfold dump_for. change (v_cs (but_for o b v)) with (v_cs v). destruct (cs_code (v_cs v)) as [r|]; [|left; reflexivity].
  replace (code_of (but_for o b v) r) with (code_of v r) by (destruct r; reflexivity). destruct (c_source (code_of v r)) as [src|]; [|left; reflexivity]. destruct (nth_error src _) as [l|]; [|left; reflexivity].
  unfold bind. destruct (silent_put _ (TT_for o tag (line_text l) T I) v b F) as [C|(R & b' & P & F')]; [discriminate C|].
  destruct (put _ (but_for o b v)) as [r' w]. cbn [fst snd] in R, P. subst r' w. exact (silent_stack (lit "initial stack") T (or_introl eq_refl) v b' F').
Qed.
Lemma blind_line l E : blind (exec_instr E (I_SOURCE_LINE l)).
Proof.
  cbn [exec_instr]. apply blind_bind; [apply blind_modify; reflexivity|]. intros _ v b F. rewrite (proj1 F). change (o_trace_basic (untraced o)) with false. change (v_opt (but_for o b v)) with o.
  destruct (o_trace_basic o) eqn:T; [|right; split; [reflexivity|]; exists b; auto]. change (v_cs (but_for o b v)) with (v_cs v). destruct (cs_code (v_cs v)) as [r|]; [|left; reflexivity].
  replace (code_of (but_for o b v) r) with (code_of v r) by (destruct r; reflexivity). destruct (c_source (code_of v r)) as [src|]; [|left; reflexivity]. destruct (nth_error src _) as [ln|]; [|left; reflexivity].
  destruct (silent_put _ (TT_line o (ln_num ln) T) v b F) as [C|(R & b' & P & F')]; [discriminate C|]. unfold bind. destruct (put _ (but_for o b v)) as [r' w]. cbn [fst snd] in R, P. subst r' w.
  right. split; [reflexivity|]. exists b'. auto.
Qed.

Lemma blind_pop_index name : blind (pop_index name).
Proof. unfold pop_index. apply blind_bind; [apply blind_pop|]. intros x. destruct (_ || _); [apply blind_run_error|]. destruct (fgtb _ _); [apply blind_run_error|]. destruct (ftoZ x); [apply blind_ret|apply blind_crash]. Qed.
Lemma blind_loop name n : blind (pop_indexes_loop n name).
Proof. induction n as [|n IH]; cbn [pop_indexes_loop]; [apply blind_ret|]. apply blind_bind; [apply blind_pop_index|]. intros i. apply blind_bind; [exact IH|]. intros r. apply blind_ret. Qed.

Ltac head m := match m with ?f _ => head f | ?f => f end.
Ltac blind_step :=
  match goal with
  | |- blind (bind get _) => apply blind_get; [intros ? ?; reflexivity|intros ?]
  | |- blind (bind _ _) => apply blind_bind; [|intros ?]
  | |- blind (ret _) => apply blind_ret
  | |- blind crash => apply blind_crash
  | |- blind (assert _) => apply blind_assert
  | |- blind (some_or_crash _) => apply blind_some
  | |- blind (run_error _) => apply blind_run_error
  | |- blind get_bcode => apply blind_get_bcode
  | |- blind (get_sym _) => apply blind_get_sym
  | |- blind (find_basic_line _) => apply blind_find_basic_line
  | |- blind (push _) => apply blind_push
  | |- blind pop => apply blind_pop
  | |- blind (push_str _) => apply blind_push_str
  | |- blind pop_str => apply blind_pop_str
  | |- blind (put _) => apply blind_put
  | |- blind (put_cols _ _) => apply blind_put_cols
  | |- blind (dump_for_stack _) => apply blind_dump_for_stack
  | |- blind find_data => apply blind_find_data
  | |- blind (push_return _) => apply blind_push_return
  | |- blind pop_return => apply blind_pop_return
  | |- blind (pop_indexes_loop _ _) => apply blind_loop
  | |- blind (trace_for (dump_for_stack _)) => apply silent_trace; intros ?; apply silent_stack; [assumption|cbn [In]; auto]
  | |- blind (trace_for (dump_for _)) => apply silent_trace; intros ?; apply silent_for; [assumption|cbn [In]; auto]
  | |- blind (modify (fun v => set_outcol (v_out v ++ [OCls]) _ v)) => apply blind_cls
  | |- blind (modify _) => apply blind_modify; intros; cbn; repeat match goal with |- context [match ?x with _ => _ end] => destruct x end; reflexivity
  | |- blind (if ?b then _ else _) => destruct b
  | |- blind (match ?x with _ => _ end) => destruct x
  | |- blind ?m => let h := head m in unfold h
  end.
Lemma blind_instr E i : blind (exec_instr E i).
Proof.
  destruct i; try apply blind_line; try apply blind_rnd; try apply blind_time; cbn [exec_instr]; cbv zeta.
  all: repeat (blind_step; cbv beta zeta).
Qed.

(* ---------- running ---------- *)

Lemma blind_execute E : blind (execute E).
Proof.
  unfold execute. apply blind_bind; [apply blind_get_bcode|]. intros bc. apply blind_get; [reflexivity|]. intros v. apply blind_bind; [apply blind_some|]. intros i.
  apply blind_bind; [apply blind_instr|]. intros b. destruct b; [|apply blind_ret]. apply blind_modify; reflexivity.
Qed.
Lemma cur_but b v : cur_bcode (but_for o b v) = cur_bcode v.
Proof. unfold cur_bcode. cbn. destruct (cs_code (v_cs v)) as [r|]; [|reflexivity]. destruct r; reflexivity. Qed.
Definition rel3 (p q : res unit * option nat * vm) : Prop := fst (fst p) = Crash \/ (fst p = fst q /\ exists b, snd p = but_for o b (snd q) /\ fit (snd q) b).
Lemma blind_run_loop E : forall fuel brk v b, fit v b -> rel3 (run_loop E fuel brk (but_for o b v)) (run_loop E fuel brk v).
Proof.
  assert (R : forall r brk v b, fit v b -> rel3 (r, brk, but_for o b v) (r, brk, v)) by (intros r brk v b F; right; split; [reflexivity|]; exists b; auto).
  induction fuel as [|fuel IH]; intros brk v b F; cbn [run_loop]; rewrite cur_but; (destruct (cur_bcode v) as [bc|]; [|left; reflexivity]); change (v_cs (but_for o b v)) with (v_cs v); change (v_stopped (but_for o b v)) with (v_stopped v).
  - destruct (_ && _); apply R; exact F.
  - destruct (_ && _); [|apply R; exact F]. destruct (blind_execute E v b F) as [C|(Q & b' & P & F')].
    + destruct (execute E (but_for o b v)) as [r w]. cbn [fst] in C. subst r. left. reflexivity.
    + destruct (execute E (but_for o b v)) as [r w]. destruct (execute E v) as [r' w']. cbn [fst snd] in *. subst r w. destruct r'; [apply IH; exact F'| | |]; apply R; exact F'.
Qed.
Lemma blind_report brk : blind (run_report brk).
Proof.
  intros v b F. unfold run_report. destruct (interrupted brk); [apply blind_put; exact F|]. change (v_stopped (but_for o b v)) with (v_stopped v). destruct (v_stopped v); [|exact (blind_ret tt v b F)].
  change (v_cs (but_for o b v)) with (v_cs v). destruct (cs_code (v_cs v)) as [r|]; [|left; reflexivity]. replace (code_of (but_for o b v) r) with (code_of v r) by (destruct r; reflexivity). apply blind_put. exact F.
Qed.
Lemma fit_stop brk v b : fit v b -> run_stop_state brk (but_for o b v) = but_for o b (run_stop_state brk v) /\ fit (run_stop_state brk v) b.
Proof. intros F. unfold run_stop_state. change (v_cs (but_for o b v)) with (v_cs v). change (v_stopped (but_for o b v)) with (v_stopped v). destruct (cs_code (v_cs v)) as [[]|]; try (split; [reflexivity|exact F]). destruct (_ || _); (split; [reflexivity|exact F]). Qed.
Lemma blind_run E fuel brk : blind (run E fuel brk).
Proof.
  intros v b F. unfold run. change (v_cs (but_for o b v)) with (v_cs v). destruct (cs_code (v_cs v)) as [r|]; [|left; reflexivity].
  destruct (blind_run_loop E fuel brk (set_stopped false v) b F) as [C|(Q & b1 & P & F1)].
  - change (but_for o b (set_stopped false v)) with (set_stopped false (but_for o b v)) in C. destruct (run_loop E fuel brk (set_stopped false (but_for o b v))) as [[r1 k] w]. cbn [fst] in C. subst r1. left. reflexivity.
  - change (but_for o b (set_stopped false v)) with (set_stopped false (but_for o b v)) in Q, P. destruct (run_loop E fuel brk (set_stopped false (but_for o b v))) as [[r1 k] w]. destruct (run_loop E fuel brk (set_stopped false v)) as [[r2 k2] w2].
    cbn [fst snd] in *. injection Q as -> ->. subst w.
    assert (G : forall r : res unit, rel (match run_report k2 (but_for o b1 w2) with (Ok _, v') => (r, run_stop_state k2 v') | (x, v') => (x, v') end) (match run_report k2 w2 with (Ok _, v') => (r, run_stop_state k2 v') | (x, v') => (x, v') end)).
    { intros r0. destruct (blind_report k2 w2 b1 F1) as [C|(Q & b2 & P & F2)].
      - destruct (run_report k2 (but_for o b1 w2)) as [r1 w]. cbn [fst] in C. subst r1. left. reflexivity.
      - destruct (run_report k2 (but_for o b1 w2)) as [r1 w]. destruct (run_report k2 w2) as [r3 w3]. cbn [fst snd] in *. subst r1 w. destruct (fit_stop k2 w3 b2 F2) as [S1 S2].
        destruct r3; right; (split; [reflexivity|]); exists b2; cbn [snd]; auto. }
    destruct r2; try apply G; [left; reflexivity|]. right. split; [reflexivity|]. exists b1. auto.
Qed.
Lemma blind_continue E fuel brk : blind (vm_continue E fuel brk).
Proof.
  intros v b F. unfold vm_continue, bind at 1, get. unfold bind at 4. change (v_stopcs (but_for o b v)) with (v_stopcs v). destruct (cs_code (v_stopcs v)) as [r|]; [|exact (blind_ret false v b F)].
  replace (code_of (but_for o b v) r) with (code_of v r) by (destruct r; reflexivity). destruct (c_bcode (code_of v r)) as [bc|]; [|exact (blind_ret false v b F)]. cbv zeta.
  match goal with |- rel (?m _) (?m' _) => change m' with m; assert (H : blind m); [|exact (H v b F)] end.
  apply blind_bind; [apply blind_some|]. intros i. apply blind_bind; [apply blind_modify; reflexivity|]. intros _. apply blind_bind; [apply blind_run|]. intros _. apply blind_ret.
Qed.

(* ---------- the session ---------- *)

Definition sfit (s : sess) (b : list oev) : Prop := fit (ss_vm s) b.
Definition sbut (b : list oev) (s : sess) : sess := set_vm (but_for o b (ss_vm s)) s.
(* p without tracing, q with *)
Definition xrel {A} (p q : xres A) : Prop := crashes q \/ outcome_as o p q.
Definition xblind {A} (m : X A) : Prop := forall s b, sfit s b -> xrel (m s) (m (sbut b s)).
Lemma as_sbut s b : sfit s b -> traced_as o s (sbut b s).
Proof. intros [F1 F2]. split; [exact F1|]. exists b. auto. Qed.
Lemma as_inv s t : traced_as o s t -> exists b, sfit s b /\ t = sbut b s.
Proof. intros [F1 (b & F2 & ->)]. exists b. split; [split; assumption|reflexivity]. Qed.
Lemma xblind_ret {A} (a : A) : xblind (xret a).
Proof. intros s b F. right. split; [reflexivity|apply as_sbut; exact F]. Qed.
Lemma xblind_exit {A} : xblind (@xexit A).
Proof. intros s b F. right. apply as_sbut. exact F. Qed.
Lemma xblind_nofuel {A} : xblind (fun s => @XNoFuel A s).
Proof. intros s b F. right. apply as_sbut. exact F. Qed.
Lemma xblind_crash {A} : xblind (@xcrash A).
Proof. intros s b F. left. exact Logic.I. Qed.
Lemma xblind_bind {A B} (m : X A) (k : A -> X B) : xblind m -> (forall a, xblind (k a)) -> xblind (xbind m k).
Proof.
  intros H K s b F. unfold xbind. destruct (H s b F) as [C|R]; [left; destruct (m (sbut b s)); try contradiction; exact Logic.I|].
  destruct (m s) as [a t|t|t|t]; destruct (m (sbut b s)) as [a' u|u|u|u]; try contradiction; cbn [outcome_as] in R.
  - destruct R as [<- R]. apply as_inv in R as (b' & F' & ->). exact (K a t b' F').
  - right. exact R.
  - right. exact R.
Qed.
Lemma xblind_get {A} (k : vm -> X A) : (forall v b, fit v b -> k (but_for o b v) = k v) -> (forall v, xblind (k v)) -> xblind (xbind get_vm k).
Proof. intros E K s b F. unfold xbind, get_vm. change (ss_vm (sbut b s)) with (but_for o b (ss_vm s)). rewrite (E _ b F). exact (K (ss_vm s) s b F). Qed.
Lemma xblind_mod f : (forall v b, f (but_for o b v) = but_for o b (f v)) -> (forall v, v_out (f v) = v_out v) -> (forall v, v_opt (f v) = v_opt v) -> xblind (mod_vm f).
Proof.
  intros H H1 H2 s b [F1 F2]. right. unfold mod_vm. change (ss_vm (sbut b s)) with (but_for o b (ss_vm s)). rewrite H. split; [reflexivity|]. split; [cbn; rewrite H2; exact F1|]. exists b. cbn. rewrite H1. split; [exact F2|reflexivity].
Qed.
Lemma xblind_out t : xblind (out t).
Proof. intros s b [F1 F2]. right. split; [reflexivity|]. split; [exact F1|]. exists (b ++ map OB t). split; [|reflexivity]. apply adds_app. exact F2. Qed.
Lemma xblind_say d : xblind (say d).
Proof. intros s b [F1 F2]. right. split; [reflexivity|]. split; [exact F1|]. exists b. split; [exact F2|reflexivity]. Qed.
Lemma xblind_with {A} (m : option nat -> M A) d : (forall k, blind (m k)) -> xblind (with_run m d).
Proof.
  intros H s b F. unfold with_run. change (ss_brk (sbut b s)) with (ss_brk s). set (k := match ss_brk s with x :: _ => x | [] => None end). change (ss_vm (sbut b s)) with (but_for o b (ss_vm s)).
  destruct (H k (ss_vm s) b F) as [C|(Q & b' & P & F')].
  - destruct (m k (but_for o b (ss_vm s))) as [r w]. cbn [fst] in C. subst r. left. exact Logic.I.
  - destruct (m k (but_for o b (ss_vm s))) as [r w]. destruct (m k (ss_vm s)) as [r' w']. cbn [fst snd] in *. subst r w.
    assert (T : traced_as o (mkSess w' (ss_fs s) (ss_diag s) (tl (ss_brk s)) (ss_os s)) (mkSess (but_for o b' w') (ss_fs s) (ss_diag s) (tl (ss_brk s)) (ss_os s))) by (apply (as_sbut (mkSess w' (ss_fs s) (ss_diag s) (tl (ss_brk s)) (ss_os s)) b'); exact F').
    destruct r'; [right; split; [reflexivity|exact T]|right; split; [reflexivity|exact T]|left; exact Logic.I|right; exact T].
Qed.
Lemma xblind_compile src kw : xblind (compile src kw).
Proof.
  intros s b F. unfold compile. change (v_st (ss_vm (sbut b s))) with (v_st (ss_vm s)). destruct (parse_source src (v_st (ss_vm s)) kw) as [bc e st| | |]; [|apply xblind_exit; exact F|left; exact Logic.I|right; apply as_sbut; exact F].
  change (set_vm (set_st st (ss_vm (sbut b s))) (sbut b s)) with (sbut b (set_vm (set_st st (ss_vm s)) s)). assert (F' : sfit (set_vm (set_st st (ss_vm s)) s) b) by exact F.
  destruct e as [x|]; [|exact (xblind_ret bc _ b F')]. apply (xblind_bind (say (DParse x)) (fun _ => xret bc)); [apply xblind_say|intros _; apply xblind_ret|exact F'].
Qed.
Ltac xmod := apply xblind_mod; intros; unfold stored_source, set_source; cbn; repeat match goal with |- context [match ?x with _ => _ end] => destruct x end; reflexivity.
Lemma xblind_ensure : xblind ensure_program_compiled.
Proof.
  unfold ensure_program_compiled. apply xblind_get; [intros v b [F _]; cbn [but_for v_stored v_opt]; rewrite F; reflexivity|]. intros v. destruct (c_source (v_stored v)) as [src|]; [|apply xblind_ret]. destruct (c_bcode (v_stored v)); [apply xblind_ret|].
  apply xblind_bind; [destruct (c_index _); [apply xblind_crash|apply xblind_ret]|]. intros _. apply xblind_bind; [unfold vm_clear_names; xmod|]. intros _. apply xblind_bind; [apply xblind_compile|]. intros bc. destruct bc as [bc|]; [|apply xblind_ret].
  destruct (bcode_index bc src) as [idx|]; [|apply xblind_exit]. apply xblind_bind; [xmod|]. intros _. apply xblind_ret.
Qed.
Lemma xblind_run_program E fuel : xblind (run_program E fuel).
Proof.
  unfold run_program. apply xblind_get; [reflexivity|]. intros v. destruct (stored_source v); [|apply xblind_ret]. apply xblind_bind; [apply xblind_ensure|]. intros ok. destruct ok; [|apply xblind_ret].
  apply xblind_bind; [xmod|]. intros _. apply xblind_with. intros k. apply blind_run.
Qed.
Lemma xblind_run_immediate E fuel line : xblind (run_immediate E fuel line).
Proof.
  unfold run_immediate. apply xblind_bind; [xmod|]. intros _. apply xblind_bind; [apply xblind_ensure|]. intros ok. destruct ok; [|apply xblind_ret]. cbv zeta. apply xblind_bind; [apply xblind_compile|]. intros bc. destruct bc as [bc|]; [|apply xblind_ret].
  destruct (bcode_index bc _) as [idx|]; [|apply xblind_exit]. apply xblind_bind; [xmod|]. intros _. apply xblind_bind; [apply xblind_with; intros k; apply blind_run|]. intros _.
  apply xblind_get; [reflexivity|]. intros v. destruct (immediate_state v) as [[]|]; [xmod|apply xblind_ret|apply xblind_crash].
Qed.
Lemma xblind_check t : xblind (check_eol t).
Proof. unfold check_eol. destruct (at_eol _); [apply xblind_ret|]. apply xblind_bind; [apply xblind_say|]. intros _. apply xblind_ret. Qed.
Lemma xblind_list_loop start end_ page : forall src count, xblind (list_loop src start end_ page count).
Proof.
  induction src as [|l r IH]; intros count; cbn [list_loop]; [apply xblind_ret|]. destruct (_ <? _)%N; [apply xblind_ret|]. destruct (_ <=? _)%N; [|apply IH]. apply xblind_bind; [apply xblind_out|]. intros _. cbv zeta.
  apply xblind_bind; [|intros _; apply IH]. destruct (_ && _); [unfold await_newline; xmod|apply xblind_out].
Qed.
Lemma xblind_renumber new old inc : xblind (renumber new old inc).
Proof.
  unfold renumber. apply xblind_get; [intros v b [F _]; cbn [but_for v_stored v_opt stored_source]; rewrite F; reflexivity|]. intros v. destruct (stored_source v) as [src|]; [|apply xblind_ret]. destruct (renum_lines _ _ _ _ _ _) as [[src1 m] e].
  destruct e as [d|]; [apply xblind_bind; [xmod|intros _; apply xblind_say]|]. destruct (renum_texts _ _ _); [xmod|apply xblind_bind; [xmod|intros _; apply xblind_say]|apply xblind_exit|apply xblind_nofuel].
Qed.
Lemma xblind_load name : xblind (vm_load_source name).
Proof.
  intros s b F. unfold vm_load_source. change (ss_fs (sbut b s)) with (ss_fs s). destruct (ss_fs s name) as [content|].
  - destruct (load_source content) as [src| |]; [|right; apply as_sbut; exact F|right; apply as_sbut; exact F]. refine (xblind_bind (mod_vm _) (fun _ => xret true) _ _ s b F); [xmod|intros _; apply xblind_ret].
  - refine (xblind_bind (say _) (fun _ => xret false) _ _ s b F); [apply xblind_say|intros _; apply xblind_ret].
Qed.
Lemma xblind_save name : xblind (vm_save_source name).
Proof.
  intros s b F. unfold vm_save_source. change (stored_source (ss_vm (sbut b s))) with (stored_source (ss_vm s)). destruct (stored_source (ss_vm s)) as [src|]; [|exact (xblind_ret false s b F)].
  right. split; [reflexivity|]. destruct F as [F1 F2]. split; [exact F1|]. exists b. split; [exact F2|reflexivity].
Qed.
Lemma xblind_command E fuel c p : xblind (command E fuel c p).
Proof.
  destruct c; cbn [command].
  - apply xblind_check.
  - apply xblind_bind; [|intros _; apply xblind_ret]. unfold vm_compile. apply xblind_bind; [apply xblind_ensure|intros _; apply xblind_ret].
  - apply xblind_bind; [apply xblind_with; intros k; apply blind_continue|]. intros ok. apply xblind_bind; [destruct ok; [apply xblind_ret|apply xblind_say]|intros _; apply xblind_ret].
  - apply xblind_bind; [apply xblind_out|intros _; apply xblind_ret].
  - destruct (get_list_numbers p) as [[start end_] p']. destruct (get_page_flag p') as [page p1]. apply xblind_bind; [apply xblind_check|]. intros ok. apply xblind_bind; [|intros _; apply xblind_ret]. destruct ok; [|apply xblind_ret].
    unfold list_program. apply xblind_get; [reflexivity|]. intros v. destruct (stored_source v); [apply xblind_list_loop|apply xblind_ret].
  - destruct (demarcate_string p) as [[name p']|]; [|apply xblind_bind; [apply xblind_say|intros _; apply xblind_ret]]. apply xblind_bind; [apply xblind_check|]. intros ok. apply xblind_bind; [|intros _; apply xblind_ret].
    destruct ok; [apply xblind_bind; [apply xblind_load|intros _; apply xblind_ret]|apply xblind_say].
  - apply xblind_bind; [apply xblind_check|]. intros ok. apply xblind_bind; [|intros _; apply xblind_ret]. destruct ok; [|apply xblind_ret]. apply xblind_bind; [unfold vm_new_program; xmod|]. intros _. unfold vm_clear_names. xmod.
  - destruct (get_renum_numbers p) as [[[new old] inc] p']. apply xblind_bind; [apply xblind_check|]. intros ok. apply xblind_bind; [|intros _; apply xblind_ret]. destruct ok; [apply xblind_renumber|apply xblind_ret].
  - apply xblind_bind; [unfold vm_clear_values; xmod|]. intros _. apply xblind_bind; [apply xblind_run_program|intros _; apply xblind_ret].
  - destruct (demarcate_string p) as [[name p']|]; [|apply xblind_bind; [apply xblind_say|intros _; apply xblind_ret]]. apply xblind_bind; [apply xblind_check|]. intros ok. apply xblind_bind; [|intros _; apply xblind_ret].
    destruct ok; [apply xblind_bind; [apply xblind_save|intros _; apply xblind_ret]|apply xblind_say].
Qed.
Lemma xblind_interpret E fuel line : xblind (interpret E fuel line).
Proof.
  unfold interpret. cbv zeta. destruct (starts_digit _); [|destruct (starts_with _ _); [|destruct (at_eol _); [apply xblind_ret|]]].
  - apply xblind_bind; [|intros _; apply xblind_ret]. unfold program_line. destruct (read_u32 _) as [n p]. destruct (at_eol p).
    + unfold vm_delete_source_line. apply xblind_mod; intros; unfold stored_source, set_source; cbn [but_for v_stored]; (destruct (c_source (v_stored v)) as [src|]; [|reflexivity]); destruct (find_source_linenum src n); reflexivity.
    + unfold vm_enter_source_line. apply xblind_get; [reflexivity|]. intros v. cbv zeta. destruct (enter_source_line _ _ _); [xmod|apply xblind_exit|apply xblind_nofuel].
  - apply xblind_bind; [|intros _; apply xblind_ret]. unfold oscli. cbv zeta. destruct (at_eol _); [apply xblind_ret|]. intros s b [F1 F2]. right. split; [reflexivity|]. split; [exact F1|]. exists b. split; [exact F2|reflexivity].
  - unfold immediate. destruct (span is_alpha _) as [w p].
    assert (I : forall q, xblind (let* _ := run_immediate E fuel q in xret false)%sess) by (intros q; apply xblind_bind; [apply xblind_run_immediate|intros _; apply xblind_ret]).
    destruct w as [|c w]; [apply I|]. destruct (find_command (c :: w)); [apply xblind_command|apply I].
Qed.
Lemma xblind_get_line : forall k, xblind (get_line k).
Proof.
  induction k as [|k IH]; cbn [get_line]; [apply xblind_nofuel|]. apply xblind_bind; [apply xblind_out|]. intros _. apply xblind_get; [reflexivity|]. intros v. destruct (fgets 128 (v_in v)) as [[buf rest]|]; [|apply xblind_ret]. cbv zeta.
  destruct (last_opt (cstr buf)) as [c|]; [|apply xblind_bind; [xmod|intros _; exact IH]]. destruct (ceq c NL); [apply xblind_bind; [xmod|intros _; apply xblind_ret]|].
  apply xblind_bind; [xmod|]. intros _. apply xblind_bind; [apply xblind_say|intros _; exact IH].
Qed.
Lemma xblind_interact E fuel : forall k, xblind (interact_loop E fuel k).
Proof.
  induction k as [|k IH]; cbn [interact_loop]; [apply xblind_nofuel|]. apply xblind_get; [reflexivity|]. intros v. apply xblind_bind; [apply xblind_get_line|]. intros l. destruct l as [l|]; [|apply xblind_ret].
  apply xblind_bind; [apply xblind_interpret|]. intros q. destruct q; [apply xblind_ret|exact IH].
Qed.
End Trace.

(* ---------- one line, a whole session, the program ---------- *)

Theorem trace_line o E fuel line s t : traced_as o s t -> crashes (interpret E fuel line t) \/ outcome_as o (interpret E fuel line s) (interpret E fuel line t).
Proof. intros T. apply as_inv in T as (b & F & ->). exact (xblind_interpret o E fuel line s b F). Qed.
Theorem trace_session o E fuel quiet stdin fs brk :
  crashes (interact E fuel o quiet stdin fs brk) \/ outcome_as o (interact E fuel (untraced o) quiet stdin fs brk) (interact E fuel o quiet stdin fs brk).
Proof.
  unfold interact. change (new_session o stdin fs brk) with (sbut o [] (new_session (untraced o) stdin fs brk)). refine (xblind_bind o _ _ _ _ (new_session (untraced o) stdin fs brk) [] _).
  - destruct quiet; [apply xblind_ret|apply xblind_out].
  - intros _. apply xblind_interact.
  - split; [reflexivity|constructor].
Qed.

Definition plain_opts (o : opts) : opts := mkOpts (op_mode o) (op_file o) (op_anywhere o) (op_version o) (op_quiet o) (op_memory o) false false (op_trace_log o) (op_srand o).
Definition plain_res (r : optres) : optres := match r with OpOk o => OpOk (plain_opts o) | _ => r end.
Definition opt_of (o : opts) : options := mkOpt (op_anywhere o) (op_trace_basic o) (op_trace_for o).
Lemma is_arg_in a l : is_arg a l = true -> In a l.
Proof. unfold is_arg. intros H. apply existsb_exists in H as (b & I & Q). apply OptProofs.bytes_eqb_eq in Q. subst b. exact I. Qed.
Lemma options_plain : forall argv o, parse_options (plain_opts o) (without_traces argv) = plain_res (parse_options o argv) /\
  forall o', parse_options o argv = OpOk o' -> op_trace_basic o' = op_trace_basic o || existsb asks_basic argv /\ op_trace_for o' = op_trace_for o || existsb asks_for argv.
Proof.
  induction argv as [|a r IH]; intros o.
  - split; [reflexivity|]. intros o' X. injection X as <-. cbn [existsb]. rewrite !orb_false_r. auto.
  - unfold without_traces. cbn [filter existsb]. fold (without_traces r). destruct (asks_basic a) eqn:B; [|destruct (asks_for a) eqn:F].
    + cbn [orb negb]. apply is_arg_in in B. assert (F : asks_for a = false) by (destruct B as [<-|[<-|[]]]; reflexivity). rewrite F.
      assert (P : parse_options o (a :: r) = parse_options (op_set_flags false false false false true false false false o) r) by (destruct B as [<-|[<-|[]]]; reflexivity).
      rewrite P. destruct (IH (op_set_flags false false false false true false false false o)) as [H1 H2]. split.
      * rewrite <- H1. f_equal. unfold plain_opts, op_set_flags. cbn. rewrite !orb_false_r. reflexivity.
      * intros o' X. destruct (H2 o' X) as [-> ->]. cbn. rewrite !orb_true_r, !orb_false_r. auto.
    + cbn [orb negb]. apply is_arg_in in F.
      assert (P : parse_options o (a :: r) = parse_options (op_set_flags false false false false false true false false o) r) by (destruct F as [<-|[<-|[]]]; reflexivity).
      rewrite P. destruct (IH (op_set_flags false false false false false true false false o)) as [H1 H2]. split.
      * rewrite <- H1. f_equal. unfold plain_opts, op_set_flags. cbn. rewrite !orb_false_r. reflexivity.
      * intros o' X. destruct (H2 o' X) as [-> ->]. cbn. rewrite !orb_true_r, !orb_false_r. auto.
    + cbn [orb negb]. cbn [parse_options]. unfold asks_basic in B. unfold asks_for in F. rewrite B, F.
      assert (G : forall f : opts -> opts, plain_opts (f o) = f (plain_opts o) -> op_trace_basic (f o) = op_trace_basic o -> op_trace_for (f o) = op_trace_for o ->
        parse_options (f (plain_opts o)) (without_traces r) = plain_res (parse_options (f o) r) /\
        forall o', parse_options (f o) r = OpOk o' -> op_trace_basic o' = op_trace_basic o || existsb asks_basic r /\ op_trace_for o' = op_trace_for o || existsb asks_for r).
      { intros f F1 F2 F3. rewrite <- F1, <- F2, <- F3. apply IH. }
      repeat match goal with |- context [is_arg a ?l] => destruct (is_arg a l) end;
        first [ split; [reflexivity|intros o' X; discriminate X]
              | apply (G (op_set_mode _)); reflexivity
              | apply (G (op_set_flags _ _ _ _ false false _ _)); unfold plain_opts, op_set_flags; cbn; rewrite ?orb_false_r; reflexivity
              | idtac ].
      assert (K : match op_file (plain_opts o) with None => parse_options (op_set_file a (plain_opts o)) (without_traces r) | Some _ => OpUnexpected a end =
                  plain_res match op_file o with None => parse_options (op_set_file a o) r | Some _ => OpUnexpected a end /\
        forall o', match op_file o with None => parse_options (op_set_file a o) r | Some _ => OpUnexpected a end = OpOk o' -> op_trace_basic o' = op_trace_basic o || existsb asks_basic r /\ op_trace_for o' = op_trace_for o || existsb asks_for r).
      { change (op_file (plain_opts o)) with (op_file o). destruct (op_file o); [split; [reflexivity|intros o' X; discriminate X]|]. apply (G (op_set_file a)); reflexivity. }
      destruct a as [|c a]; [exact K|]. destruct (ceq c "-"); [split; [reflexivity|intros o' X; discriminate X]|exact K].
Qed.
Lemma session_plain E o stdin fs brk : session_of E o stdin fs brk = sbut (opt_of o) [] (session_of E (plain_opts o) stdin fs brk) /\ sfit (opt_of o) (session_of E (plain_opts o) stdin fs brk) [].
Proof. unfold session_of, seed_of. change (op_srand (plain_opts o)) with (op_srand o). destruct (op_srand o); (split; [reflexivity|split; [reflexivity|constructor]]). Qed.
Theorem trace_main E fuel argv stdin fs brk : main_as argv (main E fuel (without_traces argv) stdin fs brk) (main E fuel argv stdin fs brk).
Proof.
  unfold main. destruct (options_plain argv init_options) as [H1 H2]. change (plain_opts init_options) with init_options in H1. rewrite H1. destruct (parse_options init_options argv) as [o| | |] eqn:P; cbn [plain_res]; try reflexivity.
  destruct (H2 o eq_refl) as [TB TF]. cbn [init_options op_trace_basic op_trace_for orb] in TB, TF. change (op_version (plain_opts o)) with (op_version o). destruct (op_version o); [reflexivity|].
  change (op_file (plain_opts o)) with (op_file o). change (op_mode (plain_opts o)) with (op_mode o). change (op_quiet (plain_opts o)) with (op_quiet o).
  assert (R : forall m : X unit, xblind (opt_of o) m -> crashes (m (session_of E o stdin fs brk)) \/ exists o', o_trace_basic o' = existsb asks_basic argv /\ o_trace_for o' = existsb asks_for argv /\ outcome_as o' (m (session_of E (plain_opts o) stdin fs brk)) (m (session_of E o stdin fs brk))).
  { intros m M. destruct (session_plain E o stdin fs brk) as [S1 S2]. rewrite S1. destruct (M _ [] S2) as [C|C]; [left; exact C|]. right. exists (opt_of o). split; [exact TB|]. split; [exact TF|exact C]. }
  destruct (op_file o) as [f|].
  - unfold process_file. change (op_mode (plain_opts o)) with (op_mode o). change (op_anywhere (plain_opts o)) with (op_anywhere o).
    assert (Q : main_as argv (MnRun ((let* ok := vm_load_source f in if ok then run_program E fuel else xret tt)%sess (session_of E (plain_opts o) stdin fs brk))) (MnRun ((let* ok := vm_load_source f in if ok then run_program E fuel else xret tt)%sess (session_of E o stdin fs brk)))).
    { apply R. apply xblind_bind; [apply xblind_load|]. intros ok. destruct ok; [apply xblind_run_program|apply xblind_ret]. }
    destruct (op_mode o); try exact Q; (destruct (fs f) as [content|]; [|reflexivity]; destruct (load_source content); try reflexivity); try (destruct (list_names_text _ _); reflexivity); try (destruct (parse_source _ _ _); reflexivity).
  - destruct (op_mode o); try reflexivity. apply R. apply xblind_bind; [destruct (op_quiet o); [apply xblind_ret|apply xblind_out]|]. intros _. apply xblind_interact.
Qed.
