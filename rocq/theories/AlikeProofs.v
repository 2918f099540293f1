(* Machines that a program cannot tell apart do the same. *)
From Coq Require Import Lia ZifyBool ZifyNat ZifyN.
From Verif Require Import Base BaseLemmas Num SourceModel LineMapModel ArrayModel BcodeModel SymbolModel SymbolSpec
  VmModel VmLemmas VmSpec ControlProofs VmTyping KindProofs.

(* no place a machine can return to is in the code r *)
Definition elsewhere (r : coderef) (c : code_state) : Prop := cs_code c <> Some r.
Definition nowhere (r : coderef) (v : vm) : Prop :=
  elsewhere r (v_cs v) /\ Forall (elsewhere r) (v_ret v) /\ Forall (fun f => elsewhere r (f_cs f)) (v_for v) /\
  elsewhere r (fn_cs (v_fn v)).

(* the same, but for the number left in a number variable that is not defined *)
Definition sym_alike (s1 s2 : symbol) : Prop :=
  sig_of s1 = sig_of s2 /\ s_defined s1 = s_defined s2 /\
  (s_val s1 = s_val s2 \/
   s_defined s2 = false /\ s_kind s2 = KVariable /\ s_type s2 = TNum /\
   (exists x, val_num (s_val s1) = Some x) /\ exists y, val_num (s_val s2) = Some y).

(* the first table may have more symbols *)
Definition tab_alike (t1 t2 : symtab) : Prop :=
  forall id s2, symbol_at t2 id = Some s2 -> exists s1, symbol_at t1 id = Some s1 /\ sym_alike s1 s2.

(* the loop variables have the same values, those in P at least *)
Definition loops_alike (P : symid -> Prop) (t1 t2 : symtab) (fs : list for_loop) : Prop :=
  forall f s1 s2, In f fs -> P (f_sym f) -> symbol_at t1 (f_sym f) = Some s1 -> symbol_at t2 (f_sym f) = Some s2 -> s_val s1 = s_val s2.

(* a pending function call; the saved value of an undefined parameter may
   differ if L *)
Definition fn_alike (L : Prop) (f1 f2 : fnstate) : Prop :=
  fn_cs f1 = fn_cs f2 /\
  (cs_code (fn_cs f2) <> None ->
   fn_param f1 = fn_param f2 /\ fn_defined f1 = fn_defined f2 /\ (fn_val f1 = fn_val f2 \/ L /\ fn_defined f2 = false)).

Record alike (L : Prop) (P : symid -> Prop) (o1 o2 : list oev) (e1 e2 : list errev) (v1 v2 : vm) : Prop := {
  al_stored : v_stored v1 = v_stored v2;
  al_imm : v_imm v1 = v_imm v2 \/ nowhere CImmediate v2;
  al_def : v_def v1 = v_def v2 \/ nowhere CDef v2;
  al_cs : v_cs v1 = v_cs v2;
  al_st : tab_alike (v_st v1) (v_st v2);
  al_loops : loops_alike P (v_st v1) (v_st v2) (v_for v2);
  al_stack : v_stack v1 = v_stack v2;
  al_sstack : v_sstack v1 = v_sstack v2;
  al_ret : v_ret v1 = v_ret v2;
  al_stopped : v_stopped v1 = v_stopped v2;
  al_col : v_col v1 = v_col v2;
  al_for : v_for v1 = v_for v2;
  al_pdata : v_pdata v1 = v_pdata v2;
  al_idata : v_idata v1 = v_idata v2;
  al_fn : fn_alike L (v_fn v1) (v_fn v2);
  al_input : v_input v1 = v_input v2;
  al_inp : v_inp v1 = v_inp v2;
  al_input_pc : v_input_pc v1 = v_input_pc v2;
  al_opt : v_opt v1 = v_opt v2;
  al_in : v_in v1 = v_in v2;
  al_out : exists x, v_out v1 = o1 ++ x /\ v_out v2 = o2 ++ x;
  al_err : exists x, v_err v1 = e1 ++ x /\ v_err v2 = e2 ++ x;
  al_seed : v_seed v1 = v_seed v2;
  al_randk : v_randk v1 = v_randk v2;
  al_clock : v_clock v1 = v_clock v2
}.

(* the second outcome is undefined behaviour, or both are the same *)
Definition same_end {A} (R W : vm -> vm -> Prop) (r1 r2 : res A * vm) : Prop :=
  fst r2 = Crash \/ (fst r1 = fst r2 /\ match fst r2 with Ok _ => R (snd r1) (snd r2) | _ => W (snd r1) (snd r2) end).

Section Alike.
Variables (L : Prop) (P : symid -> Prop) (o1 o2 : list oev) (e1 e2 : list errev).
Notation al := (alike L P o1 o2 e1 e2).
Notation wal := (alike True (fun _ => False) o1 o2 e1 e2).
Notation ends := (same_end al wal).

Lemma al_weak v1 v2 : al v1 v2 -> wal v1 v2.
Proof.
  intros [F1 F2 F3 F4 F5 F6 F7 F8 F9 F10 F11 F12 F13 F14 F15 F16 F17 F18 F19 F20 F21 F22 F23 F24 F25]. constructor; try assumption.
  - intros f s1 s2 _ X. destruct X.
  - destruct F15 as [A B]. split; [exact A|]. intros X. destruct (B X) as (C & D & E). split; [exact C|]. split; [exact D|].
    destruct E as [E|[_ E]]; [left; exact E|right; split; [exact I|exact E]].
Qed.

Definition sim {A} (m1 m2 : M A) : Prop := forall v1 v2, al v1 v2 -> ends (m1 v1) (m2 v2).

Lemma sim_ret {A} (a : A) : sim (ret a) (ret a).
Proof. intros v1 v2 H. right. split; [reflexivity|exact H]. Qed.
Lemma sim_crash {A} (m : M A) : sim m crash.
Proof. intros v1 v2 H. left. reflexivity. Qed.
Lemma ends_bind {A B} (m1 m2 : M A) (k1 k2 : A -> M B) v1 v2 : ends (m1 v1) (m2 v2) ->
  (forall a w1 w2, m1 v1 = (Ok a, w1) -> m2 v2 = (Ok a, w2) -> al w1 w2 -> ends (k1 a w1) (k2 a w2)) -> ends (bind m1 k1 v1) (bind m2 k2 v2).
Proof.
  intros [C | [E H]] K; unfold bind; destruct (m1 v1) as [r1 w1], (m2 v2) as [r2 w2]; cbn [fst snd] in *.
  - subst r2. left. reflexivity.
  - subst r1. destruct r2 as [a|e| |]; [apply K; auto | right; split; [reflexivity|exact H] | left; reflexivity | right; split; [reflexivity|exact H]].
Qed.
Lemma sim_bind {A B} (m1 m2 : M A) (k1 k2 : A -> M B) : sim m1 m2 -> (forall a, sim (k1 a) (k2 a)) -> sim (bind m1 k1) (bind m2 k2).
Proof. intros H K v1 v2 V. apply ends_bind; [apply H, V|]. intros a w1 w2 _ _ W. apply K, W. Qed.
Lemma sim_get {B} (k1 k2 : vm -> M B) : (forall v1 v2, al v1 v2 -> sim (k1 v1) (k2 v2)) -> sim (bind get k1) (bind get k2).
Proof. intros H v1 v2 V. unfold bind, get. apply H; exact V. Qed.
Lemma sim_assert b : sim (assert b) (assert b).
Proof. unfold assert. destruct b; [apply sim_ret|apply sim_crash]. Qed.
Lemma sim_assert_bind {B} b (k1 k2 : unit -> M B) : (b = true -> sim (k1 tt) (k2 tt)) -> sim (bind (assert b) k1) (bind (assert b) k2).
Proof. intros H v1 v2 V. unfold assert, bind. destruct b; [apply (H eq_refl), V | left; reflexivity]. Qed.
Lemma sim_some {A} (o : option A) : sim (some_or_crash o) (some_or_crash o).
Proof. unfold some_or_crash. destruct o; [apply sim_ret|apply sim_crash]. Qed.
Lemma sim_modify (f1 f2 : vm -> vm) : (forall v1 v2, al v1 v2 -> al (f1 v1) (f2 v2)) -> sim (modify f1) (modify f2).
Proof. intros H v1 v2 V. right. split; [reflexivity|apply H, V]. Qed.
Lemma sim_get_sym {B} id (k1 k2 : symbol -> M B) : (forall s1 s2, sym_alike s1 s2 -> sim (k1 s1) (k2 s2)) ->
  sim (bind (get_sym id) k1) (bind (get_sym id) k2).
Proof.
  intros H v1 v2 V. unfold bind, get_sym. destruct (symbol_at (v_st v2) id) as [s2|] eqn:E; [|left; reflexivity].
  destruct (al_st _ _ _ _ _ _ _ _ V id s2 E) as (s1 & -> & S). apply H; assumption.
Qed.

(* the code a place is in *)
Lemma al_code v1 v2 r : al v1 v2 -> cs_code (v_cs v2) = Some r -> code_of v1 r = code_of v2 r.
Proof.
  intros V C. destruct r; cbn [code_of].
  - apply (al_stored _ _ _ _ _ _ _ _ V).
  - destruct (al_imm _ _ _ _ _ _ _ _ V) as [E | (E & _)]; [exact E | destruct (E C)].
  - destruct (al_def _ _ _ _ _ _ _ _ V) as [E | (E & _)]; [exact E | destruct (E C)].
Qed.
Lemma al_cur v1 v2 : al v1 v2 -> cur_bcode v1 = cur_bcode v2.
Proof.
  intros V. unfold cur_bcode. rewrite (al_cs _ _ _ _ _ _ _ _ V). destruct (cs_code (v_cs v2)) as [r|] eqn:C; [|reflexivity].
  rewrite (al_code v1 v2 r V C). reflexivity.
Qed.

Ltac fields V := destruct V as [Fstored Fimm Fdef Fcs Fst Floops Fstack Fsstack Fret Fstopped Fcol Ffor Fpdata Fidata Ffn Finput Finp Finput_pc Fopt Fin Fout Ferr Fseed Frandk Fclock].
(* a change of fields that are not places *)
Ltac plain V := fields V; constructor; try assumption; cbn; try congruence.
Lemma put_alike v1 v2 x : al v1 v2 -> al (set_out (v_out v1 ++ x) v1) (set_out (v_out v2 ++ x) v2).
Proof. intros V. plain V. destruct Fout as (y & -> & ->). exists (y ++ x). rewrite !app_assoc. auto. Qed.
Lemma put_cols_alike v1 v2 x c : al v1 v2 -> al (set_outcol (v_out v1 ++ x) c v1) (set_outcol (v_out v2 ++ x) c v2).
Proof. intros V. plain V. destruct Fout as (y & -> & ->). exists (y ++ x). rewrite !app_assoc. auto. Qed.

Lemma sim_error {A} e : sim (@run_error A e) (run_error e).
Proof.
  intros v1 v2 V. right. unfold run_error. split; [reflexivity|]. cbn [fst snd].
  assert (Q : match cs_code (v_cs v1) with
              | Some r => match c_source (code_of v1 r) with Some src => Some (print_source_line src (cs_line (v_cs v1))) | None => None end
              | None => None end =
              match cs_code (v_cs v2) with
              | Some r => match c_source (code_of v2 r) with Some src => Some (print_source_line src (cs_line (v_cs v2))) | None => None end
              | None => None end).
  { rewrite (al_cs _ _ _ _ _ _ _ _ V). destruct (cs_code (v_cs v2)) as [r|] eqn:C; [|reflexivity]. rewrite (al_code v1 v2 r V C). reflexivity. }
  rewrite Q. match goal with |- alike _ _ _ _ _ _ (set_err (_ ++ ?x) _) _ => generalize x end. intros x. apply al_weak in V. plain V.
  destruct Ferr as (y & -> & ->). exists (y ++ x). rewrite !app_assoc. auto.
Qed.
Lemma sim_push x : sim (push x) (push x).
Proof.
  intros v1 v2 V. unfold push. rewrite (al_stack _ _ _ _ _ _ _ _ V). destruct (Nat.leb _ _); [apply sim_error, V|].
  right. split; [reflexivity|]. plain V.
Qed.
Lemma sim_pop : sim pop pop.
Proof.
  intros v1 v2 V. unfold pop. rewrite (al_stack _ _ _ _ _ _ _ _ V). destruct (v_stack v2); [apply sim_error, V|].
  right. split; [reflexivity|]. plain V.
Qed.
Lemma sim_push_str x : sim (push_str x) (push_str x).
Proof.
  intros v1 v2 V. unfold push_str. rewrite (al_sstack _ _ _ _ _ _ _ _ V). destruct (Nat.leb _ _); [apply sim_error, V|].
  right. split; [reflexivity|]. plain V.
Qed.
Lemma sim_pop_str : sim pop_str pop_str.
Proof.
  intros v1 v2 V. unfold pop_str. rewrite (al_sstack _ _ _ _ _ _ _ _ V). destruct (v_sstack v2); [apply sim_error, V|].
  right. split; [reflexivity|]. plain V.
Qed.
Lemma sim_get_bcode : sim get_bcode get_bcode.
Proof. intros v1 v2 V. unfold get_bcode. rewrite (al_cur _ _ V). destruct (cur_bcode v2); [right; split; [reflexivity|exact V] | left; reflexivity]. Qed.
Lemma sim_put x : sim (put x) (put x).
Proof. apply sim_modify. intros v1 v2. apply put_alike. Qed.
Lemma sim_put_cols x c : sim (put_cols x c) (put_cols x c).
Proof. apply sim_modify. intros v1 v2. apply put_cols_alike. Qed.
Lemma sim_find_line n : sim (find_basic_line n) (find_basic_line n).
Proof.
  intros v1 v2 V. unfold find_basic_line. rewrite (al_stored _ _ _ _ _ _ _ _ V). destruct (c_index _) as [idx|]; [|apply sim_error, V].
  destruct (lookup_line_mapping idx n); [right; split; [reflexivity|exact V] | apply sim_error, V].
Qed.

(* ---------- places ---------- *)

Lemma al_set_cs c v1 v2 : al v1 v2 ->
  (forall r, (cs_code c = Some r -> nowhere r v2 -> False) \/ r = CStored) -> al (set_cs c v1) (set_cs c v2).
Proof.
  intros V H. fields V. constructor; try assumption; try reflexivity.
  - destruct Fimm as [E|E]; [left; exact E|]. destruct (H CImmediate) as [X|X]; [|discriminate X]. right.
    destruct E as (A & B & C & D). split; [|split; [exact B|split; [exact C|exact D]]]. intros Y. apply (X Y). repeat split; assumption.
  - destruct Fdef as [E|E]; [left; exact E|]. destruct (H CDef) as [X|X]; [|discriminate X]. right.
    destruct E as (A & B & C & D). split; [|split; [exact B|split; [exact C|exact D]]]. intros Y. apply (X Y). repeat split; assumption.
Qed.
Lemma al_set_stored c v1 v2 : al v1 v2 -> cs_code c = Some CStored -> al (set_cs c v1) (set_cs c v2).
Proof. intros V C. apply al_set_cs; [exact V|]. intros [| |]; [right; reflexivity | left; congruence | left; congruence]. Qed.
Lemma al_set_pc n v1 v2 : al v1 v2 -> al (set_pc n v1) (set_pc n v2).
Proof.
  intros V. unfold set_pc. rewrite (al_cs _ _ _ _ _ _ _ _ V). apply al_set_cs; [exact V|]. cbn [cs_code].
  intros r. left. intros C (X & _). exact (X C).
Qed.
Lemma al_set_line n m v1 v2 : al v1 v2 -> al (set_cs (mkCs (cs_code (v_cs v1)) n m) v1) (set_cs (mkCs (cs_code (v_cs v2)) n m) v2).
Proof.
  intros V. rewrite (al_cs _ _ _ _ _ _ _ _ V). apply al_set_cs; [exact V|]. cbn [cs_code]. intros r. left. intros C (X & _). exact (X C).
Qed.
Lemma sim_go_to n : sim (go_to_basic_line n) (go_to_basic_line n).
Proof.
  apply sim_bind; [apply sim_find_line|]. intros pc. apply sim_modify. intros v1 v2 V. rewrite (al_cs _ _ _ _ _ _ _ _ V).
  apply al_set_stored; [exact V|reflexivity].
Qed.
Lemma sim_push_return pc : sim (push_return pc) (push_return pc).
Proof.
  intros v1 v2 V. unfold push_return. rewrite (al_ret _ _ _ _ _ _ _ _ V). destruct (Nat.leb _ _); [apply sim_error, V|].
  right. split; [reflexivity|]. cbn [snd]. rewrite (al_cs _ _ _ _ _ _ _ _ V). fields V. constructor; try assumption; try reflexivity.
  - destruct Fimm as [E|(A & B & C & D)]; [left; exact E|]. right. split; [exact A|split; [constructor; [exact A|exact B]|split; [exact C|exact D]]].
  - destruct Fdef as [E|(A & B & C & D)]; [left; exact E|]. right. split; [exact A|split; [constructor; [exact A|exact B]|split; [exact C|exact D]]].
Qed.
Lemma sim_pop_return : sim pop_return pop_return.
Proof.
  intros v1 v2 V. unfold pop_return. rewrite (al_ret _ _ _ _ _ _ _ _ V). destruct (v_ret v2) as [|c r] eqn:R; [apply sim_error, V|].
  right. split; [reflexivity|]. cbn [snd]. fields V. constructor; try assumption; try reflexivity.
  - destruct Fimm as [E|(A & B & C & D)]; [left; exact E|]. right. rewrite R in B. inversion B; subst. repeat split; assumption.
  - destruct Fdef as [E|(A & B & C & D)]; [left; exact E|]. right. rewrite R in B. inversion B; subst. repeat split; assumption.
Qed.

(* ---------- symbols ---------- *)

Lemma alike_fields s1 s2 : sym_alike s1 s2 ->
  s_name s1 = s_name s2 /\ s_kind s1 = s_kind s2 /\ s_type s1 = s_type s2 /\ s_defined s1 = s_defined s2 /\
  (forall k t, is_kind k t s1 = is_kind k t s2).
Proof.
  intros (G & D & _). unfold sig_of in G. injection G as G1 G2 G3 G4. repeat split; auto. intros k t. unfold is_kind. rewrite G3, G4. reflexivity.
Qed.
Lemma alike_val s1 s2 k t : sym_alike s1 s2 -> is_kind k t s2 = true -> k <> KVariable \/ t <> TNum -> s_val s1 = s_val s2.
Proof.
  intros (_ & _ & [E | (_ & K & T & _)]) I H; [exact E|]. apply is_kind_eq in I as [I J]. exfalso. destruct H; congruence.
Qed.
Lemma alike_defined s1 s2 : sym_alike s1 s2 -> s_defined s2 = true -> s_val s1 = s_val s2.
Proof. intros (_ & _ & [E | (D & _)]) I; [exact E|congruence]. Qed.

Lemma symbol_at_update t p s id : symbol_at (sym_update t p s) id =
  if Nat.eqb (N.to_nat id) p && Nat.ltb p (length (st_syms t)) then Some s else symbol_at t id.
Proof.
  unfold symbol_at, sym_update. cbn [st_syms]. generalize (N.to_nat id). intros q. generalize (st_syms t). intros l. revert p q.
  induction l as [|a l IH]; intros [|p] [|q]; cbn [list_upd nth_error Nat.eqb Nat.ltb Nat.leb length andb]; try reflexivity.
  - rewrite andb_false_r. reflexivity.
  - specialize (IH p q). rewrite IH. reflexivity.
Qed.
Lemma put_tab t1 t2 id s1 s2 : tab_alike t1 t2 -> sym_alike s1 s2 ->
  tab_alike (sym_update t1 (N.to_nat id) s1) (sym_update t2 (N.to_nat id) s2).
Proof.
  intros T S q x. rewrite !symbol_at_update. destruct (Nat.eqb (N.to_nat q) (N.to_nat id)) eqn:Q; cbn [andb].
  - apply Nat.eqb_eq, N2Nat.inj in Q. subst q. destruct (Nat.ltb_spec (N.to_nat id) (length (st_syms t2))) as [L2|L2].
    + intros E. injection E as <-. assert (exists y, symbol_at t2 id = Some y) as (y & Y).
      { unfold symbol_at. destruct (nth_error (st_syms t2) (N.to_nat id)) as [y|] eqn:N; [eauto|]. apply nth_error_None in N. lia. }
      destruct (T id y Y) as (z & Z & _). unfold symbol_at in Z.
      assert (L1 : N.to_nat id < length (st_syms t1)) by (apply nth_error_Some; congruence).
      destruct (Nat.ltb_spec (N.to_nat id) (length (st_syms t1))); [|lia]. exists s1. auto.
    + intros E. apply nth_error_None in L2. unfold symbol_at in E. congruence.
  - apply T.
Qed.
Lemma al_put_sym id s1 s2 v1 v2 : al v1 v2 -> sym_alike s1 s2 ->
  s_val s1 = s_val s2 \/ (forall f, In f (v_for v2) -> P (f_sym f) -> f_sym f <> id) ->
  al (set_st (sym_update (v_st v1) (N.to_nat id) s1) v1) (set_st (sym_update (v_st v2) (N.to_nat id) s2) v2).
Proof.
  intros V S H. fields V. constructor; try assumption; try (cbn; congruence).
  - apply put_tab; assumption.
  - intros f x1 x2 F PF. cbn [v_st set_st v_for]. rewrite !symbol_at_update. destruct (Nat.eqb (N.to_nat (f_sym f)) (N.to_nat id)) eqn:Q; cbn [andb].
    + apply Nat.eqb_eq, N2Nat.inj in Q. destruct H as [H|H]; [|destruct (H f F PF Q)].
      destruct (Nat.ltb_spec (N.to_nat id) (length (st_syms (v_st v1)))), (Nat.ltb_spec (N.to_nat id) (length (st_syms (v_st v2)))); intros X Y.
      * congruence.
      * unfold symbol_at in Y. assert (nth_error (st_syms (v_st v2)) (N.to_nat (f_sym f)) = None) by (apply nth_error_None; rewrite Q; lia). congruence.
      * unfold symbol_at in X. assert (nth_error (st_syms (v_st v1)) (N.to_nat (f_sym f)) = None) by (apply nth_error_None; rewrite Q; lia). congruence.
      * exact (Floops f x1 x2 F PF X Y).
    + exact (Floops f x1 x2 F PF).
Qed.
Lemma sim_put_sym id s1 s2 : sym_alike s1 s2 -> s_val s1 = s_val s2 -> sim (put_sym id s1) (put_sym id s2).
Proof. intros S H. apply sim_modify. intros v1 v2 V. apply al_put_sym; auto. Qed.
Lemma alike_define s1 s2 x : sym_alike s1 s2 -> sym_alike (define s1 x) (define s2 x).
Proof. intros (G & _ & _). split; [exact G|]. split; [reflexivity|left; reflexivity]. Qed.
Lemma alike_undefine s1 s2 : sym_alike s1 s2 -> sym_alike (undefine s1) (undefine s2).
Proof. intros (G & _ & _). split; [exact G|]. split; [reflexivity|left; reflexivity]. Qed.
Lemma alike_set_val s1 s2 x : sym_alike s1 s2 -> sym_alike (set_val s1 x) (set_val s2 x).
Proof. intros (G & D & _). split; [exact G|]. split; [exact D|left; reflexivity]. Qed.

Ltac see S := let A := fresh in let B := fresh in let C := fresh in let D := fresh in let E := fresh in
  destruct (alike_fields _ _ S) as (A & B & C & D & E); rewrite ?A, ?D, ?E; rewrite ?B, ?C; clear A B C D E.
Ltac same V := rewrite ?(al_cs _ _ _ _ _ _ _ _ V), ?(al_col _ _ _ _ _ _ _ _ V), ?(al_for _ _ _ _ _ _ _ _ V), ?(al_input _ _ _ _ _ _ _ _ V),
  ?(al_inp _ _ _ _ _ _ _ _ V), ?(al_input_pc _ _ _ _ _ _ _ _ V), ?(al_seed _ _ _ _ _ _ _ _ V), ?(al_randk _ _ _ _ _ _ _ _ V), ?(al_clock _ _ _ _ _ _ _ _ V),
  ?(al_in _ _ _ _ _ _ _ _ V), ?(al_idata _ _ _ _ _ _ _ _ V), ?(al_pdata _ _ _ _ _ _ _ _ V), ?(al_opt _ _ _ _ _ _ _ _ V), ?(al_stopped _ _ _ _ _ _ _ _ V).

Ltac sim_step :=
  match goal with
  | |- sim (bind (get_sym _) _) (bind (get_sym _) _) =>
      apply sim_get_sym; let s1 := fresh "s1" in let s2 := fresh "s2" in let S := fresh "S" in intros s1 s2 S; see S
  | |- sim (bind (assert _) _) (bind (assert _) _) => apply sim_assert_bind; let K := fresh "K" in intros K;
      repeat match goal with
             | S : sym_alike ?s1 ?s2, K : is_kind ?k ?t ?s2 = true |- context [s_val ?s1] =>
                 rewrite (alike_val s1 s2 k t S K) by (first [left; discriminate|right; discriminate])
             end
  | |- sim (bind get _) (bind get _) => apply sim_get; let v1 := fresh "v1" in let v2 := fresh "v2" in let V := fresh "V" in
      intros v1 v2 V; unfold input_rest; same V
  | |- sim (put_sym _ _) (put_sym _ _) => apply sim_put_sym;
      [first [apply alike_define; assumption|apply alike_undefine; assumption|apply alike_set_val; assumption] | first [reflexivity|assumption]]
  | |- sim (bind _ _) (bind _ _) => apply sim_bind; [|intros ?]
  | |- sim (ret _) (ret _) => apply sim_ret
  | |- sim _ crash => apply sim_crash
  | |- sim (assert _) _ => apply sim_assert
  | |- sim (some_or_crash _) _ => apply sim_some
  | |- sim (run_error _) _ => apply sim_error
  | |- sim (push _) _ => apply sim_push
  | |- sim pop _ => apply sim_pop
  | |- sim (push_str _) _ => apply sim_push_str
  | |- sim pop_str _ => apply sim_pop_str
  | |- sim (push_logic _) _ => apply sim_push
  | |- sim get_bcode _ => apply sim_get_bcode
  | |- sim (put _) _ => apply sim_put
  | |- sim (put_cols _ _) _ => apply sim_put_cols
  | |- sim (find_basic_line _) _ => apply sim_find_line
  | |- sim (go_to_basic_line _) _ => apply sim_go_to
  | |- sim (push_return _) _ => apply sim_push_return
  | |- sim pop_return _ => apply sim_pop_return
  | |- sim (modify (set_pc _)) _ => apply sim_modify; intros ? ? ?; apply al_set_pc; assumption
  | |- sim (if ?b then _ else _) (if ?b then _ else _) => destruct b eqn:?
  | |- sim (match ?x with _ => _ end) (match ?x with _ => _ end) => destruct x eqn:?
  end; cbv beta zeta.

Lemma sim_pop_logic : sim pop_logic pop_logic.
Proof. unfold pop_logic. repeat sim_step. Qed.
Lemma sim_pop_unsigned : sim pop_unsigned pop_unsigned.
Proof. unfold pop_unsigned. repeat sim_step. Qed.
Lemma sim_pop_index n : sim (pop_index n) (pop_index n).
Proof. unfold pop_index. repeat sim_step. Qed.
Lemma sim_pop_indexes d n : sim (pop_indexes d n) (pop_indexes d n).
Proof.
  unfold pop_indexes. apply sim_bind; [apply sim_assert|intros _]. induction (N.to_nat d) as [|m IH]; cbn [pop_indexes_loop]; [apply sim_ret|].
  apply sim_bind; [apply sim_pop_index|intros i]. apply sim_bind; [exact IH|intros r]. apply sim_ret.
Qed.
Lemma sim_compare_strings : sim compare_strings compare_strings.
Proof. unfold compare_strings. repeat sim_step. Qed.

Lemma sim_get_numeric_simple id : sim (get_numeric_simple id) (get_numeric_simple id).
Proof.
  unfold get_numeric_simple. sim_step. apply sim_assert_bind. intros K. destruct (s_defined s2) eqn:D; [rewrite (alike_defined s1 s2 S D)|]; repeat sim_step.
Qed.
Lemma sim_set_numeric_simple id x : sim (set_numeric_simple id x) (set_numeric_simple id x).
Proof. unfold set_numeric_simple. repeat sim_step. Qed.
Lemma sim_dimension_numeric id mx : sim (dimension_numeric id mx) (dimension_numeric id mx).
Proof. unfold dimension_numeric. repeat sim_step. Qed.
Lemma sim_dimension_string id mx : sim (dimension_string id mx) (dimension_string id mx).
Proof. unfold dimension_string. repeat sim_step. Qed.
Lemma sim_array_val {A B} (f : sval -> option (option A)) s1 s2 (k1 k2 : A -> M B) :
  (forall x, val_num x <> None -> f x = None \/ f x = Some None) ->
  sym_alike s1 s2 -> (forall a, sim (k1 a) (k2 a)) ->
  sim (let* a := some_or_crash (f (s_val s1)) in let* a' := some_or_crash a in k1 a')
      (let* a := some_or_crash (f (s_val s2)) in let* a' := some_or_crash a in k2 a').
Proof.
  intros F (_ & _ & [-> | (_ & _ & _ & _ & y & Y)]) K.
  - repeat sim_step. apply K.
  - intros v1 v2 V. left. destruct (F (s_val s2)) as [-> | ->]; [congruence|reflexivity|reflexivity].
Qed.
Lemma sim_dimension_numeric_auto id ix : sim (dimension_numeric_auto id ix) (dimension_numeric_auto id ix).
Proof.
  intros v1 v2 V. unfold dimension_numeric_auto at 2. unfold bind at 1, get_sym at 1.
  destruct (symbol_at (v_st v2) id) as [s2|] eqn:E; [|left; reflexivity].
  destruct (al_st _ _ _ _ _ _ _ _ V id s2 E) as (s1 & E1 & S).
  destruct S as (G & D & [Q | (_ & K & _ & _ & y & Y)]).
  - unfold dimension_numeric_auto. unfold bind at 1, get_sym at 1. rewrite E1, Q.
    match goal with |- same_end _ _ (?m1 v1) (?m2 v2) => assert (H : sim m1 m2); [|exact (H v1 v2 V)] end.
    repeat first [apply sim_dimension_numeric|sim_step].
  - left. destruct (s_val s2); try discriminate Y; [|reflexivity]. cbn [val_numarr some_or_crash]. unfold bind at 1, ret at 1.
    unfold dimension_numeric, bind, get_sym. rewrite E. unfold is_kind. rewrite K. reflexivity.
Qed.
Lemma sim_dimension_string_auto id ix : sim (dimension_string_auto id ix) (dimension_string_auto id ix).
Proof.
  intros v1 v2 V. unfold dimension_string_auto at 2. unfold bind at 1, get_sym at 1.
  destruct (symbol_at (v_st v2) id) as [s2|] eqn:E; [|left; reflexivity].
  destruct (al_st _ _ _ _ _ _ _ _ V id s2 E) as (s1 & E1 & S).
  destruct S as (G & D & [Q | (_ & K & _ & _ & y & Y)]).
  - unfold dimension_string_auto. unfold bind at 1, get_sym at 1. rewrite E1, Q.
    match goal with |- same_end _ _ (?m1 v1) (?m2 v2) => assert (H : sim m1 m2); [|exact (H v1 v2 V)] end.
    repeat first [apply sim_dimension_string|sim_step].
  - left. destruct (s_val s2); try discriminate Y; [|reflexivity]. cbn [val_strarr some_or_crash]. unfold bind at 1, ret at 1.
    unfold dimension_string, bind, get_sym. rewrite E. unfold is_kind. rewrite K. reflexivity.
Qed.
Lemma sim_numeric_array_at id n : sim (numeric_array_at id n) (numeric_array_at id n).
Proof.
  unfold numeric_array_at. sim_step. apply sim_assert_bind. intros K. apply sim_bind; [apply sim_pop_indexes|intros ix].
  apply sim_bind; [destruct (s_defined s2); [apply sim_ret|apply sim_dimension_numeric_auto]|intros _].
  apply sim_get_sym. intros q1 q2 Q. apply sim_array_val; [|exact Q|intros; apply sim_ret].
  intros []; cbn; try congruence; auto.
Qed.
Lemma sim_string_array_at id n : sim (string_array_at id n) (string_array_at id n).
Proof.
  unfold string_array_at. sim_step. apply sim_assert_bind. intros K. apply sim_bind; [apply sim_pop_indexes|intros ix].
  apply sim_bind; [destruct (s_defined s2); [apply sim_ret|apply sim_dimension_string_auto]|intros _].
  apply sim_get_sym. intros q1 q2 Q. apply sim_array_val; [|exact Q|intros; apply sim_ret].
  intros []; cbn; try congruence; auto.
Qed.
Lemma sim_get_numeric_element id n : sim (get_numeric_element id n) (get_numeric_element id n).
Proof. unfold get_numeric_element. repeat first [apply sim_numeric_array_at|sim_step]. Qed.
Lemma sim_set_numeric_element id n x : sim (set_numeric_element id n x) (set_numeric_element id n x).
Proof. unfold set_numeric_element. repeat first [apply sim_numeric_array_at|sim_step]. Qed.
Lemma sim_get_string_element id n : sim (get_string_element id n) (get_string_element id n).
Proof. unfold get_string_element. repeat first [apply sim_string_array_at|sim_step]. Qed.
Lemma sim_set_string_element id n x : sim (set_string_element id n x) (set_string_element id n x).
Proof. unfold set_string_element. repeat first [apply sim_string_array_at|sim_step]. Qed.
Lemma sim_get_string_simple id : sim (get_string_simple id) (get_string_simple id).
Proof. unfold get_string_simple. repeat sim_step. Qed.
Lemma sim_set_string_simple id x : sim (set_string_simple id x) (set_string_simple id x).
Proof. unfold set_string_simple. repeat sim_step. Qed.
Lemma sim_set_numeric id n x : sim (set_numeric id n x) (set_numeric id n x).
Proof. unfold set_numeric. destruct (_ =? _)%N; [apply sim_set_numeric_simple|apply sim_set_numeric_element]. Qed.
Lemma sim_set_string id n x : sim (set_string id n x) (set_string id n x).
Proof. unfold set_string. destruct (_ =? _)%N; [apply sim_set_string_simple|apply sim_set_string_element]. Qed.
Lemma sim_exec_dim_num id n : sim (exec_dim_num id n) (exec_dim_num id n).
Proof. unfold exec_dim_num. repeat first [apply sim_pop_indexes|apply sim_dimension_numeric|sim_step]. Qed.
Lemma sim_exec_dim_str id n : sim (exec_dim_str id n) (exec_dim_str id n).
Proof. unfold exec_dim_str. repeat first [apply sim_pop_indexes|apply sim_dimension_string|sim_step]. Qed.

Lemma sim_find_data : sim find_data find_data.
Proof.
  intros v1 v2 V. unfold find_data. same V. rewrite (al_stored _ _ _ _ _ _ _ _ V).
  destruct (cs_code (v_cs v2)) as [[| |]|] eqn:C;
    try (pose proof (al_code v1 v2 CImmediate V C) as Q; cbn [code_of] in Q; rewrite Q); cbn [andb].
  2: destruct (c_bcode (v_imm v2)) as [b|]; [|left; reflexivity]; destruct (bc_has_data b) eqn:HD; cbn [andb].
  2: rewrite HD; cbn [negb]; destruct (nth_error _ _) as [[]|]; try apply sim_error; try exact V; right; (split; [reflexivity|]); cbn [fst snd]; plain V.
  all: destruct (c_bcode (v_stored v2)) as [bs|]; [|apply sim_error, V]; destruct (negb (bc_has_data bs)); [apply sim_error, V|].
  all: destruct (nth_error _ _) as [[]|]; try apply sim_error; try exact V; right; (split; [reflexivity|]); cbn [fst snd]; plain V.
Qed.
Lemma sim_exec_on g n : sim (exec_on g n) (exec_on g n).
Proof. unfold exec_on. repeat sim_step. Qed.
Lemma sim_skip_to f : sim (skip_to f) (skip_to f).
Proof. unfold skip_to. sim_step; [sim_step|]. apply sim_modify. intros v1 v2 V. same V. apply al_set_pc, V. Qed.
Lemma sim_exec_def id n : sim (exec_def id n) (exec_def id n).
Proof.
  unfold exec_def. sim_step. apply sim_assert_bind. intros K.
  assert (Q : s_val s1 = s_val s2) by (destruct S as (_ & _ & [E | (_ & X & _)]); [exact E|rewrite X in K; discriminate K]).
  rewrite Q. repeat sim_step.
Qed.
Lemma sim_clear : sim (modify (fun v => set_st (clear_symbol_table_values (v_st v)) v)) (modify (fun v => set_st (clear_symbol_table_values (v_st v)) v)).
Proof.
  apply sim_modify. intros v1 v2 V.
  assert (AT : forall t id, symbol_at (clear_symbol_table_values t) id = option_map (fun s => if s_defined s then undefine_value s else s) (symbol_at t id)).
  { intros t id. unfold symbol_at, clear_symbol_table_values. cbn [st_syms]. apply nth_error_map. }
  assert (EQ : forall s1 s2, sym_alike s1 s2 -> s_val s1 = s_val s2 ->
     s_val (if s_defined s1 then undefine_value s1 else s1) = s_val (if s_defined s2 then undefine_value s2 else s2)).
  { intros s1 s2 S Q. destruct (alike_fields s1 s2 S) as (_ & A & _ & B & _). rewrite B. destruct (s_defined s2); [|exact Q].
    unfold undefine_value. rewrite A. destruct (s_kind s2); auto. }
  assert (SG : forall s, sig_of (undefine_value s) = sig_of s).
  { intros s. unfold sig_of, undefine_value. destruct (s_kind s) eqn:K; cbn; congruence. }
  fields V. constructor; try assumption; try (cbn; congruence).
  - intros id s2 E. cbn [v_st set_st] in *. rewrite AT in E. destruct (symbol_at (v_st v2) id) as [x2|] eqn:X2; [|discriminate E]. cbn in E. injection E as <-.
    destruct (Fst id x2 X2) as (x1 & X1 & S). rewrite AT, X1. cbn. eexists; split; [reflexivity|].
    destruct (s_defined x2) eqn:D.
    + pose proof (alike_defined _ _ S D) as Q. pose proof (EQ x1 x2 S Q) as Q2. rewrite D in Q2. destruct S as (G & D1 & _).
      rewrite D1, D in Q2 |- *. split; [|split; [|left; exact Q2]].
      * rewrite !SG. exact G.
      * unfold undefine_value. unfold sig_of in G. injection G as G1 G2 G3 G4. rewrite G3. destruct (s_kind x2); cbn; congruence.
    + destruct (alike_fields x1 x2 S) as (_ & _ & _ & B & _). rewrite B, D. exact S.
  - intros f s1 s2 F PF. cbn [v_st set_st v_for] in *. rewrite !AT.
    destruct (symbol_at (v_st v1) (f_sym f)) as [x1|] eqn:X1; [|discriminate]. destruct (symbol_at (v_st v2) (f_sym f)) as [x2|] eqn:X2; [|discriminate].
    cbn. intros A B. injection A as <-. injection B as <-. pose proof (Floops f x1 x2 F PF X1 X2) as Q.
    destruct (Fst (f_sym f) x2 X2) as (y1 & Y1 & S). assert (y1 = x1) by congruence. subst y1. exact (EQ x1 x2 S Q).
Qed.
Lemma sim_source_line l (k1 k2 : unit -> M bool) : (forall u, sim (k1 u) (k2 u)) ->
  sim (bind (modify (fun v => set_cs (mkCs (cs_code (v_cs v)) l (cs_pc (v_cs v))) v)) k1) (bind (modify (fun v => set_cs (mkCs (cs_code (v_cs v)) l (cs_pc (v_cs v))) v)) k2).
Proof.
  intros H. apply sim_bind; [|exact H]. apply sim_modify. intros v1 v2 V. rewrite (al_cs _ _ _ _ _ _ _ _ V). apply al_set_cs; [exact V|]. cbn [cs_code].
  intros r. left. intros C (X & _). exact (X C).
Qed.
End Alike.

Notation anyid := (fun _ : symid => True).

Ltac see S := let A := fresh in let B := fresh in let C := fresh in let D := fresh in let E := fresh in
  destruct (alike_fields _ _ S) as (A & B & C & D & E); rewrite ?A, ?D, ?E; rewrite ?B, ?C; clear A B C D E.
Ltac same V := rewrite ?(al_cs _ _ _ _ _ _ _ _ V), ?(al_col _ _ _ _ _ _ _ _ V), ?(al_for _ _ _ _ _ _ _ _ V), ?(al_input _ _ _ _ _ _ _ _ V),
  ?(al_inp _ _ _ _ _ _ _ _ V), ?(al_input_pc _ _ _ _ _ _ _ _ V), ?(al_seed _ _ _ _ _ _ _ _ V), ?(al_randk _ _ _ _ _ _ _ _ V), ?(al_clock _ _ _ _ _ _ _ _ V),
  ?(al_in _ _ _ _ _ _ _ _ V), ?(al_idata _ _ _ _ _ _ _ _ V), ?(al_pdata _ _ _ _ _ _ _ _ V), ?(al_opt _ _ _ _ _ _ _ _ V), ?(al_stopped _ _ _ _ _ _ _ _ V).
Ltac fields V := destruct V as [Fstored Fimm Fdef Fcs Fst Floops Fstack Fsstack Fret Fstopped Fcol Ffor Fpdata Fidata Ffn Finput Finp Finput_pc Fopt Fin Fout Ferr Fseed Frandk Fclock].
Ltac plain V := fields V; constructor; try assumption; cbn; try congruence.

Ltac sim_step :=
  match goal with
  | |- sim _ _ _ _ _ _ (bind (get_sym _) _) (bind (get_sym _) _) =>
      apply sim_get_sym; let s1 := fresh "s1" in let s2 := fresh "s2" in let S := fresh "S" in intros s1 s2 S; see S
  | |- sim _ _ _ _ _ _ (bind (assert _) _) (bind (assert _) _) => apply sim_assert_bind; let K := fresh "K" in intros K;
      repeat match goal with
             | S : sym_alike ?s1 ?s2, K : is_kind ?k ?t ?s2 = true |- context [s_val ?s1] =>
                 rewrite (alike_val s1 s2 k t S K) by (first [left; discriminate|right; discriminate])
             end
  | |- sim _ _ _ _ _ _ (bind get _) (bind get _) => apply sim_get; let v1 := fresh "v1" in let v2 := fresh "v2" in let V := fresh "V" in
      intros v1 v2 V; unfold input_rest; same V
  | |- sim _ _ _ _ _ _ (put_sym _ _) (put_sym _ _) => apply sim_put_sym;
      [first [apply alike_define; assumption|apply alike_undefine; assumption|apply alike_set_val; assumption] | first [reflexivity|assumption]]
  | |- sim _ _ _ _ _ _ (bind _ _) (bind _ _) => apply sim_bind; [|intros ?]
  | |- sim _ _ _ _ _ _ (ret _) (ret _) => apply sim_ret
  | |- sim _ _ _ _ _ _ _ crash => apply sim_crash
  | |- sim _ _ _ _ _ _ (assert _) _ => apply sim_assert
  | |- sim _ _ _ _ _ _ (some_or_crash _) _ => apply sim_some
  | |- sim _ _ _ _ _ _ (run_error _) _ => apply sim_error
  | |- sim _ _ _ _ _ _ (push _) _ => apply sim_push
  | |- sim _ _ _ _ _ _ pop _ => apply sim_pop
  | |- sim _ _ _ _ _ _ (push_str _) _ => apply sim_push_str
  | |- sim _ _ _ _ _ _ pop_str _ => apply sim_pop_str
  | |- sim _ _ _ _ _ _ (push_logic _) _ => apply sim_push
  | |- sim _ _ _ _ _ _ get_bcode _ => apply sim_get_bcode
  | |- sim _ _ _ _ _ _ (put _) _ => apply sim_put
  | |- sim _ _ _ _ _ _ (put_cols _ _) _ => apply sim_put_cols
  | |- sim _ _ _ _ _ _ (find_basic_line _) _ => apply sim_find_line
  | |- sim _ _ _ _ _ _ (go_to_basic_line _) _ => apply sim_go_to
  | |- sim _ _ _ _ _ _ (push_return _) _ => apply sim_push_return
  | |- sim _ _ _ _ _ _ pop_return _ => apply sim_pop_return
  | |- sim _ _ _ _ _ _ (modify (set_pc _)) _ => apply sim_modify; intros ? ? ?; apply al_set_pc; assumption
  | |- sim _ _ _ _ _ _ (if ?b then _ else _) (if ?b then _ else _) => destruct b eqn:?
  | |- sim _ _ _ _ _ _ (match ?x with _ => _ end) (match ?x with _ => _ end) => destruct x eqn:?
  end; cbv beta zeta.

Section Instr.
Variables (o1 o2 : list oev) (e1 e2 : list errev).

Section L.
Variable L : Prop.
Notation al := (alike L anyid o1 o2 e1 e2).
Notation sm := (sim L anyid o1 o2 e1 e2).

Lemma dump_entries_alike v1 v2 fs : al v1 v2 -> (forall f, In f fs -> In f (v_for v2)) -> dump_entries (v_st v2) fs <> None ->
  dump_entries (v_st v1) fs = dump_entries (v_st v2) fs.
Proof.
  intros V. induction fs as [|f fs IH]; intros H N; [reflexivity|]. cbn [dump_entries] in *.
  assert (Q : sym_num (v_st v2) (f_sym f) <> None -> sym_num (v_st v1) (f_sym f) = sym_num (v_st v2) (f_sym f)).
  { unfold sym_num. destruct (symbol_at (v_st v2) (f_sym f)) as [s2|] eqn:E; [|congruence]. intros _.
    destruct (al_st _ _ _ _ _ _ _ _ V _ _ E) as (s1 & E1 & S). rewrite E1.
    rewrite (al_loops _ _ _ _ _ _ _ _ V f s1 s2 (H f (or_introl eq_refl)) I E1 E). destruct (alike_fields _ _ S) as (-> & _). reflexivity. }
  destruct (sym_num (v_st v2) (f_sym f)) as [[nm x]|]; [|congruence]. rewrite Q by discriminate.
  destruct (dump_entries (v_st v2) fs) as [t|]; [|congruence]. rewrite IH; [reflexivity| |discriminate]. intros g G. apply H. right. exact G.
Qed.
Lemma sim_dump_for_stack t : sm (dump_for_stack t) (dump_for_stack t).
Proof.
  intros v1 v2 V. unfold dump_for_stack. rewrite (al_for _ _ _ _ _ _ _ _ V). destruct (v_for v2) as [|f fs] eqn:F; [apply sim_put, V|].
  destruct (dump_entries (v_st v2) (rev (f :: fs))) as [x|] eqn:D; [|left; reflexivity].
  rewrite (dump_entries_alike v1 v2 (rev (f :: fs)) V); [rewrite D; apply sim_put, V | | congruence].
  intros g G. rewrite F. apply in_rev, G.
Qed.
Lemma sim_dump_for t : sm (dump_for t) (dump_for t).
Proof.
  intros v1 v2 V. unfold dump_for. rewrite (al_cs _ _ _ _ _ _ _ _ V). destruct (cs_code (v_cs v2)) as [r|] eqn:C; [|left; reflexivity].
  rewrite (al_code _ _ _ _ _ _ v1 v2 r V C). destruct (c_source (code_of v2 r)) as [src|]; [|left; reflexivity].
  destruct (nth_error src (cs_line (v_cs v2))) as [l|]; [|left; reflexivity].
  match goal with |- same_end _ _ (?m1 v1) (?m2 v2) => assert (H : sm m1 m2); [|exact (H v1 v2 V)] end.
  apply sim_bind; [apply sim_put|intros _; apply sim_dump_for_stack].
Qed.
Lemma sim_trace_for m : sm m m -> sm (trace_for m) (trace_for m).
Proof.
  intros H v1 v2 V. unfold trace_for. rewrite (al_opt _ _ _ _ _ _ _ _ V). destruct (o_trace_for _); [exact (H v1 v2 V)|]. right. split; [reflexivity|exact V].
Qed.
Lemma al_set_for P fs v1 v2 : alike L P o1 o2 e1 e2 v1 v2 ->
  (forall f, In f fs -> In f (v_for v2) \/ (f_cs f = v_cs v2 /\ ~ P (f_sym f))) ->
  alike L P o1 o2 e1 e2 (set_for fs v1) (set_for fs v2).
Proof.
  intros V H. fields V. constructor; try assumption; try (cbn; congruence).
  - destruct Fimm as [E|(A & B & C & D)]; [left; exact E|]. right. repeat split; try assumption. cbn [v_for set_for].
    apply Forall_forall. intros f F. destruct (H f F) as [X | [X _]]; [exact (proj1 (Forall_forall _ _) C f X)|rewrite X; exact A].
  - destruct Fdef as [E|(A & B & C & D)]; [left; exact E|]. right. repeat split; try assumption. cbn [v_for set_for].
    apply Forall_forall. intros f F. destruct (H f F) as [X | [X _]]; [exact (proj1 (Forall_forall _ _) C f X)|rewrite X; exact A].
  - intros f s1 s2 F PF. cbn [v_st set_for v_for] in *. destruct (H f F) as [X | [_ X]]; [exact (Floops f s1 s2 X PF)|destruct (X PF)].
Qed.
Lemma in_remove_nth {A} (l : list A) n x : In x (remove_nth l n) -> In x l.
Proof.
  revert n. induction l as [|a l IH]; intros [|n] H; cbn in *; auto. destruct H as [H|H]; auto. right. apply (IH n), H.
Qed.
Definition next_tail (si : nat) (f : for_loop) (s : symbol) : M unit :=
  let* x0 := some_or_crash (val_num (s_val s)) in
  let x := fadd x0 (f_step f) in
  (if (fgtb (f_step f) fzero && fgtb x (f_limit f)) || (fltb (f_step f) fzero && fltb x (f_limit f))
   then modify (fun v => set_for (remove_nth (v_for v) si) v)
   else put_sym (f_sym f) (set_val s (VNum x)) ;;; modify (set_cs (f_cs f))) ;;;
  trace_for (dump_for_stack (lit "final stack")).
Lemma next_split si v : next si v =
  match nth_error (v_for v) si with
  | None => (Crash, v)
  | Some f => match symbol_at (v_st v) (f_sym f) with None => (Crash, v) | Some s => next_tail si f s v end
  end.
Proof.
  unfold next. unfold bind at 1, get at 1. destruct (nth_error (v_for v) si) as [f|]; [|reflexivity]. cbn [some_or_crash].
  unfold bind at 1, ret at 1. unfold bind at 1, get_sym at 1. destruct (symbol_at (v_st v) (f_sym f)) as [s|]; reflexivity.
Qed.
Lemma sim_next si : sm (next si) (next si).
Proof.
  intros v1 v2 V. rewrite !next_split. rewrite (al_for _ _ _ _ _ _ _ _ V).
  destruct (nth_error (v_for v2) si) as [f|] eqn:F; [|left; reflexivity].
  destruct (symbol_at (v_st v2) (f_sym f)) as [s2|] eqn:E; [|left; reflexivity].
  destruct (al_st _ _ _ _ _ _ _ _ V _ _ E) as (s1 & E1 & S). rewrite E1.
  assert (IN : In f (v_for v2)) by (eapply nth_error_In; eassumption).
  unfold next_tail. rewrite (al_loops _ _ _ _ _ _ _ _ V f s1 s2 IN I E1 E).
  apply ends_bind; [apply sim_some, V|]. intros x w1 w2 X1 X2 W.
  assert (w2 = v2) by (unfold some_or_crash, ret, crash in X2; destruct (val_num (s_val s2)); congruence). subst w2. 
  apply ends_bind; [|intros _ u1 u2 _ _ U; exact (sim_trace_for _ (sim_dump_for_stack _) u1 u2 U)].
  destruct (_ || _).
  - right. split; [reflexivity|]. cbn [fst snd modify]. rewrite (al_for _ _ _ _ _ _ _ _ W). apply al_set_for; [exact W|].
    intros g G. left. exact (in_remove_nth _ _ _ G).
  - apply ends_bind; [apply sim_put_sym; [apply alike_set_val, S|reflexivity|exact W]|].
    intros t u1 u2 _ U2 U. right. split; [reflexivity|]. cbn [fst snd modify]. apply al_set_cs; [exact U|].
    unfold put_sym, modify in U2. injection U2 as _ <-.
    intros r. left. intros C (_ & _ & X & _). cbn [v_for set_st] in X. exact (proj1 (Forall_forall _ _) X f IN C).
Qed.

Definition for_tail (si : nat) (cs : code_state) (id : symid) (s : symbol) (lim : num) : M unit :=
  let put_for f := modify (fun w => set_for (list_upd (v_for w) si f) w) in
  let* step := pop in
  put_for (mkFor cs id step lim) ;;;
  let* limit := pop in
  put_for (mkFor cs id step limit) ;;;
  let* x := pop in
  put_sym id (define s (VNum x)).
Definition for_rest (id : symid) : M unit :=
  fun v =>
    match symbol_at (v_st v) id with
    | None => (Crash, v)
    | Some s =>
        if is_kind KVariable TNum s then
          match find_for (v_for v) id with
          | Some si =>
              match nth_error (v_for v) si with
              | None => (Crash, v)
              | Some f => (for_tail (length (remove_nth (v_for v) si)) (v_cs v) id s (f_limit f) ;;; trace_for (dump_for_stack (lit "final stack")))
                            (set_for (remove_nth (v_for v) si ++ [mkFor (v_cs v) id (f_step f) (f_limit f)]) v)
              end
          | None =>
              if Nat.leb MAX_FOR (length (v_for v)) then (dump_for_stack (lit "overflow") ;;; run_error RE_for_nested) v
              else (for_tail (length (v_for v)) (v_cs v) id s fzero ;;; trace_for (dump_for_stack (lit "final stack")))
                     (set_for (v_for v ++ [mkFor (v_cs v) id fzero fzero]) v)
          end
        else (Crash, v)
    end.
Lemma bind_ext {A B} (m : M A) (k1 k2 : A -> M B) v : (forall a w, m v = (Ok a, w) -> k1 a w = k2 a w) -> bind m k1 v = bind m k2 v.
Proof. intros H. unfold bind. destruct (m v) as [[a|e| |] w]; auto. Qed.
Lemma bind_assoc {A B C} (m : M A) (f : A -> M B) (g : B -> M C) v : bind (bind m f) g v = bind m (fun a => bind (f a) g) v.
Proof. unfold bind. destruct (m v) as [[a|e| |] w]; reflexivity. Qed.
Lemma last_of {A} (l : list A) x : length (l ++ [x]) - 1 = length l.
Proof. rewrite app_length. cbn. lia. Qed.
Lemma exec_for_split id v : exec_for id v = (trace_for (dump_for (lit "FOR")) ;;; for_rest id) v.
Proof.
  unfold exec_for. apply bind_ext. intros _ w _. unfold for_rest.
  unfold bind at 1, get_sym at 1. destruct (symbol_at (v_st w) id) as [s|]; [|reflexivity].
  unfold bind at 1, assert at 1. destruct (is_kind KVariable TNum s); [|reflexivity]. unfold ret at 1.
  unfold bind at 1, get at 1.
  assert (TAIL : forall l f, (let* v1 := get in
      let si := length (v_for v1) - 1 in
      let* f1 := some_or_crash (nth_error (v_for v1) si) in
      let put_for f := modify (fun w => set_for (list_upd (v_for w) si f) w) in
      put_for (mkFor (v_cs v1) id (f_step f1) (f_limit f1)) ;;;
      let* step := pop in
      put_for (mkFor (v_cs v1) id step (f_limit f1)) ;;;
      let* limit := pop in
      put_for (mkFor (v_cs v1) id step limit) ;;;
      let* x := pop in
      put_sym id (define s (VNum x)) ;;;
      trace_for (dump_for_stack (lit "final stack"))) (set_for (l ++ [f]) w) =
    (for_tail (length l) (v_cs w) id s (f_limit f) ;;; trace_for (dump_for_stack (lit "final stack"))) (set_for (l ++ [mkFor (v_cs w) id (f_step f) (f_limit f)]) w)).
  { intros l f. unfold bind at 1, get. cbv zeta. unfold bind at 1. cbn [v_for set_for]. rewrite nth_error_last.
    cbn [some_or_crash]. unfold ret at 1. unfold bind at 1, modify at 1. cbn [v_for set_for v_cs]. rewrite list_upd_last, last_of.
    unfold for_tail. cbv zeta. change (set_for ?a (set_for ?b ?c)) with (set_for a c).
    rewrite bind_assoc. apply bind_ext. intros x u _. rewrite bind_assoc. apply bind_ext. intros [] u1 _.
    rewrite bind_assoc. apply bind_ext. intros y u2 _. rewrite bind_assoc. apply bind_ext. intros [] u3 _.
    rewrite bind_assoc. apply bind_ext. intros z u4 _. reflexivity. }
  unfold bind at 1. destruct (find_for (v_for w) id) as [si|].
  - unfold bind at 1. destruct (nth_error (v_for w) si) as [f|]; cbn [some_or_crash]; [|reflexivity]. unfold ret at 1, modify at 1. apply TAIL.
  - destruct (Nat.leb MAX_FOR (length (v_for w))).
    + unfold bind. destruct (dump_for_stack _ w) as [[u|e| |] x]; reflexivity.
    + unfold modify at 1. apply (TAIL (v_for w) (mkFor clear_cs 0%N fzero fzero)).
Qed.

Notation but id := (fun q : symid => q <> id).
Lemma al_but id v1 v2 : al v1 v2 -> alike L (but id) o1 o2 e1 e2 v1 v2.
Proof. intros V. fields V. constructor; try assumption. intros f s1 s2 F _. exact (Floops f s1 s2 F I). Qed.
Lemma in_list_upd {A} (l : list A) i x y : In y (list_upd l i x) -> In y l \/ y = x.
Proof.
  revert i. induction l as [|a l IH]; intros [|i] H; cbn in *; auto. destruct H as [H|H]; auto.
  destruct H as [H|H]; auto. destruct (IH i H); auto.
Qed.
Lemma at_updated t id s x : symbol_at (sym_update t (N.to_nat id) s) id = Some x -> x = s.
Proof.
  rewrite symbol_at_update, Nat.eqb_refl. cbn [andb]. destruct (Nat.ltb_spec (N.to_nat id) (length (st_syms t))); [congruence|].
  unfold symbol_at. intros E. assert (nth_error (st_syms t) (N.to_nat id) = None) by (apply nth_error_None; lia). congruence.
Qed.
Lemma al_put_back id s1 s2 v1 v2 : alike L (but id) o1 o2 e1 e2 v1 v2 -> sym_alike s1 s2 -> s_val s1 = s_val s2 ->
  al (set_st (sym_update (v_st v1) (N.to_nat id) s1) v1) (set_st (sym_update (v_st v2) (N.to_nat id) s2) v2).
Proof.
  intros V S H. pose proof (al_put_sym L (but id) o1 o2 e1 e2 id s1 s2 v1 v2 V S (or_introl H)) as W. fields W. constructor; try assumption.
  intros f x1 x2 F _ X1 X2. destruct (N.eq_dec (f_sym f) id) as [Q|Q]; [|exact (Floops f x1 x2 F Q X1 X2)].
  cbn [v_st set_st] in X1, X2. rewrite Q in X1, X2. apply at_updated in X1, X2. congruence.
Qed.
Lemma ends_put_for id si cs a b v1 v2 : alike L (but id) o1 o2 e1 e2 v1 v2 -> v_cs v2 = cs ->
  same_end (alike L (but id) o1 o2 e1 e2) (alike True (fun _ => False) o1 o2 e1 e2)
    (modify (fun w => set_for (list_upd (v_for w) si (mkFor cs id a b)) w) v1) (modify (fun w => set_for (list_upd (v_for w) si (mkFor cs id a b)) w) v2).
Proof.
  intros V C. right. split; [reflexivity|]. cbn [fst snd modify]. rewrite (al_for _ _ _ _ _ _ _ _ V). apply al_set_for; [exact V|].
  intros f F. apply in_list_upd in F as [F | ->]; [left; exact F|right]. cbn [f_cs f_sym]. split; [congruence|]. intros X. apply X. reflexivity.
Qed.
Lemma ends_chain {A B} (R R' W : vm -> vm -> Prop) (m1 m2 : M A) (k1 k2 : A -> M B) v1 v2 : same_end R W (m1 v1) (m2 v2) ->
  (forall a w1 w2, m1 v1 = (Ok a, w1) -> m2 v2 = (Ok a, w2) -> R w1 w2 -> same_end R' W (k1 a w1) (k2 a w2)) -> same_end R' W (bind m1 k1 v1) (bind m2 k2 v2).
Proof.
  intros [C | [E H]] K; unfold bind; destruct (m1 v1) as [r1 w1], (m2 v2) as [r2 w2]; cbn [fst snd] in *.
  - subst r2. left. reflexivity.
  - subst r1. destruct r2 as [a|e| |]; [apply K; auto | right; split; [reflexivity|exact H] | left; reflexivity | right; split; [reflexivity|exact H]].
Qed.
Lemma pop_cs v a w : pop v = (Ok a, w) -> v_cs w = v_cs v.
Proof. intros E. unfold pop in E. destruct (v_stack v); [discriminate|]. injection E as _ <-. reflexivity. Qed.
Lemma sim_for_tail id si cs s1 s2 lim v1 v2 : alike L (but id) o1 o2 e1 e2 v1 v2 -> sym_alike s1 s2 -> v_cs v2 = cs ->
  same_end al (alike True (fun _ => False) o1 o2 e1 e2) (for_tail si cs id s1 lim v1) (for_tail si cs id s2 lim v2).
Proof.
  intros V S C. unfold for_tail. cbv zeta.
  eapply ends_chain; [apply sim_pop, V|]. intros a w1 w2 _ E W. apply pop_cs in E. rewrite C in E. clear C.
  eapply ends_chain; [apply ends_put_for; [exact W|exact E]|]. intros [] u1 u2 _ E2 U. unfold modify in E2. assert (C : v_cs u2 = cs) by (injection E2 as <-; exact E). clear E2 E W.
  eapply ends_chain; [apply sim_pop, U|]. intros b x1 x2 _ E X. apply pop_cs in E. rewrite C in E. clear C U.
  eapply ends_chain; [apply ends_put_for; [exact X|exact E]|]. intros [] y1 y2 _ _ Y.
  eapply ends_chain; [apply sim_pop, Y|]. intros c z1 z2 _ _ Z. right. split; [reflexivity|]. cbn [fst snd put_sym modify].
  apply al_put_back; [exact Z|apply alike_define, S|reflexivity].
Qed.
Lemma al_for_new id l a b v1 v2 : al v1 v2 -> (forall f, In f l -> In f (v_for v2)) ->
  alike L (but id) o1 o2 e1 e2 (set_for (l ++ [mkFor (v_cs v2) id a b]) v1) (set_for (l ++ [mkFor (v_cs v2) id a b]) v2).
Proof.
  intros V H. apply al_set_for; [apply al_but, V|]. intros f F. apply in_app_iff in F as [F | [<- | []]]; [left; exact (H f F)|right].
  split; [reflexivity|]. intros X. apply X. reflexivity.
Qed.
Lemma sim_exec_for id : sm (exec_for id) (exec_for id).
Proof.
  intros v1 v2 V. rewrite !exec_for_split. apply ends_bind; [apply sim_trace_for; [apply sim_dump_for|exact V]|]. intros _ w1 w2 _ _ W. clear v1 v2 V. rename w1 into v1, w2 into v2, W into V.
  unfold for_rest. destruct (symbol_at (v_st v2) id) as [s2|] eqn:E; [|left; reflexivity].
  destruct (al_st _ _ _ _ _ _ _ _ V _ _ E) as (s1 & E1 & S). rewrite E1. rewrite (al_for _ _ _ _ _ _ _ _ V), (al_cs _ _ _ _ _ _ _ _ V).
  destruct (alike_fields _ _ S) as (_ & _ & _ & _ & KK). rewrite KK. clear KK. destruct (is_kind KVariable TNum s2); [|left; reflexivity].
  destruct (find_for (v_for v2) id) as [si|].
  - destruct (nth_error (v_for v2) si) as [f|] eqn:F; [|left; reflexivity].
    apply ends_bind; [|intros _ w1 w2 _ _ W; exact (sim_trace_for _ (sim_dump_for_stack _) w1 w2 W)].
    apply sim_for_tail; [|exact S|reflexivity]. apply al_for_new; [exact V|]. intros g G. exact (in_remove_nth _ _ _ G).
  - destruct (Nat.leb _ _).
    + apply ends_bind; [apply sim_dump_for_stack, V|]. intros _ w1 w2 _ _ W. apply sim_error, W.
    + apply ends_bind; [|intros _ w1 w2 _ _ W; exact (sim_trace_for _ (sim_dump_for_stack _) w1 w2 W)].
      apply sim_for_tail; [|exact S|reflexivity]. apply al_for_new; [exact V|]. auto.
Qed.

(* ---------- instructions ---------- *)

Lemma sim_modify_plain (f : vm -> vm) : (forall v1 v2, al v1 v2 -> al (f v1) (f v2)) -> sm (modify f) (modify f).
Proof. apply sim_modify. Qed.
Ltac sim_prim := first
  [ apply sim_pop_logic | apply sim_pop_unsigned | apply sim_pop_indexes | apply sim_compare_strings | apply sim_find_data
  | apply sim_exec_on | apply sim_skip_to | apply sim_clear | apply sim_exec_def | apply sim_source_line
  | apply sim_get_numeric_simple | apply sim_set_numeric_simple | apply sim_exec_dim_num | apply sim_get_numeric_element
  | apply sim_set_numeric_element | apply sim_get_string_simple | apply sim_set_string_simple | apply sim_exec_dim_str
  | apply sim_get_string_element | apply sim_set_string_element | apply sim_set_numeric | apply sim_set_string
  | apply sim_exec_for | apply sim_next | apply sim_trace_for | apply sim_dump_for | sim_step
  | match goal with |- sim _ _ _ _ _ _ (modify _) (modify _) => apply sim_modify; let V := fresh "V" in intros ? ? V; same V; plain V end ].

Definition calls (i : instr) : bool := match i with I_GET_PAREN_NUM _ _ | I_GET_PAREN_STR _ _ | I_END_DEF => true | _ => false end.
Lemma sim_instr E i : calls i = false -> sm (exec_instr E i) (exec_instr E i).
Proof.
  destruct i; intros NC; try discriminate NC; clear NC; cbn [exec_instr];
    unfold adv, jump, unary, binary, compare_num, compare_str, push_buf;
    try solve [repeat sim_prim].
  - apply sim_source_line. intros _ v1 v2 V. same V. destruct (o_trace_basic _); [|right; split; [reflexivity|exact V]].
    destruct (cs_code (v_cs v2)) as [r|] eqn:C; [|left; reflexivity]. rewrite (al_code _ _ _ _ _ _ v1 v2 r V C).
    destruct (c_source (code_of v2 r)) as [src|]; [|left; reflexivity]. destruct (nth_error src source_line) as [l|]; [|left; reflexivity].
    match goal with |- same_end _ _ (?m1 v1) (?m2 v2) => assert (H : sm m1 m2); [|exact (H v1 v2 V)] end. repeat sim_prim.
  - apply sim_bind; [|intros _; apply sim_ret]. apply sim_modify. intros v1 v2 V. apply put_cols_alike, V.
  - apply sim_bind; [apply sim_put|intros _]. apply sim_bind; [|intros _; apply sim_ret]. apply sim_modify. intros v1 v2 V. same V.
    destruct (fgets 128 (v_in v2)) as [[b r]|]; plain V.
  - intros v1 v2 V. same V. destruct (rnd_loop _ _ _ _) as [[x k]|]; [|right; split; [reflexivity|exact (al_weak _ _ _ _ _ _ _ _ V)]].
    match goal with |- same_end _ _ (?m1 ?w1) (?m2 ?w2) => assert (H : sm m1 m2); [repeat sim_prim|apply (H w1 w2)] end. plain V.
  - intros v1 v2 V. same V. destruct (e_hms E (v_clock v2)) as [[h m] s].
    match goal with |- same_end _ _ (?m1 ?w1) (?m2 ?w2) => assert (H : sm m1 m2); [repeat sim_prim|apply (H w1 w2)] end. plain V.
Qed.
End L.

(* ---------- functions ---------- *)

(* in the body of a function whose parameter was undefined and is no loop
   variable *)
Definition loose (v : vm) : Prop :=
  cs_code (fn_cs (v_fn v)) <> None /\ fn_defined (v_fn v) = false /\ cs_code (v_cs v) = Some CDef /\
  (exists bc pid, c_bcode (v_def v) = Some bc /\ def_code (bc_inst bc) pid) /\
  (forall f, In f (v_for v) -> f_sym f <> fn_param (v_fn v)).
Notation strict := (alike False anyid o1 o2 e1 e2).
Notation lax := (alike True anyid o1 o2 e1 e2).
Notation wal := (alike True (fun _ => False) o1 o2 e1 e2).
Definition twin (v1 v2 : vm) : Prop := strict v1 v2 \/ (lax v1 v2 /\ loose v2).

Definition left_fn (v : vm) : vm :=
  set_fn (mkFn (mkCs None (cs_line (fn_cs (v_fn v))) (cs_pc (fn_cs (v_fn v)))) (fn_param (v_fn v)) (fn_defined (v_fn v)) (fn_val (v_fn v)))
    (set_cs (fn_cs (v_fn v)) v).
Definition restore_param (f : fnstate) : M unit :=
  let* ps := get_sym (fn_param f) in put_sym (fn_param f) (set_defined (set_val ps (VNum (fn_val f))) (fn_defined f)).
Lemma end_def_split v : end_def v =
  match cs_code (fn_cs (v_fn v)) with None => run_error RE_unexpected_end_def v | Some _ => restore_param (v_fn v) (left_fn v) end.
Proof. unfold end_def. unfold bind at 1, get at 1. destruct (cs_code (fn_cs (v_fn v))); reflexivity. Qed.
Lemma al_left L v1 v2 : alike L anyid o1 o2 e1 e2 v1 v2 -> strict (left_fn v1) (left_fn v2).
Proof.
  intros V. pose proof (al_fn _ _ _ _ _ _ _ _ V) as [FC _]. fields V. constructor; try assumption; try (cbn; congruence).
  - destruct Fimm as [Q | (A & B & D & F)]; [left; exact Q|right]. repeat split; try assumption. unfold elsewhere. cbn. discriminate.
  - destruct Fdef as [Q | (A & B & D & F)]; [left; exact Q|right]. repeat split; try assumption. unfold elsewhere. cbn. discriminate.
  - split; [cbn; congruence|]. cbn. intros X. destruct (X eq_refl).
Qed.
Lemma sim_end_def : sim False anyid o1 o2 e1 e2 end_def end_def.
Proof.
  intros v1 v2 V. rewrite !end_def_split.
  pose proof (al_fn _ _ _ _ _ _ _ _ V) as [FC FA]. rewrite FC. destruct (cs_code (fn_cs (v_fn v2))) as [r|] eqn:C; [|apply sim_error, V].
  destruct FA as (FP & FD & [FV | [[] _]]); [discriminate|]. unfold restore_param. rewrite FP, FD, FV.
  match goal with |- same_end _ _ (?m1 ?w1) (?m2 ?w2) => assert (H : sim False anyid o1 o2 e1 e2 m1 m2); [|apply (H w1 w2)] end.
  - apply sim_get_sym. intros s1 s2 S. apply sim_put_sym; [|reflexivity]. destruct S as (G & _). split; [exact G|]. split; [reflexivity|left; reflexivity].
  - apply (al_left False), V.
Qed.
Lemma end_def_lax st0 v1 v2 : kinded st0 v2 -> lax v1 v2 -> loose v2 -> same_end strict wal (end_def v1) (end_def v2).
Proof.
  intros KD V (A & D & _ & _ & NF). rewrite !end_def_split.
  pose proof (al_fn _ _ _ _ _ _ _ _ V) as [FC FA]. rewrite FC. specialize (FA A). destruct FA as (FP & FD & _).
  pose proof (al_left True v1 v2 V) as W. destruct (cs_code (fn_cs (v_fn v2))) as [r|] eqn:C; [|destruct (A eq_refl)].
  unfold restore_param. rewrite FP, FD, D. unfold bind, get_sym. change (v_st (left_fn v2)) with (v_st v2). change (v_st (left_fn v1)) with (v_st v1).
  destruct (symbol_at (v_st v2) (fn_param (v_fn v2))) as [s2|] eqn:E; [|left; reflexivity].
  destruct (al_st _ _ _ _ _ _ _ _ V _ _ E) as (s1 & E1 & S). rewrite E1.
  right. split; [reflexivity|]. cbn [fst snd put_sym modify]. change (v_st v1) with (v_st (left_fn v1)). change (v_st v2) with (v_st (left_fn v2)).
  assert (K : s_kind s2 = KVariable /\ s_type s2 = TNum).
  { destruct (kd_sym st0 v2 _ _ KD E) as [N _]. eapply kd_variable; [exact N|]. apply (kn_fn _ _ KD). congruence. }
  apply al_put_sym; [exact W| |right; intros f F _; exact (NF f F)].
  destruct S as (G & _). split; [exact G|]. split; [reflexivity|]. right. destruct K. repeat split; try assumption; eexists; reflexivity.
Qed.

Definition entered (d : def) (v : vm) : vm :=
  set_cs (mkCs (Some CDef) (def_line d) 0)
    (set_def (mkCode (if def_stored d then c_source (v_stored v) else None) (Some (def_bcode d)) None)
      (set_fn (mkFn (v_cs v) (fn_param (v_fn v)) (fn_defined (v_fn v)) (fn_val (v_fn v))) v)).
Definition call_tail (pid : symid) (ps : symbol) (n : N) : M unit :=
  let* x := pop in put_sym pid (define ps (VNum x)) ;;; modify (set_pc (N.to_nat n)).
Lemma call_def_split id n v : call_def id n v =
  match symbol_at (v_st v) id with
  | None => (Crash, v)
  | Some s =>
      if skind_eqb (s_kind s) KDef then
        if negb (s_defined s) then run_error (RE_fn_undefined (s_name s)) v else
        match val_def (s_val s) with
        | Some (Some d) =>
            match cs_code (fn_cs (v_fn v)) with
            | Some _ => run_error RE_fn_nested v
            | None =>
                if negb (n =? 1)%N then run_error (RE_fn_params (s_name s) n) v else
                match cur_bcode v with
                | None => (Crash, v)
                | Some bc =>
                    if Nat.leb (bc_used bc) (cs_pc (v_cs v) + N.to_nat n) then run_error (RE_fn_corrupt (s_name s)) v else
                    match nth_error (bc_inst (def_bcode d)) 1 with
                    | None => (Crash, entered d v)
                    | Some (I_PARAM pid) =>
                        match symbol_at (v_st v) pid with
                        | None => (Crash, entered d v)
                        | Some ps =>
                            if is_kind KVariable TNum ps then
                              match val_num (s_val ps) with
                              | None => (Crash, entered d v)
                              | Some old => call_tail pid ps n (set_fn (mkFn (v_cs v) pid (s_defined ps) old) (entered d v))
                              end
                            else (Crash, entered d v)
                        end
                    | Some _ => run_error RE_fn_param_expected (entered d v)
                    end
                end
            end
        | _ => (Crash, v)
        end
      else (Crash, v)
  end.
Proof.
  unfold call_def. unfold bind at 1, get_sym at 1. destruct (symbol_at (v_st v) id) as [s|]; [|reflexivity].
  unfold bind at 1, assert at 1. destruct (skind_eqb (s_kind s) KDef); [|reflexivity]. unfold ret at 1.
  destruct (negb (s_defined s)); [reflexivity|]. unfold bind at 1. destruct (val_def (s_val s)) as [[d|]|]; [|reflexivity|reflexivity].
  cbn [some_or_crash]. unfold ret at 1. unfold bind at 1. cbn [some_or_crash]. unfold ret at 1. unfold bind at 1, get at 1.
  destruct (cs_code (fn_cs (v_fn v))); [reflexivity|]. destruct (negb (n =? 1)%N); [reflexivity|].
  unfold bind at 1, get_bcode at 1. destruct (cur_bcode v) as [bc|]; [|reflexivity]. destruct (Nat.leb _ _); [reflexivity|].
  unfold bind at 1, modify at 1. unfold bind at 1, modify at 1. unfold bind at 1, modify at 1.
  destruct (nth_error (bc_inst (def_bcode d)) 1) as [i|]; [|reflexivity]. destruct i; try reflexivity.
  match goal with |- context [I_PARAM ?p] => set (pid := p) | _ => idtac end.
  unfold bind at 1, get_sym at 1. match goal with |- context [symbol_at (v_st ?u) ?p] => change (v_st u) with (v_st v); destruct (symbol_at (v_st v) p) as [ps|]; [|reflexivity] end.
  unfold bind at 1, assert at 1. destruct (is_kind KVariable TNum ps); [|reflexivity]. unfold ret at 1.
  unfold bind at 1. destruct (val_num (s_val ps)) as [old|]; [|reflexivity]. cbn [some_or_crash]. unfold ret at 1. unfold bind at 1, modify at 1. reflexivity.
Qed.
Lemma al_entered L d pid b x1 x2 v1 v2 : strict v1 v2 -> x1 = x2 \/ L /\ b = false ->
  alike L anyid o1 o2 e1 e2 (set_fn (mkFn (v_cs v1) pid b x1) (entered d v1)) (set_fn (mkFn (v_cs v2) pid b x2) (entered d v2)).
Proof.
  intros V X. fields V. constructor; try assumption; try reflexivity.
  - destruct Fimm as [Q | (A & B & D & F)]; [left; exact Q|right]. repeat split; try assumption. unfold elsewhere. cbn. discriminate.
  - left. cbn. rewrite Fstored. reflexivity.
  - split; [cbn; exact Fcs|]. intros _. cbn. auto.
Qed.
Lemma sim_call_tail L pid s1 s2 n : sym_alike s1 s2 -> sim L anyid o1 o2 e1 e2 (call_tail pid s1 n) (call_tail pid s2 n).
Proof. intros S. unfold call_tail. repeat sim_step. Qed.
Lemma call_nested L id n v1 v2 : alike L anyid o1 o2 e1 e2 v1 v2 -> cs_code (fn_cs (v_fn v2)) <> None ->
  fst (call_def id n v2) = Crash \/ exists e, call_def id n v1 = run_error e v1 /\ call_def id n v2 = run_error e v2.
Proof.
  intros V A. rewrite !call_def_split. destruct (symbol_at (v_st v2) id) as [s2|] eqn:E; [|left; reflexivity].
  destruct (al_st _ _ _ _ _ _ _ _ V _ _ E) as (s1 & E1 & S). rewrite E1. destruct (alike_fields _ _ S) as (Q1 & Q2 & _ & Q4 & _). rewrite Q1, Q2, Q4.
  destruct (skind_eqb (s_kind s2) KDef) eqn:K; [|left; reflexivity]. apply skind_eq in K.
  assert (Q : s_val s1 = s_val s2) by (destruct S as (_ & _ & [X | (_ & X & _)]); [exact X|congruence]). rewrite Q.
  destruct (negb (s_defined s2)); [right; eexists; split; reflexivity|].
  destruct (val_def (s_val s2)) as [[d|]|]; [|left; reflexivity|left; reflexivity].
  destruct (al_fn _ _ _ _ _ _ _ _ V) as [-> _]. destruct (cs_code (fn_cs (v_fn v2))); [right; eexists; split; reflexivity|destruct (A eq_refl)].
Qed.
Lemma call_strict st0 id n v1 v2 : kinded st0 v2 -> strict v1 v2 -> same_end twin wal (call_def id n v1) (call_def id n v2).
Proof.
  intros KD V. rewrite !call_def_split. destruct (symbol_at (v_st v2) id) as [s2|] eqn:E; [|left; reflexivity].
  destruct (al_st _ _ _ _ _ _ _ _ V _ _ E) as (s1 & E1 & S). rewrite E1. destruct (alike_fields _ _ S) as (Q1 & Q2 & _ & Q4 & _). rewrite Q1, Q2, Q4.
  destruct (skind_eqb (s_kind s2) KDef) eqn:K; [|left; reflexivity]. apply skind_eq in K.
  assert (Q : s_val s1 = s_val s2) by (destruct S as (_ & _ & [X | (_ & X & _)]); [exact X|congruence]). rewrite Q.
  assert (ERR : forall A e, same_end twin wal (@run_error A e v1) (run_error e v2)).
  { intros A e. destruct (sim_error False anyid o1 o2 e1 e2 (A := A) e v1 v2 V) as [X|[_ X]]; [left; exact X|right; split; [reflexivity|exact X]]. }
  destruct (negb (s_defined s2)); [apply ERR|].
  destruct (val_def (s_val s2)) as [[d|]|] eqn:VD; [|left; reflexivity|left; reflexivity].
  destruct (al_fn _ _ _ _ _ _ _ _ V) as [-> _]. destruct (cs_code (fn_cs (v_fn v2))); [apply ERR|].
  destruct (negb (n =? 1)%N); [apply ERR|]. rewrite (al_cur _ _ _ _ _ _ v1 v2 V). destruct (cur_bcode v2) as [bc|] eqn:CB; [|left; reflexivity].
  rewrite (al_cs _ _ _ _ _ _ _ _ V). destruct (Nat.leb _ _); [apply ERR|].
  destruct (kd_sym st0 v2 id s2 KD E) as [_ F]. unfold wfits in F. rewrite K in F.
  assert (VV : s_val s2 = VDef d) by (destruct (s_val s2); cbn [val_def] in VD; congruence). rewrite VV in F. destruct F as (_ & pid & DC).
  assert (PP : nth_error (bc_inst (def_bcode d)) 1 = Some (I_PARAM pid)) by (destruct DC as (? & ? & ? & -> & _); reflexivity). rewrite PP.
  destruct (symbol_at (v_st v2) pid) as [p2|] eqn:E2; [|left; reflexivity].
  destruct (al_st _ _ _ _ _ _ _ _ V _ _ E2) as (p1 & E21 & SP). rewrite E21. destruct (alike_fields _ _ SP) as (_ & _ & _ & R4 & R5). rewrite R5, R4.
  destruct (is_kind KVariable TNum p2) eqn:PK; [|left; reflexivity].
  assert (CASE : s_val p1 = s_val p2 \/ ((forall f, In f (v_for v2) -> f_sym f <> pid) /\ s_defined p2 = false /\ (exists x, val_num (s_val p1) = Some x) /\ exists y, val_num (s_val p2) = Some y)).
  { destruct SP as (_ & _ & [X | (X1 & _ & _ & X2 & X3)]); [left; exact X|]. 
    destruct (find_for (v_for v2) pid) as [si|] eqn:FF.
    - left. unfold find_for in FF. apply find_index_Some in FF as (f & FN & FE & _). apply N.eqb_eq in FE. subst pid.
      exact (al_loops _ _ _ _ _ _ _ _ V f p1 p2 (nth_error_In _ _ FN) I E21 E2).
    - right. split; [|auto]. intros f F. pose proof (proj1 (find_index_None _ _) FF f F) as Q0. apply N.eqb_neq, Q0. }
  destruct CASE as [X | (NF & D & (x & X1) & (y & X2))].
  - rewrite X. destruct (val_num (s_val p2)) as [old|]; [|left; reflexivity].
    pose proof (sim_call_tail False pid p1 p2 n SP _ _ (al_entered False d pid (s_defined p2) old old v1 v2 V (or_introl eq_refl))) as H.
    rewrite (al_cs _ _ _ _ _ _ _ _ V) in H. destruct H as [H | [H1 H2]]; [left; exact H|right]. split; [exact H1|].
    destruct (fst (call_tail pid p2 n _)); try exact H2. left. exact H2.
  - rewrite X1, X2, D.
    pose proof (sim_call_tail True pid p1 p2 n SP _ _ (al_entered True d pid false x y v1 v2 V (or_intror (conj I eq_refl)))) as H.
    rewrite (al_cs _ _ _ _ _ _ _ _ V) in H. destruct H as [H | [H1 H2]]; [left; exact H|right]. split; [exact H1|].
    assert (KP : keeps (fun w => (v_fn w, v_for w, v_def w, cs_code (v_cs w))) (call_tail pid p2 n)).
    { unfold call_tail. repeat keeps_more. }
    match goal with |- context [call_tail pid p2 n ?w] => specialize (KP w); set (u := w) in * end.
    destruct (call_tail pid p2 n u) as [r w]. cbn [fst snd] in *. destruct r; try exact H2. right. split; [exact H2|].
    injection KP as K1 K2 K3 K4. unfold loose. rewrite K1, K2, K3, K4. subst u. cbn. repeat split; try congruence; [| |exact NF].
    + unfold cur_bcode in CB. intros X. rewrite X in CB. discriminate CB.
    + exists (def_bcode d), pid. split; [reflexivity|exact DC].
Qed.

(* ---------- steps ---------- *)

Lemma def_code_current v i : (exists bc pid, c_bcode (v_def v) = Some bc /\ def_code (bc_inst bc) pid) -> cs_code (v_cs v) = Some CDef ->
  current v = Some i -> inner i = true \/ (exists id n, i = I_DEF id n) \/ (exists id, i = I_PARAM id) \/ i = I_END_DEF.
Proof.
  intros (bc & pid & B & (id & n & body & Q & BO)) C CU. unfold current, cur_bcode in CU. rewrite C in CU. cbn [code_of] in CU. rewrite B, Q in CU.
  destruct (cs_pc (v_cs v)) as [|[|pc]]; cbn [nth_error] in CU; [injection CU as <-; eauto|injection CU as <-; eauto|].
  destruct (Nat.lt_ge_cases pc (length body)) as [Y|Y].
  - rewrite nth_error_app1 in CU by exact Y. left. exact (Forall_nth _ _ _ _ BO CU).
  - rewrite nth_error_app2 in CU by exact Y. destruct (pc - length body) as [|[|q]]; cbn in CU; try discriminate CU. injection CU as <-. auto.
Qed.

Lemma same_end_r {A} (R1 R2 W : vm -> vm -> Prop) (r1 r2 : res A * vm) : (forall u1 u2, R1 u1 u2 -> R2 u1 u2) -> same_end R1 W r1 r2 -> same_end R2 W r1 r2.
Proof. intros H [C | [E X]]; [left; exact C|right; split; [exact E|]]. destruct (fst r2); auto. Qed.
Lemma twin_ret {A B} (m1 m2 : M A) (b : B) v1 v2 (R : vm -> vm -> Prop) : same_end R wal (m1 v1) (m2 v2) ->
  same_end R wal ((m1 ;;; ret b) v1) ((m2 ;;; ret b) v2).
Proof. intros H. eapply ends_chain; [exact H|]. intros _ w1 w2 _ _ W. right. split; [reflexivity|exact W]. Qed.

Lemma instr_strict st0 E i v1 v2 : kinded st0 v2 -> strict v1 v2 -> same_end twin wal (exec_instr E i v1) (exec_instr E i v2).
Proof.
  intros KD V. destruct (calls i) eqn:C.
  - assert (LL : forall u1 u2, strict u1 u2 -> twin u1 u2) by (intros; left; assumption).
    assert (PAREN : forall t id n (m : M unit), sim False anyid o1 o2 e1 e2 m m ->
      same_end twin wal ((let* s := get_sym id in assert (vtype_eqb (s_type s) t) ;;; adv (if skind_eqb (s_kind s) KArray then m else call_def id n)) v1)
                        ((let* s := get_sym id in assert (vtype_eqb (s_type s) t) ;;; adv (if skind_eqb (s_kind s) KArray then m else call_def id n)) v2)).
    { intros t id n m M. unfold bind at 1 3, get_sym. destruct (symbol_at (v_st v2) id) as [s2|] eqn:Q; [|left; reflexivity].
      destruct (al_st _ _ _ _ _ _ _ _ V _ _ Q) as (s1 & Q1 & S). rewrite Q1. destruct (alike_fields _ _ S) as (_ & -> & -> & _).
      unfold bind at 1 2, assert. destruct (vtype_eqb (s_type s2) t); [|left; reflexivity]. unfold ret at 1 2, adv. apply twin_ret.
      destruct (skind_eqb (s_kind s2) KArray); [|exact (call_strict st0 id n v1 v2 KD V)].
      eapply same_end_r; [exact LL|]. exact (M v1 v2 V). }
    destruct i; try discriminate C; cbn [exec_instr].
    + apply PAREN, sim_get_numeric_element.
    + apply PAREN, sim_get_string_element.
    + eapply same_end_r; [exact LL|]. unfold adv. apply twin_ret. exact (sim_end_def v1 v2 V).
  - eapply same_end_r; [|exact (sim_instr False E i C v1 v2 V)]. intros; left; assumption.
Qed.
Definition fixed (w : vm) := (v_fn w, v_for w, v_def w, cs_code (v_cs w)).
Lemma loose_fixed v w : fixed w = fixed v -> loose v -> loose w.
Proof. unfold fixed. intros H. injection H as H1 H2 H3 H4. unfold loose. rewrite H1, H2, H3, H4. auto. Qed.
Definition jumps (i : instr) : bool :=
  match i with
  | I_FOR _ | I_NEXT_VAR _ | I_NEXT_IMP | I_GOTO _ | I_GOTRUE _ | I_GOSUB _ | I_RETURN | I_ON_GOTO _ | I_ON_GOSUB _ => true
  | _ => false
  end.
Lemma inner_keeps E i : jumps i = false -> calls i = false -> keeps fixed (exec_instr E i).
Proof.
  intros H C. destruct i; try discriminate H; try discriminate C; clear H C; cbn [exec_instr]; repeat keeps_more.
Qed.
Lemma element_keeps id n : keeps fixed (get_numeric_element id n) /\ keeps fixed (get_string_element id n).
Proof. unfold fixed. split; repeat keeps_more. Qed.
Lemma lax_loose {A} (m : M A) v1 v2 : keeps fixed m -> loose v2 -> same_end lax wal (m v1) (m v2) -> same_end twin wal (m v1) (m v2).
Proof.
  intros K LO [C | [E X]]; [left; exact C|right; split; [exact E|]]. specialize (K v2). destruct (fst (m v2)); try exact X.
  right. split; [exact X|]. exact (loose_fixed _ _ K LO).
Qed.
Lemma instr_loose st0 E i v1 v2 : kinded st0 v2 -> lax v1 v2 -> loose v2 -> current v2 = Some i -> same_end twin wal (exec_instr E i v1) (exec_instr E i v2).
Proof.
  intros KD V LO CU. pose proof LO as (A & _ & CS & CO & _). destruct (def_code_current v2 i CO CS CU) as [J | J].
  2: destruct J as [(id & n & ->) | [(id & ->) | ->]].
  4: { cbn [exec_instr]. unfold adv. apply twin_ret. eapply same_end_r; [|exact (end_def_lax st0 v1 v2 KD V LO)]. intros; left; assumption. }
  2, 3: apply lax_loose; [apply inner_keeps; reflexivity|exact LO|refine (sim_instr True E _ _ v1 v2 V); reflexivity].
  assert (NJ : jumps i = false) by (destruct i; try reflexivity; discriminate J).
  destruct (calls i) eqn:C; [|apply lax_loose; [apply inner_keeps; assumption|exact LO|exact (sim_instr True E _ C v1 v2 V)]].
  assert (PAREN : forall t id n (m : M unit), sim True anyid o1 o2 e1 e2 m m -> keeps fixed m ->
      same_end twin wal ((let* s := get_sym id in assert (vtype_eqb (s_type s) t) ;;; adv (if skind_eqb (s_kind s) KArray then m else call_def id n)) v1)
                        ((let* s := get_sym id in assert (vtype_eqb (s_type s) t) ;;; adv (if skind_eqb (s_kind s) KArray then m else call_def id n)) v2)).
  { intros t id n m M KM. unfold bind at 1 3, get_sym. destruct (symbol_at (v_st v2) id) as [s2|] eqn:Q; [|left; reflexivity].
    destruct (al_st _ _ _ _ _ _ _ _ V _ _ Q) as (s1 & Q1 & S). rewrite Q1. destruct (alike_fields _ _ S) as (_ & -> & -> & _).
    unfold bind at 1 2, assert. destruct (vtype_eqb (s_type s2) t); [|left; reflexivity]. unfold ret at 1 2, adv. apply twin_ret.
    destruct (skind_eqb (s_kind s2) KArray); [apply lax_loose; [exact KM|exact LO|exact (M v1 v2 V)]|].
    destruct (call_nested True id n v1 v2 V A) as [X | (e & -> & ->)]; [left; exact X|].
    destruct (sim_error True anyid o1 o2 e1 e2 (A := unit) e v1 v2 V) as [X|[_ X]]; [left; exact X|right; split; [reflexivity|exact X]]. }
  destruct i; try discriminate C; try discriminate J; cbn [exec_instr].
  - apply PAREN; [apply sim_get_numeric_element|apply element_keeps; exact 0%N].
  - apply PAREN; [apply sim_get_string_element|apply element_keeps; exact 0%N].
Qed.

Lemma twin_weak v1 v2 : twin v1 v2 -> wal v1 v2.
Proof. intros [V | [V _]]; exact (al_weak _ _ _ _ _ _ _ _ V). Qed.
Lemma twin_current v1 v2 : twin v1 v2 -> current v1 = current v2.
Proof.
  intros T. apply twin_weak in T. unfold current. rewrite (al_cur _ _ _ _ _ _ _ _ T), (al_cs _ _ _ _ _ _ _ _ T). reflexivity.
Qed.
Lemma twin_set_pc v1 v2 n : twin v1 v2 -> twin (set_pc n v1) (set_pc n v2).
Proof.
  intros [V | [V LO]]; [left; apply al_set_pc, V|right; split; [apply al_set_pc, V|]]. eapply loose_fixed; [|exact LO]. reflexivity.
Qed.
Lemma twin_execute st0 E v1 v2 : kinded st0 v2 -> twin v1 v2 -> same_end twin wal (execute E v1) (execute E v2).
Proof.
  intros KD T. pose proof (twin_current _ _ T) as CC. destruct (current v2) as [i|] eqn:C.
  - rewrite (execute_eq E v2 i C), (execute_eq E v1 i CC).
    assert (H : same_end twin wal (exec_instr E i v1) (exec_instr E i v2)).
    { destruct T as [V | [V LO]]; [exact (instr_strict st0 E i v1 v2 KD V)|exact (instr_loose st0 E i v1 v2 KD V LO C)]. }
    destruct (exec_instr E i v1) as [r1 w1], (exec_instr E i v2) as [r2 w2]. destruct H as [H | [H1 H2]]; cbn [fst snd] in *; subst.
    + left. reflexivity.
    + destruct r2 as [[]|e| |]; cbn [finish]; try (right; split; [reflexivity|exact H2]).
      right. split; [reflexivity|]. cbn [fst snd]. pose proof (twin_weak _ _ H2) as W. rewrite (al_cs _ _ _ _ _ _ _ _ W). apply twin_set_pc, H2.
  - left. rewrite (execute_none E v2 C). reflexivity.
Qed.

Lemma twin_run_loop st0 E fuel : forall brk v1 v2, kinded st0 v2 -> twin v1 v2 ->
  let '(r1, b1, w1) := run_loop E fuel brk v1 in let '(r2, b2, w2) := run_loop E fuel brk v2 in
  r2 = Crash \/ (r1 = r2 /\ b1 = b2 /\ wal w1 w2 /\ (r2 = Ok tt -> twin w1 w2)).
Proof.
  induction fuel as [|f IH]; intros brk v1 v2 KD T; pose proof (twin_weak _ _ T) as W; cbn [run_loop];
    rewrite (al_cur _ _ _ _ _ _ _ _ W), (al_cs _ _ _ _ _ _ _ _ W), (al_stopped _ _ _ _ _ _ _ _ W);
    (destruct (cur_bcode v2) as [bc|]; [|left; reflexivity]); (destruct (_ && _); [|right; auto]).
  - right. split; [reflexivity|split; [reflexivity|split; [exact W|discriminate]]].
  - pose proof (twin_execute st0 E v1 v2 KD T) as H. pose proof (kd_execute st0 E v2 KD) as KK.
    destruct (execute E v1) as [r1 w1], (execute E v2) as [r2 w2]. destruct H as [H | [H1 H2]]; cbn [fst snd] in *; subst.
    + destruct r1; try (left; reflexivity). destruct (run_loop E f (tick brk) w1) as [[? ?] ?]. left. reflexivity.
    + destruct r2 as [u|e| |]; [apply IH; [exact KK|exact H2]|right; split; [reflexivity|split; [reflexivity|split; [exact H2|discriminate]]]|left; reflexivity|right; split; [reflexivity|split; [reflexivity|split; [exact H2|discriminate]]]].
Qed.
End Instr.

Lemma al_stop0 L P o1 o2 e1 e2 b v1 v2 : alike L P o1 o2 e1 e2 v1 v2 -> alike L P o1 o2 e1 e2 (set_stopped b v1) (set_stopped b v2).
Proof. intros V. plain V. Qed.
(* Runs of machines that are alike end the same, after the same output. *)
Theorem twin_run st0 E fuel brk o1 o2 e1 e2 v1 v2 : kinded st0 v2 -> twin o1 o2 e1 e2 v1 v2 ->
  let '(r1, w1) := run E fuel brk v1 in let '(r2, w2) := run E fuel brk v2 in
  r2 = Crash \/ (r1 = r2 /\ alike True (fun _ => False) o1 o2 e1 e2 w1 w2).
Proof.
  intros KD T. unfold run. pose proof (twin_weak _ _ _ _ _ _ T) as W. rewrite (al_cs _ _ _ _ _ _ _ _ W).
  destruct (cs_code (v_cs v2)); [|left; reflexivity].
  assert (T0 : twin o1 o2 e1 e2 (set_stopped false v1) (set_stopped false v2)).
  { destruct T as [V | [V LO]]; [left; plain V|right; split; [plain V|]]. eapply loose_fixed; [|exact LO]. reflexivity. }
  assert (K0 : kinded st0 (set_stopped false v2)) by (apply kd_keeps_set; [repeat keeps_more|exact KD]).
  pose proof (twin_run_loop o1 o2 e1 e2 st0 E fuel brk _ _ K0 T0) as H.
  destruct (run_loop E fuel brk (set_stopped false v1)) as [[r1 b1] w1], (run_loop E fuel brk (set_stopped false v2)) as [[r2 b2] w2].
  destruct H as [-> | (-> & -> & X & _)]; [match goal with |- let '(_, _) := ?x in _ => destruct x as [q1 u1] end; left; reflexivity|].
  assert (REP : let '(q1, u1) := run_report b2 w1 in let '(q2, u2) := run_report b2 w2 in
    q2 = Crash \/ (q1 = q2 /\ alike True (fun _ => False) o1 o2 e1 e2 u1 u2)).
  { unfold run_report. destruct (interrupted b2); [right; split; [reflexivity|apply put_alike, X]|].
    rewrite (al_stopped _ _ _ _ _ _ _ _ X), (al_cs _ _ _ _ _ _ _ _ X). destruct (v_stopped w2); [|right; auto].
    destruct (cs_code (v_cs w2)) as [r|] eqn:C; [|left; reflexivity]. rewrite (al_code _ _ _ _ _ _ w1 w2 r X C). right. split; [reflexivity|apply put_alike, X]. }
  assert (FIN : forall u1 u2, alike True (fun _ => False) o1 o2 e1 e2 u1 u2 -> alike True (fun _ => False) o1 o2 e1 e2 (run_stop_state b2 u1) (run_stop_state b2 u2)).
  { intros u1 u2 U. unfold run_stop_state. rewrite (al_cs _ _ _ _ _ _ _ _ U), (al_stopped _ _ _ _ _ _ _ _ U).
    destruct (cs_code (v_cs u2)) as [[]|]; try exact U. destruct (_ || _); plain U. }
  destruct r2; [| |left; reflexivity|right; auto].
  all: destruct (run_report b2 w1) as [q1 u1], (run_report b2 w2) as [q2 u2]; destruct REP as [-> | [-> U]]; [match goal with |- let '(_, _) := ?x in _ => destruct x as [q3 u3] end; left; reflexivity|].
  all: destruct q2; right; auto.
Qed.
