(* The machine computes the values of expressions (C23, C17). *)
From Coq Require Import Lia ZifyBool ZifyNat ZifyN SpecFloat.
From Verif Require Import Base BaseLemmas Num NumSpec NumLemmas DoubleProofs QuotientProofs ArrayModel ArraySpec ArrayProofs BcodeModel SymbolModel VmModel
  VmLemmas VmSpec ControlProofs OpSpec OpProofs VmTyping ValueSpec ValueProofs StoreSpec StoreProofs StoreFrames FnSpec FnProofs GrammarSpec TypeSpec CodeProofs EvalSpec EvalOps ErrSpec BlameProofs.
Local Open Scope nat_scope.
Local Notation num := Num.num.
Local Notation named := StoreSpec.named.

(* ---------- code ---------- *)

Lemma hd_skipn {A} (l : list A) : forall n, hd_error (skipn n l) = nth_error l n.
Proof. induction l as [|a l IH]; intros [|n]; cbn [skipn nth_error hd_error]; try reflexivity. apply IH. Qed.
Lemma current_here v : current v = hd_error (code_here v).
Proof. unfold current, code_here. destruct (cur_bcode v); [|reflexivity]. symmetry. apply hd_skipn. Qed.
Lemma skipn_skipn' {A} (l : list A) : forall n k, skipn n (skipn k l) = skipn (k + n) l.
Proof. induction l as [|a l IH]; intros n [|k]; cbn [skipn Nat.add]; try reflexivity; [destruct n; reflexivity|apply IH]. Qed.
Lemma code_moved v w n : v_cs w = place_after v n -> cur_bcode w = cur_bcode v -> code_here w = skipn n (code_here v).
Proof.
  intros C B. unfold code_here. rewrite B, C. destruct (cur_bcode v); [|destruct n; reflexivity]. cbn [place_after cs_pc]. rewrite skipn_skipn'. reflexivity.
Qed.
Lemma code_rest v w l r : v_cs w = place_after v (length l) -> cur_bcode w = cur_bcode v -> code_here v = l ++ r -> code_here w = r.
Proof. intros C B H. rewrite (code_moved v w _ C B), H, skipn_app, skipn_all, Nat.sub_diag. reflexivity. Qed.
Lemma here_length v a r : code_here v = a :: r -> exists bc, cur_bcode v = Some bc /\ length (bc_inst bc) = cs_pc (v_cs v) + S (length r).
Proof.
  unfold code_here. destruct (cur_bcode v) as [bc|]; [|discriminate]. intros H. exists bc. split; [reflexivity|].
  pose proof (skipn_length (cs_pc (v_cs v)) (bc_inst bc)) as L. rewrite H in L. cbn [length] in L. lia.
Qed.

Lemma Forall2_len {A B} (P : A -> B -> Prop) l m : Forall2 P l m -> length l = length m.
Proof. induction 1; cbn; congruence. Qed.

(* ---------- runs ---------- *)

Lemma runs_app E v l w k u : runs E v l w -> runs E w k u -> runs E v (l ++ k) u.
Proof. induction 1 as [|v v1 l v' X R IH]; intros H; [exact H|]. cbn [app]. econstructor; [exact X|apply IH, H]. Qed.
Lemma runs_one E v w : execute E v = (Ok tt, w) -> runs E v [v] w.
Proof. intros H. econstructor; [exact H|constructor]. Qed.
Lemma overflows_after E v l w : runs E v l w -> v_stopped w = v_stopped v -> overflows E w -> overflows E v.
Proof.
  intros R S (k & u & z & e & R' & X & S' & O). exists (l ++ k), u, z, e. split; [exact (runs_app _ _ _ _ _ _ R R')|]. split; [exact X|]. split; [congruence|exact O].
Qed.
Lemma runs_stopped E v l w : runs E v l w -> v_stopped w = false -> Forall (fun u => v_stopped u = false) l /\ v_stopped v = false.
Proof.
  induction 1 as [v|v v1 l v' X R IH]; intros S; [auto|]. destruct (IH S) as [F S1].
  assert (S0 : v_stopped v = false).
  { destruct (current v) as [i|] eqn:C; [|rewrite (execute_none E v C) in X; discriminate X]. destruct (match i with I_STOP => true | _ => false end) eqn:D.
    - destruct i; try discriminate D. rewrite (execute_eq E v _ C) in X. apply (f_equal snd) in X. cbn [snd] in X. rewrite <- X in S1. discriminate S1.
    - pose proof (execute_keeps v_stopped E v i C (fun _ _ => eq_refl) (exec_keeps_stopped E i D)) as K. rewrite X in K. cbn [snd] in K. congruence. }
  auto.
Qed.
Lemma untouched_stopped v w : untouched w = untouched v -> v_stopped w = v_stopped v.
Proof. intros H. unfold untouched in H. congruence. Qed.
Lemma failed_stopped E v e w : execute E v = (Fail e, w) -> v_stopped w = v_stopped v.
Proof.
  intros X. destruct (current v) as [i|] eqn:C.
  - destruct (match i with I_STOP => true | _ => false end) eqn:D.
    + destruct i; try discriminate D. rewrite (execute_eq E v _ C) in X. cbn [exec_instr] in X. discriminate X.
    + pose proof (execute_keeps v_stopped E v i C (fun _ _ => eq_refl) (exec_keeps_stopped E i D)) as K. rewrite X in K. exact K.
  - rewrite (execute_none E v C) in X. discriminate X.
Qed.

(* ---------- what is not touched ---------- *)

Lemma exec_untouched E i : exprop i = true \/ i = I_END_DEF -> keeps untouched (exec_instr E i).
Proof. intros H. destruct i; try (destruct H as [H|H]; discriminate H); clear H; cbn [exec_instr]; repeat keeps_more. Qed.
Lemma execute_untouched E v i : current v = Some i -> exprop i = true \/ i = I_END_DEF -> untouched (snd (execute E v)) = untouched v.
Proof. intros C H. apply (execute_keeps untouched E v i C (fun _ _ => eq_refl)). exact (exec_untouched E i H). Qed.

(* ---------- memory ---------- *)

Lemma holds_same v w m : v_st w = v_st v -> v_seed w = v_seed v -> v_randk w = v_randk v -> v_clock w = v_clock v -> holds v m -> holds w m.
Proof.
  intros S1 S2 S3 S4 [A B C D F G H]. unfold StoreSpec.named, variable, bounds, element, function in *. constructor; unfold StoreSpec.named, variable, bounds, element, function; rewrite ?S1, ?S2, ?S3, ?S4; assumption.
Qed.
Lemma named_kind g v id k t : typed g v -> named v id k t -> sg_kind g id k (vtype_of t).
Proof.
  intros T (s & H & K & Y). pose proof (typed_sig g v id s T H) as G. unfold sig_of in G. rewrite K, Y in G. exists (s_name s), (s_id s). exact G.
Qed.
Lemma kind_named g v id k t : typed g v -> sg_kind g id k (vtype_of t) -> named v id k t.
Proof.
  intros T (nm & i & G). rewrite <- (ty_sigs g v T) in G. unfold sigs in G. rewrite nth_error_map in G. destruct (nth_error _ _) as [s|] eqn:H; [|discriminate G].
  cbn in G. unfold sig_of in G. injection G as _ _ K Y. exists s. auto.
Qed.
Lemma named_same g v w id k t : typed g v -> typed g w -> named w id k t -> named v id k t.
Proof. intros T T' H. apply (kind_named g v _ _ _ T), (named_kind g w _ _ _ T' H). Qed.
Lemma named_unique v id k t k' t' : named v id k t -> named v id k' t' -> k = k' /\ t = t'.
Proof. intros (s & H & K & Y) (s' & H' & K' & Y'). rewrite H in H'. injection H' as <-. split; [congruence|]. destruct t, t'; cbn in *; congruence. Qed.
Lemma names_same g v w id s : typed g v -> typed g w -> symbol_at (v_st w) id = Some s -> exists s', symbol_at (v_st v) id = Some s' /\ s_name s' = s_name s.
Proof.
  intros T T' H. pose proof (typed_sig g w id s T' H) as G. rewrite <- (ty_sigs g v T) in G. unfold sigs in G. rewrite nth_error_map in G.
  unfold symbol_at. destruct (nth_error _ _) as [s'|]; [|discriminate G]. cbn in G. unfold sig_of in G. injection G as G _ _ _. eauto.
Qed.
(* one name may hold something else *)
Lemma holds_change g id v w m m' : typed g v -> typed g w -> (forall j, j <> id -> symbol_at (v_st w) j = symbol_at (v_st v) j) ->
  v_seed w = m_seed m' -> v_randk w = m_drawn m' -> v_clock w = m_clock m' -> m_name m' = m_name m ->
  (forall j, j <> id -> m_var m' j = m_var m j /\ m_obj m' j = m_obj m j) -> holds v m ->
  (forall t, named w id KVariable t -> variable w t id = m_var m' id) ->
  (forall t, named w id KArray t -> match m_obj m' id with
    | Array None => bounds w id = None
    | Array (Some (b, f)) => bounds w id = Some b /\ forall idx, element w t id idx = f idx
    | Function _ => False end) ->
  (forall t, named w id KDef t -> match m_obj m' id with
    | Function None => function w id = None
    | Function (Some (p, e)) => exists d, function w id = Some d /\ body d = definition id p e /\ etype e = vtype_of t
    | Array _ => False end) -> holds w m'.
Proof.
  intros T T' O S1 S2 S3 NM MO [A B C D _ _ _] H1 H2 H3. constructor; try assumption.
  - intros j t N. destruct (N.eq_dec j id) as [->|J]; [apply H1, N|]. rewrite (proj1 (MO j J)), <- (A j t (named_same g v w j _ _ T T' N)).
    unfold variable. rewrite (O j J). reflexivity.
  - intros j t N. destruct (N.eq_dec j id) as [->|J]; [apply H2, N|]. rewrite (proj2 (MO j J)). pose proof (B j t (named_same g v w j _ _ T T' N)) as X.
    unfold bounds, element in *. rewrite (O j J). exact X.
  - intros j t N. destruct (N.eq_dec j id) as [->|J]; [apply H3, N|]. rewrite (proj2 (MO j J)). pose proof (C j t (named_same g v w j _ _ T T' N)) as X.
    unfold function in *. rewrite (O j J). exact X.
  - intros j s H. rewrite NM. destruct (names_same g v w j s T T' H) as (s' & H' & Q). rewrite (D j s' H'). exact Q.
Qed.
Lemma at_same {A} (f : symid -> A) id a : at_id f id a id = a.
Proof. unfold at_id. rewrite N.eqb_refl. reflexivity. Qed.
Lemma at_other {A} (f : symid -> A) id a j : j <> id -> at_id f id a j = f j.
Proof. intros H. unfold at_id. destruct (N.eqb_spec j id); [contradiction|reflexivity]. Qed.

Section Machine.
Variables (E : env) (g : list sig).
Hypothesis EO : env_ok E.
Hypothesis RR : rand_range E.

Local Notation fit := (EvalSpec.fit g).
Local Notation functions_ok := (EvalSpec.functions_ok g).
(* w is v after n instructions of an expression, with the stacks p *)
Record after (v : vm) (n : nat) (p : list num * list bytes) (m : memory) (w : vm) : Prop := {
  a_cs : v_cs w = place_after v n;
  a_code : cur_bcode w = cur_bcode v;
  a_stacks : stacks w = p;
  a_holds : holds w m;
  a_fn : in_function w <-> in_function v;
  a_rest : untouched w = untouched v;
  a_fit : fit w;
  a_funs : functions_ok m;
  a_yet : forall id, assigned_yet v id = true -> assigned_yet w id = true;
  a_shown : shown_line w = shown_line v;
  a_defs : defs_kept v w
}.
Lemma after_trans v n p m u k q m' w : after v n p m u -> after u k q m' w -> after v (n + k) q m' w.
Proof.
  intros [A1 A2 A3 A4 A5 A6 A7 A8 A9 A10 A11] [B1 B2 B3 B4 B5 B6 B7 B8 B9 B10 B11]. constructor; try assumption; try congruence.
  - rewrite B1. unfold place_after. rewrite A1. cbn. f_equal. lia.
  - tauto.
  - intros id H. apply B9, A9, H.
  - intros ok H. apply B11, A11, H.
Qed.
Lemma after_code v p m w l r : after v (length l) p m w -> code_here v = l ++ r -> code_here w = r.
Proof. intros A. exact (code_rest v w l r (a_cs _ _ _ _ _ A) (a_code _ _ _ _ _ A)). Qed.
Lemma after_none v m : fit v -> holds v m -> functions_ok m -> after v 0 (stacks v) m v.
Proof. intros F H O. constructor; auto; try reflexivity; [|intros ok X; exact X]. unfold place_after. rewrite Nat.add_0_r. destruct (v_cs v); reflexivity. Qed.

Definition quiet (v : vm) (l : list vm) : Prop := in_function v -> Forall (fun u => current u <> Some I_END_DEF) l.
Definition comes {A} (v : vm) (P : A -> memory -> vm -> Prop) (a : answer A) : Prop :=
  match a with
  | Value x m => overflows E v \/ exists l w, runs E v l w /\ P x m w /\ quiet v l
  | Error e m => overflows E v \/ exists l u w, runs E v l u /\ execute E u = (Fail e, w) /\ holds w m /\ untouched w = untouched v /\ blame v w
  | Undefined => True
  end.
Lemma comes_over {A} v P (a : answer A) : overflows E v -> comes v P a.
Proof. intros H. destruct a; cbn; auto. Qed.
Lemma comes_more {A} v (P Q : A -> memory -> vm -> Prop) a : comes v P a -> (forall x m w, a = Value x m -> P x m w -> Q x m w) -> comes v Q a.
Proof.
  intros C H. destruct a as [x m|e m|]; [|exact C|exact I]. destruct C as [C|(l & w & R & X & Y)]; [left; exact C|right; exists l, w]. auto.
Qed.
Lemma untouched_stored v w : untouched w = untouched v -> v_stored w = v_stored v.
Proof. intros U. injection U as U _. exact U. Qed.
Lemma comes_after {A} v l w (P : A -> memory -> vm -> Prop) a : runs E v l w -> quiet v l -> (in_function v -> in_function w) -> untouched w = untouched v ->
  shown_line w = shown_line v -> defs_kept v w -> comes w P a -> comes v P a.
Proof.
  intros R Y F U SH DK C. destruct a as [x m|e m|]; [| |exact I].
  - destruct C as [C|(k & z & R' & X & Y')]; [left; exact (overflows_after E v l w R (untouched_stopped _ _ U) C)|]. right. exists (l ++ k), z.
    split; [exact (runs_app _ _ _ _ _ _ R R')|]. split; [exact X|]. intros H. apply Forall_app. split; [exact (Y H)|exact (Y' (F H))].
  - destruct C as [C|(k & u & z & R' & X & H & U' & BL)]; [left; exact (overflows_after E v l w R (untouched_stopped _ _ U) C)|]. right. exists (l ++ k), u, z.
    split; [exact (runs_app _ _ _ _ _ _ R R')|]. split; [exact X|]. split; [exact H|]. split; [congruence|exact (blame_after v w z SH (untouched_stored _ _ U) DK BL)].
Qed.
Lemma comes_bind {A B} v (P : A -> memory -> vm -> Prop) (Q : B -> memory -> vm -> Prop) a k : comes v P a ->
  (forall x m w, a = Value x m -> P x m w -> (in_function v -> in_function w) /\ untouched w = untouched v /\ shown_line w = shown_line v /\ defs_kept v w) ->
  (forall x m w, a = Value x m -> P x m w -> comes w Q (k x m)) -> comes v Q (and_then a k).
Proof.
  intros C H1 H2. destruct a as [x m|e m|]; [|exact C|exact I]. cbn [and_then].
  destruct C as [C|(l & w & R & X & Y)]; [apply comes_over, C|]. destruct (H1 x m w eq_refl X) as (F & U & SH & DK).
  exact (comes_after v l w Q _ R Y F U SH DK (H2 x m w eq_refl X)).
Qed.

(* ---------- one instruction ---------- *)

Lemma push_step v i d u : current v = Some i -> exec_instr E i v = adv (push_d d) u -> v_cs u = v_cs v ->
  length (v_stack u) <= length (v_stack v) -> length (v_sstack u) <= length (v_sstack v) ->
  overflows E v \/ execute E v = (Ok tt, set_cs (place_after v 1) (push_datum d u)).
Proof.
  intros C X Cs L1 L2. destruct d as [x|s]; cbn [push_d push_datum] in *.
  - destruct (Nat.ltb_spec (length (v_stack u)) 16) as [L|L].
    + right. rewrite (execute_eq E v i C), X, (adv_ok _ _ _ (push_room x u L)). cbn [finish]. rewrite (set_pc_place v) by exact Cs. reflexivity.
    + left. assert (X' : exists w, execute E v = (Fail RE_num_overflow, w)).
      { eexists. rewrite (execute_eq E v i C), X. unfold adv, bind, push. change MAX_NUM_STACK with 16. destruct (Nat.leb_spec 16 (length (v_stack u))); [reflexivity|lia]. }
      destruct X' as (w & X'). exists [], v, w, RE_num_overflow. split; [constructor|]. split; [exact X'|]. split; [exact (failed_stopped E v _ w X')|]. left. split; [reflexivity|lia].
  - destruct (Nat.ltb_spec (length (v_sstack u)) 8) as [L|L].
    + right. rewrite (execute_eq E v i C), X, (adv_ok _ _ _ (push_str_room s u L)). cbn [finish]. rewrite (set_pc_place v) by exact Cs. reflexivity.
    + left. assert (X' : exists w, execute E v = (Fail RE_str_overflow, w)).
      { eexists. rewrite (execute_eq E v i C), X. unfold adv, bind, push_str. change MAX_STR_STACK with 8. destruct (Nat.leb_spec 8 (length (v_sstack u))); [reflexivity|lia]. }
      destruct X' as (w & X'). exists [], v, w, RE_str_overflow. split; [constructor|]. split; [exact X'|]. split; [exact (failed_stopped E v _ w X')|]. right. split; [reflexivity|lia].
Qed.

Lemma arrays_same v w : v_st w = v_st v -> arrays_ok v -> arrays_ok w.
Proof. unfold arrays_ok. intros ->. auto. Qed.
Lemma fit_step v w : fit v -> execute E v = (Ok tt, w) -> arrays_ok w -> fit w.
Proof.
  intros [T V A] X A'. pose proof (typed_execute g E v T) as T'. pose proof (vo_execute E v EO V) as V'. rewrite X in T', V'. constructor; assumption.
Qed.
Lemma exprop_def i : exprop i = true -> forall id n, i <> I_DEF id n.
Proof. intros H id n ->. discriminate H. Qed.
Lemma exprop_quiet i : exprop i = true -> i <> I_END_DEF.
Proof. intros H ->. discriminate H. Qed.

Lemma step_push v i d u m b : fit v -> current v = Some i -> exprop i = true -> exec_instr E i v = adv (push_d d) u ->
  v_cs u = v_cs v -> cur_bcode u = cur_bcode v -> v_fn u = v_fn v -> stacks u = b ->
  length (fst b) <= length (v_stack v) -> length (snd b) <= length (v_sstack v) -> holds u m -> arrays_ok u -> functions_ok m ->
  (forall id, assigned_yet v id = true -> assigned_yet u id = true) -> shown_line u = shown_line v ->
  comes v (fun x m' w => x = d /\ after v 1 (push_on b d) m' w) (Value d m).
Proof.
  intros F C XO X Cs Cb Fn <- L1 L2 H A O YT SH. cbn [fst snd stacks] in L1, L2. destruct (push_step v i d u C X Cs L1 L2) as [OV|R]; [left; exact OV|]. right.
  set (w := set_cs _ _) in R. exists [v], w. split; [apply runs_one, R|]. assert (ST : v_st w = v_st u) by (subst w; destruct d; reflexivity).
  split; [split; [reflexivity|]|].
  - constructor.
    + reflexivity.
    + rewrite <- Cb. unfold cur_bcode, w. destruct d; cbn [v_cs set_cs place_after cs_code push_datum]; rewrite Cs; reflexivity.
    + subst w. destruct d; reflexivity.
    + subst w. apply (holds_same u); try (destruct d; reflexivity). exact H.
    + unfold in_function. rewrite <- Fn. subst w. destruct d; reflexivity.
    + pose proof (execute_untouched E v i C (or_introl XO)) as U. rewrite R in U. exact U.
    + apply (fit_step v w F R). exact (arrays_same u w ST A).
    + exact O.
    + unfold assigned_yet. rewrite ST. exact YT.
    + rewrite <- SH. unfold shown_line, w. destruct d; cbn [v_cs set_cs place_after cs_code cs_line push_datum]; rewrite Cs; reflexivity.
    + intros ok FD. pose proof (fd_execute ok E v i C (exprop_def i XO) FD) as D. rewrite R in D. exact D.
  - intros _. repeat constructor. rewrite C. intros Q. injection Q as Q. exact (exprop_quiet i XO Q).
Qed.
Definition calls (i : instr) : bool := match i with I_GET_PAREN_NUM _ _ | I_GET_PAREN_STR _ _ => true | _ => false end.
Lemma exec_standing i : exprop i = true -> calls i = false -> keeps standing (exec_instr E i).
Proof. intros X Y. destruct i; try discriminate X; try discriminate Y; cbn [exec_instr]; repeat keeps_more. Qed.
Lemma step_shown v i e w : current v = Some i -> exprop i = true -> inner_error e = false \/ calls i = false -> execute E v = (Fail e, w) -> shown_line w = shown_line v.
Proof.
  intros C XO [IE|NC] X; [exact (failed_shown E v e w X IE)|]. apply standing_shown.
  pose proof (execute_keeps standing E v i C (fun _ _ => eq_refl) (exec_standing i XO NC)) as K. rewrite X in K. exact K.
Qed.
Lemma step_fail {A} v i e m (P : A -> memory -> vm -> Prop) : current v = Some i -> exprop i = true -> touches_rand i = false -> holds v m -> inner_error e = false \/ calls i = false ->
  (exists w, execute E v = (Fail e, w) /\ v_st w = v_st v) -> comes v P (Error e m).
Proof.
  intros C XO TR H IE (w & X & S). right. exists [], v, w. split; [constructor|]. split; [exact X|]. split.
  - pose proof (execute_keeps (fun v => (v_seed v, v_randk v, v_clock v)) E v i C (fun _ _ => eq_refl) (exec_keeps_rand E i TR)) as R. rewrite X in R. cbn [snd] in R. injection R as R1 R2 R3. exact (holds_same v w m S R1 R2 R3 H).
  - split; [|left; exact (step_shown v i e w C XO IE X)]. pose proof (execute_untouched E v i C (or_introl XO)) as U. rewrite X in U. exact U.
Qed.
Lemma raises_fail v e : raises E v e -> exists w, execute E v = (Fail e, w) /\ v_st w = v_st v.
Proof. intros (w & X & S & _). eauto. Qed.

Lemma pushes_length ds : forall b, length (fst b) <= length (fst (pushes ds b)) /\ length (snd b) <= length (snd (pushes ds b)).
Proof.
  induction ds as [|d ds IH]; intros b; [split; reflexivity|]. cbn. destruct (IH (push_on b d)) as [A B]. unfold pushes in *.
  destruct d; cbn [push_on fst snd length] in *; lia.
Qed.
Lemma with_stacks_eq b v : stacks (with_stacks b v) = b.
Proof. destruct b; reflexivity. Qed.
Lemma fit_data v ds b : fit v -> stacks v = pushes ds b -> Forall datum_ok ds.
Proof. intros F S. destruct (stacks_eq _ _ S) as [S1 S2]. apply (pushes_ok ds b); [rewrite <- S1|rewrite <- S2]; apply F. Qed.

(* an operation on the values on the stacks *)
Lemma comes_op v i ds r b m : fit v -> current v = Some i -> exprop i = true -> touches_rand i = false -> calls i = false -> op_does E i ds r -> stacks v = pushes ds b ->
  holds v m -> functions_ok m -> comes v (fun d m' w => r = Gives d /\ after v 1 (push_on b d) m' w) (answer_of r m).
Proof.
  intros F C XO TR IE OP S H O. specialize (OP v b S (fit_data v ds b F S)). destruct r as [d|e|]; cbn [answer_of]; [| |exact I].
  - destruct (stacks_eq _ _ S) as [S1 S2]. destruct (pushes_length ds b) as [L1 L2].
    eapply comes_more.
    + apply (step_push v i d (with_stacks b v) m b); try assumption; try reflexivity.
      * apply with_stacks_eq.
      * rewrite S1. exact L1.
      * rewrite S2. exact L2.
      * apply (holds_same v); try reflexivity. exact H.
      * apply F.
      * intros id Y. exact Y.
    + intros x m' w _ [-> A]. auto.
  - destruct OP as (w & X & S'). apply (step_fail v i); try assumption; [right; exact IE|]. exists w. rewrite (execute_eq E v i C), X. auto.
Qed.

(* ---------- built-in functions ---------- *)

Lemma comes_rnd v m : fit v -> current v = Some I_RND -> holds v m -> functions_ok m ->
  comes v (fun d m' w => sort_of d = Numbers /\ after v 1 (push_on (stacks v) d) m' w) (draw E m).
Proof.
  intros F C H O. unfold draw. pose proof (draw_loop E RR RND_FUEL (v_seed v) (v_randk v)) as D. rewrite (h_seed v m H), (h_drawn v m H) in D.
  change (seq 0 RND_FUEL) with (seq 0 100) in D. destruct (find _ (seq 0 100)) as [j|]; [|exact I].
  eapply comes_more; [apply (step_push v I_RND _ (set_rand (v_seed v) (m_drawn m + j + 1) (v_clock v) v) _ (stacks v)); try assumption; try reflexivity|].
  - cbn [exec_instr push_d]. rewrite (h_seed v m H), (h_drawn v m H), D. reflexivity.
  - destruct H as [A1 A2 A3 A4 A5 A6 A7]. constructor; try assumption; cbn; try assumption. reflexivity.
  - apply F.
  - intros id Y. exact Y.
  - intros x m' w _ [-> A]. split; [reflexivity|exact A].
Qed.
Lemma comes_time v m : fit v -> current v = Some I_TIME_STR -> holds v m -> functions_ok m ->
  comes v (fun d m' w => sort_of d = Texts /\ after v 1 (push_on (stacks v) d) m' w) (time_of_day E m).
Proof.
  intros F C H O. unfold time_of_day. destruct (e_hms E (m_clock m)) as [[h mi] s] eqn:HMS.
  eapply comes_more; [apply (step_push v I_TIME_STR _ (set_rand (v_seed v) (v_randk v) (S (v_clock v)) v) _ (stacks v)); try assumption; try reflexivity|].
  - cbn [exec_instr push_d]. rewrite (h_clock v m H), HMS. reflexivity.
  - destruct H as [A1 A2 A3 A4 A5 A6 A7]. constructor; try assumption; cbn; try assumption. rewrite A7. reflexivity.
  - apply F.
  - intros id Y. exact Y.
  - intros x m' w _ [-> A]. split; [reflexivity|exact A].
Qed.
Definition is_dummy (b : builtin) : bool := match bi_args b with ArgDummy :: _ => true | _ => false end.
Lemma dummy_builtin b : In b builtins -> bi_type b <> TErr -> is_dummy b = true ->
  (bi_name b = lit "RND" /\ bi_op b = I_RND /\ bi_type b = TNum) \/ (bi_name b = lit "TIME$" /\ bi_op b = I_TIME_STR /\ bi_type b = TStr).
Proof.
  intros H Y D. cbn [builtins In] in H. repeat (destruct H as [<-|H]; [try discriminate D; try (exfalso; apply Y; reflexivity); auto|]). contradiction.
Qed.
Lemma plain_builtin b : In b builtins -> bi_type b <> TErr -> is_dummy b = false ->
  bytes_eqb (bi_name b) (lit "RND") = false /\ bytes_eqb (bi_name b) (lit "TIME$") = false /\ touches_rand (bi_op b) = false /\ exprop (bi_op b) = true /\ calls (bi_op b) = false.
Proof.
  intros H Y D. cbn [builtins In] in H. repeat (destruct H as [<-|H]; [try discriminate D; try (exfalso; apply Y; reflexivity); repeat split|]). contradiction.
Qed.
Lemma Forall2_sorts (l : list argkind) (es : list expr) (ds : list datum) : Forall2 arg_ok l es -> Forall2 (fun d e => vtype_of (sort_of d) = etype e) ds es ->
  Forall2 (fun a d => match a with ArgNum => sort_of d = Numbers | ArgStr => sort_of d = Texts | ArgDummy => False end) l ds.
Proof.
  intros F. revert ds. induction F as [|a e l es A F IH]; intros ds G; inversion G; subst; [constructor|]. constructor; [|apply IH; assumption].
  destruct a; cbn [arg_ok] in A; try contradiction; rewrite A in *; destruct (sort_of _); try discriminate; reflexivity.
Qed.
Lemma comes_builtin v b ds p m : fit v -> In b builtins -> bi_type b <> TErr -> current v = Some (bi_op b) -> stacks v = pushes ds p -> holds v m -> functions_ok m ->
  (is_dummy b = true /\ ds = [] \/
   Forall2 (fun a d => match a with ArgNum => sort_of d = Numbers | ArgStr => sort_of d = Texts | ArgDummy => False end) (bi_args b) ds) ->
  comes v (fun d m' w => vtype_of (sort_of d) = bi_type b /\ after v 1 (push_on p d) m' w) (builtin_value E (bi_name b) ds m).
Proof.
  intros F Hb Y C S H O [[D ->]|A].
  - cbn in S. subst p. destruct (dummy_builtin b Hb Y D) as [(N1 & N2 & N3)|(N1 & N2 & N3)]; rewrite N1, N3; unfold builtin_value; rewrite N2 in C.
    + cbn [bytes_eqb lit]. change (bytes_eqb (lit "RND") (lit "RND")) with true. cbv iota. eapply comes_more; [exact (comes_rnd v m F C H O)|].
      intros x m' w _ [-> X]. auto.
    + change (bytes_eqb (lit "TIME$") (lit "RND")) with false. change (bytes_eqb (lit "TIME$") (lit "TIME$")) with true. cbv iota.
      eapply comes_more; [exact (comes_time v m F C H O)|]. intros x m' w _ [-> X]. auto.
  - assert (D : is_dummy b = false) by (unfold is_dummy; destruct A as [|[] ? ? ? A]; [reflexivity|reflexivity|reflexivity|contradiction]).
    destruct (plain_builtin b Hb Y D) as (N1 & N2 & N3 & N4 & N5). unfold builtin_value. rewrite N1, N2.
    destruct (function_op E b ds Hb Y A) as (f & X & OP & TY). rewrite X.
    eapply comes_more; [exact (comes_op v (bi_op b) ds (f ds) p m F C N4 N3 N5 OP S H O)|].
    intros x m' w _ [Q R]. rewrite Q in TY. auto.
Qed.

(* ---------- variables ---------- *)

Lemma adv_eq (m m' : M unit) v w : m v = m' w -> adv m v = adv m' w.
Proof. intros H. unfold adv, bind. rewrite H. reflexivity. Qed.
Lemma typed_define v id s x : typed g v -> symbol_at (v_st v) id = Some s -> fits g (define s x) ->
  typed g (set_st (sym_update (v_st v) (N.to_nat id) (define s x)) v).
Proof.
  intros T H F. assert (G : nth_error g (N.to_nat id) = Some (sig_of (define s x))) by (rewrite sig_define; exact (typed_sig g v id s T H)).
  exact (typed_put_sym g id (define s x) G F v T).
Qed.
Lemma arrays_define v id s x : arrays_ok v -> sound_value x -> arrays_ok (set_st (sym_update (v_st v) (N.to_nat id) (define s x)) v).
Proof. intros A S. unfold arrays_ok. cbn [v_st set_st sym_update st_syms]. apply Forall_list_upd; [exact A|]. cbn. exact S. Qed.

Lemma variable_raw v t id : typed g v -> arrays_ok v -> named v id KVariable t ->
  exists w, exec_instr E (get_variable t id) v = adv (push_d (variable v t id)) w /\ assigned_to v t id (variable v t id) w /\ typed g w /\ arrays_ok w /\ assigned_yet w id = true.
Proof.
  intros T A (s & H & K & Y). pose proof (typed_fits g v id s T H) as F. unfold fits in F. rewrite K, Y in F.
  assert (O1 : only id v v) by (split; [destruct v; reflexivity|split; auto]).
  assert (O2 : only id v (set_st (sym_update (v_st v) (N.to_nat id) (define s VZero)) v)) by (apply (update_only v id _ s H); reflexivity).
  assert (O3 : typed g (set_st (sym_update (v_st v) (N.to_nat id) (define s VZero)) v)).
  { apply typed_define; try assumption. unfold fits. cbn [s_kind s_type s_val define set_defined set_val]. rewrite K, Y. destruct t; exact I. }
  assert (O4 : arrays_ok (set_st (sym_update (v_st v) (N.to_nat id) (define s VZero)) v)) by (apply arrays_define; [exact A|exact I]).
  unfold variable at 1. rewrite H. destruct (s_defined s) eqn:D.
  - exists v. split; [|split; [split; [exact O1|reflexivity]|split; [assumption|split; [assumption|unfold assigned_yet; rewrite H; exact D]]]].
    destruct t; cbn [get_variable vtype_of exec_instr] in *; apply adv_eq.
    + unfold get_numeric_simple, bind, get_sym. rewrite H. unfold is_kind. rewrite K, Y. cbn. rewrite D. destruct (s_val s); try contradiction; reflexivity.
    + unfold get_string_simple, bind, get_sym. rewrite H. unfold is_kind. rewrite K, Y. cbn. rewrite D. destruct (s_val s); try contradiction; reflexivity.
  - exists (set_st (sym_update (v_st v) (N.to_nat id) (define s VZero)) v). split; [|split; [split; [exact O2|]|split; [assumption|split; [assumption|]]]].
    3: { unfold assigned_yet. cbn [v_st set_st]. rewrite (symbol_update_same _ _ _ s H). reflexivity. }
    + destruct t; cbn [get_variable vtype_of exec_instr] in *; apply adv_eq.
      * unfold get_numeric_simple, bind, get_sym. rewrite H. unfold is_kind. rewrite K, Y. cbn. rewrite D. reflexivity.
      * unfold get_string_simple, bind, get_sym. rewrite H. unfold is_kind. rewrite K, Y. cbn. rewrite D. reflexivity.
    + unfold variable. cbn [v_st set_st]. rewrite (symbol_update_same _ _ _ s H), H, D. destruct t; reflexivity.
Qed.
Lemma variable_sort v t id : typed g v -> named v id KVariable t -> sort_of (variable v t id) = t.
Proof.
  intros T (s & H & K & Y). pose proof (typed_fits g v id s T H) as F. unfold fits in F. rewrite K, Y in F.
  unfold variable. rewrite H. destruct (s_defined s); [|destruct t; reflexivity]. destruct t; cbn [vtype_of] in *; destruct (s_val s); try contradiction; reflexivity.
Qed.
Lemma only_fields id v w : only id v w -> v_cs w = v_cs v /\ cur_bcode w = cur_bcode v /\ v_fn w = v_fn v /\ stacks w = stacks v /\
  v_seed w = v_seed v /\ v_randk w = v_randk v /\ v_clock w = v_clock v.
Proof. intros (-> & _). repeat split. Qed.
Lemma only_shown id v w : only id v w -> shown_line w = shown_line v.
Proof. intros (-> & _). reflexivity. Qed.
Lemma yet_only id v w j : only id v w -> assigned_yet w id = true -> assigned_yet v j = true -> assigned_yet w j = true.
Proof. intros (_ & O & _) D H. destruct (N.eq_dec j id) as [->|J]; [exact D|]. unfold assigned_yet in *. rewrite (O j J). exact H. Qed.
Lemma yet_array v id t b : typed g v -> named v id KArray t -> bounds v id = Some b -> assigned_yet v id = true.
Proof.
  intros T (s & H & K & Y) B. pose proof (typed_fits g v id s T H) as F. unfold fits in F. rewrite K, Y in F. unfold bounds in B. rewrite H in B.
  unfold assigned_yet. rewrite H. destruct t; cbn [vtype_of] in F; destruct (s_val s); try contradiction; try discriminate B; exact F.
Qed.
Lemma comes_variable v t id m : fit v -> current v = Some (get_variable t id) -> named v id KVariable t -> holds v m -> functions_ok m ->
  comes v (fun d m' w => sort_of d = t /\ after v 1 (push_on (stacks v) d) m' w) (Value (m_var m id) m).
Proof.
  intros F C N H O. destruct (variable_raw v t id (f_typed v F) (f_arrays v F) N) as (w & X & (W1 & W2) & W3 & W4 & W5).
  destruct (only_fields id v w W1) as (A1 & A2 & A3 & A4 & A5 & A6 & A7).
  rewrite <- (h_var v m H id t N). eapply comes_more.
  - apply (step_push v (get_variable t id) (variable v t id) w m (stacks v)); try assumption.
    + destruct t; reflexivity.
    + reflexivity.
    + reflexivity.
    + apply (holds_change g id v w m m (f_typed v F) W3); try (rewrite ?A5, ?A6, ?A7; apply H); try assumption; auto.
      * apply W1.
      * intros t' N'. destruct (named_unique _ _ _ _ _ _ N' (named_same g w v id _ _ W3 (f_typed v F) N)) as [_ ->]. rewrite W2. apply (h_var v m H id t N).
      * intros t' N'. destruct (named_unique _ _ _ _ _ _ N' (named_same g w v id _ _ W3 (f_typed v F) N)) as [Q _]. discriminate Q.
      * intros t' N'. destruct (named_unique _ _ _ _ _ _ N' (named_same g w v id _ _ W3 (f_typed v F) N)) as [Q _]. discriminate Q.
    + intros j. apply (yet_only id v w j W1 W5).
    + exact (only_shown id v w W1).
  - intros x m' z _ [-> A]. split; [exact (variable_sort v t id (f_typed v F) N)|exact A].
Qed.

(* ---------- elements of arrays ---------- *)

Lemma element_raw v t id n idx st b : typed g v -> arrays_ok v -> subscripts v n idx st -> named v id KArray t -> bounds v id = Some b -> (n <= 2)%N ->
  in_bounds b idx -> exec_instr E (get_element t id n) v = adv (push_d (element v t id idx)) (set_stack st v).
Proof.
  intros T A SUB (s & H & K & Y) B N2 IB. destruct t; cbn [get_element exec_instr vtype_of] in *.
  - destruct (bounds_num g v id T A s b H K Y B) as (a & X & O).
    destruct (ArrayProofs.read_ok a (rev b) (rev idx) O (in_bounds_rev _ _ IB)) as (x & RX & _).
    unfold element. rewrite H, X, RX. unfold bind at 1, get_sym at 1. rewrite H, Y. cbn [vtype_eqb assert]. unfold bind at 1, ret at 1. rewrite K. cbn [skind_eqb].
    apply adv_eq. unfold get_numeric_element. unfold bind at 1. rewrite (numeric_array_defined g v id n idx st T SUB s a H K Y X N2).
    unfold bind, get_sym. cbn [v_st set_stack]. rewrite H, RX. reflexivity.
  - destruct (bounds_str g v id T A s b H K Y B) as (a & X & O).
    destruct (ArrayProofs.read_ok a (rev b) (rev idx) O (in_bounds_rev _ _ IB)) as (x & RX & _).
    unfold element. rewrite H, X, RX. unfold bind at 1, get_sym at 1. rewrite H, Y. cbn [vtype_eqb assert]. unfold bind at 1, ret at 1. rewrite K. cbn [skind_eqb].
    apply adv_eq. unfold get_string_element. unfold bind at 1. rewrite (string_array_defined g v id n idx st T SUB s a H K Y X N2).
    unfold bind, get_sym. cbn [v_st set_stack]. rewrite H, RX. reflexivity.
Qed.
Lemma element_sort v t id idx : typed g v -> named v id KArray t -> sort_of (element v t id idx) = t.
Proof.
  intros T (s & H & K & Y). pose proof (typed_fits g v id s T H) as F. unfold fits in F. rewrite K, Y in F.
  unfold element. rewrite H. destruct t; cbn [vtype_of] in *; destruct (s_val s); try contradiction; try reflexivity; destruct (read_element _ _); reflexivity.
Qed.
Lemma auto_raw v t id n idx st : typed g v -> arrays_ok v -> subscripts v n idx st -> named v id KArray t -> bounds v id = None -> (n <= 2)%N ->
  Forall (fun m => (m < 4294967295)%N) idx -> acceptable (map (N.max 10) idx) ->
  exists w, dimensioned v t id (map (N.max 10) idx) w /\ arrays_ok w /\ typed g w /\ exec_instr E (get_element t id n) v = adv (push_d (unset t)) (set_stack st w).
Proof.
  intros T A SUB N B N2 BB AC. pose proof N as (s & H & K & Y).
  assert (BB' : Forall (fun m => (m < 4294967295)%N) (map (N.max 10) idx)).
  { apply Forall_map. eapply Forall_impl; [|exact BB]. cbn beta. lia. }
  assert (Q : exists w, dimensioned v t id (map (N.max 10) idx) w /\ arrays_ok w /\ typed g w /\ exec_instr E (get_element t id n) v = exec_instr E (get_element t id n) w).
  { destruct t; cbn [get_element vtype_of] in *.
    - destruct (auto_num g v id n idx st T SUB s H K Y B N2 BB AC) as (a & NA & X).
      set (w := set_st (sym_update (v_st v) (N.to_nat id) (define s (VNumArr a))) v) in *.
      destruct (made_num id v s (map (N.max 10) idx) a H K Y BB' AC NA A) as (D & AW). exists w. split; [exact D|]. split; [exact AW|].
      split. { apply typed_define; try assumption. unfold fits. cbn [s_kind s_type s_val define set_defined set_val]. rewrite K, Y. reflexivity. }
      cbn [exec_instr]. unfold bind at 1, get_sym at 1. rewrite H, Y.
      cbn [vtype_eqb assert]. unfold bind at 1, ret at 1. rewrite K. cbn [skind_eqb].
      symmetry. unfold bind at 1, get_sym at 1. unfold w at 1. cbn [v_st set_st]. rewrite (symbol_update_same _ _ _ s H). cbn [s_type s_kind define set_defined set_val].
      rewrite Y, K. cbn [vtype_eqb assert skind_eqb]. unfold bind at 1, ret at 1. symmetry.
      unfold adv, get_numeric_element. unfold bind at 1. unfold bind at 1. rewrite X. reflexivity.
    - destruct (auto_str g v id n idx st T SUB s H K Y B N2 BB AC) as (a & NA & X).
      set (w := set_st (sym_update (v_st v) (N.to_nat id) (define s (VStrArr a))) v) in *.
      destruct (made_str id v s (map (N.max 10) idx) a H K Y BB' AC NA A) as (D & AW). exists w. split; [exact D|]. split; [exact AW|].
      split. { apply typed_define; try assumption. unfold fits. cbn [s_kind s_type s_val define set_defined set_val]. rewrite K, Y. reflexivity. }
      cbn [exec_instr]. unfold bind at 1, get_sym at 1. rewrite H, Y.
      cbn [vtype_eqb assert]. unfold bind at 1, ret at 1. rewrite K. cbn [skind_eqb].
      symmetry. unfold bind at 1, get_sym at 1. unfold w at 1. cbn [v_st set_st]. rewrite (symbol_update_same _ _ _ s H). cbn [s_type s_kind define set_defined set_val].
      rewrite Y, K. cbn [vtype_eqb assert skind_eqb]. unfold bind at 1, ret at 1. symmetry.
      unfold adv, get_string_element. unfold bind at 1. unfold bind at 1. rewrite X. reflexivity. }
  destruct Q as (w & D & AW & TW & X). exists w. split; [exact D|]. split; [exact AW|]. split; [exact TW|]. rewrite X. destruct D as (O & BW & EL).
  rewrite (element_raw w t id n idx st (map (N.max 10) idx) TW AW); try assumption.
  - rewrite EL. reflexivity.
  - destruct O as (-> & _). exact SUB.
  - apply O, N.
  - unfold in_bounds. clear. induction idx as [|i idx IH]; cbn [map]; constructor; [lia|exact IH].
Qed.

(* the numbers on the stack and the subscripts *)
Lemma numbers_only ds : Forall (fun d => sort_of d = Numbers) ds -> exists xs, ds = map Number xs.
Proof.
  induction 1 as [|d ds D F (xs & ->)]; [exists []; reflexivity|]. destruct d as [x|]; [|discriminate D]. exists (x :: xs). reflexivity.
Qed.
Lemma pushes_numbers xs : forall b, pushes (map Number xs) b = (rev xs ++ fst b, snd b).
Proof.
  induction xs as [|x xs IH]; intros b; [destruct b; reflexivity|]. cbn [map]. change (pushes (Number x :: map Number xs) b) with (pushes (map Number xs) (push_on b (Number x))).
  rewrite IH. cbn [push_on fst snd rev]. rewrite <- app_assoc. reflexivity.
Qed.
Lemma subscripts_good xs : Forall double xs -> forall r, subscripts_of (map Number xs) = r ->
  match r with
  | Some (inl idx) => Forall2 (fun x i => double x /\ count x (N.to_nat i)) xs idx
  | Some (inr x) => exists pre post idx, xs = pre ++ x :: post /\ Forall2 (fun x i => double x /\ count x (N.to_nat i)) post idx /\ double x /\ forall m, ~ count x m
  | None => False
  end.
Proof.
  induction 1 as [|x xs D F IH]; intros r <-; cbn [map subscripts_of]; [constructor|]. specialize (IH _ eq_refl).
  destruct (subscripts_of (map Number xs)) as [[idx|y]|]; [|destruct IH as (pre & post & idx & -> & IH); exists (x :: pre), post, idx; split; [reflexivity|exact IH]|contradiction].
  destruct (whole x) as [k|] eqn:W.
  - constructor; [|exact IH]. split; [exact D|exact (whole_some x k W)].
  - exists [], xs, idx. split; [reflexivity|]. split; [exact IH|]. split; [exact D|exact (whole_none x W)].
Qed.
Lemma within_spec b : forall idx, within b idx = true <-> in_bounds b idx.
Proof.
  unfold in_bounds. induction b as [|m b IH]; intros [|i idx]; cbn [within]; split; intros H; try discriminate; try constructor; try (inversion H; fail).
  - apply andb_prop in H. lia.
  - apply IH. apply andb_prop in H. apply H.
  - inversion H; subst. apply andb_true_intro. split; [lia|]. apply IH. assumption.
Qed.

Lemma comes_element v t id a ds p m : fit v -> current v = Some (get_element t id (N.of_nat (length ds))) -> named v id KArray t -> m_obj m id = Array a ->
  holds v m -> functions_ok m -> stacks v = pushes ds p -> Forall (fun d => sort_of d = Numbers) ds -> ds <> [] -> length ds <= 2 ->
  comes v (fun d m' w => sort_of d = t /\ after v 1 (push_on p d) m' w) (element_value t id a ds m).
Proof.
  intros F C N MO H O S NS NE L2. destruct (numbers_only ds NS) as (xs & ->). rewrite map_length in *.
  pose proof (fit_data v _ p F S) as DO. rewrite pushes_numbers in S. destruct (stacks_eq _ _ S) as [S1 S2]. cbn [fst snd] in S1, S2.
  assert (DX : Forall double xs) by (clear - DO; induction xs; [constructor|inversion DO; subst; constructor; [assumption|auto]]).
  assert (XO : exprop (get_element t id (N.of_nat (length xs))) = true) by (destruct t; reflexivity).
  assert (TR : touches_rand (get_element t id (N.of_nat (length xs))) = false) by (destruct t; reflexivity).
  unfold element_value. pose proof (subscripts_good xs DX _ eq_refl) as SG. destruct (subscripts_of _) as [[idx|x]|]; [| |contradiction].
  - assert (LI : length idx = length xs) by (symmetry; exact (Forall2_len _ _ _ SG)).
    assert (SUB : subscripts v (N.of_nat (length xs)) idx (fst p)) by (exists xs; split; [exact S1|split; [exact SG|lia]]).
    pose proof (h_arr v m H id t N) as HA. rewrite MO in HA. destruct a as [[b f]|].
    + destruct HA as (B & EL). destruct (within b idx) eqn:W.
      * apply within_spec in W. eapply comes_more.
        { apply (step_push v _ (f idx) (set_stack (fst p) v) m p F C XO); try reflexivity; try assumption.
          - rewrite <- EL. apply (element_raw v t id _ idx (fst p) b); try assumption; try apply F. lia.
          - cbn. unfold stacks. cbn [v_stack v_sstack set_stack]. rewrite S2. destruct p; reflexivity.
          - rewrite S1, app_length. lia.
          - rewrite S2. lia.
          - apply (holds_same v); try reflexivity. exact H.
          - apply F.
          - intros j YJ. exact YJ. }
        intros x m' w _ [-> AF]. split; [rewrite <- EL; exact (element_sort v t id idx (f_typed v F) N)|exact AF].
      * apply (step_fail v _ _ m _ C XO TR H); [left; reflexivity|apply raises_fail].
        assert (NB : ~ in_bounds b idx) by (intros Q; apply within_spec in Q; congruence).
        destruct (element_read_refused E g v id _ idx (fst p) (f_typed v F) (f_arrays v F) SUB t b C N B NB) as (s & HS & R). rewrite (h_name v m H id s HS). exact R.
    + destruct (existsb (N.eqb 4294967295) idx) eqn:EX; [exact I|].
      assert (BB : Forall (fun m => (m < 4294967295)%N) idx).
      { apply Forall_forall. intros i Hi. pose proof (subs_bound v _ idx _ SUB) as SB. rewrite Forall_forall in SB. specialize (SB i Hi).
        assert (i <> 4294967295%N); [|lia]. intros ->. assert (existsb (N.eqb 4294967295) idx = true) by (apply existsb_exists; exists 4294967295%N; split; [exact Hi|reflexivity]). congruence. }
      assert (LX : length xs = 1 \/ length xs = 2) by (destruct xs as [|? [|? [|? ?]]]; cbn in *; try lia; congruence).
      assert (AC : acceptable (map (N.max 10) idx) <-> (elements_wanted (map (N.max 10) idx) <= 65536)%N).
      { unfold acceptable. rewrite map_length, LI. tauto. }
      cbv zeta. destruct (N.leb_spec (elements_wanted (map (N.max 10) idx)) 65536) as [W|W].
      * destruct (auto_raw v t id _ idx (fst p) (f_typed v F) (f_arrays v F) SUB N HA) as (w & (W1 & W2 & W3) & W4 & W5 & X); [lia|exact BB|apply AC, W|].
        destruct (only_fields id v w W1) as (A1 & A2 & A3 & A4 & A5 & A6 & A7). eapply comes_more.
        { apply (step_push v _ (unset t) (set_stack (fst p) w) (with_obj m id (Array (Some (map (N.max 10) idx, fun _ => unset t)))) p F C XO X); try assumption.
          - unfold stacks. cbn [v_stack v_sstack set_stack]. injection A4 as _ A4. rewrite A4, S2. destruct p; reflexivity.
          - rewrite S1, app_length. lia.
          - rewrite S2. lia.
          - apply (holds_same w); try reflexivity. pose proof (named_same g w v id _ _ W5 (f_typed v F) N) as NW.
            apply (holds_change g id v w m _ (f_typed v F) W5); try (cbn; rewrite ?A5, ?A6, ?A7; apply H); try assumption.
            + apply W1.
            + reflexivity.
            + intros j J. cbn. rewrite at_other by exact J. auto.
            + intros t' N'. destruct (named_unique _ _ _ _ _ _ N' NW) as [Q _]. discriminate Q.
            + intros t' N'. destruct (named_unique _ _ _ _ _ _ N' NW) as [_ ->]. cbn. rewrite at_same. auto.
            + intros t' N'. destruct (named_unique _ _ _ _ _ _ N' NW) as [Q _]. discriminate Q.
          - intros j q e. cbn. unfold at_id. destruct (j =? id)%N; [discriminate|apply O].
          - intros j. exact (yet_only id v w j W1 (yet_array w id t _ W5 (named_same g w v id _ _ W5 (f_typed v F) N) W2)).
          - exact (only_shown id v w W1). }
        intros x m' z _ [-> AF]. split; [destruct t; reflexivity|exact AF].
      * apply (step_fail v _ _ m _ C XO TR H); [left; reflexivity|apply raises_fail].
        assert (NA : ~ acceptable (map (N.max 10) idx)) by (rewrite AC; lia).
        destruct (auto_refused E g v id _ (Number fzero) idx (fst p) t (f_typed v F) (f_arrays v F) N SUB HA BB NA) as (s & HS & R & _).
        rewrite (h_name v m H id s HS). exact (R C).
  - destruct SG as (pre & post & idx & -> & FP & D & NC).
    apply (step_fail v _ _ m _ C XO TR H); [left; unfold subscript_error; destruct (fltb _ _ || _); reflexivity|apply raises_fail].
    assert (BS : bad_subscript v (N.of_nat (length (pre ++ x :: post))) x).
    { exists (rev post), (rev idx), (rev pre ++ fst p). split; [|split; [|split; [|split]]]; try assumption.
      - rewrite S1, rev_app_distr. cbn [rev]. rewrite <- !app_assoc. reflexivity.
      - apply Forall2_rev', FP.
      - rewrite rev_length, <- (Forall2_len _ _ _ FP), app_length. cbn [length]. lia. }
    destruct (element_read_bad E g v t id _ x (f_typed v F) C N BS) as (s & HS & R). rewrite (h_name v m H id s HS). exact R.
Qed.

(* ---------- expressions ---------- *)

Lemma comes_done {A} v (P : A -> memory -> vm -> Prop) x m : P x m v -> comes v P (Value x m).
Proof. intros H. right. exists [], v. split; [constructor|]. split; [exact H|]. intros _. constructor. Qed.
Lemma after_frame v n p m w : after v n p m w -> (in_function v -> in_function w) /\ untouched w = untouched v /\ shown_line w = shown_line v /\ defs_kept v w.
Proof. intros A. split; [apply (a_fn _ _ _ _ _ A)|]. split; [apply (a_rest _ _ _ _ _ A)|]. split; apply A. Qed.
Lemma sort_type t : t <> TErr -> vtype_of (sort_of_type t) = t.
Proof. destruct t; [contradiction|reflexivity|reflexivity]. Qed.
Lemma get_instr_eq id t : get_instr id t = get_variable (sort_of_type t) id.
Proof. destruct t; reflexivity. Qed.
Lemma paren_instr_eq id t n : paren_instr id t n = get_element (sort_of_type t) id (u8 (N.of_nat n)).
Proof. destruct t; reflexivity. Qed.
Lemma pushes_one d p : pushes [d] p = push_on p d.
Proof. reflexivity. Qed.
Lemma number_data ds l : Forall2 (fun d e => vtype_of (sort_of d) = etype e) ds l -> Forall (fun e => etype e = TNum) l -> Forall (fun d => sort_of d = Numbers) ds.
Proof.
  induction 1 as [|d e ds l D F IH]; intros H; inversion H; subst; constructor; [|auto]. destruct (sort_of d); [reflexivity|]. cbn in D. congruence.
Qed.

Section Mode.
Variable mode : vm -> Prop.
Variable call : symid -> option (symid * expr) -> list datum -> memory -> answer datum.
Hypothesis mode_after : forall v n p m w, mode v -> after v n p m w -> mode w.
Hypothesis call_comes : forall v t id f ds p m r, fit v -> mode v -> code_here v = get_element t id (u8 (N.of_nat (length ds))) :: r -> r <> [] ->
  named v id KDef t -> m_obj m id = Function f -> holds v m -> functions_ok m -> stacks v = pushes ds p -> Forall (fun d => sort_of d = Numbers) ds ->
  comes v (fun d m' w => sort_of d = t /\ after v 1 (push_on p d) m' w) (call id f ds m).

Definition gives_value (e : expr) : Prop := forall v m r, wt g e -> fit v -> mode v -> holds v m -> functions_ok m -> code_here v = ecode e ++ r -> r <> [] ->
  comes v (fun d m' w => vtype_of (sort_of d) = etype e /\ after v (length (ecode e)) (push_on (stacks v) d) m' w) (eval E call e m).

Lemma current_code v i r : code_here v = i :: r -> current v = Some i.
Proof. intros H. rewrite current_here, H. reflexivity. Qed.

Lemma args_comes l : Forall gives_value l -> forall v m r, Forall (wt g) l -> fit v -> mode v -> holds v m -> functions_ok m -> code_here v = flat_map ecode l ++ r -> r <> [] ->
  comes v (fun ds m' w => Forall2 (fun d e => vtype_of (sort_of d) = etype e) ds l /\ after v (length (flat_map ecode l)) (pushes ds (stacks v)) m' w) (evals E call l m).
Proof.
  induction 1 as [|e l HE HL IH]; intros v m r W F Mo H O C R; cbn [evals flat_map length] in *.
  - apply comes_done. split; [constructor|]. apply after_none; assumption.
  - inversion W as [|? ? W1 W2]; subst. rewrite <- app_assoc in C. eapply comes_bind.
    + apply (HE v m (flat_map ecode l ++ r) W1 F Mo H O C). destruct (flat_map ecode l); [exact R|discriminate].
    + intros x m' w _ [_ A]. exact (after_frame _ _ _ _ _ A).
    + intros d m' w _ [TD A]. cbn beta. eapply comes_bind.
      * apply (IH w m' r W2 (a_fit _ _ _ _ _ A) (mode_after _ _ _ _ _ Mo A) (a_holds _ _ _ _ _ A) (a_funs _ _ _ _ _ A)); [|exact R].
        exact (after_code _ _ _ _ _ _ A C).
      * intros x m2 z _ [_ A2]. exact (after_frame _ _ _ _ _ A2).
      * intros ds m2 z _ [FD A2]. apply comes_done. split; [constructor; assumption|]. rewrite app_length.
        pose proof (a_stacks _ _ _ _ _ A) as SW. rewrite SW in A2. exact (after_trans _ _ _ _ _ _ _ _ _ A A2).
Qed.

Theorem expr_comes e : gives_value e.
Proof.
  induction e as [x|w|id t|id t l IH|b l IH|b a IH|n a IH|n a IH|o a b IHa IHb|a b IHa IHb] using expr_rec'; intros v m r W F Mo H O C R.
  - (* a number *)
    cbn [ecode app length] in *. pose proof (current_code _ _ _ C) as CU. cbn [eval]. eapply comes_more.
    + apply (step_push v _ (Number x) v m (stacks v) F CU); try reflexivity; try assumption; [apply F|]. intros j YJ. exact YJ.
    + intros y m' z _ [-> A]. auto.
  - cbn [ecode app length] in *. pose proof (current_code _ _ _ C) as CU. cbn [eval]. eapply comes_more.
    + apply (step_push v _ (Text w) v m (stacks v) F CU); try reflexivity; try assumption; [apply F|]. intros j YJ. exact YJ.
    + intros y m' z _ [-> A]. auto.
  - (* a variable *)
    cbn [ecode app length etype] in *. pose proof (current_code _ _ _ C) as CU. rewrite get_instr_eq in CU. destruct W as [TE SK]. rewrite <- (sort_type t TE) in SK.
    pose proof (kind_named g v id _ _ (f_typed v F) SK) as N. cbn [eval]. eapply comes_more; [exact (comes_variable v _ id m F CU N H O)|].
    intros y m' z _ [Q A]. rewrite Q. split; [exact (sort_type t TE)|exact A].
  - (* an element or a call *)
    cbn [ecode etype] in *. destruct W as (TE & NE & SK & TN & WL). apply wt_all in WL. rewrite <- app_assoc in C. cbn [app] in C.
    change (eval E call (EElem id t l) m) with (and_then (evals E call l m) (fun ds m => match m_obj m id with
      | Array a => if Nat.leb (length ds) 2 then element_value (sort_of_type t) id a ds m else Undefined
      | Function f => call id f ds m end)).
    eapply comes_bind; [apply (args_comes l IH v m _ WL F Mo H O C); discriminate|intros x m' w _ [_ A]; exact (after_frame _ _ _ _ _ A)|].
    intros ds m' w _ [FD A]. cbn beta. pose proof (after_code _ _ _ _ _ _ A C) as CW. rewrite paren_instr_eq in CW.
    assert (LD : length l = length ds) by (symmetry; exact (Forall2_len _ _ _ FD)). rewrite LD in CW.
    pose proof (number_data ds l FD TN) as ND. pose proof (a_fit _ _ _ _ _ A) as FW. pose proof (a_holds _ _ _ _ _ A) as HW.
    assert (N : named w id KArray (sort_of_type t) \/ named w id KDef (sort_of_type t)).
    { destruct SK as [SK|SK]; rewrite <- (sort_type t TE) in SK; [left|right]; exact (kind_named g w id _ _ (f_typed w FW) SK). }
    assert (Q : comes w (fun d m2 z => sort_of d = sort_of_type t /\ after w 1 (push_on (stacks v) d) m2 z)
      (match m_obj m' id with Array a => if Nat.leb (length ds) 2 then element_value (sort_of_type t) id a ds m' else Undefined | Function f => call id f ds m' end)).
    { destruct (m_obj m' id) as [a|f] eqn:MO.
      - destruct N as [N|N]; [|pose proof (h_fun w m' HW id _ N) as X; rewrite MO in X; contradiction].
        destruct (Nat.leb_spec (length ds) 2) as [L|L]; [|exact I].
        replace (u8 (N.of_nat (length ds))) with (N.of_nat (length ds)) in CW by (unfold u8; lia).
        apply comes_element; try assumption; [exact (current_code _ _ _ CW)|exact (a_funs _ _ _ _ _ A)|exact (a_stacks _ _ _ _ _ A)|].
        intros ->. destruct l; [congruence|discriminate LD].
      - destruct N as [N|N]; [pose proof (h_arr w m' HW id _ N) as X; rewrite MO in X; contradiction|].
        apply (call_comes w _ id f ds (stacks v) m' r FW (mode_after _ _ _ _ _ Mo A) CW R N MO HW (a_funs _ _ _ _ _ A) (a_stacks _ _ _ _ _ A) ND). }
    eapply comes_more; [exact Q|]. intros d m2 z _ [SD A2]. rewrite SD. split; [exact (sort_type t TE)|]. rewrite app_length. exact (after_trans _ _ _ _ _ _ _ _ _ A A2).
  - (* a built-in function *)
    cbn [ecode etype] in *. destruct W as (Hb & Y & FA & WL). apply wt_all in WL. rewrite <- app_assoc in C. cbn [app] in C.
    change (eval E call (EFun b l) m) with (and_then (evals E call l m) (fun ds m => builtin_value E (bi_name b) ds m)).
    eapply comes_bind; [apply (args_comes l IH v m _ WL F Mo H O C); discriminate|intros x m' w _ [_ A]; exact (after_frame _ _ _ _ _ A)|].
    intros ds m' w _ [FD A]. cbn beta. pose proof (after_code _ _ _ _ _ _ A C) as CW.
    eapply comes_more.
    + apply (comes_builtin w b ds (stacks v) m' (a_fit _ _ _ _ _ A) Hb Y (current_code _ _ _ CW) (a_stacks _ _ _ _ _ A) (a_holds _ _ _ _ _ A) (a_funs _ _ _ _ _ A)).
      destruct FA as [FA|[-> (q & D)]].
      * right. exact (Forall2_sorts _ _ _ FA FD).
      * left. split; [unfold is_dummy; rewrite D; reflexivity|]. inversion FD. reflexivity.
    + intros d m2 z _ [SD A2]. split; [exact SD|]. rewrite app_length. exact (after_trans _ _ _ _ _ _ _ _ _ A A2).
  - (* a built-in function that ignores its argument *)
    cbn [ecode etype] in *. destruct W as (Hb & Y & (q & D) & WA). rewrite <- app_assoc in C. cbn [eval].
    eapply comes_bind; [apply (IH v m _ WA F Mo H O C); destruct (drop_code (etype a)); discriminate|intros x m' w _ [_ A]; exact (after_frame _ _ _ _ _ A)|].
    intros d m' w _ [SD A]. cbn beta. pose proof (after_code _ _ _ _ _ _ A C) as CW. rewrite <- SD in *.
    assert (ST : exists i z, drop_code (vtype_of (sort_of d)) = [i] /\ execute E w = (Ok tt, z) /\ current w = Some i /\ i <> I_END_DEF /\ after w 1 (stacks v) m' z).
    { pose proof (a_stacks _ _ _ _ _ A) as S. pose proof (a_fit _ _ _ _ _ A) as FW.
      assert (G : forall i z, current w = Some i -> exprop i = true -> execute E w = (Ok tt, z) -> v_cs z = place_after w 1 -> z = set_cs (place_after w 1) (with_stacks (stacks v) w) -> after w 1 (stacks v) m' z).
      { intros i z Cw XO X Z Q. constructor.
        - exact Z.
        - rewrite Q. reflexivity.
        - rewrite Q. apply with_stacks_eq.
        - rewrite Q. apply (holds_same w); try reflexivity. apply A.
        - rewrite Q. reflexivity.
        - pose proof (execute_untouched E w i Cw (or_introl XO)) as U. rewrite X in U. exact U.
        - apply (fit_step w z FW X). rewrite Q. apply FW.
        - apply A.
        - intros j YJ. rewrite Q. exact YJ.
        - rewrite Q. reflexivity.
        - intros ok FD. pose proof (fd_execute ok E w i Cw (exprop_def i XO) FD) as D'. rewrite X in D'. exact D'. }
      destruct (stacks_eq _ _ S) as [S1 S2]. destruct d as [x|s]; cbn [sort_of vtype_of drop_code push_on fst snd] in *; cbn [app] in CW; pose proof (current_code _ _ _ CW) as Cw.
      - exists I_POP_NUM, (set_cs (place_after w 1) (set_stack (v_stack v) w)). assert (X : execute E w = (Ok tt, set_cs (place_after w 1) (set_stack (v_stack v) w))).
        { rewrite (execute_eq E w _ Cw). cbn [exec_instr]. rewrite (bind_pop _ w x (v_stack v) S1). unfold ret. cbn [finish]. rewrite (set_pc_place w) by reflexivity. reflexivity. }
        split; [reflexivity|]. split; [exact X|]. split; [exact Cw|]. split; [discriminate|]. apply (G I_POP_NUM); try assumption; try reflexivity.
        unfold with_stacks. cbn [fst snd stacks] in *. rewrite <- S2. destruct w; reflexivity.
      - exists I_POP_STR, (set_cs (place_after w 1) (set_sstack (v_sstack v) w)). assert (X : execute E w = (Ok tt, set_cs (place_after w 1) (set_sstack (v_sstack v) w))).
        { rewrite (execute_eq E w _ Cw). cbn [exec_instr]. rewrite (bind_pop_str _ w s (v_sstack v) S2). unfold ret. cbn [finish]. rewrite (set_pc_place w) by reflexivity. reflexivity. }
        split; [reflexivity|]. split; [exact X|]. split; [exact Cw|]. split; [discriminate|]. apply (G I_POP_STR); try assumption; try reflexivity.
        unfold with_stacks. cbn [fst snd stacks] in *. rewrite <- S1. destruct w; reflexivity. }
    destruct ST as (i & z & DC & X & Cw & NE & A2). rewrite DC in *. cbn [app] in CW.
    assert (CZ : code_here z = bi_op b :: r) by exact (after_code w _ _ _ [i] _ A2 CW).
    apply (comes_after w [w] z); [exact (runs_one _ _ _ X)|intros _; repeat constructor; rewrite Cw; congruence|apply (a_fn _ _ _ _ _ A2)|exact (a_rest _ _ _ _ _ A2)|exact (a_shown _ _ _ _ _ A2)|exact (a_defs _ _ _ _ _ A2)|].
    eapply comes_more.
    + apply (comes_builtin z b [] (stacks v) m' (a_fit _ _ _ _ _ A2) Hb Y (current_code _ _ _ CZ) (a_stacks _ _ _ _ _ A2) (a_holds _ _ _ _ _ A2) (a_funs _ _ _ _ _ A2)).
      left. split; [unfold is_dummy; rewrite D; reflexivity|reflexivity].
    + intros d2 m2 y _ [SD2 A3]. split; [exact SD2|]. rewrite app_length. exact (after_trans _ _ _ _ _ _ _ _ _ A (after_trans _ _ _ _ _ _ _ _ _ A2 A3)).
  - (* signs *)
    cbn [ecode etype] in *. destruct W as (TA & WA). rewrite <- app_assoc in C. cbn [eval].
    eapply comes_bind; [apply (IH v m _ WA F Mo H O C); destruct (Nat.odd n); [discriminate|exact R]|intros x m' w _ [_ A]; exact (after_frame _ _ _ _ _ A)|].
    intros d m' w _ [SD A]. cbn beta. pose proof (after_code _ _ _ _ _ _ A C) as CW. destruct (Nat.odd n).
    + assert (ND : sort_of d = Numbers) by (destruct (sort_of d); [reflexivity|cbn in SD; congruence]). destruct d as [x|]; [|discriminate ND].
      pose proof (comes_op w I_NEG [Number x] (negative (Number x)) (stacks v) m' (a_fit _ _ _ _ _ A) (current_code _ _ _ CW) eq_refl eq_refl eq_refl
        (negative_op E x) (a_stacks _ _ _ _ _ A) (a_holds _ _ _ _ _ A) (a_funs _ _ _ _ _ A)) as Q.
      eapply comes_more; [exact Q|]. intros y m2 z _ [G A2]. cbn [negative] in G. injection G as <-. split; [symmetry; exact TA|].
      rewrite app_length. exact (after_trans _ _ _ _ _ _ _ _ _ A A2).
    + apply comes_done. split; [exact SD|]. rewrite app_nil_r. exact A.
  - (* NOT *)
    cbn [ecode etype] in *. destruct W as (TA & WA). rewrite <- app_assoc in C. cbn [eval].
    eapply comes_bind; [apply (IH v m _ WA F Mo H O C); destruct (Nat.odd n); [discriminate|exact R]|intros x m' w _ [_ A]; exact (after_frame _ _ _ _ _ A)|].
    intros d m' w _ [SD A]. cbn beta. pose proof (after_code _ _ _ _ _ _ A C) as CW. destruct (Nat.odd n).
    + assert (ND : sort_of d = Numbers) by (destruct (sort_of d); [reflexivity|cbn in SD; congruence]). destruct d as [x|]; [|discriminate ND].
      pose proof (comes_op w I_NOT [Number x] (complement (Number x)) (stacks v) m' (a_fit _ _ _ _ _ A) (current_code _ _ _ CW) eq_refl eq_refl eq_refl
        (not_does E x) (a_stacks _ _ _ _ _ A) (a_holds _ _ _ _ _ A) (a_funs _ _ _ _ _ A)) as Q.
      eapply comes_more; [exact Q|]. intros y m2 z _ [G A2]. cbn [complement] in G. destruct (integer32 x); [|discriminate G]. injection G as <-. split; [symmetry; exact TA|].
      rewrite app_length. exact (after_trans _ _ _ _ _ _ _ _ _ A A2).
    + apply comes_done. split; [exact SD|]. rewrite app_nil_r. exact A.
  - (* an operator *)
    cbn [ecode] in *. destruct W as (BO & WA & WB). rewrite <- !app_assoc in C. cbn [eval].
    eapply comes_bind; [apply (IHa v m _ WA F Mo H O C); destruct (ecode b); discriminate|intros x m' w _ [_ A]; exact (after_frame _ _ _ _ _ A)|].
    intros d1 m1 w1 _ [SD1 A1]. cbn beta. pose proof (after_code _ _ _ _ _ _ A1 C) as C1. cbn [app] in C1.
    eapply comes_bind; [apply (IHb w1 m1 _ WB (a_fit _ _ _ _ _ A1) (mode_after _ _ _ _ _ Mo A1) (a_holds _ _ _ _ _ A1) (a_funs _ _ _ _ _ A1) C1); discriminate|
      intros x m' w _ [_ A]; exact (after_frame _ _ _ _ _ A)|].
    intros d2 m2 w2 _ [SD2 A2]. cbn beta. pose proof (after_code _ _ _ _ _ _ A2 C1) as C2. rewrite <- SD1, <- SD2 in BO. rewrite <- SD1 in C2.
    destruct (bin_op_ok o (vtype_of (sort_of d1))) as [XO _].
    assert (TR : touches_rand (bin_instr o (vtype_of (sort_of d1))) = false) by (destruct o as [| |[]| | | | |], (vtype_of (sort_of d1)); reflexivity).
    assert (NCA : calls (bin_instr o (vtype_of (sort_of d1))) = false) by (destruct o as [| |[]| | | | |], (vtype_of (sort_of d1)); reflexivity).
    pose proof (a_stacks _ _ _ _ _ A2) as S. rewrite (a_stacks _ _ _ _ _ A1) in S.
    pose proof (comes_op w2 _ [d1; d2] (binary_value E o d1 d2) (stacks v) m2 (a_fit _ _ _ _ _ A2) (current_code _ _ _ C2) XO TR NCA (binary_op E o d1 d2 BO) S
      (a_holds _ _ _ _ _ A2) (a_funs _ _ _ _ _ A2)) as Q.
    eapply comes_more; [exact Q|]. intros d m3 z _ [G A3]. split.
    + destruct d1 as [x|s], d2 as [y|t]; destruct o as [| |rl| | | | |]; cbn [binary_value] in G; try discriminate G; cbn [etype];
        try (unfold logic in G; destruct (integer32 y); [|discriminate G]; destruct (integer32 x); [|discriminate G]);
        try (unfold truth_datum in G); try (injection G as <-; cbn; try exact SD1; reflexivity).
      destruct (Nat.leb _ _); [|discriminate G]. injection G as <-. exact SD1.
    + rewrite !app_length. cbn [length]. exact (after_trans _ _ _ _ _ _ _ _ _ A1 (after_trans _ _ _ _ _ _ _ _ _ A2 A3)).
  - exact I.
Qed.
End Mode.

(* ---------- calls ---------- *)

Lemma call_instr t id n : exprop (get_element t id n) = true /\ touches_rand (get_element t id n) = false.
Proof. destruct t; split; reflexivity. Qed.
Lemma call_def_not (v : vm) id t : named v id KDef t -> current v = Some (get_element t id 1) -> no_wrap v.
Proof.
  intros N C i j t' CI SJ NA. rewrite C in CI. injection CI as <-. destruct t; cbn [get_element subject] in SJ; injection SJ as <-;
    destruct (named_unique _ _ _ _ _ _ N NA) as [Q _]; discriminate Q.
Qed.
Lemma comes_undefined v t id n p m : fit v -> current v = Some (get_element t id n) -> named v id KDef t -> m_obj m id = Function None -> holds v m ->
  comes v (fun d m' w => sort_of d = t /\ after v 1 (push_on p d) m' w) (Error (RE_fn_undefined (m_name m id)) m).
Proof.
  intros F C N MO H. destruct (call_instr t id n) as [XO TR]. pose proof (h_fun v m H id t N) as FN. rewrite MO in FN. destruct N as (s & HS & K & Y).
  apply (step_fail v _ _ m _ C XO TR H); [left; reflexivity|apply raises_fail]. rewrite (h_name v m H id s HS). exact (call_undefined g E v t id n s (f_typed v F) C HS K FN).
Qed.

(* in a function *)
Lemma nested_comes v t id f ds p m r : fit v -> in_function v -> code_here v = get_element t id (u8 (N.of_nat (length ds))) :: r -> r <> [] ->
  named v id KDef t -> m_obj m id = Function f -> holds v m -> functions_ok m -> stacks v = pushes ds p -> Forall (fun d => sort_of d = Numbers) ds ->
  comes v (fun d m' w => sort_of d = t /\ after v 1 (push_on p d) m' w) (no_call id f ds m).
Proof.
  intros F IF C R N MO H O S NS. pose proof (current_code _ _ _ C) as CU. destruct f as [[q e]|]; cbn [no_call]; [|exact (comes_undefined v t id _ p m F CU N MO H)].
  destruct (call_instr t id (u8 (N.of_nat (length ds)))) as [XO TR]. pose proof (h_fun v m H id t N) as FN. rewrite MO in FN. destruct FN as (d & FN & _).
  apply (step_fail v _ _ m _ CU XO TR H); [left; reflexivity|apply raises_fail]. exact (call_nested g E v t id _ d (f_typed v F) CU FN IF).
Qed.
Lemma nested_value e : gives_value in_function no_call e.
Proof. apply expr_comes; [intros v n p m w H A; apply (a_fn _ _ _ _ _ A), H|exact nested_comes]. Qed.

(* in a line of a program *)
Lemma line_after v n p m w : on_line v -> after v n p m w -> on_line w.
Proof.
  intros [A B] H. split; [rewrite (a_fn _ _ _ _ _ H); exact A|]. unfold in_line in *. rewrite (a_cs _ _ _ _ _ H). exact B.
Qed.
Lemma functions_var m id d : functions_ok m -> functions_ok (with_var m id d).
Proof. intros H j p e. cbn. apply H. Qed.
Lemma rand_same v i w : current v = Some i -> touches_rand i = false -> execute E v = (Ok tt, w) -> v_seed w = v_seed v /\ v_randk w = v_randk v /\ v_clock w = v_clock v.
Proof.
  intros C TR X. pose proof (execute_keeps (fun v => (v_seed v, v_randk v, v_clock v)) E v i C (fun _ _ => eq_refl) (exec_keeps_rand E i TR)) as R. rewrite X in R.
  cbn [snd] in R. injection R as R1 R2 R3. auto.
Qed.
Lemma holds_var v w p x m : typed g v -> typed g w -> (forall j, j <> p -> symbol_at (v_st w) j = symbol_at (v_st v) j) ->
  v_seed w = v_seed v /\ v_randk w = v_randk v /\ v_clock w = v_clock v -> holds v m -> named v p KVariable Numbers -> variable w Numbers p = x ->
  holds w (with_var m p x).
Proof.
  intros T T' O (R1 & R2 & R3) H N V. pose proof (named_same g w v p _ _ T' T N) as NW.
  apply (holds_change g p v w m _ T T' O); cbn; try (rewrite ?R1, ?R2, ?R3; apply H); try reflexivity; try assumption.
  - intros j J. rewrite at_other by exact J. auto.
  - intros t' N'. destruct (named_unique _ _ _ _ _ _ N' NW) as [_ ->]. rewrite at_same. exact V.
  - intros t' N'. destruct (named_unique _ _ _ _ _ _ N' NW) as [Q _]. discriminate Q.
  - intros t' N'. destruct (named_unique _ _ _ _ _ _ N' NW) as [Q _]. discriminate Q.
Qed.
Lemma end_no_wrap v : current v = Some I_END_DEF -> no_wrap v.
Proof. intros C i j t' CI SJ. rewrite C in CI. injection CI as <-. discriminate SJ. Qed.
Lemma step_fit v w : fit v -> no_wrap v -> execute E v = (Ok tt, w) -> fit w.
Proof.
  intros F W X. apply (fit_step v w F X). pose proof (ao_execute E v (ok_stack v (f_values v F)) W (f_arrays v F)) as A. rewrite X in A. exact A.
Qed.

Lemma called_comes v t id q e x p m r : fit v -> on_line v -> code_here v = get_element t id 1 :: r -> r <> [] ->
  named v id KDef t -> m_obj m id = Function (Some (q, e)) -> holds v m -> functions_ok m -> stacks v = push_on p (Number x) ->
  comes v (fun d m' w => sort_of d = t /\ after v 1 (push_on p d) m' w)
    (and_then (eval E no_call e (with_var m q (Number x))) (fun d m' => Value d (with_var m' q (m_var m q)))).
Proof.
  intros F [NF IL] C R N MO H O S. pose proof (current_code _ _ _ C) as CU. destruct (call_instr t id 1) as [XO TR].
  pose proof (h_fun v m H id t N) as FN. rewrite MO in FN. destruct FN as (d & FN & BD & TY). destruct (O id q e MO) as [W SK].
  pose proof (kind_named g v q KVariable Numbers (f_typed v F) SK) as NQ.
  destruct (here_length v _ _ C) as (bc & B & L). destruct (stacks_eq _ _ S) as [S1 S2]. cbn [push_on fst snd] in S1, S2.
  assert (PD : parameter d = Some q) by (unfold parameter; rewrite BD; reflexivity).
  assert (L' : cs_pc (v_cs v) + 1 < length (bc_inst bc)) by (destruct r; [congruence|cbn [length] in L; lia]).
  destruct (call_ok g E v t id d q x (fst p) bc (f_typed v F) CU FN PD NF IL S1 B L') as (w0 & X0 & (E1 & E2 & E3 & E4 & E5 & E6) & RET).
  pose proof (step_fit v w0 F (call_def_not v id t N CU) X0) as F0.
  assert (H0 : holds w0 (with_var m q (Number x))).
  { exact (holds_var v w0 q (Number x) m (f_typed v F) (f_typed w0 F0) E5 (rand_same v _ w0 CU TR X0) H NQ E4). }
  assert (U0 : untouched w0 = untouched v).
  { pose proof (execute_untouched E v _ CU (or_introl XO)) as U. rewrite X0 in U. exact U. }
  assert (ST0 : stacks w0 = p).
  { rewrite E6. transitivity (fst p, v_sstack v); [reflexivity|]. rewrite S2. destruct p; reflexivity. }
  assert (C0 : code_here w0 = ecode e ++ [I_END_DEF]).
  { unfold code_here. rewrite E2, E1. cbn [cs_pc]. unfold body in BD. rewrite BD. reflexivity. }
  pose proof (nested_value e w0 _ [I_END_DEF] W F0 E3 H0 (functions_var _ _ _ O) C0 ltac:(discriminate)) as G. rewrite ST0 in G.
  destruct (eval E no_call e (with_var m q (Number x))) as [y m'|er m'|]; cbn [and_then]; [| |exact I].
  - destruct G as [G|(l & w1 & R1 & [SD A] & Y)]; [left; exact (overflows_after E v [v] w0 (runs_one _ _ _ X0) (untouched_stopped _ _ U0) G)|].
    pose proof (after_code _ _ _ _ _ _ A C0) as C1. pose proof (current_code _ _ _ C1) as CU1.
    destruct (RET l w1 R1 (Y E3) CU1) as (z & X1 & Z1 & Z2 & Z3 & Z4 & Z5 & Z6 & Z7).
    pose proof (a_fit _ _ _ _ _ A) as F1. pose proof (step_fit w1 z F1 (end_no_wrap w1 CU1) X1) as FZ.
    right. exists ([v] ++ l ++ [w1]), z. split.
    { apply (runs_app E v [v] w0); [exact (runs_one _ _ _ X0)|]. exact (runs_app _ _ _ _ _ _ R1 (runs_one _ _ _ X1)). }
    split; [|intros Q; contradiction]. split; [destruct (sort_of y), t; cbn in *; congruence|]. constructor.
    + exact Z1.
    + exact Z2.
    + rewrite <- (a_stacks _ _ _ _ _ A), Z7. reflexivity.
    + apply (holds_var w1 z q (m_var m q) m' (f_typed w1 F1) (f_typed z FZ) Z6 (rand_same w1 _ z CU1 eq_refl X1) (a_holds _ _ _ _ _ A)).
      * exact (named_same g w1 v q _ _ (f_typed w1 F1) (f_typed v F) NQ).
      * rewrite Z4. exact (h_var v m H q Numbers NQ).
    + split; intros; contradiction.
    + pose proof (execute_untouched E w1 _ CU1 (or_intror eq_refl)) as U. rewrite X1 in U. cbn [snd] in U. rewrite U, (a_rest _ _ _ _ _ A). exact U0.
    + exact FZ.
    + apply functions_var, (a_funs _ _ _ _ _ A).
    + intros j YJ. destruct (N.eq_dec j q) as [->|J]; [rewrite Z5; exact YJ|]. unfold assigned_yet in *. rewrite (Z6 j J).
      apply (a_yet _ _ _ _ _ A). unfold assigned_yet. rewrite (E5 j J). exact YJ.
    + pose proof (execute_untouched E w1 _ CU1 (or_intror eq_refl)) as U. rewrite X1 in U. cbn [snd] in U. rewrite (a_rest _ _ _ _ _ A), U0 in U.
      unfold shown_line. rewrite Z1. cbn [cs_code cs_line place_after]. injection U as U1 U2 _ _ _ _ _ _ _ _ _ _ _ _ _. destruct IL as [IL|IL]; rewrite IL; cbn [code_of]; [rewrite U1|rewrite U2]; reflexivity.
    + intros ok FD. pose proof (fd_execute ok E v _ CU (exprop_def _ XO) FD) as D0. rewrite X0 in D0. pose proof (a_defs _ _ _ _ _ A ok D0) as D1.
      pose proof (fd_execute ok E w1 _ CU1 ltac:(discriminate) D1) as D2. rewrite X1 in D2. exact D2.
  - destruct G as [G|(l & u & w & R1 & X & HW & U & BL)]; [left; exact (overflows_after E v [v] w0 (runs_one _ _ _ X0) (untouched_stopped _ _ U0) G)|].
    right. exists ([v] ++ l), u, w. split; [exact (runs_app E v [v] w0 _ _ (runs_one _ _ _ X0) R1)|]. split; [exact X|]. split; [exact HW|]. split; [congruence|].
    assert (SH0 : shown_line w0 = def_shown v d) by exact (called_shown g E v t id d q x (fst p) bc w0 (f_typed v F) CU FN PD NF S1 B L' X0).
    right. destruct BL as [BL|(d' & D' & BL)].
    + exists d. split; [intros ok FD; exact (fine_function ok v id d FD FN)|congruence].
    + exists d'. split; [|rewrite BL; unfold def_shown; rewrite (untouched_stored _ _ U0); reflexivity].
      intros ok FD. apply D'. pose proof (fd_execute ok E v _ CU (exprop_def _ XO) FD) as D0. rewrite X0 in D0. exact D0.
Qed.
Lemma line_comes v t id f ds p m r : fit v -> on_line v -> code_here v = get_element t id (u8 (N.of_nat (length ds))) :: r -> r <> [] ->
  named v id KDef t -> m_obj m id = Function f -> holds v m -> functions_ok m -> stacks v = pushes ds p -> Forall (fun d => sort_of d = Numbers) ds ->
  comes v (fun d m' w => sort_of d = t /\ after v 1 (push_on p d) m' w) (call_function E id f ds m).
Proof.
  intros F OL C R N MO H O S NS. pose proof (current_code _ _ _ C) as CU. destruct f as [[q e]|]; cbn [call_function]; [|exact (comes_undefined v t id _ p m F CU N MO H)].
  assert (G : comes v (fun d m' w => sort_of d = t /\ after v 1 (push_on p d) m' w)
    (let n := u8 (N.of_nat (length ds)) in if (n =? 1)%N then Undefined else Error (RE_fn_params (m_name m id) n) m)).
  { cbv zeta. set (n := u8 (N.of_nat (length ds))) in *. destruct (N.eqb_spec n 1) as [n1|n1]; [exact I|].
    destruct (call_instr t id n) as [XO TR]. pose proof (h_fun v m H id t N) as FN. rewrite MO in FN. destruct FN as (d & FN & _). destruct N as (s & HS & K & Y).
    apply (step_fail v _ _ m _ CU XO TR H); [left; reflexivity|apply raises_fail]. rewrite (h_name v m H id s HS). exact (call_params g E v t id n d s (f_typed v F) CU HS FN (proj1 OL) n1). }
  destruct ds as [|[x|s] [|d2 ds]]; try exact G.
  exact (called_comes v t id q e x p m r F OL C R N MO H O S).
Qed.
Lemma line_value e : gives_value on_line (call_function E) e.
Proof. apply expr_comes; [exact line_after|exact line_comes]. Qed.

(* ---------- the value of an expression ---------- *)

Lemma comes_gives v n p (P : datum -> Prop) a : p = stacks v -> comes v (fun d m' w => P d /\ after v n (push_on p d) m' w) a ->
  overflows E v \/ machine_gives E v n a.
Proof.
  intros -> C. destruct a as [d m|e m|]; [| |right; exact I].
  - destruct C as [C|(l & w & R & [_ A] & _)]; [left; exact C|]. right. exists l, w. split; [exact R|].
    destruct (stacks_eq _ _ (a_stacks _ _ _ _ _ A)) as [S1 S2]. constructor; try apply A; [rewrite S1|rewrite S2]; destruct d; reflexivity.
  - destruct C as [C|(l & u & w & R & X & H & U & _)]; [left; exact C|right; exists l, u, w; auto].
Qed.
Theorem value_computed e v m r : wt g e -> fit v -> on_line v -> holds v m -> functions_ok m -> code_here v = ecode e ++ r -> r <> [] ->
  overflows E v \/ machine_gives E v (length (ecode e)) (evaluate E e m).
Proof. intros W F OL H O C R. exact (comes_gives v _ _ _ _ eq_refl (line_value e v m r W F OL H O C R)). Qed.
Theorem body_computed e v m r : wt g e -> fit v -> in_function v -> holds v m -> functions_ok m -> code_here v = ecode e ++ r -> r <> [] ->
  overflows E v \/ machine_gives E v (length (ecode e)) (eval E no_call e m).
Proof. intros W F OL H O C R. exact (comes_gives v _ _ _ _ eq_refl (nested_value e v m r W F OL H O C R)). Qed.

Lemma memory_holds v f : typed g v ->
  (forall id t, named v id KDef t -> match f id with
     | None => function v id = None
     | Some (p, e) => exists d, function v id = Some d /\ body d = definition id p e /\ etype e = vtype_of t
     end) -> holds v (memory_of v f).
Proof.
  intros T H. constructor.
  - intros id t (s & S & K & Y). cbn. rewrite S, Y. destruct t; reflexivity.
  - intros id t (s & S & K & Y). cbn. rewrite S, K, Y. cbn [skind_eqb]. destruct (bounds v id); [|reflexivity]. split; [reflexivity|]. intros idx. destruct t; reflexivity.
  - intros id t N. pose proof (H id t N) as X. destruct N as (s & S & K & Y). cbn. rewrite S, K. cbn [skind_eqb]. exact X.
  - intros id s S. cbn. rewrite S. reflexivity.
  - reflexivity.
  - reflexivity.
  - reflexivity.
Qed.
End Machine.
