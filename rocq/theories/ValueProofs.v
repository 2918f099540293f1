(* Every execution keeps numbers IEEE doubles and strings within 255
   characters. *)
From Coq Require Import Lia ZifyBool ZifyNat ZifyN SpecFloat.
From Verif Require Import Base BaseLemmas Num NumSpec NumLemmas DoubleProofs SourceModel LineMapModel ArrayModel
  BcodeModel SymbolModel VmModel VmLemmas VmSpec ControlProofs VmTyping ValueSpec.
Local Open Scope nat_scope.

(* ---------- the length of printed numbers ---------- *)

Lemma digits_fixed_length k n : length (digits_fixed k n) = k.
Proof. revert n; induction k as [|k IH]; intros n; cbn [digits_fixed]; [reflexivity|]. rewrite app_length, IH. cbn. lia. Qed.
Lemma strip_zeros_length l : length (strip_zeros l) <= length l.
Proof.
  induction l as [|c l IH]; cbn [strip_zeros]; [lia|]. destruct (strip_zeros l) as [|d r] eqn:E.
  - destruct (ceq c "0"); cbn [length] in *; lia.
  - cbn [length] in *. lia.
Qed.
Lemma with_point_length a b : length (with_point a b) <= length a + length b + 1.
Proof.
  unfold with_point. pose proof (strip_zeros_length b). destruct (strip_zeros b) as [|d r]; [lia|].
  rewrite app_length. cbn [length] in *. lia.
Qed.
Lemma dec_loop_length f : forall n acc, length (dec_loop f n acc) <= f + length acc.
Proof.
  induction f as [|f IH]; intros n acc; cbn [dec_loop]; [lia|].
  destruct (_ =? _)%N; [cbn [length]; lia|]. specialize (IH (n / 10)%N (digit_char (n mod 10) :: acc)). cbn [length] in IH. lia.
Qed.
Lemma pos_size_nat p : Pos.to_nat (Pos.size p) = Pos.size_nat p.
Proof. induction p as [p IH|p IH|]; cbn; rewrite ?Pos2Nat.inj_succ, ?IH; reflexivity. Qed.
Lemma size_nat_le n k : (n < 2 ^ N.of_nat k)%N -> N.size_nat n <= k.
Proof.
  intros H. destruct n as [|p]; [cbn; lia|].
  assert (S : N.size (Npos p) = N.of_nat (N.size_nat (Npos p))).
  { cbn [N.size N.size_nat]. rewrite <- pos_size_nat. lia. }
  destruct (le_lt_dec (N.size_nat (Npos p)) k) as [|G]; [assumption|exfalso].
  pose proof (N.size_le (Npos p)) as SL. rewrite S in SL.
  assert (H0 : (2 ^ N.of_nat (Datatypes.S k) <= 2 ^ N.of_nat (N.size_nat (Npos p)))%N) by (apply N.pow_le_mono_r; lia).
  rewrite Nat2N.inj_succ, N.pow_succ_r' in H0. lia.
Qed.
Lemma dec_of_N_length n k : (n < 2 ^ N.of_nat k)%N -> length (dec_of_N n) <= S k.
Proof.
  intros H. pose proof (dec_loop_length (S (N.size_nat n)) n []) as L. pose proof (size_nat_le n k H).
  unfold dec_of_N. cbn [length] in L. lia.
Qed.

Lemma find_exp_bounds f n d : forall x, (x - Z.of_nat f <= find_exp f n d x <= x)%Z.
Proof.
  induction f as [|f IH]; intros x; cbn [find_exp]; [lia|]. destruct (ge_pow10 n d x); [lia|]. specialize (IH (x - 1)%Z). lia.
Qed.

Lemma format_pos_length n d : (Zdigits2 n <= 2000)%Z -> (Zdigits2 d <= 2000)%Z -> length (format_pos n d) <= 40.
Proof.
  intros N D. pose proof (zdigits_nonneg n). pose proof (zdigits_nonneg d). unfold format_pos.
  set (x0 := find_exp 5 n d (exp_bound n d)).
  assert (X0 : (-700 <= x0 <= 700)%Z).
  { pose proof (find_exp_bounds 5 n d (exp_bound n d)) as F. fold x0 in F. unfold exp_bound in F.
    pose proof (Z.div_le_mono (-2000 * 30103) ((Zdigits2 n - Zdigits2 d + 1) * 30103) 100000 ltac:(lia) ltac:(lia)) as L.
    pose proof (Z.div_le_mono ((Zdigits2 n - Zdigits2 d + 1) * 30103) (2001 * 30103) 100000 ltac:(lia) ltac:(lia)) as U.
    change (-2000 * 30103 / 100000)%Z with (-603)%Z in L. change (2001 * 30103 / 100000)%Z with 602%Z in U. 
    revert F L U. generalize ((Zdigits2 n - Zdigits2 d + 1) * 30103 / 100000)%Z. intros; lia. }
  clearbody x0. destruct (scaled n d (x0 - 5)) as [a c].
  assert (Q : exists q x, (if (div_even a c =? 1000000)%Z then (100000, x0 + 1)%Z else (div_even a c, x0)) = (q, x) /\ (-800 <= x <= 800)%Z).
  { destruct (_ =? _)%Z; eexists _, _; (split; [reflexivity|lia]). }
  destruct Q as (q & x & -> & X). pose proof (digits_fixed_length 6 q) as DL. set (ds := digits_fixed 6 q) in *. clearbody ds.
  assert (EL : length (dec_of_N (Z.abs_N x)) <= 11).
  { apply dec_of_N_length. change (2 ^ N.of_nat 10)%N with 1024%N. lia. }
  assert (W : forall k, length (with_point (firstn k ds) (skipn k ds)) <= 7).
  { intros k. pose proof (with_point_length (firstn k ds) (skipn k ds)). rewrite firstn_length, skipn_length in H1. lia. }
  destruct (_ || _) eqn:B.
  - rewrite app_length. cbn [length]. specialize (W 1). destruct (_ <? _)%N; cbn [length]; lia.
  - destruct (x <? 0)%Z eqn:S; [|specialize (W (Datatypes.S (Z.to_nat x))); lia].
    pose proof (with_point_length ["0"%char] (repeat "0"%char (Z.to_nat (- x - 1)) ++ ds)) as WP.
    rewrite app_length, repeat_length in WP. cbn [length] in WP. lia.
Qed.

Lemma format_g_length x : double x -> length (format_g x) <= 41.
Proof.
  intros V. destruct x as [s|s| |s m e]; try (destruct s; cbn; lia); [cbn; lia|].
  apply valid_finite in V as (F & E1 & E2). unfold fexp, emin in F.
  assert (M : (Zdigits2 (Zpos m) <= 53)%Z) by (cbn [Zdigits2]; lia).
  unfold format_g. rewrite app_length.
  assert (S1 : length (if s then ["-"%char] else []) <= 1) by (destruct s; cbn; lia).
  destruct e as [|k|k].
  - pose proof (format_pos_length (Zpos m * 2 ^ 0) 1) as H. rewrite Z.mul_1_r in *. cbn [Zdigits2 digits2_pos] in *. lia.
  - pose proof (format_pos_length (Zpos m * 2 ^ Zpos k) 1) as H.
    assert (L : (Zdigits2 (Zpos m * 2 ^ Zpos k) <= 53 + Zpos k)%Z).
    { destruct (zdigits_bounds (Zpos m)) as [[_ U] _]; [lia|].
      assert (P : (0 < 2 ^ Zpos k)%Z) by (apply Z.pow_pos_nonneg; lia).
      assert (U' : (2 ^ Zdigits2 (Zpos m) <= 2 ^ 53)%Z) by (apply Z.pow_le_mono_r; lia).
      apply zdigits_le; [lia|nia|]. rewrite Z.pow_add_r by lia. nia. }
    cbn [Zdigits2 digits2_pos] in *. lia.
  - pose proof (format_pos_length (Zpos m) (2 ^ Zpos k)) as H.
    assert (L : (Zdigits2 (2 ^ Zpos k) <= Zpos k + 1)%Z).
    { assert (P : (0 < 2 ^ Zpos k)%Z) by (apply Z.pow_pos_nonneg; lia).
      apply zdigits_le; [lia|lia|]. rewrite Z.pow_add_r by lia. lia. }
    cbn [Zdigits2 digits2_pos] in *. lia.
Qed.

(* ---------- rules for actions ---------- *)

Notation vinv := (inv values_ok).

Definition value_fields (v : vm) :=
  (v_st v, v_stack v, v_sstack v, v_for v, v_fn v, (v_stored v, v_imm v, v_def v), v_input v).
Lemma vo_keeps {A} (m : M A) : keeps value_fields m -> vinv m.
Proof.
  intros K v [S A1 A2 L P C I]. specialize (K v). unfold value_fields in K.
  injection K as K1 K2 K3 K4 K5 K6 K7 K8 K9. constructor; rewrite ?K1, ?K2, ?K3, ?K4, ?K5, ?K9; try assumption.
  intros r bc H. apply (C r bc). destruct r; cbn [code_of] in *; congruence.
Qed.
Lemma vo_err {A} e : vinv (@run_error A e).
Proof. apply vo_keeps, keeps_run_error. reflexivity. Qed.
Lemma vo_get_sym {B} id (k : symbol -> M B) :
  (forall s, value_ok (s_val s) -> vinv (k s)) -> vinv (bind (get_sym id) k).
Proof.
  intros H v T. unfold bind, get_sym. destruct (symbol_at (v_st v) id) as [s|] eqn:E; [|exact T].
  apply H; [|exact T]. exact (Forall_nth _ _ _ _ (ok_syms _ T) E).
Qed.
Lemma vo_put_sym id s : value_ok (s_val s) -> vinv (put_sym id s).
Proof. intros H v [S A1 A2 L P C I]. constructor; try assumption. cbn. apply Forall_list_upd; assumption. Qed.
Lemma vo_some {A B} (o : option A) (k : A -> M B) :
  (forall a, o = Some a -> vinv (k a)) -> vinv (bind (some_or_crash o) k).
Proof. intros H v T. destruct o; [apply (H _ eq_refl), T|exact T]. Qed.
Lemma vo_get {B} (k : vm -> M B) :
  (forall v, values_ok v -> vinv (k v)) -> vinv (bind get k).
Proof. intros H v T. apply (H v T), T. Qed.
Lemma vo_pop {B} (k : num -> M B) : (forall x, double x -> vinv (k x)) -> vinv (bind pop k).
Proof.
  intros H v T. unfold bind, pop. destruct (v_stack v) as [|x r] eqn:E; [exact (@vo_err num _ v T)|].
  pose proof (ok_stack _ T) as K. rewrite E in K. inversion K; subst. apply H; [assumption|].
  destruct T. constructor; assumption.
Qed.
Lemma vo_pop_str {B} (k : bytes -> M B) : (forall x, string_ok x -> vinv (k x)) -> vinv (bind pop_str k).
Proof.
  intros H v T. unfold bind, pop_str. destruct (v_sstack v) as [|x r] eqn:E; [exact (@vo_err bytes _ v T)|].
  pose proof (ok_sstack _ T) as K. rewrite E in K. inversion K; subst. apply H; [assumption|].
  destruct T. constructor; assumption.
Qed.
Lemma vo_push x : double x -> vinv (push x).
Proof.
  intros H v T. unfold push. destruct (Nat.leb _ _); [exact (@vo_err unit _ v T)|].
  destruct T. constructor; try assumption. constructor; assumption.
Qed.
Lemma vo_push_str x : string_ok x -> vinv (push_str x).
Proof.
  intros H v T. unfold push_str. destruct (Nat.leb _ _); [exact (@vo_err unit _ v T)|].
  destruct T. constructor; try assumption. constructor; assumption.
Qed.
Lemma vo_push_logic b : vinv (push_logic b).
Proof. apply vo_push. destruct b; [apply fofZ_double|reflexivity]. Qed.
Lemma vo_push_buf x : vinv (push_buf x).
Proof. unfold push_buf. destruct (Nat.ltb _ _) eqn:E; [apply vo_err|]. apply vo_push_str. unfold string_ok. lia. Qed.
Lemma vo_pop' : vinv pop.
Proof. intros v T. generalize (vo_pop ret (fun x _ => inv_ret _ x) v T). unfold bind, pop, ret. destruct (v_stack v); auto. Qed.
Lemma vo_pop_str' : vinv pop_str.
Proof. intros v T. generalize (vo_pop_str ret (fun x _ => inv_ret _ x) v T). unfold bind, pop_str, ret. destruct (v_sstack v); auto. Qed.

Ltac vo_one :=
  match goal with
  | |- inv _ (bind (get_sym _) _) => apply vo_get_sym; intros ? ?
  | |- inv _ (bind (some_or_crash _) _) => apply vo_some; intros ? ?
  | |- inv _ (bind get _) => apply vo_get; intros ? ?
  | |- inv _ (bind pop _) => apply vo_pop; intros ? ?
  | |- inv _ (bind pop_str _) => apply vo_pop_str; intros ? ?
  | |- inv _ (put_sym _ _) => apply vo_put_sym; cbn [s_val define set_val set_defined undefine]; try exact I
  | |- inv _ (push _) => apply vo_push
  | |- inv _ (push_str _) => apply vo_push_str
  | |- inv _ (push_logic _) => apply vo_push_logic
  | |- inv _ (push_buf _) => apply vo_push_buf
  | |- inv _ pop => apply vo_pop'
  | |- inv _ pop_str => apply vo_pop_str'
  | |- inv _ (bind _ _) => apply inv_bind; [|intros ?]
  | |- inv _ (ret _) => apply inv_ret
  | |- inv _ crash => apply inv_crash
  | |- inv _ (run_error _) => apply vo_err
  | |- inv _ (assert _) => apply inv_assert
  | |- inv _ (if ?b then _ else _) => destruct b eqn:?
  | |- inv _ (match ?x with _ => _ end) => destruct x eqn:?
  | |- inv _ (adv _) => unfold adv
  | |- inv _ (jump _) => unfold jump
  | |- inv _ (unary _) => unfold unary
  | |- inv _ (binary _) => unfold binary
  | |- inv _ (compare_num _) => unfold compare_num
  | |- inv _ (compare_str _) => unfold compare_str, compare_strings
  | |- inv _ pop_logic => unfold pop_logic
  | |- inv _ pop_unsigned => unfold pop_unsigned
  | |- inv _ (pop_index _) => unfold pop_index
  | |- inv _ (modify _) => solve [apply vo_keeps; repeat keeps_more]
  | |- inv _ (put _) => solve [apply vo_keeps; repeat keeps_more]
  | |- inv _ (put_cols _ _) => solve [apply vo_keeps; repeat keeps_more]
  | |- inv _ (trace_for _) => solve [apply vo_keeps; repeat keeps_more]
  | |- inv _ (go_to_basic_line _) => solve [apply vo_keeps; repeat keeps_more]
  | |- inv _ (find_basic_line _) => solve [apply vo_keeps; repeat keeps_more]
  | |- inv _ get_bcode => solve [apply vo_keeps; repeat keeps_more]
  | |- inv _ (push_return _) => solve [apply vo_keeps; repeat keeps_more]
  | |- inv _ pop_return => solve [apply vo_keeps; repeat keeps_more]
  | |- inv _ (skip_to _) => solve [apply vo_keeps; repeat keeps_more]
  end; cbv beta zeta.

Lemma val_num_double x n : value_ok x -> val_num x = Some n -> double n.
Proof. destruct x; intros V H; inversion H; subst; [reflexivity|exact V]. Qed.
Lemma val_str_ok x s : value_ok x -> val_str x = Some s -> string_ok (opt_str s).
Proof. destruct x; intros V H; inversion H; subst; [cbn; unfold string_ok; cbn; lia|exact V]. Qed.
Lemma val_numarr_ok x a : value_ok x -> val_numarr x = Some (Some a) -> Forall double (ar_val a).
Proof. destruct x; intros V H; inversion H; subst; exact V. Qed.
Lemma val_strarr_ok x a : value_ok x -> val_strarr x = Some (Some a) -> Forall opt_ok (ar_val a).
Proof. destruct x; intros V H; inversion H; subst; exact V. Qed.
Lemma new_array_ok {A} (P : A -> Prop) z b mx a : P z -> new_array z b mx = AOk a -> Forall P (ar_val a).
Proof.
  intros Z. unfold new_array. destruct (init_array_size b mx); intros H; inversion H; subst. cbn [ar_val].
  apply Forall_forall. intros x X. apply repeat_spec in X. subst. exact Z.
Qed.
Lemma read_ok {A} (P : A -> Prop) a ix x : Forall P (ar_val a) -> read_element a ix = AOk x -> P x.
Proof.
  intros F. unfold read_element. destruct (compute_element_offset _ _); try discriminate.
  destruct (nth_error _ _) eqn:E; intros H; inversion H; subst. exact (Forall_nth _ _ _ _ F E).
Qed.
Lemma write_ok {A} (P : A -> Prop) a ix x a' : Forall P (ar_val a) -> P x -> write_element a ix x = AOk a' -> Forall P (ar_val a').
Proof.
  intros F X. unfold write_element. destruct (compute_element_offset _ _); try discriminate.
  destruct (nth_error _ _) eqn:E; intros H; inversion H; subst. cbn [ar_val]. apply Forall_list_upd; assumption.
Qed.
Lemma fzero_double : double fzero. Proof. reflexivity. Qed.
Lemma fone_double : double fone. Proof. reflexivity. Qed.
Lemma nil_ok : string_ok []. Proof. unfold string_ok. cbn. lia. Qed.
#[export] Hint Resolve fzero_double fone_double nil_ok fofZ_double fofN_double fadd_double fsub_double fmul_double fdiv_double
  fneg_double fabs_double fsqrt_double ffloor_double : values.

Lemma vo_pop_indexes d nm : vinv (pop_indexes d nm).
Proof.
  unfold pop_indexes. apply inv_bind; [apply inv_assert|intros _].
  induction (N.to_nat d) as [|k IH]; cbn [pop_indexes_loop]; repeat first [apply IH|vo_one].
Qed.
Lemma vo_get_numeric_simple id : vinv (get_numeric_simple id).
Proof. unfold get_numeric_simple. repeat vo_one; eauto using val_num_double with values. Qed.
Lemma vo_set_numeric_simple id x : double x -> vinv (set_numeric_simple id x).
Proof. intros X. unfold set_numeric_simple. repeat vo_one; eauto. Qed.
Lemma vo_dimension_numeric id mx : vinv (dimension_numeric id mx).
Proof. unfold dimension_numeric. repeat vo_one. eapply new_array_ok; [|eassumption]. reflexivity. Qed.
Lemma vo_numeric_array_at {B} id n (k : list N * array num -> M B) :
  (forall ix a, Forall double (ar_val a) -> vinv (k (ix, a))) -> vinv (bind (numeric_array_at id n) k).
Proof.
  intros H v T.
  assert (R : vinv (numeric_array_at id n)).
  { unfold numeric_array_at, dimension_numeric_auto. repeat first [apply vo_pop_indexes|apply vo_dimension_numeric|vo_one]; apply inv_some. }
  specialize (R v T). unfold bind. destruct (numeric_array_at id n v) as [[[ix a]|e| |] w] eqn:E; try exact R. cbn [snd] in R.
  apply H; [|exact R]. apply numeric_array_at_post in E as (s & G & V).
  pose proof (Forall_nth _ _ _ _ (ok_syms _ R) G) as F. cbn beta in F. rewrite V in F. exact F.
Qed.
Lemma vo_get_numeric_element id n : vinv (get_numeric_element id n).
Proof. unfold get_numeric_element. apply vo_numeric_array_at. intros ix a F. repeat vo_one. eapply read_ok; eassumption. Qed.
Lemma vo_set_numeric_element id n x : double x -> vinv (set_numeric_element id n x).
Proof. intros X. unfold set_numeric_element. apply vo_numeric_array_at. intros ix a F. repeat vo_one. eapply write_ok; eassumption. Qed.
Lemma vo_set_numeric id n x : double x -> vinv (set_numeric id n x).
Proof. intros X. unfold set_numeric. destruct (_ =? _)%N; [apply vo_set_numeric_simple, X|apply vo_set_numeric_element, X]. Qed.

Lemma vo_get_string_simple id : vinv (get_string_simple id).
Proof. unfold get_string_simple. repeat vo_one; eauto using val_str_ok with values. Qed.
Lemma vo_set_string_simple id x : string_ok x -> vinv (set_string_simple id x).
Proof. intros X. unfold set_string_simple. repeat vo_one; eauto. Qed.
Lemma vo_dimension_string id mx : vinv (dimension_string id mx).
Proof. unfold dimension_string. repeat vo_one. eapply new_array_ok; [|eassumption]. exact I. Qed.
Lemma vo_string_array_at {B} id n (k : list N * array (option bytes) -> M B) :
  (forall ix a, Forall opt_ok (ar_val a) -> vinv (k (ix, a))) -> vinv (bind (string_array_at id n) k).
Proof.
  intros H v T.
  assert (R : vinv (string_array_at id n)).
  { unfold string_array_at, dimension_string_auto. repeat first [apply vo_pop_indexes|apply vo_dimension_string|vo_one]; apply inv_some. }
  specialize (R v T). unfold bind. destruct (string_array_at id n v) as [[[ix a]|e| |] w] eqn:E; try exact R. cbn [snd] in R.
  apply H; [|exact R]. apply string_array_at_post in E as (s & G & V).
  pose proof (Forall_nth _ _ _ _ (ok_syms _ R) G) as F. cbn beta in F. rewrite V in F. exact F.
Qed.
Lemma opt_str_ok s : opt_ok s -> string_ok (opt_str s).
Proof. destruct s; [auto|intros _; apply nil_ok]. Qed.
Lemma vo_get_string_element id n : vinv (get_string_element id n).
Proof.
  unfold get_string_element. apply vo_string_array_at. intros ix a F. repeat vo_one. apply opt_str_ok. eapply read_ok; eassumption.
Qed.
Lemma vo_set_string_element id n x : string_ok x -> vinv (set_string_element id n x).
Proof.
  intros X. unfold set_string_element. apply vo_string_array_at. intros ix a F. repeat vo_one.
  eapply write_ok; [eassumption| |eassumption]. exact X.
Qed.
Lemma vo_set_string id n x : string_ok x -> vinv (set_string id n x).
Proof. intros X. unfold set_string. destruct (_ =? _)%N; [apply vo_set_string_simple, X|apply vo_set_string_element, X]. Qed.

Lemma vo_exec_dim_num id n : vinv (exec_dim_num id n).
Proof. unfold exec_dim_num. repeat first [apply vo_dimension_numeric|apply vo_pop_indexes|vo_one]. Qed.
Lemma vo_exec_dim_str id n : vinv (exec_dim_str id n).
Proof. unfold exec_dim_str. repeat first [apply vo_dimension_string|apply vo_pop_indexes|vo_one]. Qed.

Lemma vo_set_for_upd si f : double (f_step f) -> double (f_limit f) ->
  vinv (modify (fun w => set_for (list_upd (v_for w) si f) w)).
Proof. intros A B v [? ? ? L ? ? ?]. constructor; try assumption. cbn. apply Forall_list_upd; [exact L|split; assumption]. Qed.

Lemma vo_next si : vinv (next si).
Proof.
  unfold next. apply vo_get. intros v T. apply vo_some. intros f F.
  pose proof (Forall_nth _ _ _ _ (ok_for _ T) F) as [FS FL].
  apply vo_get_sym. intros s S. apply vo_some. intros x X. cbv zeta.
  apply inv_bind; [|intros _; vo_one]. destruct (_ || _).
  - intros w [? ? ? L ? ? ?]. constructor; try assumption. cbn. apply Forall_remove_nth, L.
  - repeat vo_one. apply fadd_double; [exact (val_num_double _ _ S X)|exact FS].
Qed.

Lemma vo_set_for v l : values_ok v -> Forall (fun f => double (f_step f) /\ double (f_limit f)) l -> values_ok (set_for l v).
Proof. intros [] L. constructor; assumption. Qed.

Lemma vo_exec_for id : vinv (exec_for id).
Proof.
  unfold exec_for. apply inv_bind; [vo_one|intros _].
  apply vo_get_sym. intros s S. apply inv_bind; [apply inv_assert|intros _].
  intros v T. unfold bind at 1, get at 1.
  match goal with |- values_ok (snd (bind ?m ?k v)) => set (mm := m); set (kk := k) end.
  assert (M1 : values_ok (snd (mm v))).
  { unfold mm. destruct (find_for (v_for v) id) as [si|].
    - unfold bind. destruct (nth_error (v_for v) si) as [f|] eqn:F; [|exact T]. cbn. apply vo_set_for; [exact T|].
      apply Forall_app. split; [apply Forall_remove_nth, ok_for, T|]. constructor; [|constructor].
      exact (Forall_nth _ _ _ _ (ok_for _ T) F).
    - destruct (Nat.leb _ _).
      + revert T. apply vo_keeps. repeat keeps_more.
      + apply vo_set_for; [exact T|]. apply Forall_app. split; [apply ok_for, T|].
        constructor; [split; reflexivity|constructor]. }
  unfold bind at 1. destruct (mm v) as [[u|e| |] w]; try exact M1. cbn [snd] in M1.
  revert M1. generalize w. change (vinv (kk u)). unfold kk. clear - S.
  apply vo_get. intros v T. cbv zeta. apply vo_some. intros f F.
  pose proof (Forall_nth _ _ _ _ (ok_for _ T) F) as [FS FL].
  repeat first [apply vo_set_for_upd; cbn [f_step f_limit]|vo_one]; assumption.
Qed.

Lemma vo_set_fn f : double (fn_val f) -> vinv (modify (set_fn f)).
Proof. intros H v []. constructor; assumption. Qed.

Lemma vo_call_def id n : vinv (call_def id n).
Proof.
  unfold call_def. apply vo_get_sym. intros s S. apply inv_bind; [apply inv_assert|intros _].
  destruct (negb _); [apply vo_err|]. apply vo_some. intros d0 D0. apply vo_some. intros d D. subst d0.
  assert (V : s_val s = VDef d) by (destruct (s_val s); cbn [val_def] in D0; congruence). rewrite V in S. cbn [value_ok] in S.
  apply vo_get. intros v T. destruct (cs_code _); [apply vo_err|]. destruct (negb _); [apply vo_err|].
  apply inv_bind; [vo_one|intros bc]. destruct (Nat.leb _ _); [apply vo_err|].
  apply inv_bind; [apply vo_set_fn; cbn; apply (ok_fn _ T)|intros _].
  apply inv_bind.
  { intros w [? ? ? ? ? C ?]. constructor; try assumption. intros [| |] b H; cbn in H.
    - exact (C CStored b H).
    - exact (C CImmediate b H).
    - injection H as <-. exact S. }
  intros _. apply inv_bind; [vo_one|intros _]. destruct (nth_error _ _) as [[]|]; try apply vo_err; [|apply inv_crash].
  apply vo_get_sym. intros ps P. apply inv_bind; [apply inv_assert|intros _]. apply vo_some. intros old O.
  apply inv_bind; [apply vo_set_fn; exact (val_num_double _ _ P O)|intros _].
  repeat vo_one. assumption.
Qed.
Lemma vo_end_def : vinv end_def.
Proof.
  unfold end_def. apply vo_get. intros v T. destruct (cs_code _); [|apply vo_err]. cbv zeta.
  repeat first [apply vo_set_fn; cbn; apply (ok_fn _ T)|vo_one]. apply (ok_fn _ T).
Qed.
Lemma copy_consts bc pc : consts_ok bc -> consts_ok (bcode_copy_def bc pc).
Proof.
  unfold consts_ok. intros H. rewrite copy_def_inst. apply Forall_app. split; [|repeat constructor].
  apply Forall_firstn', Forall_skipn', H.
Qed.
Lemma vo_get_bcode {B} (k : bcode -> M B) : (forall bc, consts_ok bc -> vinv (k bc)) -> vinv (bind get_bcode k).
Proof.
  intros H v T. unfold bind, get_bcode. destruct (cur_bcode v) as [bc|] eqn:E; [|exact T].
  apply H; [|exact T]. unfold cur_bcode in E. destruct (cs_code _) as [r|]; [|discriminate]. exact (ok_code _ T _ _ E).
Qed.
Lemma vo_exec_def id n : vinv (exec_def id n).
Proof.
  unfold exec_def. apply vo_get_sym. intros s S. apply inv_bind; [apply inv_assert|intros _].
  apply vo_some. intros d0 D0. apply inv_bind; [repeat vo_one|intros _].
  destruct (negb _); [apply vo_err|]. apply vo_get_bcode. intros bc C. repeat vo_one. cbn. apply copy_consts, C.
Qed.
Lemma vo_find_data {B} (k : bytes -> M B) : (forall s, string_ok s -> vinv (k s)) -> vinv (bind find_data k).
Proof.
  intros H v T.
  assert (R : vinv find_data) by (apply vo_keeps; repeat keeps_more).
  specialize (R v T). unfold bind. destruct (find_data v) as [[s|e| |] w] eqn:E; try exact R. apply H; [|exact R].
  clear R H. revert E. unfold find_data.
  assert (X : forall (im : bool) bc, (if im then c_bcode (v_imm v) else c_bcode (v_stored v)) = Some bc -> consts_ok bc).
  { intros [] bc Hb; [exact (ok_code _ T CImmediate bc Hb)|exact (ok_code _ T CStored bc Hb)]. }
  destruct (match cs_code (v_cs v) with Some CImmediate => true | _ => false end) eqn:I.
  - destruct (c_bcode (v_imm v)) as [b0|] eqn:B0; [|discriminate].
    cbn [andb]. destruct (if bc_has_data b0 then _ else _) as [bc|] eqn:BC; [|discriminate].
    assert (Y : consts_ok bc) by (apply (X (bc_has_data b0)); rewrite <- BC; destruct (bc_has_data b0); congruence).
    destruct (negb _); [discriminate|]. cbv zeta. destruct (nth_error (bc_inst bc) _) as [[]|] eqn:N; try discriminate.
    intros H. injection H as <- _. exact (Forall_nth _ _ _ _ Y N).
  - cbn [andb]. destruct (c_bcode (v_stored v)) as [bc|] eqn:BC; [|destruct (c_bcode (v_imm v)); discriminate].
    assert (Y : consts_ok bc) by (apply (X false); reflexivity).
    destruct (negb _); [destruct (c_bcode (v_imm v)); discriminate|].
    cbv zeta. destruct (nth_error (bc_inst bc) _) as [[]|] eqn:N; try (destruct (c_bcode (v_imm v)); discriminate).
    destruct (c_bcode (v_imm v)); intros H; injection H as <- _; exact (Forall_nth _ _ _ _ Y N).
Qed.

Lemma convert_double s x t : convert s = Some (x, t) -> double x.
Proof.
  unfold convert. destruct (drop_while is_blank s) as [|c r] eqn:D; [discriminate|].
  destruct (_ || _); [|discriminate]. pose proof (strtod_double (c :: r)) as S.
  destruct (strtod (c :: r)) as [y e]. intros H. injection H as <- _. exact S.
Qed.

Lemma fgets_loop_length n : forall s, length (fst (fgets_loop n s)) <= n.
Proof.
  induction n as [|n IH]; intros [|c s]; cbn [fgets_loop fst length]; try lia.
  destruct (ceq c NL); cbn [fst length]; [lia|]. specialize (IH s). destruct (fgets_loop n s). cbn [fst length] in *. lia.
Qed.
Lemma cstr_length s : length (cstr s) <= length s.
Proof. induction s as [|c s IH]; cbn [cstr]; [lia|]. destruct (ceq c NUL); cbn [length]; lia. Qed.
Lemma span_length p (s : bytes) : length (fst (span p s)) <= length s.
Proof. induction s as [|c s IH]; cbn; [lia|]. destruct (p c); cbn; [|lia]. destruct (span p s). cbn in *. lia. Qed.
Lemma two_digits_length n : (n <= 60)%N -> length (two_digits n) <= 9.
Proof.
  intros H. pose proof (dec_of_N_length n 7 ltac:(change (2 ^ N.of_nat 7)%N with 128%N; lia)).
  unfold two_digits. destruct (_ <? _)%N; cbn [length]; lia.
Qed.

Lemma rnd_double E : forall f seed k x k', rnd_loop f E seed k = Some (x, k') -> double x.
Proof.
  induction f as [|f IH]; intros seed k x k' H; cbn [rnd_loop] in H; [discriminate|].
  destruct (fgeb _ _); [exact (IH _ _ _ _ H)|]. injection H as <- _. apply fdiv_double; apply fofN_double.
Qed.

Lemma vo_clear : vinv (modify (fun v => set_st (clear_symbol_table_values (v_st v)) v)).
Proof.
  intros v []. constructor; try assumption. cbn. apply Forall_map. eapply Forall_impl; [|eassumption]. cbn beta.
  intros s F. destruct (s_defined s); [|exact F]. unfold undefine_value. destruct (s_kind s); exact F || exact I.
Qed.

Lemma vo_set_input b i pc r v : values_ok v -> string_ok b -> values_ok (set_input b i pc r v).
Proof. intros [] B. constructor; assumption. Qed.

Lemma vo_exec E i : env_ok E -> const_ok i -> vinv (exec_instr E i).
Proof.
  intros EO C. destruct EO.
  destruct i; cbn [exec_instr const_ok] in *;
    try solve [apply vo_keeps; repeat keeps_more];
    try solve [repeat first
      [ apply vo_clear | apply vo_get_numeric_simple | apply vo_exec_dim_num | apply vo_get_numeric_element
      | apply vo_call_def | apply vo_get_string_simple | apply vo_exec_dim_str
      | apply vo_get_string_element | apply vo_exec_for | apply vo_next | apply vo_end_def | apply vo_exec_def
      | apply vo_set_numeric_simple; assumption | apply vo_set_numeric_element; assumption
      | apply vo_set_string_simple; assumption | apply vo_set_string_element; assumption
      | apply vo_find_data; intros ? ?
      | apply vo_set_string; assumption
      | apply vo_set_numeric; eapply convert_double; eassumption
      | vo_one | solve [eauto using convert_double with values]]].
  - repeat vo_one. unfold string_ok. rewrite app_length. lia.
  - unfold exec_on. repeat vo_one.
  - unfold exec_on. repeat vo_one.
  - apply inv_bind; [vo_one|intros _]. unfold adv. apply inv_bind; [|intros _; apply inv_ret]. intros v T.
    unfold modify. cbn [snd]. unfold fgets. destruct (v_in v) as [|c r] eqn:IN.
    + apply vo_set_input; [exact T|apply (ok_input _ T)].
    + pose proof (fgets_loop_length (128 - 1) (c :: r)) as F. destruct (fgets_loop (128 - 1) (c :: r)) as [buf rest].
      apply vo_set_input; [exact T|]. unfold string_ok. pose proof (cstr_length buf). cbn [fst] in F. lia.
  - apply vo_get. intros v T. apply vo_some. intros [i s] IR. destruct (span is_field_char s) as [fd q] eqn:SP.
    apply inv_bind; [vo_one|intros _]. unfold adv. apply inv_bind; [|intros _; apply inv_ret]. apply vo_set_string.
    pose proof (span_length is_field_char s) as L. rewrite SP in L. cbn [fst] in L.
    unfold input_rest in IR. destruct (v_inp v); [|discriminate]. injection IR as <- <-.
    rewrite skipn_length in L. pose proof (ok_input _ T). unfold string_ok in *. lia.
  - apply vo_get. intros v T. cbv zeta.
    assert (SO : string_ok (fst (span (fun c : ascii => negb (ceq c NL)) (v_input v)))).
    { pose proof (span_length (fun c : ascii => negb (ceq c NL)) (v_input v)). pose proof (ok_input _ T). unfold string_ok in *. lia. }
    apply inv_bind.
    + intros w W. apply vo_set_input; [exact W|exact SO].
    + intros _. unfold adv. apply inv_bind; [|intros _; apply inv_ret]. apply vo_set_string, SO.
  - repeat vo_one. unfold string_ok. pose proof (cstr_length [chr (Z.to_N a)]). cbn [length] in *. lia.
  - intros v T. destruct (rnd_loop _ _ _ _) as [[x k]|] eqn:R; [|exact T].
    assert (P : vinv (adv (push x))) by (repeat vo_one; exact (rnd_double _ _ _ _ _ _ R)). apply P.
    apply (vo_keeps (modify (set_rand (v_seed v) k (v_clock v)))); [repeat keeps_more|exact T].
  - repeat vo_one. destruct (fltb x fzero); [apply fofZ_double|]. destruct (fgtb x fzero); [apply fone_double|assumption].
  - repeat vo_one. unfold string_ok. pose proof (format_g_length x ltac:(assumption)). lia.
  - intros v T. specialize (ok_hms (v_clock v)). destruct (e_hms E (v_clock v)) as [[h m] s].
    match goal with |- values_ok (snd (?m _)) => assert (R : vinv m) end.
    { repeat vo_one. unfold string_ok. rewrite !app_length. destruct ok_hms as (H1 & H2 & H3).
      pose proof (two_digits_length h ltac:(lia)). pose proof (two_digits_length m ltac:(lia)). pose proof (two_digits_length s ltac:(lia)).
      cbn [length lit]. cbn. lia. }
    apply R. apply (vo_keeps (modify (set_rand (v_seed v) (v_randk v) (S (v_clock v))))); [repeat keeps_more|exact T].
Qed.

Lemma vo_set_pc n v : values_ok v -> values_ok (set_pc n v).
Proof. apply (vo_keeps (modify (set_pc n))). repeat keeps_more. Qed.

Lemma vo_execute E v : env_ok E -> values_ok v -> values_ok (snd (execute E v)).
Proof.
  intros EO T. destruct (current v) as [i|] eqn:C.
  - rewrite (execute_eq E v i C).
    assert (K : const_ok i).
    { unfold current in C. destruct (cur_bcode v) as [bc|] eqn:B; [|discriminate].
      unfold cur_bcode in B. destruct (cs_code (v_cs v)) as [r|]; [|discriminate].
      exact (Forall_nth _ _ _ _ (ok_code _ T r bc B) C). }
    pose proof (vo_exec E i EO K v T) as R.
    destruct (exec_instr E i v) as [[[]|e| |] w]; cbn [finish snd] in *; try exact R. apply vo_set_pc, R.
  - rewrite (execute_none E v C). exact T.
Qed.

Lemma vo_runs E v l v' : env_ok E -> runs E v l v' -> values_ok v -> values_ok v'.
Proof.
  intros EO. induction 1 as [|v v1 l v' X R IH]; intros T; [exact T|]. apply IH.
  pose proof (vo_execute E v EO T) as H. rewrite X in H. exact H.
Qed.

Lemma vo_run E fuel brk : env_ok E -> vinv (run E fuel brk).
Proof.
  intros EO. apply run_inv.
  - intros v. apply vo_execute, EO.
  - intros b v. apply (vo_keeps (modify (set_stopped b))). repeat keeps_more.
  - intros c v. apply (vo_keeps (modify (set_stopcs c))). repeat keeps_more.
  - intros o c v. apply (vo_keeps (modify (set_outcol o c))). repeat keeps_more.
Qed.
