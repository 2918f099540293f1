(* Compiled code never trips an assertion (C31). *)
From Coq Require Import Lia ZifyBool ZifyNat ZifyN SpecFloat.
From Verif Require Import Base BaseLemmas Num NumSpec NumLemmas DoubleProofs SourceModel LineMapModel ArrayModel ArraySpec ArrayProofs BcodeModel SymbolModel SymbolSpec
  VmModel VmLemmas VmSpec ControlProofs OpSpec OpProofs VmTyping ValueSpec ValueProofs GrammarSpec TypeSpec StoreSpec StoreProofs StepSpec SafeProofs PrintSpec.
Local Open Scope nat_scope.
Local Notation typed := VmTyping.typed.

(* the action is not undefined in v, and if it succeeds Q holds *)
Definition wp {A} (m : M A) (v : vm) (Q : A -> vm -> Prop) : Prop :=
  match m v with (Ok a, w) => Q a w | (Crash, _) => False | _ => True end.
Lemma wp_bind {A B} (m : M A) (k : A -> M B) v Q : wp m v (fun a w => wp (k a) w Q) -> wp (bind m k) v Q.
Proof. unfold wp, bind. destruct (m v) as [[a|e| |] w]; auto. Qed.
Lemma wp_weak {A} (m : M A) v (P Q : A -> vm -> Prop) : wp m v P -> (forall a w, P a w -> Q a w) -> wp m v Q.
Proof. unfold wp. destruct (m v) as [[a|e| |] w]; auto. Qed.
Lemma wp_ret {A} (a : A) v (Q : A -> vm -> Prop) : Q a v -> wp (ret a) v Q.
Proof. exact (fun H => H). Qed.
Lemma wp_get v (Q : vm -> vm -> Prop) : Q v v -> wp get v Q.
Proof. exact (fun H => H). Qed.
Lemma wp_modify f v (Q : unit -> vm -> Prop) : Q tt (f v) -> wp (modify f) v Q.
Proof. exact (fun H => H). Qed.
Lemma wp_error {A} e v (Q : A -> vm -> Prop) : wp (run_error e) v Q.
Proof. exact I. Qed.
Lemma wp_pop v (Q : num -> vm -> Prop) : (forall x r, v_stack v = x :: r -> Q x (set_stack r v)) -> wp pop v Q.
Proof. intros H. unfold wp, pop. destruct (v_stack v) as [|x r]; [exact I|]. apply H. reflexivity. Qed.
Lemma wp_push x v (Q : unit -> vm -> Prop) : Q tt (set_stack (x :: v_stack v) v) -> wp (push x) v Q.
Proof. intros H. unfold wp, push. destruct (Nat.leb _ _); [exact I|exact H]. Qed.
Lemma wp_pop_str v (Q : bytes -> vm -> Prop) : (forall x r, v_sstack v = x :: r -> Q x (set_sstack r v)) -> wp pop_str v Q.
Proof. intros H. unfold wp, pop_str. destruct (v_sstack v) as [|x r]; [exact I|]. apply H. reflexivity. Qed.
Lemma wp_push_str x v (Q : unit -> vm -> Prop) : Q tt (set_sstack (x :: v_sstack v) v) -> wp (push_str x) v Q.
Proof. intros H. unfold wp, push_str. destruct (Nat.leb _ _); [exact I|exact H]. Qed.
Lemma wp_get_sym id s v (Q : symbol -> vm -> Prop) : symbol_at (v_st v) id = Some s -> Q s v -> wp (get_sym id) v Q.
Proof. intros H K. unfold wp, get_sym. rewrite H. exact K. Qed.
Lemma wp_put_sym id s v (Q : unit -> vm -> Prop) : Q tt (set_st (sym_update (v_st v) (N.to_nat id) s) v) -> wp (put_sym id s) v Q.
Proof. exact (fun H => H). Qed.
Lemma wp_assert b v (Q : unit -> vm -> Prop) : b = true -> Q tt v -> wp (assert b) v Q.
Proof. intros -> H. exact H. Qed.
Lemma wp_some {A} (o : option A) a v (Q : A -> vm -> Prop) : o = Some a -> Q a v -> wp (some_or_crash o) v Q.
Proof. intros -> H. exact H. Qed.
Lemma wp_bcode b v (Q : bcode -> vm -> Prop) : cur_bcode v = Some b -> Q b v -> wp get_bcode v Q.
Proof. intros H K. unfold wp, get_bcode. rewrite H. exact K. Qed.
Lemma wp_line n v (Q : nat -> vm -> Prop) : (forall p, Q p v) -> wp (find_basic_line n) v Q.
Proof. intros H. unfold wp, find_basic_line. destruct (c_index _) as [x|]; [destruct (lookup_line_mapping x n)|]; [apply H|exact I|exact I]. Qed.
Definition done {A} (a : A) (v : vm) : Prop := True.

(* actions that are never undefined *)
Definition nc {A} (m : M A) : Prop := forall v, wp m v done.
Lemma nc_bind {A B} (m : M A) (k : A -> M B) : nc m -> (forall a, nc (k a)) -> nc (bind m k).
Proof. intros H K v. apply wp_bind. eapply wp_weak; [apply H|]. intros a w _. apply K. Qed.
Lemma nc_ret {A} (a : A) : nc (ret a).
Proof. intros v. exact I. Qed.
Lemma nc_get {B} (k : vm -> M B) : (forall v, nc (k v)) -> nc (bind get k).
Proof. intros H v. apply wp_bind, wp_get, H. Qed.
Lemma nc_modify f : nc (modify f).
Proof. intros v. exact I. Qed.
Lemma nc_error {A} e : nc (@run_error A e).
Proof. intros v. exact I. Qed.
Lemma nc_pop : nc pop.
Proof. intros v. apply wp_pop. intros. exact I. Qed.
Lemma nc_push x : nc (push x).
Proof. intros v. apply wp_push. exact I. Qed.
Lemma nc_pop_str : nc pop_str.
Proof. intros v. apply wp_pop_str. intros. exact I. Qed.
Lemma nc_push_str x : nc (push_str x).
Proof. intros v. apply wp_push_str. exact I. Qed.
Lemma nc_line n : nc (find_basic_line n).
Proof. intros v. apply wp_line. intros. exact I. Qed.

Lemma whole_to_Z x a b : fneb x (ffloor x) = false \/ fneb (ffloor x) x = false -> fltb x a = false -> fgtb x b = false ->
  fltb (S754_infinity true) a = true -> fgtb (S754_infinity false) b = true -> exists z, ftoZ x = Some z.
Proof.
  intros H1 H2 H3 H4 H5. destruct x as [s|[]| |s m e]; try (eexists; reflexivity).
  - rewrite H4 in H2. discriminate H2.
  - rewrite H5 in H3. discriminate H3.
  - destruct H1 as [H1|H1]; discriminate H1.
Qed.
Lemma nc_pop_logic : nc pop_logic.
Proof.
  unfold pop_logic. apply nc_bind; [apply nc_pop|]. intros x. destruct (_ || _) eqn:H; [apply nc_error|]. apply Bool.orb_false_iff in H as [H H3]. apply Bool.orb_false_iff in H as [H1 H2].
  destruct (whole_to_Z x _ _ (or_introl H3) H1 H2 eq_refl eq_refl) as (z & ->). apply nc_ret.
Qed.
Lemma nc_pop_unsigned : nc pop_unsigned.
Proof.
  unfold pop_unsigned. apply nc_bind; [apply nc_pop|]. intros x. destruct (_ || _) eqn:H; [apply nc_error|]. apply Bool.orb_false_iff in H as [H1 H3]. destruct (fgtb _ _) eqn:H2; [apply nc_error|].
  destruct (whole_to_Z x _ _ (or_intror H3) H1 H2 eq_refl eq_refl) as (z & ->). apply nc_ret.
Qed.
Ltac nc_step :=
  match goal with
  | |- nc (bind get _) => apply nc_get; intros ?
  | |- nc (bind _ _) => apply nc_bind; [|intros ?]
  | |- nc (ret _) => apply nc_ret
  | |- nc (modify _) => apply nc_modify
  | |- nc (run_error _) => apply nc_error
  | |- nc pop => apply nc_pop
  | |- nc (push _) => apply nc_push
  | |- nc pop_str => apply nc_pop_str
  | |- nc (push_str _) => apply nc_push_str
  | |- nc (find_basic_line _) => apply nc_line
  | |- nc pop_logic => apply nc_pop_logic
  | |- nc pop_unsigned => apply nc_pop_unsigned
  | |- nc (if ?b then _ else _) => destruct b
  | |- nc (match ?x with _ => _ end) => destruct x
  | |- nc _ => progress unfold adv, jump, unary, binary, push_logic, compare_num, compare_str, compare_strings, push_buf, put, put_cols, go_to_basic_line
  end; cbv beta zeta.
Ltac nc_go := repeat nc_step.

Section Crash.
Variables (E : env) (g : list sig).

(* instructions without a symbol *)
Definition symbolless (i : instr) : bool :=
  match i with
  | I_NOP | I_CLEAR | I_PUSH_NUM _ | I_POP_NUM | I_NEG | I_ADD | I_SUB | I_MUL | I_DIV | I_POW
  | I_EQ_NUM | I_LT_NUM | I_GT_NUM | I_NE_NUM | I_LE_NUM | I_GE_NUM | I_OR | I_AND | I_NOT | I_PUSH_STR _ | I_POP_STR
  | I_EQ_STR | I_NE_STR | I_LT_STR | I_GT_STR | I_LE_STR | I_GE_STR | I_CONCAT | I_STOP | I_GOTO _ | I_GOTRUE _ | I_PARAM _ | I_ON_LINE _
  | I_PRINT_LN | I_PRINT_SPC | I_PRINT_TAB | I_PRINT_COMMA | I_PRINT_NUM | I_PRINT_STR | I_CLS | I_INPUT_BUF _ | I_DATA _ | I_RESTORE | I_RESTORE_LINE _
  | I_RAND | I_SEED | I_ASC | I_ABS | I_ATN | I_CHR | I_COS | I_EXP | I_INKEY | I_INT | I_LEFT | I_LEN | I_LOG | I_MID3 | I_STR | I_RIGHT | I_RND
  | I_SGN | I_SIN | I_SQR | I_TAN | I_TIME_STR | I_VAL => true
  | _ => false
  end.
Lemma nc_symbolless i : symbolless i = true -> nc (exec_instr E i).
Proof.
  intros H. destruct i; try discriminate H; cbn [exec_instr]; try solve [nc_go].
  - apply nc_bind; [apply nc_pop|]. intros x. destruct (_ || _) eqn:Q; [apply nc_error|]. apply Bool.orb_false_iff in Q as [Q H3]. apply Bool.orb_false_iff in Q as [H1 H2].
    destruct (whole_to_Z x _ _ (or_introl H3) H1 H2 eq_refl eq_refl) as (z & ->). cbn [some_or_crash]. nc_go.
  - intros v. unfold wp. destruct (rnd_loop _ _ _ _) as [[x k]|]; [|exact I]. match goal with |- match adv ?f ?w with _ => _ end => assert (X : nc (adv f)) by nc_go; exact (X w) end.
  - intros v. unfold wp. destruct (e_hms E (v_clock v)) as [[h m] s]. match goal with |- match adv ?f ?w with _ => _ end => assert (X : nc (adv f)) by nc_go; exact (X w) end.
Qed.

(* ---------- symbols ---------- *)

Definition tab_ok (st : symtab) : Prop := sigs st = g /\ Forall (fits g) (st_syms st) /\
  Forall (fun s => match s_val s with VNumArr a => sound_array a | VStrArr a => sound_array a | _ => True end) (st_syms st).
Lemma sym_of st id k t : tab_ok st -> sg_kind g id k t -> exists s, symbol_at st id = Some s /\ s_kind s = k /\ s_type s = t /\ fits g s.
Proof.
  intros (T1 & T2 & _) (nm & i & G). rewrite <- T1 in G. unfold sigs in G. rewrite nth_error_map in G. unfold symbol_at. destruct (nth_error (st_syms st) (N.to_nat id)) as [s|] eqn:N; [|discriminate G].
  injection G as G1 G2 G3 G4. exists s. split; [reflexivity|]. split; [exact G3|]. split; [exact G4|]. exact (VmTyping.Forall_nth _ _ _ _ T2 N).
Qed.
Lemma is_kind_true k t s : s_kind s = k -> s_type s = t -> is_kind k t s = true.
Proof. intros <- <-. unfold is_kind. destruct (s_kind s), (s_type s); reflexivity. Qed.
Ltac symbol H := let s := fresh "s" in let S := fresh "SY" in let K := fresh "K" in let Y := fresh "Y" in let F := fresh "F" in
  destruct (sym_of _ _ _ _ ltac:(eassumption) H) as (s & S & K & Y & F); unfold fits in F; rewrite K, Y in F.
Ltac know := apply wp_bind; eapply wp_get_sym; [eassumption|]; cbv beta.

Lemma wp_get_simple id v : tab_ok (v_st v) -> sg_kind g id KVariable TNum -> wp (get_numeric_simple id) v done.
Proof.
  intros T G. symbol G. unfold get_numeric_simple. know. apply wp_bind. eapply wp_assert; [exact (is_kind_true _ _ _ K Y)|]. destruct (s_defined s).
  - apply wp_bind. destruct (s_val s); try contradiction F; (eapply wp_some; [reflexivity|apply nc_push]).
  - apply wp_bind, wp_put_sym, nc_push.
Qed.
Lemma wp_set_simple id x v : tab_ok (v_st v) -> sg_kind g id KVariable TNum -> wp (set_numeric_simple id x) v done.
Proof. intros T G. symbol G. unfold set_numeric_simple. know. apply wp_bind. eapply wp_assert; [exact (is_kind_true _ _ _ K Y)|]. exact I. Qed.
Lemma wp_gets_simple id v : tab_ok (v_st v) -> sg_kind g id KVariable TStr -> wp (get_string_simple id) v done.
Proof.
  intros T G. symbol G. unfold get_string_simple. know. apply wp_bind. eapply wp_assert; [exact (is_kind_true _ _ _ K Y)|]. destruct (s_defined s).
  - apply wp_bind. destruct (s_val s); try contradiction F; (eapply wp_some; [reflexivity|apply nc_push_str]).
  - apply wp_bind, wp_put_sym, nc_push_str.
Qed.
Lemma wp_sets_simple id x v : tab_ok (v_st v) -> sg_kind g id KVariable TStr -> wp (set_string_simple id x) v done.
Proof.
  intros T G. symbol G. unfold set_string_simple. know. apply wp_bind. eapply wp_assert; [exact (is_kind_true _ _ _ K Y)|]. apply wp_bind.
  destruct (s_val s); try contradiction F; (eapply wp_some; [reflexivity|]); apply wp_bind; [exact I|]. eapply wp_assert; [exact F|]. exact I.
Qed.

(* subscripts *)
Definition no_max (l : list num) : Prop := Forall (fun x => ~ is_integer x 4294967295) l.
Lemma wp_index {B} name (k : N -> M B) v x st (Q : B -> vm -> Prop) : v_stack v = x :: st -> double x -> ~ is_integer x 4294967295 ->
  (forall i, (i < 4294967295)%N -> wp (k i) (set_stack st v) Q) -> wp (bind (pop_index name) k) v Q.
Proof.
  intros S D N H. assert (DEC : (exists i, count x (N.to_nat i)) \/ forall n, ~ count x n).
  { destruct (whole_or_not x D) as [(z & IZ)|[([] & ->)|[F NI]]].
    - destruct (Z.leb_spec 0 z) as [L1|L1]; [destruct (Z.leb_spec z 4294967295) as [L2|L2]|].
      + left. exists (Z.to_N z). unfold count. replace (Z.of_nat (N.to_nat (Z.to_N z))) with z by lia. split; [exact IZ|lia].
      + right. intros n [IN RN]. pose proof (integer_unique x _ _ IN IZ) as EQ. change (2 ^ 32)%Z with 4294967296%Z in RN. clear - EQ RN L1 L2. lia.
      + right. intros n [IN RN]. pose proof (integer_unique x _ _ IN IZ) as EQ. clear - EQ L1. lia.
    - right. intros n [IN RN]. discriminate IN.
    - right. intros n [IN RN]. discriminate IN.
    - right. intros n [IN RN]. exact (NI _ IN). }
  destruct DEC as [(i & CI)|NO].
  - unfold wp. rewrite (bind_index name k v x st i S D CI). apply (H i). destruct CI as [IN RN]. assert (i <> 4294967295%N); [|lia]. intros ->. apply N. replace 4294967295%Z with (Z.of_nat (N.to_nat 4294967295)) by lia. exact IN.
  - destruct (bind_index_bad name k v x st S D NO) as (w & X & _). unfold wp. rewrite X. exact I.
Qed.

Lemma wp_loop name k : forall v (Q : list N -> vm -> Prop), Forall double (v_stack v) -> no_max (firstn k (v_stack v)) ->
  (forall idx, Forall (fun i => (i < 4294967295)%N) idx -> Q idx (set_stack (skipn k (v_stack v)) v)) -> wp (pop_indexes_loop k name) v Q.
Proof.
  induction k as [|k IH]; intros v Q D N H; cbn [pop_indexes_loop].
  - apply wp_ret. specialize (H [] (Forall_nil _)). cbn [skipn] in H. destruct v. exact H.
  - destruct (v_stack v) as [|x st] eqn:S.
    + unfold wp, bind, pop_index, bind, pop. cbv beta. rewrite S. exact I.
    + cbn [firstn] in N. inversion_clear N as [|? ? N1 N2]. inversion_clear D as [|? ? D1 D2].
      eapply wp_index; [exact S|exact D1|exact N1|]. intros i L. apply wp_bind. apply IH; [exact D2|exact N2|]. intros idx F. apply wp_ret. cbn [v_stack set_stack].
      specialize (H (i :: idx) (@Forall_cons N (fun i => (i < 4294967295)%N) i idx L F)). cbn [skipn] in H. destruct v. exact H.
Qed.
Lemma wp_indexes n name v (Q : list N -> vm -> Prop) : (n <= 2)%N -> Forall double (v_stack v) -> no_max (firstn (N.to_nat n) (v_stack v)) ->
  (forall idx, Forall (fun i => (i < 4294967295)%N) idx -> Q idx (set_stack (skipn (N.to_nat n) (v_stack v)) v)) -> wp (pop_indexes n name) v Q.
Proof. intros L D N H. unfold pop_indexes. apply wp_bind. apply wp_assert; [cbn; lia|]. apply wp_loop; assumption. Qed.
Lemma auto_below idx : Forall (fun i => (i < 4294967295)%N) idx -> below_max32 (auto_max idx).
Proof. intros F. unfold below_max32, auto_max. apply Forall_map. eapply Forall_impl; [|exact F]. intros i L. cbv beta. match goal with |- context [if ?b then _ else _] => destruct b end; [reflexivity|exact L]. Qed.
Lemma new_ok {A} (z : A) max a : below_max32 max -> new_array z 0 max = AOk a -> arr_ok a max.
Proof.
  intros B X. destruct (new_array_cases z max B) as [[D Y]|[_ Y]]; rewrite Y in X; [|discriminate X]. injection X as <-. split; [exact D|]. split; [reflexivity|]. cbn [ar_val]. apply repeat_length.
Qed.
Lemma new_not_crash {A} (z : A) max : below_max32 max -> new_array z 0 max <> ACrash.
Proof. intros B. destruct (new_array_cases z max B) as [[D ->]|[_ ->]]; discriminate. Qed.

Definition has_array {A} id (r : list N * array A) (w : vm) : Prop := (exists max, arr_ok (snd r) max) /\ exists s, symbol_at (v_st w) id = Some s.
Lemma wp_array id n v : tab_ok (v_st v) -> sg_kind g id KArray TNum -> (n <= 2)%N -> Forall double (v_stack v) -> no_max (firstn (N.to_nat n) (v_stack v)) ->
  wp (numeric_array_at id n) v (has_array id).
Proof.
  intros T G L D N. symbol G. unfold numeric_array_at. know. apply wp_bind, wp_assert; [exact (is_kind_true _ _ _ K Y)|]. apply wp_bind. apply wp_indexes; [exact L|exact D|exact N|]. intros idx BI. apply wp_bind.
  destruct (s_val s) eqn:V; try contradiction F; rewrite F.
  - unfold dimension_numeric_auto. know. apply wp_bind. rewrite V. eapply wp_some; [reflexivity|]. cbv iota. unfold dimension_numeric. know. apply wp_bind, wp_assert; [exact (is_kind_true _ _ _ K Y)|].
    destruct (new_array fzero 0 (auto_max idx)) as [a| |] eqn:NA; [|apply wp_bind, wp_put_sym, wp_error|exact (new_not_crash _ _ (auto_below _ BI) NA)].
    apply wp_put_sym. apply wp_bind. eapply wp_get_sym; [eapply symbol_update_same; exact SY|]. apply wp_bind. eapply wp_some; [reflexivity|]. apply wp_bind. eapply wp_some; [reflexivity|]. apply wp_ret. split; [exists (auto_max idx); exact (new_ok _ _ _ (auto_below _ BI) NA)|].
    eexists. eapply symbol_update_same; exact SY.
  - apply wp_ret. know. apply wp_bind. rewrite V. eapply wp_some; [reflexivity|]. apply wp_bind. eapply wp_some; [reflexivity|]. apply wp_ret. split; [|exists s; exact SY].
    apply sound_arr. destruct T as (_ & _ & T). pose proof (VmTyping.Forall_nth _ _ _ _ T SY) as X. cbv beta in X. rewrite V in X. exact X.
Qed.
Lemma wp_sarray id n v : tab_ok (v_st v) -> sg_kind g id KArray TStr -> (n <= 2)%N -> Forall double (v_stack v) -> no_max (firstn (N.to_nat n) (v_stack v)) ->
  wp (string_array_at id n) v (has_array id).
Proof.
  intros T G L D N. symbol G. unfold string_array_at. know. apply wp_bind, wp_assert; [exact (is_kind_true _ _ _ K Y)|]. apply wp_bind. apply wp_indexes; [exact L|exact D|exact N|]. intros idx BI. apply wp_bind.
  destruct (s_val s) eqn:V; try contradiction F; rewrite F.
  - unfold dimension_string_auto. know. apply wp_bind. rewrite V. eapply wp_some; [reflexivity|]. cbv iota. unfold dimension_string. know. apply wp_bind, wp_assert; [exact (is_kind_true _ _ _ K Y)|].
    destruct (new_array None 0 (auto_max idx)) as [a| |] eqn:NA; [|apply wp_bind, wp_put_sym, wp_error|exact (new_not_crash _ _ (auto_below _ BI) NA)].
    apply wp_put_sym. apply wp_bind. eapply wp_get_sym; [eapply symbol_update_same; exact SY|]. apply wp_bind. eapply wp_some; [reflexivity|]. apply wp_bind. eapply wp_some; [reflexivity|]. apply wp_ret. split; [exists (auto_max idx); exact (new_ok _ _ _ (auto_below _ BI) NA)|].
    eexists. eapply symbol_update_same; exact SY.
  - apply wp_ret. know. apply wp_bind. rewrite V. eapply wp_some; [reflexivity|]. apply wp_bind. eapply wp_some; [reflexivity|]. apply wp_ret. split; [|exists s; exact SY].
    apply sound_arr. destruct T as (_ & _ & T). pose proof (VmTyping.Forall_nth _ _ _ _ T SY) as X. cbv beta in X. rewrite V in X. exact X.
Qed.
Lemma read_not_crash {A} (a : array A) idx : (exists max, arr_ok a max) -> read_element a idx <> ACrash.
Proof.
  intros (max & O). destruct (in_bounds_dec max idx) as [B|B]; [destruct (ArrayProofs.read_ok a max idx O B) as (x & -> & _)|rewrite (ArrayProofs.read_fail a max idx O B)]; discriminate.
Qed.
Lemma write_not_crash {A} (a : array A) idx x : (exists max, arr_ok a max) -> write_element a idx x <> ACrash.
Proof.
  intros (max & O). destruct (in_bounds_dec max idx) as [B|B]; [destruct (ArrayProofs.write_ok a max idx x O B) as (p & -> & _)|rewrite (ArrayProofs.write_fail a max idx x O B)]; discriminate.
Qed.
Lemma wp_get_element id n v : tab_ok (v_st v) -> sg_kind g id KArray TNum -> (n <= 2)%N -> Forall double (v_stack v) -> no_max (firstn (N.to_nat n) (v_stack v)) ->
  wp (get_numeric_element id n) v done.
Proof.
  intros T G L D N. unfold get_numeric_element. apply wp_bind. eapply wp_weak; [exact (wp_array id n v T G L D N)|]. intros [idx a] w [O (s & SY)]. know. pose proof (read_not_crash a idx O) as R. destruct (read_element a idx); [apply nc_push|apply wp_error|destruct (R eq_refl)].
Qed.
Lemma wp_gets_element id n v : tab_ok (v_st v) -> sg_kind g id KArray TStr -> (n <= 2)%N -> Forall double (v_stack v) -> no_max (firstn (N.to_nat n) (v_stack v)) ->
  wp (get_string_element id n) v done.
Proof.
  intros T G L D N. unfold get_string_element. apply wp_bind. eapply wp_weak; [exact (wp_sarray id n v T G L D N)|]. intros [idx a] w [O (s & SY)]. know. pose proof (read_not_crash a idx O) as R. destruct (read_element a idx); [apply nc_push_str|apply wp_error|destruct (R eq_refl)].
Qed.
Lemma wp_set_element id n x v : tab_ok (v_st v) -> sg_kind g id KArray TNum -> (n <= 2)%N -> Forall double (v_stack v) -> no_max (firstn (N.to_nat n) (v_stack v)) ->
  wp (set_numeric_element id n x) v done.
Proof.
  intros T G L D N. unfold set_numeric_element. apply wp_bind. eapply wp_weak; [exact (wp_array id n v T G L D N)|]. intros [idx a] w [O (s & SY)]. know. pose proof (write_not_crash a idx x O) as R. destruct (write_element a idx x); [exact I|apply wp_error|destruct (R eq_refl)].
Qed.
Lemma wp_sets_element id n x v : tab_ok (v_st v) -> sg_kind g id KArray TStr -> (n <= 2)%N -> Forall double (v_stack v) -> no_max (firstn (N.to_nat n) (v_stack v)) ->
  wp (set_string_element id n x) v done.
Proof.
  intros T G L D N. unfold set_string_element. apply wp_bind. eapply wp_weak; [exact (wp_sarray id n v T G L D N)|]. intros [idx a] w [O (s & SY)]. know. pose proof (write_not_crash a idx (Some x) O) as R. destruct (write_element a idx (Some x)); [exact I|apply wp_error|destruct (R eq_refl)].
Qed.
(* a variable or an element *)
Definition sub_ok (id : symid) (n : N) (t : vtype) (st : list num) : Prop := sg_kind g id KArray t -> no_max (firstn (N.to_nat n) st).
Lemma wp_set id n x v : tab_ok (v_st v) -> var_ok g id n TNum -> Forall double (v_stack v) -> sub_ok id n TNum (v_stack v) -> wp (set_numeric id n x) v done.
Proof.
  intros T [[-> G]|[L G]] D N; unfold set_numeric; [exact (wp_set_simple id x v T G)|]. replace (n =? 0)%N with false by lia. apply wp_set_element; [exact T|exact G|lia|exact D|exact (N G)].
Qed.
Lemma wp_sets id n x v : tab_ok (v_st v) -> var_ok g id n TStr -> Forall double (v_stack v) -> sub_ok id n TStr (v_stack v) -> wp (set_string id n x) v done.
Proof.
  intros T [[-> G]|[L G]] D N; unfold set_string; [exact (wp_sets_simple id x v T G)|]. replace (n =? 0)%N with false by lia. apply wp_sets_element; [exact T|exact G|lia|exact D|exact (N G)].
Qed.
Lemma wp_dim id n v : tab_ok (v_st v) -> sg_kind g id KArray TNum -> (n <= 2)%N -> Forall double (v_stack v) -> no_max (firstn (N.to_nat n) (v_stack v)) -> wp (exec_dim_num id n) v done.
Proof.
  intros T G L D N. symbol G. unfold exec_dim_num. know. apply wp_bind, wp_assert; [exact (is_kind_true _ _ _ K Y)|]. apply wp_bind.
  assert (X : forall u s', symbol_at (v_st u) id = Some s' -> s_kind s' = KArray -> s_type s' = TNum -> v_stack u = v_stack v -> wp (let* max := pop_indexes n (s_name s) in dimension_numeric id max) u done).
  { intros u s' SU K' Y' SV. apply wp_bind. apply wp_indexes; [exact L|rewrite SV; exact D|rewrite SV; exact N|]. intros idx BI. unfold dimension_numeric. know. apply wp_bind, wp_assert; [exact (is_kind_true _ _ _ K' Y')|].
    destruct (new_array fzero 0 idx) as [a| |] eqn:NA; [exact I|apply wp_bind, wp_put_sym, wp_error|exact (new_not_crash _ _ BI NA)]. }
  destruct (s_val s) eqn:V; try contradiction F; (eapply wp_some; [reflexivity|]); apply wp_bind.
  - apply wp_ret. eapply X; [exact SY|exact K|exact Y|reflexivity].
  - apply wp_bind, wp_assert; [exact F|]. apply wp_put_sym. eapply X; [eapply symbol_update_same; exact SY|exact K|exact Y|reflexivity].
Qed.
Lemma wp_dims id n v : tab_ok (v_st v) -> sg_kind g id KArray TStr -> (n <= 2)%N -> Forall double (v_stack v) -> no_max (firstn (N.to_nat n) (v_stack v)) -> wp (exec_dim_str id n) v done.
Proof.
  intros T G L D N. symbol G. unfold exec_dim_str. know. apply wp_bind, wp_assert; [exact (is_kind_true _ _ _ K Y)|]. apply wp_bind.
  assert (X : forall u s', symbol_at (v_st u) id = Some s' -> s_kind s' = KArray -> s_type s' = TStr -> v_stack u = v_stack v -> wp (let* max := pop_indexes n (s_name s) in dimension_string id max) u done).
  { intros u s' SU K' Y' SV. apply wp_bind. apply wp_indexes; [exact L|rewrite SV; exact D|rewrite SV; exact N|]. intros idx BI. unfold dimension_string. know. apply wp_bind, wp_assert; [exact (is_kind_true _ _ _ K' Y')|].
    destruct (new_array None 0 idx) as [a| |] eqn:NA; [exact I|apply wp_bind, wp_put_sym, wp_error|exact (new_not_crash _ _ BI NA)]. }
  destruct (s_val s) eqn:V; try contradiction F; (eapply wp_some; [reflexivity|]); apply wp_bind.
  - apply wp_ret. eapply X; [exact SY|exact K|exact Y|reflexivity].
  - apply wp_bind, wp_assert; [exact F|]. apply wp_put_sym. eapply X; [eapply symbol_update_same; exact SY|exact K|exact Y|reflexivity].
Qed.

(* ---------- statements ---------- *)

(* the line that is traced exists *)
Definition has_line (v : vm) (k : nat) : Prop := exists r src l, cs_code (v_cs v) = Some r /\ c_source (code_of v r) = Some src /\ nth_error src k = Some l.
Definition tells (v : vm) (i : instr) : Prop :=
  match i with
  | I_SOURCE_LINE k => o_trace_basic (v_opt v) = true -> has_line v k
  | I_FOR _ | I_NEXT_VAR _ | I_NEXT_IMP => o_trace_for (v_opt v) = true -> has_line v (cs_line (v_cs v))
  | _ => True
  end.
Definition shown (st : symtab) (f : for_loop) : Prop := exists x, sym_num st (f_sym f) = Some x.
Lemma shown_kind st f : tab_ok st -> sg_kind g (f_sym f) KVariable TNum -> shown st f.
Proof. intros T G. unfold shown. symbol G. unfold sym_num. rewrite SY. destruct (s_val s); try contradiction F; eexists; reflexivity. Qed.
Lemma shown_kinds st fs : tab_ok st -> Forall (fun f => sg_kind g (f_sym f) KVariable TNum) fs -> Forall (shown st) fs.
Proof. intros T. apply Forall_impl. intros f. apply shown_kind. exact T. Qed.
Lemma shown_update st id s x f : s_val s = VNum x -> shown st f -> shown (sym_update st (N.to_nat id) s) f.
Proof.
  intros V (y & H). unfold shown, sym_num in *. destruct (N.eq_dec (f_sym f) id) as [EQ|NE]; [|rewrite symbol_update_other by exact NE; exists y; exact H]. rewrite EQ in *.
  destruct (symbol_at st id) as [s0|] eqn:SY; [|discriminate H]. rewrite (symbol_update_same _ _ s _ SY), V. eexists. reflexivity.
Qed.
Lemma dump_some st fs : Forall (shown st) fs -> exists b, dump_entries st fs = Some b.
Proof. induction 1 as [|f fs ([nm x] & G) F (b & IH)]; [exists []; reflexivity|]. cbn [dump_entries]. rewrite IH, G. eexists. reflexivity. Qed.
Lemma wp_dump tag v (Q : unit -> vm -> Prop) : Forall (shown (v_st v)) (v_for v) -> (forall b, Q tt (set_out b v)) -> wp (dump_for_stack tag) v Q.
Proof.
  intros F K. unfold wp, dump_for_stack. destruct (v_for v) as [|f fs] eqn:L; [apply K|]. destruct (dump_some (v_st v) (rev (f :: fs)) (Forall_rev F)) as (b & ->). apply K.
Qed.
Lemma wp_final tag v : Forall (shown (v_st v)) (v_for v) -> wp (trace_for (dump_for_stack tag)) v done.
Proof. intros F. unfold wp, trace_for. destruct (o_trace_for (v_opt v)); [|exact I]. apply (wp_dump tag v done F). intros b. exact I. Qed.
Lemma same_out v : set_out (v_out v) v = v.
Proof. destruct v. reflexivity. Qed.
Lemma wp_trace tag v (Q : unit -> vm -> Prop) : (o_trace_for (v_opt v) = true -> has_line v (cs_line (v_cs v))) -> Forall (shown (v_st v)) (v_for v) -> (forall b, Q tt (set_out b v)) -> wp (trace_for (dump_for tag)) v Q.
Proof.
  intros H F K. unfold wp, trace_for. destruct (o_trace_for (v_opt v)); [|rewrite <- (same_out v); apply K]. destruct (H eq_refl) as (r & src & l & C & S & N).
  unfold dump_for. rewrite C, S, N. match goal with |- context [(put ?t ;;; dump_for_stack ?u) v] => change (wp (put t ;;; dump_for_stack u) v Q) end.
  apply wp_bind. unfold put. apply wp_modify, wp_dump; [exact F|]. intros b. exact (K b).
Qed.
Lemma find_some fs id si : find_for fs id = Some si -> exists f, nth_error fs si = Some f.
Proof.
  unfold find_for. revert si. induction fs as [|f fs IH]; intros si H; cbn [find_index] in H; [discriminate H|]. destruct (f_sym f =? id)%N; [injection H as <-; exists f; reflexivity|].
  destruct (find_index _ fs) as [k|]; [|discriminate H]. injection H as <-. exact (IH k eq_refl).
Qed.
Lemma wp_next si f v : tab_ok (v_st v) -> Forall (fun f => sg_kind g (f_sym f) KVariable TNum) (v_for v) -> nth_error (v_for v) si = Some f -> wp (next si) v done.
Proof.
  intros T F N. unfold next. apply wp_bind, wp_get, wp_bind. eapply wp_some; [exact N|]. pose proof (VmTyping.Forall_nth _ _ _ _ F N) as G. cbv beta in G. symbol G. know. apply wp_bind.
  assert (X : exists x, val_num (s_val s) = Some x) by (destruct (s_val s); try contradiction F0; eexists; reflexivity). destruct X as (x & X). eapply wp_some; [exact X|]. apply wp_bind.
  pose proof (shown_kinds _ _ T F) as SH.
  destruct (_ || _); [apply wp_modify, wp_final|apply wp_bind, wp_put_sym, wp_modify, wp_final].
  - apply (Forall_remove_nth _ (v_for v) si SH).
  - change (Forall (shown (sym_update (v_st v) (N.to_nat (f_sym f)) (set_val s (VNum (fadd x (f_step f)))))) (v_for v)). eapply Forall_impl; [|exact SH]. intros y. apply (shown_update _ _ _ (fadd x (f_step f))). reflexivity.
Qed.
Lemma wp_for id v0 : (o_trace_for (v_opt v0) = true -> has_line v0 (cs_line (v_cs v0))) -> tab_ok (v_st v0) -> Forall (fun f => sg_kind g (f_sym f) KVariable TNum) (v_for v0) -> sg_kind g id KVariable TNum -> wp (exec_for id) v0 done.
Proof.
  intros O T0 FS0 G. unfold exec_for. apply wp_bind, wp_trace; [exact O|exact (shown_kinds _ _ T0 FS0)|]. intros b0.
  assert (T : tab_ok (v_st (set_out b0 v0))) by exact T0. assert (FS : Forall (fun f => sg_kind g (f_sym f) KVariable TNum) (v_for (set_out b0 v0))) by exact FS0.
  clear T0 FS0 O. generalize dependent (set_out b0 v0). intros v T FS. symbol G. know. apply wp_bind, wp_assert; [exact (is_kind_true _ _ _ K Y)|]. apply wp_bind, wp_get, wp_bind.
  pose proof (shown_kinds _ _ T FS) as SH. assert (X : forall u f fs, v_st u = v_st v -> Forall (shown (v_st v)) fs -> v_for u = fs ++ [f] -> wp (let* v1 := get in
    let si := length (v_for v1) - 1 in
    let* f1 := some_or_crash (nth_error (v_for v1) si) in
    let put_for f := modify (fun w => set_for (list_upd (v_for w) si f) w) in
    put_for (mkFor (v_cs v1) id (f_step f1) (f_limit f1)) ;;;
    let* step := pop in
    put_for (mkFor (v_cs v1) id step (f_limit f1)) ;;;
    let* limit := pop in
    put_for (mkFor (v_cs v1) id step limit) ;;;
    let* x := pop in
    put_sym id (define s (VNum x)) ;;;
    trace_for (dump_for_stack (lit "final stack"))) u done).
  { intros u f fs OU FF FU. apply wp_bind, wp_get. cbv zeta. apply wp_bind. apply (wp_some _ f).
    { rewrite FU, app_length. cbn [length]. replace (length fs + 1 - 1) with (length fs) by lia. rewrite nth_error_app2, Nat.sub_diag by lia. reflexivity. }
    apply wp_bind, wp_modify, wp_bind, wp_pop. intros step r1 _. apply wp_bind, wp_modify, wp_bind, wp_pop. intros limit r2 _. apply wp_bind, wp_modify, wp_bind, wp_pop. intros x r3 _.
    apply wp_bind, wp_put_sym, wp_final. cbn [v_st v_for set_st set_stack set_for]. rewrite OU, FU.
    assert (L1 : forall y z, list_upd (fs ++ [y]) (length (fs ++ [f]) - 1) z = fs ++ [z]).
    { intros y z. rewrite app_length. cbn [length]. replace (length fs + 1 - 1) with (length fs) by lia. clear. induction fs as [|a r IH]; [reflexivity|]. cbn [app length list_upd]. rewrite IH. reflexivity. }
    rewrite !L1. apply Forall_app. split; [eapply Forall_impl; [|exact FF]; intros y; apply (shown_update _ _ _ x); reflexivity|]. constructor; [|constructor].
    apply (shown_update _ _ _ x); [reflexivity|]. apply shown_kind; [exact T|exact G]. }
  destruct (find_for (v_for v) id) as [si|] eqn:FF.
  - destruct (find_some _ _ _ FF) as (f & N). apply wp_bind. eapply wp_some; [exact N|]. apply wp_modify. eapply X; [reflexivity|exact (Forall_remove_nth _ _ si SH)|reflexivity].
  - destruct (Nat.leb _ _); [apply wp_bind, wp_dump; [exact SH|intros; apply wp_error]|]. apply wp_modify. eapply X; [reflexivity|exact SH|reflexivity].
Qed.
Lemma wp_call id n t b v : tab_ok (v_st v) -> cur_bcode v = Some b -> sg_kind g id KDef t -> wp (call_def id n) v done.
Proof.
  intros T B G. destruct (sym_of _ _ _ _ T G) as (s & SY & K & Y & F); unfold fits in F; rewrite K in F. unfold call_def. know. apply wp_bind, wp_assert; [rewrite K; reflexivity|]. destruct (s_defined s) eqn:DF; cbn [negb]; [|apply wp_error].
  assert (X : exists d, s_val s = VDef d /\ code_ok g (bc_inst (def_bcode d)) /\ exists pid, nth_error (bc_inst (def_bcode d)) 1 = Some (I_PARAM pid)).
  { destruct (s_type s); destruct (s_val s); try contradiction F; try congruence; destruct F as (_ & F1 & F2); eauto. }
  destruct X as (d & V & CO & pid & N1). rewrite V. cbn [val_def]. apply wp_bind. eapply wp_some; [reflexivity|]. apply wp_bind. eapply wp_some; [reflexivity|]. apply wp_bind, wp_get.
  destruct (cs_code (fn_cs (v_fn v))); [apply wp_error|]. destruct (n =? 1)%N; cbn [negb]; [|apply wp_error]. apply wp_bind. eapply wp_bcode; [exact B|]. destruct (Nat.leb _ _); [apply wp_error|].
  apply wp_bind, wp_modify, wp_bind, wp_modify, wp_bind, wp_modify. rewrite N1. destruct CO as [CO _]. pose proof (VmTyping.Forall_nth _ _ _ _ CO N1) as GP. cbn [instr_ok] in GP.
  clear F K Y. destruct (sym_of _ _ _ _ T GP) as (ps & SP & KP & YP & FP). unfold fits in FP. rewrite KP, YP in FP. apply wp_bind. eapply wp_get_sym; [exact SP|]. apply wp_bind, wp_assert; [exact (is_kind_true _ _ _ KP YP)|].
  apply wp_bind. assert (X : exists x, val_num (s_val ps) = Some x) by (destruct (s_val ps); try contradiction FP; eexists; reflexivity). destruct X as (x & X). eapply wp_some; [exact X|].
  apply wp_bind, wp_modify, wp_bind, wp_pop. intros y r _. exact I.
Qed.
Lemma wp_end_def v : tab_ok (v_st v) -> (cs_code (fn_cs (v_fn v)) <> None -> sg_kind g (fn_param (v_fn v)) KVariable TNum) -> wp end_def v done.
Proof.
  intros T F. unfold end_def. apply wp_bind, wp_get. destruct (cs_code (fn_cs (v_fn v))) as [c|]; [|apply wp_error]. apply wp_bind, wp_modify, wp_bind, wp_modify.
  assert (G := F ltac:(discriminate)). destruct (sym_of _ _ _ _ T G) as (s & SY & _). apply wp_bind. eapply wp_get_sym; [exact SY|]. exact I.
Qed.
Lemma wp_def id n t b v : tab_ok (v_st v) -> cur_bcode v = Some b -> sg_kind g id KDef t -> wp (exec_def id n) v done.
Proof.
  intros T B G. destruct (sym_of _ _ _ _ T G) as (s & SY & K & Y & F); unfold fits in F; rewrite K in F. unfold exec_def. know. apply wp_bind, wp_assert; [rewrite K; reflexivity|]. apply wp_bind.
  assert (X : exists d0, val_def (s_val s) = Some d0 /\ (d0 <> None -> s_defined s = true)).
  { destruct (s_type s); destruct (s_val s); try contradiction F; (eexists; split; [reflexivity|]); intros H; solve [destruct (H eq_refl)|exact (proj1 F)]. }
  destruct X as (d0 & V & D). eapply wp_some; [exact V|]. apply wp_bind.
  assert (X : forall u, cur_bcode u = Some b -> wp (if negb (n =? 1)%N then run_error (RE_def_params (s_name s)) else
    let* bc := get_bcode in
    let* v := get in
    let pc := cs_pc (v_cs v) in
    let stored := match cs_code (v_cs v) with Some CStored => true | _ => false end in
    put_sym id (define s (VDef (mkDef (bcode_copy_def bc pc) stored (if stored then cs_line (v_cs v) else O)))) ;;;
    modify (set_pc (S pc + scan_to is_end_def (skipn (S pc) (bc_inst bc))))) u done).
  { intros u BU. destruct (n =? 1)%N; cbn [negb]; [|apply wp_error]. apply wp_bind. eapply wp_bcode; [exact BU|]. exact I. }
  destruct d0 as [d|]; [apply wp_bind, wp_assert; [apply D; discriminate|]; apply wp_put_sym; apply X; exact B|apply wp_ret; apply X; exact B].
Qed.
Lemma wp_return p v (Q : unit -> vm -> Prop) : (forall u, v_stored u = v_stored v -> Q tt u) -> wp (push_return p) v Q.
Proof. intros H. unfold wp, push_return. destruct (Nat.leb _ _); [exact I|]. apply H. reflexivity. Qed.
Lemma wp_on b k c v : cur_bcode v = Some c -> (N.of_nat k < 2 ^ 32)%N -> wp (exec_on b k) v done.
Proof.
  intros B L. unfold exec_on. apply wp_bind, wp_pop. intros x r _. destruct (fneb x (ffloor x)) eqn:H1; [apply wp_error|]. apply wp_bind, wp_get. cbv zeta. destruct (_ || _) eqn:H; [exact I|].
  apply Bool.orb_false_iff in H as [H2 H3]. apply wp_bind. assert (HI : fgtb (S754_infinity false) (fofN (N.of_nat k)) = true).
  { change (2 ^ 32)%N with 4294967296%N in L. assert (IZ : is_integer (fofN (N.of_nat k)) (Z.of_nat k)) by (unfold fofN; rewrite nat_N_Z; apply fofZ_spec; clear - L; lia).
    clear - IZ. destruct (fofN (N.of_nat k)) as [|[]| |s m e]; try discriminate IZ; reflexivity. }
  destruct (whole_to_Z x _ _ (or_introl H1) H2 H3 eq_refl HI) as (z & ->). eapply wp_some; [reflexivity|]. apply wp_bind. eapply wp_bcode; [exact B|].
  destruct (nth_error _ _) as [[]|]; try apply wp_error. apply wp_bind. assert (X : nc (go_to_basic_line lineno)) by nc_go. destruct b; [|apply wp_ret, X]. apply wp_return. intros. apply X.
Qed.
Lemma wp_find v b (Q : bytes -> vm -> Prop) : cur_bcode v = Some b -> (forall s w, v_st w = v_st v -> v_stack w = v_stack v -> Q s w) -> wp find_data v Q.
Proof.
  intros H K. unfold wp, find_data, run_error. unfold cur_bcode in H. destruct (cs_code (v_cs v)) as [[]|]; cbn [andb code_of] in *; try rewrite H; cbn [andb];
    repeat match goal with |- context [match ?x with _ => _ end] => lazymatch x with context [match _ with _ => _ end] => fail | _ => destruct x end end; try exact I; apply K; reflexivity.
Qed.

(* ---------- one instruction ---------- *)

Definition reads_line (i : instr) : bool := match i with I_INPUT_END | I_INPUT_SEP | I_INPUT_NUM _ _ | I_INPUT_STR _ _ => true | _ => false end.
Definition short_on (i : instr) : Prop := match i with I_ON_GOTO k | I_ON_GOSUB k => (N.of_nat k < 2 ^ 32)%N | _ => True end.
Lemma wrapless v i id k t : tab_ok (v_st v) -> no_wrap v -> current v = Some i -> subject i = Some id -> sg_kind g id k t -> k = KArray -> (t = TNum \/ t = TStr) ->
  Forall (fun x => ~ is_integer x 4294967295) (subscript_numbers v).
Proof.
  intros T W C S G -> J. destruct (sym_of _ _ _ _ T G) as (s & SY & K & Y & _). destruct J as [-> | ->].
  - apply (W i id Numbers C S). exists s. auto.
  - apply (W i id Texts C S). exists s. auto.
Qed.
Ltac wrap C := match goal with G : sg_kind g ?id KArray ?t |- no_max _ =>
  let W := fresh in pose proof (wrapless _ _ id KArray t ltac:(eassumption) ltac:(eassumption) C eq_refl G eq_refl ltac:(auto)) as W; unfold subscript_numbers in W; rewrite C in W; exact W end.
Lemma inp_some v : v_inp v <> None -> exists i s, input_rest v = Some (i, s).
Proof. unfold input_rest. destruct (v_inp v) as [i|]; [eauto|intros H; destruct (H eq_refl)]. Qed.
Lemma wp_exec v i : typed g v -> values_ok v -> arrays_ok v -> no_wrap v -> tells v i -> current v = Some i ->
  (reads_line i = true -> v_inp v <> None) -> short_on i -> wp (exec_instr E i) v done.
Proof.
  intros TY VO AO W QT C IN ON. pose proof (typed_current g v i TY C) as IO. pose proof (ok_stack v VO) as D.
  assert (T : tab_ok (v_st v)) by (split; [exact (ty_sigs _ _ TY)|]; split; [exact (ty_fits _ _ TY)|exact AO]).
  assert (B : exists b, cur_bcode v = Some b) by (unfold current in C; destruct (cur_bcode v) as [b|]; [exists b; reflexivity|discriminate C]). destruct B as (b & B).
  destruct (symbolless i) eqn:SL; [apply nc_symbolless; exact SL|].
  assert (ADV : forall m u, wp m u done -> wp (adv m) u done) by (intros m u H; unfold adv; apply wp_bind; eapply wp_weak; [exact H|]; intros; exact I).
  assert (JMP : forall m u, wp m u done -> wp (jump m) u done) by (intros m u H; unfold jump; apply wp_bind; eapply wp_weak; [exact H|]; intros; exact I).
  assert (GO : forall n u, wp (go_to_basic_line n) u done) by (intros n; assert (X : nc (go_to_basic_line n)) by nc_go; exact X).
  assert (SKIP : forall f u, cur_bcode u = Some b -> wp (skip_to f) u done) by (intros f u BU; unfold skip_to; apply wp_bind; eapply wp_bcode; [exact BU|exact I]).
  destruct i; try discriminate SL; cbn [exec_instr instr_ok] in *.
  - (* SOURCE_LINE *) apply wp_bind, wp_modify. unfold wp. cbn [v_opt v_cs cs_code set_cs]. cbn [tells] in QT. destruct (o_trace_basic (v_opt v)); [|exact I]. destruct (QT eq_refl) as (r & src & l & H1 & H2 & H3). rewrite H1. change (c_source (code_of _ r)) with (c_source (code_of v r)). rewrite H2, H3. exact I.
  - apply ADV, wp_get_simple; assumption.
  - symbol IO. know. apply wp_bind, wp_pop. intros x r _. apply ADV, wp_set_simple; assumption.
  - destruct IO as [L G]. apply ADV, wp_dim; [exact T|exact G|lia|exact D|wrap C].
  - (* element or call *) destruct IO as [[L G]|G].
    + symbol G. know. apply wp_bind, wp_assert; [rewrite Y; reflexivity|]. rewrite K. cbn [skind_eqb]. apply ADV, wp_get_element; [exact T|exact G|lia|exact D|wrap C].
    + destruct (sym_of _ _ _ _ T G) as (s & SY & K & Y & F). know. apply wp_bind, wp_assert; [rewrite Y; reflexivity|]. rewrite K. cbn [skind_eqb]. apply ADV. eapply wp_call; eassumption.
  - destruct IO as [L G]. symbol G. know. apply wp_bind, wp_pop. intros x r SX. apply ADV, wp_set_element; [exact T|exact G|lia|rewrite SX in D; inversion D; assumption|].
    pose proof (wrapless _ _ id KArray TNum T W C eq_refl G eq_refl ltac:(auto)) as X. unfold subscript_numbers in X. rewrite C, SX in X. exact X.
  - symbol IO. know. apply wp_bind, wp_pop_str. intros x r _. apply ADV, wp_sets_simple; assumption.
  - apply ADV, wp_gets_simple; assumption.
  - destruct IO as [L G]. apply ADV, wp_dims; [exact T|exact G|lia|exact D|wrap C].
  - destruct IO as [[L G]|G].
    + symbol G. know. apply wp_bind, wp_assert; [rewrite Y; reflexivity|]. rewrite K. cbn [skind_eqb]. apply ADV, wp_gets_element; [exact T|exact G|lia|exact D|wrap C].
    + destruct (sym_of _ _ _ _ T G) as (s & SY & K & Y & F). know. apply wp_bind, wp_assert; [rewrite Y; reflexivity|]. rewrite K. cbn [skind_eqb]. apply ADV. eapply wp_call; eassumption.
  - destruct IO as [L G]. symbol G. know. apply wp_bind, wp_pop_str. intros x r SX. apply ADV, wp_sets_element; [exact T|exact G|lia|exact D|wrap C].
  - (* END *) apply wp_bind. eapply wp_bcode; [exact B|]. apply JMP. exact I.
  - (* GOSUB *) apply wp_bind, wp_get, wp_bind, wp_return. intros u _. apply JMP, GO.
  - (* RETURN *) apply JMP. unfold wp, pop_return. destruct (v_ret v); exact I.
  - apply ADV, wp_for; [exact QT|exact T|exact (ty_for _ _ TY)|exact IO].
  - (* NEXT v *) apply wp_bind, wp_trace; [exact QT|exact (shown_kinds _ _ T (ty_for _ _ TY))|]. intros b0. apply wp_bind, wp_get. change (v_for (set_out b0 v)) with (v_for v). destruct (last_opt (v_for v)) as [f|] eqn:LO; [|apply wp_error]. pose proof (ty_for _ _ TY) as TF.
    destruct (f_sym f =? id)%N.
    + apply ADV. apply wp_next with (f := f); [exact T|exact TF|]. change (v_for (set_out b0 v)) with (v_for v). clear - LO. revert LO. induction (v_for v) as [|a l IH]; [discriminate|]. destruct l as [|a' l]; [intros X; injection X as ->; reflexivity|].
      intros X. specialize (IH X). cbn [length] in *. replace (S (S (length l)) - 1) with (S (S (length l) - 1)) by lia. exact IH.
    + destruct (find_for (v_for v) id) as [si|] eqn:FF; [|symbol IO; know; apply wp_error]. destruct (find_some _ _ _ FF) as (f' & N). apply ADV. exact (wp_next si f' (set_out b0 v) T TF N).
  - (* NEXT *) apply wp_bind, wp_trace; [exact QT|exact (shown_kinds _ _ T (ty_for _ _ TY))|]. intros b0. apply wp_bind, wp_get. change (v_for (set_out b0 v)) with (v_for v). destruct (v_for v) as [|f fs] eqn:FS; [apply wp_error|]. apply ADV. destruct (nth_error (v_for v) (length (f :: fs) - 1)) as [f'|] eqn:N.
    + exact (wp_next _ f' (set_out b0 v) T (ty_for _ _ TY) N).
    + apply nth_error_None in N. rewrite FS in N. cbn [length] in N. lia.
  - destruct IO as (t & G). apply ADV. eapply wp_def; eassumption.
  - apply ADV, wp_end_def; [exact T|exact (ty_fn _ _ TY)].
  - apply JMP. eapply wp_on; eassumption.
  - apply JMP. eapply wp_on; eassumption.
  - apply wp_bind, wp_pop. intros x r _. destruct (truth x); [exact I|]. apply JMP, SKIP. exact B.
  - apply wp_bind, wp_pop. intros x r _. destruct (truth x); [exact I|]. apply ADV, SKIP. exact B.
  - apply JMP, SKIP. exact B.
  - (* INPUT_END *) apply wp_bind, wp_get, wp_bind. destruct (inp_some v (IN eq_refl)) as (k & t & X). eapply wp_some; [exact X|]. cbv iota beta zeta. apply wp_bind, wp_modify. destruct (drop_while _ _); exact I.
  - apply wp_bind, wp_get, wp_bind. destruct (inp_some v (IN eq_refl)) as (k & t & X). eapply wp_some; [exact X|]. cbv iota beta zeta. apply wp_bind, wp_modify. destruct (drop_while _ _) as [|c r]; [exact I|]. destruct (ceq c ","); exact I.
  - apply wp_bind, wp_get, wp_bind. destruct (inp_some v (IN eq_refl)) as (k & t & X). eapply wp_some; [exact X|]. cbv iota beta zeta. destruct (convert t) as [[x r]|]; [|exact I]. destruct (match r with [] => true | _ => _ end); [|exact I].
    apply wp_bind. eapply wp_weak; [apply wp_set; [exact T|exact IO|exact D|]|intros; exact I]. intros G. wrap C.
  - apply wp_bind, wp_get, wp_bind. destruct (inp_some v (IN eq_refl)) as (k & t & X). eapply wp_some; [exact X|]. cbv iota beta zeta. destruct (span _ _) as [f r]. apply wp_bind, wp_modify. apply ADV, wp_sets; [exact T|exact IO|exact D|]. intros G. wrap C.
  - apply wp_bind, wp_get. cbv zeta. apply wp_bind, wp_modify. apply ADV, wp_sets; [exact T|exact IO|exact D|]. intros G. wrap C.
  - apply wp_bind. eapply wp_find; [exact B|]. intros s w W1 W2. destruct (convert s) as [[x [|c r]]|]; try apply wp_error. apply ADV, wp_set; [rewrite W1; exact T|exact IO|rewrite W2; exact D|]. intros G. rewrite W2. wrap C.
  - apply wp_bind. eapply wp_find; [exact B|]. intros s w W1 W2. apply ADV, wp_sets; [rewrite W1; exact T|exact IO|rewrite W2; exact D|]. intros G. rewrite W2. wrap C.
Qed.
End Crash.
