(* Comparisons, logical operators, string functions and RND (C20, C22, C33). *)
From Coq Require Import Lia ZifyBool ZifyNat ZifyN SpecFloat.
From Verif Require Import Base BaseLemmas Num NumSpec NumLemmas DoubleProofs QuotientProofs BcodeModel VmModel
  VmLemmas VmSpec ControlProofs OpSpec.
Local Open Scope nat_scope.

(* ---------- the machine ---------- *)

Lemma set_pc_place v w : v_cs w = v_cs v -> set_pc (S (cs_pc (v_cs w))) w = set_cs (place_after v 1) w.
Proof. intros H. unfold set_pc, place_after. rewrite H. do 2 f_equal. lia. Qed.

Lemma bind_pop {B} (k : num -> M B) v x st : v_stack v = x :: st -> bind pop k v = k x (set_stack st v).
Proof. intros H. unfold bind, pop. rewrite H. reflexivity. Qed.
Lemma bind_pop_str {B} (k : bytes -> M B) v x st : v_sstack v = x :: st -> bind pop_str k v = k x (set_sstack st v).
Proof. intros H. unfold bind, pop_str. rewrite H. reflexivity. Qed.

Lemma push_room x v : length (v_stack v) < 16 -> push x v = (Ok tt, set_stack (x :: v_stack v) v).
Proof. intros H. unfold push. change MAX_NUM_STACK with 16. destruct (Nat.leb _ _) eqn:E; [lia|reflexivity]. Qed.
Lemma push_str_room x v : length (v_sstack v) < 8 -> push_str x v = (Ok tt, set_sstack (x :: v_sstack v) v).
Proof. intros H. unfold push_str. change MAX_STR_STACK with 8. destruct (Nat.leb _ _) eqn:E; [lia|reflexivity]. Qed.
Lemma adv_ok m v w : m v = (Ok tt, w) -> adv m v = (Ok true, w).
Proof. intros H. unfold adv, bind. rewrite H. reflexivity. Qed.

Lemma vm_eta_stack v : set_stack (v_stack v) v = v. Proof. destruct v; reflexivity. Qed.
Lemma vm_eta_sstack v : set_sstack (v_sstack v) v = v. Proof. destruct v; reflexivity. Qed.

(* the instruction changes only the stacks *)
Lemma gives_intro E v i st ss : current v = Some i ->
  exec_instr E i v = (Ok true, set_sstack ss (set_stack st v)) -> gives E v st ss.
Proof.
  intros C X. unfold gives. rewrite (execute_eq E v i C), X. cbn [finish].
  f_equal. rewrite (set_pc_place v); [destruct v|]; reflexivity.
Qed.
Lemma raises_intro E v i e w : current v = Some i ->
  exec_instr E i v = (Fail e, w) -> v_st w = v_st v -> v_cs w = v_cs v -> raises E v e.
Proof. intros C X S P. exists w. rewrite (execute_eq E v i C), X. auto. Qed.

(* ---------- comparison of numbers ---------- *)

Lemma value_nan x : value x = None <-> x = S754_nan.
Proof. destruct x as [[]|[]| |[] m e]; split; intros H; try discriminate H; reflexivity. Qed.

Lemma compare_values x y a b : double x -> double y -> value x = Some a -> value y = Some b ->
  SFcompare x y = Some (match a, b with
    | Minus_infinity, Minus_infinity | Plus_infinity, Plus_infinity => Eq
    | Minus_infinity, _ | _, Plus_infinity => Lt
    | _, Minus_infinity | Plus_infinity, _ => Gt
    | Finite u, Finite w => (u ?= w)%Z
    end).
Proof.
  intros Vx Vy Ha Hb.
  assert (FX : forall z u, value z = Some (Finite u) -> units z = Some u).
  { intros z u H. destruct z as [?|[]| |? ? ?]; cbn in *; congruence. }
  assert (IX : forall z, value z = Some Minus_infinity -> z = S754_infinity true).
  { intros z H. destruct z as [?|[]| |? ? ?]; cbn in *; congruence. }
  assert (JX : forall z, value z = Some Plus_infinity -> z = S754_infinity false).
  { intros z H. destruct z as [?|[]| |? ? ?]; cbn in *; congruence. }
  destruct a as [|u|], b as [|w|];
    try (apply IX in Ha; subst x); try (apply JX in Ha; subst x);
    try (apply IX in Hb; subst y); try (apply JX in Hb; subst y); try reflexivity.
  - destruct y as [?|[]| |[] ? ?]; try discriminate Hb; reflexivity.
  - destruct x as [?|[]| |[] ? ?]; try discriminate Ha; reflexivity.
  - apply compare_units; auto.
  - destruct x as [?|[]| |[] ? ?]; try discriminate Ha; reflexivity.
  - destruct y as [?|[]| |[] ? ?]; try discriminate Hb; reflexivity.
Qed.

Lemma compare_cases x y a b : double x -> double y -> value x = Some a -> value y = Some b ->
  exists c, SFcompare x y = Some c /\ match c with
    | Eq => a = b /\ ~ before a b /\ ~ before b a
    | Lt => before a b /\ ~ before b a /\ a <> b
    | Gt => before b a /\ ~ before a b /\ a <> b
    end.
Proof.
  intros Vx Vy A B. eexists. split; [exact (compare_values x y a b Vx Vy A B)|].
  destruct a as [|u|], b as [|w|]; cbn [before];
    try (repeat split; solve [discriminate|auto]).
  destruct (Z.compare_spec u w) as [H|H|H]; repeat split; try lia; try congruence; intros X; injection X; lia.
Qed.

Definition num_test (R : relation) : num -> num -> bool :=
  match R with
  | Equal => feqb | Different => fneb | Less => fltb | Greater => fgtb | Less_equal => fleb | Greater_equal => fgeb
  end.

Lemma num_test_spec R x y : double x -> double y -> num_test R x y = true <-> related R (value x) (value y).
Proof.
  intros Vx Vy. unfold related. destruct (value x) as [a|] eqn:A.
  - destruct (value y) as [b|] eqn:B.
    + destruct (compare_cases x y a b Vx Vy A B) as (c & C & H). assert (C' := cmp_sym x y). rewrite C in C'. cbn [option_map] in C'.
      destruct R; cbn [num_test]; unfold feqb, fneb, fltb, fgtb, fleb, fgeb, SFeqb, SFltb, SFleb; rewrite ?C, ?C';
        destruct c; cbn [negb CompOpp]; destruct H as (H1 & H2 & H3);
        (split; intros H'; try discriminate H'; try reflexivity; try contradiction; try tauto; try congruence).
    + apply value_nan in B. subst y.
      assert (C : SFcompare x S754_nan = None) by (apply cmp_none; right; reflexivity).
      assert (C' : SFcompare S754_nan x = None) by (apply cmp_none; left; reflexivity).
      destruct R; cbn [num_test]; unfold feqb, fneb, fltb, fgtb, fleb, fgeb, SFeqb, SFltb, SFleb; rewrite ?C, ?C'; cbn;
        split; congruence.
  - apply value_nan in A. subst x.
    assert (C : SFcompare y S754_nan = None) by (apply cmp_none; right; reflexivity).
    assert (C' : SFcompare S754_nan y = None) by (apply cmp_none; left; reflexivity).
    destruct R; cbn [num_test]; unfold feqb, fneb, fltb, fgtb, fleb, fgeb, SFeqb, SFltb, SFleb; rewrite ?C, ?C'; cbn;
      split; congruence.
Qed.

Lemma compare_step E v R x y st : current v = Some (compare_numbers R) -> v_stack v = x :: y :: st ->
  length st < 16 -> gives E v (truth_value (num_test R y x) :: st) (v_sstack v).
Proof.
  intros C S L. eapply gives_intro; [exact C|].
  assert (X : forall f, compare_num f v = (Ok true, set_sstack (v_sstack v) (set_stack (truth_value (f y x) :: st) v))).
  { intros f. unfold compare_num. rewrite (bind_pop _ v x (y :: st) S), (bind_pop _ _ y st) by reflexivity.
    unfold push_logic, bind. rewrite push_room by exact L. cbn. unfold truth_value, fzero, ret.
    destruct v. cbn. destruct (f y x); reflexivity. }
  destruct R; exact (X _).
Qed.

Theorem compare_numbers_ok E v R x y st : current v = Some (compare_numbers R) -> v_stack v = x :: y :: st ->
  double x -> double y -> length st < 16 ->
  exists b, (b = true <-> related R (value y) (value x)) /\ gives E v (truth_value b :: st) (v_sstack v).
Proof.
  intros C S Vx Vy L. exists (num_test R y x). split; [apply num_test_spec; assumption|]. apply compare_step; assumption.
Qed.

(* ---------- comparison of strings ---------- *)

Lemma code_inj a b : code a = code b -> a = b.
Proof. unfold code. intros H. rewrite <- (ascii_N_embedding a), <- (ascii_N_embedding b), H. reflexivity. Qed.

Lemma strcmp_spec s t : match strcmp s t with
  | Eq => s = t | Lt => string_before s t | Gt => string_before t s end.
Proof.
  unfold strcmp. revert t; induction s as [|a s IH]; intros [|b t]; cbn [cmp_by].
  - reflexivity.
  - left. exists b, t. reflexivity.
  - left. exists a, s. reflexivity.
  - destruct (N.compare_spec (code a) (code b)) as [H|H|H].
    + apply code_inj in H. subst b. specialize (IH t). destruct (cmp_by code s t).
      * subst t. reflexivity.
      * destruct IH as [(c & r & ->)|(p & x & y & s' & t' & -> & -> & H)]; [left; exists c, r; reflexivity|].
        right. exists (a :: p), x, y, s', t'. repeat split; assumption.
      * destruct IH as [(c & r & ->)|(p & x & y & s' & t' & -> & -> & H)]; [left; exists c, r; reflexivity|].
        right. exists (a :: p), x, y, s', t'. repeat split; assumption.
    + right. exists [], a, b, s, t. repeat split; assumption.
    + right. exists [], b, a, t, s. repeat split; assumption.
Qed.
Lemma string_before_cons c s t : string_before (c :: s) (c :: t) <-> string_before s t.
Proof.
  split.
  - intros [(d & r & H)|(p & a & b & s' & t' & H1 & H2 & L)].
    + injection H as ->. left. exists d, r. reflexivity.
    + destruct p as [|x p]; cbn in H1, H2; [injection H1 as <- ->; injection H2 as <- ->; lia|].
      injection H1 as <- ->. injection H2 as ->. right. exists p, a, b, s', t'. repeat split; assumption.
  - intros [(d & r & ->)|(p & a & b & s' & t' & -> & -> & L)]; [left; exists d, r; reflexivity|].
    right. exists (c :: p), a, b, s', t'. repeat split; assumption.
Qed.
Lemma string_before_asym s t : string_before s t -> ~ string_before t s.
Proof.
  revert t; induction s as [|a s IH]; intros [|b t] H H'.
  - destruct H as [(c & r & H)|(p & a & b & s' & t' & H1 & _)]; [discriminate|destruct p; discriminate].
  - destruct H' as [(c & r & H')|(p & x & y & s' & t' & _ & H1 & _)]; [discriminate|destruct p; discriminate].
  - destruct H as [(c & r & H)|(p & x & y & s' & t' & _ & H1 & _)]; [discriminate|destruct p; discriminate].
  - destruct (N.eq_dec (code a) (code b)) as [X|X].
    + apply code_inj in X. subst b. apply string_before_cons in H, H'. exact (IH t H H').
    + assert (K : forall a b s t, code a <> code b -> string_before (a :: s) (b :: t) -> (code a < code b)%N).
      { clear. intros a b s t N [(c & r & H)|(p & x & y & s' & t' & H1 & H2 & L)]; [injection H; congruence|].
        destruct p as [|z p]; cbn in H1, H2; [injection H1 as <- _; injection H2 as <- _; exact L|].
        injection H1 as <- _. injection H2 as <- _. contradiction. }
      pose proof (K a b s t X H). pose proof (K b a t s ltac:(congruence) H'). lia.
Qed.

Definition str_test (R : relation) (c : comparison) : bool :=
  match R, c with
  | Equal, Eq | Different, (Lt | Gt) | Less, Lt | Greater, Gt | Less_equal, (Lt | Eq) | Greater_equal, (Gt | Eq) => true
  | _, _ => false
  end.
Lemma str_test_spec R s t : str_test R (strcmp s t) = true <-> strings_related R s t.
Proof.
  pose proof (strcmp_spec s t) as H.
  assert (I : forall u, ~ string_before u u) by (intros u U; exact (string_before_asym u u U U)).
  destruct (strcmp s t).
  - subst t. specialize (I s). destruct R; cbn; split; intros H'; try discriminate H'; try reflexivity; tauto.
  - pose proof (string_before_asym _ _ H) as A.
    assert (N : s <> t) by (intros ->; exact (I _ H)).
    destruct R; cbn; split; intros H'; try discriminate H'; try reflexivity; try contradiction; auto.
    destruct H'; contradiction.
  - pose proof (string_before_asym _ _ H) as A.
    assert (N : s <> t) by (intros ->; exact (I _ H)).
    destruct R; cbn; split; intros H'; try discriminate H'; try reflexivity; try contradiction; auto.
    destruct H'; contradiction.
Qed.

Theorem compare_texts_ok E v R s t ss : current v = Some (compare_texts R) -> v_sstack v = t :: s :: ss ->
  length (v_stack v) < 16 ->
  exists b, (b = true <-> strings_related R s t) /\ gives E v (truth_value b :: v_stack v) ss.
Proof.
  intros C S L. exists (str_test R (strcmp s t)). split; [apply str_test_spec|]. eapply gives_intro; [exact C|].
  assert (X : forall f, compare_str f v = (Ok true, set_sstack ss (set_stack (truth_value (f (strcmp s t)) :: v_stack v) v))).
  { intros f. unfold compare_str, compare_strings. unfold bind at 1.
    rewrite (bind_pop_str _ v t (s :: ss) S), (bind_pop_str _ _ s ss) by reflexivity. unfold ret at 1.
    unfold push_logic, bind. rewrite push_room by exact L. cbn. unfold truth_value, fzero, ret.
    destruct v. cbn. destruct (f (strcmp s t)); reflexivity. }
  destruct R; cbn [compare_texts exec_instr]; rewrite X; do 4 f_equal; destruct (strcmp s t); reflexivity.
Qed.

(* ---------- whole numbers ---------- *)

Lemma fltb_int x z c : double x -> is_integer x z -> (Z.abs c < 2 ^ 53)%Z -> fltb x (fofZ c) = (z <? c)%Z.
Proof.
  intros V I B. destruct (fofZ_spec c B) as [Vc Ic]. unfold fltb, SFltb. rewrite (compare_integers x (fofZ c) z c V Vc I Ic).
  unfold Z.ltb. destruct (z ?= c)%Z; reflexivity.
Qed.
Lemma fgtb_int x z c : double x -> is_integer x z -> (Z.abs c < 2 ^ 53)%Z -> fgtb x (fofZ c) = (c <? z)%Z.
Proof.
  intros V I B. destruct (fofZ_spec c B) as [Vc Ic]. unfold fgtb, SFltb. rewrite (compare_integers (fofZ c) x c z Vc V Ic I).
  unfold Z.ltb. destruct (c ?= z)%Z; reflexivity.
Qed.
Lemma floor_int x z : double x -> is_integer x z -> feqb (ffloor x) x = true /\ feqb x (ffloor x) = true.
Proof. intros V I. pose proof (floor_integer x z V I) as F. split; [exact F|]. rewrite feqb_sym. exact F. Qed.

Lemma whole_or_not x : double x ->
  (exists z, is_integer x z) \/ (exists s, x = S754_infinity s) \/ (feqb (ffloor x) x = false /\ forall z, ~ is_integer x z).
Proof.
  intros V. destruct (feqb (ffloor x) x) eqn:F.
  - apply (equal_floor x V) in F as [F|F]; auto.
  - right. right. split; [reflexivity|]. intros z I. rewrite (proj1 (floor_int x z V I)) in F. discriminate.
Qed.

Definition logic_refused (x : num) : bool := fltb x (fofZ INT_MIN) || fgtb x (fofZ INT_MAX) || fneb x (ffloor x).
Lemma logic_ok x z : double x -> int32 x z -> logic_refused x = false /\ ftoZ x = Some z.
Proof.
  intros V [I R]. split; [|apply ftoZ_integer; assumption]. unfold logic_refused, INT_MIN, INT_MAX.
  rewrite (fltb_int x z), (fgtb_int x z) by (try assumption; lia). unfold fneb. change SFeqb with feqb.
  rewrite (proj2 (floor_int x z V I)). lia.
Qed.
Lemma logic_bad x : double x -> (forall z, ~ int32 x z) -> logic_refused x = true.
Proof.
  intros V N. unfold logic_refused. destruct (whole_or_not x V) as [(z & I)|[([] & ->)|[F _]]].
  - unfold INT_MIN, INT_MAX. rewrite (fltb_int x z), (fgtb_int x z) by (try assumption; lia).
    assert (~ (- 2 ^ 31 <= z < 2 ^ 31)%Z) by (intros R; exact (N z (conj I R))). lia.
  - reflexivity.
  - reflexivity.
  - unfold fneb. change SFeqb with feqb. rewrite feqb_sym, F. apply orb_true_r.
Qed.

Lemma bind_logic {B} (k : Z -> M B) v x st z : v_stack v = x :: st -> double x -> int32 x z ->
  bind pop_logic k v = k z (set_stack st v).
Proof.
  intros S V I. destruct (logic_ok x z V I) as [R F]. unfold bind at 1, pop_logic. rewrite (bind_pop _ v x st S).
  unfold logic_refused in R. rewrite R, F. reflexivity.
Qed.
Lemma bind_logic_bad {B} (k : Z -> M B) v x st : v_stack v = x :: st -> double x -> (forall z, ~ int32 x z) ->
  exists w, bind pop_logic k v = (Fail (RE_logical x), w) /\ v_st w = v_st v /\ v_cs w = v_cs v.
Proof.
  intros S V N. pose proof (logic_bad x V N) as R. unfold bind at 1, pop_logic. rewrite (bind_pop _ v x st S).
  unfold logic_refused in R. rewrite R. unfold run_error. eexists. split; [reflexivity|]. split; reflexivity.
Qed.

Lemma int32_fofZ z : (- 2 ^ 31 <= z < 2 ^ 31)%Z -> double (fofZ z) /\ int32 (fofZ z) z.
Proof. intros R. destruct (fofZ_spec z ltac:(lia)) as [V I]. split; [exact V|split; assumption]. Qed.

Lemma high_bits z i : (0 <= z < 2 ^ 31)%Z -> (31 <= i)%Z -> Z.testbit z i = false.
Proof.
  intros R I. destruct (Z.eq_dec z 0) as [->|]; [apply Z.bits_0|]. apply Z.bits_above_log2; [lia|].
  apply Z.lt_le_trans with 31%Z; [apply Z.log2_lt_pow2; lia|lia].
Qed.
Lemma bits_range z : (- 2 ^ 31 <= z < 2 ^ 31)%Z <-> (forall i, (31 <= i)%Z -> Z.testbit z i = Z.testbit z 31).
Proof.
  split.
  - intros R i I. destruct (Z_lt_le_dec z 0).
    + rewrite <- (Z.lnot_involutive z), !(Z.lnot_spec (Z.lnot z)) by lia. f_equal.
      rewrite !high_bits; try reflexivity; unfold Z.lnot; lia.
    + rewrite !high_bits; try reflexivity; lia.
  - intros H. assert (K : (z / 2 ^ 31 = if Z.testbit z 31 then -1 else 0)%Z).
    { rewrite <- Z.shiftr_div_pow2 by lia. apply Z.bits_inj'. intros n N. rewrite Z.shiftr_spec by lia.
      rewrite (H (n + 31)%Z) by lia. destruct (Z.testbit z 31); [rewrite Z.bits_m1 by lia|rewrite Z.bits_0]; reflexivity. }
    pose proof (Z.div_mod z (2 ^ 31) ltac:(lia)). pose proof (Z.mod_pos_bound z (2 ^ 31) ltac:(lia)).
    destruct (Z.testbit z 31); lia.
Qed.
Lemma land_range a b : (- 2 ^ 31 <= a < 2 ^ 31)%Z -> (- 2 ^ 31 <= b < 2 ^ 31)%Z -> (- 2 ^ 31 <= Z.land a b < 2 ^ 31)%Z.
Proof.
  intros A B. apply bits_range. intros i I. rewrite !Z.land_spec.
  rewrite (proj1 (bits_range a) A i I), (proj1 (bits_range b) B i I). reflexivity.
Qed.
Lemma lor_range a b : (- 2 ^ 31 <= a < 2 ^ 31)%Z -> (- 2 ^ 31 <= b < 2 ^ 31)%Z -> (- 2 ^ 31 <= Z.lor a b < 2 ^ 31)%Z.
Proof.
  intros A B. apply bits_range. intros i I. rewrite !Z.lor_spec.
  rewrite (proj1 (bits_range a) A i I), (proj1 (bits_range b) B i I). reflexivity.
Qed.

Theorem and_ok E v x y st a b : current v = Some I_AND -> v_stack v = y :: x :: st -> double x -> double y ->
  int32 x a -> int32 y b -> length st < 16 ->
  exists r c, gives E v (r :: st) (v_sstack v) /\ int32 r c /\
    (forall i, (0 <= i)%Z -> Z.testbit c i = Z.testbit a i && Z.testbit b i).
Proof.
  intros C S Vx Vy A B L. destruct (int32_fofZ (Z.land a b)) as [_ R]; [apply land_range; [apply A|apply B]|].
  exists (fofZ (Z.land a b)), (Z.land a b). split; [|split; [exact R|intros; apply Z.land_spec]].
  eapply gives_intro; [exact C|]. cbn [exec_instr].
  rewrite (bind_logic _ v y (x :: st) b S Vy B), (bind_logic _ _ x st a) by (try assumption; reflexivity).
  apply adv_ok. rewrite push_room by exact L. destruct v; reflexivity.
Qed.
Theorem or_ok E v x y st a b : current v = Some I_OR -> v_stack v = y :: x :: st -> double x -> double y ->
  int32 x a -> int32 y b -> length st < 16 ->
  exists r c, gives E v (r :: st) (v_sstack v) /\ int32 r c /\
    (forall i, (0 <= i)%Z -> Z.testbit c i = Z.testbit a i || Z.testbit b i).
Proof.
  intros C S Vx Vy A B L. destruct (int32_fofZ (Z.lor a b)) as [_ R]; [apply lor_range; [apply A|apply B]|].
  exists (fofZ (Z.lor a b)), (Z.lor a b). split; [|split; [exact R|intros; apply Z.lor_spec]].
  eapply gives_intro; [exact C|]. cbn [exec_instr].
  rewrite (bind_logic _ v y (x :: st) b S Vy B), (bind_logic _ _ x st a) by (try assumption; reflexivity).
  apply adv_ok. rewrite push_room by exact L. destruct v; reflexivity.
Qed.
Theorem not_ok E v x st a : current v = Some I_NOT -> v_stack v = x :: st -> double x ->
  int32 x a -> length st < 16 ->
  exists r c, gives E v (r :: st) (v_sstack v) /\ int32 r c /\
    (forall i, (0 <= i)%Z -> Z.testbit c i = negb (Z.testbit a i)).
Proof.
  intros C S Vx A L. destruct (int32_fofZ (Z.lnot a)) as [_ R]; [destruct A; unfold Z.lnot; lia|].
  exists (fofZ (Z.lnot a)), (Z.lnot a). split; [|split; [exact R|intros; apply Z.lnot_spec; assumption]].
  eapply gives_intro; [exact C|]. cbn [exec_instr].
  rewrite (bind_logic _ v x st a S Vx A). apply adv_ok. rewrite push_room by exact L. destruct v; reflexivity.
Qed.

Theorem logic_error E v i x y st : current v = Some i -> i = I_AND \/ i = I_OR -> v_stack v = y :: x :: st ->
  double x -> double y ->
  ((forall z, ~ int32 y z) -> raises E v (RE_logical y)) /\
  (forall z, int32 y z -> (forall z, ~ int32 x z) -> raises E v (RE_logical x)).
Proof.
  intros C D S Vx Vy. split.
  - intros N.
    assert (X : forall (k : Z -> M bool), exists w, bind pop_logic k v = (Fail (RE_logical y), w) /\ v_st w = v_st v /\ v_cs w = v_cs v)
      by (intros k; apply (bind_logic_bad k v y (x :: st)); assumption).
    destruct D as [-> | ->]; cbn [exec_instr] in *;
      match goal with C : current v = Some I_AND |- _ => destruct (X (fun b => let* a := pop_logic in adv (push (fofZ (Z.land a b))))) as (w & W & A & B)
                    | C : current v = Some I_OR |- _ => destruct (X (fun b => let* a := pop_logic in adv (push (fofZ (Z.lor a b))))) as (w & W & A & B) end;
      eapply raises_intro; [exact C|exact W|exact A|exact B|exact C|exact W|exact A|exact B].
  - intros z Hz N.
    assert (X : forall (k : Z -> M bool), exists w, bind pop_logic k (set_stack (x :: st) v) = (Fail (RE_logical x), w) /\ v_st w = v_st v /\ v_cs w = v_cs v).
    { intros k. destruct (bind_logic_bad k (set_stack (x :: st) v) x st) as (w & W & A & B); try assumption; [reflexivity|].
      exists w. auto. }
    destruct D as [-> | ->].
    + destruct (X (fun a => adv (push (fofZ (Z.land a z))))) as (w & W & A & B).
      eapply raises_intro; [exact C| |exact A|exact B]. cbn [exec_instr]. rewrite (bind_logic _ v y (x :: st) z S Vy Hz). exact W.
    + destruct (X (fun a => adv (push (fofZ (Z.lor a z))))) as (w & W & A & B).
      eapply raises_intro; [exact C| |exact A|exact B]. cbn [exec_instr]. rewrite (bind_logic _ v y (x :: st) z S Vy Hz). exact W.
Qed.
Theorem not_error E v x st : current v = Some I_NOT -> v_stack v = x :: st -> double x ->
  (forall z, ~ int32 x z) -> raises E v (RE_logical x).
Proof.
  intros C S V N. destruct (bind_logic_bad (fun a => adv (push (fofZ (Z.lnot a)))) v x st S V N) as (w & W & A & B).
  eapply raises_intro; [exact C|exact W|exact A|exact B].
Qed.

(* the connectives on truth values *)
Lemma int32_truth b : double (truth_value b) /\ int32 (truth_value b) (if b then -1 else 0).
Proof. destruct b; cbn [truth_value]; apply int32_fofZ; lia. Qed.
Theorem truth_connectives E v a b st ss : v_sstack v = ss -> length st < 16 ->
  (current v = Some I_AND -> v_stack v = truth_value b :: truth_value a :: st -> gives E v (truth_value (a && b) :: st) ss) /\
  (current v = Some I_OR -> v_stack v = truth_value b :: truth_value a :: st -> gives E v (truth_value (a || b) :: st) ss) /\
  (current v = Some I_NOT -> v_stack v = truth_value a :: st -> gives E v (truth_value (negb a) :: st) ss).
Proof.
  intros <- L. destruct (int32_truth a) as [Va Ia]. destruct (int32_truth b) as [Vb Ib]. split; [|split]; intros C S;
    (eapply gives_intro; [exact C|]); cbn [exec_instr].
  - rewrite (bind_logic _ v _ _ _ S Vb Ib), (bind_logic _ (set_stack (truth_value a :: st) v) (truth_value a) st _ eq_refl Va Ia).
    apply adv_ok. rewrite push_room by exact L. destruct a, b, v; reflexivity.
  - rewrite (bind_logic _ v _ _ _ S Vb Ib), (bind_logic _ (set_stack (truth_value a :: st) v) (truth_value a) st _ eq_refl Va Ia).
    apply adv_ok. rewrite push_room by exact L. destruct a, b, v; reflexivity.
  - rewrite (bind_logic _ v _ _ _ S Va Ia).
    apply adv_ok. rewrite push_room by exact L. destruct a, v; reflexivity.
Qed.

(* ---------- counts ---------- *)

Lemma fgtb_uint x : fgtb x (fofN UINT_MAX) = fgtb x (fofZ 4294967295).
Proof. reflexivity. Qed.
Lemma fltb_zero x z : double x -> is_integer x z -> fltb x fzero = (z <? 0)%Z.
Proof. intros V I. apply (fltb_int x z 0 V I). lia. Qed.

Lemma bind_count {B} (k : N -> M B) v x st n : v_stack v = x :: st -> double x -> count x n ->
  bind pop_unsigned k v = k (N.of_nat n) (set_stack st v).
Proof.
  intros S V [I R]. unfold bind at 1, pop_unsigned. rewrite (bind_pop _ v x st S), fgtb_uint.
  rewrite (fltb_zero x _ V I), (fgtb_int x _ _ V I) by lia. unfold fneb. change SFeqb with feqb.
  rewrite (proj1 (floor_int x _ V I)).
  replace (Z.of_nat n <? 0)%Z with false by lia. replace (4294967295 <? Z.of_nat n)%Z with false by lia. cbn [orb negb].
  rewrite (ftoZ_integer x _ V I). unfold ret. replace (Z.to_N (Z.of_nat n)) with (N.of_nat n) by lia. reflexivity.
Qed.

Lemma bind_count_bad {B} (k : N -> M B) v x st : v_stack v = x :: st -> double x -> (forall n, ~ count x n) ->
  exists w, bind pop_unsigned k v = (Fail (count_error x), w) /\ v_st w = v_st v /\ v_cs w = v_cs v.
Proof.
  intros S V N. unfold bind at 1, pop_unsigned. rewrite (bind_pop _ v x st S). unfold count_error, run_error.
  unfold fneb. change SFeqb with feqb. destruct (fltb x fzero || negb (feqb (ffloor x) x)) eqn:F.
  - eexists. split; [reflexivity|split; reflexivity].
  - rewrite fgtb_uint. assert (G : fgtb x (fofZ 4294967295) = true).
    { apply orb_false_iff in F as [F1 F2]. destruct (whole_or_not x V) as [(z & I)|[([] & ->)|[F _]]].
      - rewrite (fgtb_int x z) by (try assumption; lia). rewrite (fltb_zero x z V I) in F1.
        assert (~ count x (Z.to_nat z)) as C by apply N. unfold count in C.
        destruct (Z.ltb_spec 4294967295 z); [reflexivity|]. exfalso. apply C.
        replace (Z.of_nat (Z.to_nat z)) with z by lia. split; [exact I|lia].
      - discriminate F1.
      - reflexivity.
      - rewrite F in F2. discriminate. }
    rewrite G. eexists. split; [reflexivity|split; reflexivity].
Qed.

(* the reason is as stated *)
Lemma count_error_nonneg x : double x ->
  count_error x = RE_nonneg x <-> x = S754_nan \/ fltb x fzero = true \/ (forall z, ~ is_integer x z) /\ x <> S754_infinity false.
Proof.
  intros V. unfold count_error. destruct (fltb x fzero) eqn:L; cbn [orb].
  - split; auto.
  - destruct (whole_or_not x V) as [(z & I)|[([] & ->)|[F N]]].
    + rewrite (proj1 (floor_int x z V I)). cbn. split; [discriminate|]. intros [->|[H|[H _]]].
      * discriminate I.
      * discriminate.
      * exfalso. exact (H z I).
    + discriminate L.
    + cbn. split; [discriminate|]. intros [H|[H|[_ H]]]; try discriminate H. exfalso. apply H. reflexivity.
    + rewrite F. cbn. split; [|reflexivity]. intros _. right. right. split; [exact N|]. intros ->. discriminate F.
Qed.

(* ---------- string functions ---------- *)

Lemma push_buf_room s v : length s <= 255 -> length (v_sstack v) < 8 ->
  push_buf s v = (Ok tt, set_sstack (s :: v_sstack v) v).
Proof.
  intros S L. unfold push_buf. destruct (Nat.ltb_spec 256 (length s + 1)); [lia|]. apply push_str_room, L.
Qed.

Theorem left_ok E v s ss x st n : current v = Some I_LEFT -> v_sstack v = s :: ss -> v_stack v = x :: st ->
  double x -> count x n -> length s <= 255 -> length ss < 8 -> gives E v st (firstn n s :: ss).
Proof.
  intros C SS S V K L R. eapply gives_intro; [exact C|]. cbn [exec_instr].
  rewrite (bind_pop_str _ v s ss SS), (bind_count _ (set_sstack ss v) x st n) by assumption.
  apply adv_ok.
  replace (if (N.of_nat (length s) <? N.of_nat n)%N then s else firstn (N.to_nat (N.of_nat n)) s) with (firstn n s).
  - rewrite push_buf_room; [destruct v; reflexivity|rewrite firstn_length; lia|exact R].
  - rewrite Nat2N.id. destruct (N.ltb_spec (N.of_nat (length s)) (N.of_nat n)); [|reflexivity]. rewrite firstn_all2 by lia. reflexivity.
Qed.

Theorem right_ok E v s ss x st n : current v = Some I_RIGHT -> v_sstack v = s :: ss -> v_stack v = x :: st ->
  double x -> count x n -> length s <= 255 -> length ss < 8 -> gives E v st (skipn (length s - n) s :: ss).
Proof.
  intros C SS S V K L R. eapply gives_intro; [exact C|]. cbn [exec_instr].
  rewrite (bind_pop_str _ v s ss SS), (bind_count _ (set_sstack ss v) x st n) by assumption.
  apply adv_ok. cbv zeta.
  match goal with |- push_buf (skipn ?k s) _ = _ => replace k with (length s - n) by (destruct (N.ltb_spec (N.of_nat (length s)) (N.of_nat n)); lia) end.
  rewrite push_buf_room; [destruct v; reflexivity|rewrite skipn_length; lia|exact R].
Qed.

Theorem mid_ok E v s ss x y st n k : current v = Some I_MID3 -> v_sstack v = s :: ss -> v_stack v = y :: x :: st ->
  double x -> double y -> count x k -> count y n -> length s <= 255 -> length ss < 8 ->
  (1 <= k <= length s -> gives E v st (firstn n (skipn (k - 1) s) :: ss)) /\
  (~ 1 <= k <= length s -> raises E v RE_string_index).
Proof.
  intros C SS S Vx Vy K Cn L R.
  assert (X : forall A (f : bytes -> N -> N -> M A),
    (let* s := pop_str in let* n := pop_unsigned in let* u := pop_unsigned in f s n u) v =
    f s (N.of_nat n) (N.of_nat k) (set_stack st (set_sstack ss v))).
  { intros A f. rewrite (bind_pop_str _ v s ss SS), (bind_count _ (set_sstack ss v) y (x :: st) n) by assumption.
    rewrite (bind_count _ (set_stack (x :: st) (set_sstack ss v)) x st k) by (try assumption; reflexivity).
    destruct v; reflexivity. }
  split; intros H.
  - eapply gives_intro; [exact C|]. cbn [exec_instr]. rewrite X. cbv zeta.
    replace ((N.of_nat k <? 1)%N || (N.of_nat (length s) <? N.of_nat k)%N) with false by lia.
    match goal with |- adv (push_buf ?b) _ = _ => replace b with (firstn n (skipn (k - 1) s)) end.
    + apply adv_ok. rewrite push_buf_room; [destruct v; reflexivity|rewrite firstn_length, skipn_length; lia|exact R].
    + replace (N.to_nat (N.of_nat k - 1)) with (k - 1) by lia.
      destruct (N.ltb_spec (N.of_nat (length s) - N.of_nat k + 1) (N.of_nat n)).
      * rewrite !firstn_all2; [reflexivity| |]; rewrite skipn_length; lia.
      * rewrite Nat2N.id. reflexivity.
  - eapply raises_intro; [exact C|cbn [exec_instr]; rewrite X; cbv zeta| |].
    + replace ((N.of_nat k <? 1)%N || (N.of_nat (length s) <? N.of_nat k)%N) with true by lia. reflexivity.
    + reflexivity.
    + reflexivity.
Qed.

(* a string function whose count is not acceptable *)
Theorem count_refused E v s ss x st i : current v = Some i -> i = I_LEFT \/ i = I_RIGHT \/ i = I_MID3 ->
  v_sstack v = s :: ss -> v_stack v = x :: st -> double x -> (forall n, ~ count x n) -> raises E v (count_error x).
Proof.
  intros C D SS S V Nc.
  assert (X : forall A (f : bytes -> N -> M A), exists w,
    (let* s := pop_str in let* n := pop_unsigned in f s n) v = (Fail (count_error x), w) /\ v_st w = v_st v /\ v_cs w = v_cs v).
  { intros A f. rewrite (bind_pop_str _ v s ss SS).
    destruct (bind_count_bad (f s) (set_sstack ss v) x st S V Nc) as (w & W & P). exists w. split; [exact W|exact P]. }
  destruct D as [-> | [-> | ->]].
  - destruct (X _ (fun s u => adv (push_buf (if (N.of_nat (length s) <? u)%N then s else firstn (N.to_nat u) s)))) as (w & W & A & B).
    eapply raises_intro; [exact C|exact W|exact A|exact B].
  - destruct (X _ (fun s u => let sz := N.of_nat (length s) in let u' := if (sz <? u)%N then sz else u in
      adv (push_buf (skipn (N.to_nat (sz - u')) s)))) as (w & W & A & B).
    eapply raises_intro; [exact C|exact W|exact A|exact B].
  - destruct (X _ (fun s n => let* u := pop_unsigned in
      let sz := N.of_nat (length s) in
      if (u <? 1)%N || (sz <? u)%N then run_error RE_string_index
      else
        let n' := if (sz - u + 1 <? n)%N then (sz - u + 1)%N else n in
        adv (push_buf (firstn (N.to_nat n') (skipn (N.to_nat (u - 1)) s))))) as (w & W & A & B).
    eapply raises_intro; [exact C|exact W|exact A|exact B].
Qed.
Theorem start_refused E v s ss x y st n : current v = Some I_MID3 ->
  v_sstack v = s :: ss -> v_stack v = y :: x :: st -> double x -> double y -> count y n -> (forall n, ~ count x n) ->
  raises E v (count_error x).
Proof.
  intros C SS S Vx Vy Cn Nc.
  destruct (bind_count_bad (fun u => let sz := N.of_nat (length s) in
      if (u <? 1)%N || (sz <? u)%N then run_error RE_string_index
      else
        let n' := if (sz - u + 1 <? N.of_nat n)%N then (sz - u + 1)%N else N.of_nat n in
        adv (push_buf (firstn (N.to_nat n') (skipn (N.to_nat (u - 1)) s))))
      (set_stack (x :: st) (set_sstack ss v)) x st eq_refl Vx Nc) as (w & W & A & B).
  eapply raises_intro; [exact C| |exact A|exact B]. cbn [exec_instr].
  rewrite (bind_pop_str _ v s ss SS), (bind_count _ (set_sstack ss v) y (x :: st) n S Vy Cn). exact W.
Qed.

Theorem len_ok E v s ss : current v = Some I_LEN -> v_sstack v = s :: ss -> length s <= 255 -> length (v_stack v) < 16 ->
  exists x, gives E v (x :: v_stack v) ss /\ is_integer x (Z.of_nat (length s)).
Proof.
  intros C SS L R. exists (fofN (N.of_nat (length s))). split.
  - eapply gives_intro; [exact C|]. cbn [exec_instr]. rewrite (bind_pop_str _ v s ss SS). apply adv_ok.
    rewrite push_room by exact R. destruct v; reflexivity.
  - unfold fofN. rewrite nat_N_Z. apply fofZ_spec. lia.
Qed.

Theorem concat_ok E v s t ss : current v = Some I_CONCAT -> v_sstack v = t :: s :: ss -> length ss < 8 ->
  (length s + length t <= 255 -> gives E v (v_stack v) ((s ++ t) :: ss)) /\
  (255 < length s + length t -> raises E v (RE_concat_too_long (N.of_nat (length s + length t)))).
Proof.
  intros C SS R. split; intros L.
  - eapply gives_intro; [exact C|]. cbn [exec_instr].
    rewrite (bind_pop_str _ v t (s :: ss) SS), (bind_pop_str _ (set_sstack (s :: ss) v) s ss eq_refl).
    destruct (Nat.ltb_spec 256 (length s + length t + 1)); [lia|]. apply adv_ok.
    rewrite push_str_room by exact R. destruct v; reflexivity.
  - eapply raises_intro; [exact C|cbn [exec_instr];
      rewrite (bind_pop_str _ v t (s :: ss) SS), (bind_pop_str _ (set_sstack (s :: ss) v) s ss eq_refl);
      replace (Nat.ltb 256 (length s + length t + 1)) with true by (symmetry; apply Nat.ltb_lt; lia); reflexivity|reflexivity|reflexivity].
Qed.

Definition chr_refused (x : num) : bool := fltb x fzero || fgtb x (fofZ 255) || fneb x (ffloor x).
Theorem chr_ok E v x st : current v = Some I_CHR -> v_stack v = x :: st -> double x -> length (v_sstack v) < 8 ->
  (forall c, is_integer x (Z.of_N (code c)) -> gives E v st ((if ceq c NUL then [] else [c]) :: v_sstack v)) /\
  ((forall c, ~ is_integer x (Z.of_N (code c))) -> raises E v (RE_chr x)).
Proof.
  intros C S V R. split.
  - intros c I. pose proof (code_lt c) as LC. eapply gives_intro; [exact C|]. cbn [exec_instr]. rewrite (bind_pop _ v x st S).
    rewrite (fltb_zero x _ V I), (fgtb_int x _ _ V I) by lia. unfold fneb. change SFeqb with feqb.
    rewrite (proj2 (floor_int x _ V I)). cbn [negb].
    replace ((Z.of_N (code c) <? 0)%Z || (255 <? Z.of_N (code c))%Z || false) with false by lia.
    rewrite (ftoZ_integer x _ V I). unfold some_or_crash. cbn [bind ret]. unfold bind, ret.
    rewrite N2Z.id, chr_code. apply adv_ok. rewrite push_str_room by exact R. cbn [cstr].
    destruct (ceq c NUL), v; reflexivity.
  - intros N. assert (F : chr_refused x = true).
    { unfold chr_refused. destruct (whole_or_not x V) as [(z & I)|[([] & ->)|[F _]]]; try reflexivity.
      - rewrite (fltb_zero x _ V I), (fgtb_int x _ _ V I) by lia.
        destruct (Z_lt_le_dec z 0); [lia|]. destruct (Z_lt_le_dec 255 z); [lia|]. exfalso.
        apply (N (chr (Z.to_N z))). rewrite code_chr by lia. rewrite Z2N.id by lia. exact I.
      - unfold fneb. change SFeqb with feqb. rewrite feqb_sym, F. apply orb_true_r. }
    eapply raises_intro; [exact C|cbn [exec_instr]; rewrite (bind_pop _ v x st S); unfold chr_refused in F; rewrite F; reflexivity|reflexivity|reflexivity].
Qed.

Theorem asc_ok E v s ss : current v = Some I_ASC -> v_sstack v = s :: ss -> length (v_stack v) < 16 ->
  exists x, gives E v (x :: v_stack v) ss /\
    match s with
    | [] => is_integer x 0
    | c :: _ => if (code c <? 128)%N then is_integer x (Z.of_N (code c)) else is_integer x (Z.of_N (code c) - 256)
    end.
Proof.
  intros C SS R. exists (fofZ (match s with [] => 0%Z | c :: _ => schar c end)). split.
  - eapply gives_intro; [exact C|]. cbn [exec_instr]. rewrite (bind_pop_str _ v s ss SS). apply adv_ok.
    rewrite push_room by exact R. destruct v; reflexivity.
  - destruct s as [|c s]; [apply fofZ_spec; lia|]. pose proof (code_lt c). unfold schar.
    replace (Z.of_N (code c) <? 128)%Z with (code c <? 128)%N by lia. destruct (code c <? 128)%N; apply fofZ_spec; lia.
Qed.

(* ---------- RND ---------- *)

Lemma unit_zero s : unit_interval (S754_zero s).
Proof. exists 0%Z. split; [reflexivity|]. unfold UNIT. lia. Qed.

Lemma zero_quotient : fdiv (fofZ 0) (fofZ 2147483647) = S754_zero false.
Proof. vm_compute. reflexivity. Qed.
Lemma rnd_quotient a : (a < RAND_MAX)%N -> unit_interval (fdiv (fofN a) (fofN RAND_MAX)).
Proof.
  intros L. unfold fofN. change (Z.of_N RAND_MAX) with 2147483647%Z. destruct (N.eq_dec a 0) as [->|NZ].
  - change (Z.of_N 0) with 0%Z. rewrite zero_quotient. apply unit_zero.
  - unfold RAND_MAX in L. apply (fdiv_below (Z.of_N a) 2147483647); lia.
Qed.
Lemma rand_double a : (a <= RAND_MAX)%N -> double (fdiv (fofN a) (fofN RAND_MAX)).
Proof.
  unfold RAND_MAX at 1. intros L. unfold fofN. change (Z.of_N RAND_MAX) with 2147483647%Z.
  apply fdiv_double; apply fofZ_spec; lia.
Qed.
Lemma unit_below x : double x -> unit_interval x -> fgeb x fone = false.
Proof.
  intros V (u & U & B). assert (V1 : double fone) by reflexivity.
  unfold fgeb, SFleb. rewrite (compare_units fone x UNIT u V1 V eq_refl U).
  destruct (Z.compare_spec UNIT u); [lia|lia|reflexivity].
Qed.
Lemma rand_max_quotient : fgeb (fdiv (fofN RAND_MAX) (fofN RAND_MAX)) fone = true.
Proof. vm_compute. reflexivity. Qed.

Lemma rnd_loop_unit E : rand_range E -> forall f seed k x k', rnd_loop f E seed k = Some (x, k') -> unit_interval x.
Proof.
  intros RR. induction f as [|f IH]; intros seed k x k' H; [discriminate H|].
  cbn [rnd_loop] in H. destruct (fgeb (fdiv (fofN (e_rand E seed k)) (fofN RAND_MAX)) fone) eqn:G; [exact (IH _ _ _ _ H)|].
  injection H as <- _. specialize (RR seed k). destruct (N.eq_dec (e_rand E seed k) RAND_MAX) as [M|M].
  - rewrite M, rand_max_quotient in G. discriminate.
  - apply rnd_quotient. lia.
Qed.
Lemma rnd_loop_found E seed : forall f k j, j < f -> (e_rand E seed (k + j) < RAND_MAX)%N ->
  (forall k, (e_rand E seed k <= RAND_MAX)%N) -> exists x k', rnd_loop f E seed k = Some (x, k').
Proof.
  induction f as [|f IH]; intros k j J L RR; [lia|]. cbn [rnd_loop].
  destruct (fgeb _ fone) eqn:G; [|eauto].
  destruct j as [|j].
  - rewrite Nat.add_0_r in L.
    assert (V := rand_double _ (RR k)).
    rewrite (unit_below _ V (rnd_quotient _ L)) in G. discriminate.
  - apply (IH (S k) j); [lia| |exact RR]. replace (S k + j) with (k + S j) by lia. exact L.
Qed.

Theorem rnd_ok E v : rand_range E -> rand_varies E -> current v = Some I_RND -> length (v_stack v) < 16 ->
  exists x k, execute E v = (Ok tt, set_cs (place_after v 1) (set_stack (x :: v_stack v) (set_rand (v_seed v) k (v_clock v) v))) /\
    unit_interval x.
Proof.
  intros RR RV C L. destruct (RV (v_seed v) (v_randk v)) as (j & J & LJ).
  destruct (rnd_loop_found E (v_seed v) RND_FUEL (v_randk v) j J LJ (RR (v_seed v))) as (x & k & H).
  exists x, k. split; [|exact (rnd_loop_unit E RR _ _ _ _ _ H)].
  rewrite (execute_eq E v _ C). cbn [exec_instr]. rewrite H.
  rewrite (adv_ok _ _ _ (push_room x (set_rand (v_seed v) k (v_clock v) v) L)). cbn [finish].
  f_equal. rewrite (set_pc_place v); [destruct v|]; reflexivity.
Qed.

(* a value in [0,1), whatever rand() gives *)
Theorem rnd_unit E v w : rand_range E -> current v = Some I_RND -> execute E v = (Ok tt, w) ->
  exists x, v_stack w = x :: v_stack v /\ unit_interval x.
Proof.
  intros RR C X. rewrite (execute_eq E v _ C) in X. cbn [exec_instr] in X.
  destruct (rnd_loop RND_FUEL E (v_seed v) (v_randk v)) as [[x k]|] eqn:H; [|discriminate X].
  exists x. split; [|exact (rnd_loop_unit E RR _ _ _ _ _ H)].
  unfold adv, bind, push in X. destruct (Nat.leb _ _); [discriminate X|]. cbn in X. injection X as <-. reflexivity.
Qed.

(* the stream of values from a state of the generator *)
Fixpoint stream (n : nat) (E : env) (seed : N) (k : nat) : list num :=
  match n with
  | 0 => []
  | S m => match rnd_loop RND_FUEL E seed k with
           | Some (x, k') => x :: stream m E seed k'
           | None => []
           end
  end.

Lemma rnd_loop_env E F seed : (forall k, e_rand E seed k = e_rand F seed k) -> forall f k, rnd_loop f E seed k = rnd_loop f F seed k.
Proof. intros H. induction f as [|f IH]; intros k; [reflexivity|]. cbn [rnd_loop]. rewrite H, IH. reflexivity. Qed.
Lemma stream_env E F seed : (forall k, e_rand E seed k = e_rand F seed k) -> forall n k, stream n E seed k = stream n F seed k.
Proof.
  intros H. induction n as [|n IH]; intros k; [reflexivity|]. cbn [stream]. rewrite (rnd_loop_env E F seed H).
  destruct (rnd_loop RND_FUEL F seed k) as [[x k']|]; [rewrite IH|]; reflexivity.
Qed.
Lemma stream_prefix E seed : forall n m k, one_continues_other (stream n E seed k) (stream m E seed k).
Proof.
  induction n as [|n IH]; intros m k; [exists (stream m E seed k); right; reflexivity|].
  destruct m as [|m]; [exists (stream (S n) E seed k); left; reflexivity|]. cbn [stream].
  destruct (rnd_loop RND_FUEL E seed k) as [[x k']|]; [|exists []; left; reflexivity].
  destruct (IH m k') as (t & [H|H]); exists t; [left|right]; cbn [app]; f_equal; exact H.
Qed.

Lemma execute_state E v i w : current v = Some i -> execute E v = (Ok tt, w) ->
  exists b u, exec_instr E i v = (Ok b, u) /\ v_seed w = v_seed u /\ v_randk w = v_randk u /\ v_stack w = v_stack u.
Proof.
  intros C X. rewrite (execute_eq E v i C) in X. destruct (exec_instr E i v) as [[b|e| |] u]; cbn [finish] in X; try discriminate X.
  exists b, u. split; [reflexivity|]. destruct b; injection X as <-; repeat split; reflexivity.
Qed.

Lemma rnd_values_stream E v l v' : runs E v l v' -> no_randomize l ->
  exists n, rnd_values E l = stream n E (v_seed v) (v_randk v).
Proof.
  intros R N. induction R as [v|v v1 l v' X R IH]; [exists 0; reflexivity|].
  inversion N as [|? ? [N1 N2] N']; subst. destruct (IH N') as (n & IHn). cbn [rnd_values].
  destruct (current v) as [i|] eqn:C.
  2:{ rewrite (execute_none E v C) in X. discriminate X. }
  destruct (execute_state E v i v1 C X) as (b & u & U & Us & Uk & Ust).
  destruct (touches_rand i) eqn:T.
  - destruct i; try discriminate T; try congruence.
    + (* RND *) exists (S n). rewrite X. cbn [snd]. cbn [exec_instr] in U. cbn [stream].
      destruct (rnd_loop RND_FUEL E (v_seed v) (v_randk v)) as [[x k]|] eqn:L; [|discriminate U].
      unfold adv, bind, push in U. destruct (Nat.leb _ _); [discriminate U|]. cbn in U. injection U as <- <-.
      rewrite Ust. cbn [set_stack v_stack]. rewrite IHn, Us, Uk. reflexivity.
    + (* TIME$ *) exists n. rewrite IHn, Us, Uk. cbn [exec_instr] in U. destruct (e_hms E (v_clock v)) as [[h m] s].
      unfold adv, bind, push_str in U. destruct (Nat.leb _ _); [discriminate U|]. cbn in U. injection U as <- <-. reflexivity.
  - exists n. pose proof (exec_keeps_rand E i T v) as K. rewrite U in K. cbn in K. injection K as K1 K2 K3.
    rewrite Us, Uk, K1, K2 in IHn. destruct i; try discriminate T; exact IHn.
Qed.

Theorem rnd_reproducible E F v l v' w m w' : (forall s k, e_rand E s k = e_rand F s k) ->
  runs E v l v' -> runs F w m w' -> no_randomize l -> no_randomize m ->
  v_seed v = v_seed w -> v_randk v = v_randk w ->
  one_continues_other (rnd_values E l) (rnd_values F m).
Proof.
  intros EF R1 R2 N1 N2 S K. destruct (rnd_values_stream E v l v' R1 N1) as (n & ->).
  destruct (rnd_values_stream F w m w' R2 N2) as (p & ->). rewrite <- S, <- K.
  rewrite <- (stream_env E F (v_seed v) (EF (v_seed v))). apply stream_prefix.
Qed.

Theorem seed_ok E v x st n : current v = Some I_SEED -> v_stack v = x :: st -> double x -> count x n ->
  execute E v = (Ok tt, set_cs (place_after v 1) (set_rand (N.of_nat n) 0 (v_clock v) (set_stack st v))).
Proof.
  intros C S V K. rewrite (execute_eq E v _ C). cbn [exec_instr]. rewrite (bind_count _ v x st n S V K).
  unfold adv, bind, modify, ret. cbn [finish]. f_equal. rewrite (set_pc_place v); [destruct v|]; reflexivity.
Qed.

Theorem seed_reproducible E F v l v' w m w' x y st st' n v1 w1 : (forall s k, e_rand E s k = e_rand F s k) ->
  current v = Some I_SEED -> v_stack v = x :: st -> double x -> count x n ->
  current w = Some I_SEED -> v_stack w = y :: st' -> double y -> count y n ->
  execute E v = (Ok tt, v1) -> execute F w = (Ok tt, w1) ->
  runs E v1 l v' -> runs F w1 m w' -> no_randomize l -> no_randomize m ->
  one_continues_other (rnd_values E l) (rnd_values F m).
Proof.
  intros EF C S V K C' S' V' K' X X' R R' N N'.
  rewrite (seed_ok E v x st n C S V K) in X. rewrite (seed_ok F w y st' n C' S' V' K') in X'.
  injection X as <-. injection X' as <-.
  eapply rnd_reproducible; try eassumption; reflexivity.
Qed.
