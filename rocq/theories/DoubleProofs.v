(* Every operation of Num.v on IEEE doubles gives an IEEE double. *)
From Coq Require Import SpecFloat Lia ZifyBool ZifyNat ZifyN.
From Verif Require Import Base BaseLemmas Num NumSpec NumLemmas.
Open Scope Z_scope.

Lemma shr_1_div r : 0 <= shr_m r -> shr_m (shr_1 r) = shr_m r / 2.
Proof.
  destruct r as [m a b]. cbn [shr_m]. intros H. destruct m as [|[p|p|]|]; cbn [shr_1 shr_m]; try reflexivity; try lia.
Qed.

Lemma iter_shr_div p : forall r, 0 <= shr_m r -> shr_m (SpecFloat.iter_pos shr_1 p r) = shr_m r / 2 ^ Zpos p.
Proof.
  induction p as [p IH|p IH|]; intros r H; cbn [SpecFloat.iter_pos].
  - assert (0 < 2 ^ Zpos p) by (apply Z.pow_pos_nonneg; lia).
    assert (0 <= shr_m r / 2) by (apply Z.div_pos; lia).
    assert (S1 : shr_m (shr_1 r) = shr_m r / 2) by (apply shr_1_div, H).
    assert (S2 : shr_m (SpecFloat.iter_pos shr_1 p (shr_1 r)) = shr_m r / 2 / 2 ^ Zpos p) by (rewrite IH; rewrite S1; [reflexivity|assumption]).
    rewrite IH by (rewrite S2; apply Z.div_pos; lia). rewrite S2.
    rewrite !Z.div_div by lia. rewrite (Pos2Z.inj_xI p). replace (2 * Zpos p + 1) with (1 + (Zpos p + Zpos p)) by lia.
    rewrite (Z.pow_add_r 2 1 (Zpos p + Zpos p)), (Z.pow_add_r 2 (Zpos p) (Zpos p)) by lia. rewrite ?Z.mul_assoc. reflexivity.
  - assert (0 < 2 ^ Zpos p) by (apply Z.pow_pos_nonneg; lia).
    assert (S2 : shr_m (SpecFloat.iter_pos shr_1 p r) = shr_m r / 2 ^ Zpos p) by (apply IH, H).
    rewrite IH by (rewrite S2; apply Z.div_pos; lia). rewrite S2.
    rewrite !Z.div_div by lia. rewrite (Pos2Z.inj_xO p). replace (2 * Zpos p) with (Zpos p + Zpos p) by lia.
    rewrite (Z.pow_add_r 2 (Zpos p) (Zpos p)) by lia. reflexivity.
  - rewrite shr_1_div by exact H. reflexivity.
Qed.

Lemma shr_div r e k : 0 <= shr_m r -> 0 <= k -> shr_m (fst (shr r e k)) = shr_m r / 2 ^ k /\ snd (shr r e k) = e + k.
Proof.
  intros H K. destruct k as [|p|p]; cbn [shr fst snd]; [|split; [apply iter_shr_div, H|reflexivity]|lia].
  rewrite Z.pow_0_r, Z.div_1_r. split; [reflexivity|lia].
Qed.

Lemma zdigits_bounds m : 0 < m -> 2 ^ (Zdigits2 m - 1) <= m < 2 ^ Zdigits2 m /\ 0 < Zdigits2 m.
Proof. destruct m; try lia. intros _. cbn [Zdigits2]. split; [apply digits_bounds|lia]. Qed.

Lemma zdigits_le m k : 0 <= k -> 0 <= m -> m < 2 ^ k -> Zdigits2 m <= k.
Proof.
  intros K M L. destruct (Z.eq_dec m 0) as [->|]; [cbn; lia|].
  destruct (zdigits_bounds m) as [[A _] _]; [lia|].
  destruct (Z_le_gt_dec (Zdigits2 m) k); [assumption|].
  assert (2 ^ k <= 2 ^ (Zdigits2 m - 1)) by (apply Z.pow_le_mono_r; lia). lia.
Qed.
Lemma zdigits_ge m k : 0 <= k -> 2 ^ k <= m -> k < Zdigits2 m.
Proof.
  intros K L. assert (0 < 2 ^ k) by (apply Z.pow_pos_nonneg; lia).
  destruct (zdigits_bounds m) as [[_ A] B]; [lia|].
  destruct (Z_lt_ge_dec k (Zdigits2 m)); [assumption|].
  assert (2 ^ Zdigits2 m <= 2 ^ k) by (apply Z.pow_le_mono_r; lia). lia.
Qed.
Lemma zdigits_nonneg m : 0 <= Zdigits2 m.
Proof. destruct m; cbn; lia. Qed.

Lemma record_of_loc m l : shr_m (shr_record_of_loc m l) = m.
Proof. destruct l as [|[]]; reflexivity. Qed.

Lemma round_bound m l : 0 <= m -> m <= round_nearest_even m l <= m + 1.
Proof. intros H. unfold round_nearest_even. destruct l as [|[]]; try lia. destruct (Z.even m); lia. Qed.

(* Rounding gives a double if the mantissa has at least the digits it needs. *)
Lemma round_aux_double s m e l : 0 <= m -> e <= fexp 53 1024 (Zdigits2 m + e) ->
  double (binary_round_aux 53 1024 s m e l).
Proof.
  intros M F. unfold binary_round_aux, shr_fexp. set (k := fexp 53 1024 (Zdigits2 m + e) - e).
  assert (K : 0 <= k) by (unfold k; lia).
  pose proof (shr_div (shr_record_of_loc m l) e k) as SD. rewrite record_of_loc in SD. specialize (SD M K).
  destruct (shr (shr_record_of_loc m l) e k) as [r e1]. cbn [fst snd] in SD. destruct SD as [R1 E1].
  set (q := round_nearest_even (shr_m r) (loc_of_shr_record r)).
  assert (E1' : e1 = fexp 53 1024 (Zdigits2 m + e)) by (unfold k in E1; lia).
  assert (EM : -1074 <= e1) by (rewrite E1'; unfold fexp, emin; lia).
  assert (P : 0 < 2 ^ k) by (apply Z.pow_pos_nonneg; lia).
  assert (R0 : 0 <= shr_m r) by (rewrite R1; apply Z.div_pos; lia).
  pose proof (round_bound (shr_m r) (loc_of_shr_record r) R0) as Q. fold q in Q.
  pose proof (zdigits_nonneg m) as D0.
  (* the mantissa has at most 53 digits, 53 if normal *)
  assert (UB : shr_m r < 2 ^ 53).
  { rewrite R1. apply Z.div_lt_upper_bound; [lia|].
    destruct (Z.eq_dec m 0) as [->|]; [assert (0 < 2 ^ k * 2 ^ 53) by (apply Z.mul_pos_pos; lia); lia|].
    destruct (zdigits_bounds m) as [[_ U] _]; [lia|].
    apply Z.lt_le_trans with (1 := U). rewrite <- Z.pow_add_r by lia. apply Z.pow_le_mono_r; [lia|].
    unfold k, fexp. lia. }
  assert (LB : -1074 < e1 -> 2 ^ 52 <= shr_m r).
  { intros N. assert (E2 : e1 = Zdigits2 m + e - 53) by (rewrite E1' in *; unfold fexp, emin in *; lia).
    rewrite R1. apply Z.div_le_lower_bound; [lia|].
    destruct (Z.eq_dec m 0) as [->|]; [cbn [Zdigits2] in *; lia|].
    destruct (zdigits_bounds m) as [[U _] _]; [lia|].
    rewrite <- Z.pow_add_r by lia. replace (k + 52) with (Zdigits2 m - 1) by lia. exact U. }
  assert (Q0 : 0 <= q) by lia. assert (Q53 : q <= 2 ^ 53) by lia.
  assert (K2 : 0 <= fexp 53 1024 (Zdigits2 q + e1) - e1).
  { unfold fexp, emin. destruct (Z.eq_dec e1 (-1074)); [lia|].
    assert (52 < Zdigits2 q) by (apply zdigits_ge; [lia|]; specialize (LB ltac:(lia)); lia). lia. }
  pose proof (shr_div (shr_record_of_loc q loc_Exact) e1 _ ltac:(exact Q0) K2) as SD. rewrite record_of_loc in SD.
  destruct (shr (shr_record_of_loc q loc_Exact) e1 _) as [r2 e2]. cbn [fst snd] in SD. destruct SD as [R2 E2].
  destruct (shr_m r2) as [|p|p] eqn:RP; [reflexivity| |].
  - destruct (Zle_bool e2 (1024 - 53)) eqn:LE; [|reflexivity].
    apply Zle_bool_imp_le in LE. apply finite_valid; [|lia].
    replace (Zpos (digits2_pos p)) with (Zdigits2 (Zpos p)) by reflexivity. rewrite R2.
    destruct (Z.eq_dec q (2 ^ 53)) as [->|NQ].
    + change (Zdigits2 (2 ^ 53)) with 54 in *.
      assert (E3 : fexp 53 1024 (54 + e1) - e1 = 1) by (unfold fexp, emin; lia).
      rewrite E3 in *. change (Zdigits2 (2 ^ 53 / 2 ^ 1)) with 53. unfold fexp, emin. lia.
    + assert (DQ : Zdigits2 q <= 53) by (apply zdigits_le; lia).
      assert (E3 : fexp 53 1024 (Zdigits2 q + e1) - e1 = 0).
      { unfold fexp, emin in *. lia. }
      rewrite E3 in *. rewrite Z.pow_0_r, Z.div_1_r. replace e2 with e1 by lia. lia.
  - assert (0 <= q / 2 ^ (fexp 53 1024 (Zdigits2 q + e1) - e1)); [|lia].
    apply Z.div_pos; [lia|]. apply Z.pow_pos_nonneg; lia.
Qed.

Lemma round_double s m e : double (binary_round 53 1024 s m e).
Proof.
  unfold binary_round, shl_align. set (e' := fexp 53 1024 (Zpos (digits2_pos m) + e)).
  destruct (e' - e) as [|d|d] eqn:X; apply round_aux_double; try lia; cbn [Zdigits2]; try (fold e'; lia).
  rewrite (digits_shift m (shift_pos d m) (Zpos d)); [|lia|apply shift_pos_spec].
  replace (Zpos (digits2_pos m) + Zpos d + e') with (Zpos (digits2_pos m) + e) by lia. fold e'. lia.
Qed.

Lemma normalize_double z e s : double (binary_normalize 53 1024 z e s).
Proof. destruct z; cbn [binary_normalize]; [reflexivity|apply round_double..]. Qed.

Lemma fofZ_double z : double (fofZ z).
Proof. apply normalize_double. Qed.
Lemma fofN_double n : double (fofN n).
Proof. apply fofZ_double. Qed.

Lemma fadd_double x y : double x -> double y -> double (fadd x y).
Proof.
  intros X Y. destruct x as [s|s| |s m e], y as [s'|s'| |s' m' e']; try assumption; try reflexivity;
    try (unfold fadd, SFadd; destruct (Bool.eqb s s'); reflexivity). apply normalize_double.
Qed.
Lemma fsub_double x y : double x -> double y -> double (fsub x y).
Proof.
  intros X Y. destruct x as [s|s| |s m e], y as [s'|s'| |s' m' e']; try assumption; try reflexivity;
    try (unfold fsub, SFsub; destruct (Bool.eqb s (negb s')); reflexivity). apply normalize_double.
Qed.

Lemma digits_mul m m' : Zpos (digits2_pos m) <= Zpos (digits2_pos (m * m')).
Proof.
  pose proof (digits_bounds m) as [L _].
  pose proof (zdigits_ge (Zpos (m * m')) (Zpos (digits2_pos m) - 1) ltac:(lia) ltac:(nia)) as G. cbn [Zdigits2] in G. lia.
Qed.
Lemma fmul_double x y : double x -> double y -> double (fmul x y).
Proof.
  intros X Y. destruct x as [s|s| |s m e], y as [s'|s'| |s' m' e']; try reflexivity.
  apply round_aux_double; [lia|]. cbn [Zdigits2].
  apply valid_finite in X as (F & _ & _). apply valid_finite in Y as (F' & _ & _).
  pose proof (digits_mul m m'). pose proof (digits_mul m' m). rewrite (Pos.mul_comm m' m) in *.
  unfold fexp, emin in *. lia.
Qed.

Lemma div_core_double s m1 e1 m2 e2 : 0 < m1 -> 0 < m2 ->
  double (let '(q, e, l) := SFdiv_core_binary 53 1024 m1 e1 m2 e2 in binary_round_aux 53 1024 s q e l).
Proof.
  intros M1 M2. unfold SFdiv_core_binary.
  set (e' := Z.min (fexp 53 1024 (Zdigits2 m1 + e1 - (Zdigits2 m2 + e2))) (e1 - e2)).
  set (k := e1 - e2 - e'). assert (K : 0 <= k) by (unfold k, e'; lia).
  set (m' := match k with Zpos _ => Z.shiftl m1 k | Z0 => m1 | Zneg _ => 0 end).
  assert (P : 0 < 2 ^ k) by (apply Z.pow_pos_nonneg; lia).
  assert (M' : m' = m1 * 2 ^ k).
  { unfold m'. destruct k eqn:X; [rewrite Z.pow_0_r; lia|apply Z.shiftl_mul_pow2; lia|lia]. }
  clearbody m'.
  destruct (Z.div_eucl m' m2) as [q r] eqn:DE. pose proof (Z_div_mod m' m2 ltac:(lia)) as DM. rewrite DE in DM.
  destruct DM as [EQ RB]. assert (QQ : q = m' / m2) by (unfold Z.div; rewrite DE; reflexivity).
  assert (Q0 : 0 <= q) by (rewrite QQ; apply Z.div_pos; nia).
  apply round_aux_double; [exact Q0|].
  destruct (zdigits_bounds m1 M1) as [[L1 _] D1]. destruct (zdigits_bounds m2 M2) as [[_ U2] D2].
  pose proof (zdigits_nonneg q) as DQ0.
  assert (DQ : Zdigits2 m1 + k - Zdigits2 m2 <= Zdigits2 q).
  { destruct (Z_le_gt_dec (Zdigits2 m1 + k - Zdigits2 m2) 0); [lia|].
    pose proof (zdigits_ge q (Zdigits2 m1 + k - Zdigits2 m2 - 1) ltac:(lia)) as G.
    assert (2 ^ (Zdigits2 m1 + k - Zdigits2 m2 - 1) <= q); [|lia].
    rewrite QQ. apply Z.div_le_lower_bound; [lia|].
    apply Z.le_trans with (2 ^ Zdigits2 m2 * 2 ^ (Zdigits2 m1 + k - Zdigits2 m2 - 1)).
    - apply Z.mul_le_mono_nonneg_r; [apply Z.pow_nonneg; lia|lia].
    - rewrite <- Z.pow_add_r by lia. replace (Zdigits2 m2 + (Zdigits2 m1 + k - Zdigits2 m2 - 1)) with (Zdigits2 m1 - 1 + k) by lia.
      rewrite Z.pow_add_r by lia. rewrite M'. apply Z.mul_le_mono_nonneg_r; lia. }
  assert (E' : e' <= fexp 53 1024 (Zdigits2 m1 + e1 - (Zdigits2 m2 + e2))) by (unfold e'; lia).
  unfold fexp in *. lia.
Qed.

Lemma fdiv_double x y : double x -> double y -> double (fdiv x y).
Proof.
  intros X Y. destruct x as [s|s| |s m e], y as [s'|s'| |s' m' e']; try reflexivity.
  unfold fdiv, SFdiv. apply div_core_double; lia.
Qed.
Lemma ratio_double s n d : double (f_of_ratio s n d).
Proof. unfold f_of_ratio. apply div_core_double; lia. Qed.

Lemma fneg_double x : double x -> double (fneg x).
Proof. destruct x; intros H; exact H. Qed.
Lemma fabs_double x : double x -> double (fabs x).
Proof. destruct x; intros H; exact H. Qed.

Lemma fsqrt_double x : double x -> double (fsqrt x).
Proof.
  intros X. destruct x as [s|[]| |[] m e]; try reflexivity. unfold fsqrt, SFsqrt, SFsqrt_core_binary.
  set (d := Zdigits2 (Zpos m)). set (e' := Z.min (fexp 53 1024 (Z.div2 (d + e + 1))) (Z.div2 e)).
  set (k := e - 2 * e').
  assert (EH : 2 * Z.div2 e <= e) by (rewrite (Z.div2_odd e) at 2; destruct (Z.odd e); cbn [Z.b2z]; lia).
  assert (K : 0 <= k) by (unfold k, e'; lia).
  set (m' := match k with Zpos _ => Z.shiftl (Zpos m) k | Z0 => Zpos m | Zneg _ => 0 end).
  assert (P : 0 < 2 ^ k) by (apply Z.pow_pos_nonneg; lia).
  assert (M' : m' = Zpos m * 2 ^ k).
  { unfold m'. destruct k eqn:Y; [rewrite Z.pow_0_r; lia|apply Z.shiftl_mul_pow2; lia|lia]. }
  clearbody m'. destruct (Z.sqrtrem m') as [q r] eqn:SR. pose proof (Z.sqrtrem_spec m' ltac:(lia)) as SS. rewrite SR in SS.
  destruct SS as [EQ RB]. pose proof (Z.sqrt_nonneg m') as Q0.
  assert (QS : q = Z.sqrt m') by (pose proof (Z.sqrtrem_sqrt m') as H; rewrite SR in H; cbn [fst] in H; congruence).
  apply round_aux_double; [lia|].
  destruct (zdigits_bounds (Zpos m) ltac:(lia)) as [[L _] D]. fold d in L, D.
  (* q has at least (d + k + 1) / 2 digits *)
  set (h := Z.div2 (d - 1 + k)).
  assert (H0 : 0 <= h) by (unfold h; rewrite Z.div2_div; apply Z.div_pos; lia).
  assert (H2 : 2 * h <= d - 1 + k) by (unfold h; rewrite (Z.div2_odd (d - 1 + k)) at 2; destruct (Z.odd _); cbn [Z.b2z]; lia).
  assert (G : 2 ^ h <= q).
  { rewrite QS. apply Z.sqrt_le_square; [lia|apply Z.pow_nonneg; lia|].
    rewrite <- Z.pow_add_r by lia. rewrite M'.
    apply Z.le_trans with (2 ^ (d - 1 + k)); [apply Z.pow_le_mono_r; lia|].
    rewrite Z.pow_add_r by lia. apply Z.mul_le_mono_nonneg_r; lia. }
  pose proof (zdigits_ge q h H0 G) as DQ.
  assert (E' : e' <= fexp 53 1024 (Z.div2 (d + e + 1))) by (unfold e'; lia).
  assert (HE : Z.div2 (d + e + 1) = h + 1 + e').
  { unfold h, k. rewrite !Z.div2_div. replace (d + e + 1) with ((d - 1 + (e - 2 * e')) + (1 + e') * 2) by lia.
    rewrite Z.div_add by lia. lia. }
  rewrite HE in E'. unfold fexp in *. lia.
Qed.

Lemma ffloor_double x : double x -> double (ffloor x).
Proof.
  intros X. destruct x as [s|s| |s m e]; try reflexivity. cbn [ffloor]. destruct (0 <=? e); [exact X|apply normalize_double].
Qed.

Lemma scale10_double s m n e : double (scale10 s m n e).
Proof.
  unfold scale10. destruct m; [reflexivity|]. destruct (_ <? _); [reflexivity|]. destruct (_ <? _); [reflexivity|].
  destruct e; apply ratio_double.
Qed.
Lemma scale2_double s m e : double (scale2 s m e).
Proof. unfold scale2. destruct m; [reflexivity|]. destruct (_ <? _); [reflexivity|apply round_double]. Qed.

Lemma scan_unsigned_double s t x r : scan_unsigned s t = Some (x, r) -> double x.
Proof.
  unfold scan_unsigned. destruct (striprefix _ t); [intros H; injection H as <- _; reflexivity|].
  destruct (striprefix _ t); [intros H; injection H as <- _; reflexivity|].
  destruct (striprefix _ t).
  { destruct (skipn 3 t) as [|c r1]; [intros H; injection H as <- _; reflexivity|].
    destruct (ceq c "("); [|intros H; injection H as <- _; reflexivity].
    destruct (span _ r1) as [p [|d r2]]; [intros H; injection H as <- _; reflexivity|].
    destruct (ceq d ")"); intros H; injection H as <- _; reflexivity. }
  assert (DEC : match scan_mantissa is_digit t with
         | ([], [], _) => None
         | (ip, fp, r1) =>
             let (e, r2) := scan_exponent "e" r1 in
             Some (scale10 s (digits_value 10 digit_val (ip ++ fp)) (Z.of_nat (length (ip ++ fp))) (e - Z.of_nat (length fp)), r2)
         end = Some (x, r) -> double x).
  { destruct (scan_mantissa is_digit t) as [[[|a ip] [|b fp]] r1]; try discriminate;
      destruct (scan_exponent "e" r1) as [e r2]; intros H; injection H as <- _; apply scale10_double. }
  destruct t as [|z [|y r0]]; try exact DEC.
  destruct (ceq z "0" && ceq (to_lower y) "x")%bool; [|exact DEC].
  destruct (scan_mantissa is_hexdigit r0) as [[[|a ip] [|b fp]] r1]; try exact DEC;
    destruct (scan_exponent "p" r1) as [e r2]; intros H; injection H as <- _; apply scale2_double.
Qed.

Lemma strtod_double s : double (fst (strtod s)).
Proof.
  unfold strtod. destruct (drop_while is_space s) as [|c t].
  - destruct (scan_unsigned false []) as [[x r]|] eqn:E; [exact (scan_unsigned_double _ _ _ _ E)|reflexivity].
  - destruct (ceq c "-"); [|destruct (ceq c "+")];
      match goal with |- context [scan_unsigned ?a ?b] => destruct (scan_unsigned a b) as [[x r]|] eqn:E end;
      try reflexivity; exact (scan_unsigned_double _ _ _ _ E).
Qed.
