(* The quotient of two whole numbers a < b rounds to a number below one. *)
From Coq Require Import Lia ZifyBool ZifyNat ZifyN SpecFloat.
From Verif Require Import Base BaseLemmas Num NumSpec NumLemmas DoubleProofs.

Lemma round_aux_below s m e l : (0 <= m)%Z -> (e <= fexp 53 1024 (Zdigits2 m + e))%Z ->
  (Zdigits2 m + e <= 0)%Z ->
  (m / 2 ^ (fexp 53 1024 (Zdigits2 m + e) - e) + 1 < 2 ^ (- fexp 53 1024 (Zdigits2 m + e)))%Z ->
  match binary_round_aux 53 1024 s m e l with
  | S754_zero _ => True
  | S754_finite b p e2 => b = s /\ (Zpos p * 2 ^ (e2 + 1074) < UNIT)%Z
  | _ => False
  end.
Proof.
  intros M F D B. unfold binary_round_aux, shr_fexp. set (k := (fexp 53 1024 (Zdigits2 m + e) - e)%Z) in *.
  assert (K : (0 <= k)%Z) by (unfold k; lia).
  pose proof (shr_div (shr_record_of_loc m l) e k) as SD. rewrite record_of_loc in SD. specialize (SD M K).
  destruct (shr (shr_record_of_loc m l) e k) as [r e1]. cbn [fst snd] in SD. destruct SD as [R1 E1].
  assert (E1' : e1 = fexp 53 1024 (Zdigits2 m + e)) by (unfold k in E1; lia). rewrite <- E1' in B.
  set (q := round_nearest_even (shr_m r) (loc_of_shr_record r)).
  assert (EM : (-1074 <= e1 <= -53)%Z) by (rewrite E1'; unfold fexp, emin; lia).
  assert (P : (0 < 2 ^ k)%Z) by (apply Z.pow_pos_nonneg; lia).
  assert (R0 : (0 <= shr_m r)%Z) by (rewrite R1; apply Z.div_pos; lia).
  pose proof (round_bound (shr_m r) (loc_of_shr_record r) R0) as Q. fold q in Q.
  assert (Q0 : (0 <= q < 2 ^ (- e1))%Z) by lia.
  set (k2 := (fexp 53 1024 (Zdigits2 q + e1) - e1)%Z).
  assert (DQ : (Zdigits2 q <= - e1)%Z) by (apply zdigits_le; lia).
  pose proof (zdigits_nonneg q).
  destruct (Z_le_gt_dec 0 k2) as [K2|K2].
  - pose proof (shr_div (shr_record_of_loc q loc_Exact) e1 k2 ltac:(cbn; lia) K2) as SD. rewrite record_of_loc in SD.
    destruct (shr (shr_record_of_loc q loc_Exact) e1 _) as [r2 e2]. cbn [fst snd] in SD. destruct SD as [R2 E2].
    assert (P2 : (0 < 2 ^ k2)%Z) by (apply Z.pow_pos_nonneg; lia).
    destruct (shr_m r2) as [|p|p] eqn:RP; [exact I| |].
    + assert (L : (e2 <= 971)%Z) by (unfold k2, fexp, emin in *; lia).
      assert (LE : Zle_bool e2 (1024 - 53) = true) by (apply Z.leb_le; lia). rewrite LE. split; [reflexivity|].
      rewrite E2. replace (e1 + k2 + 1074)%Z with (k2 + (e1 + 1074))%Z by lia. rewrite Z.pow_add_r by lia.
      assert (QD : (Zpos p * 2 ^ k2 <= q)%Z) by (rewrite R2, Z.mul_comm; apply Z.mul_div_le; lia).
      assert (P1 : (0 < 2 ^ (e1 + 1074))%Z) by (apply Z.pow_pos_nonneg; lia).
      assert (U : UNIT = (2 ^ (- e1) * 2 ^ (e1 + 1074))%Z) by (unfold UNIT; rewrite <- Z.pow_add_r by lia; f_equal; lia).
      rewrite U. nia.
    + assert (0 <= q / 2 ^ k2)%Z; [|lia]. apply Z.div_pos; lia.
  - assert (SN : shr (shr_record_of_loc q loc_Exact) e1 k2 = (shr_record_of_loc q loc_Exact, e1)) by (destruct k2; [lia|lia|reflexivity]).
    rewrite SN. rewrite record_of_loc. destruct q as [|p|p] eqn:QE; [exact I| |lia].
    assert (LE : Zle_bool e1 (1024 - 53) = true) by (apply Z.leb_le; lia). rewrite LE. split; [reflexivity|].
    assert (P1 : (0 < 2 ^ (e1 + 1074))%Z) by (apply Z.pow_pos_nonneg; lia).
    assert (U : UNIT = (2 ^ (- e1) * 2 ^ (e1 + 1074))%Z) by (unfold UNIT; rewrite <- Z.pow_add_r by lia; f_equal; lia).
    rewrite U. nia.
Qed.

(* the quotient of integers a < b is below one, unless b is so large that
   rounding may reach it *)
Lemma fdiv_below a b : (0 < a)%Z -> (a < b)%Z -> (b < 2 ^ 52)%Z ->
  exists u, units (fdiv (fofZ a) (fofZ b)) = Some u /\ (0 <= u < UNIT)%Z.
Proof.
  intros A AB B. pose proof unit_pos as UP.
  destruct (fofZ_spec a ltac:(lia)) as [VA IA]. destruct (fofZ_spec b ltac:(lia)) as [VB IB].
  unfold is_integer in IA, IB.
  destruct (fofZ a) as [s|s| |s m1 e1]; try discriminate IA; [injection IA; nia|].
  destruct (fofZ b) as [s'|s'| |s' m2 e2]; try discriminate IB; [injection IB; nia|].
  rewrite units_finite in IA, IB. injection IA as IA. injection IB as IB.
  pose proof (valid_finite _ _ _ VA) as (FA & _ & EA). pose proof (valid_finite _ _ _ VB) as (FB & _ & EB).
  assert (P1 : (0 < 2 ^ (e1 + 1074))%Z) by (apply Z.pow_pos_nonneg; lia).
  assert (P2 : (0 < 2 ^ (e2 + 1074))%Z) by (apply Z.pow_pos_nonneg; lia).
  destruct s; [cbn [cond_Zopp] in IA; nia|]. destruct s'; [cbn [cond_Zopp] in IB; nia|]. cbn [cond_Zopp] in IA, IB.
  unfold fdiv, SFdiv. cbn [xorb].
  (* m1 2^e1 / m2 2^e2 = a / b *)
  unfold SFdiv_core_binary. cbv zeta.
  set (e' := Z.min (fexp 53 1024 (Zdigits2 (Zpos m1) + e1 - (Zdigits2 (Zpos m2) + e2))) (e1 - e2)).
  set (k := (e1 - e2 - e')%Z). assert (K : (0 <= k)%Z) by (unfold k, e'; lia).
  set (m' := match k with Zpos _ => Z.shiftl (Zpos m1) k | Z0 => Zpos m1 | Zneg _ => 0%Z end).
  assert (P : (0 < 2 ^ k)%Z) by (apply Z.pow_pos_nonneg; lia).
  assert (M' : (m' = Zpos m1 * 2 ^ k)%Z).
  { unfold m'. destruct k eqn:X; [rewrite Z.pow_0_r; lia|apply Z.shiftl_mul_pow2; lia|lia]. }
  clearbody m'.
  destruct (Z.div_eucl m' (Zpos m2)) as [q r] eqn:DE. pose proof (Z_div_mod m' (Zpos m2) ltac:(lia)) as DM. rewrite DE in DM.
  destruct DM as [EQ RB].
  assert (Q0 : (0 <= q)%Z) by nia.
  (* digits of the quotient *)
  pose proof (digits_bounds m1) as [L1 U1]. pose proof (digits_bounds m2) as [L2 U2].
  assert (D1 : Zdigits2 (Zpos m1) = Zpos (digits2_pos m1)) by reflexivity.
  assert (D2 : Zdigits2 (Zpos m2) = Zpos (digits2_pos m2)) by reflexivity.
  assert (FE : (e' <= fexp 53 1024 (Zdigits2 q + e'))%Z).
  { pose proof (zdigits_nonneg q) as DQ0.
    assert (DQ : (Zdigits2 (Zpos m1) + k - Zdigits2 (Zpos m2) <= Zdigits2 q)%Z).
    { destruct (Z_le_gt_dec (Zdigits2 (Zpos m1) + k - Zdigits2 (Zpos m2)) 0); [lia|].
      pose proof (zdigits_ge q (Zdigits2 (Zpos m1) + k - Zdigits2 (Zpos m2) - 1) ltac:(lia)) as G.
      assert (2 ^ (Zdigits2 (Zpos m1) + k - Zdigits2 (Zpos m2) - 1) <= q)%Z; [|lia].
      assert (X : (2 ^ Zdigits2 (Zpos m2) * 2 ^ (Zdigits2 (Zpos m1) + k - Zdigits2 (Zpos m2) - 1) <= m')%Z).
      { rewrite <- Z.pow_add_r by lia.
        replace (Zdigits2 (Zpos m2) + (Zdigits2 (Zpos m1) + k - Zdigits2 (Zpos m2) - 1))%Z with (Zpos (digits2_pos m1) - 1 + k)%Z by lia.
        rewrite Z.pow_add_r by lia. rewrite M'. apply Z.mul_le_mono_nonneg_r; lia. }
      set (t := (2 ^ (Zdigits2 (Zpos m1) + k - Zdigits2 (Zpos m2) - 1))%Z) in *. rewrite D2 in X.
      assert (0 < t)%Z by (apply Z.pow_pos_nonneg; lia).
      destruct (Z_le_gt_dec t q); [assumption|exfalso].
      assert ((q + 1) * Zpos m2 <= t * Zpos m2)%Z by (apply Z.mul_le_mono_nonneg_r; lia).
      assert (t * Zpos m2 < t * 2 ^ Zpos (digits2_pos m2))%Z by (apply Z.mul_lt_mono_pos_l; lia). nia. }
    assert (E' : (e' <= fexp 53 1024 (Zdigits2 (Zpos m1) + e1 - (Zdigits2 (Zpos m2) + e2)))%Z) by (unfold e'; lia).
    unfold fexp in *. lia. }
  (* q 2^e' <= a/b *)
  assert (E'N : (e' <= 0)%Z).
  { assert (X : (Zpos m1 * 2 ^ (e1 + 1074) < Zpos m2 * 2 ^ (e2 + 1074))%Z) by nia.
    assert (Y : (2 ^ (Zpos (digits2_pos m1) - 1 + (e1 + 1074)) < 2 ^ (Zpos (digits2_pos m2) + (e2 + 1074)))%Z).
    { rewrite (Z.pow_add_r 2 (Zpos (digits2_pos m1) - 1)), (Z.pow_add_r 2 (Zpos (digits2_pos m2))) by lia.
      apply Z.le_lt_trans with (Zpos m1 * 2 ^ (e1 + 1074))%Z; [apply Z.mul_le_mono_nonneg_r; lia|].
      apply Z.lt_trans with (1 := X). apply Z.mul_lt_mono_pos_r; lia. }
    apply Z.pow_lt_mono_r_iff in Y; [|lia|lia]. unfold e', fexp, emin. lia. }
  assert (QV : (q * b <= a * 2 ^ (- e'))%Z).
  { assert (X : (q * Zpos m2 <= Zpos m1 * 2 ^ k)%Z) by lia.
    assert (TP : (0 < 2 ^ (e2 + 1074))%Z) by lia.
    assert (Y : (q * (Zpos m2 * 2 ^ (e2 + 1074)) <= (Zpos m1 * 2 ^ (e1 + 1074)) * 2 ^ (- e'))%Z).
    { replace ((Zpos m1 * 2 ^ (e1 + 1074)) * 2 ^ (- e'))%Z with (Zpos m1 * 2 ^ k * 2 ^ (e2 + 1074))%Z.
      - rewrite Z.mul_assoc. apply Z.mul_le_mono_nonneg_r; lia.
      - rewrite <- !Z.mul_assoc. f_equal. rewrite <- !Z.pow_add_r by lia. f_equal. unfold k. lia. }
    rewrite IA, IB in Y.
    assert (UNIT * (q * b) <= UNIT * (a * 2 ^ (- e')))%Z by lia. nia. }
  assert (TE : (0 < 2 ^ (- e'))%Z) by (apply Z.pow_pos_nonneg; lia).
  assert (QL : (q < 2 ^ (- e'))%Z) by nia.
  assert (DQ : (Zdigits2 q <= - e')%Z) by (apply zdigits_le; lia).
  pose proof (round_aux_below false q e' (new_location (Zpos m2) r) Q0 FE ltac:(lia)) as RB'.
  set (f := fexp 53 1024 (Zdigits2 q + e')) in *.
  assert (FN : (f <= -53)%Z) by (unfold f, fexp, emin; lia).
  assert (BB : (q / 2 ^ (f - e') + 1 < 2 ^ (- f))%Z).
  { assert (PK : (0 < 2 ^ (f - e'))%Z) by (apply Z.pow_pos_nonneg; lia).
    assert (PF : (0 < 2 ^ (- f))%Z) by (apply Z.pow_pos_nonneg; lia).
    assert (SP : (2 ^ (- e') = 2 ^ (- f) * 2 ^ (f - e'))%Z) by (rewrite <- Z.pow_add_r by lia; f_equal; lia).
    pose proof (Z.mul_div_le q (2 ^ (f - e')) PK) as QD. set (t := (q / 2 ^ (f - e'))%Z) in *.
    assert (T0 : (0 <= t)%Z) by (apply Z.div_pos; lia).
    (* t b <= a 2^-f *)
    assert (TB : (t * b <= a * 2 ^ (- f))%Z).
    { assert (2 ^ (f - e') * (t * b) <= 2 ^ (f - e') * (a * 2 ^ (- f)))%Z; [nia|].
      apply Z.mul_le_mono_pos_l in H; lia. }
    assert (BF : (b < 2 ^ (- f))%Z) by (apply Z.lt_le_trans with (2 ^ 53)%Z; [lia|apply Z.pow_le_mono_r; lia]).
    assert (L : (t * b <= (b - 1) * 2 ^ (- f))%Z) by nia.
    destruct (Z_lt_le_dec (t + 1) (2 ^ (- f))); [assumption|exfalso].
    assert (b * (2 ^ (- f) - 1) <= t * b)%Z by nia. nia. }
  specialize (RB' BB).
  destruct (binary_round_aux 53 1024 false q e' (new_location (Zpos m2) r)) as [b0|b0| |b0 p e0]; try contradiction.
  - exists 0%Z. split; [reflexivity|lia].
  - destruct RB' as [-> RL]. rewrite units_finite. eexists. split; [reflexivity|]. cbn [cond_Zopp].
    split; [|exact RL]. apply Z.mul_nonneg_nonneg; [lia|apply Z.pow_nonneg; lia].
Qed.
