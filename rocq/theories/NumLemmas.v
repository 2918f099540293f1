(* Facts about the doubles of Num.v: exact values, comparison, conversion of
   integers, exact sums. *)
From Coq Require Import Lia ZifyBool ZifyNat ZifyN SpecFloat.
From Verif Require Import Base BaseLemmas Num NumSpec.

(* ---------- order, without exact values ---------- *)

Lemma cmp_sym x y : SFcompare y x = option_map CompOpp (SFcompare x y).
Proof.
  destruct x as [s|s| |s m e], y as [s'|s'| |s' m' e']; cbn; try reflexivity;
    destruct s, s'; try reflexivity; cbn;
    rewrite (Z.compare_antisym e e'); destruct (Z.compare e e'); cbn; try reflexivity;
    rewrite (Pos.compare_cont_antisym m m' Eq); cbn;
    destruct (Pos.compare_cont Eq m m'); reflexivity.
Qed.

Lemma cmp_refl x : x <> S754_nan -> SFcompare x x = Some Eq.
Proof.
  destruct x as [s|s| |s m e]; intros H; cbn; try reflexivity; [destruct s; reflexivity|contradiction|].
  destruct s; rewrite Z.compare_refl, Pos.compare_cont_refl; reflexivity.
Qed.

Lemma cmp_none x y : SFcompare x y = None <-> x = S754_nan \/ y = S754_nan.
Proof.
  split.
  - destruct x as [s|s| |s m e], y as [s'|s'| |s' m' e']; cbn; intros H; try discriminate H; auto.
  - intros [->| ->]; [reflexivity|]. destruct x; reflexivity.
Qed.

Lemma feqb_sym x y : feqb x y = feqb y x.
Proof. unfold feqb, SFeqb. rewrite (cmp_sym x y). destruct (SFcompare x y) as [[]|]; reflexivity. Qed.

Lemma feqb_nan x y : feqb x y = true -> x <> S754_nan /\ y <> S754_nan.
Proof.
  unfold feqb, SFeqb. intros H. split; intros ->; [discriminate H|]. destruct x; discriminate H.
Qed.

Lemma fltb_fgeb x y : x <> S754_nan -> y <> S754_nan -> fltb x y = negb (fgeb x y).
Proof.
  intros Hx Hy. unfold fltb, fgeb, SFltb, SFleb. rewrite (cmp_sym x y).
  destruct (SFcompare x y) as [[]|] eqn:E; try reflexivity.
  apply cmp_none in E. destruct E; contradiction.
Qed.
Lemma fgtb_fleb x y : x <> S754_nan -> y <> S754_nan -> fgtb x y = negb (fleb x y).
Proof. intros Hx Hy. unfold fgtb. change (SFltb y x) with (fltb y x). rewrite (fltb_fgeb y x Hy Hx). reflexivity. Qed.

(* ---------- digits ---------- *)


Lemma digits_bounds p : (2 ^ (Zpos (digits2_pos p) - 1) <= Zpos p < 2 ^ Zpos (digits2_pos p))%Z.
Proof.
  induction p as [p IH|p IH|]; cbn [digits2_pos]; [| |cbn; lia];
    rewrite Pos2Z.inj_succ; replace (Z.succ (Zpos (digits2_pos p)) - 1)%Z with (Z.succ (Zpos (digits2_pos p) - 1)) by lia;
    rewrite !Z.pow_succ_r by lia; lia.
Qed.

Lemma digits_unique p d : (2 ^ (d - 1) <= Zpos p < 2 ^ d)%Z -> Zpos (digits2_pos p) = d.
Proof.
  intros [L U]. pose proof (digits_bounds p) as [L' U'].
  assert (0 < d)%Z. { destruct (Z_lt_le_dec 0 d); [assumption|].
    destruct (Z.eq_dec d 0) as [->|]; [change (2^0)%Z with 1%Z in U; lia|]. rewrite (Z.pow_neg_r 2 d) in U by lia. lia. }
  assert (A : (2 ^ (d - 1) < 2 ^ Zpos (digits2_pos p))%Z) by lia.
  assert (B : (2 ^ (Zpos (digits2_pos p) - 1) < 2 ^ d)%Z) by lia.
  apply Z.pow_lt_mono_r_iff in A; [|lia..]. apply Z.pow_lt_mono_r_iff in B; [|lia..]. lia.
Qed.

Lemma digits_shift p q k : (0 <= k)%Z -> (Zpos q = Zpos p * 2 ^ k)%Z ->
  Zpos (digits2_pos q) = (Zpos (digits2_pos p) + k)%Z.
Proof.
  intros K H. apply digits_unique. pose proof (digits_bounds p) as [L U].
  rewrite H. replace (Zpos (digits2_pos p) + k - 1)%Z with (Zpos (digits2_pos p) - 1 + k)%Z by lia.
  rewrite !Z.pow_add_r by lia. assert (0 < 2 ^ k)%Z by (apply Z.pow_pos_nonneg; lia). nia.
Qed.

Lemma shift_pos_spec d m : Zpos (shift_pos d m) = (Zpos m * 2 ^ Zpos d)%Z.
Proof. rewrite shift_pos_correct. apply Z.mul_comm. Qed.

(* ---------- shifting right without loss ---------- *)

Lemma shr_1_exact q : (0 < q)%Z -> shr_1 (Build_shr_record (2 * q) false false) = Build_shr_record q false false.
Proof. destruct q; intros; try lia. reflexivity. Qed.

Lemma iter_pos_shr q p : (0 < q)%Z ->
  SpecFloat.iter_pos shr_1 p (Build_shr_record (q * 2 ^ Zpos p) false false) = Build_shr_record q false false.
Proof.
  revert q; induction p as [p IH|p IH|]; intros q Q; cbn [SpecFloat.iter_pos].
  - assert (0 < 2 ^ Zpos p)%Z by (apply Z.pow_pos_nonneg; lia).
    replace (q * 2 ^ Z.pos p~1)%Z with (2 * ((q * 2 ^ Zpos p) * 2 ^ Zpos p))%Z.
    + rewrite shr_1_exact by nia. rewrite IH by nia. apply IH, Q.
    + replace (Z.pos p~1) with (1 + Zpos p + Zpos p)%Z by lia. rewrite !Z.pow_add_r by lia. lia.
  - assert (0 < 2 ^ Zpos p)%Z by (apply Z.pow_pos_nonneg; lia).
    replace (q * 2 ^ Z.pos p~0)%Z with ((q * 2 ^ Zpos p) * 2 ^ Zpos p)%Z.
    + rewrite IH by nia. apply IH, Q.
    + replace (Z.pos p~0) with (Zpos p + Zpos p)%Z by lia. rewrite !Z.pow_add_r by lia. lia.
  - replace (q * 2 ^ 1)%Z with (2 * q)%Z by lia. apply shr_1_exact, Q.
Qed.

Lemma shr_exact q e k : (0 < q)%Z -> (0 <= k)%Z ->
  shr (Build_shr_record (q * 2 ^ k) false false) e k = (Build_shr_record q false false, e + k)%Z.
Proof.
  intros Q K. destruct k as [|p|p]; [|cbn [shr]; rewrite iter_pos_shr by exact Q; reflexivity|lia].
  cbn. f_equal; [f_equal; lia|lia].
Qed.

(* ---------- rounding a representable value ---------- *)

Lemma valid_finite s m e : double (S754_finite s m e) ->
  (fexp 53 1024 (Zpos (digits2_pos m) + e) = e)%Z /\ (e <= 971)%Z /\ (-1074 <= e)%Z.
Proof.
  unfold double, valid_binary, bounded, canonical_mantissa. intros H. apply andb_prop in H as [H1 H2].
  apply Zeq_bool_eq in H1. apply Zle_bool_imp_le in H2. split; [exact H1|]. split; [exact H2|].
  unfold fexp, emin in H1. lia.
Qed.

Lemma finite_valid s m e : (fexp 53 1024 (Zpos (digits2_pos m) + e) = e)%Z -> (e <= 971)%Z ->
  double (S754_finite s m e).
Proof.
  intros H1 H2. unfold double, valid_binary, bounded, canonical_mantissa. apply andb_true_intro. split.
  - apply Zeq_is_eq_bool. exact H1.
  - apply Z.leb_le. exact H2.
Qed.

Lemma round_aux_exact s m e p k : double (S754_finite s m e) -> (0 <= k)%Z -> (Zpos p = Zpos m * 2 ^ k)%Z ->
  binary_round_aux 53 1024 s (Zpos p) (e - k) loc_Exact = S754_finite s m e.
Proof.
  intros V K P. apply valid_finite in V as (F & E & _).
  unfold binary_round_aux, shr_fexp. cbn [Zdigits2 shr_record_of_loc].
  rewrite (digits_shift m p k K P). replace (Zpos (digits2_pos m) + k + (e - k))%Z with (Zpos (digits2_pos m) + e)%Z by lia.
  rewrite F. replace (e - (e - k))%Z with k by lia. rewrite P.
  rewrite shr_exact by lia. cbn [loc_of_shr_record round_nearest_even shr_m shr_record_of_loc Zdigits2].
  replace (e - k + k)%Z with e by lia. rewrite F, Z.sub_diag. cbn [shr shr_m].
  replace (Zle_bool e (1024 - 53)) with true; [reflexivity|]. symmetry. apply Z.leb_le. exact E.
Qed.

(* p * 2^e0 = m * 2^e, both sides made integers by K *)
Lemma round_exact s m e p e0 : double (S754_finite s m e) ->
  (Zpos p * 2 ^ (e0 - Z.min e e0) = Zpos m * 2 ^ (e - Z.min e e0))%Z ->
  binary_round 53 1024 s p e0 = S754_finite s m e.
Proof.
  intros V H. pose proof (valid_finite _ _ _ V) as (F & E & _). unfold binary_round.
  destruct (Z_le_gt_dec e0 e) as [L|G].
  - rewrite Z.min_r in H by lia. rewrite Z.sub_diag, Z.mul_1_r in H.
    assert (D := digits_shift m p (e - e0) ltac:(lia) H). unfold shl_align. rewrite D.
    replace (Zpos (digits2_pos m) + (e - e0) + e0)%Z with (Zpos (digits2_pos m) + e)%Z by lia. rewrite F.
    destruct (e - e0)%Z eqn:X; [| |lia]; replace e0 with (e - (e - e0))%Z by lia; apply round_aux_exact;
      try exact V; try lia; rewrite H, X; reflexivity.
  - rewrite Z.min_l in H by lia. rewrite Z.sub_diag, Z.mul_1_r in H. symmetry in H.
    assert (D := digits_shift p m (e0 - e) ltac:(lia) H). unfold shl_align.
    replace (Zpos (digits2_pos p) + e0)%Z with (Zpos (digits2_pos m) + e)%Z by lia. rewrite F.
    destruct (e - e0)%Z as [|d|d] eqn:X; [lia|lia|].
    assert (S : shift_pos d p = m).
    { assert (Y := shift_pos_spec d p). replace (Zpos d) with (e0 - e)%Z in Y by lia. lia. }
    rewrite S. replace e with (e - 0)%Z at 1 by lia. apply round_aux_exact; [exact V|lia|lia].
Qed.

(* ---------- exact values ---------- *)

Lemma unit_pos : (0 < UNIT)%Z.
Proof. unfold UNIT. apply Z.pow_pos_nonneg; lia. Qed.

Lemma units_finite s m e : units (S754_finite s m e) = Some (cond_Zopp s (Zpos m) * 2 ^ (e + 1074))%Z.
Proof. reflexivity. Qed.

Lemma pow_lt_of_digits m e m' e' :
  (Zpos (digits2_pos m) + e < Zpos (digits2_pos m') + e')%Z -> (-1074 <= e)%Z -> (-1074 <= e')%Z ->
  (Zpos m * 2 ^ (e + 1074) < Zpos m' * 2 ^ (e' + 1074))%Z.
Proof.
  intros H E E'. pose proof (digits_bounds m) as [_ U]. pose proof (digits_bounds m') as [L _].
  assert (A : (Zpos m * 2 ^ (e + 1074) < 2 ^ (Zpos (digits2_pos m) + (e + 1074)))%Z).
  { rewrite (Z.pow_add_r 2 (Zpos (digits2_pos m))) by lia. apply Z.mul_lt_mono_pos_r; [apply Z.pow_pos_nonneg; lia|exact U]. }
  assert (B : (2 ^ (Zpos (digits2_pos m') - 1 + (e' + 1074)) <= Zpos m' * 2 ^ (e' + 1074))%Z).
  { rewrite (Z.pow_add_r 2 (Zpos (digits2_pos m') - 1)) by lia. apply Z.mul_le_mono_nonneg_r; [apply Z.pow_nonneg; lia|exact L]. }
  assert (C : (2 ^ (Zpos (digits2_pos m) + (e + 1074)) <= 2 ^ (Zpos (digits2_pos m') - 1 + (e' + 1074)))%Z)
    by (apply Z.pow_le_mono_r; lia).
  lia.
Qed.

Lemma finite_lt m e m' e' s s' : double (S754_finite s m e) -> double (S754_finite s' m' e') -> (e < e')%Z ->
  (Zpos m * 2 ^ (e + 1074) < Zpos m' * 2 ^ (e' + 1074))%Z.
Proof.
  intros V V' L. apply valid_finite in V as (F & _ & B). apply valid_finite in V' as (F' & _ & B').
  apply pow_lt_of_digits; try assumption. unfold fexp, emin in F, F'. lia.
Qed.

Lemma compare_mags m e m' e' s s' : double (S754_finite s m e) -> double (S754_finite s' m' e') ->
  (Zpos m * 2 ^ (e + 1074) ?= Zpos m' * 2 ^ (e' + 1074))%Z =
  match Z.compare e e' with Lt => Lt | Gt => Gt | Eq => Pos.compare_cont Eq m m' end.
Proof.
  intros V V'. destruct (Z.compare_spec e e') as [->|L|G].
  - change (Pos.compare_cont Eq m m') with (Zpos m ?= Zpos m')%Z.
    assert (0 < 2 ^ (e' + 1074))%Z by (apply valid_finite in V'; apply Z.pow_pos_nonneg; lia).
    rewrite !(Z.mul_comm _ (2 ^ (e' + 1074))). symmetry. apply Zmult_compare_compat_l. lia.
  - apply Z.compare_lt_iff. eapply finite_lt; eassumption.
  - apply Z.compare_gt_iff. eapply finite_lt; eassumption.
Qed.

Lemma mag_pos m e : (-1074 <= e)%Z -> (0 < Zpos m * 2 ^ (e + 1074))%Z.
Proof. intros. assert (0 < 2 ^ (e + 1074))%Z by (apply Z.pow_pos_nonneg; lia). nia. Qed.

Theorem compare_units x y a b : double x -> double y -> units x = Some a -> units y = Some b ->
  SFcompare x y = Some (a ?= b)%Z.
Proof.
  intros Vx Vy Ha Hb.
  destruct x as [s|s| |s m e]; try discriminate Ha; injection Ha as <-;
    destruct y as [s'|s'| |s' m' e']; try discriminate Hb; injection Hb as <-.
  - reflexivity.
  - pose proof (valid_finite _ _ _ Vy) as (_ & _ & B). pose proof (mag_pos m' e' B).
    destruct s'; cbn [SFcompare cond_Zopp]; f_equal; symmetry; [apply Z.compare_gt_iff|apply Z.compare_lt_iff]; lia.
  - pose proof (valid_finite _ _ _ Vx) as (_ & _ & B). pose proof (mag_pos m e B).
    destruct s; cbn [SFcompare cond_Zopp]; f_equal; symmetry; [apply Z.compare_lt_iff|apply Z.compare_gt_iff]; lia.
  - pose proof (valid_finite _ _ _ Vx) as (_ & _ & B). pose proof (mag_pos m e B).
    pose proof (valid_finite _ _ _ Vy) as (_ & _ & B'). pose proof (mag_pos m' e' B').
    pose proof (compare_mags m e m' e' s s' Vx Vy) as C.
    destruct s, s'; cbn [SFcompare cond_Zopp]; f_equal; symmetry.
    + set (a := (Zpos m * 2 ^ (e + 1074))%Z) in *. set (b := (Zpos m' * 2 ^ (e' + 1074))%Z) in *.
      transitivity (CompOpp (a ?= b))%Z; [|rewrite C; destruct (Z.compare e e'); reflexivity].
      replace (- Zpos m * 2 ^ (e + 1074))%Z with (- a)%Z by (unfold a; ring).
      replace (- Zpos m' * 2 ^ (e' + 1074))%Z with (- b)%Z by (unfold b; ring).
      destruct (Z.compare_spec a b); cbn [CompOpp]; [apply Z.compare_eq_iff|apply Z.compare_gt_iff|apply Z.compare_lt_iff]; lia.
    + apply Z.compare_lt_iff. lia.
    + apply Z.compare_gt_iff. lia.
    + exact C.
Qed.

(* ---------- numbers that are integers ---------- *)

Lemma double_of_units s m z : Zpos m = z -> (z < 2 ^ 53)%Z -> exists m' e', double (S754_finite s m' e') /\
  (Zpos m' * 2 ^ (e' + 1074) = z * UNIT)%Z.
Proof.
  intros <- U. pose proof (digits_bounds m) as [L _].
  assert (D : (Zpos (digits2_pos m) <= 53)%Z).
  { assert (2 ^ (Zpos (digits2_pos m) - 1) < 2 ^ 53)%Z as X by lia. apply Z.pow_lt_mono_r_iff in X; lia. }
  set (k := (53 - Zpos (digits2_pos m))%Z).
  exists (Z.to_pos (Zpos m * 2 ^ k)), (- k)%Z.
  assert (P : (0 < Zpos m * 2 ^ k)%Z) by (assert (0 < 2 ^ k)%Z by (apply Z.pow_pos_nonneg; lia); nia).
  assert (Q : Zpos (Z.to_pos (Zpos m * 2 ^ k)) = (Zpos m * 2 ^ k)%Z) by (apply Z2Pos.id; exact P).
  split.
  - apply finite_valid; [|lia]. rewrite (digits_shift m _ k ltac:(lia) Q). unfold fexp, emin. lia.
  - rewrite Q, <- Z.mul_assoc, <- Z.pow_add_r by lia. unfold UNIT. do 2 f_equal. lia.
Qed.

Lemma normalize_exact s m e z e0 b : double (S754_finite s m e) -> (-1074 <= e0)%Z ->
  (z * 2 ^ (e0 + 1074) = cond_Zopp s (Zpos m) * 2 ^ (e + 1074))%Z ->
  binary_normalize 53 1024 z e0 b = S754_finite s m e.
Proof.
  intros V E0 H. pose proof (valid_finite _ _ _ V) as (_ & _ & E).
  assert (K : forall a c, (a * 2 ^ (e0 + 1074) = c * 2 ^ (e + 1074) ->
     a * 2 ^ (e0 - Z.min e e0) = c * 2 ^ (e - Z.min e e0))%Z).
  { intros a c X. replace (e0 + 1074)%Z with (e0 - Z.min e e0 + (Z.min e e0 + 1074))%Z in X by lia.
    replace (e + 1074)%Z with (e - Z.min e e0 + (Z.min e e0 + 1074))%Z in X by lia.
    rewrite (Z.pow_add_r 2 (e0 - _)), (Z.pow_add_r 2 (e - _)), !Z.mul_assoc in X by lia.
    assert (0 < 2 ^ (Z.min e e0 + 1074))%Z by (apply Z.pow_pos_nonneg; lia).
    apply Z.mul_reg_r in X; [exact X|lia]. }
  pose proof (mag_pos m e E). assert (0 < 2 ^ (e0 + 1074))%Z by (apply Z.pow_pos_nonneg; lia).
  destruct z as [|p|p]; cbn [binary_normalize].
  - destruct s; cbn [cond_Zopp] in H; lia.
  - destruct s; cbn [cond_Zopp] in H; [nia|]. apply round_exact; [exact V|]. apply K, H.
  - destruct s; cbn [cond_Zopp] in H; [|nia]. apply round_exact; [exact V|]. apply K. lia.
Qed.

(* the double nearest to a representable value has that value *)
Lemma normalize_units x z e0 b : double x -> (-1074 <= e0)%Z -> units x = Some (z * 2 ^ (e0 + 1074))%Z -> z <> 0%Z ->
  binary_normalize 53 1024 z e0 b = x.
Proof.
  intros V E0 H Z0. assert (0 < 2 ^ (e0 + 1074))%Z by (apply Z.pow_pos_nonneg; lia).
  destruct x as [s|s| |s m e]; try discriminate H; injection H as H; [nia|].
  apply normalize_exact; [exact V|exact E0|]. symmetry. exact H.
Qed.

(* integers below 2^53 in magnitude are represented exactly *)
Lemma fofZ_spec z : (Z.abs z < 2 ^ 53)%Z -> double (fofZ z) /\ is_integer (fofZ z) z.
Proof.
  intros B. unfold fofZ, is_integer. destruct z as [|p|p].
  - split; reflexivity.
  - destruct (double_of_units false p _ eq_refl B) as (m' & e' & V & U).
    rewrite (normalize_exact false m' e'); [|exact V|lia|].
    + split; [exact V|]. rewrite units_finite. cbn [cond_Zopp]. f_equal. exact U.
    + cbn [cond_Zopp]. rewrite U. reflexivity.
  - destruct (double_of_units true p (Zpos p) eq_refl ltac:(lia)) as (m' & e' & V & U).
    rewrite (normalize_exact true m' e'); [|exact V|lia|].
    + split; [exact V|]. rewrite units_finite. cbn [cond_Zopp]. f_equal. lia.
    + cbn [cond_Zopp]. unfold UNIT in U. change (0 + 1074)%Z with 1074%Z. lia.
Qed.

(* a double is determined by its value, but for the sign of zero *)
Lemma units_inj x y a : double x -> double y -> units x = Some a -> units y = Some a -> a <> 0%Z -> x = y.
Proof.
  intros Vx Vy Hx Hy A.
  destruct x as [s|s| |s m e]; try discriminate Hx; [injection Hx as <-; contradiction|].
  destruct y as [s'|s'| |s' m' e']; try discriminate Hy; [injection Hy as <-; contradiction|].
  rewrite units_finite in Hx. rewrite units_finite in Hy.
  pose proof (valid_finite _ _ _ Vx) as (_ & _ & Ex). pose proof (valid_finite _ _ _ Vy) as (_ & _ & Ey).
  assert (X : binary_normalize 53 1024 (cond_Zopp s (Zpos m)) e false = S754_finite s m e)
    by (apply normalize_exact; [exact Vx|exact Ex|reflexivity]).
  rewrite <- X. apply normalize_exact; [exact Vy|exact Ex|]. congruence.
Qed.

Lemma integer_fofZ x z : double x -> is_integer x z -> (Z.abs z < 2 ^ 53)%Z -> z <> 0%Z -> x = fofZ z.
Proof.
  intros V I B Z0. destruct (fofZ_spec z B) as [V' I'].
  apply (units_inj x (fofZ z) (z * UNIT)); try assumption. pose proof unit_pos. nia.
Qed.

Lemma integer_unique x a b : is_integer x a -> is_integer x b -> a = b.
Proof. unfold is_integer. intros -> H. injection H as H. pose proof unit_pos. nia. Qed.

Lemma compare_integers x y a b : double x -> double y -> is_integer x a -> is_integer y b ->
  SFcompare x y = Some (a ?= b)%Z.
Proof.
  intros Vx Vy Ha Hb. rewrite (compare_units x y _ _ Vx Vy Ha Hb). f_equal.
  rewrite !(Z.mul_comm _ UNIT). symmetry. apply Zmult_compare_compat_l. pose proof unit_pos. lia.
Qed.

(* ---------- floor and truncation ---------- *)

Lemma ftoZ_integer x z : double x -> is_integer x z -> ftoZ x = Some z.
Proof.
  intros V I. unfold is_integer in I. destruct x as [s|s| |s m e]; try discriminate I.
  - injection I as I. cbn [ftoZ]. pose proof unit_pos. f_equal. nia.
  - rewrite units_finite in I. injection I as I. cbn [ftoZ]. f_equal.
    pose proof (valid_finite _ _ _ V) as (_ & _ & E). unfold UNIT in I. destruct (0 <=? e)%Z eqn:L.
    + rewrite Z.pow_add_r, Z.mul_assoc in I by lia. apply Z.mul_reg_r in I; [exact I|]. apply Z.pow_nonzero; lia.
    + replace 1074%Z with (e + 1074 + (- e))%Z in I at 2 by lia. rewrite (Z.pow_add_r 2 (e + 1074) (- e)) in I by lia.
      rewrite (Z.mul_comm (2 ^ (e + 1074))), Z.mul_assoc in I. apply Z.mul_reg_r in I; [|apply Z.pow_nonzero; lia].
      rewrite I. apply Z.quot_mul. apply Z.pow_nonzero; lia.
Qed.

(* a number equal to its floor is an integer, and conversely *)
Lemma floor_integer x z : double x -> is_integer x z -> feqb (ffloor x) x = true.
Proof.
  intros V I. destruct x as [s|s| |s m e]; try discriminate I; [reflexivity|].
  cbn [ffloor]. destruct (0 <=? e)%Z eqn:L; [unfold feqb, SFeqb; rewrite cmp_refl; [reflexivity|discriminate]|].
  assert (X : binary_normalize 53 1024 (cond_Zopp s (Zpos m) / 2 ^ (- e)) 0 s = S754_finite s m e).
  { apply normalize_exact; [exact V|lia|]. unfold is_integer in I. rewrite units_finite in I. injection I as I.
    pose proof (valid_finite _ _ _ V) as (_ & _ & E). unfold UNIT in I.
    assert (H : cond_Zopp s (Zpos m) = (z * 2 ^ (- e))%Z).
    { replace 1074%Z with (e + 1074 + (- e))%Z in I at 2 by lia. rewrite (Z.pow_add_r 2 (e + 1074) (- e)) in I by lia.
      rewrite (Z.mul_comm (2 ^ (e + 1074))), Z.mul_assoc in I. apply Z.mul_reg_r in I; [exact I|apply Z.pow_nonzero; lia]. }
    rewrite H. rewrite Z.div_mul by (apply Z.pow_nonzero; lia). rewrite <- Z.mul_assoc, <- Z.pow_add_r by lia.
    do 2 f_equal. lia. }
  rewrite X. unfold feqb, SFeqb. rewrite cmp_refl; [reflexivity|discriminate].
Qed.

Lemma small_floor s m e : double (S754_finite s m e) -> (e < 0)%Z -> (Z.abs (cond_Zopp s (Zpos m) / 2 ^ (- e)) <= 2 ^ 52)%Z.
Proof.
  intros V E. pose proof (valid_finite _ _ _ V) as (F & _ & _). pose proof (digits_bounds m) as [_ U].
  assert (D : (Zpos (digits2_pos m) <= 53)%Z) by (unfold fexp, emin in F; lia).
  assert (U' : (Zpos m < 2 ^ 53)%Z) by (assert (2 ^ Zpos (digits2_pos m) <= 2 ^ 53)%Z by (apply Z.pow_le_mono_r; lia); lia).
  assert (T : (2 <= 2 ^ (- e))%Z) by (change 2%Z with (2 ^ 1)%Z at 1; apply Z.pow_le_mono_r; lia).
  set (q := (2 ^ - e)%Z) in *. change (2 ^ 53)%Z with (2 * 2 ^ 52)%Z in U'.
  destruct s; cbn [cond_Zopp].
  - assert (A : (- (2 ^ 52) <= - Zpos m / q)%Z) by (apply Z.div_le_lower_bound; nia).
    assert (B : (- Zpos m / q < 0)%Z) by (apply Z.div_lt_upper_bound; lia). lia.
  - assert (A : (0 <= Zpos m / q)%Z) by (apply Z.div_pos; lia).
    assert (B : (Zpos m / q <= 2 ^ 52)%Z) by (apply Z.div_le_upper_bound; nia). lia.
Qed.

Lemma ffloor_spec x : double x -> x <> S754_nan -> double (ffloor x).
Proof.
  intros V _. destruct x as [s|s| |s m e]; try exact V. cbn [ffloor].
  destruct (0 <=? e)%Z eqn:L; [exact V|]. pose proof (small_floor s m e V ltac:(lia)) as B.
  set (z := (cond_Zopp s (Zpos m) / 2 ^ (- e))%Z) in *.
  destruct (Z.eq_dec z 0) as [->|NZ]; [reflexivity|].
  destruct (fofZ_spec z) as [V' I]; [lia|].
  rewrite (normalize_units (fofZ z)); [exact V'|exact V'|lia|exact I|exact NZ].
Qed.

Lemma ffloor_units x a : double x -> units x = Some a -> is_integer (ffloor x) (a / UNIT).
Proof.
  intros V U. destruct x as [s|s| |s m e]; try discriminate U.
  - injection U as <-. reflexivity.
  - rewrite units_finite in U. injection U as <-. cbn [ffloor].
    pose proof (valid_finite _ _ _ V) as (_ & _ & E). destruct (0 <=? e)%Z eqn:L.
    + unfold is_integer. rewrite units_finite. f_equal.
      replace (e + 1074)%Z with (e + 1074)%Z by lia. rewrite Z.pow_add_r by lia. fold UNIT.
      rewrite Z.mul_assoc, Z.div_mul by (pose proof unit_pos; lia). reflexivity.
    + assert (Q : (cond_Zopp s (Zpos m) * 2 ^ (e + 1074) / UNIT = cond_Zopp s (Zpos m) / 2 ^ (- e))%Z).
      { unfold UNIT. replace 1074%Z with (- e + (e + 1074))%Z at 2 by lia. rewrite (Z.pow_add_r 2 (- e) (e + 1074)) by lia.
        apply Z.div_mul_cancel_r; apply Z.pow_nonzero; lia. }
      rewrite Q. pose proof (small_floor s m e V ltac:(lia)) as B.
      set (z := (cond_Zopp s (Zpos m) / 2 ^ (- e))%Z) in *.
      destruct (Z.eq_dec z 0) as [->|NZ]; [reflexivity|].
      destruct (fofZ_spec z) as [V' I]; [lia|].
      rewrite (normalize_units (fofZ z)); [exact I|exact V'|lia|exact I|exact NZ].
Qed.

(* equal to its floor = an integer or an infinity *)
Lemma equal_floor x : double x -> feqb (ffloor x) x = true <->
  (exists z, is_integer x z) \/ (exists s, x = S754_infinity s).
Proof.
  intros V. split.
  - intros H. destruct (units x) as [a|] eqn:U.
    + left. assert (N : x <> S754_nan) by (intros ->; discriminate U).
      pose proof (ffloor_spec x V N) as Vf. pose proof (ffloor_units x a V U) as I.
      unfold feqb, SFeqb in H. rewrite (compare_units _ _ _ _ Vf V I U) in H.
      exists (a / UNIT)%Z. unfold is_integer. rewrite U. f_equal.
      destruct (a / UNIT * UNIT ?= a)%Z eqn:C; try discriminate H. apply Z.compare_eq_iff in C. lia.
    + right. destruct x as [s|s| |s m e]; try discriminate U; [exists s; reflexivity|discriminate H].
  - intros [[z I]|[s ->]]; [eapply floor_integer; eassumption|]. destruct s; reflexivity.
Qed.

(* ---------- exact sums ---------- *)

Lemma align_units s m e ez : (-1074 <= ez)%Z -> (ez <= e)%Z ->
  (cond_Zopp s (Zpos (fst (shl_align m e ez))) * 2 ^ (ez + 1074) = cond_Zopp s (Zpos m) * 2 ^ (e + 1074))%Z.
Proof.
  intros E L. unfold shl_align. destruct (ez - e)%Z as [|d|d] eqn:X; cbn [fst].
  - replace ez with e by lia. reflexivity.
  - lia.
  - assert (S := shift_pos_spec d m).
    assert (cond_Zopp s (Zpos (shift_pos d m)) = cond_Zopp s (Zpos m) * 2 ^ (e - ez))%Z as ->.
    { replace (e - ez)%Z with (Zpos d) by lia. destruct s; cbn [cond_Zopp]; rewrite S; lia. }
    rewrite <- Z.mul_assoc, <- Z.pow_add_r by lia. do 2 f_equal. lia.
Qed.

(* The sum of two doubles is exact when it is representable. *)
Lemma fadd_exact x y z a b : double x -> double y -> double z ->
  units x = Some a -> units y = Some b -> units z = Some (a + b)%Z ->
  (a + b <> 0)%Z -> fadd x y = z.
Proof.
  intros Vx Vy Vz Ha Hb Hz NZ.
  destruct x as [s|s| |s m e]; try discriminate Ha; destruct y as [s'|s'| |s' m' e']; try discriminate Hb.
  - injection Ha as <-. injection Hb as <-. lia.
  - injection Ha as <-. eapply (units_inj _ z); try eassumption.
  - injection Hb as <-. rewrite Z.add_0_r in *. eapply (units_inj _ z); try eassumption.
  - rewrite units_finite in Ha, Hb. injection Ha as <-. injection Hb as <-.
    pose proof (valid_finite _ _ _ Vx) as (_ & _ & Ex). pose proof (valid_finite _ _ _ Vy) as (_ & _ & Ey).
    unfold fadd, SFadd. cbv zeta. apply normalize_units; [exact Vz|lia| |].
    + rewrite Hz. f_equal. rewrite Z.mul_add_distr_r, !align_units by lia. reflexivity.
    + intros N. apply NZ. rewrite <- (align_units s m e (Z.min e e')) by lia.
      rewrite <- (align_units s' m' e' (Z.min e e')) by lia. rewrite <- Z.mul_add_distr_r, N. reflexivity.
Qed.

Lemma fadd_zero x y a b : double x -> double y -> units x = Some a -> units y = Some b -> (a + b = 0)%Z ->
  units (fadd x y) = Some 0%Z /\ double (fadd x y).
Proof.
  intros Vx Vy Ha Hb NZ.
  destruct x as [s|s| |s m e]; try discriminate Ha; destruct y as [s'|s'| |s' m' e']; try discriminate Hb.
  - cbn. destruct (Bool.eqb s s'); split; reflexivity.
  - injection Ha as <-. rewrite units_finite in Hb. injection Hb as <-.
    pose proof (valid_finite _ _ _ Vy) as (_ & _ & E). pose proof (mag_pos m' e' E). destruct s'; cbn [cond_Zopp] in NZ; lia.
  - injection Hb as <-. rewrite units_finite in Ha. injection Ha as <-.
    pose proof (valid_finite _ _ _ Vx) as (_ & _ & E). pose proof (mag_pos m e E). destruct s; cbn [cond_Zopp] in NZ; lia.
  - rewrite units_finite in Ha, Hb. injection Ha as <-. injection Hb as <-.
    pose proof (valid_finite _ _ _ Vx) as (_ & _ & Ex). pose proof (valid_finite _ _ _ Vy) as (_ & _ & Ey).
    unfold fadd, SFadd. cbv zeta. set (q := (_ + _)%Z).
    assert (Q : q = 0%Z).
    { assert ((q * 2 ^ (Z.min e e' + 1074))%Z = 0%Z) as Q.
      { unfold q. rewrite Z.mul_add_distr_r, !align_units by lia. exact NZ. }
      assert (0 < 2 ^ (Z.min e e' + 1074))%Z by (apply Z.pow_pos_nonneg; lia). nia. }
    rewrite Q. split; reflexivity.
Qed.

Lemma fadd_integers x y a b : double x -> double y -> is_integer x a -> is_integer y b ->
  (Z.abs (a + b) < 2 ^ 53)%Z -> double (fadd x y) /\ is_integer (fadd x y) (a + b).
Proof.
  intros Vx Vy Ha Hb B. unfold is_integer in *. pose proof unit_pos as UP.
  destruct (Z.eq_dec (a + b) 0) as [Z0|NZ].
  - destruct (fadd_zero x y _ _ Vx Vy Ha Hb) as [U V]; [nia|]. rewrite Z0, U. split; [exact V|reflexivity].
  - destruct (fofZ_spec (a + b) B) as [V I]. unfold is_integer in I.
    rewrite (fadd_exact x y (fofZ (a + b)) _ _ Vx Vy V Ha Hb).
    + split; assumption.
    + rewrite I. f_equal. lia.
    + nia.
Qed.

Lemma double_fneg x : double (fneg x) <-> double x.
Proof. destruct x; split; intros H; exact H. Qed.
Lemma units_fneg x a : units x = Some a -> units (fneg x) = Some (- a)%Z.
Proof.
  destruct x as [s|s| |s m e]; intros H; try discriminate H; injection H as <-; [reflexivity|].
  cbn [fneg SFopp]. unfold fneg, SFopp. rewrite units_finite. f_equal. destruct s; cbn [cond_Zopp negb]; lia.
Qed.

(* conversion of an integer never gives NaN *)
Lemma iter_shr_nonneg p : forall r, (0 <= shr_m r)%Z -> (0 <= shr_m (SpecFloat.iter_pos shr_1 p r))%Z.
Proof.
  assert (H1 : forall r, (0 <= shr_m r -> 0 <= shr_m (shr_1 r))%Z).
  { intros [m a b] H. cbn [shr_m] in *. destruct m as [|[p0|p0|]|]; cbn; lia. }
  induction p as [p IH|p IH|]; intros r H; cbn [SpecFloat.iter_pos]; auto.
Qed.
Lemma shr_nonneg r e n : (0 <= shr_m r)%Z -> (0 <= shr_m (fst (shr r e n)))%Z.
Proof. intros H. destruct n; cbn [shr fst]; auto using iter_shr_nonneg. Qed.
Lemma round_aux_sign s m e l : (0 <= m)%Z ->
  match binary_round_aux 53 1024 s m e l with
  | S754_zero b | S754_infinity b | S754_finite b _ _ => b = s
  | S754_nan => False
  end.
Proof.
  intros M. unfold binary_round_aux, shr_fexp.
  assert (A : (0 <= shr_m (fst (shr (shr_record_of_loc m l) e (fexp 53 1024 (Zdigits2 m + e) - e))))%Z).
  { apply shr_nonneg. destruct l as [|[]]; exact M. }
  destruct (shr (shr_record_of_loc m l) e _) as [r e']. cbn [fst] in A.
  set (q := round_nearest_even (shr_m r) (loc_of_shr_record r)).
  assert (Q : (0 <= q)%Z).
  { unfold q, round_nearest_even. destruct (loc_of_shr_record r) as [|[]]; try lia. destruct (Z.even _); lia. }
  assert (B : (0 <= shr_m (fst (shr (shr_record_of_loc q loc_Exact) e' (fexp 53 1024 (Zdigits2 q + e') - e'))))%Z)
    by (apply shr_nonneg; exact Q).
  destruct (shr (shr_record_of_loc q loc_Exact) e' _) as [r' e'']. cbn [fst] in B.
  destruct (shr_m r') eqn:R; [reflexivity| |lia]. destruct (Zle_bool _ _); reflexivity.
Qed.
Lemma fofZ_not_nan z : fofZ z <> S754_nan.
Proof.
  intros H. unfold fofZ, binary_normalize, binary_round in H. destruct z as [|p|p]; [discriminate H| |].
  - destruct (shl_align p 0 _) as [mz ez]. pose proof (round_aux_sign false (Zpos mz) ez loc_Exact ltac:(lia)) as K.
    rewrite H in K. exact K.
  - destruct (shl_align p 0 _) as [mz ez]. pose proof (round_aux_sign true (Zpos mz) ez loc_Exact ltac:(lia)) as K.
    rewrite H in K. exact K.
Qed.
