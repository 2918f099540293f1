(* + - * and / give the double nearest to the exact result (C41). *)
From Coq Require Import Lia ZifyBool ZifyNat ZifyN SpecFloat.
From Verif Require Import Base BaseLemmas Num NumLemmas NumSpec TextNumSpec DoubleProofs RoundProofs BcodeModel VmModel VmLemmas VmSpec ControlProofs OpSpec OpProofs ArithSpec.
Local Open Scope Z_scope.

Lemma nearest_scale x neg n d c : 0 < c -> nearest x neg n d <-> nearest x neg (n * c) (d * c).
Proof.
  intros C. unfold nearest.
  assert (B : ((2 ^ 1024 - 2 ^ 970) * (d * c) <=? n * c) = ((2 ^ 1024 - 2 ^ 970) * d <=? n)).
  { set (w := 2 ^ 1024 - 2 ^ 970). clearbody w. rewrite Z.mul_assoc. destruct (w * d <=? n) eqn:L; [apply Z.leb_le; apply Z.leb_le in L; nia|apply Z.leb_gt; apply Z.leb_gt in L; nia]. }
  rewrite B. split; (intros (D & S & H); split; [exact D|split; [exact S|]]); (destruct ((2 ^ 1024 - 2 ^ 970) * d <=? n); [exact H|]);
    destruct H as (a & UX & H); exists a; (split; [exact UX|]); intros y b DY UY BN; specialize (H y b DY UY BN); cbv beta zeta in *.
  - assert (Q : forall z, Z.abs (z * (d * c) - cond_Zopp neg (n * c) * UNIT) = Z.abs (z * d - cond_Zopp neg n * UNIT) * c).
    { intros z. set (u := UNIT). clearbody u. replace (z * (d * c) - cond_Zopp neg (n * c) * u) with ((z * d - cond_Zopp neg n * u) * c) by (destruct neg; cbn [cond_Zopp]; ring). rewrite Z.abs_mul, (Z.abs_eq c) by lia. reflexivity. }
    rewrite !Q. destruct H as [H|[H E]]; [left; apply Z.mul_lt_mono_pos_r; assumption|right; rewrite H; auto].
  - assert (Q : forall z, Z.abs (z * (d * c) - cond_Zopp neg (n * c) * UNIT) = Z.abs (z * d - cond_Zopp neg n * UNIT) * c).
    { intros z. set (u := UNIT). clearbody u. replace (z * (d * c) - cond_Zopp neg (n * c) * u) with ((z * d - cond_Zopp neg n * u) * c) by (destruct neg; cbn [cond_Zopp]; ring). rewrite Z.abs_mul, (Z.abs_eq c) by lia. reflexivity. }
    rewrite !Q in H. destruct H as [H|[H E]]; [left; apply Z.mul_lt_mono_pos_r in H; assumption|right; split; [apply Z.mul_reg_r in H; [exact H|lia]|exact E]].
Qed.
Lemma nearest_ratio x neg n d n' d' : 0 < d -> 0 < d' -> n * d' = n' * d -> nearest x neg n d -> nearest x neg n' d'.
Proof.
  intros D D' E H. apply (nearest_scale x neg n d d' D') in H. apply (nearest_scale x neg n' d' d D). rewrite <- E, (Z.mul_comm d' d). exact H.
Qed.

Lemma align_eq m e ez : ez <= e -> Zpos (fst (shl_align m e ez)) = Zpos m * 2 ^ (e - ez).
Proof.
  intros H. unfold shl_align. destruct (ez - e) as [|p|p] eqn:X; cbn [fst].
  - replace (e - ez) with 0 by lia. rewrite Z.pow_0_r. lia.
  - lia.
  - replace (e - ez) with (Zpos p) by lia. apply shift_pos_spec.
Qed.
Lemma pow_merge a b : 0 <= a -> 0 <= b -> 2 ^ a * 2 ^ b = 2 ^ (a + b).
Proof. intros. rewrite Z.pow_add_r by lia. reflexivity. Qed.

(* normalizing z * 2^e *)
Lemma normalize_nearest z e szero n : -1074 <= e -> z * 2 ^ (e + 1074) = n ->
  if n =? 0 then binary_normalize 53 1024 z e szero = S754_zero szero else nearest (binary_normalize 53 1024 z e szero) (n <? 0) (Z.abs n) UNIT.
Proof.
  intros E N. assert (P : 0 < 2 ^ (e + 1074)) by (apply Z.pow_pos_nonneg; lia).
  assert (G : forall s p, nearest (binary_round 53 1024 s p e) s (Zpos p * 2 ^ (e + 1074)) UNIT).
  { intros s p. pose proof (round_nearest s p e) as H. unfold nearest_scaled in H. unfold UNIT. destruct (0 <=? e) eqn:E0.
    - apply Z.leb_le in E0. apply (nearest_ratio _ _ _ _ (Zpos p * 2 ^ (e + 1074)) (2 ^ 1074)) in H; [exact H|lia|apply Z.pow_pos_nonneg; lia|]. rewrite Z.mul_1_r, <- Z.mul_assoc, pow_merge by lia. reflexivity.
    - apply Z.leb_gt in E0. apply (nearest_ratio _ _ _ _ (Zpos p * 2 ^ (e + 1074)) (2 ^ 1074)) in H; [exact H|apply Z.pow_pos_nonneg; lia|apply Z.pow_pos_nonneg; lia|]. rewrite <- Z.mul_assoc, pow_merge by lia. do 2 f_equal. lia. }
  destruct z as [|p|p]; cbn [binary_normalize].
  - subst n. reflexivity.
  - assert (X : 0 < n) by (subst n; apply Z.mul_pos_pos; lia). replace (n =? 0) with false by lia. replace (n <? 0) with false by lia. rewrite Z.abs_eq by lia. rewrite <- N. apply G.
  - assert (X : n < 0). { subst n. change (Zneg p) with (- Zpos p). assert (0 < Zpos p * 2 ^ (e + 1074)) by (apply Z.mul_pos_pos; lia). lia. }
    replace (n =? 0) with false by lia. replace (n <? 0) with true by lia. rewrite Z.abs_neq by lia. rewrite <- N. change (Zneg p) with (- Zpos p). rewrite Z.mul_opp_l, Z.opp_involutive. apply G.
Qed.

Lemma cond_mul s m c : cond_Zopp s (m * c) = cond_Zopp s m * c.
Proof. destruct s; cbn [cond_Zopp]; ring. Qed.
Lemma split_pow m e ez : -1074 <= ez -> ez <= e -> m * 2 ^ (e + 1074) = m * 2 ^ (e - ez) * 2 ^ (ez + 1074).
Proof. intros. rewrite <- Z.mul_assoc, pow_merge by lia. do 2 f_equal. lia. Qed.

Lemma finite_self s m e : double (S754_finite s m e) -> nearest (S754_finite s m e) s (Zpos m * 2 ^ (e + 1074)) UNIT.
Proof.
  intros D. pose proof unit_pos as UP. pose proof D as D0. apply valid_finite in D0 as (F & E1 & _).
  assert (E0 : -1074 <= e) by (unfold fexp, emin in F; lia).
  assert (P : 0 < 2 ^ (e + 1074)) by (apply Z.pow_pos_nonneg; lia).
  pose proof (normalize_nearest (cond_Zopp s (Zpos m)) e false (cond_Zopp s (Zpos m) * 2 ^ (e + 1074)) E0 eq_refl) as H.
  assert (NN : nearest (binary_normalize 53 1024 (cond_Zopp s (Zpos m)) e false) s (Zpos m * 2 ^ (e + 1074)) UNIT).
  { destruct s; cbn [cond_Zopp] in *.
    - assert (X : Zneg m * 2 ^ (e + 1074) < 0) by (change (Zneg m) with (- Zpos m); assert (0 < Zpos m * 2 ^ (e + 1074)) by (apply Z.mul_pos_pos; lia); lia).
      change (- Zpos m) with (Zneg m) in H |- *. replace (Zneg m * 2 ^ (e + 1074) =? 0) with false in H by lia. replace (Zneg m * 2 ^ (e + 1074) <? 0) with true in H by lia.
      rewrite Z.abs_neq in H by lia. replace (- (Zneg m * 2 ^ (e + 1074))) with (Zpos m * 2 ^ (e + 1074)) in H by (change (Zneg m) with (- Zpos m); ring). exact H.
    - assert (X : 0 < Zpos m * 2 ^ (e + 1074)) by (apply Z.mul_pos_pos; lia).
      replace (Zpos m * 2 ^ (e + 1074) =? 0) with false in H by lia. replace (Zpos m * 2 ^ (e + 1074) <? 0) with false in H by lia.
      rewrite Z.abs_eq in H by lia. exact H. }
  assert (Q : binary_normalize 53 1024 (cond_Zopp s (Zpos m)) e false = S754_finite s m e).
  { apply (nearest_exact _ s (Zpos m * 2 ^ (e + 1074)) UNIT _ (cond_Zopp s (Zpos m) * 2 ^ (e + 1074)) UP ltac:(apply Z.mul_pos_pos; lia) NN D eq_refl). rewrite <- cond_mul. reflexivity. }
  rewrite <- Q. exact NN.
Qed.

Lemma finite_exp s m e : double (S754_finite s m e) -> -1074 <= e.
Proof. intros D. apply valid_finite in D as (F & _). unfold fexp, emin in F. lia. Qed.
Lemma finite_pos s m e : double (S754_finite s m e) -> 0 < Zpos m * 2 ^ (e + 1074).
Proof. intros D. apply finite_exp in D. apply Z.mul_pos_pos; [lia|]. apply Z.pow_pos_nonneg; lia. Qed.
Lemma finite_signed s m e : double (S754_finite s m e) ->
  let n := cond_Zopp s (Zpos m) * 2 ^ (e + 1074) in (n =? 0) = false /\ (n <? 0) = s /\ Z.abs n = Zpos m * 2 ^ (e + 1074).
Proof.
  intros D. apply finite_pos in D. cbv zeta. rewrite <- cond_mul. set (p := Zpos m * 2 ^ (e + 1074)) in *. clearbody p. destruct s; cbn [cond_Zopp]; (repeat split); lia.
Qed.

Lemma add_result x y : double x -> double y -> units x <> None -> units y <> None -> result Plus x y (fadd x y).
Proof.
  intros DX DY UX UY. unfold result.
  destruct x as [s|s| |s m e]; cbn [units] in UX; try congruence; (destruct y as [t|t| |t k f]; cbn [units] in UY; try congruence); cbn [units negative].
  - exists 0, 0, s, t. repeat (split; [reflexivity|]). cbn [exact Z.add Z.eqb zero_sign]. unfold fadd, SFadd. destruct s, t; reflexivity.
  - exists 0, (cond_Zopp t (Zpos k) * 2 ^ (f + 1074)), s, t. repeat (split; [reflexivity|]). cbn [exact]. rewrite Z.add_0_l.
    destruct (finite_signed t k f DY) as (-> & -> & ->). exact (finite_self t k f DY).
  - exists (cond_Zopp s (Zpos m) * 2 ^ (e + 1074)), 0, s, t. repeat (split; [reflexivity|]). cbn [exact]. rewrite Z.add_0_r.
    destruct (finite_signed s m e DX) as (-> & -> & ->). exact (finite_self s m e DX).
  - exists (cond_Zopp s (Zpos m) * 2 ^ (e + 1074)), (cond_Zopp t (Zpos k) * 2 ^ (f + 1074)), s, t. repeat (split; [reflexivity|]). cbn [exact]. unfold fadd, SFadd. cbv zeta.
    pose proof (finite_exp _ _ _ DX) as EX. pose proof (finite_exp _ _ _ DY) as EY. set (ez := Z.min e f). rewrite !align_eq by lia.
    pose proof (normalize_nearest (cond_Zopp s (Zpos m * 2 ^ (e - ez)) + cond_Zopp t (Zpos k * 2 ^ (f - ez))) ez false
      (cond_Zopp s (Zpos m) * 2 ^ (e + 1074) + cond_Zopp t (Zpos k) * 2 ^ (f + 1074)) ltac:(lia)) as H.
    rewrite Z.mul_add_distr_r, !cond_mul, <- !split_pow in H by lia. specialize (H eq_refl). rewrite !cond_mul.
    set (n := cond_Zopp s (Zpos m) * 2 ^ (e + 1074) + cond_Zopp t (Zpos k) * 2 ^ (f + 1074)) in *. destruct (n =? 0) eqn:N0; [|exact H]. rewrite H.
    apply Z.eqb_eq in N0. cbn [zero_sign]. pose proof (finite_pos _ _ _ DX) as P1. pose proof (finite_pos _ _ _ DY) as P2. unfold n in N0. rewrite <- !cond_mul in N0.
    destruct s, t; cbn [cond_Zopp andb] in *; try reflexivity. lia.
Qed.
Lemma sub_add x y : x <> S754_nan -> y <> S754_nan -> fsub x y = fadd x (fneg y).
Proof.
  intros NX NY. destruct x as [s|s| |s m e], y as [t|t| |t k f]; try congruence; try reflexivity.
  unfold fsub, fadd, fneg, SFsub, SFadd, SFopp. cbv zeta. f_equal. destruct t; cbn [negb cond_Zopp]; ring.
Qed.
Lemma sub_result x y : double x -> double y -> units x <> None -> units y <> None -> result Minus x y (fsub x y).
Proof.
  intros DX DY UX UY. rewrite sub_add; [|intros ->; apply UX; reflexivity|intros ->; apply UY; reflexivity].
  destruct (units y) as [b|] eqn:B; [|congruence].
  pose proof (add_result x (fneg y) DX (fneg_double y DY) UX) as H. rewrite (units_fneg y b B) in H. destruct (H ltac:(discriminate)) as (a & b' & s & t & A & B' & S & T & R).
  rewrite (units_fneg y b B) in B'. injection B' as <-. exists a, b, s, (negb t). split; [exact A|]. split; [exact B|]. split; [exact S|].
  split; [destruct y; cbn [fneg SFopp negative] in *; try discriminate T; injection T as <-; rewrite Bool.negb_involutive; reflexivity|]. cbn [exact zero_sign] in *. rewrite Bool.negb_involutive. rewrite Z.add_opp_r in R. exact R.
Qed.

Lemma xor_mul s t a b : cond_Zopp s a * cond_Zopp t b = cond_Zopp (xorb s t) (a * b).
Proof. destruct s, t; cbn [cond_Zopp xorb]; ring. Qed.
Lemma signed_pos s p : 0 < p -> (cond_Zopp s p =? 0) = false /\ (cond_Zopp s p <? 0) = s /\ Z.abs (cond_Zopp s p) = p.
Proof. intros P. destruct s; cbn [cond_Zopp]; repeat split; lia. Qed.

Lemma mul_result x y : double x -> double y -> units x <> None -> units y <> None -> result Times x y (fmul x y).
Proof.
  intros DX DY UX UY. unfold result.
  destruct x as [s|s| |s m e]; cbn [units] in UX; try congruence; (destruct y as [t|t| |t k f]; cbn [units] in UY; try congruence); cbn [units negative].
  - exists 0, 0, s, t. repeat (split; [reflexivity|]). reflexivity.
  - exists 0, (cond_Zopp t (Zpos k) * 2 ^ (f + 1074)), s, t. repeat (split; [reflexivity|]). reflexivity.
  - exists (cond_Zopp s (Zpos m) * 2 ^ (e + 1074)), 0, s, t. repeat (split; [reflexivity|]). cbn [exact]. rewrite Z.mul_0_r. reflexivity.
  - exists (cond_Zopp s (Zpos m) * 2 ^ (e + 1074)), (cond_Zopp t (Zpos k) * 2 ^ (f + 1074)), s, t. repeat (split; [reflexivity|]). cbn [exact].
    rewrite <- (cond_mul s (Zpos m)), <- (cond_mul t (Zpos k)), xor_mul. pose proof (finite_pos _ _ _ DX) as PX. pose proof (finite_pos _ _ _ DY) as PY.
    destruct (signed_pos (xorb s t) (Zpos m * 2 ^ (e + 1074) * (Zpos k * 2 ^ (f + 1074))) ltac:(apply Z.mul_pos_pos; assumption)) as (-> & -> & ->).
    pose proof (fmul_double _ _ DX DY) as DR. unfold fmul, SFmul in *. pose proof (finite_exp _ _ _ DX) as EX. pose proof (finite_exp _ _ _ DY) as EY.
    destruct (round_aux_rounded (xorb s t) (Zpos (m * k)) (e + f) loc_Exact (Zpos (m * k)) 1 ltac:(lia) ltac:(lia) (stands_exact _)) as (q & e1 & R).
    { cbn [Zdigits2]. apply valid_finite in DX as (F & _ & _). apply valid_finite in DY as (F' & _ & _).
      pose proof (digits_mul m k). pose proof (digits_mul k m). rewrite (Pos.mul_comm k m) in *. unfold fexp, emin in *. lia. }
    pose proof unit_pos as UP.
    refine (rounded_nearest (xorb s t) (Zpos (m * k)) 1 (e + f) _ q e1 (Zpos m * 2 ^ (e + 1074) * (Zpos k * 2 ^ (f + 1074))) (UNIT * UNIT) 2148 ltac:(apply Z.mul_pos_pos; assumption) ltac:(apply Z.mul_nonneg_nonneg; lia) ltac:(lia) ltac:(lia) ltac:(lia) ltac:(lia) _ DR R).
    unfold UNIT. rewrite Z.mul_1_r. change (Zpos (m * k)) with (Zpos m * Zpos k).
    replace (Zpos m * 2 ^ (e + 1074) * (Zpos k * 2 ^ (f + 1074)) * 2 ^ 2148) with (Zpos m * Zpos k * (2 ^ (e + 1074) * 2 ^ (f + 1074) * 2 ^ 2148)) by (generalize (2 ^ (e + 1074)), (2 ^ (f + 1074)), (2 ^ 2148); intros; ring).
    replace (Zpos m * Zpos k * (2 ^ 1074 * 2 ^ 1074) * 2 ^ (e + f + 2148)) with (Zpos m * Zpos k * (2 ^ 1074 * 2 ^ 1074 * 2 ^ (e + f + 2148))) by (generalize (2 ^ 1074), (2 ^ (e + f + 2148)); intros; ring).
    f_equal. rewrite !pow_merge by lia. f_equal. lia.
Qed.

Lemma div_core_nearest s m1 e1 m2 e2 n d : 0 < m1 -> 0 < m2 -> 0 < d -> 0 <= n -> -1074 <= e1 -> -1074 <= e2 -> n = m1 * 2 ^ (e1 + 1074) -> d = m2 * 2 ^ (e2 + 1074) ->
  nearest (let '(q, e, l) := SFdiv_core_binary 53 1024 m1 e1 m2 e2 in binary_round_aux 53 1024 s q e l) s n d.
Proof.
  intros M1 M2 PD PN EL1 EL2 HN HD. pose proof (div_core_double s m1 e1 m2 e2 M1 M2) as DX. unfold SFdiv_core_binary in *.
  set (e' := Z.min (fexp 53 1024 (Zdigits2 m1 + e1 - (Zdigits2 m2 + e2))) (e1 - e2)) in *.
  set (k := e1 - e2 - e') in *. assert (K : 0 <= k) by (unfold k, e'; lia).
  set (m' := match k with Zpos _ => Z.shiftl m1 k | Z0 => m1 | Zneg _ => 0 end) in *.
  assert (P : 0 < 2 ^ k) by (apply Z.pow_pos_nonneg; lia).
  assert (M' : m' = m1 * 2 ^ k).
  { unfold m'. destruct k eqn:X; [rewrite Z.pow_0_r; lia|apply Z.shiftl_mul_pow2; lia|lia]. }
  clearbody m'.
  destruct (Z.div_eucl m' m2) as [q r] eqn:DE. pose proof (Z_div_mod m' m2 ltac:(lia)) as DM. rewrite DE in DM.
  destruct DM as [EQ RB]. assert (QQ : q = m' / m2) by (unfold Z.div; rewrite DE; reflexivity). assert (RR : r = m' mod m2) by (unfold Z.modulo; rewrite DE; reflexivity).
  assert (N0 : 0 <= m') by (rewrite M'; apply Z.mul_nonneg_nonneg; lia).
  assert (DQ : Zdigits2 m1 + k - Zdigits2 m2 <= Zdigits2 q).
  { destruct (zdigits_bounds m1 M1) as [[L1 _] D1]. destruct (zdigits_bounds m2 M2) as [[_ U2] D2].
    pose proof (zdigits_nonneg q) as DQ0. destruct (Z_le_gt_dec (Zdigits2 m1 + k - Zdigits2 m2) 0); [lia|].
    pose proof (zdigits_ge q (Zdigits2 m1 + k - Zdigits2 m2 - 1) ltac:(lia)) as G.
    assert (2 ^ (Zdigits2 m1 + k - Zdigits2 m2 - 1) <= q); [|lia].
    rewrite QQ. apply Z.div_le_lower_bound; [lia|].
    apply Z.le_trans with (2 ^ Zdigits2 m2 * 2 ^ (Zdigits2 m1 + k - Zdigits2 m2 - 1)).
    - apply Z.mul_le_mono_nonneg_r; [apply Z.pow_nonneg; lia|lia].
    - rewrite <- Z.pow_add_r by lia. replace (Zdigits2 m2 + (Zdigits2 m1 + k - Zdigits2 m2 - 1)) with (Zdigits2 m1 - 1 + k) by lia.
      rewrite Z.pow_add_r by lia. rewrite M'. apply Z.mul_le_mono_nonneg_r; lia. }
  rewrite RR, QQ in DX |- *. rewrite QQ in DQ. destruct (round_aux_rounded s (m' / m2) e' (new_location m2 (m' mod m2)) m' m2 N0 ltac:(lia) (stands_new m' m2 ltac:(lia))) as (q1 & e3 & R).
  { assert (E' : e' <= fexp 53 1024 (Zdigits2 m1 + e1 - (Zdigits2 m2 + e2))) by (unfold e'; lia). unfold fexp in *. lia. }
  refine (rounded_nearest s m' m2 e' _ q1 e3 n d (Z.abs e') PD PN M2 N0 ltac:(lia) ltac:(lia) _ DX R).
  rewrite HN, HD, M'. replace (m1 * 2 ^ (e1 + 1074) * m2 * 2 ^ Z.abs e') with (m1 * m2 * (2 ^ (e1 + 1074) * 2 ^ Z.abs e')) by ring.
  replace (m1 * 2 ^ k * (m2 * 2 ^ (e2 + 1074)) * 2 ^ (e' + Z.abs e')) with (m1 * m2 * (2 ^ k * 2 ^ (e2 + 1074) * 2 ^ (e' + Z.abs e'))) by ring.
  f_equal. rewrite !pow_merge by lia. f_equal. unfold k. lia.
Qed.
Lemma div_result x y : double x -> double y -> units x <> None -> units y <> None -> units y <> Some 0 -> result Over x y (fdiv x y).
Proof.
  intros DX DY UX UY UZ. unfold result.
  destruct x as [s|s| |s m e]; cbn [units] in UX; try congruence; (destruct y as [t|t| |t k f]; cbn [units] in UY, UZ; try congruence); cbn [units negative].
  - exists 0, (cond_Zopp t (Zpos k) * 2 ^ (f + 1074)), s, t. repeat (split; [reflexivity|]). cbn [exact]. rewrite Z.mul_0_r. reflexivity.
  - exists (cond_Zopp s (Zpos m) * 2 ^ (e + 1074)), (cond_Zopp t (Zpos k) * 2 ^ (f + 1074)), s, t. repeat (split; [reflexivity|]). cbn [exact].
    rewrite <- (cond_mul s (Zpos m)), <- (cond_mul t (Zpos k)). pose proof (finite_pos _ _ _ DX) as PX. pose proof (finite_pos _ _ _ DY) as PY.
    assert (SG : Z.sgn (cond_Zopp t (Zpos k * 2 ^ (f + 1074))) = cond_Zopp t 1) by (destruct t; cbn [cond_Zopp]; lia). rewrite SG, xor_mul, Z.mul_1_l, Bool.xorb_comm.
    destruct (signed_pos (xorb s t) (Zpos m * 2 ^ (e + 1074)) PX) as (-> & -> & ->). destruct (signed_pos t (Zpos k * 2 ^ (f + 1074)) PY) as (_ & _ & ->).
    unfold fdiv, SFdiv. apply div_core_nearest; try lia; try exact (finite_exp _ _ _ DX); exact (finite_exp _ _ _ DY).
Qed.

(* ---------- all four ---------- *)

Definition calculate (op : operation) : num -> num -> num :=
  match op with Plus => fadd | Minus => fsub | Times => fmul | Over => fdiv end.
Lemma calculate_result op x y : double x -> double y -> ~ is_special op x y -> x <> S754_nan -> y <> S754_nan -> result op x y (calculate op x y).
Proof.
  intros DX DY NS NX NY.
  assert (UX : units x <> None) by (intros H; apply NS; repeat split; auto). assert (UY : units y <> None) by (intros H; apply NS; repeat split; auto).
  destruct op; cbn [calculate]; [apply add_result|apply sub_result|apply mul_result|apply div_result]; try assumption.
  intros H. apply NS. repeat split; auto.
Qed.
Lemma calculate_special op x y : double x -> double y -> is_special op x y -> calculate op x y = match special op x y with Some r => r | None => S754_nan end.
Proof.
  intros DX DY (NX & NY & H).
  assert (FF : forall s m e t k f, x = S754_finite s m e -> y = S754_finite t k f -> False).
  { intros s m e t k f -> ->. destruct H as [H|[H|[_ H]]]; try discriminate H. cbn [units] in H. injection H as H. apply finite_pos in DY. rewrite <- cond_mul in H. destruct t; cbn [cond_Zopp] in H; lia. }
  destruct op, x as [s|s| |s m e], y as [t|t| |t k f]; try congruence; try reflexivity; try solve [exfalso; eauto]; cbn [calculate special]; unfold fadd, fsub, SFadd, SFsub; try (destruct s, t; reflexivity);
    (destruct H as [H|[H|[H H']]]; try discriminate H; try discriminate H');
    exfalso; cbn [units] in H'; injection H' as H'; apply finite_pos in DY; rewrite <- cond_mul in H'; destruct t; cbn [cond_Zopp] in H'; lia.
Qed.

Lemma result_double op x y r : result op x y r -> double r.
Proof. intros (a & b & s & t & _ & _ & _ & _ & H). destruct (exact op a b) as [n d]. destruct (n =? 0); [subst r; reflexivity|exact (proj1 H)]. Qed.
Lemma exact_pos op a b : (op = Over -> b <> 0) -> 0 < snd (exact op a b).
Proof. intros H. pose proof unit_pos as UP. destruct op; cbn [exact snd]; [exact UP|exact UP|apply Z.mul_pos_pos; exact UP|specialize (H eq_refl); lia]. Qed.
Lemma result_unique op x y r r' : (op = Over -> units y <> Some 0) -> result op x y r -> result op x y r' -> r = r'.
Proof.
  intros Z (a & b & s & t & A & B & S & T & H) (a' & b' & s' & t' & A' & B' & S' & T' & H').
  rewrite A in A'. injection A' as <-. rewrite B in B'. injection B' as <-. rewrite S in S'. injection S' as <-. rewrite T in T'. injection T' as <-.
  pose proof (exact_pos op a b) as P. destruct (exact op a b) as [n d]. cbn [snd] in P. destruct (n =? 0); [congruence|].
  refine (nearest_unique r r' _ _ _ (P _) H H'). intros O Q. apply (Z O). rewrite B, Q. reflexivity.
Qed.
(* a result that is a double is exact *)
Lemma result_exact op x y r a b z c : (op = Over -> b <> 0) -> result op x y r -> units x = Some a -> units y = Some b ->
  double z -> units z = Some c -> c * snd (exact op a b) = fst (exact op a b) * UNIT -> units r = Some c.
Proof.
  intros Z (a' & b' & s & t & A & B & S & T & H) A' B' DZ C Q. rewrite A in A'. injection A' as ->. rewrite B in B'. injection B' as ->.
  pose proof (exact_pos op a b Z) as P. pose proof unit_pos as UP. destruct (exact op a b) as [n d]. cbn [fst snd] in *. destruct (n =? 0) eqn:N0.
  - apply Z.eqb_eq in N0. subst n r. cbn [units]. rewrite Z.mul_0_l in Q. apply Z.eq_mul_0 in Q. f_equal. lia.
  - apply Z.eqb_neq in N0. assert (E : r = z); [|rewrite E; exact C]. refine (nearest_exact r (n <? 0) (Z.abs n) d z c P ltac:(lia) H DZ C _). rewrite Q. f_equal. destruct (Z.ltb_spec n 0); cbn [cond_Zopp]; lia.
Qed.

Lemma integer_double z : Z.abs z <= 2 ^ 53 -> exists x, double x /\ is_integer x z.
Proof.
  intros H. destruct (Z.eq_dec (Z.abs z) (2 ^ 53)) as [E|E].
  - assert (z = 2 ^ 53 \/ z = - 2 ^ 53) as [-> | ->] by lia.
    + exists (fofZ (2 ^ 53)). split; [apply fofZ_double|]. vm_compute. reflexivity.
    + exists (fofZ (- 2 ^ 53)). split; [apply fofZ_double|]. vm_compute. reflexivity.
  - exists (fofZ z). apply fofZ_spec. lia.
Qed.
(* the integer z is i op j *)
Lemma result_integer op x y r i j z : result op x y r -> is_integer x i -> is_integer y j -> integer_result op i j z -> Z.abs z <= 2 ^ 53 -> is_integer r z.
Proof.
  intros R I J Q L. destruct (integer_double z L) as (w & DW & IW). pose proof unit_pos as UP. unfold is_integer in *.
  refine (result_exact op x y r (i * UNIT) (j * UNIT) w (z * UNIT) _ R I J DW IW _).
  - intros ->. destruct Q as [Q _]. intros H. apply Z.eq_mul_0 in H. lia.
  - set (u := UNIT) in *. destruct op; cbn [exact fst snd integer_result] in *; fold u; clearbody u; try (subst z; ring).
    destruct Q as [NJ Q]. subst i. rewrite Z.sgn_mul, Z.abs_mul, (Z.abs_eq u) by lia. rewrite (Z.sgn_pos u) by lia.
    rewrite <- (Z.sgn_abs j). ring.
Qed.

(* ---------- SQR ---------- *)

(* how the root of m lies to its whole part, in quarters *)
Definition quarters (q r : Z) : Z := if Zeq_bool r 0 then 0 else if Zle_bool r q then 1 else 3.
Lemma stands_root q r : 0 <= q -> stands (4 * q + quarters q r) 4 (shr_record_of_loc q (if Zeq_bool r 0 then loc_Exact else loc_Inexact (if Zle_bool r q then Lt else Gt))).
Proof.
  intros Q. unfold stands, quarters.
  assert (G : forall c, 0 <= c < 4 -> (4 * q + c) / 4 = q /\ (4 * q + c) mod 4 = c).
  { intros c C. split; [symmetry; apply (Z.div_unique (4 * q + c) 4 q c); lia|symmetry; apply (Z.mod_unique (4 * q + c) 4 q c); lia]. }
  destruct (Zeq_bool r 0); [|destruct (Zle_bool r q)]; cbn [shr_record_of_loc shr_m shr_r shr_s].
  - destruct (G 0 ltac:(lia)) as [-> ->]. repeat split.
  - destruct (G 1 ltac:(lia)) as [-> ->]. repeat split.
  - destruct (G 3 ltac:(lia)) as [-> ->]. repeat split.
Qed.
Lemma zle_bool x y : Zle_bool x y = true <-> x <= y.
Proof. split; [apply Zle_bool_imp_le|apply Zle_imp_le_bool]. Qed.
(* The root lies within half a place T of k, if its quarters do. *)
Lemma root_below m q r k T : 0 <= q -> m = q * q + r -> 0 <= r <= 2 * q -> 0 < T -> 0 <= k -> 2 * Z.abs (k * (4 * T) - (4 * q + quarters q r)) <= 4 * T ->
  4 * m <= ((2 * k + 1) * T) * ((2 * k + 1) * T) /\
  (4 * m = ((2 * k + 1) * T) * ((2 * k + 1) * T) -> 2 * Z.abs (k * (4 * T) - (4 * q + quarters q r)) = 4 * T).
Proof.
  intros Q M R T0 K H. assert (Y : 4 * q + quarters q r <= 2 * ((2 * k + 1) * T)) by lia. assert (Y0 : 0 < (2 * k + 1) * T) by nia.
  set (Y' := (2 * k + 1) * T) in *. assert (HY : k * (4 * T) = 2 * Y' - 2 * T) by (unfold Y'; ring). rewrite HY in *. clearbody Y'. unfold quarters in *. destruct (Zeq_bool r 0) eqn:R0.
  - apply Zeq_bool_eq in R0. subst r m. split; [nia|]. intros E. assert (Y' = 2 * q) by nia. lia.
  - apply Zeq_bool_neq in R0. destruct (Zle_bool r q) eqn:L.
    + apply zle_bool in L. assert (2 * q + 1 <= Y') by lia. split; [nia|]. intros E. exfalso. nia.
    + assert (q < r) by (destruct (Z_le_gt_dec r q) as [X|X]; [apply zle_bool in X; congruence|lia]). assert (2 * q + 2 <= Y') by lia. split; [nia|]. intros E. exfalso. nia.
Qed.
Lemma root_above m q r k T : 0 <= q -> m = q * q + r -> 0 <= r <= 2 * q -> 0 < T -> 0 < k -> 2 * Z.abs (k * (4 * T) - (4 * q + quarters q r)) <= 4 * T ->
  ((2 * k - 1) * T) * ((2 * k - 1) * T) <= 4 * m /\
  (4 * m = ((2 * k - 1) * T) * ((2 * k - 1) * T) -> 2 * Z.abs (k * (4 * T) - (4 * q + quarters q r)) = 4 * T).
Proof.
  intros Q M R T0 K H. assert (X : 2 * ((2 * k - 1) * T) <= 4 * q + quarters q r) by lia. assert (X0 : 0 < (2 * k - 1) * T) by nia.
  set (X' := (2 * k - 1) * T) in *. assert (HX : k * (4 * T) = 2 * X' + 2 * T) by (unfold X'; ring). rewrite HX in *. clearbody X'. unfold quarters in *. destruct (Zeq_bool r 0) eqn:R0.
  - apply Zeq_bool_eq in R0. subst r m. split; [nia|]. intros E. assert (X' = 2 * q) by nia. lia.
  - apply Zeq_bool_neq in R0. destruct (Zle_bool r q) eqn:L.
    + apply zle_bool in L. assert (X' <= 2 * q) by lia. split; [nia|]. intros E. exfalso. nia.
    + assert (q < r) by (destruct (Z_le_gt_dec r q) as [Y|Y]; [apply zle_bool in Y; congruence|lia]). assert (X' <= 2 * q + 1) by lia. split; [nia|]. intros E. exfalso. nia.
Qed.
Lemma square_le a b : 0 <= b -> a * a <= b * b -> a <= b.
Proof. intros B H. destruct (Z_le_gt_dec a b) as [L|L]; [exact L|exfalso; nia]. Qed.
Lemma square_cancel h x y : 0 < h -> (x * h) * (x * h) <= y * (h * h) -> x * x <= y.
Proof. intros H L. assert (0 < h * h) by nia. replace ((x * h) * (x * h)) with (x * x * (h * h)) in L by ring. nia. Qed.

Lemma root_result m e : double (S754_finite false m e) -> nearest_root (fsqrt (S754_finite false m e)) (Zpos m * 2 ^ (e + 1074)).
Proof.
  intros D. pose proof (fsqrt_double _ D) as DR. pose proof (finite_exp _ _ _ D) as EE. unfold fsqrt, SFsqrt, SFsqrt_core_binary in *.
  set (d := Zdigits2 (Zpos m)) in *. set (e' := Z.min (fexp 53 1024 (Z.div2 (d + e + 1))) (Z.div2 e)) in *.
  set (k := e - 2 * e') in *.
  assert (EH : 2 * Z.div2 e <= e <= 2 * Z.div2 e + 1) by (rewrite (Z.div2_odd e) at 2 3; destruct (Z.odd e); cbn [Z.b2z]; lia).
  assert (K : 0 <= k) by (unfold k, e'; lia).
  assert (E0 : -1074 <= e') by (unfold e', fexp, emin; lia).
  set (m' := match k with Zpos _ => Z.shiftl (Zpos m) k | Z0 => Zpos m | Zneg _ => 0 end) in *.
  assert (P : 0 < 2 ^ k) by (apply Z.pow_pos_nonneg; lia).
  assert (M' : m' = Zpos m * 2 ^ k).
  { unfold m'. destruct k eqn:Y; [rewrite Z.pow_0_r; lia|apply Z.shiftl_mul_pow2; lia|lia]. }
  clearbody m'. destruct (Z.sqrtrem m') as [q r] eqn:SR. pose proof (Z.sqrtrem_spec m' ltac:(lia)) as SS. rewrite SR in SS.
  destruct SS as [EQ RB]. pose proof (Z.sqrt_nonneg m') as Q0.
  assert (QS : q = Z.sqrt m') by (pose proof (Z.sqrtrem_sqrt m') as H; rewrite SR in H; cbn [fst] in H; congruence). rewrite <- QS in Q0.
  assert (FE : e' <= fexp 53 1024 (Zdigits2 q + e')).
  { destruct (zdigits_bounds (Zpos m) ltac:(lia)) as [[L _] D0]. fold d in L, D0. set (h := Z.div2 (d - 1 + k)).
    assert (H0 : 0 <= h) by (unfold h; rewrite Z.div2_div; apply Z.div_pos; lia).
    assert (H2 : 2 * h <= d - 1 + k) by (unfold h; rewrite (Z.div2_odd (d - 1 + k)) at 2; destruct (Z.odd _); cbn [Z.b2z]; lia).
    assert (G : 2 ^ h <= q).
    { rewrite QS. apply Z.sqrt_le_square; [lia|apply Z.pow_nonneg; lia|]. rewrite <- Z.pow_add_r by lia. rewrite M'.
      apply Z.le_trans with (2 ^ (d - 1 + k)); [apply Z.pow_le_mono_r; lia|]. rewrite Z.pow_add_r by lia. apply Z.mul_le_mono_nonneg_r; lia. }
    pose proof (zdigits_ge q h H0 G) as DQ. assert (E' : e' <= fexp 53 1024 (Z.div2 (d + e + 1))) by (unfold e'; lia).
    assert (HE : Z.div2 (d + e + 1) = h + 1 + e').
    { unfold h, k. rewrite !Z.div2_div. replace (d + e + 1) with ((d - 1 + (e - 2 * e')) + (1 + e') * 2) by lia. rewrite Z.div_add by lia. lia. }
    rewrite HE in E'. unfold fexp in *. lia. }
  set (l := if Zeq_bool r 0 then loc_Exact else loc_Inexact (if Zle_bool r q then Lt else Gt)) in *.
  assert (QQ : 0 <= quarters q r < 4) by (unfold quarters; destruct (Zeq_bool r 0); [lia|]; destruct (Zle_bool r q); lia).
  destruct (round_aux_rounded false q e' l (4 * q + quarters q r) 4 ltac:(lia) ltac:(lia) (stands_root q r Q0) FE) as (n & e1 & [LO EX NE EV TOP FU SG FR VA]).
  set (x := binary_round_aux 53 1024 false q e' l) in *. clearbody x l. set (T := 2 ^ (e1 - e')) in *. assert (T0 : 0 < T) by (apply Z.pow_pos_nonneg; lia).
  set (h := 2 ^ (e' + 1074)). assert (H0 : 0 < h) by (apply Z.pow_pos_nonneg; lia).
  assert (GH : 2 ^ (e1 + 1074) = T * h) by (unfold T, h; rewrite pow_merge by lia; f_equal; lia).
  set (A := Zpos m * 2 ^ (e + 1074)). assert (AU : A * UNIT = m' * (h * h)).
  { unfold A, h, UNIT. rewrite M', <- !Z.mul_assoc. f_equal. rewrite !pow_merge by lia. f_equal. unfold k. lia. }
  assert (FQ : -1074 < e1 -> 2 ^ 52 * T <= q) by (intros H; specialize (FU H); lia).
  assert (FN : -1074 < e1 -> 2 ^ 52 <= n) by (intros H; specialize (FU H); nia).
  assert (QM : q * q <= m') by lia.
  assert (SMALL : e1 < 971).
  { destruct (Z_lt_le_dec e1 971) as [X|X]; [exact X|exfalso]. specialize (FQ ltac:(lia)).
    assert (B : Zpos m < 2 ^ 53 /\ e <= 971). { apply valid_finite in D as (F & E1 & _). split; [|lia]. destruct (digits_bounds m) as [_ U]. apply Z.lt_le_trans with (1 := U). apply Z.pow_le_mono_r; [lia|]. unfold fexp in F. lia. }
    assert (B1 : A * UNIT <= 2 ^ 53 * 2 ^ 2045 * 2 ^ 1074).
    { unfold A, UNIT. apply Z.mul_le_mono_nonneg_r; [apply Z.pow_nonneg; lia|]. apply Z.mul_le_mono_nonneg; [lia|lia|apply Z.pow_nonneg; lia|apply Z.pow_le_mono_r; lia]. }
    assert (B2 : (2 ^ 52 * (T * h)) * (2 ^ 52 * (T * h)) <= A * UNIT).
    { rewrite AU. replace ((2 ^ 52 * (T * h)) * (2 ^ 52 * (T * h))) with ((2 ^ 52 * T) * (2 ^ 52 * T) * (h * h)) by ring. apply Z.mul_le_mono_nonneg_r; [nia|]. apply Z.le_trans with (q * q); [|exact QM]. apply Z.mul_le_mono_nonneg; nia. }
    rewrite <- GH in B2. assert (B3 : 2 ^ 2045 <= 2 ^ (e1 + 1074)) by (apply Z.pow_le_mono_r; lia).
    assert (B4 : (2 ^ 52 * 2 ^ 2045) * (2 ^ 52 * 2 ^ 2045) <= 2 ^ 53 * 2 ^ 2045 * 2 ^ 1074).
    { apply Z.le_trans with (2 := B1). apply Z.le_trans with (2 := B2). set (g := 2 ^ (e1 + 1074)) in *. set (g0 := 2 ^ 2045) in *. assert (0 <= g0) by (unfold g0; apply Z.pow_nonneg; lia). clearbody g g0. clear - B3 H. nia. }
    apply Z.leb_le in B4. vm_compute in B4. discriminate B4. }
  destruct VA as [[_ VA]|[UX _]]; [exfalso; lia|]. cbn [cond_Zopp] in UX. rewrite GH in UX.
  assert (HH : 0 <= h * h) by (apply Z.mul_nonneg_nonneg; apply Z.lt_le_incl; exact H0). assert (THP : 0 < T * h) by (apply Z.mul_pos_pos; assumption).
  clearbody T h A. clear FE QQ SMALL.
  exists (n * (T * h)). split; [split; [exact DR|exact UX]|]. split; [apply Z.mul_nonneg_nonneg; [lia|apply Z.mul_nonneg_nonneg; lia]|].
  intros y b DY UY B0. replace (4 * A * UNIT) with (4 * m' * (h * h)) by (rewrite <- !Z.mul_assoc, AU; reflexivity).
  assert (NB : forall (C : b <> n * (T * h)) (NEAR : Z.abs (b - n * (T * h)) <= T * h) (BIG : -1074 < e1 -> 2 ^ 53 * (T * h) <= n * (T * h) + b), Z.abs (b - n * (T * h)) = T * h).
  { intros C NEAR BIG. pose proof (nearest_pos n e1 2 (n * (T * h) + b) y b) as X. rewrite GH in X. set (g := T * h) in *. clearbody g.
    destruct (X ltac:(lia) LO ltac:(lia) ltac:(intros Q; specialize (BIG Q); lia) DY UY C) as [Y|[Y1 Y2]]; lia. }
  assert (TH : 0 < T * h) by (apply Z.mul_pos_pos; assumption).
  split; intros C.
  - destruct (Z_lt_le_dec (4 * m' * (h * h)) ((n * (T * h) + b) * (n * (T * h) + b))) as [X|X]; [left; exact X|right].
    destruct (root_below m' q r n T Q0 EQ ltac:(lia) T0 ltac:(lia) NE) as [UB EV1].
    assert (Y : n * (T * h) + b <= (2 * n + 1) * (T * h)).
    { apply square_le; [clear - TOP THP; apply Z.mul_nonneg_nonneg; lia|]. apply Z.le_trans with (1 := X). replace ((2 * n + 1) * (T * h) * ((2 * n + 1) * (T * h))) with ((2 * n + 1) * T * ((2 * n + 1) * T) * (h * h)) by ring. apply Z.mul_le_mono_nonneg_r; [exact HH|exact UB]. }
    assert (Z1 : Z.abs (b - n * (T * h)) = T * h).
    { apply NB; [lia|clear - Y C; lia|]. intros Q. specialize (FN Q). set (g := T * h) in *. clearbody g. clear - FN C TH. nia. }
    assert (Z2 : b = (n + 1) * (T * h)) by (clear - Z1 C; lia). assert (Z3 : 4 * m' = (2 * n + 1) * T * ((2 * n + 1) * T)).
    { apply Z.le_antisymm; [exact UB|]. apply (square_cancel h); [exact H0|]. rewrite Z2 in X. replace ((2 * n + 1) * T * h) with (n * (T * h) + (n + 1) * (T * h)) by ring. exact X. }
    split; [|exact (FR (EV (EV1 Z3)))]. rewrite Z3, Z2. ring.
  - destruct (Z_lt_le_dec ((n * (T * h) + b) * (n * (T * h) + b)) (4 * m' * (h * h))) as [X|X]; [left; exact X|right].
    assert (N0 : 0 < n). { destruct (Z_lt_le_dec 0 n) as [Y|Y]; [exact Y|exfalso]. assert (n = 0) by (clear - Y TOP; lia). subst n. clear - C B0. lia. }
    destruct (root_above m' q r n T Q0 EQ ltac:(lia) T0 N0 NE) as [UB EV1].
    assert (Y : (2 * n - 1) * (T * h) <= n * (T * h) + b).
    { apply square_le; [clear - TOP THP B0; assert (0 <= n * (T * h)) by (apply Z.mul_nonneg_nonneg; lia); lia|]. apply Z.le_trans with (2 := X). replace ((2 * n - 1) * (T * h) * ((2 * n - 1) * (T * h))) with ((2 * n - 1) * T * ((2 * n - 1) * T) * (h * h)) by ring. apply Z.mul_le_mono_nonneg_r; [exact HH|exact UB]. }
    assert (Z1 : Z.abs (b - n * (T * h)) = T * h).
    { apply NB; [lia|clear - Y C; lia|]. intros Q. specialize (FQ Q). apply square_le; [clear - TOP THP B0; assert (0 <= n * (T * h)) by (apply Z.mul_nonneg_nonneg; lia); lia|]. apply Z.le_trans with (2 := X).
      replace (2 ^ 53 * (T * h) * (2 ^ 53 * (T * h))) with (4 * ((2 ^ 52 * T) * (2 ^ 52 * T)) * (h * h)) by (change (2 ^ 53) with (2 * 2 ^ 52); ring). apply Z.mul_le_mono_nonneg_r; [exact HH|]. apply Z.mul_le_mono_nonneg_l; [lia|]. apply Z.le_trans with (q * q); [|exact QM]. clear - FQ T0. apply Z.mul_le_mono_nonneg; lia. }
    assert (Z2 : b = (n - 1) * (T * h)) by (clear - Z1 C; lia). assert (Z3 : 4 * m' = (2 * n - 1) * T * ((2 * n - 1) * T)).
    { apply Z.le_antisymm; [|exact UB]. rewrite Z2 in X. replace (n * (T * h) + (n - 1) * (T * h)) with ((2 * n - 1) * T * h) in X by ring.
      replace ((2 * n - 1) * T * h * ((2 * n - 1) * T * h)) with ((2 * n - 1) * T * ((2 * n - 1) * T) * (h * h)) in X by ring. apply Z.mul_le_mono_pos_r in X; [exact X|clear - H0; nia]. }
    split; [|exact (FR (EV (EV1 Z3)))]. rewrite Z3, Z2. ring.
Qed.

(* ---------- the machine ---------- *)

Lemma binary_step E v op x y st : current v = Some (instruction_of op) -> v_stack v = y :: x :: st ->
  (length st < 16)%nat -> gives E v (calculate op x y :: st) (v_sstack v).
Proof.
  intros C S L. eapply gives_intro; [exact C|].
  assert (X : forall f, binary f v = (Ok true, set_sstack (v_sstack v) (set_stack (f x y :: st) v))).
  { intros f. unfold binary. rewrite (bind_pop _ v y (x :: st) S), (bind_pop _ _ x st) by reflexivity.
    unfold bind. rewrite push_room by exact L. cbn. unfold ret. destruct v. reflexivity. }
  destruct op; exact (X _).
Qed.

Definition apply_function (f : unary_function) : num -> num :=
  match f with
  | Negation => fneg | Abs => fabs | Int => ffloor | Sqr => fsqrt
  | Sgn => fun x => if fltb x fzero then fofZ (-1) else if fgtb x fzero then fone else x
  end.
Lemma unary_step E v f x st : current v = Some (function_code f) -> v_stack v = x :: st ->
  (length st < 16)%nat -> gives E v (apply_function f x :: st) (v_sstack v).
Proof.
  intros C S L. eapply gives_intro; [exact C|].
  assert (X : forall g, unary g v = (Ok true, set_sstack (v_sstack v) (set_stack (g x :: st) v))).
  { intros g. unfold unary. rewrite (bind_pop _ v x st S). unfold bind. rewrite push_room by exact L. cbn. unfold ret. destruct v. reflexivity. }
  destruct f; exact (X _).
Qed.

Theorem binary_gives E v op x y st : current v = Some (instruction_of op) -> v_stack v = y :: x :: st -> (length st < 16)%nat ->
  double x -> double y -> x <> S754_nan -> y <> S754_nan -> ~ is_special op x y ->
  exists r, result op x y r /\ gives E v (r :: st) (v_sstack v).
Proof.
  intros C S L X Y NX NY NS. exists (calculate op x y). split; [apply calculate_result; assumption|apply binary_step; assumption].
Qed.

Lemma function_of f x a : double x -> units x = Some a -> function_result f x a (apply_function f x).
Proof.
  intros D U. pose proof unit_pos as UP. destruct f; cbn [function_result apply_function].
  - split; [split; [apply fneg_double; exact D|]|]; destruct x as [s|s| |s m e]; cbn [fneg SFopp units negative option_map] in *; try discriminate U; injection U as <-; try reflexivity.
    destruct s; cbn [negb cond_Zopp]; f_equal; ring.
  - split; [split; [apply fabs_double; exact D|]|]; destruct x as [s|s| |s m e]; cbn [fabs SFabs units negative option_map] in *; try discriminate U; injection U as <-; try reflexivity.
    f_equal. rewrite Z.abs_mul, (Z.abs_eq (2 ^ (e + 1074))) by (apply Z.pow_nonneg; lia). destruct s; reflexivity.
  - split; [apply ffloor_double; exact D|]. exists (a / UNIT). split; [apply ffloor_units; assumption|]. generalize dependent UNIT. intros u UP. pose proof (Z.mul_div_le a u UP). pose proof (Z.mul_succ_div_gt a u UP). lia.
  - destruct x as [s|s| |s m e]; try discriminate U.
    + injection U as <-. split; [lia|]. split; [reflexivity|lia].
    + destruct (finite_signed _ _ _ D) as (N0 & N1 & _). cbn [units] in U. injection U as U. rewrite U in N0, N1. clear U.
      destruct s; (split; [intros A; try lia|split; [intros A; lia|intros A; try lia]]); vm_compute; reflexivity.
  - destruct x as [s|s| |s m e]; try discriminate U.
    + injection U as <-. split; [lia|]. split; [reflexivity|lia].
    + destruct (finite_signed _ _ _ D) as (N0 & N1 & _). cbn [units] in U. injection U as U. rewrite U in N0, N1.
      destruct s; (split; [intros A; try lia|split; [intros A; lia|intros A; try lia]]); [reflexivity|]. rewrite <- U. exact (root_result m e D).
Qed.

Theorem unary_gives E v f x st a : current v = Some (function_code f) -> v_stack v = x :: st -> (length st < 16)%nat -> double x -> units x = Some a ->
  exists r, function_result f x a r /\ gives E v (r :: st) (v_sstack v).
Proof.
  intros C S L X U. exists (apply_function f x). split; [apply function_of; assumption|apply unary_step; assumption].
Qed.
Theorem unary_infinite E v f s st : current v = Some (function_code f) -> v_stack v = S754_infinity s :: st -> (length st < 16)%nat ->
  gives E v (function_infinity f s :: st) (v_sstack v).
Proof.
  intros C S L. assert (X : function_infinity f s = apply_function f (S754_infinity s)) by (destruct f, s; reflexivity).
  rewrite X. apply unary_step; assumption.
Qed.
Theorem unary_nan E v f st : current v = Some (function_code f) -> v_stack v = S754_nan :: st -> (length st < 16)%nat ->
  gives E v (S754_nan :: st) (v_sstack v).
Proof.
  intros C S L. assert (X : S754_nan = apply_function f S754_nan) by (destruct f; reflexivity).
  rewrite X at 1. apply unary_step; assumption.
Qed.

Lemma root_order x y a c d : double x -> double y -> units x = Some c -> units y = Some d -> 0 <= c -> c < d ->
  nearest_root x a -> nearest_root y a -> False.
Proof.
  intros DX DY UX UY C0 L (c' & [_ UX'] & _ & HX) (d' & [_ UY'] & _ & HY). rewrite UX in UX'. injection UX' as <-. rewrite UY in UY'. injection UY' as <-.
  destruct (HX y d DY UY ltac:(lia)) as [A _]. specialize (A L). destruct (HY x c DX UX C0) as [_ B]. specialize (B L).
  rewrite (Z.add_comm d c) in B. destruct A as [A|[A EX]], B as [B|[B EY]]; try lia.
  destruct (even_gap x y c d DX DY UX UY ltac:(lia) EX EY) as (z & g & DZ & UZ & G). destruct (HX z g DZ UZ ltac:(lia)) as [H _]. specialize (H ltac:(lia)).
  rewrite A in H. clear - H C0 G. nia.
Qed.
Lemma root_unique x y a : 0 < a -> nearest_root x a -> nearest_root y a -> x = y.
Proof.
  intros A HX HY. pose proof HX as (c & [DX UX] & C0 & X). pose proof HY as (d & [DY UY] & D0 & _).
  destruct (Z.lt_trichotomy c d) as [L|[E|L]]; [exfalso; exact (root_order x y a c d DX DY UX UY C0 L HX HY)| |exfalso; exact (root_order y x a d c DY DX UY UX D0 L HY HX)].
  subst d. apply (units_inj x y c DX DY UX UY). intros ->. destruct (X (S754_finite false 1 (-1074)) 1 eq_refl eq_refl ltac:(lia)) as [H _]. specialize (H ltac:(lia)).
  pose proof unit_pos as UP. generalize dependent UNIT. intros u H. clear - A H. intros. nia.
Qed.
(* the root of the square of a double is that double *)
Lemma root_exact x r a c : 0 < a -> nearest_root r a -> double x -> units x = Some c -> 0 <= c -> c * c = a * UNIT -> units r = Some c.
Proof.
  intros A (g & [DR UR] & G0 & H) DX UX C0 E. rewrite UR. f_equal. destruct (H x c DX UX C0) as [H1 H2]. rewrite <- (Z.mul_assoc 4 a UNIT), <- E in H1, H2.
  destruct (Z.lt_trichotomy g c) as [L|[Q|L]]; [exfalso|exact Q|exfalso].
  - specialize (H1 L). clear - H1 L G0 C0. nia.
  - specialize (H2 L). clear - H2 L G0 C0. nia.
Qed.
Theorem function_unique f x a r r' : units x = Some a -> function_result f x a r -> function_result f x a r' -> units r = units r'.
Proof.
  intros U. pose proof unit_pos as UP. destruct f; cbn [function_result].
  - intros [[_ ->] _] [[_ ->] _]. reflexivity.
  - intros [[_ ->] _] [[_ ->] _]. reflexivity.
  - intros [_ (z & Z1 & Z2)] [_ (w & W1 & W2)]. rewrite Z1, W1. f_equal. f_equal. generalize dependent UNIT. intros u. intros. nia.
  - intros (A & B & C) (A' & B' & C'). destruct (Z.lt_trichotomy a 0) as [L|[L|L]]; [rewrite (A L), (A' L)|rewrite (B L), (B' L)|rewrite (C L), (C' L)]; reflexivity.
  - intros (A & B & C) (A' & B' & C'). destruct (Z.lt_trichotomy a 0) as [L|[L|L]]; [rewrite (A L), (A' L)|rewrite (B L), (B' L)|rewrite (root_unique r r' a L (C L) (C' L))]; reflexivity.
Qed.

Theorem binary_special E v op x y st : current v = Some (instruction_of op) -> v_stack v = y :: x :: st -> (length st < 16)%nat ->
  double x -> double y -> is_special op x y ->
  gives E v (match special op x y with Some r => r | None => S754_nan end :: st) (v_sstack v).
Proof. intros C S L X Y NS. rewrite <- (calculate_special op x y X Y NS). apply binary_step; assumption. Qed.
Theorem binary_nan E v op x y st : current v = Some (instruction_of op) -> v_stack v = y :: x :: st -> (length st < 16)%nat ->
  x = S754_nan \/ y = S754_nan -> gives E v (S754_nan :: st) (v_sstack v).
Proof.
  intros C S L H. assert (X : S754_nan = calculate op x y) by (destruct H as [-> | ->]; [destruct op; reflexivity|destruct op, x; reflexivity]).
  rewrite X at 1. apply binary_step; assumption.
Qed.
