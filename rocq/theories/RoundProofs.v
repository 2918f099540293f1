(* Rounding gives the nearest double (C32). *)
From Coq Require Import Lia ZifyBool ZifyNat ZifyN SpecFloat.
From Verif Require Import Base BaseLemmas Num NumSpec NumLemmas DoubleProofs TextNumSpec.
Local Open Scope Z_scope.

(* the record is N/D with what is cut off *)
Definition stands (N D : Z) (t : shr_record) : Prop :=
  shr_m t = N / D /\ shr_r t = (D <=? 2 * (N mod D)) /\ shr_s t = negb (2 * (N mod D) =? 0) && negb (2 * (N mod D) =? D).
Lemma shr_1_parts t : 0 <= shr_m t -> shr_1 t = Build_shr_record (shr_m t / 2) (Z.odd (shr_m t)) (shr_r t || shr_s t).
Proof. destruct t as [[|[p|p|]|p] r s]; cbn [shr_m shr_r shr_s]; intros H; try reflexivity; try lia; cbn [shr_1]; f_equal; lia. Qed.
Lemma stands_shr N D t : 0 <= N -> 0 < D -> stands N D t -> stands N (2 * D) (shr_1 t).
Proof.
  intros HN HD (M & R & S). assert (M0 : 0 <= shr_m t) by (rewrite M; apply Z.div_pos; lia). rewrite (shr_1_parts t M0). unfold stands. cbn [shr_m shr_r shr_s].
  pose proof (Z.div_mod N D ltac:(lia)) as DM. pose proof (Z.mod_pos_bound N D HD) as F. set (f := N mod D) in *. rewrite M. set (q := N / D) in *. clearbody q f.
  assert (Q2 : N / (2 * D) = q / 2). { symmetry. apply (Z.div_unique N (2 * D) (q / 2) ((q mod 2) * D + f)); [left; assert (0 <= q mod 2 < 2) by (apply Z.mod_pos_bound; lia); nia|]. pose proof (Z.div_mod q 2 ltac:(lia)). nia. }
  assert (R2 : N mod (2 * D) = (q mod 2) * D + f). { rewrite Z.mod_eq by lia. rewrite Q2. pose proof (Z.div_mod q 2 ltac:(lia)). nia. }
  rewrite Q2, R2. split; [reflexivity|]. rewrite R, S, Zodd_mod. assert (B : q mod 2 = 0 \/ q mod 2 = 1) by (pose proof (Z.mod_pos_bound q 2 ltac:(lia)); lia).
  destruct B as [-> | ->]; [change (Zeq_bool 0 1) with false|change (Zeq_bool 1 1) with true]; rewrite ?Z.mul_0_l, ?Z.mul_1_l, ?Z.add_0_l; clear - F HD; split; lia.
Qed.
Lemma stands_iter N p : 0 <= N -> forall D t, 0 < D -> stands N D t -> stands N (D * 2 ^ Zpos p) (SpecFloat.iter_pos shr_1 p t).
Proof.
  intros HN. induction p as [p IH|p IH|]; intros D t HD S; cbn [SpecFloat.iter_pos].
  - rewrite (Pos2Z.inj_xI p). replace (D * 2 ^ (2 * Zpos p + 1)) with (2 * D * 2 ^ Zpos p * 2 ^ Zpos p) by (rewrite Z.pow_add_r, Z.pow_1_r by lia; replace (2 * Zpos p) with (Zpos p + Zpos p) by lia; rewrite Z.pow_add_r by lia; ring).
    assert (0 < 2 ^ Zpos p) by (apply Z.pow_pos_nonneg; lia). apply IH; [nia|]. apply IH; [lia|]. apply stands_shr; assumption.
  - rewrite (Pos2Z.inj_xO p). replace (D * 2 ^ (2 * Zpos p)) with (D * 2 ^ Zpos p * 2 ^ Zpos p) by (replace (2 * Zpos p) with (Zpos p + Zpos p) by lia; rewrite Z.pow_add_r by lia; ring).
    assert (0 < 2 ^ Zpos p) by (apply Z.pow_pos_nonneg; lia). apply IH; [nia|]. apply IH; assumption.
  - rewrite Z.pow_1_r, Z.mul_comm. apply stands_shr; assumption.
Qed.
Lemma stands_shift N D t e k : 0 <= N -> 0 < D -> 0 <= k -> stands N D t -> stands N (D * 2 ^ k) (fst (shr t e k)) /\ snd (shr t e k) = e + k.
Proof.
  intros HN HD HK S. destruct k as [|p|p]; [|cbn [shr fst snd]|lia].
  - cbn [shr fst snd]. rewrite Z.pow_0_r, Z.mul_1_r, Z.add_0_r. auto.
  - split; [apply stands_iter; assumption|reflexivity].
Qed.
(* rounding to the nearest integer, to the even one in the middle *)
Lemma stands_round N D t : 0 <= N -> 0 < D -> stands N D t ->
  let q := round_nearest_even (shr_m t) (loc_of_shr_record t) in
  2 * Z.abs (q * D - N) <= D /\ (2 * Z.abs (q * D - N) = D -> Z.even q = true).
Proof.
  intros HN HD (M & R & S). destruct t as [m r s]. cbn [shr_m shr_r shr_s loc_of_shr_record] in *.
  pose proof (Z.div_mod N D ltac:(lia)) as DM. pose proof (Z.mod_pos_bound N D HD) as F. set (f := N mod D) in *. rewrite <- M in DM. clearbody f. clear M.
  assert (E : N = m * D + f) by lia. clear DM. subst N. cbv zeta. replace (m * D - (m * D + f)) with (- f) by ring. destruct r, s; cbn [round_nearest_even].
  - replace ((m + 1) * D - (m * D + f)) with (D - f) by ring. lia.
  - destruct (Z.even m) eqn:V; [replace (m * D - (m * D + f)) with (- f) by ring; rewrite V; lia|]. replace ((m + 1) * D - (m * D + f)) with (D - f) by ring. split; [lia|]. intros _. rewrite Z.even_add, V. reflexivity.
  - replace (m * D - (m * D + f)) with (- f) by ring. lia.
  - replace (m * D - (m * D + f)) with (- f) by ring. lia.
Qed.

(* what rounding gives: q places of the size 2^e1 *)
Record rounded (s : bool) (N D e : Z) (x : num) (q e1 : Z) : Prop := {
  rd_low : -1074 <= e1;
  rd_exp : e <= e1;
  rd_near : 2 * Z.abs (q * (D * 2 ^ (e1 - e)) - N) <= D * 2 ^ (e1 - e);
  rd_even : 2 * Z.abs (q * (D * 2 ^ (e1 - e)) - N) = D * 2 ^ (e1 - e) -> Z.even q = true;
  rd_top : 0 <= q <= 2 ^ 53;
  rd_full : -1074 < e1 -> 2 ^ 52 * (D * 2 ^ (e1 - e)) <= N;
  rd_sign : negative x = Some s;
  rd_frac : Z.even q = true -> even_fraction x;
  rd_value : (x = S754_infinity s /\ (971 < e1 \/ (e1 = 971 /\ q = 2 ^ 53))) \/
             (units x = Some (cond_Zopp s (q * 2 ^ (e1 + 1074))) /\ (e1 < 971 \/ (e1 = 971 /\ q < 2 ^ 53)))
}.
Lemma round_aux_rounded s m e l N D : 0 <= N -> 0 < D -> stands N D (shr_record_of_loc m l) -> e <= fexp 53 1024 (Zdigits2 m + e) ->
  exists q e1, rounded s N D e (binary_round_aux 53 1024 s m e l) q e1.
Proof.
  intros HN HD ST F. pose proof ST as (MM & _). rewrite record_of_loc in MM. assert (M : 0 <= m) by (rewrite MM; apply Z.div_pos; lia). unfold binary_round_aux, shr_fexp. set (k := fexp 53 1024 (Zdigits2 m + e) - e).
  assert (K : 0 <= k) by (unfold k; lia).
  pose proof (shr_div (shr_record_of_loc m l) e k) as SD. rewrite record_of_loc in SD. specialize (SD M K).
  destruct (stands_shift N D _ e k HN HD K ST) as [ST1 _].
  destruct (shr (shr_record_of_loc m l) e k) as [r e1]. cbn [fst snd] in *. destruct SD as [R1 E1].
  assert (P : 0 < 2 ^ k) by (apply Z.pow_pos_nonneg; lia).
  assert (HD1 : 0 < D * 2 ^ k) by nia.
  destruct (stands_round N (D * 2 ^ k) r HN HD1 ST1) as [NE EV].
  set (q := round_nearest_even (shr_m r) (loc_of_shr_record r)) in *.
  assert (E1' : e1 = fexp 53 1024 (Zdigits2 m + e)) by (unfold k in E1; lia).
  assert (EM : -1074 <= e1) by (rewrite E1'; unfold fexp, emin; lia).
  assert (R0 : 0 <= shr_m r) by (rewrite R1; apply Z.div_pos; lia).
  pose proof (round_bound (shr_m r) (loc_of_shr_record r) R0) as Q. fold q in Q.
  pose proof (zdigits_nonneg m) as D0.
  assert (UB : shr_m r < 2 ^ 53).
  { rewrite R1. apply Z.div_lt_upper_bound; [lia|].
    destruct (Z.eq_dec m 0) as [->|]; [assert (0 < 2 ^ k * 2 ^ 53) by (apply Z.mul_pos_pos; lia); lia|].
    destruct (zdigits_bounds m) as [[_ U] _]; [lia|].
    apply Z.lt_le_trans with (1 := U). rewrite <- Z.pow_add_r by lia. apply Z.pow_le_mono_r; [lia|].
    unfold k, fexp. lia. }
  assert (LB : -1074 < e1 -> 2 ^ 52 <= shr_m r).
  { intros NN. assert (E2 : e1 = Zdigits2 m + e - 53) by (rewrite E1' in *; unfold fexp, emin in *; lia).
    rewrite R1. apply Z.div_le_lower_bound; [lia|].
    destruct (Z.eq_dec m 0) as [->|]; [cbn [Zdigits2] in *; lia|].
    destruct (zdigits_bounds m) as [[U _] _]; [lia|].
    rewrite <- Z.pow_add_r by lia. replace (k + 52) with (Zdigits2 m - 1) by lia. exact U. }
  assert (Q0 : 0 <= q) by lia. assert (Q53 : q <= 2 ^ 53) by lia.
  assert (K2 : 0 <= fexp 53 1024 (Zdigits2 q + e1) - e1).
  { unfold fexp, emin. destruct (Z.eq_dec e1 (-1074)); [lia|].
    assert (52 < Zdigits2 q) by (apply zdigits_ge; [lia|]; specialize (LB ltac:(lia)); lia). lia. }
  pose proof (shr_div (shr_record_of_loc q loc_Exact) e1 _ ltac:(exact Q0) K2) as SD. rewrite record_of_loc in SD.
  destruct (shr (shr_record_of_loc q loc_Exact) e1 _) as [r2 e2]. cbn [fst snd] in SD. destruct SD as [R2 E2].
  assert (KE : e1 - e = k) by lia. exists q, e1.
  assert (V : negative (match shr_m r2 with Z0 => S754_zero s | Zpos p => if Zle_bool e2 (1024 - 53) then S754_finite s p e2 else S754_infinity s | Zneg _ => S754_nan end) = Some s /\
    (Z.even q = true -> even_fraction (match shr_m r2 with Z0 => S754_zero s | Zpos p => if Zle_bool e2 (1024 - 53) then S754_finite s p e2 else S754_infinity s | Zneg _ => S754_nan end)) /\
    let x := match shr_m r2 with Z0 => S754_zero s | Zpos p => if Zle_bool e2 (1024 - 53) then S754_finite s p e2 else S754_infinity s | Zneg _ => S754_nan end in
    (x = S754_infinity s /\ (971 < e1 \/ (e1 = 971 /\ q = 2 ^ 53))) \/ (units x = Some (cond_Zopp s (q * 2 ^ (e1 + 1074))) /\ (e1 < 971 \/ (e1 = 971 /\ q < 2 ^ 53)))).
  { destruct (Z.eq_dec q (2 ^ 53)) as [QE|NQ].
    - rewrite QE in *. change (Zdigits2 (2 ^ 53)) with 54 in *. assert (E3 : fexp 53 1024 (54 + e1) - e1 = 1) by (unfold fexp, emin; lia). rewrite E3 in *.
      change (2 ^ 53 / 2 ^ 1) with (Zpos 4503599627370496) in R2. rewrite R2. cbv iota zeta. change (1024 - 53) with 971. destruct (Zle_bool e2 971) eqn:LE; cbn [negative units even_fraction].
      + apply Zle_bool_imp_le in LE. split; [reflexivity|]. split; [first [exact (fun _ => Logic.I) | exact (fun _ => eq_refl) | exact (fun H => H)]|]. right. split; [|lia]. f_equal. change (2 ^ 53) with (4503599627370496 * 2). subst e2. replace (e1 + 1 + 1074) with (1 + (e1 + 1074)) by lia. rewrite Z.pow_add_r, Z.pow_1_r by lia. destruct s; cbn [cond_Zopp]; ring.
      + assert (971 < e2) by (destruct (Z_lt_le_dec 971 e2); [assumption|]; apply Z.leb_le in l0; unfold Z.leb in l0; unfold Zle_bool in LE; congruence). split; [reflexivity|]. split; [first [exact (fun _ => Logic.I) | exact (fun _ => eq_refl) | exact (fun H => H)]|]. left. split; [reflexivity|]. lia.
    - assert (DQ : Zdigits2 q <= 53) by (apply zdigits_le; lia).
      assert (E3 : fexp 53 1024 (Zdigits2 q + e1) - e1 = 0) by (unfold fexp, emin in *; lia).
      rewrite E3 in *. rewrite Z.pow_0_r, Z.div_1_r in R2. rewrite R2. replace e2 with e1 by lia. destruct q as [|p|p] eqn:QP; [| |lia]; cbv zeta iota; cbn [negative units even_fraction].
      + split; [reflexivity|]. split; [first [exact (fun _ => Logic.I) | exact (fun _ => eq_refl) | exact (fun H => H)]|]. right. split; [destruct s; reflexivity|]. destruct (Z_lt_le_dec e1 971); [lia|]. exfalso. specialize (LB ltac:(lia)). lia.
      + change (1024 - 53) with 971. destruct (Zle_bool e1 971) eqn:LE; cbn [negative units even_fraction].
        * apply Zle_bool_imp_le in LE. split; [reflexivity|]. split; [first [exact (fun _ => Logic.I) | exact (fun _ => eq_refl) | exact (fun H => H)]|]. right. split; [destruct s; cbn [cond_Zopp]; f_equal; ring|lia].
        * assert (971 < e1) by (destruct (Z_lt_le_dec 971 e1); [assumption|]; apply Z.leb_le in l0; unfold Z.leb in l0; unfold Zle_bool in LE; congruence). split; [reflexivity|]. split; [first [exact (fun _ => Logic.I) | exact (fun _ => eq_refl) | exact (fun H => H)]|]. left. split; [reflexivity|lia]. }
  destruct V as (V1 & V3 & V2). constructor; rewrite ?KE; try assumption; try lia.
  intros H. specialize (LB H). destruct ST1 as (S1 & _). rewrite S1 in LB. pose proof (Z.mul_div_le N (D * 2 ^ k) HD1). nia.
Qed.

(* ---------- nearest ---------- *)

Lemma scaled_le c a b : 0 < c -> c * a <= c * b -> a <= b.
Proof. intros C H. apply Z.mul_le_mono_pos_l in H; assumption. Qed.
Lemma finite_multiple y b e1 : double y -> units y = Some b -> -1074 <= e1 ->
  (exists j, b = j * 2 ^ (e1 + 1074)) \/ (-1074 < e1 /\ Z.abs b < 2 ^ 52 * 2 ^ (e1 + 1074)).
Proof.
  intros DY UY L. destruct y as [s|s| |s m e]; try discriminate UY; cbn [units] in UY; injection UY as <-; [left; exists 0; lia|].
  apply valid_finite in DY as (F & _ & E). destruct (Z_le_gt_dec e1 e) as [LE|GT].
  - left. exists (cond_Zopp s (Zpos m) * 2 ^ (e - e1)). rewrite <- Z.mul_assoc, <- Z.pow_add_r by lia. f_equal. f_equal. lia.
  - right. split; [lia|]. assert (B : Zpos m < 2 ^ 53). { destruct (digits_bounds m) as [_ U]. apply Z.lt_le_trans with (1 := U). apply Z.pow_le_mono_r; [lia|]. unfold fexp in F. lia. }
    assert (P : 0 < 2 ^ (e + 1074)) by (apply Z.pow_pos_nonneg; lia). replace (Z.abs (cond_Zopp s (Zpos m) * 2 ^ (e + 1074))) with (Zpos m * 2 ^ (e + 1074)) by (rewrite Z.abs_mul, (Z.abs_eq (2 ^ _)) by lia; destruct s; reflexivity).
    apply Z.lt_le_trans with (2 ^ 53 * 2 ^ (e + 1074)); [apply Z.mul_lt_mono_pos_r; assumption|]. change (2 ^ 53) with (2 ^ 52 * 2 ^ 1). rewrite <- Z.mul_assoc. apply Z.mul_le_mono_nonneg_l; [lia|]. rewrite <- Z.pow_add_r by lia. apply Z.pow_le_mono_r; lia.
Qed.
(* an integer next to v/g is at least as near as any other *)
Lemma next_integer q j g d v : 0 < g -> 0 < d -> 2 * Z.abs (q * g * d - v) <= g * d -> j <> q ->
  Z.abs (q * g * d - v) < Z.abs (j * g * d - v) \/ (Z.abs (q * g * d - v) = Z.abs (j * g * d - v) /\ 2 * Z.abs (q * g * d - v) = g * d).
Proof.
  intros G D H N. assert (GD : 0 < g * d) by nia. set (h := g * d) in *. replace (q * g * d) with (q * h) in * by (unfold h; ring). replace (j * g * d) with (j * h) by (unfold h; ring).
  clearbody h. assert (h <= Z.abs (j * h - q * h)) by (rewrite <- Z.mul_sub_distr_r, Z.abs_mul, (Z.abs_eq h) by lia; assert (1 <= Z.abs (j - q)) by lia; nia). lia.
Qed.
Lemma nearest_pos q e1 d v y b : 0 < d -> -1074 <= e1 -> 2 * Z.abs (q * 2 ^ (e1 + 1074) * d - v) <= 2 ^ (e1 + 1074) * d -> (-1074 < e1 -> 2 ^ 52 * (2 ^ (e1 + 1074) * d) <= v) ->
  double y -> units y = Some b -> b <> q * 2 ^ (e1 + 1074) ->
  Z.abs (q * 2 ^ (e1 + 1074) * d - v) < Z.abs (b * d - v) \/ (Z.abs (q * 2 ^ (e1 + 1074) * d - v) = Z.abs (b * d - v) /\ 2 * Z.abs (q * 2 ^ (e1 + 1074) * d - v) = 2 ^ (e1 + 1074) * d).
Proof.
  intros HD L NE FU DY UY BN. assert (G : 0 < 2 ^ (e1 + 1074)) by (apply Z.pow_pos_nonneg; lia). destruct (finite_multiple y b e1 DY UY L) as [(j & ->)|[E B]].
  - apply next_integer; try assumption. intros ->. apply BN. reflexivity.
  - specialize (FU E). set (g := 2 ^ (e1 + 1074)) in *. clearbody g. assert (X : Z.abs (q * g * d - v) <= Z.abs (2 ^ 52 * g * d - v)).
    { destruct (Z.eq_dec (2 ^ 52) q) as [<-|NQ]; [apply Z.le_refl|]. pose proof (next_integer q (2 ^ 52) g d v G HD NE NQ). lia. }
    rewrite Z.mul_assoc in FU. set (h := 2 ^ 52 * g) in *. clearbody h. assert (b * d < h * d) by nia. lia.
Qed.
Lemma rescale q G d n U D T N K C : 0 < G -> 0 < d -> 0 < U -> 0 < D -> 0 < T -> 0 < K -> 0 < C -> T * C * U = G * K -> n * D * K = N * d * C ->
  2 * Z.abs (q * (D * T) - N) <= D * T -> 2 * Z.abs (q * G * d - n * U) <= G * d /\
  (2 * Z.abs (q * G * d - n * U) = G * d -> 2 * Z.abs (q * (D * T) - N) = D * T) /\ (forall z, z * (D * T) <= N -> z * (G * d) <= n * U).
Proof.
  intros GP Hd UP HD TP KP CP GE EQ NE. set (c1 := D * K). set (c2 := d * C * U).
  assert (C1 : 0 < c1) by (unfold c1; apply Z.mul_pos_pos; assumption). assert (C2 : 0 < c2) by (unfold c2; repeat apply Z.mul_pos_pos; assumption).
  assert (NU : c1 * (n * U) = c2 * N) by (unfold c1, c2; transitivity (N * d * C * U); [rewrite <- EQ; ring|ring]).
  assert (GD : c1 * (G * d) = c2 * (D * T)) by (unfold c1, c2; transitivity (D * d * (G * K)); [ring|]; rewrite <- GE; ring).
  assert (XE : c1 * (q * G * d - n * U) = c2 * (q * (D * T) - N)) by (rewrite !Z.mul_sub_distr_l, NU; f_equal; transitivity (q * (c1 * (G * d))); [ring|rewrite GD; ring]).
  assert (XA : c1 * Z.abs (q * G * d - n * U) = c2 * Z.abs (q * (D * T) - N)).
  { transitivity (Z.abs (c1 * (q * G * d - n * U))); [rewrite Z.abs_mul, (Z.abs_eq c1) by lia; reflexivity|]. rewrite XE, Z.abs_mul, (Z.abs_eq c2) by lia. reflexivity. }
  clearbody c1 c2. set (X := Z.abs (q * G * d - n * U)) in *. set (Y := Z.abs (q * (D * T) - N)) in *. clearbody X Y. split; [|split].
  - apply (scaled_le c1); [exact C1|]. rewrite GD. replace (c1 * (2 * X)) with (2 * (c1 * X)) by ring. rewrite XA. replace (2 * (c2 * Y)) with (c2 * (2 * Y)) by ring. apply Z.mul_le_mono_nonneg_l; lia.
  - intros H. apply (Z.mul_cancel_l _ _ c2); [lia|]. rewrite <- GD, <- H. replace (c1 * (2 * X)) with (2 * (c1 * X)) by ring. rewrite XA. ring.
  - intros z H. apply (scaled_le c1); [exact C1|]. rewrite NU. replace (c1 * (z * (G * d))) with (z * (c1 * (G * d))) by ring. rewrite GD. replace (z * (c2 * (D * T))) with (c2 * (z * (D * T))) by ring. apply Z.mul_le_mono_nonneg_l; lia.
Qed.
(* where the largest double ends, h * d being half a place there *)
Lemma top_below q w h' : 0 < w -> 0 <= q <= 2 ^ 53 -> h' <= w -> forall v, 2 * Z.abs (q * h' - v) <= h' -> v < (2 ^ 54 - 1) * w.
Proof. intros W Q H v NE. assert (q * h' <= 2 ^ 53 * w) by nia. lia. Qed.
Lemma top_at q w v : 0 < w -> 0 <= q < 2 ^ 53 -> 2 * Z.abs (q * (2 * w) - v) <= 2 * w -> (2 * Z.abs (q * (2 * w) - v) = 2 * w -> Z.even q = true) -> v < (2 ^ 54 - 1) * w.
Proof.
  intros W Q NE EV. destruct (Z_lt_le_dec v ((2 ^ 54 - 1) * w)) as [L|L]; [exact L|exfalso]. assert (QV : q = 2 ^ 53 - 1) by nia. subst q. specialize (EV ltac:(lia)). discriminate EV.
Qed.
Lemma top_over w v : 0 < w -> 2 * Z.abs (2 ^ 53 * (2 * w) - v) <= 2 * w -> (2 ^ 54 - 1) * w <= v.
Proof. lia. Qed.
Lemma big_bound n d : 0 < d -> ((2 ^ 1024 - 2 ^ 970) * d <= n <-> (2 ^ 54 - 1) * (2 ^ 2044 * d) <= n * UNIT).
Proof.
  intros D. pose proof unit_pos as UP. unfold UNIT in *. replace (2 ^ 1024) with (2 ^ 54 * 2 ^ 970) by (rewrite <- Z.pow_add_r by lia; f_equal; lia). replace (2 ^ 2044) with (2 ^ 970 * 2 ^ 1074) by (rewrite <- Z.pow_add_r by lia; f_equal; lia).
  set (u := 2 ^ 1074) in *. set (b := 2 ^ 970). clearbody u b. replace ((2 ^ 54 - 1) * (b * u * d)) with ((2 ^ 54 * b - b) * d * u) by ring. apply Z.mul_le_mono_pos_r. exact UP.
Qed.
Lemma rounded_nearest s N D e x q e1 n d k : 0 < d -> 0 <= n -> 0 < D -> 0 <= N -> 0 <= k -> 0 <= e + k ->
  n * D * 2 ^ k = N * d * 2 ^ (e + k) -> double x -> rounded s N D e x q e1 -> nearest x s n d.
Proof.
  intros Hd Hn HD HN HK HE EQ DX [LO EX NE EV TOP FU SG FR VA]. split; [exact DX|]. split; [exact SG|].
  destruct (rescale q (2 ^ (e1 + 1074)) d n UNIT D (2 ^ (e1 - e)) N (2 ^ k) (2 ^ (e + k))) as (NE' & EV0 & SC); try assumption; try exact unit_pos; try (apply Z.pow_pos_nonneg; lia).
  { unfold UNIT. rewrite <- !Z.pow_add_r by lia. f_equal. lia. }
  assert (EV' : 2 * Z.abs (q * 2 ^ (e1 + 1074) * d - n * UNIT) = 2 ^ (e1 + 1074) * d -> Z.even q = true) by (intros H; exact (EV (EV0 H))).
  assert (FU' : -1074 < e1 -> 2 ^ 52 * (2 ^ (e1 + 1074) * d) <= n * UNIT) by (intros H; exact (SC _ (FU H))).
  clear EV0 SC NE EV FU EQ. pose proof (big_bound n d Hd) as BB. set (w := 2 ^ 2044 * d) in *.
  assert (W : 0 < w) by (unfold w; apply Z.mul_pos_pos; [apply Z.pow_pos_nonneg; lia|exact Hd]).
  assert (AT : e1 = 971 -> 2 ^ (e1 + 1074) * d = 2 * w) by (intros ->; unfold w; replace (971 + 1074) with (1 + 2044) by lia; rewrite Z.pow_add_r, Z.pow_1_r by lia; ring).
  assert (BELOW : e1 < 971 -> 2 ^ (e1 + 1074) * d <= w) by (intros H; unfold w; apply Z.mul_le_mono_nonneg_r; [lia|]; apply Z.pow_le_mono_r; lia).
  assert (ABOVE : 971 < e1 -> 4 * w <= 2 ^ (e1 + 1074) * d).
  { intros H. unfold w. replace (4 * (2 ^ 2044 * d)) with (2 ^ 2046 * d) by (replace 2046 with (2 + 2044) by lia; rewrite Z.pow_add_r by lia; ring). apply Z.mul_le_mono_nonneg_r; [lia|]. apply Z.pow_le_mono_r; lia. }
  destruct ((2 ^ 1024 - 2 ^ 970) * d <=? n) eqn:LB.
  - apply Z.leb_le, BB in LB. destruct VA as [[-> _]|[UX VA]]; [reflexivity|exfalso]. rewrite <- Z.mul_assoc in NE', EV'. destruct VA as [E9|[E9 QL]].
    + pose proof (top_below q w _ W TOP (BELOW E9) _ NE'). lia.
    + rewrite (AT E9) in *. pose proof (top_at q w _ W ltac:(lia) NE' EV'). lia.
  - apply Z.leb_gt in LB. destruct VA as [[-> VA]|[UX VA]].
    + exfalso. assert (GE : (2 ^ 54 - 1) * w <= n * UNIT); [|apply BB in GE; lia]. rewrite <- Z.mul_assoc in NE'. destruct VA as [VA|[VA QV]].
      * specialize (ABOVE VA). specialize (FU' ltac:(lia)). set (g := 2 ^ (e1 + 1074) * d) in *. clearbody g w. lia.
      * rewrite (AT VA), QV in NE'. exact (top_over w _ W NE').
    + eexists. split; [exact UX|]. intros y b DY UY BN. cbv beta zeta. destruct s; cbn [cond_Zopp] in *.
      * assert (BN' : - b <> q * 2 ^ (e1 + 1074)) by (intros H; apply BN; lia). pose proof (nearest_pos q e1 d (n * UNIT) (fneg y) (- b) Hd LO NE' FU' (fneg_double y DY) (units_fneg y b UY) BN') as X.
        replace (- (q * 2 ^ (e1 + 1074)) * d - - n * UNIT) with (- (q * 2 ^ (e1 + 1074) * d - n * UNIT)) by ring. replace (b * d - - n * UNIT) with (- (- b * d - n * UNIT)) by ring. rewrite !Z.abs_opp. destruct X as [X|[X1 X2]]; [left; exact X|right; split; [exact X1|exact (FR (EV' X2))]].
      * destruct (nearest_pos q e1 d (n * UNIT) y b Hd LO NE' FU' DY UY BN) as [X|[X1 X2]]; [left; exact X|right; split; [exact X1|exact (FR (EV' X2))]].
Qed.

Lemma stands_exact m : stands m 1 (shr_record_of_loc m loc_Exact).
Proof. unfold stands. cbn [shr_record_of_loc shr_m shr_r shr_s]. rewrite Z.div_1_r, Z.mod_1_r. repeat split. Qed.
Lemma stands_new N D : 0 < D -> stands N D (shr_record_of_loc (N / D) (new_location D (N mod D))).
Proof.
  intros HD. pose proof (Z.mod_pos_bound N D HD) as F. unfold new_location, new_location_even, new_location_odd, stands. set (f := N mod D) in *. set (q := N / D). clearbody f q.
  destruct (Z.even D) eqn:V; (destruct (Zeq_bool f 0) eqn:Z0; [apply Zeq_bool_eq in Z0; subst f; cbn [shr_record_of_loc shr_m shr_r shr_s]; repeat split; lia|apply Zeq_bool_neq in Z0]).
  - destruct (Z.compare_spec (2 * f) D); cbn [shr_record_of_loc shr_m shr_r shr_s]; repeat split; lia.
  - assert (2 * f <> D) by (intros H; rewrite <- H, Z.even_mul in V; discriminate V). destruct (Z.compare_spec (2 * f + 1) D); cbn [shr_record_of_loc shr_m shr_r shr_s]; repeat split; lia.
Qed.
Lemma ratio_nearest s n d : nearest (f_of_ratio s n d) s (Zpos n) (Zpos d).
Proof.
  pose proof (ratio_double s n d) as DX. unfold f_of_ratio, SFdiv_core_binary in *. rewrite !Z.add_0_r, Z.sub_0_r in *.
  set (e' := Z.min (fexp 53 1024 (Zdigits2 (Zpos n) - Zdigits2 (Zpos d))) 0) in *.
  set (k := 0 - e') in *. assert (K : 0 <= k) by (unfold k, e'; lia).
  set (m' := match k with Zpos _ => Z.shiftl (Zpos n) k | Z0 => Zpos n | Zneg _ => 0 end) in *.
  assert (P : 0 < 2 ^ k) by (apply Z.pow_pos_nonneg; lia).
  assert (M' : m' = Zpos n * 2 ^ k).
  { unfold m'. destruct k eqn:X; [rewrite Z.pow_0_r; lia|apply Z.shiftl_mul_pow2; lia|lia]. }
  clearbody m'.
  destruct (Z.div_eucl m' (Zpos d)) as [q r] eqn:DE. pose proof (Z_div_mod m' (Zpos d) ltac:(lia)) as DM. rewrite DE in DM.
  destruct DM as [EQ RB]. assert (QQ : q = m' / Zpos d) by (unfold Z.div; rewrite DE; reflexivity). assert (RR : r = m' mod Zpos d) by (unfold Z.modulo; rewrite DE; reflexivity).
  assert (N0 : 0 <= m') by (rewrite M'; nia).
  assert (DQ : Zdigits2 (Zpos n) + k - Zdigits2 (Zpos d) <= Zdigits2 q).
  { destruct (zdigits_bounds (Zpos n) ltac:(lia)) as [[L1 _] D1]. destruct (zdigits_bounds (Zpos d) ltac:(lia)) as [[_ U2] D2].
    pose proof (zdigits_nonneg q) as DQ0. destruct (Z_le_gt_dec (Zdigits2 (Zpos n) + k - Zdigits2 (Zpos d)) 0); [lia|].
    pose proof (zdigits_ge q (Zdigits2 (Zpos n) + k - Zdigits2 (Zpos d) - 1) ltac:(lia)) as G.
    assert (2 ^ (Zdigits2 (Zpos n) + k - Zdigits2 (Zpos d) - 1) <= q); [|lia].
    rewrite QQ. apply Z.div_le_lower_bound; [lia|].
    apply Z.le_trans with (2 ^ Zdigits2 (Zpos d) * 2 ^ (Zdigits2 (Zpos n) + k - Zdigits2 (Zpos d) - 1)).
    - apply Z.mul_le_mono_nonneg_r; [apply Z.pow_nonneg; lia|lia].
    - rewrite <- Z.pow_add_r by lia. replace (Zdigits2 (Zpos d) + (Zdigits2 (Zpos n) + k - Zdigits2 (Zpos d) - 1)) with (Zdigits2 (Zpos n) - 1 + k) by lia.
      rewrite Z.pow_add_r by lia. rewrite M'. apply Z.mul_le_mono_nonneg_r; lia. }
  rewrite RR, QQ in DX |- *. rewrite QQ in DQ. destruct (round_aux_rounded s (m' / Zpos d) e' (new_location (Zpos d) (m' mod Zpos d)) m' (Zpos d) N0 ltac:(lia) (stands_new m' (Zpos d) ltac:(lia))) as (q1 & e1 & R).
  { assert (E' : e' <= fexp 53 1024 (Zdigits2 (Zpos n) - Zdigits2 (Zpos d))) by (unfold e'; lia). unfold fexp in *. lia. }
  refine (rounded_nearest s m' (Zpos d) e' _ q1 e1 (Zpos n) (Zpos d) k ltac:(lia) ltac:(lia) ltac:(lia) N0 K _ _ DX R); [unfold k; lia|].
  replace (e' + k) with 0 by (unfold k; lia). rewrite Z.pow_0_r, M'. ring.
Qed.
Lemma round_nearest s p e : nearest_scaled (binary_round 53 1024 s p e) s (Zpos p) 2 e.
Proof.
  pose proof (round_double s p e) as DX. unfold binary_round, shl_align in *. set (e' := fexp 53 1024 (Zpos (digits2_pos p) + e)) in *.
  assert (X : exists mz ez, (0 <= mz) /\ (let '(mz, ez) := match e' - e with Zneg d => (shift_pos d p, e') | _ => (p, e) end in binary_round_aux 53 1024 s (Zpos mz) ez loc_Exact) = binary_round_aux 53 1024 s mz ez loc_Exact /\
    ez <= e /\ mz = Zpos p * 2 ^ (e - ez) /\ ez <= fexp 53 1024 (Zdigits2 mz + ez)).
  { destruct (e' - e) as [|d|d] eqn:Y; [exists (Zpos p), e|exists (Zpos p), e|exists (Zpos (shift_pos d p)), e'].
    - split; [lia|]. split; [reflexivity|]. split; [lia|]. split; [rewrite Z.sub_diag, Z.pow_0_r; lia|]. cbn [Zdigits2]. fold e'. lia.
    - split; [lia|]. split; [reflexivity|]. split; [lia|]. split; [rewrite Z.sub_diag, Z.pow_0_r; lia|]. cbn [Zdigits2]. fold e'. lia.
    - split; [lia|]. split; [reflexivity|]. split; [lia|]. split; [replace (e - e') with (Zpos d) by lia; apply shift_pos_spec|]. cbn [Zdigits2]. rewrite (digits_shift p (shift_pos d p) (Zpos d)); [|lia|apply shift_pos_spec].
      replace (Zpos (digits2_pos p) + Zpos d + e') with (Zpos (digits2_pos p) + e) by lia. fold e'. lia. }
  destruct X as (mz & ez & M0 & RE & LE & MZ & FE). rewrite RE in *. clear RE.
  destruct (round_aux_rounded s mz ez loc_Exact mz 1 M0 ltac:(lia) (stands_exact mz) FE) as (q & e1 & R). unfold nearest_scaled. destruct (0 <=? e) eqn:E0.
  - apply Z.leb_le in E0. refine (rounded_nearest s mz 1 ez _ q e1 (Zpos p * 2 ^ e) 1 (Z.max 0 (- ez)) ltac:(lia) _ ltac:(lia) M0 ltac:(lia) ltac:(lia) _ DX R).
    + apply Z.mul_nonneg_nonneg; [lia|]. apply Z.pow_nonneg. lia.
    + rewrite MZ, !Z.mul_1_r, <- !Z.mul_assoc, <- !Z.pow_add_r by lia. f_equal. f_equal. lia.
  - apply Z.leb_gt in E0. refine (rounded_nearest s mz 1 ez _ q e1 (Zpos p) (2 ^ (- e)) (- ez) _ ltac:(lia) ltac:(lia) M0 ltac:(lia) ltac:(lia) _ DX R).
    + apply Z.pow_pos_nonneg; lia.
    + replace (ez + - ez) with 0 by lia. rewrite MZ, Z.pow_0_r, !Z.mul_1_r, <- !Z.mul_assoc, <- !Z.pow_add_r by lia. f_equal. f_equal. lia.
Qed.

Lemma nearest_zero neg n d : 0 < d -> 0 <= n -> 2 * n * UNIT <= d -> nearest (S754_zero neg) neg n d.
Proof.
  intros D N L. split; [reflexivity|]. split; [reflexivity|]. pose proof unit_pos as UP. assert (X : (2 ^ 1024 - 2 ^ 970) * d <=? n = false).
  { apply Z.leb_gt. assert (1 <= 2 ^ 1024 - 2 ^ 970) by (apply Z.leb_le; vm_compute; reflexivity). set (u := 2 ^ 1024 - 2 ^ 970) in *. clearbody u. set (v := UNIT) in *. clearbody v. nia. }
  rewrite X. exists 0. split; [reflexivity|]. intros y b _ _ B. cbv beta zeta. set (v := UNIT) in *. clearbody v. replace (0 * d - cond_Zopp neg n * v) with (- (cond_Zopp neg n * v)) by ring. rewrite Z.abs_opp.
  assert (A : Z.abs (cond_Zopp neg n * v) = n * v) by (rewrite Z.abs_mul, (Z.abs_eq v) by lia; destruct neg; cbn [cond_Zopp]; rewrite ?Z.abs_opp, Z.abs_eq by lia; reflexivity).
  assert (d <= Z.abs (b * d)) by (rewrite Z.abs_mul, (Z.abs_eq d) by lia; nia). assert (Q : n * v <= Z.abs (b * d - cond_Zopp neg n * v)) by lia. rewrite A. apply Z.le_lteq in Q as [Q|Q]; [left; exact Q|right; split; [exact Q|exact Logic.I]].
Qed.
Lemma nearest_infinite neg n d : 0 < d -> (2 ^ 1024 - 2 ^ 970) * d <= n -> nearest (S754_infinity neg) neg n d.
Proof. intros D L. split; [reflexivity|]. split; [reflexivity|]. apply Z.leb_le in L. rewrite L. reflexivity. Qed.
Lemma zero_scaled neg b e : 0 < b -> nearest_scaled (S754_zero neg) neg 0 b e.
Proof.
  intros B. unfold nearest_scaled. destruct (0 <=? e) eqn:E; [rewrite Z.mul_0_l; apply nearest_zero; lia|]. apply Z.leb_gt in E. apply nearest_zero; [apply Z.pow_pos_nonneg; lia|lia|]. rewrite Z.mul_0_r. apply Z.pow_nonneg. lia.
Qed.
Lemma big_double : 2 ^ 1024 - 2 ^ 970 <= 10 ^ 401.
Proof. apply Z.leb_le. vm_compute. reflexivity. Qed.
Lemma small_double : 2 * UNIT <= 10 ^ 401.
Proof. apply Z.leb_le. vm_compute. reflexivity. Qed.
Lemma scale10_nearest neg m k e : 0 <= k -> Z.of_N m < 10 ^ k -> nearest_scaled (scale10 neg m k e) neg (Z.of_N m) 10 e.
Proof.
  intros K M. destruct m as [|p]; [apply zero_scaled; lia|]. unfold scale10. change (Z.of_N (N.pos p)) with (Zpos p) in *. unfold nearest_scaled. destruct (400 <? e) eqn:E1.
  - apply Z.ltb_lt in E1. destruct (0 <=? e) eqn:E0; [|lia]. apply nearest_infinite; [lia|]. rewrite Z.mul_1_r. pose proof big_double as B. apply Z.le_trans with (1 := B). assert (10 ^ 401 <= 10 ^ e) by (apply Z.pow_le_mono_r; lia). set (u := 10 ^ 401) in *. set (w := 10 ^ e) in *. clearbody u w. nia.
  - apply Z.ltb_ge in E1. destruct (k + e <? -400) eqn:E2.
    + apply Z.ltb_lt in E2. destruct (0 <=? e) eqn:E0; [lia|]. apply nearest_zero; [apply Z.pow_pos_nonneg; lia|lia|]. replace (- e) with (401 + k + (- e - k - 401)) by lia. rewrite !Z.pow_add_r by lia.
      assert (1 <= 10 ^ (- e - k - 401)) by (apply (Z.pow_le_mono_r 10 0); lia). pose proof small_double as SD. pose proof unit_pos as UP. set (v := UNIT) in *. set (a := 10 ^ 401) in *. set (b := 10 ^ k) in *. set (c := 10 ^ (- e - k - 401)) in *. clearbody v a b c.
      apply Z.le_trans with (a * b); [|assert (0 < a * b) by nia; nia]. replace (2 * Zpos p * v) with ((2 * v) * Zpos p) by ring. apply Z.mul_le_mono_nonneg; lia.
    + destruct e as [|q|q].
      * cbn [Z.leb Z.compare]. rewrite Z.pow_0_r, Z.mul_1_r. apply ratio_nearest.
      * cbn [Z.leb Z.compare]. replace (Zpos p * 10 ^ Zpos q) with (Zpos (p * 10 ^ q)) by (rewrite Pos2Z.inj_mul, Pos2Z.inj_pow; reflexivity). apply ratio_nearest.
      * cbn [Z.leb Z.compare]. replace (10 ^ (- Zneg q)) with (Zpos (10 ^ q)) by (rewrite Pos2Z.inj_pow; reflexivity). apply ratio_nearest.
Qed.
Lemma scale2_nearest neg m e : nearest_scaled (scale2 neg m e) neg (Z.of_N m) 2 e.
Proof.
  destruct m as [|p]; [apply zero_scaled; lia|]. unfold scale2. change (Z.of_N (N.pos p)) with (Zpos p). destruct (Zpos (digits2_pos p) + e <? -1080) eqn:E; [|apply round_nearest].
  apply Z.ltb_lt in E. unfold nearest_scaled. destruct (0 <=? e) eqn:E0; [lia|]. apply Z.leb_gt in E0. apply nearest_zero; [apply Z.pow_pos_nonneg; lia|lia|]. destruct (digits_bounds p) as [_ B]. set (g := Zpos (digits2_pos p)) in *.
  apply Z.le_trans with (2 ^ 1 * 2 ^ g * 2 ^ 1074); [|rewrite <- !Z.pow_add_r by lia; apply Z.pow_le_mono_r; lia]. unfold UNIT. apply Z.mul_le_mono_nonneg_r; [apply Z.pow_nonneg; lia|]. lia.
Qed.
(* the nearest double to a double is that double *)
Lemma nearest_exact x neg n d y b : 0 < d -> 0 < n -> nearest x neg n d -> double y -> units y = Some b -> b * d = cond_Zopp neg n * UNIT -> x = y.
Proof.
  intros D N (DX & SG & H) DY UY E. pose proof unit_pos as UP.
  destruct ((2 ^ 1024 - 2 ^ 970) * d <=? n) eqn:L.
  - exfalso. apply Z.leb_le in L. apply (big_bound n d D) in L. destruct y as [s|s| |s m e]; try discriminate UY; cbn [units] in UY; injection UY as UY.
    + subst b. destruct neg; cbn [cond_Zopp] in E; nia.
    + apply valid_finite in DY as (F & E1 & _). assert (B : Zpos m < 2 ^ 53). { destruct (digits_bounds m) as [_ U]. apply Z.lt_le_trans with (1 := U). apply Z.pow_le_mono_r; [lia|]. unfold fexp in F. lia. }
      assert (A : n * UNIT = Zpos m * 2 ^ (e + 1074) * d). { rewrite <- UY in E. set (u := UNIT) in *. clearbody u. assert (P : 0 <= 2 ^ (e + 1074)) by (apply Z.pow_nonneg; lia). destruct s, neg; cbn [cond_Zopp] in E; nia. }
      rewrite A in L. assert (P : 2 ^ (e + 1074) <= 2 * 2 ^ 2044) by (replace (2 * 2 ^ 2044) with (2 ^ 2045) by (replace 2045 with (1 + 2044) by lia; rewrite Z.pow_add_r by lia; reflexivity); apply Z.pow_le_mono_r; lia).
      assert (P0 : 0 <= 2 ^ (e + 1074)) by (apply Z.pow_nonneg; lia). assert (P1 : 0 < 2 ^ 2044) by (apply Z.pow_pos_nonneg; lia). set (g := 2 ^ (e + 1074)) in *. set (w := 2 ^ 2044) in *. clearbody g w. assert (Zpos m * g <= (2 ^ 53 - 1) * (2 * w)) by nia. assert (Zpos m * g * d <= (2 ^ 54 - 2) * (w * d)) by nia. nia.
  - destruct H as (a & UX & NE). assert (AB : a = b). { destruct (Z.eq_dec b a) as [->|BN]; [reflexivity|]. specialize (NE y b DY UY BN). cbv beta zeta in NE. rewrite E, Z.sub_diag in NE. assert (a * d = cond_Zopp neg n * UNIT) by lia. apply (Z.mul_cancel_r a b d); lia. } subst a.
    apply (units_inj x y b DX DY UX UY). intros ->. destruct neg; cbn [cond_Zopp] in E; nia.
Qed.

(* between two doubles with even fractions there is another *)
Lemma even_gap x y a b : double x -> double y -> units x = Some a -> units y = Some b -> 0 <= a < b -> even_fraction x -> even_fraction y ->
  exists z c, double z /\ units z = Some c /\ a < c < b.
Proof.
  intros DX DY UX UY L EX EY.
  assert (G : forall z e, double z -> units z = Some (a + 2 ^ (e + 1074)) -> -1074 <= e -> (-1074 < e -> 2 ^ 52 * 2 ^ (e + 1074) <= a) -> (exists q, a = q * 2 ^ (e + 1074)) -> ~ even_fraction z -> exists z c, double z /\ units z = Some c /\ a < c < b).
  { intros z e DZ UZ E FU (q & QA) NZ. exists z, (a + 2 ^ (e + 1074)). split; [exact DZ|]. split; [exact UZ|]. assert (P : 0 < 2 ^ (e + 1074)) by (apply Z.pow_pos_nonneg; lia).
    assert (NB : b <> a + 2 ^ (e + 1074)). { intros ->. apply NZ. rewrite (units_inj z y _ DZ DY UZ UY ltac:(lia)). exact EY. }
    destruct (finite_multiple y b e DY UY E) as [(j & QB)|[E1 B]].
    - set (g := 2 ^ (e + 1074)) in *. clearbody g. subst a b. assert (q < j) by nia. assert (j <> q + 1) by (intros ->; apply NB; ring). nia.
    - specialize (FU E1). lia. }
  destruct x as [s|s| |s m e]; try discriminate UX; cbn [units] in UX; injection UX as UX.
  - subst a. apply (G (S754_finite false 1 (-1074)) (-1074)); [reflexivity|reflexivity|lia|lia|exists 0; reflexivity|intros H; discriminate H].
  - assert (S0 : s = false). { destruct s; [|reflexivity]. exfalso. apply valid_finite in DX as (_ & _ & E). assert (0 < 2 ^ (e + 1074)) by (apply Z.pow_pos_nonneg; lia). cbn [cond_Zopp] in UX. nia. }
    subst s. cbn [cond_Zopp] in UX. cbn [even_fraction] in EX. destruct m as [k|k|]; try discriminate EX. pose proof (valid_finite _ _ _ DX) as (F & _ & E).
    apply (G (S754_finite false (xI k) e) e); [exact DX| |exact E| |exists (Zpos (xO k)); symmetry; exact UX|intros H; discriminate H].
    + cbn [units cond_Zopp]. f_equal. rewrite <- UX. rewrite (Pos2Z.inj_xO k), (Pos2Z.inj_xI k). ring.
    + intros NE. rewrite <- UX. apply Z.mul_le_mono_nonneg_r; [apply Z.pow_nonneg; lia|]. destruct (digits_bounds (xO k)) as [LO _]. apply Z.le_trans with (2 := LO). apply Z.pow_le_mono_r; [lia|]. unfold fexp, emin in F. lia.
Qed.
Lemma negative_zero x s a : double x -> negative x = Some s -> units x = Some a -> 0 <= cond_Zopp s a /\ (a = 0 -> x = S754_zero s).
Proof.
  intros DX NX UX. destruct x as [t|t| |t m e]; try discriminate UX; cbn [negative units] in *; injection NX as <-; injection UX as <-.
  - split; [destruct t; cbn [cond_Zopp]; lia|reflexivity].
  - apply valid_finite in DX as (_ & _ & E). assert (P : 0 < 2 ^ (e + 1074)) by (apply Z.pow_pos_nonneg; lia). destruct t; cbn [cond_Zopp]; (split; [nia|intros H; exfalso; nia]).
Qed.
Lemma nearest_unique x y neg n d : 0 < d -> nearest x neg n d -> nearest y neg n d -> x = y.
Proof.
  intros D (DX & NX & HX) (DY & NY & HY). destruct ((2 ^ 1024 - 2 ^ 970) * d <=? n); [congruence|]. destruct HX as (a & UX & HX). destruct HY as (b & UY & HY).
  destruct (negative_zero x neg a DX NX UX) as [SX ZX]. destruct (negative_zero y neg b DY NY UY) as [SY ZY].
  destruct (Z.eq_dec a b) as [->|AB]; [destruct (Z.eq_dec b 0) as [B0|B0]; [rewrite (ZX B0), (ZY B0); reflexivity|exact (units_inj x y b DX DY UX UY B0)]|exfalso].
  pose proof (HX y b DY UY (not_eq_sym AB)) as H1. pose proof (HY x a DX UX AB) as H2. cbv beta zeta in *. set (v := cond_Zopp neg n * UNIT) in *. clearbody v.
  assert (OE : Z.abs (a * d - v) = Z.abs (b * d - v)) by lia. assert (EX : even_fraction x) by (destruct H1 as [H1|[_ H1]]; [lia|exact H1]). assert (EY : even_fraction y) by (destruct H2 as [H2|[_ H2]]; [lia|exact H2]). clear H1 H2.
  assert (BT : exists z c, double z /\ units z = Some c /\ (a < c < b \/ b < c < a)).
  { destruct neg; cbn [cond_Zopp] in SX, SY.
    - assert (EX' : even_fraction (fneg x)) by (destruct x; exact EX). assert (EY' : even_fraction (fneg y)) by (destruct y; exact EY). destruct (Z_lt_le_dec a b) as [LT|LE].
      + destruct (even_gap (fneg y) (fneg x) (- b) (- a) (fneg_double y DY) (fneg_double x DX) (units_fneg y b UY) (units_fneg x a UX) ltac:(lia) EY' EX') as (z & c & DZ & UZ & L). exists (fneg z), (- c). split; [exact (fneg_double z DZ)|]. split; [exact (units_fneg z c UZ)|]. left. lia.
      + destruct (even_gap (fneg x) (fneg y) (- a) (- b) (fneg_double x DX) (fneg_double y DY) (units_fneg x a UX) (units_fneg y b UY) ltac:(lia) EX' EY') as (z & c & DZ & UZ & L). exists (fneg z), (- c). split; [exact (fneg_double z DZ)|]. split; [exact (units_fneg z c UZ)|]. right. lia.
    - destruct (Z_lt_le_dec a b) as [LT|LE].
      + destruct (even_gap x y a b DX DY UX UY ltac:(lia) EX EY) as (z & c & DZ & UZ & L). exists z, c. split; [exact DZ|]. split; [exact UZ|]. left. exact L.
      + destruct (even_gap y x b a DY DX UY UX ltac:(lia) EY EX) as (z & c & DZ & UZ & L). exists z, c. split; [exact DZ|]. split; [exact UZ|]. right. exact L. }
  destruct BT as (z & c & DZ & UZ & L). assert (CA : c <> a) by lia. pose proof (HX z c DZ UZ CA) as H. cbv beta zeta in H. clear - D L OE H. nia.
Qed.
Lemma nearest_scaled_unique x y neg m b e : 0 < b -> nearest_scaled x neg m b e -> nearest_scaled y neg m b e -> x = y.
Proof. intros B. unfold nearest_scaled. destruct (0 <=? e) eqn:E; [apply nearest_unique; lia|]. apply nearest_unique. apply Z.pow_pos_nonneg; lia. Qed.
