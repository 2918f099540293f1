(* Six significant digits (C42). *)
From Coq Require Import Lia ZifyBool ZifyNat ZifyN SpecFloat.
From Verif Require Import Base Num NumSpec TextNumSpec FormatSpec BaseLemmas NumLemmas DoubleProofs RoundProofs BcodeModel VmModel VmSpec ControlProofs OpSpec OpProofs PrintSpec PrintProofs ValueSpec ValueProofs TextNumProofs ArithProofs.
Local Notation plain := TextNumSpec.plain.
Local Notation num := Num.num.
Local Open Scope list_scope.
Local Open Scope Z_scope.

Lemma ten_pos x : 0 <= x -> 0 < 10 ^ x.
Proof. intros H. apply Z.pow_pos_nonneg; lia. Qed.
Lemma two_pos x : 0 <= x -> 0 < 2 ^ x.
Proof. intros H. apply Z.pow_pos_nonneg; lia. Qed.

(* ---------- rounding to a whole number ---------- *)

Lemma div_even_spec a c : 0 < c -> 2 * Z.abs (div_even a c * c - a) <= c /\ (2 * Z.abs (div_even a c * c - a) = c -> Z.even (div_even a c) = true).
Proof.
  intros C. unfold div_even. pose proof (Z.div_mod a c ltac:(lia)) as M. pose proof (Z.mod_pos_bound a c C) as B. set (q := a / c) in *. set (r := a mod c) in *. clearbody q r.
  destruct (Z.compare_spec (2 * r) c) as [E|L|L].
  - destruct (Z.even q) eqn:EV.
    + split; [lia|intros _; exact EV].
    + split; [lia|intros _]. rewrite Z.even_add, EV. reflexivity.
  - split; lia.
  - split; lia.
Qed.
Lemma whole_nearest q j V D : 0 < D -> 2 * Z.abs (q * D - V) <= D -> j <> q -> Z.abs (q * D - V) <= Z.abs (j * D - V) /\
  (Z.abs (q * D - V) = Z.abs (j * D - V) -> 2 * Z.abs (q * D - V) = D).
Proof.
  intros HD H N. assert (J : j <= q - 1 \/ q + 1 <= j) by lia. destruct J as [J|J].
  - assert (j * D <= q * D - D) by nia. lia.
  - assert (q * D + D <= j * D) by nia. lia.
Qed.

(* ---------- powers of ten and quotients ---------- *)

(* B^x <= n/d *)
Definition le_pow (B n d x : Z) : Prop := if 0 <=? x then d * B ^ x <= n else d <= n * B ^ (- x).
Lemma pow_add3 B a b c : 0 <= a -> 0 <= b -> a + b = c -> B ^ a * B ^ b = B ^ c.
Proof. intros A H E. rewrite <- E. symmetry. apply Z.pow_add_r; lia. Qed.
Lemma le_pow_scale B n d x k : 0 < B -> 0 <= k -> 0 <= k + x -> le_pow B n d x <-> d * B ^ (k + x) <= n * B ^ k.
Proof.
  intros HB K KX. unfold le_pow. destruct (0 <=? x) eqn:X.
  - assert (P : 0 < B ^ k) by (apply Z.pow_pos_nonneg; lia). rewrite <- (pow_add3 B x k (k + x)) by lia. rewrite Z.mul_assoc. split; intros H; [apply Z.mul_le_mono_nonneg_r; lia|]. apply (Z.mul_le_mono_pos_r _ _ (B ^ k)); assumption.
  - assert (P : 0 < B ^ (k + x)) by (apply Z.pow_pos_nonneg; lia). rewrite <- (pow_add3 B (- x) (k + x) k) by lia. rewrite Z.mul_assoc. split; intros H; [apply Z.mul_le_mono_nonneg_r; lia|]. apply (Z.mul_le_mono_pos_r _ _ (B ^ (k + x))); assumption.
Qed.
Lemma ge_pow_le n d x : ge_pow10 n d x = true <-> le_pow 10 n d x.
Proof. unfold ge_pow10, scaled, le_pow. destruct (0 <=? x); apply Z.leb_le. Qed.
Lemma le_pow_mono B n d x y : 0 < B -> 0 < d -> y <= x -> le_pow B n d x -> le_pow B n d y.
Proof.
  intros HB D L H. set (k := Z.abs x + Z.abs y). rewrite (le_pow_scale B n d x k) in H by lia. rewrite (le_pow_scale B n d y k) by lia. apply Z.le_trans with (2 := H). apply Z.mul_le_mono_nonneg_l; [lia|]. apply Z.pow_le_mono_r; lia.
Qed.
Lemma find_exp_spec fuel n d x : 0 < d -> ge_pow10 n d (x + 1) = false -> ge_pow10 n d (x - Z.of_nat fuel + 1) = true ->
  ge_pow10 n d (find_exp fuel n d x) = true /\ ge_pow10 n d (find_exp fuel n d x + 1) = false.
Proof.
  intros D. revert x. induction fuel as [|fuel IH]; intros x A B; cbn [find_exp].
  - rewrite Z.sub_0_r in B. congruence.
  - destruct (ge_pow10 n d x) eqn:G; [split; assumption|]. apply IH; [replace (x - 1 + 1) with x by lia; exact G|]. rewrite <- B. f_equal. lia.
Qed.

(* the bound of the exponent, for quotients in the range of the doubles *)
Definition bound_of (g : Z) : Z := (g + 1) * 30103 / 100000 + 1.
Definition bound_fits (g : Z) : Prop :=
  let b := bound_of g in
  2 ^ (1200 + g + 1) * 10 ^ 400 <= 10 ^ (400 + b + 1) * 2 ^ 1200 /\ 10 ^ (400 + b - 2) * 2 ^ 1200 <= 2 ^ (1200 + g - 1) * 10 ^ 400.
(* the same by a table of the powers of ten *)
Fixpoint tens (k : nat) (p : Z) : list Z := match k with O => [] | S j => p :: tens j (10 * p) end.
Lemma tens_nth k p i : (i < k)%nat -> nth i (tens k p) 0 = p * 10 ^ Z.of_nat i.
Proof.
  revert p i. induction k as [|k IH]; intros p i H; [lia|]. destruct i as [|i]; cbn [tens nth]; [rewrite Z.pow_0_r; lia|]. rewrite IH by lia.
  replace (Z.of_nat (Datatypes.S i)) with (Z.succ (Z.of_nat i)) by lia. rewrite Z.pow_succ_r by lia. ring.
Qed.
Definition table_fits (t : list Z) (g : Z) : bool :=
  let ten x := nth (Z.to_nat x) t 0 in
  let b := bound_of g in
  (-350 <=? b) && (b <=? 350) &&
  (Z.shiftl (ten 400) (1200 + g + 1) <=? Z.shiftl (ten (400 + b + 1)) 1200) && (Z.shiftl (ten (400 + b - 2)) 1200 <=? Z.shiftl (ten 400) (1200 + g - 1)).
Lemma table_ok : let t := tens 800 1 in forallb (fun i => table_fits t (Z.of_nat i - 1150)) (seq 0 2300) = true.
Proof. vm_compute. reflexivity. Qed.
Lemma bound_fit g : -1150 <= g < 1150 -> bound_fits g.
Proof.
  intros G. pose proof table_ok as F. cbv zeta in F. rewrite forallb_forall in F. specialize (F (Z.to_nat (g + 1150))). replace (Z.of_nat (Z.to_nat (g + 1150)) - 1150) with g in F by lia.
  assert (T : table_fits (tens 800 1) g = true) by (apply F; apply in_seq; lia). clear F. unfold table_fits in T. unfold bound_fits. set (b := bound_of g) in *. clearbody b. cbv zeta in *.
  apply andb_true_iff in T as [T T4]. apply andb_true_iff in T as [T T3]. apply andb_true_iff in T as [T1 T2]. apply Z.leb_le in T1, T2, T3, T4.
  assert (N : forall x, 0 <= x < 800 -> nth (Z.to_nat x) (tens 800 1) 0 = 10 ^ x) by (intros x X; rewrite tens_nth by lia; rewrite Z2Nat.id by lia; lia).
  rewrite !N in T3, T4 by lia. rewrite !Z.shiftl_mul_pow2 in T3, T4 by lia. lia.
Qed.
Lemma exp_bound_ok n d : 0 < n -> 0 < d -> -1150 <= Zdigits2 n - Zdigits2 d < 1150 ->
  ge_pow10 n d (exp_bound n d + 1) = false /\ ge_pow10 n d (exp_bound n d - 2) = true.
Proof.
  intros N D G. change (exp_bound n d) with (bound_of (Zdigits2 n - Zdigits2 d)). destruct (zdigits_bounds n N) as [[NL NU] N0]. destruct (zdigits_bounds d D) as [[DL DU] D0].
  set (gn := Zdigits2 n) in *. set (gd := Zdigits2 d) in *. clearbody gn gd. set (g := gn - gd) in *. pose proof (bound_fit g G) as F. unfold bound_fits in F. cbv zeta in F. destruct F as [F1 F2].
  assert (BB : -350 <= bound_of g <= 350). { unfold bound_of. clear - G. set (w := (g + 1) * 30103) in *. assert (-34600000 <= w <= 34700000) by (unfold w; lia). clearbody w. lia. }
  set (b := bound_of g) in *. clearbody b.
  assert (U : n * 2 ^ 1200 < d * 2 ^ (1200 + g + 1)).
  { apply Z.lt_le_trans with (2 ^ gn * 2 ^ 1200); [apply Z.mul_lt_mono_pos_r; [apply two_pos; lia|exact NU]|]. apply Z.le_trans with (2 ^ (gd - 1) * 2 ^ (1200 + g + 1)); [|apply Z.mul_le_mono_nonneg_r; [apply Z.pow_nonneg; lia|exact DL]].
    rewrite (pow_add3 2 gn 1200 (gn + 1200)), (pow_add3 2 (gd - 1) (1200 + g + 1) (gn + 1200)) by (unfold g; lia). lia. }
  assert (L : d * 2 ^ (1200 + g - 1) <= n * 2 ^ 1200).
  { apply Z.le_trans with (2 ^ gd * 2 ^ (1200 + g - 1)); [apply Z.mul_le_mono_nonneg_r; [apply Z.pow_nonneg; lia|lia]|]. apply Z.le_trans with (2 ^ (gn - 1) * 2 ^ 1200); [|apply Z.mul_le_mono_nonneg_r; [apply Z.pow_nonneg; lia|exact NL]].
    rewrite (pow_add3 2 gd (1200 + g - 1) (gn - 1 + 1200)), (pow_add3 2 (gn - 1) 1200 (gn - 1 + 1200)) by (unfold g; lia). lia. }
  split.
  - destruct (ge_pow10 n d (b + 1)) eqn:Q; [exfalso|reflexivity]. apply ge_pow_le in Q. rewrite (le_pow_scale 10 n d (b + 1) 400) in Q by lia. replace (400 + (b + 1)) with (400 + b + 1) in Q by lia.
    assert (P1 : 0 < 10 ^ 400) by (apply ten_pos; lia). assert (P2 : 0 < 2 ^ 1200) by (apply two_pos; lia).
    set (t := 10 ^ 400) in *. set (w := 2 ^ 1200) in *. set (y := 2 ^ (1200 + g + 1)) in *. set (z := 10 ^ (400 + b + 1)) in *. clearbody t w y z. clear - U Q F1 P1 P2 D N.
    assert (n * w * t < d * y * t) by (apply Z.mul_lt_mono_pos_r; assumption). assert (d * (y * t) <= d * (z * w)) by (apply Z.mul_le_mono_nonneg_l; lia). assert (d * z * w <= n * t * w) by (apply Z.mul_le_mono_nonneg_r; lia). lia.
  - apply ge_pow_le. rewrite (le_pow_scale 10 n d (b - 2) 400) by lia. replace (400 + (b - 2)) with (400 + b - 2) by lia.
    assert (P1 : 0 < 10 ^ 400) by (apply ten_pos; lia). assert (P2 : 0 < 2 ^ 1200) by (apply two_pos; lia).
    set (t := 10 ^ 400) in *. set (w := 2 ^ 1200) in *. set (y := 2 ^ (1200 + g - 1)) in *. set (z := 10 ^ (400 + b - 2)) in *. clearbody t w y z. clear - L F2 P1 P2 D N.
    apply (Z.mul_le_mono_pos_r _ _ w P2). assert (d * (z * w) <= d * (y * t)) by (apply Z.mul_le_mono_nonneg_l; lia). assert (d * y * t <= n * w * t) by (apply Z.mul_le_mono_nonneg_r; lia). lia.
Qed.

(* ---------- six digits ---------- *)

Definition rounding (n d : Z) : Z * Z :=
  let x := find_exp 5 n d (exp_bound n d) in
  let (a, c) := scaled n d (x - 5) in
  let q := div_even a c in
  if q =? 1000000 then (100000, x + 1) else (q, x).
Definition layout (q x : Z) : bytes :=
  let ds := digits_fixed 6 q in
  if (x <? -4) || (6 <=? x) then
    with_point (firstn 1 ds) (skipn 1 ds) ++ "e"%char ::
      (if x <? 0 then "-"%char else "+"%char) ::
      (if (Z.abs_N x <? 10)%N then "0"%char :: dec_of_N (Z.abs_N x) else dec_of_N (Z.abs_N x))
  else if x <? 0 then with_point ["0"%char] (repeat "0"%char (Z.to_nat (- x - 1)) ++ ds)
  else with_point (firstn (Datatypes.S (Z.to_nat x)) ds) (skipn (Datatypes.S (Z.to_nat x)) ds).
Lemma format_pos_layout n d : format_pos n d = let (q, x) := rounding n d in layout q x.
Proof. unfold format_pos, rounding. destruct (scaled n d _) as [a c]. destruct (div_even a c =? 1000000); reflexivity. Qed.

Lemma scaled_by n d x k : 0 <= k -> 0 <= k + x -> exists s, 0 < s /\ let (a, c) := scaled n d x in n * 10 ^ k = a * s /\ d * 10 ^ (k + x) = c * s.
Proof.
  intros K KX. unfold scaled. destruct (0 <=? x) eqn:X.
  - exists (10 ^ k). split; [apply ten_pos; exact K|]. split; [reflexivity|]. rewrite <- Z.mul_assoc, (pow_add3 10 x k (k + x)) by lia. reflexivity.
  - exists (10 ^ (k + x)). split; [apply ten_pos; exact KX|]. split; [|reflexivity]. rewrite <- Z.mul_assoc, (pow_add3 10 (- x) (k + x) k) by lia. reflexivity.
Qed.

(* q0 whole places of 10^(x-5), from 10^5 to 10^6, nearest to n/d *)
Lemma near_six n d q0 x q e : 0 < n -> 0 < d -> 10 ^ 5 <= q0 <= 10 ^ 6 ->
  (forall k, 0 <= k -> 0 <= k + x - 5 -> let D := d * 10 ^ (k + x - 5) in let V := n * 10 ^ k in
     10 ^ 5 * D <= V /\ 2 * Z.abs (q0 * D - V) <= D /\ (2 * Z.abs (q0 * D - V) = D -> Z.even q0 = true)) ->
  (if q0 =? 1000000 then (100000, x + 1) else (q0, x)) = (q, e) -> six_digits n d q e.
Proof.
  intros N D Q H E.
  assert (SAME : six q /\ (Z.even q0 = true -> Z.even q = true) /\ x <= e <= x + 1 /\ forall k, 0 <= k + x - 5 -> q * 10 ^ (k + e - 5) = q0 * 10 ^ (k + x - 5)).
  { unfold six. destruct (q0 =? 1000000) eqn:T; injection E as <- <-.
    - apply Z.eqb_eq in T. subst q0. split; [cbn; lia|]. split; [reflexivity|]. split; [lia|]. intros k K. replace (k + (x + 1) - 5) with (Z.succ (k + x - 5)) by lia. rewrite Z.pow_succ_r by lia. ring.
    - apply Z.eqb_neq in T. split; [change (10 ^ 6) with 1000000 in *; lia|]. split; [exact (fun H => H)|]. split; [lia|reflexivity]. }
  destruct SAME as (SQ & EV & XE & SAME). split; [exact SQ|]. intros p f k0 SP K0 KE0 KF0. cbv zeta.
  assert (REST : forall k, 0 <= k -> 0 <= k + x - 5 -> 0 <= k + f - 5 -> let this := q * 10 ^ (k + e - 5) in let that := p * 10 ^ (k + f - 5) in let off w := Z.abs (w * d - n * 10 ^ k) in
    this = that \/ off this < off that \/ (off this = off that /\ Z.even q = true)).
  { intros k K KX KF. specialize (H k K KX). cbv zeta in *. destruct H as (LO & NE & TI). rewrite (SAME k KX). set (g := 10 ^ (k + x - 5)) in *. assert (G : 0 < g) by (apply ten_pos; exact KX).
    replace (q0 * g * d) with (q0 * (d * g)) by ring. assert (DG : 0 < d * g) by (apply Z.mul_pos_pos; assumption). set (V := n * 10 ^ k) in *. clearbody V.
    destruct (Z_le_gt_dec x f) as [XF|XF].
    - assert (W : p * 10 ^ (k + f - 5) = p * 10 ^ (f - x) * g) by (unfold g; rewrite <- Z.mul_assoc, (pow_add3 10 (f - x) (k + x - 5) (k + f - 5)) by lia; reflexivity).
      rewrite W. set (j := p * 10 ^ (f - x)) in *. clearbody j g. replace (j * g * d) with (j * (d * g)) by ring. destruct (Z.eq_dec j q0) as [->|J]; [left; reflexivity|right].
      destruct (whole_nearest q0 j V (d * g) DG NE J) as [A B]. destruct (Z.eq_dec (Z.abs (q0 * (d * g) - V)) (Z.abs (j * (d * g) - V))) as [Y|Y]; [right; split; [exact Y|exact (EV (TI (B Y)))]|left; lia].
    - right. left. assert (W : p * 10 ^ (k + f - 5) < 10 ^ 5 * g).
      { apply Z.lt_le_trans with (10 ^ 6 * 10 ^ (k + f - 5)); [apply Z.mul_lt_mono_pos_r; [apply ten_pos; exact KF|exact (proj2 SP)]|]. change (10 ^ 6) with (10 ^ 5 * 10). rewrite <- Z.mul_assoc. apply Z.mul_le_mono_nonneg_l; [cbn; lia|].
        replace (10 * 10 ^ (k + f - 5)) with (10 ^ (Z.succ (k + f - 5))) by (rewrite Z.pow_succ_r by lia; reflexivity). apply Z.pow_le_mono_r; lia. }
      set (w := p * 10 ^ (k + f - 5)) in *. clearbody w g. change (10 ^ 5) with 100000 in *.
      assert (WD : w * d < 100000 * (d * g)) by nia.
      destruct (Z.eq_dec 100000 q0) as [<-|J]; [clear - WD LO NE; lia|]. destruct (whole_nearest q0 100000 V (d * g) DG NE J) as [A _]. clear - A WD LO NE. lia. }
  destruct (Z_lt_le_dec (k0 + x - 5) 0) as [NEG|OK]; [|exact (REST k0 K0 OK KF0)].
  (* then x is e - 1, and 10^k0 is too small by one place *)
  assert (EX : k0 + x - 5 = -1) by lia. specialize (REST (k0 + 1) ltac:(lia) ltac:(lia) ltac:(lia)). cbv zeta in REST.
  replace (k0 + 1 + e - 5) with (Z.succ (k0 + e - 5)) in REST by lia. replace (k0 + 1 + f - 5) with (Z.succ (k0 + f - 5)) in REST by lia. replace (k0 + 1) with (Z.succ k0) in REST by lia. rewrite !Z.pow_succ_r in REST by lia.
  set (u := 10 ^ (k0 + e - 5)) in *. set (w := 10 ^ (k0 + f - 5)) in *. set (t := 10 ^ k0) in *. clearbody u w t. clear - REST.
  replace (q * (10 * u)) with (10 * (q * u)) in REST by ring. replace (p * (10 * w)) with (10 * (p * w)) in REST by ring.
  replace (10 * (q * u) * d - n * (10 * t)) with (10 * (q * u * d - n * t)) in REST by ring. replace (10 * (p * w) * d - n * (10 * t)) with (10 * (p * w * d - n * t)) in REST by ring. rewrite !Z.abs_mul in REST. change (Z.abs 10) with 10 in REST.
  destruct REST as [R|[R|[R V]]]; [left; lia|right; left; lia|right; right; split; [lia|exact V]].
Qed.

Lemma rounding_six n d : 0 < n -> 0 < d -> -1150 <= Zdigits2 n - Zdigits2 d < 1150 -> let (q, e) := rounding n d in six_digits n d q e.
Proof.
  intros N D G. destruct (exp_bound_ok n d N D G) as [B1 B2]. unfold rounding. cbv zeta.
  assert (B3 : ge_pow10 n d (exp_bound n d - Z.of_nat 5 + 1) = true) by (apply ge_pow_le; apply ge_pow_le in B2; apply (le_pow_mono 10 n d (exp_bound n d - 2)); lia || exact B2).
  destruct (find_exp_spec 5 n d (exp_bound n d) D B1 B3) as [L U]. set (x := find_exp 5 n d (exp_bound n d)) in *. clearbody x. clear B1 B2 B3.
  apply ge_pow_le in L. assert (U' : ~ le_pow 10 n d (x + 1)) by (intros X; apply ge_pow_le in X; congruence). clear U.
  destruct (scaled n d (x - 5)) as [a c] eqn:SC.
  assert (AC : forall k, 0 <= k -> 0 <= k + x - 5 -> exists s, 0 < s /\ n * 10 ^ k = a * s /\ d * 10 ^ (k + x - 5) = c * s).
  { intros k K KX. destruct (scaled_by n d (x - 5) k K ltac:(lia)) as (s & S0 & H). rewrite SC in H. exists s. replace (k + x - 5) with (k + (x - 5)) by lia. split; [exact S0|exact H]. }
  assert (LU : 10 ^ 5 * c <= a < 10 ^ 6 * c /\ 0 < c).
  { set (k := Z.abs x + 5). destruct (AC k ltac:(lia) ltac:(lia)) as (s & S0 & A & C). rewrite (le_pow_scale 10 n d x k) in L by lia. rewrite (le_pow_scale 10 n d (x + 1) k) in U' by lia.
    replace (10 ^ (k + x)) with (10 ^ 5 * 10 ^ (k + x - 5)) in L by (rewrite (pow_add3 10 5 (k + x - 5) (k + x)) by lia; reflexivity).
    replace (10 ^ (k + (x + 1))) with (10 ^ 6 * 10 ^ (k + x - 5)) in U' by (rewrite (pow_add3 10 6 (k + x - 5) (k + (x + 1))) by lia; reflexivity).
    assert (DP : 0 < d * 10 ^ (k + x - 5)) by (apply Z.mul_pos_pos; [exact D|apply ten_pos; lia]). rewrite A in *. set (g := 10 ^ (k + x - 5)) in *. clearbody g.
    replace (d * (10 ^ 5 * g)) with (10 ^ 5 * (d * g)) in L by ring. replace (d * (10 ^ 6 * g)) with (10 ^ 6 * (d * g)) in U' by ring. rewrite C in *. clear - L U' S0 DP. change (10 ^ 5) with 100000 in *. change (10 ^ 6) with 1000000 in *. nia. }
  destruct LU as [[LO UP] C0]. destruct (div_even_spec a c C0) as [NE TI]. set (q0 := div_even a c) in *. clearbody q0.
  assert (Q0 : 10 ^ 5 <= q0 <= 10 ^ 6). { change (10 ^ 5) with 100000 in *. change (10 ^ 6) with 1000000 in *. clear - LO UP NE C0. nia. }
  destruct (if q0 =? 1000000 then (100000, x + 1) else (q0, x)) as [q e] eqn:E. refine (near_six n d q0 x q e N D Q0 _ E).
  intros k K KX. destruct (AC k K KX) as (s & S0 & A & C). cbv zeta. rewrite A, C. clear - S0 LO NE TI C0.
  replace (q0 * (c * s) - a * s) with ((q0 * c - a) * s) by ring. rewrite Z.abs_mul, (Z.abs_eq s) by lia. split; [rewrite Z.mul_assoc; apply Z.mul_le_mono_nonneg_r; lia|]. split; [rewrite Z.mul_assoc; apply Z.mul_le_mono_nonneg_r; lia|].
  intros Y. apply TI. nia.
Qed.

(* ---------- the text ---------- *)

Lemma worth_zeros ds j : worth 10 digit_val (ds ++ repeat "0"%char j) = worth 10 digit_val ds * 10 ^ Z.of_nat j.
Proof.
  induction j as [|j IH]; [rewrite app_nil_r; change (Z.of_nat 0) with 0; rewrite Z.pow_0_r; lia|].
  replace (repeat "0"%char (Datatypes.S j)) with (repeat "0"%char j ++ ["0"%char]) by (symmetry; apply repeat_cons). rewrite app_assoc, worth_snoc, IH.
  change (Z.of_N (digit_val "0")) with 0. replace (Z.of_nat (Datatypes.S j)) with (Z.succ (Z.of_nat j)) by lia. rewrite Z.pow_succ_r by lia. ring.
Qed.
Lemma worth_front j ds : worth 10 digit_val (repeat "0"%char j ++ ds) = worth 10 digit_val ds.
Proof. induction j as [|j IH]; [reflexivity|]. cbn [repeat app worth]. rewrite IH. change (Z.of_N (digit_val "0")) with 0. lia. Qed.
Lemma strip_split l : exists j, l = strip_zeros l ++ repeat "0"%char j.
Proof.
  induction l as [|c l (j & IH)]; [exists O; reflexivity|]. cbn [strip_zeros]. destruct (strip_zeros l) as [|d r] eqn:S.
  - destruct (ceq c "0") eqn:C; [apply ceq_iff in C; subst c; exists (Datatypes.S j); cbn [repeat app]; f_equal; exact IH|exists j; cbn [app]; f_equal; exact IH].
  - exists j. cbn [app]. f_equal. exact IH.
Qed.
Lemma strip_last l : last (strip_zeros l) "1"%char <> "0"%char.
Proof.
  induction l as [|c l IH]; [discriminate|]. cbn [strip_zeros]. destruct (strip_zeros l) as [|d r] eqn:S; [|exact IH].
  destruct (ceq c "0") eqn:C; [discriminate|]. cbn [last]. intros ->. discriminate C.
Qed.
Lemma point_text ip fp m p : all is_digit (ip ++ fp) -> worth 10 digit_val (ip ++ fp) * 10 ^ p = m * 10 ^ Z.of_nat (length fp) ->
  match ip with [] => False | c :: r => c = "0"%char -> r = [] end -> decimal_text (with_point ip fp) m p.
Proof.
  intros A W H. destruct (strip_split fp) as (j & E). exists ip, (strip_zeros fp). split; [unfold with_point; destruct (strip_zeros fp); reflexivity|].
  rewrite E in A, W. rewrite app_assoc in A, W. split; [apply Forall_app in A; exact (proj1 A)|]. split; [|split; [exact H|apply strip_last]].
  rewrite worth_zeros in W. rewrite app_length, repeat_length, Nat2Z.inj_add, Z.pow_add_r in W by lia. assert (J : 0 < 10 ^ Z.of_nat j) by (apply ten_pos; lia).
  apply (Z.mul_cancel_r _ _ (10 ^ Z.of_nat j)); [lia|]. clear - W. lia.
Qed.

Lemma six_first q : six q -> exists c r, digits_fixed 6 q = c :: r /\ c <> "0"%char /\ length r = 5%nat.
Proof.
  intros [L U]. pose proof (fixed_length 6 q) as FL. pose proof (fixed_digits 6 q ltac:(lia)) as A. pose proof (fixed_worth 6 q ltac:(change (Z.of_nat 6) with 6; lia)) as W.
  destruct (digits_fixed 6 q) as [|c r]; [discriminate FL|]. exists c, r. split; [reflexivity|]. cbn [length] in FL. injection FL as FL. split; [|exact FL]. intros ->.
  inversion A as [|? ? _ AR]; subst. pose proof (worth_bounds r AR) as B. rewrite FL in B. cbn [worth] in L. change (Z.of_N (digit_val "0")) with 0 in L. change (Z.of_nat 5) with 5 in B. lia.
Qed.

Lemma dec_first f n : (n < 10 ^ N.of_nat f)%N -> (0 < n)%N -> exists c r, dec_loop f n [] = c :: r /\ c <> "0"%char.
Proof.
  revert n. induction f as [|f IH]; intros n H P; [cbn in H; lia|]. cbn [dec_loop]. destruct (n / 10 =? 0)%N eqn:E.
  - eexists. eexists. split; [reflexivity|]. assert (M : (n mod 10 = n)%N) by (apply N.mod_small; lia). rewrite M. assert (Q : (n < 10)%N) by lia. intros X.
    assert (Y : digit_val (digit_char n) = n) by (apply digit_val_char; exact Q). rewrite X in Y. cbn in Y. lia.
  - rewrite dec_loop_app. destruct (IH (n / 10)%N) as (c & r & -> & C); [rewrite Nat2N.inj_succ, N.pow_succ_r' in H; apply N.div_lt_upper_bound; lia|lia|]. exists c. eexists. split; [reflexivity|exact C].
Qed.
Lemma dec_worth n : worth 10 digit_val (dec_of_N n) = Z.of_N n.
Proof. rewrite <- (digits_worth 10). f_equal. exact (dec_of_N_value n). Qed.
Lemma exponent_layout x : exponent_text ("e"%char :: (if x <? 0 then "-"%char else "+"%char) :: (if (Z.abs_N x <? 10)%N then "0"%char :: dec_of_N (Z.abs_N x) else dec_of_N (Z.abs_N x))) x.
Proof.
  eexists. split; [reflexivity|]. pose proof (dec_of_N_digits (Z.abs_N x)) as D. pose proof (dec_worth (Z.abs_N x)) as W. pose proof (worth_bounds _ D) as B. rewrite W in B.
  destruct (Z.abs_N x <? 10)%N eqn:L.
  - split; [constructor; [reflexivity|exact D]|]. split; [cbn [worth]; rewrite W; change (Z.of_N (digit_val "0")) with 0; lia|].
    assert (L1 : length (dec_of_N (Z.abs_N x)) = 1%nat). { unfold dec_of_N. cbn [dec_loop]. assert (Q : (Z.abs_N x / 10 =? 0)%N = true) by (apply N.eqb_eq; apply N.div_small; lia). rewrite Q. reflexivity. }
    cbn [length]. rewrite L1. split; [lia|]. intros X. contradiction X. reflexivity.
  - split; [exact D|]. split; [rewrite W; lia|]. destruct (dec_first _ (Z.abs_N x) (size_nat_bound _) ltac:(lia)) as (c & r & E & C). fold (dec_of_N (Z.abs_N x)) in E. rewrite E in *. split; [|intros _; exact C].
    destruct r; [|cbn [length]; lia]. cbn [length] in B. change (10 ^ Z.of_nat 1) with 10 in B. lia.
Qed.
Lemma layout_notation q x : six q -> notation q x (layout q x).
Proof.
  intros Q. destruct (six_first q Q) as (c & r & E & C & LR). pose proof (fixed_digits 6 q ltac:(unfold six in Q; lia)) as A. pose proof (fixed_worth 6 q ltac:(unfold six in Q; change (Z.of_nat 6) with 6; lia)) as W.
  pose proof (fixed_length 6 q) as FL. unfold notation, layout. destruct ((x <? -4) || (6 <=? x)) eqn:X.
  - assert (X' : (-4 <=? x) && (x <? 6) = false) by lia. rewrite X'. eexists. eexists. split; [reflexivity|]. split; [|apply exponent_layout].
    apply point_text; [rewrite firstn_skipn; exact A|rewrite firstn_skipn, W, skipn_length, FL; reflexivity|]. rewrite E. intros _. reflexivity.
  - assert (X' : (-4 <=? x) && (x <? 6) = true) by lia. rewrite X'. destruct (x <? 0) eqn:XN.
    + apply point_text; [| |intros _; reflexivity].
      * cbn [app]. constructor; [reflexivity|]. apply Forall_app. split; [|exact A]. apply Forall_forall. intros d D. apply repeat_spec in D. subst d. reflexivity.
      * cbn [app worth]. change (Z.of_N (digit_val "0")) with 0. rewrite worth_front, W, app_length, repeat_length, FL. rewrite Z.mul_0_l, Z.add_0_l. f_equal. f_equal. lia.
    + apply point_text; [rewrite firstn_skipn; exact A| |].
      * rewrite firstn_skipn, W, skipn_length, FL. f_equal. f_equal. lia.
      * rewrite E. cbn [firstn]. intros ->. contradiction C. reflexivity.
Qed.

Lemma six_scale n d c q e : 0 < c -> six_digits n d q e -> six_digits (n * c) (d * c) q e.
Proof.
  intros C [SQ H]. split; [exact SQ|]. intros p f k SP K KE KF. specialize (H p f k SP K KE KF). cbv beta zeta in *.
  set (u := q * 10 ^ (k + e - 5)) in *. set (w := p * 10 ^ (k + f - 5)) in *. set (t := 10 ^ k) in *. clearbody u w t.
  assert (X : forall v, Z.abs (v * (d * c) - n * c * t) = Z.abs (v * d - n * t) * c) by (intros v; replace (v * (d * c) - n * c * t) with ((v * d - n * t) * c) by ring; rewrite Z.abs_mul, (Z.abs_eq c) by lia; reflexivity).
  rewrite !X. set (y := Z.abs (u * d - n * t)) in *. set (z := Z.abs (w * d - n * t)) in *. clearbody y z. clear X. destruct H as [R|[R|[R V]]]; [left; exact R|right; left; nia|right; right; split; [rewrite R; reflexivity|exact V]].
Qed.
Theorem format_written s m e : double (S754_finite s m e) -> written (S754_finite s m e) (format_g (S754_finite s m e)).
Proof.
  intros D. pose proof (finite_exp _ _ _ D) as EL. destruct (finite_signed _ _ _ D) as (N0 & N1 & AB). cbv beta zeta in *. set (a := cond_Zopp s (Zpos m) * 2 ^ (e + 1074)) in *.
  assert (EU : Zpos m < 2 ^ 53 /\ e <= 971). { apply valid_finite in D as (F & E1 & _). split; [|lia]. destruct (digits_bounds m) as [_ U]. apply Z.lt_le_trans with (1 := U). apply Z.pow_le_mono_r; [lia|]. unfold fexp in F. lia. }
  destruct EU as [MU EU]. assert (DM : 1 <= Zdigits2 (Zpos m) <= 53). { split; [destruct (zdigits_bounds (Zpos m) ltac:(lia)); lia|apply zdigits_le; lia]. }
  assert (R : exists n d c, 0 < n /\ 0 < d /\ 0 < c /\ -1150 <= Zdigits2 n - Zdigits2 d < 1150 /\ Z.abs a = n * c /\ UNIT = d * c /\
    match e with Zneg k => format_pos (Zpos m) (2 ^ Zpos k) | _ => format_pos (Zpos m * 2 ^ e) 1 end = format_pos n d).
  { rewrite AB. unfold UNIT. destruct (Z_lt_le_dec e 0) as [E|E].
    - exists (Zpos m), (2 ^ (- e)), (2 ^ (e + 1074)). split; [lia|]. split; [apply two_pos; lia|]. split; [apply two_pos; lia|]. split; [rewrite digits_two by lia; lia|]. split; [reflexivity|]. split; [symmetry; apply pow_add3; lia|]. destruct e; [lia|lia|reflexivity].
    - exists (Zpos m * 2 ^ e), 1, (2 ^ 1074). assert (P : 0 < 2 ^ e) by (apply two_pos; exact E). split; [apply Z.mul_pos_pos; [lia|exact P]|]. split; [lia|]. split; [apply two_pos; lia|].
      split; [rewrite digits_times by lia; change (Zdigits2 1) with 1; lia|]. split; [rewrite <- Z.mul_assoc, (pow_add3 2 e 1074 (e + 1074)) by lia; reflexivity|]. split; [rewrite Z.mul_1_l; reflexivity|]. destruct e; [reflexivity|reflexivity|lia]. }
  destruct R as (n & d & c & HN & HD & HC & G & EA & EUN & F). pose proof (rounding_six n d HN HD G) as RS. pose proof (format_pos_layout n d) as FL. destruct (rounding n d) as [q x].
  exists a, q, x, (format_pos n d). split; [reflexivity|]. split; [rewrite EA, EUN; apply six_scale; assumption|]. split; [cbn [format_g]; rewrite N1; f_equal; exact F|]. rewrite FL. apply layout_notation. exact (proj1 RS).
Qed.

(* ---------- there is one such text ---------- *)

Lemma mid_between d V u w m : 0 < d -> u < m < w -> Z.abs (u * d - V) = Z.abs (w * d - V) -> Z.abs (m * d - V) < Z.abs (u * d - V).
Proof. intros D B E. nia. Qed.
Lemma six_order n d q e q' e' : 0 < d -> e <= e' -> six_digits n d q e -> six_digits n d q' e' -> q = q' /\ e = e'.
Proof.
  intros D EE H H'. pose proof H as [SQ X]. pose proof H' as [SQ' X']. set (k := Z.abs e + Z.abs e' + 5).
  pose proof (X q' e' k SQ' ltac:(lia) ltac:(lia) ltac:(lia)) as A. pose proof (X' q e k SQ ltac:(lia) ltac:(lia) ltac:(lia)) as B.
  assert (XG : forall p, six p -> let off w := Z.abs (w * d - n * 10 ^ k) in q * 10 ^ (k + e - 5) = p * 10 ^ (k + e - 5) \/ off (q * 10 ^ (k + e - 5)) < off (p * 10 ^ (k + e - 5)) \/ (off (q * 10 ^ (k + e - 5)) = off (p * 10 ^ (k + e - 5)) /\ Z.even q = true)).
  { intros p SP. exact (X p e k SP ltac:(lia) ltac:(lia) ltac:(lia)). }
  clear X X' H H'. cbv beta zeta in *.
  assert (W : 10 ^ (k + e' - 5) = 10 ^ (e' - e) * 10 ^ (k + e - 5)) by (rewrite (pow_add3 10 (e' - e) (k + e - 5) (k + e' - 5)) by lia; reflexivity). rewrite W in A, B. clear W.
  assert (G : 0 < 10 ^ (k + e - 5)) by (apply ten_pos; lia). assert (T1 : e <> e' -> 10 <= 10 ^ (e' - e)) by (intros; change 10 with (10 ^ 1) at 1; apply Z.pow_le_mono_r; lia).
  set (g := 10 ^ (k + e - 5)) in *. set (V := n * 10 ^ k) in *. set (t := 10 ^ (e' - e)) in *. clearbody V g. clear k.
  assert (CA : forall y z, y * g = z * g -> y = z) by (intros y z Y; apply Z.mul_cancel_r in Y; [exact Y|clear - G; lia]).
  assert (MO : forall y z, y < z -> y * g < z * g) by (intros y z Y; apply Z.mul_lt_mono_pos_r; assumption).
  destruct (Z.eq_dec e e') as [<-|NE].
  - split; [|reflexivity]. assert (T0 : t = 1) by (unfold t; rewrite Z.sub_diag; reflexivity). rewrite T0, Z.mul_1_l in *. clearbody t. destruct (Z.eq_dec q q') as [Q|NQ]; [exact Q|exfalso].
    assert (OFF : Z.abs (q * g * d - V) = Z.abs (q' * g * d - V) /\ Z.even q = true /\ Z.even q' = true).
    { assert (NW : q * g <> q' * g) by (intros Y; exact (NQ (CA _ _ Y))). clear - A B NW. destruct A as [A|[A|[A EA]]]; [contradiction| |]; destruct B as [B|[B|[B EB]]]; try (symmetry in B; contradiction); try lia. split; [exact A|]. split; assumption. }
    destruct OFF as (OFF & EV & EV'). apply Z.even_spec in EV as (h & EV). apply Z.even_spec in EV' as (h' & EV').
    assert (ME : six (h + h') /\ (q < h + h' < q' \/ q' < h + h' < q)) by (unfold six in *; clear - SQ SQ' EV EV' NQ; lia). destruct ME as [S MID]. pose proof (XG (h + h') S) as C.
    assert (NE : Z.abs ((h + h') * g * d - V) < Z.abs (q * g * d - V)).
    { destruct MID as [MID|MID]; [apply (mid_between d V (q * g) (q' * g)); [exact D|split; apply MO; apply MID|exact OFF]|]. rewrite OFF. apply (mid_between d V (q' * g) (q * g)); [exact D|split; apply MO; apply MID|symmetry; exact OFF]. }
    assert (NH : q * g <> (h + h') * g) by (intros Y; apply CA in Y; clear - Y MID; lia). clear - C NE NH. destruct C as [C|[C|[C _]]]; [contradiction|lia|lia].
  - exfalso. specialize (T1 NE). clearbody t. unfold six in *. change (10 ^ 5) with 100000 in *. change (10 ^ 6) with 1000000 in *. rewrite Z.mul_assoc in A, B.
    assert (BIG : 1000000 <= q' * t) by (clear - SQ' T1; nia). set (j := q' * t) in *. clearbody j. assert (NW : q * g <> j * g) by (intros Y; apply CA in Y; clear - Y BIG SQ; lia).
    assert (OFF : Z.abs (q * g * d - V) = Z.abs (j * g * d - V) /\ Z.even q = true).
    { clear - A B NW. destruct A as [A|[A|[A EA]]]; [contradiction| |]; destruct B as [B|[B|[B EB]]]; try (symmetry in B; contradiction); try lia; (split; [exact A|exact EA]). }
    destruct OFF as (OFF & EV). apply Z.even_spec in EV as (h & EV). pose proof (XG (q + 1) ltac:(clear - SQ EV; lia)) as C.
    assert (NEAR : Z.abs ((q + 1) * g * d - V) < Z.abs (q * g * d - V)) by (apply (mid_between d V (q * g) (j * g)); [exact D|split; apply MO; clear - BIG SQ EV; lia|exact OFF]).
    assert (NH : q * g <> (q + 1) * g) by (intros Y; apply CA in Y; clear - Y; lia). clear - C NEAR NH. destruct C as [C|[C|[C _]]]; [contradiction|lia|lia].
Qed.
Lemma six_unique n d q e q' e' : 0 < d -> six_digits n d q e -> six_digits n d q' e' -> q = q' /\ e = e'.
Proof.
  intros D H H'. destruct (Z_le_gt_dec e e') as [L|L]; [exact (six_order n d q e q' e' D L H H')|]. destruct (six_order n d q' e' q e D ltac:(lia) H' H) as [-> ->]. split; reflexivity.
Qed.

Lemma same_length_digits a b : length a = length b -> all is_digit a -> all is_digit b -> worth 10 digit_val a = worth 10 digit_val b -> a = b.
Proof.
  revert b. induction a as [|c a IH]; intros [|d b] L A B W; try discriminate L; [reflexivity|]. injection L as L. inversion A as [|? ? CA AA]; subst. inversion B as [|? ? CB BB]; subst.
  cbn [worth] in W. rewrite L in W. pose proof (worth_bounds a AA) as WA. pose proof (worth_bounds b BB) as WB. rewrite L in WA. pose proof (digit_small c CA) as SC. pose proof (digit_small d CB) as SD.
  set (p := 10 ^ Z.of_nat (length b)) in *. clearbody p. assert (E : Z.of_N (digit_val c) = Z.of_N (digit_val d)) by (clear - W WA WB; nia).
  assert (CD : c = d). { clear - E CA CB. unfold is_digit, digit_val in *. unfold code in *. rewrite <- (ascii_N_embedding c), <- (ascii_N_embedding d). f_equal. lia. }
  f_equal; [exact CD|]. apply IH; try assumption. rewrite E in W. lia.
Qed.
Lemma worth_app a b : worth 10 digit_val (a ++ b) = worth 10 digit_val a * 10 ^ Z.of_nat (length b) + worth 10 digit_val b.
Proof.
  induction a as [|c a IH]; [cbn [app worth]; lia|]. cbn [app worth]. rewrite IH, app_length, Nat2Z.inj_add, Z.pow_add_r by lia. ring.
Qed.
Lemma last_digit l : l <> [] -> all is_digit l -> worth 10 digit_val l mod 10 = 0 -> last l "1"%char = "0"%char.
Proof.
  intros N A M. destruct (exists_last N) as (l' & c & ->). rewrite last_last. rewrite worth_snoc in M. apply Forall_app in A as [_ A]. inversion A as [|? ? C _]; subst. pose proof (digit_small c C) as S.
  assert (E : Z.of_N (digit_val c) = 0) by (rewrite Z.add_comm, Z.mod_add in M by lia; rewrite Z.mod_small in M by lia; exact M).
  clear - E C. unfold is_digit, digit_val, code in *. rewrite <- (ascii_N_embedding c). change "0"%char with (ascii_of_N 48). f_equal. lia.
Qed.
Lemma decimal_order m p ip fp ip' fp' : 0 <= p ->
  all is_digit (ip ++ fp) -> worth 10 digit_val (ip ++ fp) * 10 ^ p = m * 10 ^ Z.of_nat (length fp) ->
  all is_digit (ip' ++ fp') -> worth 10 digit_val (ip' ++ fp') * 10 ^ p = m * 10 ^ Z.of_nat (length fp') ->
  last fp' "1"%char <> "0"%char -> (length fp <= length fp')%nat -> length fp = length fp'.
Proof.
  intros P A W A' W' L LE. destruct (Nat.eq_dec (length fp) (length fp')) as [E|NE]; [exact E|exfalso]. apply L. assert (N : fp' <> []) by (destruct fp'; [cbn [length] in *; lia|discriminate]).
  apply Forall_app in A' as [AI AF]. rewrite worth_app in W'. apply last_digit; [exact N|exact AF|].
  set (j := (length fp' - length fp)%nat). assert (E : Z.of_nat (length fp') = Z.of_nat (length fp) + Z.of_nat j) by lia. assert (J : 0 < Z.of_nat j) by lia.
  assert (V : worth 10 digit_val ip' * 10 ^ Z.of_nat (length fp') + worth 10 digit_val fp' = worth 10 digit_val (ip ++ fp) * 10 ^ Z.of_nat j).
  { apply (Z.mul_cancel_r _ _ (10 ^ p)); [pose proof (ten_pos p P); lia|]. rewrite W'. rewrite E at 1. rewrite Z.pow_add_r by lia. rewrite Z.mul_assoc, <- W. ring. }
  assert (T : forall i, 0 < i -> 10 ^ i = 10 * 10 ^ (i - 1)) by (intros i I; rewrite <- Z.pow_succ_r by lia; f_equal; lia).
  rewrite (T (Z.of_nat (length fp')) ltac:(lia)), (T (Z.of_nat j) J) in V. set (y := worth 10 digit_val fp') in *. set (z := 10 ^ (Z.of_nat (length fp') - 1)) in *. set (w := 10 ^ (Z.of_nat j - 1)) in *. clearbody y z w.
  assert (Y : y = (worth 10 digit_val (ip ++ fp) * w - worth 10 digit_val ip' * z) * 10) by (clear - V; lia). rewrite Y. apply Z.mod_mul. lia.
Qed.
Lemma decimal_unique t t' m p : 0 <= p -> decimal_text t m p -> decimal_text t' m p -> t = t'.
Proof.
  intros P (ip & fp & -> & A & W & H & L) (ip' & fp' & -> & A' & W' & H' & L').
  assert (LF : length fp = length fp') by (destruct (Nat.le_ge_cases (length fp) (length fp')); [eapply decimal_order; eassumption|symmetry; eapply decimal_order; eassumption]).
  assert (E : worth 10 digit_val (ip ++ fp) = worth 10 digit_val (ip' ++ fp')) by (apply (Z.mul_cancel_r _ _ (10 ^ p)); [pose proof (ten_pos p P); lia|]; rewrite W, W', LF; reflexivity).
  apply Forall_app in A as [AI AF]. apply Forall_app in A' as [AI' AF']. rewrite !worth_app, LF in E. pose proof (worth_bounds fp AF) as B. pose proof (worth_bounds fp' AF') as B'. rewrite LF in B.
  assert (EE : worth 10 digit_val ip = worth 10 digit_val ip' /\ worth 10 digit_val fp = worth 10 digit_val fp').
  { apply (Z.div_mod_unique (10 ^ Z.of_nat (length fp'))); [left; exact B|left; exact B'|]. rewrite !(Z.mul_comm (10 ^ _)). exact E. }
  destruct EE as [EI EF]. pose proof (same_length_digits fp fp' LF AF AF' EF) as <-.
  assert (PI : plain (worth 10 digit_val ip) ip). { exists ip. pose proof (worth_bounds ip AI). replace (worth 10 digit_val ip <? 0) with false by lia. split; [reflexivity|]. split; [exact AI|]. split; [lia|exact H]. }
  assert (PI' : plain (worth 10 digit_val ip) ip'). { rewrite EI. exists ip'. pose proof (worth_bounds ip' AI'). replace (worth 10 digit_val ip' <? 0) with false by lia. split; [reflexivity|]. split; [exact AI'|]. split; [lia|exact H']. }
  rewrite (plain_unique _ _ _ PI PI'). reflexivity.
Qed.
Lemma lead_digits a b : all is_digit a -> all is_digit b -> worth 10 digit_val a = worth 10 digit_val b -> (2 <= length a)%nat -> (length b <> 2%nat -> hd "1"%char b <> "0"%char) -> (length a < length b)%nat -> False.
Proof.
  intros A B W LA HB L. destruct b as [|c b]; [cbn [length] in L; lia|]. specialize (HB ltac:(lia)). cbn [hd] in HB. pose proof (worth_bounds a A) as WA. inversion B as [|? ? C BB]; subst. pose proof (worth_bounds b BB) as WB. cbn [worth] in W. cbn [length] in L.
  assert (D : 1 <= Z.of_N (digit_val c)). { pose proof (digit_small c C) as S. destruct (Z.eq_dec (Z.of_N (digit_val c)) 0) as [E|E]; [exfalso; apply HB|lia]. clear - E C. unfold is_digit, digit_val, code in *. rewrite <- (ascii_N_embedding c). change "0"%char with (ascii_of_N 48). f_equal. lia. }
  assert (PP : 10 ^ Z.of_nat (length a) <= 10 ^ Z.of_nat (length b)) by (apply Z.pow_le_mono_r; lia). set (x := 10 ^ Z.of_nat (length a)) in *. set (y := 10 ^ Z.of_nat (length b)) in *. clearbody x y. clear - W WA WB D PP. nia.
Qed.
Lemma exponent_unique u u' e : exponent_text u e -> exponent_text u' e -> u = u'.
Proof.
  intros (ds & -> & A & W & L & H) (ds' & -> & A' & W' & L' & H'). f_equal. f_equal.
  destruct (Nat.lt_trichotomy (length ds) (length ds')) as [Q|[Q|Q]]; [exfalso; apply (lead_digits ds ds'); congruence || assumption|apply same_length_digits; congruence || assumption|exfalso; apply (lead_digits ds' ds); congruence || assumption].
Qed.
Lemma notation_unique q e t t' : notation q e t -> notation q e t' -> t = t'.
Proof.
  unfold notation. destruct ((-4 <=? e) && (e <? 6)) eqn:E; [apply decimal_unique; lia|]. intros (m & u & -> & M & U) (m' & u' & -> & M' & U').
  rewrite (decimal_unique m m' q 5 ltac:(lia) M M'), (exponent_unique u u' e U U'). reflexivity.
Qed.
Theorem written_unique x t t' : written x t -> written x t' -> t = t'.
Proof.
  intros (a & q & e & b & U & S & -> & N) (a' & q' & e' & b' & U' & S' & -> & N'). rewrite U in U'. injection U' as <-. pose proof unit_pos as UP. destruct (six_unique _ _ _ _ _ _ UP S S') as [<- <-].
  rewrite (notation_unique q e b b' N N'). reflexivity.
Qed.

(* ---------- reading it back ---------- *)

Lemma scaled_at x neg m e k : 0 <= k -> 0 <= k + e -> nearest_scaled x neg m 10 e <-> nearest x neg (m * 10 ^ (k + e)) (10 ^ k).
Proof.
  intros K KE. unfold nearest_scaled. destruct (0 <=? e) eqn:E.
  - rewrite (nearest_scale x neg (m * 10 ^ e) 1 (10 ^ k)) by (apply ten_pos; exact K). rewrite Z.mul_1_l, <- Z.mul_assoc, (pow_add3 10 e k (k + e)) by lia. reflexivity.
  - rewrite (nearest_scale x neg m (10 ^ (- e)) (10 ^ (k + e))) by (apply ten_pos; exact KE). rewrite (pow_add3 10 (- e) (k + e) k) by lia. reflexivity.
Qed.
Lemma scaled_same x neg m e m' e' p : 0 <= p -> m * 10 ^ p = m' * 10 ^ (e' - e + p) -> 0 <= e' - e + p -> nearest_scaled x neg m 10 e <-> nearest_scaled x neg m' 10 e'.
Proof.
  intros P E R. set (k := Z.abs e + Z.abs e'). rewrite (scaled_at x neg m e (k + p)) by lia. rewrite (scaled_at x neg m' e' (k + p)) by lia.
  replace (m * 10 ^ (k + p + e)) with (m' * 10 ^ (k + p + e')); [reflexivity|]. replace (10 ^ (k + p + e)) with (10 ^ p * 10 ^ (k + e)) by (apply pow_add3; lia). rewrite Z.mul_assoc, E, <- Z.mul_assoc. f_equal. symmetry. apply pow_add3; lia.
Qed.
Lemma decimal_mantissa t q p : decimal_text t q p -> exists ip fp, mantissa is_digit t ip fp /\ worth 10 digit_val (ip ++ fp) * 10 ^ p = q * 10 ^ Z.of_nat (length fp).
Proof.
  intros (ip & fp & -> & A & W & H & _). exists ip, fp. split; [|exact W]. assert (N : ip <> []) by (destruct ip; [contradiction|discriminate]). pose proof A as A0. apply Forall_app in A as [AI AF]. destruct fp as [|c fp]; [constructor; assumption|]. constructor; [|exact AI|exact AF]. destruct ip; [contradiction|discriminate].
Qed.
Lemma decimal_figure t q p u e neg x : 0 <= p -> decimal_text t q p -> exponent "e" u e -> nearest_scaled x neg q 10 (e - p) -> figure neg (t ++ u) x.
Proof.
  intros P D U N. destruct (decimal_mantissa t q p D) as (ip & fp & M & W). refine (Fi_decimal neg t ip fp u e x M U _).
  apply (scaled_same x neg (worth 10 digit_val (ip ++ fp)) (e - Z.of_nat (length fp)) q (e - p) p P); [|lia|exact N]. rewrite W. f_equal. f_equal. lia.
Qed.
Lemma notation_figure q e t neg x : notation q e t -> nearest_scaled x neg q 10 (e - 5) -> figure neg t x.
Proof.
  unfold notation. destruct ((-4 <=? e) && (e <? 6)) eqn:E.
  - intros D N. rewrite <- (app_nil_r t). apply (decimal_figure t q (5 - e) [] 0); [lia|exact D|constructor|]. replace (0 - (5 - e)) with (e - 5) by lia. exact N.
  - intros (m & u & -> & D & U) N. apply (decimal_figure m q 5 u e); [lia|exact D| |exact N]. destruct U as (ds & -> & A & W & L & _). assert (ND : ds <> []) by (destruct ds; [cbn [length] in L; lia|discriminate]).
    destruct (Z.ltb_spec e 0) as [Q|Q].
    + replace e with (- worth 10 digit_val ds) by lia. apply Ex_minus; [reflexivity|exact ND|exact A].
    + replace e with (worth 10 digit_val ds) by lia. apply Ex_plus; [reflexivity|exact ND|exact A].
Qed.
Lemma sign_reads a q e t x : notation q e t -> nearest_scaled x (a <? 0) q 10 (e - 5) -> reads_as ((if a <? 0 then ["-"%char] else []) ++ t) x.
Proof.
  intros N S. pose proof (notation_figure q e t (a <? 0) x N S) as F. exists []. eexists. exists []. rewrite app_nil_r. split; [reflexivity|]. split; [constructor|]. split; [|constructor].
  destruct (a <? 0); cbn [app]; [apply Nu_minus; left; exact F|apply Nu_unsigned; exact F].
Qed.
Theorem written_reads x t : written x t -> exists a q e y, units x = Some a /\ six_digits (Z.abs a) UNIT q e /\ nearest_scaled y (a <? 0) q 10 (e - 5) /\ reads_as t y.
Proof.
  intros (a & q & e & b & U & S & -> & N). exists a, q, e, (scale10 (a <? 0) (Z.to_N q) 6 (e - 5)). split; [exact U|]. split; [exact S|]. destruct S as [[Q0 Q1] _].
  assert (NS : nearest_scaled (scale10 (a <? 0) (Z.to_N q) 6 (e - 5)) (a <? 0) q 10 (e - 5)). { pose proof (scale10_nearest (a <? 0) (Z.to_N q) 6 (e - 5) ltac:(lia)) as X. rewrite Z2N.id in X by lia. exact (X Q1). }
  split; [exact NS|]. exact (sign_reads a q e b _ N NS).
Qed.

(* ---------- numbers given by six digits ---------- *)

Lemma nearest_close y neg n d : 0 < n -> 0 < d -> d <= n * 2 ^ 1022 -> n < (2 ^ 1024 - 2 ^ 970) * d -> nearest y neg n d ->
  exists a, units y = Some a /\ 0 <= cond_Zopp neg a /\ 2 ^ 52 * Z.abs (a * d - cond_Zopp neg n * UNIT) <= n * UNIT.
Proof.
  intros N D LO HI (DY & SY & H). assert (B : ((2 ^ 1024 - 2 ^ 970) * d <=? n) = false) by (apply Z.leb_gt; exact HI). rewrite B in H. destruct H as (a & UY & H). exists a. split; [exact UY|].
  split; [exact (proj1 (negative_zero y neg a DY SY UY))|]. pose proof unit_pos as UP.
  assert (UE : UNIT = 2 ^ 52 * 2 ^ 1022) by (unfold UNIT; rewrite (pow_add3 2 52 1022 1074) by lia; reflexivity).
  set (W := n * UNIT / d). assert (WB : d * W <= n * UNIT < d * (W + 1)).
  { unfold W. pose proof (Z.mul_div_le (n * UNIT) d D). pose proof (Z.mul_succ_div_gt (n * UNIT) d D). unfold Z.succ in *. split; assumption. }
  assert (W0 : 2 ^ 52 <= W). { unfold W. apply Z.div_le_lower_bound; [exact D|]. rewrite UE. rewrite (Z.mul_comm d), (Z.mul_comm (2 ^ 52) (2 ^ 1022)), Z.mul_assoc, (Z.mul_comm (2 ^ 52)). apply Z.mul_le_mono_nonneg_r; [lia|exact LO]. }
  assert (W1 : W < 2 ^ 2098).
  { unfold W. apply Z.div_lt_upper_bound; [exact D|]. replace (2 ^ 2098) with (2 ^ 1024 * UNIT) by (unfold UNIT; apply pow_add3; lia). rewrite Z.mul_assoc. apply Z.mul_lt_mono_pos_r; [exact UP|]. apply Z.lt_le_trans with (1 := HI). rewrite (Z.mul_comm d). apply Z.mul_le_mono_nonneg_r; [lia|]. assert (0 <= 2 ^ 970) by (apply Z.pow_nonneg; lia). lia. }
  clearbody W. clear UE LO HI B. assert (WP : 0 < W) by (assert (0 < 2 ^ 52) by reflexivity; lia). pose proof (zdigits_ge W 52 ltac:(lia) W0) as G0. pose proof (zdigits_le W 2098 ltac:(lia) ltac:(lia) W1) as G1. destruct (zdigits_bounds W WP) as [[BL BU] _].
  set (g := Zdigits2 W - 53) in *. replace (Zdigits2 W - 1) with (g + 52) in BL by (unfold g; lia). replace (Zdigits2 W) with (g + 53) in BU by (unfold g; lia). assert (GR : 0 <= g <= 2045) by (unfold g; lia). clearbody g. clear G0 G1 W0 W1.
  set (P := 2 ^ g). assert (PP : 0 < P) by (apply two_pos; lia). replace (2 ^ (g + 52)) with (P * 2 ^ 52) in BL by (apply pow_add3; lia). replace (2 ^ (g + 53)) with (P * 2 ^ 53) in BU by (apply pow_add3; lia).
  set (m := W / P). assert (MB : P * m <= W < P * (m + 1)). { unfold m. pose proof (Z.mul_div_le W P PP). pose proof (Z.mul_succ_div_gt W P PP). unfold Z.succ in *. split; assumption. }
  assert (M0 : 2 ^ 52 <= m < 2 ^ 53). { unfold m. split; [apply Z.div_le_lower_bound; assumption|apply Z.div_lt_upper_bound; assumption]. }
  clearbody m. destruct m as [|m|m]; [exfalso; clear - M0; assert (0 < 2 ^ 52) by reflexivity; lia| |exfalso; clear - M0; assert (0 < 2 ^ 52) by reflexivity; lia].
  assert (DZ : double (S754_finite neg m (g - 1074))).
  { assert (DG : Zpos (digits2_pos m) = 53). { change (Zpos (digits2_pos m)) with (Zdigits2 (Zpos m)). pose proof (zdigits_ge (Zpos m) 52 ltac:(lia) (proj1 M0)). pose proof (zdigits_le (Zpos m) 53 ltac:(lia) ltac:(lia) (proj2 M0)). lia. }
    unfold double, valid_binary, bounded, canonical_mantissa. rewrite DG. unfold fexp, emin. apply andb_true_iff. split; [apply Zeq_is_eq_bool; lia|apply Z.leb_le; lia]. }
  assert (UZ : units (S754_finite neg m (g - 1074)) = Some (cond_Zopp neg (Zpos m * P))). { cbn [units]. f_equal. replace (g - 1074 + 1074) with g by lia. fold P. destruct neg; cbn [cond_Zopp]; ring. }
  set (b := Zpos m * P) in *. assert (BB : b * d <= n * UNIT < (b + P) * d). { clear - MB WB D. replace (P * Zpos m) with b in MB by (unfold b; ring). replace (P * (Zpos m + 1)) with (b + P) in MB by (unfold b; ring). clearbody b. nia. }
  assert (CL : 2 ^ 52 * Z.abs (cond_Zopp neg b * d - cond_Zopp neg n * UNIT) <= n * UNIT).
  { replace (Z.abs (cond_Zopp neg b * d - cond_Zopp neg n * UNIT)) with (n * UNIT - b * d) by (clear - BB; destruct neg; cbn [cond_Zopp]; lia).
    assert (X : 2 ^ 52 * P <= b) by (unfold b; apply Z.mul_le_mono_nonneg_r; lia). change (2 ^ 52) with 4503599627370496 in *. clear - X BB D. clearbody b. nia. }
  destruct (Z.eq_dec (cond_Zopp neg b) a) as [<-|NE]; [exact CL|]. pose proof (H _ _ DZ UZ NE) as R. cbv beta zeta in R. change (2 ^ 52) with 4503599627370496 in *. clear - R CL. destruct R as [R|[R _]]; lia.
Qed.

Lemma six_gap q e p f k : six q -> six p -> 0 <= k + e - 5 -> 0 <= k + f - 5 -> q * 10 ^ (k + e - 5) <> p * 10 ^ (k + f - 5) ->
  q * 10 ^ (k + e - 5) <= 10 ^ 7 * Z.abs (p * 10 ^ (k + f - 5) - q * 10 ^ (k + e - 5)).
Proof.
  unfold six. change (10 ^ 5) with 100000. change (10 ^ 6) with 1000000. change (10 ^ 7) with 10000000. intros Q P KE KF NE. destruct (Z_le_gt_dec e f) as [L|L].
  - replace (10 ^ (k + f - 5)) with (10 ^ (f - e) * 10 ^ (k + e - 5)) in * by (apply pow_add3; lia). assert (G : 0 < 10 ^ (k + e - 5)) by (apply ten_pos; lia). rewrite Z.mul_assoc in *. set (g := 10 ^ (k + e - 5)) in *. set (j := p * 10 ^ (f - e)) in *. clearbody g j. clear - Q NE G.
    assert (J : j <> q) by (intros ->; apply NE; reflexivity). replace (j * g - q * g) with ((j - q) * g) by ring. rewrite Z.abs_mul, (Z.abs_eq g) by lia. assert (1 <= Z.abs (j - q)) by lia. set (y := Z.abs (j - q)) in *. clearbody y. nia.
  - replace (10 ^ (k + e - 5)) with (10 * 10 ^ (e - f - 1) * 10 ^ (k + f - 5)) in * by (rewrite <- Z.mul_assoc, (pow_add3 10 (e - f - 1) (k + f - 5) (k + e - 6)) by lia; replace (k + e - 5) with (Z.succ (k + e - 6)) by lia; rewrite Z.pow_succ_r by lia; reflexivity).
    assert (F : 0 < 10 ^ (k + f - 5)) by (apply ten_pos; lia). assert (S : 0 < 10 ^ (e - f - 1)) by (apply ten_pos; lia). rewrite Z.mul_assoc in *. set (g := 10 ^ (k + f - 5)) in *. set (s := 10 ^ (e - f - 1)) in *. set (j := q * (10 * s)) in *. assert (J : 1000000 <= j) by (unfold j; clearbody s; nia). clearbody g s j. clear - P F J.
    assert (p * g - j * g < 0) by nia. rewrite Z.abs_neq by lia. replace (- (p * g - j * g)) with ((j - p) * g) by ring. assert (j <= 10000000 * (j - p)) by lia. nia.
Qed.
Theorem six_short neg q e y : six q -> -307 <= e <= 307 -> nearest_scaled y neg q 10 (e - 5) -> exists a, units y = Some a /\ (a <? 0) = neg /\ six_digits (Z.abs a) UNIT q e.
Proof.
  intros Q E NS. pose proof unit_pos as UP.
  assert (CL : forall k, 0 <= k -> 0 <= k + e - 5 -> exists a, units y = Some a /\ 0 <= cond_Zopp neg a /\ 2 ^ 52 * Z.abs (a * 10 ^ k - cond_Zopp neg (q * 10 ^ (k + e - 5)) * UNIT) <= q * 10 ^ (k + e - 5) * UNIT).
  { intros k K KE. assert (T : 0 < 10 ^ (k + e - 5)) by (apply ten_pos; exact KE). assert (TK : 0 < 10 ^ k) by (apply ten_pos; exact K). unfold six in Q. change (10 ^ 5) with 100000 in Q. change (10 ^ 6) with 1000000 in Q.
    apply nearest_close; [apply Z.mul_pos_pos; lia|exact TK| | |].
    - destruct (Z_le_gt_dec e 5) as [L|L].
      + replace (10 ^ k) with (10 ^ (5 - e) * 10 ^ (k + e - 5)) by (apply pow_add3; lia). rewrite (Z.mul_comm q), <- Z.mul_assoc, (Z.mul_comm (10 ^ (5 - e))). apply Z.mul_le_mono_nonneg_l; [lia|].
        apply Z.le_trans with (10 ^ 312); [apply Z.pow_le_mono_r; lia|]. apply Z.le_trans with (100000 * 2 ^ 1022); [apply Z.leb_le; vm_compute; reflexivity|]. apply Z.mul_le_mono_nonneg_r; [apply Z.pow_nonneg; lia|lia].
      + assert (10 ^ k <= 10 ^ (k + e - 5)) by (apply Z.pow_le_mono_r; lia). assert (P : 1 <= 2 ^ 1022) by (change 1 with (2 ^ 0); apply Z.pow_le_mono_r; lia). set (w := 2 ^ 1022) in *. clearbody w. set (g := 10 ^ (k + e - 5)) in *. clearbody g. set (z := 10 ^ k) in *. clearbody z. clear - H P Q T. assert (g <= q * g) by nia. assert (q * g <= q * g * w) by nia. lia.
    - destruct (Z_le_gt_dec e 5) as [L|L].
      + assert (10 ^ (k + e - 5) <= 10 ^ k) by (apply Z.pow_le_mono_r; lia). apply Z.lt_le_trans with (1000000 * 10 ^ k); [clear - H Q T; nia|]. apply Z.mul_le_mono_nonneg_r; [lia|]. apply Z.leb_le. vm_compute. reflexivity.
      + replace (10 ^ (k + e - 5)) with (10 ^ (e - 5) * 10 ^ k) by (apply pow_add3; lia). rewrite Z.mul_assoc. apply Z.mul_lt_mono_pos_r; [exact TK|]. apply Z.lt_le_trans with (1000000 * 10 ^ (e - 5)); [apply Z.mul_lt_mono_pos_r; [apply ten_pos; lia|lia]|].
        apply Z.le_trans with (1000000 * 10 ^ 302); [apply Z.mul_le_mono_nonneg_l; [lia|apply Z.pow_le_mono_r; lia]|]. apply Z.leb_le. vm_compute. reflexivity.
    - replace (k + e - 5) with (k + (e - 5)) by lia. apply scaled_at; [lia|lia|exact NS]. }
  destruct (CL (Z.abs e + 5) ltac:(lia) ltac:(lia)) as (a & UY & SA & C0). exists a. split; [exact UY|].
  assert (CL' : forall k, 0 <= k -> 0 <= k + e - 5 -> 2 ^ 52 * Z.abs (Z.abs a * 10 ^ k - q * 10 ^ (k + e - 5) * UNIT) <= q * 10 ^ (k + e - 5) * UNIT).
  { intros k K KE. destruct (CL k K KE) as (a' & UY' & _ & C). rewrite UY in UY'. injection UY' as <-. replace (Z.abs (Z.abs a * 10 ^ k - q * 10 ^ (k + e - 5) * UNIT)) with (Z.abs (a * 10 ^ k - cond_Zopp neg (q * 10 ^ (k + e - 5)) * UNIT)); [exact C|].
    clear - SA. destruct neg; cbn [cond_Zopp] in *; [rewrite (Z.abs_neq a) by lia|rewrite (Z.abs_eq a) by lia; reflexivity]. rewrite <- Z.abs_opp. f_equal. ring. }
  clear CL. split.
  { assert (a <> 0). { intros ->. specialize (CL' (Z.abs e + 5) ltac:(lia) ltac:(lia)). assert (T : 0 < q * 10 ^ (Z.abs e + 5 + e - 5) * UNIT) by (apply Z.mul_pos_pos; [apply Z.mul_pos_pos; [unfold six in Q; lia|apply ten_pos; lia]|exact UP]). set (w := q * 10 ^ (Z.abs e + 5 + e - 5) * UNIT) in *. clearbody w. change (2 ^ 52) with 4503599627370496 in CL'. change (Z.abs 0) with 0 in CL'. rewrite Z.mul_0_l, Z.sub_0_l, Z.abs_opp, (Z.abs_eq w) in CL' by lia. clear - CL' T. lia. }
    clear - SA H. destruct neg; cbn [cond_Zopp] in SA; lia. }
  split; [exact Q|]. intros p f k P K KE KF. cbv beta zeta. specialize (CL' k K KE). destruct (Z.eq_dec (q * 10 ^ (k + e - 5)) (p * 10 ^ (k + f - 5))) as [EQ|NE]; [left; exact EQ|right; left].
  pose proof (six_gap q e p f k Q P KE KF NE) as GAP. assert (T : 0 < q * 10 ^ (k + e - 5)) by (apply Z.mul_pos_pos; [unfold six in Q; lia|apply ten_pos; exact KE]).
  set (u := q * 10 ^ (k + e - 5)) in *. set (w := p * 10 ^ (k + f - 5)) in *. set (z := Z.abs a * 10 ^ k) in *. clearbody u w z. set (U := UNIT) in *. clearbody U. clear - CL' GAP UP T.
  assert (G2 : u * U <= 10 ^ 7 * Z.abs (w * U - u * U)) by (replace (w * U - u * U) with ((w - u) * U) by ring; rewrite Z.abs_mul, (Z.abs_eq U) by lia; rewrite Z.mul_assoc; apply Z.mul_le_mono_nonneg_r; lia).
  assert (T2 : 0 < u * U) by (apply Z.mul_pos_pos; assumption). set (x := u * U) in *. set (v := w * U) in *. clearbody x v. change (2 ^ 52) with 4503599627370496 in *. change (10 ^ 7) with 10000000 in *. clear - CL' G2 T2. lia.
Qed.

(* the same for a number given by m * 10^f with fewer digits *)
Theorem short_digits neg m f y : 0 < m < 10 ^ 6 -> -307 <= f <= 302 -> nearest_scaled y neg m 10 f ->
  exists a q e j, units y = Some a /\ (a <? 0) = neg /\ six_digits (Z.abs a) UNIT q e /\ 0 <= j /\ q = m * 10 ^ j /\ e - 5 + j = f.
Proof.
  intros M F N. destruct (log_ten m M) as (X & XB & L). assert (T : 0 < 10 ^ (5 - X)) by (apply ten_pos; lia).
  assert (Q : six (m * 10 ^ (5 - X))).
  { unfold six. replace (10 ^ 5) with (10 ^ X * 10 ^ (5 - X)) by (apply pow_add3; lia). replace (10 ^ 6) with (10 ^ (X + 1) * 10 ^ (5 - X)) by (apply pow_add3; lia). split; [apply Z.mul_le_mono_nonneg_r; lia|apply Z.mul_lt_mono_pos_r; lia]. }
  assert (NS : nearest_scaled y neg (m * 10 ^ (5 - X)) 10 (f + X - 5)).
  { apply (scaled_same y neg m f (m * 10 ^ (5 - X)) (f + X - 5) (5 - X)); [lia| |lia|exact N]. replace (f + X - 5 - f + (5 - X)) with 0 by lia. rewrite Z.pow_0_r, Z.mul_1_r. reflexivity. }
  destruct (six_short neg (m * 10 ^ (5 - X)) (f + X) y Q ltac:(lia) NS) as (a & U & S & D). exists a, (m * 10 ^ (5 - X)), (f + X), (5 - X). split; [exact U|]. split; [exact S|]. split; [exact D|]. split; [lia|]. split; [reflexivity|lia].
Qed.
Theorem short_back neg m f y t : 0 < m < 10 ^ 6 -> -307 <= f <= 302 -> nearest_scaled y neg m 10 f -> written y t -> reads_as t y.
Proof.
  intros M F N (a & q & e & b & U & S & -> & NT). destruct (short_digits neg m f y M F N) as (a' & q' & e' & j & U' & S' & D & J & EQ & EF). rewrite U in U'. injection U' as <-.
  destruct (six_unique _ _ _ _ _ _ unit_pos S D) as [<- <-]. apply (sign_reads a q e b y NT). rewrite S'. apply (scaled_same y neg q (e - 5) m f 0); [lia| |lia|exact N]. rewrite Z.pow_0_r, Z.mul_1_r, EQ. f_equal. f_equal. lia.
Qed.

(* ---------- the machine ---------- *)

Lemma value_written x a : double x -> units x = Some a -> a <> 0 -> written x (format_g x).
Proof.
  intros D U A. destruct x as [s|s| |s m e]; try discriminate U; [injection U as <-; contradiction|]. apply format_written. exact D.
Qed.
Lemma special_written x t : special_text x = Some t -> format_g x = t.
Proof. destruct x as [[|]|[|]| |s m e]; intros H; try discriminate H; injection H as <-; reflexivity. Qed.
Lemma str_format E v x st : current v = Some I_STR -> v_stack v = x :: st -> (length (v_sstack v) < 8)%nat -> gives E v st (format_g x :: v_sstack v).
Proof.
  intros C S L. eapply gives_intro; [exact C|]. cbn [exec_instr]. rewrite (bind_pop _ v _ st S). apply adv_ok. unfold push_str. cbn [v_sstack set_stack]. destruct (Nat.leb_spec MAX_STR_STACK (length (v_sstack v))) as [Q|_]; [exfalso; unfold MAX_STR_STACK in Q; lia|]. destruct v; reflexivity.
Qed.
Theorem str_written E v x st a : current v = Some I_STR -> v_stack v = x :: st -> (length (v_sstack v) < 8)%nat -> double x -> units x = Some a -> a <> 0 ->
  exists t, written x t /\ gives E v st (t :: v_sstack v).
Proof. intros C S L D U A. exists (format_g x). split; [exact (value_written x a D U A)|exact (str_format E v x st C S L)]. Qed.
Theorem print_written E v x st a : current v = Some I_PRINT_NUM -> v_stack v = x :: st -> double x -> units x = Some a -> a <> 0 ->
  exists t, written x t /\ prints E v (SP :: t ++ [SP]) (column_after (v_col v) (map OB (SP :: t ++ [SP]))) st (v_sstack v).
Proof. intros C S D U A. exists (format_g x). split; [exact (value_written x a D U A)|exact (print_number E v x st C S)]. Qed.
Theorem str_special E v x st t : current v = Some I_STR -> v_stack v = x :: st -> (length (v_sstack v) < 8)%nat -> special_text x = Some t -> gives E v st (t :: v_sstack v).
Proof. intros C S L T. rewrite <- (special_written x t T). exact (str_format E v x st C S L). Qed.
Theorem print_special E v x st t : current v = Some I_PRINT_NUM -> v_stack v = x :: st -> special_text x = Some t ->
  prints E v (SP :: t ++ [SP]) (column_after (v_col v) (map OB (SP :: t ++ [SP]))) st (v_sstack v).
Proof. intros C S T. rewrite <- (special_written x t T). exact (print_number E v x st C S). Qed.
