(* Numbers and their text (C32). *)
From Coq Require Import Lia ZifyBool ZifyNat ZifyN SpecFloat.
From Verif Require Import Base Num NumSpec TextNumSpec BaseLemmas NumLemmas DoubleProofs RoundProofs VmModel InputProofs.
Local Notation num := Num.num.
Local Notation plain := TextNumSpec.plain.
Local Open Scope list_scope.
Local Open Scope Z_scope.

(* ---------- characters ---------- *)

Definition every (p : ascii -> bool) : bool := forallb (fun n => p (chr (N.of_nat n))) (seq 0 256).
Lemma every_char (p : ascii -> bool) c : every p = true -> p c = true.
Proof.
  intros H. unfold every in H. rewrite forallb_forall in H. pose proof (N_ascii_bounded c) as B. specialize (H (N.to_nat (N_of_ascii c))). rewrite N2Nat.id in H. unfold chr in H. rewrite ascii_N_embedding in H. apply H. apply in_seq. lia.
Qed.
Ltac by_char c := match goal with |- ?p c = true => apply (every_char p); vm_compute; reflexivity | _ => idtac end.
Lemma ceq_iff a b : ceq a b = true <-> a = b.
Proof. exact (ceq_eq a b). Qed.
Lemma ceq_no a b : a <> b -> ceq a b = false.
Proof. intros H. destruct (ceq a b) eqn:E; [apply ceq_iff in E; contradiction|reflexivity]. Qed.

Lemma blank_iff c : is_blank c = true <-> c = SP \/ c = TABCH.
Proof. unfold is_blank. rewrite orb_true_iff, !ceq_iff. tauto. Qed.
Lemma drop_blanks b r : blanks b -> (match r with [] => True | c :: _ => is_blank c = false end) -> drop_while is_blank (b ++ r) = r.
Proof.
  intros B R. induction B as [|c b C B IH]; cbn [app].
  - destruct r as [|c r]; [reflexivity|]. cbn [drop_while]. rewrite R. reflexivity.
  - cbn [drop_while]. apply blank_iff in C. rewrite C. exact IH.
Qed.
Lemma drop_split s : exists b, s = b ++ drop_while is_blank s /\ blanks b.
Proof.
  induction s as [|c s (b & E & B)]; [exists []; split; [reflexivity|constructor]|]. cbn [drop_while]. destruct (is_blank c) eqn:C.
  - exists (c :: b). split; [cbn [app]; f_equal; exact E|]. constructor; [apply blank_iff; exact C|exact B].
  - exists []. split; [reflexivity|constructor].
Qed.
Lemma drop_none s : drop_while is_blank s = [] -> blanks s.
Proof. intros H. destruct (drop_split s) as (b & E & B). rewrite H, app_nil_r in E. subst b. exact B. Qed.
Lemma drop_all b : blanks b -> drop_while is_blank b = [].
Proof. intros B. rewrite <- (app_nil_r b) at 1. apply drop_blanks; [exact B|exact Logic.I]. Qed.

(* what follows a number *)
Definition free (p : ascii -> bool) (r : bytes) : Prop := match r with [] => True | c :: _ => p c = false end.
Lemma blanks_free p r : p SP = false -> p TABCH = false -> blanks r -> free p r.
Proof. intros A B [|c r' [-> | ->] _]; [exact Logic.I|exact A|exact B]. Qed.
Lemma span_all {X} (p : X -> bool) a r : Forall (fun c => p c = true) a -> (match r with [] => True | c :: _ => p c = false end) -> span p (a ++ r) = (a, r).
Proof.
  intros F R. induction F as [|c a C F IH]; cbn [app].
  - destruct r as [|c r]; [reflexivity|]. cbn [span]. rewrite R. reflexivity.
  - cbn [span]. rewrite C, IH. reflexivity.
Qed.

(* ---------- digits ---------- *)

Lemma digits_worth b val ds : Z.of_N (digits_value b val ds) = worth (Z.of_N b) val ds.
Proof.
  unfold digits_value. assert (G : forall a, Z.of_N (fold_left (fun a c => b * a + val c)%N ds a) = Z.of_N a * Z.of_N b ^ Z.of_nat (length ds) + worth (Z.of_N b) val ds).
  { induction ds as [|c ds IH]; intros a; cbn [fold_left worth length].
    - rewrite Z.pow_0_r. lia.
    - rewrite IH. replace (Z.of_nat (Datatypes.S (length ds))) with (Z.succ (Z.of_nat (length ds))) by lia. rewrite Z.pow_succ_r by lia. rewrite N2Z.inj_add, N2Z.inj_mul. ring. }
  rewrite G. lia.
Qed.
Lemma digit_small c : is_digit c = true -> 0 <= Z.of_N (digit_val c) < 10.
Proof. unfold is_digit, digit_val. lia. Qed.
Lemma worth_bounds ds : all is_digit ds -> 0 <= worth 10 digit_val ds < 10 ^ Z.of_nat (length ds).
Proof.
  induction 1 as [|c ds C F IH]; cbn [worth length]; [rewrite Z.pow_0_r; lia|]. apply digit_small in C. replace (Z.of_nat (Datatypes.S (length ds))) with (Z.succ (Z.of_nat (length ds))) by lia. rewrite Z.pow_succ_r by lia.
  set (p := 10 ^ Z.of_nat (length ds)) in *. clearbody p. nia.
Qed.

(* ---------- scanning ---------- *)

Lemma mantissa_scan p t ip fp r : p "."%char = false -> mantissa p t ip fp -> free p r -> (fp = [] -> free (fun c => ceq c ".") r) -> scan_mantissa p (t ++ r) = (ip, fp, r).
Proof.
  intros PP [ip' N A|ip' fp' N A B] R D; unfold scan_mantissa.
  - rewrite (span_all p ip' r A R). destruct r as [|c r]; [reflexivity|]. specialize (D eq_refl). cbn [free] in D. rewrite D. reflexivity.
  - rewrite <- app_assoc. cbn [app]. rewrite (span_all p ip' ("."%char :: fp' ++ r) A PP). change (ceq "."%char ".") with true. cbv iota. rewrite (span_all p fp' r B R). destruct ip', fp'; try reflexivity. exfalso. apply N. reflexivity.
Qed.
Lemma mantissa_some p t ip fp : mantissa p t ip fp -> ip ++ fp <> [].
Proof. intros [ip' N A|ip' fp' N A B]; [rewrite app_nil_r|]; exact N. Qed.
Lemma scan_mantissa_inv p s ip fp r : scan_mantissa p s = (ip, fp, r) -> ip ++ fp <> [] -> exists t, s = t ++ r /\ mantissa p t ip fp.
Proof.
  unfold scan_mantissa. destruct (span p s) as [a b] eqn:S. apply span_spec in S as (-> & A & _). destruct b as [|c b].
  - intros H N. injection H as <- <- <-. exists a. split; [reflexivity|]. constructor; [rewrite app_nil_r in N; exact N|exact A].
  - destruct (ceq c "."%char) eqn:C.
    + apply ceq_iff in C. subst c. destruct (span p b) as [a2 b2] eqn:S2. apply span_spec in S2 as (-> & A2 & _).
      assert (G : (a, a2, b2) = (ip, fp, r) -> ip ++ fp <> [] -> exists t, a ++ "."%char :: a2 ++ b2 = t ++ r /\ mantissa p t ip fp).
      { intros H N. injection H as <- <- <-. exists (a ++ "."%char :: a2). split; [rewrite <- app_assoc; reflexivity|]. constructor; assumption. }
      destruct a as [|? ?], a2 as [|? ?]; try exact G. intros H N. injection H as <- <- _. contradiction N. reflexivity.
    + intros H N. injection H as <- <- <-. exists a. split; [reflexivity|]. constructor; [rewrite app_nil_r in N; exact N|exact A].
Qed.

Lemma exponent_scan mark u e r : ceq (to_lower SP) mark = false -> ceq (to_lower TABCH) mark = false -> exponent mark u e -> blanks r -> Num.scan_exponent mark (u ++ r) = (e, r).
Proof.
  intros M1 M2 X R. assert (RD : free is_digit r) by (apply blanks_free; [reflexivity|reflexivity|exact R]). destruct X as [|c ds C N A|c ds C N A|c ds C N A]; cbn [app]; unfold Num.scan_exponent.
  - destruct R as [|c r [-> | ->] R]; [reflexivity|rewrite M1; reflexivity|rewrite M2; reflexivity].
  - rewrite (proj2 (ceq_iff _ _) C). destruct ds as [|d ds]; [contradiction|]. cbn [app]. assert (D : is_digit d = true) by (inversion A; assumption).
    assert (D1 : ceq d "-"%char = false) by (destruct (ceq d "-"%char) eqn:Q; [apply ceq_iff in Q; subst d; discriminate D|reflexivity]). assert (D2 : ceq d "+"%char = false) by (destruct (ceq d "+"%char) eqn:Q; [apply ceq_iff in Q; subst d; discriminate D|reflexivity]).
    rewrite D1, D2. change (d :: ds ++ r) with ((d :: ds) ++ r). rewrite (span_all is_digit (d :: ds) r A RD). rewrite digits_worth. reflexivity.
  - rewrite (proj2 (ceq_iff _ _) C). change (ceq "+"%char "-") with false. change (ceq "+"%char "+") with true. cbv iota. rewrite (span_all is_digit ds r A RD). rewrite digits_worth. destruct ds; [contradiction|reflexivity].
  - rewrite (proj2 (ceq_iff _ _) C). change (ceq "-"%char "-") with true. cbv iota. rewrite (span_all is_digit ds r A RD). rewrite digits_worth. destruct ds; [contradiction|reflexivity].
Qed.
Lemma scan_exponent_inv mark s e r : Num.scan_exponent mark s = (e, r) -> exists u, s = u ++ r /\ exponent mark u e.
Proof.
  unfold Num.scan_exponent. assert (NO : (0, s) = (e, r) -> exists u, s = u ++ r /\ exponent mark u e) by (intros H; injection H as <- <-; exists []; split; [reflexivity|constructor]).
  destruct s as [|c s]; [exact NO|]. destruct (ceq (to_lower c) mark) eqn:C; [|exact NO]. apply ceq_iff in C.
  assert (G : forall (neg : bool) pre g, s = pre ++ g -> (forall ds, ds <> [] -> all is_digit ds -> exponent mark (c :: pre ++ ds) (if neg then - worth 10 digit_val ds else worth 10 digit_val ds)) ->
    match span is_digit g with ([], _) => (0, c :: s) | (ds, r2) => ((if neg then - Z.of_N (digits_value 10 digit_val ds) else Z.of_N (digits_value 10 digit_val ds)), r2) end = (e, r) -> exists u, c :: s = u ++ r /\ exponent mark u e).
  { intros neg pre g -> X. destruct (span is_digit g) as [a b] eqn:S. apply span_spec in S as (-> & A & _). rewrite digits_worth. destruct a as [|d a]; [exact NO|]. intros H. injection H as <- <-.
    exists (c :: pre ++ d :: a). split; [cbn [app]; rewrite <- app_assoc; reflexivity|]. apply X; [discriminate|exact A]. }
  destruct s as [|d s]; [exact (G false [] [] eq_refl (fun ds N A => Ex_plain mark c ds C N A))|]. destruct (ceq d "-"%char) eqn:D1.
  - apply ceq_iff in D1. subst d. exact (G true ["-"%char] s eq_refl (fun ds N A => Ex_minus mark c ds C N A)).
  - destruct (ceq d "+"%char) eqn:D2.
    + apply ceq_iff in D2. subst d. exact (G false ["+"%char] s eq_refl (fun ds N A => Ex_plus mark c ds C N A)).
    + exact (G false [] (d :: s) eq_refl (fun ds N A => Ex_plain mark c ds C N A)).
Qed.

Definition no_x (s : bytes) : Prop := Forall (fun c => ceq (to_lower c) "x" = false) s.
Lemma digit_no_x c : is_digit c = true -> ceq (to_lower c) "x" = false.
Proof. intros H. assert (X : implb (is_digit c) (negb (ceq (to_lower c) "x")) = true) by (apply (every_char (fun c => implb (is_digit c) (negb (ceq (to_lower c) "x")))); vm_compute; reflexivity). rewrite H in X. apply negb_true_iff. exact X. Qed.
Lemma digits_no_x ds : all is_digit ds -> no_x ds.
Proof. intros A. unfold no_x. eapply Forall_impl; [|exact A]. intros c. apply digit_no_x. Qed.
Lemma mantissa_no_x t ip fp : mantissa is_digit t ip fp -> no_x t.
Proof. intros [ip' N A|ip' fp' N A B]; [apply digits_no_x; exact A|]. apply Forall_app. split; [apply digits_no_x; exact A|]. constructor; [reflexivity|apply digits_no_x; exact B]. Qed.
Lemma exponent_no_x u e : exponent "e" u e -> no_x u.
Proof. intros [|c ds C N A|c ds C N A|c ds C N A]; [constructor| | |]; (constructor; [rewrite C; reflexivity|]); try (constructor; [reflexivity|]); apply digits_no_x; exact A. Qed.
Lemma blanks_no_x c : blanks c -> no_x c.
Proof. intros B. unfold no_x. eapply Forall_impl; [|exact B]. intros d [-> | ->]; reflexivity. Qed.
Lemma exponent_free p mark u e r : (forall c, to_lower c = mark -> p c = false) -> p SP = false -> p TABCH = false -> exponent mark u e -> blanks r -> free p (u ++ r).
Proof. intros M A B [|c ds C N D|c ds C N D|c ds C N D] R; cbn [app]; [exact (blanks_free p r A B R)| | |]; exact (M c C). Qed.

Definition starts_num (c : ascii) : bool := is_digit c || ceq c ".".
Lemma mantissa_first t ip fp : mantissa is_digit t ip fp -> exists c r, t = c :: r /\ starts_num c = true.
Proof.
  intros [ip' N A|ip' fp' N A B]; unfold starts_num.
  - destruct A as [|c r C A]; [contradiction|]. exists c, r. rewrite C. split; reflexivity.
  - destruct A as [|c r C A]; [exists "."%char, fp'; split; reflexivity|]. exists c, (r ++ "."%char :: fp'). rewrite C. split; reflexivity.
Qed.
Lemma num_no_word w c s : starts_num c = true -> (match w with d :: _ => to_lower d = "i"%char \/ to_lower d = "n"%char | [] => False end) -> striprefix w (c :: s) = false.
Proof.
  intros C W. assert (X : implb (starts_num c) (negb (code "i" =? code (to_lower c))%N && negb (code "n" =? code (to_lower c))%N) = true) by (apply (every_char (fun c => implb (starts_num c) (negb (code "i" =? code (to_lower c))%N && negb (code "n" =? code (to_lower c))%N))); vm_compute; reflexivity).
  rewrite C in X. cbn [implb] in X. apply andb_true_iff in X as [X1 X2]. apply negb_true_iff in X1. apply negb_true_iff in X2. destruct w as [|d w]; [contradiction|]. cbn [striprefix]. destruct W as [-> | ->]; [rewrite X1|rewrite X2]; reflexivity.
Qed.
Definition decimal_of (n : bool) (ip fp : bytes) (e : Z) : num := scale10 n (digits_value 10 digit_val (ip ++ fp)) (Z.of_nat (length (ip ++ fp))) (e - Z.of_nat (length fp)).
Definition hex_of (n : bool) (ip fp : bytes) (e : Z) : num := scale2 n (digits_value 16 hex_val (ip ++ fp)) (e - 4 * Z.of_nat (length fp)).
Lemma decimal_scan n t ip fp u e c : mantissa is_digit t ip fp -> exponent "e" u e -> blanks c -> scan_unsigned n (t ++ u ++ c) = Some (decimal_of n ip fp e, c).
Proof.
  intros M X B. assert (NX : no_x (t ++ u ++ c)) by (apply Forall_app; split; [exact (mantissa_no_x _ _ _ M)|]; apply Forall_app; split; [exact (exponent_no_x _ _ X)|exact (blanks_no_x _ B)]).
  assert (SM : scan_mantissa is_digit (t ++ u ++ c) = (ip, fp, u ++ c)).
  { apply mantissa_scan; [reflexivity|exact M| |intros _]; (eapply exponent_free; [|reflexivity|reflexivity|exact X|exact B]); intros d D.
    - destruct (is_digit d) eqn:Q; [|reflexivity]. assert (Y : implb (is_digit d) (negb (ceq (to_lower d) "e")) = true) by (apply (every_char (fun d => implb (is_digit d) (negb (ceq (to_lower d) "e")))); vm_compute; reflexivity). rewrite Q, D in Y. discriminate Y.
    - apply ceq_no. intros ->. discriminate D. }
  assert (W : forall w, (match w with d :: _ => to_lower d = "i"%char \/ to_lower d = "n"%char | [] => False end) -> striprefix w (t ++ u ++ c) = false).
  { destruct (mantissa_first _ _ _ M) as (h & r & E & H). intros w. rewrite E. apply num_no_word. exact H. }
  set (s := t ++ u ++ c) in *. clearbody s. unfold scan_unsigned. rewrite !W by (cbn; auto). cbv zeta.
  assert (G : forall h : option (num * bytes), h = None -> match h with Some v => Some v | None => match scan_mantissa is_digit s with ([], [], _) => None | (ip0, fp0, r1) => let (e0, r2) := Num.scan_exponent "e" r1 in Some (scale10 n (digits_value 10 digit_val (ip0 ++ fp0)) (Z.of_nat (length (ip0 ++ fp0))) (e0 - Z.of_nat (length fp0)), r2) end end = Some (decimal_of n ip fp e, c)).
  { intros h ->. rewrite SM, (exponent_scan "e" u e c eq_refl eq_refl X B). apply mantissa_some in M. unfold decimal_of. destruct ip, fp; try reflexivity. contradiction M. reflexivity. }
  apply G. clear - NX. destruct s as [|z [|x s]]; [reflexivity|reflexivity|]. inversion NX as [|? ? _ N2]; subst. inversion N2 as [|? ? N3 _]; subst. rewrite N3, andb_false_r. reflexivity.
Qed.
Lemma hex_scan n x t ip fp u e c : to_lower x = "x"%char -> mantissa is_hexdigit t ip fp -> exponent "p" u e -> blanks c -> scan_unsigned n ("0"%char :: x :: t ++ u ++ c) = Some (hex_of n ip fp e, c).
Proof.
  intros HX M X B. assert (SM : scan_mantissa is_hexdigit (t ++ u ++ c) = (ip, fp, u ++ c)).
  { apply mantissa_scan; [reflexivity|exact M| |intros _]; (eapply exponent_free; [|reflexivity|reflexivity|exact X|exact B]); intros d D.
    - destruct (is_hexdigit d) eqn:Q; [|reflexivity]. assert (Y : implb (is_hexdigit d) (negb (ceq (to_lower d) "p")) = true) by (apply (every_char (fun d => implb (is_hexdigit d) (negb (ceq (to_lower d) "p")))); vm_compute; reflexivity). rewrite Q, D in Y. discriminate Y.
    - apply ceq_no. intros ->. discriminate D. }
  unfold scan_unsigned. rewrite !(num_no_word _ "0"%char (x :: t ++ u ++ c) eq_refl) by (cbn; auto). cbv zeta. rewrite HX. change (ceq "0"%char "0" && ceq "x"%char "x") with true. cbv iota. rewrite SM, (exponent_scan "p" u e c eq_refl eq_refl X B). apply mantissa_some in M. unfold hex_of. destruct ip, fp; try reflexivity. contradiction M. reflexivity.
Qed.
Lemma strip_same w p r : map to_lower p = map to_lower w -> striprefix w (p ++ r) = true.
Proof. revert p. induction w as [|c w IH]; intros [|d p] H; try discriminate H; [reflexivity|]. cbn [map] in H. injection H as H1 H2. cbn [app striprefix]. rewrite H1, N.eqb_refl. exact (IH p H2). Qed.
Lemma strip_inv w s : striprefix w s = true -> exists p r, s = p ++ r /\ map to_lower p = map to_lower w /\ skipn (length w) s = r.
Proof.
  revert s. induction w as [|c w IH]; intros s H; [exists [], s; split; [reflexivity|split; reflexivity]|]. destruct s as [|d s]; [discriminate H|]. cbn [striprefix] in H. apply andb_true_iff in H as [H1 H2]. destruct (IH s H2) as (p & r & -> & M & K).
  exists (d :: p), r. split; [reflexivity|]. split; [|exact K]. cbn [map]. f_equal; [|exact M]. apply N.eqb_eq in H1. unfold code in H1. apply (f_equal ascii_of_N) in H1. rewrite !ascii_N_embedding in H1. symmetry. exact H1.
Qed.
Lemma strip_short w p r : (length p < length w)%nat -> blanks r -> Forall (fun c => to_lower c <> SP /\ to_lower c <> TABCH) w -> striprefix w (p ++ r) = false.
Proof.
  revert p. induction w as [|c w IH]; intros p L B F; [cbn [length] in L; lia|]. inversion F as [|? ? [F1 F2] F']; subst. destruct p as [|d p]; cbn [app].
  - destruct B as [|d r D B]; [reflexivity|]. cbn [striprefix]. assert (Q : (code (to_lower c) =? code (to_lower d))%N = false); [|rewrite Q; reflexivity]. apply N.eqb_neq. intros Q. unfold code in Q. apply (f_equal ascii_of_N) in Q. rewrite !ascii_N_embedding in Q. destruct D as [-> | ->]; [apply F1|apply F2]; exact Q.
  - cbn [striprefix]. rewrite (IH p); [apply andb_false_r|cbn [length] in L; lia|exact B|exact F'].
Qed.
Lemma map_lower_length p w : map to_lower p = w -> length p = length w.
Proof. intros <-. symmetry. apply map_length. Qed.
Lemma skipn_prefix {X} (p r : list X) k : length p = k -> skipn k (p ++ r) = r.
Proof. intros <-. rewrite skipn_app, skipn_all, Nat.sub_diag. reflexivity. Qed.
Lemma word_scan n w x c : word n w x -> blanks c -> scan_unsigned n (w ++ c) = Some (x, c).
Proof.
  intros W B. unfold scan_unsigned. assert (F : forall l, forallb (fun c => negb (ceq (to_lower c) SP) && negb (ceq (to_lower c) TABCH)) l = true -> Forall (fun c => to_lower c <> SP /\ to_lower c <> TABCH) l).
  { intros l L. apply Forall_forall. rewrite forallb_forall in L. intros d D. specialize (L d D). apply andb_true_iff in L as [L1 L2]. apply negb_true_iff in L1. apply negb_true_iff in L2. split; intros Q; rewrite Q in *; discriminate. }
  destruct W as [w [W|W]|w W|w v W V].
  - assert (L : length w = 3%nat) by exact (map_lower_length _ _ W). rewrite (strip_short (lit "infinity") w c) by (first [rewrite L; cbn; lia|exact B|apply F; reflexivity]). rewrite (strip_same (lit "inf") w c W). rewrite (skipn_prefix w c 3 L). reflexivity.
  - assert (L : length w = 8%nat) by exact (map_lower_length _ _ W). rewrite (strip_same (lit "infinity") w c W). rewrite (skipn_prefix w c 8 L). reflexivity.
  - assert (L : length w = 3%nat) by exact (map_lower_length _ _ W). assert (N : forall l, map to_lower l = lit "nan" -> forall k s, striprefix ("i"%char :: k) (l ++ s) = false).
    { intros [|d l] Q k s; [discriminate Q|]. cbn [map] in Q. assert (Q1 : to_lower d = "n"%char) by (injection Q as Q _; exact Q). cbn [app striprefix]. rewrite Q1. reflexivity. }
    rewrite (N w W (tl (lit "infinity"))), (N w W (tl (lit "inf"))), (strip_same (lit "nan") w c W), (skipn_prefix w c 3 L). destruct B as [|d c [-> | ->] B]; reflexivity.
  - assert (L : length w = 3%nat) by exact (map_lower_length _ _ W). assert (N : forall l, map to_lower l = lit "nan" -> forall k s, striprefix ("i"%char :: k) (l ++ s) = false).
    { intros [|d l] Q k s; [discriminate Q|]. cbn [map] in Q. assert (Q1 : to_lower d = "n"%char) by (injection Q as Q _; exact Q). cbn [app striprefix]. rewrite Q1. reflexivity. }
    rewrite <- app_assoc. cbn [app]. rewrite <- app_assoc. cbn [app].
    rewrite (N w W (tl (lit "infinity"))), (N w W (tl (lit "inf"))), (strip_same (lit "nan") w _ W), (skipn_prefix w _ 3 L). change (ceq "("%char "(") with true. cbv iota zeta.
    rewrite (span_all (fun d => is_alnum d || ceq d "_") v (")"%char :: c) V eq_refl). reflexivity.
Qed.
Lemma scan_unsigned_inv n s x c : scan_unsigned n s = Some (x, c) -> blanks c ->
  exists t, s = t ++ c /\ (word n t x \/
    (exists m ip fp u e, t = m ++ u /\ mantissa is_digit m ip fp /\ exponent "e" u e /\ x = decimal_of n ip fp e) \/
    (exists h m ip fp u e, t = "0"%char :: h :: m ++ u /\ to_lower h = "x"%char /\ mantissa is_hexdigit m ip fp /\ exponent "p" u e /\ x = hex_of n ip fp e)).
Proof.
  unfold scan_unsigned. intros H B.
  destruct (striprefix (lit "infinity") s) eqn:S1.
  { destruct (strip_inv _ _ S1) as (p & r & -> & M & K). change (length (lit "infinity")) with 8%nat in K. rewrite K in H. injection H as <- <-. exists p. split; [reflexivity|]. left. apply Wo_inf. right. exact M. }
  destruct (striprefix (lit "inf") s) eqn:S2.
  { destruct (strip_inv _ _ S2) as (p & r & -> & M & K). change (length (lit "inf")) with 3%nat in K. rewrite K in H. injection H as <- <-. exists p. split; [reflexivity|]. left. apply Wo_inf. left. exact M. }
  destruct (striprefix (lit "nan") s) eqn:S3.
  { destruct (strip_inv _ _ S3) as (p & r & -> & M & K). change (length (lit "nan")) with 3%nat in K. rewrite K in H. clear K.
    assert (W : Some (S754_nan, r) = Some (x, c) -> exists t, p ++ r = t ++ c /\ (word n t x \/
    (exists m ip fp u e, t = m ++ u /\ mantissa is_digit m ip fp /\ exponent "e" u e /\ x = decimal_of n ip fp e) \/
    (exists h m ip fp u e, t = "0"%char :: h :: m ++ u /\ to_lower h = "x"%char /\ mantissa is_hexdigit m ip fp /\ exponent "p" u e /\ x = hex_of n ip fp e))).
    { intros Q. injection Q as <- <-. exists p. split; [reflexivity|]. left. apply Wo_nan. exact M. }
    destruct r as [|d r]; [exact (W H)|]. destruct (ceq d "("%char) eqn:D; [|exact (W H)]. apply ceq_iff in D. subst d. cbv zeta in H. destruct (span (fun d => is_alnum d || ceq d "_") r) as [a b] eqn:SP0. apply span_spec in SP0 as (-> & A & _).
    destruct b as [|d b]; [exact (W H)|]. destruct (ceq d ")"%char) eqn:D; [|exact (W H)]. apply ceq_iff in D. subst d. injection H as <- <-. exists (p ++ "("%char :: a ++ [")"%char]). split; [rewrite <- !app_assoc; cbn [app]; rewrite <- app_assoc; reflexivity|]. left. apply Wo_nan_word; assumption. }
  clear S1 S2 S3. cbv zeta in H.
  assert (D : match scan_mantissa is_digit s with ([], [], _) => None | (ip, fp, r1) => let (e, r2) := Num.scan_exponent "e" r1 in Some (scale10 n (digits_value 10 digit_val (ip ++ fp)) (Z.of_nat (length (ip ++ fp))) (e - Z.of_nat (length fp)), r2) end = Some (x, c) ->
    exists t, s = t ++ c /\ (exists m ip fp u e, t = m ++ u /\ mantissa is_digit m ip fp /\ exponent "e" u e /\ x = decimal_of n ip fp e)).
  { clear H. destruct (scan_mantissa is_digit s) as [[ip fp] r1] eqn:SM. intros H.
    assert (N : ip ++ fp <> []) by (destruct ip, fp; discriminate). destruct (scan_mantissa_inv _ _ _ _ _ SM N) as (m & -> & M). destruct (Num.scan_exponent "e" r1) as [e r2] eqn:SE. destruct (scan_exponent_inv _ _ _ _ SE) as (u & -> & X).
    assert (Q : Some (decimal_of n ip fp e, r2) = Some (x, c)) by (destruct ip, fp; [discriminate H|exact H|exact H|exact H]). injection Q as <- <-. exists (m ++ u). split; [apply app_assoc|]. exists m, ip, fp, u, e. repeat split; assumption. }
  assert (G : forall h : option (num * bytes), (forall y r, h = Some (y, r) -> blanks r -> exists t, s = t ++ r /\ (exists h m ip fp u e, t = "0"%char :: h :: m ++ u /\ to_lower h = "x"%char /\ mantissa is_hexdigit m ip fp /\ exponent "p" u e /\ y = hex_of n ip fp e)) ->
    match h with Some v => Some v | None => match scan_mantissa is_digit s with ([], [], _) => None | (ip, fp, r1) => let (e, r2) := Num.scan_exponent "e" r1 in Some (scale10 n (digits_value 10 digit_val (ip ++ fp)) (Z.of_nat (length (ip ++ fp))) (e - Z.of_nat (length fp)), r2) end end = Some (x, c) ->
    exists t, s = t ++ c /\ (word n t x \/
    (exists m ip fp u e, t = m ++ u /\ mantissa is_digit m ip fp /\ exponent "e" u e /\ x = decimal_of n ip fp e) \/
    (exists h m ip fp u e, t = "0"%char :: h :: m ++ u /\ to_lower h = "x"%char /\ mantissa is_hexdigit m ip fp /\ exponent "p" u e /\ x = hex_of n ip fp e))).
  { clear H. intros [[y r]|] HH Q.
    - injection Q as -> ->. destruct (HH x c eq_refl B) as (t & -> & Y). exists t. split; [reflexivity|]. right. right. exact Y.
    - destruct (D Q) as (t & -> & Y). exists t. split; [reflexivity|]. right. left. exact Y. }
  refine (G _ _ H). clear - B. intros y r0 H RB. destruct s as [|z [|h s]]; [discriminate H|discriminate H|]. destruct (ceq z "0"%char && ceq (to_lower h) "x"%char) eqn:ZX; [|discriminate H]. apply andb_true_iff in ZX as [Z0 HX]. apply ceq_iff in Z0. apply ceq_iff in HX. subst z.
  destruct (scan_mantissa is_hexdigit s) as [[ip fp] r1] eqn:SM.
  assert (N : ip ++ fp <> []) by (destruct ip, fp; discriminate). destruct (scan_mantissa_inv _ _ _ _ _ SM N) as (m & -> & M). destruct (Num.scan_exponent "p" r1) as [e r2] eqn:SE. destruct (scan_exponent_inv _ _ _ _ SE) as (u & -> & X).
  assert (Q : Some (hex_of n ip fp e, r2) = Some (y, r0)) by (destruct ip, fp; [discriminate H|exact H|exact H|exact H]). injection Q as <- <-. exists ("0"%char :: h :: m ++ u). split; [cbn [app]; rewrite app_assoc; reflexivity|]. exists h, m, ip, fp, u, e. repeat split; assumption.
Qed.

(* ---------- values ---------- *)

Lemma mantissa_digits p t ip fp : mantissa p t ip fp -> all p (ip ++ fp).
Proof. intros [ip' N A|ip' fp' N A B]; [rewrite app_nil_r; exact A|apply Forall_app; split; assumption]. Qed.
Lemma decimal_nearest n t ip fp e : mantissa is_digit t ip fp -> nearest_scaled (decimal_of n ip fp e) n (worth 10 digit_val (ip ++ fp)) 10 (e - Z.of_nat (length fp)).
Proof.
  intros M. apply mantissa_digits in M. unfold decimal_of. pose proof (digits_worth 10 digit_val (ip ++ fp)) as W. change (Z.of_N 10) with 10 in W. rewrite <- W. apply scale10_nearest; [lia|]. rewrite W. apply worth_bounds. exact M.
Qed.
Lemma hex_nearest n ip fp e : nearest_scaled (hex_of n ip fp e) n (worth 16 hex_val (ip ++ fp)) 2 (e - 4 * Z.of_nat (length fp)).
Proof. unfold hex_of. pose proof (digits_worth 16 hex_val (ip ++ fp)) as W. change (Z.of_N 16) with 16 in W. rewrite <- W. apply scale2_nearest. Qed.

Lemma figure_scan n t x c : figure n t x -> blanks c -> scan_unsigned n (t ++ c) = Some (x, c).
Proof.
  intros [t' ip fp u e y M X N|h t' ip fp u e y H M X N] B.
  - rewrite <- app_assoc, (decimal_scan n t' ip fp u e c M X B). f_equal. f_equal. refine (nearest_scaled_unique _ _ _ _ _ _ _ (decimal_nearest n t' ip fp e M) N). lia.
  - cbn [app]. rewrite <- app_assoc, (hex_scan n h t' ip fp u e c H M X B). f_equal. f_equal. refine (nearest_scaled_unique _ _ _ _ _ _ _ (hex_nearest n ip fp e) N). lia.
Qed.
Lemma unsigned_iff n s x c : scan_unsigned n s = Some (x, c) /\ blanks c <-> exists t, s = t ++ c /\ blanks c /\ (figure n t x \/ word n t x).
Proof.
  split.
  - intros [H B]. destruct (scan_unsigned_inv n s x c H B) as (t & E & [W|[(m & ip & fp & u & e & -> & M & X & ->)|(h & m & ip & fp & u & e & -> & HX & M & X & ->)]]); exists t || eexists; (split; [exact E|split; [exact B|]]).
    + right. exact W.
    + left. exact (Fi_decimal n m ip fp u e _ M X (decimal_nearest n m ip fp e M)).
    + left. exact (Fi_hex n h m ip fp u e _ HX M X (hex_nearest n ip fp e)).
  - intros (t & -> & B & [F|W]); (split; [|exact B]); [exact (figure_scan n t x c F B)|exact (word_scan n t x c W B)].
Qed.
Lemma figure_first n t x : figure n t x -> exists c r, t = c :: r /\ starts_num c = true.
Proof.
  intros [t' ip fp u e y M X N|h t' ip fp u e y H M X N].
  - destruct (mantissa_first _ _ _ M) as (c & r & -> & C). exists c, (r ++ u). split; [reflexivity|exact C].
  - exists "0"%char, (h :: t' ++ u). split; reflexivity.
Qed.
Lemma starts_word c r n x t : starts_num c = true -> word n (c :: r) x -> t = c :: r -> False.
Proof.
  intros C W _. assert (X : implb (starts_num c) (negb (ceq (to_lower c) "i") && negb (ceq (to_lower c) "n")) = true) by (apply (every_char (fun c => implb (starts_num c) (negb (ceq (to_lower c) "i") && negb (ceq (to_lower c) "n")))); vm_compute; reflexivity).
  rewrite C in X. cbn [implb] in X. apply andb_true_iff in X as [X1 X2]. assert (Q : to_lower c = "i"%char \/ to_lower c = "n"%char).
  { inversion W as [w [E|E] E1 E2|w E E1 E2|w v E V E1 E2].
    - left. injection E as E _. exact E.
    - left. injection E as E _. exact E.
    - right. injection E as E _. exact E.
    - right. destruct w as [|d w]; [discriminate E|]. cbn [app] in E1. injection E1 as -> _. injection E as E _. exact E. }
  destruct Q as [Q|Q]; rewrite Q in *; discriminate.
Qed.
Lemma num_char c : (is_digit c || ceq c "." || ceq c "-" || ceq c "+") = true -> is_blank c = false /\ is_space c = false.
Proof.
  intros H. assert (X : implb (is_digit c || ceq c "." || ceq c "-" || ceq c "+") (negb (is_blank c) && negb (is_space c)) = true) by (apply (every_char (fun c => implb (is_digit c || ceq c "." || ceq c "-" || ceq c "+") (negb (is_blank c) && negb (is_space c)))); vm_compute; reflexivity).
  rewrite H in X. cbn [implb] in X. apply andb_true_iff in X as [X1 X2]. split; apply negb_true_iff; assumption.
Qed.
Lemma starts_char c : starts_num c = true -> (is_digit c || ceq c "." || ceq c "-" || ceq c "+") = true /\ ceq c "-" = false /\ ceq c "+" = false.
Proof.
  intros H. assert (X : implb (starts_num c) ((is_digit c || ceq c "." || ceq c "-" || ceq c "+") && negb (ceq c "-") && negb (ceq c "+")) = true) by (apply (every_char (fun c => implb (starts_num c) ((is_digit c || ceq c "." || ceq c "-" || ceq c "+") && negb (ceq c "-") && negb (ceq c "+")))); vm_compute; reflexivity).
  rewrite H in X. cbn [implb] in X. apply andb_true_iff in X as [X X3]. apply andb_true_iff in X as [X1 X2]. split; [exact X1|]. split; apply negb_true_iff; assumption.
Qed.
Theorem convert_iff s x : convert s = Some (x, []) <-> reads_as s x.
Proof.
  split.
  - unfold convert. intros H. destruct (drop_split s) as (b & E & B). destruct (drop_while is_blank s) as [|c r]; [discriminate H|]. destruct (is_digit c || ceq c "." || ceq c "-" || ceq c "+") eqn:C; [|discriminate H].
    pose proof (num_char c C) as [NB NS]. unfold strtod in H. cbn [drop_while] in H. rewrite NS in H.
    assert (G : forall n g, (let (y, e) := match scan_unsigned n g with Some (v, r0) => (v, r0) | None => (fzero, c :: r) end in Some (y, drop_while is_blank e)) = Some (x, []) -> exists t d, g = t ++ d /\ blanks d /\ (figure n t x \/ word n t x)).
    { intros n g Q. destruct (scan_unsigned n g) as [[y e]|] eqn:SU.
      - injection Q as -> Q. apply drop_none in Q. destruct (proj1 (unsigned_iff n g x e) (conj SU Q)) as (t & T & _ & F). exists t, e. split; [exact T|split; assumption].
      - cbn [drop_while] in Q. rewrite NB in Q. discriminate Q. }
    destruct (ceq c "-"%char) eqn:C1; [|destruct (ceq c "+"%char) eqn:C2].
    + apply ceq_iff in C1. subst c. destruct (G true r H) as (t & d & -> & BD & F). exists b, ("-"%char :: t), d. split; [exact E|]. split; [exact B|]. split; [exact (Nu_minus t x F)|exact BD].
    + apply ceq_iff in C2. subst c. destruct (G false r H) as (t & d & -> & BD & F). exists b, ("+"%char :: t), d. split; [exact E|]. split; [exact B|]. split; [exact (Nu_plus t x F)|exact BD].
    + destruct (G false (c :: r) H) as (t & d & T & BD & F). rewrite T in E. exists b, t, d. split; [exact E|]. split; [exact B|]. split; [|exact BD]. apply Nu_unsigned. destruct F as [F|W]; [exact F|exfalso].
      assert (SN : starts_num c = true). { unfold starts_num. rewrite !orb_true_iff in C. rewrite orb_true_iff. destruct C as [[C|C]|C]; [exact C|congruence|congruence]. }
      destruct t as [|c' t]; [cbn [app] in T; subst d; inversion BD as [|? ? Q _]; subst; apply blank_iff in Q; congruence|]. cbn [app] in T. injection T as <- _. exact (starts_word c t false x _ SN W eq_refl).
  - intros (b & t & c & -> & B & N & BC).
    assert (G : forall h r n g, t = h :: r -> (is_digit h || ceq h "." || ceq h "-" || ceq h "+") = true -> scan_unsigned n (g ++ c) = Some (x, c) ->
      (if ceq h "-" then (true, r ++ c) else if ceq h "+" then (false, r ++ c) else (false, h :: r ++ c)) = (n, g ++ c) -> convert (b ++ t ++ c) = Some (x, [])).
    { intros h r n g -> H SU K. pose proof (num_char h H) as [NB NS]. unfold convert. cbn [app]. rewrite (drop_blanks b (h :: r ++ c) B NB). rewrite H. unfold strtod. cbn [drop_while]. rewrite NS. match goal with |- context [if ceq h "-" then ?a else ?b] => replace (if ceq h "-" then a else b) with (n, g ++ c) by (symmetry; exact K) end. rewrite SU, (drop_all c BC). reflexivity. }
    inversion N as [t' y F|t' y F|t' y F]; subst.
    + destruct (figure_first _ _ _ F) as (h & r & E & H). destruct (starts_char h H) as (H1 & H2 & H3). refine (G h r false t E H1 (figure_scan false t x c F BC) _). rewrite H2, H3, E. reflexivity.
    + refine (G "+"%char t' false t' eq_refl eq_refl _ eq_refl). destruct F as [F|W]; [exact (figure_scan false t' x c F BC)|exact (word_scan false t' x c W BC)].
    + refine (G "-"%char t' true t' eq_refl eq_refl _ eq_refl). destruct F as [F|W]; [exact (figure_scan true t' x c F BC)|exact (word_scan true t' x c W BC)].
Qed.
Lemma reads_unique s x y : reads_as s x -> reads_as s y -> x = y.
Proof. intros X Y. apply convert_iff in X. apply convert_iff in Y. congruence. Qed.

(* ---------- integers ---------- *)

Lemma integer_figure z ds : Z.abs z < 2 ^ 53 -> (z = 0 -> True) -> all is_digit ds -> ds <> [] -> worth 10 digit_val ds = Z.abs z -> figure (z <? 0) ds (fofZ z).
Proof.
  intros B _ A N W. rewrite <- (app_nil_r ds). apply (Fi_decimal (z <? 0) ds ds [] [] 0 (fofZ z)); [constructor; assumption|constructor|]. rewrite app_nil_r, W. change (0 - Z.of_nat (length (@nil ascii))) with 0.
  destruct (Z.eq_dec z 0) as [->|Z0]; [apply (zero_scaled false 10 0); lia|].
  assert (M : mantissa is_digit ds ds []) by (constructor; assumption). pose proof (decimal_nearest (z <? 0) ds ds [] 0 M) as NE. rewrite app_nil_r, W in NE. change (0 - Z.of_nat (length (@nil ascii))) with 0 in NE.
  unfold nearest_scaled in NE. cbn [Z.leb Z.compare] in NE. rewrite Z.pow_0_r, Z.mul_1_r in NE. destruct (fofZ_spec z B) as [DZ UZ].
  assert (Q : decimal_of (z <? 0) ds [] 0 = fofZ z). { refine (nearest_exact _ _ _ _ _ _ _ _ NE DZ UZ _); [lia|lia|]. rewrite Z.mul_1_r. f_equal. destruct (z <? 0) eqn:S; cbn [cond_Zopp]; lia. }
  unfold nearest_scaled. cbn [Z.leb Z.compare]. rewrite Z.pow_0_r, Z.mul_1_r, <- Q. exact NE.
Qed.
Theorem plain_reads b z t c : Z.abs z < 2 ^ 53 -> plain z t -> blanks b -> blanks c -> reads_as (b ++ t ++ c) (fofZ z).
Proof.
  intros Z (ds & -> & A & W & L) B C. assert (N : ds <> []) by (destruct ds; [contradiction|discriminate]). pose proof (integer_figure z ds Z (fun _ => Logic.I) A N W) as F. exists b. eexists. exists c. split; [reflexivity|]. split; [exact B|]. split; [|exact C].
  destruct (z <? 0); cbn [app]; [apply Nu_minus; left; exact F|apply Nu_unsigned; exact F].
Qed.

Lemma digit_char_ok n : 0 <= n -> is_digit (digit_char (Z.to_N (n mod 10))) = true /\ Z.of_N (digit_val (digit_char (Z.to_N (n mod 10)))) = n mod 10.
Proof.
  intros H. pose proof (Z.mod_pos_bound n 10 ltac:(lia)) as B. set (m := n mod 10) in *. clearbody m. clear H n. assert (Q : m = 0 \/ m = 1 \/ m = 2 \/ m = 3 \/ m = 4 \/ m = 5 \/ m = 6 \/ m = 7 \/ m = 8 \/ m = 9) by lia.
  repeat (destruct Q as [->|Q]; [split; reflexivity|]). subst m. split; reflexivity.
Qed.
Lemma fixed_length k n : length (digits_fixed k n) = k.
Proof. revert n. induction k as [|k IH]; intros n; [reflexivity|]. cbn [digits_fixed]. rewrite app_length, IH. cbn [length]. lia. Qed.
Lemma fixed_digits k n : 0 <= n -> all is_digit (digits_fixed k n).
Proof.
  revert n. induction k as [|k IH]; intros n H; [constructor|]. cbn [digits_fixed]. apply Forall_app. split; [apply IH; apply Z.div_pos; lia|]. constructor; [apply digit_char_ok; exact H|constructor].
Qed.
Lemma worth_snoc b val ds c : worth b val (ds ++ [c]) = worth b val ds * b + Z.of_N (val c).
Proof.
  induction ds as [|d ds IH]; cbn [app worth length]; [rewrite Z.pow_0_r; lia|]. rewrite IH, app_length. cbn [length]. replace (Z.of_nat (length ds + 1)) with (Z.succ (Z.of_nat (length ds))) by lia. rewrite Z.pow_succ_r by lia. ring.
Qed.
Lemma fixed_worth k n : 0 <= n < 10 ^ Z.of_nat k -> worth 10 digit_val (digits_fixed k n) = n.
Proof.
  revert n. induction k as [|k IH]; intros n H; [cbn [digits_fixed worth]; change (10 ^ Z.of_nat 0) with 1 in H; lia|]. cbn [digits_fixed]. rewrite worth_snoc. replace (Z.of_nat (Datatypes.S k)) with (Z.succ (Z.of_nat k)) in H by lia. rewrite Z.pow_succ_r in H by lia.
  rewrite IH by (split; [apply Z.div_pos; lia|apply Z.div_lt_upper_bound; lia]). destruct (digit_char_ok n ltac:(lia)) as [_ ->]. pose proof (Z.div_mod n 10 ltac:(lia)). lia.
Qed.
Lemma fixed_zeros k j z : digits_fixed (k + j) (z * 10 ^ Z.of_nat j) = digits_fixed k z ++ repeat "0"%char j.
Proof.
  induction j as [|j IH]; [rewrite Nat.add_0_r, Z.mul_1_r, app_nil_r; reflexivity|]. rewrite Nat.add_succ_r. cbn [digits_fixed]. replace (Z.of_nat (Datatypes.S j)) with (Z.succ (Z.of_nat j)) by lia. rewrite Z.pow_succ_r by lia. replace (z * (10 * 10 ^ Z.of_nat j)) with (z * 10 ^ Z.of_nat j * 10) by ring.
  rewrite Z.div_mul, Z.mod_mul by lia. rewrite IH, <- app_assoc. f_equal. change (digit_char (Z.to_N 0)) with "0"%char. clear. induction j as [|j IH]; [reflexivity|]. cbn [repeat app]. f_equal. exact IH.
Qed.
Lemma strip_all_zeros j : strip_zeros (repeat "0"%char j) = [].
Proof. induction j as [|j IH]; [reflexivity|]. cbn [repeat strip_zeros]. rewrite IH. reflexivity. Qed.
Lemma even_exact q c : 0 < c -> div_even (q * c) c = q.
Proof. intros C. unfold div_even. rewrite Z.div_mul, Z.mod_mul by lia. destruct (Z.compare_spec (2 * 0) c); [lia|reflexivity|lia]. Qed.
Lemma ge_pow_exact z d x : 0 < d -> 0 <= x -> ge_pow10 (z * d) d x = (10 ^ x <=? z).
Proof. intros D X. unfold ge_pow10, scaled. apply Z.leb_le in X. rewrite X. destruct (10 ^ x <=? z) eqn:E; [apply Z.leb_le in E; apply Z.leb_le; nia|apply Z.leb_gt in E; apply Z.leb_gt; nia]. Qed.
Lemma find_exact z d X fuel : 0 < d -> 0 <= X -> 10 ^ X <= z < 10 ^ (X + 1) -> forall x, X <= x < X + Z.of_nat fuel -> find_exp fuel (z * d) d x = X.
Proof.
  intros D HX L. induction fuel as [|fuel IH]; intros x H; [lia|]. cbn [find_exp]. rewrite ge_pow_exact by lia. destruct (Z.eq_dec x X) as [->|N].
  - rewrite (proj2 (Z.leb_le (10 ^ X) z)) by lia. reflexivity.
  - assert (10 ^ (X + 1) <= 10 ^ x) by (apply Z.pow_le_mono_r; lia). rewrite (proj2 (Z.leb_gt (10 ^ x) z)) by lia. apply IH. lia.
Qed.
Lemma digits_two k : 0 <= k -> Zdigits2 (2 ^ k) = k + 1.
Proof.
  intros K. assert (0 < 2 ^ k) by (apply Z.pow_pos_nonneg; lia). pose proof (zdigits_ge (2 ^ k) k K ltac:(lia)). pose proof (zdigits_le (2 ^ k) (k + 1)) as X. rewrite Z.pow_add_r, Z.pow_1_r in X by lia. assert (Zdigits2 (2 ^ k) <= k + 1) by (apply X; lia). lia.
Qed.
Lemma digits_times z k : 0 < z -> 0 <= k -> Zdigits2 (z * 2 ^ k) = Zdigits2 z + k.
Proof.
  intros Z K. assert (P : 0 < 2 ^ k) by (apply Z.pow_pos_nonneg; lia). destruct (zdigits_bounds z Z) as [[A B] C].
  assert (L : 2 ^ (Zdigits2 z - 1 + k) <= z * 2 ^ k) by (rewrite Z.pow_add_r by lia; apply Z.mul_le_mono_nonneg_r; lia). assert (U : z * 2 ^ k < 2 ^ (Zdigits2 z + k)) by (rewrite Z.pow_add_r by lia; apply Z.mul_lt_mono_pos_r; lia).
  pose proof (zdigits_ge (z * 2 ^ k) (Zdigits2 z - 1 + k) ltac:(lia) L). pose proof (zdigits_le (z * 2 ^ k) (Zdigits2 z + k) ltac:(lia)). nia.
Qed.
Lemma bound_exact z k X : 0 < z < 10 ^ 6 -> 0 <= k -> 0 <= X -> 10 ^ X <= z < 10 ^ (X + 1) -> X <= exp_bound (z * 2 ^ k) (2 ^ k) < X + 5.
Proof.
  intros Z K HX L. unfold exp_bound. rewrite digits_times, digits_two by lia. replace (Zdigits2 z + k - (k + 1) + 1) with (Zdigits2 z) by lia. destruct (zdigits_bounds z ltac:(lia)) as [[A B] C].
  assert (X5 : X <= 5). { destruct (Z_le_gt_dec X 5); [assumption|]. assert (10 ^ 6 <= 10 ^ X) by (apply Z.pow_le_mono_r; lia). lia. }
  assert (G20 : Zdigits2 z <= 20) by (apply zdigits_le; [lia|lia|]; change (2 ^ 20) with 1048576; change (10 ^ 6) with 1000000 in Z; lia).
  set (g := Zdigits2 z) in *. clearbody g. clear K k.
  assert (XS : X = 0 \/ X = 1 \/ X = 2 \/ X = 3 \/ X = 4 \/ X = 5) by lia. assert (GS : g = 1 \/ g = 2 \/ g = 3 \/ g = 4 \/ g = 5 \/ g = 6 \/ g = 7 \/ g = 8 \/ g = 9 \/ g = 10 \/ g = 11 \/ g = 12 \/ g = 13 \/ g = 14 \/ g = 15 \/ g = 16 \/ g = 17 \/ g = 18 \/ g = 19 \/ g = 20) by lia.
  clear X5 G20 C HX Z.
  assert (T : forall P : Prop, (if (2 ^ (g - 1) <=? z) && (z <? 2 ^ g) && (10 ^ X <=? z) && (z <? 10 ^ (X + 1)) then P else True) -> P).
  { intros P H. rewrite (proj2 (Z.leb_le _ _) A), (proj2 (Z.ltb_lt _ _) B), (proj2 (Z.leb_le _ _) (proj1 L)), (proj2 (Z.ltb_lt _ _) (proj2 L)) in H. exact H. }
  clear T. repeat (destruct GS as [->|GS]); try subst g; cbn in A, B; repeat (destruct XS as [->|XS]); try subst X; cbn in L; cbn; lia.
Qed.
Lemma log_ten z : 0 < z < 10 ^ 6 -> exists X, 0 <= X <= 5 /\ 10 ^ X <= z < 10 ^ (X + 1).
Proof.
  change (10 ^ 6) with 1000000. intros Z. destruct (Z_lt_le_dec z 10); [exists 0; cbn; lia|]. destruct (Z_lt_le_dec z 100); [exists 1; cbn; lia|]. destruct (Z_lt_le_dec z 1000); [exists 2; cbn; lia|]. destruct (Z_lt_le_dec z 10000); [exists 3; cbn; lia|]. destruct (Z_lt_le_dec z 100000); [exists 4; cbn; lia|exists 5; cbn; lia].
Qed.
Lemma pos_digits z k : 0 < z < 10 ^ 6 -> 0 <= k -> exists X, 10 ^ Z.of_nat X <= z < 10 ^ (Z.of_nat X + 1) /\ format_pos (z * 2 ^ k) (2 ^ k) = digits_fixed (Datatypes.S X) z.
Proof.
  intros Z K. destruct (log_ten z Z) as (X & XB & L). exists (Z.to_nat X). rewrite Z2Nat.id by lia. split; [exact L|]. assert (P : 0 < 2 ^ k) by (apply Z.pow_pos_nonneg; lia).
  unfold format_pos. rewrite (find_exact z (2 ^ k) X 5 P ltac:(lia) L _ (bound_exact z k X Z K ltac:(lia) L)).
  assert (SC : exists a c, scaled (z * 2 ^ k) (2 ^ k) (X - 5) = (a, c) /\ div_even a c = z * 10 ^ (5 - X)).
  { unfold scaled. destruct (0 <=? X - 5) eqn:E.
    - assert (X = 5) by lia. subst X. change (10 ^ (5 - 5)) with 1. rewrite !Z.mul_1_r. eexists. eexists. split; [reflexivity|]. apply even_exact. exact P.
    - eexists. eexists. split; [reflexivity|]. replace (- (X - 5)) with (5 - X) by lia. replace (z * 2 ^ k * 10 ^ (5 - X)) with (z * 10 ^ (5 - X) * 2 ^ k) by ring. apply even_exact. exact P. }
  destruct SC as (a & c & -> & ->). assert (T : 10 ^ (X + 1) * 10 ^ (5 - X) = 10 ^ 6) by (rewrite <- Z.pow_add_r by lia; f_equal; lia). assert (T0 : 0 < 10 ^ (5 - X)) by (apply Z.pow_pos_nonneg; lia).
  assert (Q : z * 10 ^ (5 - X) =? 1000000 = false). { apply Z.eqb_neq. change 1000000 with (10 ^ 6). nia. }
  rewrite Q. assert (X1 : (X <? -4) || (6 <=? X) = false) by lia. rewrite X1. assert (X2 : X <? 0 = false) by lia. rewrite X2.
  replace (10 ^ (5 - X)) with (10 ^ Z.of_nat (5 - Z.to_nat X)) by (f_equal; lia). replace (digits_fixed 6 (z * 10 ^ Z.of_nat (5 - Z.to_nat X))) with (digits_fixed (Datatypes.S (Z.to_nat X) + (5 - Z.to_nat X)) (z * 10 ^ Z.of_nat (5 - Z.to_nat X))) by (f_equal; lia). rewrite fixed_zeros.
  pose proof (fixed_length (Datatypes.S (Z.to_nat X)) z) as FL. set (ds := digits_fixed (Datatypes.S (Z.to_nat X)) z) in *. clearbody ds.
  rewrite firstn_app, FL, Nat.sub_diag, app_nil_r, <- FL, firstn_all, (skipn_prefix ds _ (length ds) eq_refl). unfold with_point. rewrite strip_all_zeros. reflexivity.
Qed.
Lemma plain_pos z X : 10 ^ Z.of_nat X <= z < 10 ^ (Z.of_nat X + 1) -> let ds := digits_fixed (Datatypes.S X) z in
  all is_digit ds /\ worth 10 digit_val ds = z /\ match ds with [] => False | c :: r => c = "0"%char -> r = [] end.
Proof.
  intros L. assert (P : 0 < 10 ^ Z.of_nat X) by (apply Z.pow_pos_nonneg; lia). cbv zeta. pose proof (fixed_digits (Datatypes.S X) z ltac:(lia)) as A. assert (W : worth 10 digit_val (digits_fixed (Datatypes.S X) z) = z). { apply fixed_worth. replace (Z.of_nat (Datatypes.S X)) with (Z.of_nat X + 1) by lia. lia. }
  pose proof (fixed_length (Datatypes.S X) z) as FL. set (ds := digits_fixed (Datatypes.S X) z) in *. clearbody ds. split; [exact A|]. split; [exact W|]. destruct ds as [|c r]; [discriminate FL|]. intros ->. exfalso. inversion A as [|? ? _ AR]; subst. pose proof (worth_bounds r AR) as B. cbn [length] in FL. injection FL as FL. rewrite FL in B. cbn [worth] in L. change (Z.of_N (digit_val "0")) with 0 in L. lia.
Qed.
Theorem format_plain z : Z.abs z < 10 ^ 6 -> plain z (format_g (fofZ z)).
Proof.
  intros Z. destruct (Z.eq_dec z 0) as [->|Z0]; [exists ["0"%char]; split; [reflexivity|]; split; [repeat constructor|]; split; reflexivity|].
  assert (B : Z.abs z < 2 ^ 53) by (apply Z.lt_trans with (10 ^ 6); [exact Z|reflexivity]). destruct (fofZ_spec z B) as [DZ UZ]. unfold is_integer in UZ. pose proof unit_pos as UP.
  destruct (fofZ z) as [s|s| |s m e]; try discriminate UZ; [exfalso; cbn [units] in UZ; injection UZ as UZ; nia|]. cbn [units] in UZ. injection UZ as UZ. pose proof (valid_finite _ _ _ DZ) as (_ & _ & E).
  assert (P : 0 < 2 ^ (e + 1074)) by (apply Z.pow_pos_nonneg; lia).
  assert (S : s = (z <? 0) /\ Zpos m * 2 ^ (e + 1074) = Z.abs z * UNIT).
  { set (g := 2 ^ (e + 1074)) in *. set (u := UNIT) in *. clearbody g u. clear - UZ P UP. destruct s; cbn [cond_Zopp] in UZ.
    - assert (z < 0) by nia. split; [lia|]. rewrite Z.abs_neq by lia. lia.
    - assert (0 < z) by nia. split; [lia|]. rewrite Z.abs_eq by lia. lia. }
  destruct S as [-> M]. clear UZ. cbn [format_g].
  assert (F : exists k, 0 <= k /\ match e with Zneg k => format_pos (Zpos m) (2 ^ Zpos k) | _ => format_pos (Zpos m * 2 ^ e) 1 end = format_pos (Z.abs z * 2 ^ k) (2 ^ k)).
  { unfold UNIT in M. assert (P1 : 0 < 2 ^ 1074) by (apply Z.pow_pos_nonneg; lia). assert (EP : 0 <= e -> Zpos m * 2 ^ e = Z.abs z).
    { intros HE. rewrite Z.pow_add_r in M by lia. apply (Z.mul_cancel_r _ _ (2 ^ 1074)); [lia|]. rewrite <- Z.mul_assoc. exact M. }
    destruct e as [|p|p].
    - exists 0. split; [lia|]. rewrite EP by lia. rewrite Z.pow_0_r, Z.mul_1_r. reflexivity.
    - exists 0. split; [lia|]. rewrite EP by lia. rewrite Z.pow_0_r, Z.mul_1_r. reflexivity.
    - exists (Zpos p). split; [lia|]. assert (Q : Zpos m = Z.abs z * 2 ^ Zpos p); [|rewrite Q; reflexivity]. apply (Z.mul_cancel_r _ _ (2 ^ (Zneg p + 1074))); [lia|]. rewrite M, <- Z.mul_assoc, <- Z.pow_add_r by lia. f_equal. f_equal. lia. }
  destruct F as (k & K & F). refine (eq_ind_r (fun t => plain z ((if z <? 0 then ["-"%char] else []) ++ t)) _ F). destruct (pos_digits (Z.abs z) k ltac:(lia) K) as (X & L & ->). destruct (plain_pos (Z.abs z) X L) as (A & W & H). eexists. split; [reflexivity|]. split; [exact A|]. split; [exact W|exact H].
Qed.
Lemma number_fofZ x z : Z.abs z < 2 ^ 53 -> number_is x z -> x = fofZ z.
Proof.
  intros B (D & I & S). destruct (Z.eq_dec z 0) as [->|Z0]; [|exact (integer_fofZ x z D I B Z0)]. unfold is_integer in I. destruct x as [s|s| |s m e]; try discriminate I.
  - specialize (S eq_refl). injection S as ->. reflexivity.
  - exfalso. cbn [units] in I. injection I as I. apply valid_finite in D as (_ & _ & E). assert (0 < 2 ^ (e + 1074)) by (apply Z.pow_pos_nonneg; lia). destruct s; cbn [cond_Zopp] in I; nia.
Qed.
Lemma fofZ_number z : Z.abs z < 2 ^ 53 -> number_is (fofZ z) z.
Proof. intros B. destruct (fofZ_spec z B) as [D I]. split; [exact D|]. split; [exact I|]. intros ->. reflexivity. Qed.
Lemma small_exact z : Z.abs z < 10 ^ 6 -> Z.abs z < 2 ^ 53.
Proof. intros Z. apply Z.lt_trans with (10 ^ 6); [exact Z|reflexivity]. Qed.

Lemma digit_same c d : is_digit c = true -> is_digit d = true -> digit_val c = digit_val d -> c = d.
Proof. unfold is_digit, digit_val. intros C D E. assert (Q : code c = code d) by lia. unfold code in Q. apply (f_equal ascii_of_N) in Q. rewrite !ascii_N_embedding in Q. exact Q. Qed.
Lemma worth_same a : forall b, all is_digit a -> all is_digit b -> length a = length b -> worth 10 digit_val a = worth 10 digit_val b -> a = b.
Proof.
  induction a as [|c a IH]; intros [|d b] A B L W; try discriminate L; [reflexivity|]. inversion A as [|? ? C A']; subst. inversion B as [|? ? D B']; subst. cbn [length] in L. injection L as L. cbn [worth] in W. rewrite L in W.
  pose proof (worth_bounds a A') as BA. pose proof (worth_bounds b B') as BB. rewrite L in BA. set (p := 10 ^ Z.of_nat (length b)) in *. assert (Q : Z.of_N (digit_val c) = Z.of_N (digit_val d)) by (clearbody p; nia). f_equal; [apply digit_same; [exact C|exact D|lia]|]. apply IH; [exact A'|exact B'|exact L|]. rewrite Q in W. lia.
Qed.
Lemma worth_size ds : all is_digit ds -> match ds with [] => False | c :: r => c = "0"%char -> r = [] end ->
  ds = ["0"%char] \/ 10 ^ Z.of_nat (length ds - 1) <= worth 10 digit_val ds.
Proof.
  intros A H. destruct ds as [|c r]; [contradiction|]. inversion A as [|? ? C R]; subst. destruct (ascii_dec c "0"%char) as [->|N]; [left; rewrite (H eq_refl); reflexivity|right]. cbn [length]. replace (Datatypes.S (length r) - 1)%nat with (length r) by lia. cbn [worth]. pose proof (worth_bounds r R) as B.
  assert (V : 1 <= Z.of_N (digit_val c)). { assert (digit_val c <> digit_val "0"%char) by (intros Q; apply N, digit_same; [exact C|reflexivity|exact Q]). change (digit_val "0") with 0%N in *. lia. }
  set (p := 10 ^ Z.of_nat (length r)) in *. clearbody p. nia.
Qed.
Theorem plain_unique z t t' : plain z t -> plain z t' -> t = t'.
Proof.
  intros (a & -> & A & WA & HA) (b & -> & B & WB & HB). f_equal. pose proof (worth_bounds a A) as BA. pose proof (worth_bounds b B) as BB.
  assert (NA : a <> []) by (destruct a; [contradiction|discriminate]). assert (NB : b <> []) by (destruct b; [contradiction|discriminate]).
  assert (LA : (1 <= length a)%nat) by (destruct a; [contradiction|cbn [length]; lia]). assert (LB : (1 <= length b)%nat) by (destruct b; [contradiction|cbn [length]; lia]).
  assert (ONE : forall ds, ds = ["0"%char] -> worth 10 digit_val ds = 0) by (intros ds ->; reflexivity).
  destruct (worth_size a A HA) as [QA|QA], (worth_size b B HB) as [QB|QB].
  - congruence.
  - exfalso. apply ONE in QA. assert (0 < 10 ^ Z.of_nat (length b - 1)) by (apply Z.pow_pos_nonneg; lia). lia.
  - exfalso. apply ONE in QB. assert (0 < 10 ^ Z.of_nat (length a - 1)) by (apply Z.pow_pos_nonneg; lia). lia.
  - apply worth_same; [exact A|exact B| |congruence]. assert (L1 : Z.of_nat (length a - 1) < Z.of_nat (length b)) by (apply (Z.pow_lt_mono_r_iff 10); lia). assert (L2 : Z.of_nat (length b - 1) < Z.of_nat (length a)) by (apply (Z.pow_lt_mono_r_iff 10); lia). lia.
Qed.
Theorem plain_number z z' t : plain z t -> plain z' t -> z = z'.
Proof.
  assert (NM : forall ds, all is_digit ds -> forall r, ds <> "-"%char :: r) by (intros ds A r ->; inversion A; discriminate).
  intros (a & -> & A & WA & HA) (b & E & B & WB & HB). destruct (z <? 0) eqn:S, (z' <? 0) eqn:S'; cbn [app] in E.
  - injection E as ->. lia.
  - exfalso. exact (NM b B _ (eq_sym E)).
  - exfalso. exact (NM a A _ E).
  - subst b. lia.
Qed.

