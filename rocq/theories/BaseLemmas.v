(* Lemmas about the shared definitions of Base.v. *)
From Coq Require Import Lia ZifyBool ZifyNat ZifyN.
From Verif Require Import Base.
Ltac Zify.zify_post_hook ::= Z.div_mod_to_equations.

Lemma u32_small n : (n < 4294967296)%N -> u32 n = n.
Proof. intros H. unfold u32. apply N.mod_small. exact H. Qed.

Lemma u32_lt n : (u32 n < 4294967296)%N.
Proof. unfold u32. apply N.mod_lt. discriminate. Qed.

Lemma u16_small n : (n < 65536)%N -> u16 n = n.
Proof. intros H. unfold u16. apply N.mod_small. exact H. Qed.

Lemma u16_lt n : (u16 n < 65536)%N.
Proof. unfold u16. apply N.mod_lt. discriminate. Qed.

Lemma u8_small n : (n < 256)%N -> u8 n = n.
Proof. intros H. unfold u8. apply N.mod_small. exact H. Qed.

Lemma ceq_eq x y : ceq x y = true <-> x = y.
Proof. unfold ceq. apply Ascii.eqb_eq. Qed.

Lemma ceq_neq x y : ceq x y = false <-> x <> y.
Proof. unfold ceq. apply Ascii.eqb_neq. Qed.

Lemma ceq_refl x : ceq x x = true.
Proof. apply ceq_eq. reflexivity. Qed.

Lemma code_chr n : (n < 256)%N -> code (chr n) = n.
Proof. intros H. unfold code, chr. apply N_ascii_embedding. exact H. Qed.

Lemma chr_code c : chr (code c) = c.
Proof. unfold code, chr. apply ascii_N_embedding. Qed.

Lemma code_lt c : (code c < 256)%N.
Proof.
  unfold code. destruct c as [b0 b1 b2 b3 b4 b5 b6 b7].
  destruct b0, b1, b2, b3, b4, b5, b6, b7; reflexivity.
Qed.

Lemma code_inj c d : code c = code d -> c = d.
Proof. intros H. rewrite <- (chr_code c), <- (chr_code d), H. reflexivity. Qed.

Lemma ceq_code x y : ceq x y = (code x =? code y)%N.
Proof.
  destruct (ceq x y) eqn:E.
  - apply ceq_eq in E. subst. symmetry. apply N.eqb_refl.
  - apply ceq_neq in E. symmetry. apply N.eqb_neq. intros H. apply E, code_inj, H.
Qed.

(* A property of all 256 bytes, decided by enumeration. *)
Definition all_ascii : list ascii := map ascii_of_nat (seq 0 256).

Lemma all_ascii_in c : In c all_ascii.
Proof.
  unfold all_ascii. apply in_map_iff. exists (nat_of_ascii c). split.
  - apply ascii_nat_embedding.
  - apply in_seq. split; [lia|]. simpl.
    unfold nat_of_ascii. pose proof (code_lt c) as H. unfold code in H. lia.
Qed.

Lemma forall_ascii (P : ascii -> bool) : forallb P all_ascii = true -> forall c, P c = true.
Proof. intros H c. rewrite forallb_forall in H. apply H, all_ascii_in. Qed.

(* list_upd / remove_nth *)

Lemma list_upd_length {A} (l : list A) i x : length (list_upd l i x) = length l.
Proof. revert i; induction l as [|y l IH]; intros [|i]; cbn; auto. Qed.

Lemma nth_error_list_upd {A} (l : list A) i j x :
  nth_error (list_upd l i x) j =
  if Nat.eqb i j then (match nth_error l j with Some _ => Some x | None => None end)
  else nth_error l j.
Proof.
  revert i j; induction l as [|y l IH]; intros [|i] [|j]; cbn; auto.
  destruct (Nat.eqb i j); reflexivity.
Qed.

Lemma nth_error_list_upd_eq {A} (l : list A) i x :
  i < length l -> nth_error (list_upd l i x) i = Some x.
Proof.
  intros H. rewrite nth_error_list_upd, Nat.eqb_refl.
  destruct (nth_error l i) eqn:E; [reflexivity|]. apply nth_error_None in E. lia.
Qed.

Lemma nth_error_list_upd_neq {A} (l : list A) i j x :
  i <> j -> nth_error (list_upd l i x) j = nth_error l j.
Proof.
  intros H. rewrite nth_error_list_upd. destruct (Nat.eqb i j) eqn:E; [|reflexivity].
  apply Nat.eqb_eq in E. contradiction.
Qed.

Lemma nth_list_upd_eq {A} (l : list A) i x d :
  i < length l -> nth i (list_upd l i x) d = x.
Proof. intros H. apply nth_error_nth. apply nth_error_list_upd_eq, H. Qed.

Lemma nth_list_upd_neq {A} (l : list A) i j x d :
  i <> j -> nth j (list_upd l i x) d = nth j l d.
Proof.
  revert i j; induction l as [|y l IH]; intros [|i] [|j] H; cbn; auto; congruence.
Qed.

(* last_opt *)

Lemma last_opt_app {A} (l : list A) x : last_opt (l ++ [x]) = Some x.
Proof.
  induction l as [|y l IH]; [reflexivity|].
  cbn [app last_opt]. rewrite IH. destruct l; reflexivity.
Qed.

Lemma last_opt_None {A} (l : list A) : last_opt l = None <-> l = [].
Proof.
  split; [|intros ->; reflexivity].
  destruct l as [|x l]; [reflexivity|]. intros H. exfalso. revert x H.
  induction l as [|y l IH]; intros x H; [discriminate|].
  apply (IH y). exact H.
Qed.

Lemma last_opt_Some {A} (l : list A) x : last_opt l = Some x -> exists p, l = p ++ [x].
Proof.
  destruct l as [|y l] using rev_ind; [discriminate|].
  rewrite last_opt_app. intros [= ->]. exists l. reflexivity.
Qed.

(* decimal printing and reading *)

Definition dec_value (ds : bytes) : N :=
  fold_left (fun a c => 10 * a + digit_val c)%N ds 0%N.

Lemma is_digit_code c : is_digit c = true <-> (48 <= code c <= 57)%N.
Proof. unfold is_digit. lia. Qed.

Lemma digit_char_is_digit d : (d < 10)%N -> is_digit (digit_char d) = true.
Proof. intros H. apply is_digit_code. unfold digit_char. rewrite code_chr; lia. Qed.

Lemma digit_val_char d : (d < 10)%N -> digit_val (digit_char d) = d.
Proof. intros H. unfold digit_val, digit_char. rewrite code_chr; lia. Qed.

Lemma dec_loop_app f : forall n acc, dec_loop f n acc = dec_loop f n [] ++ acc.
Proof.
  induction f as [|f IH]; intros n acc; [reflexivity|].
  cbn [dec_loop]. destruct (n / 10 =? 0)%N; [reflexivity|].
  rewrite (IH _ (_ :: acc)), (IH _ [_]), <- app_assoc. reflexivity.
Qed.

Lemma dec_value_app ds c : dec_value (ds ++ [c]) = (10 * dec_value ds + digit_val c)%N.
Proof. unfold dec_value. rewrite fold_left_app. reflexivity. Qed.

Lemma dec_loop_digits f : forall n, Forall (fun c => is_digit c = true) (dec_loop f n []).
Proof.
  induction f as [|f IH]; intros n; [constructor|]. cbn [dec_loop].
  assert (H : is_digit (digit_char (n mod 10)) = true)
    by (apply digit_char_is_digit, N.mod_lt; discriminate).
  destruct (n / 10 =? 0)%N.
  - constructor; [exact H|constructor].
  - rewrite dec_loop_app. apply Forall_app. split; [apply IH|].
    constructor; [exact H|constructor].
Qed.

Lemma dec_loop_value f : forall n,
  (n < 10 ^ N.of_nat f)%N -> dec_value (dec_loop f n []) = n.
Proof.
  induction f as [|f IH]; intros n H.
  - cbn in H. cbn [dec_loop]. unfold dec_value. cbn. lia.
  - cbn [dec_loop].
    assert (Hm : (n mod 10 < 10)%N) by (apply N.mod_lt; discriminate).
    destruct (n / 10 =? 0)%N eqn:E.
    + unfold dec_value. cbn [fold_left]. rewrite digit_val_char by exact Hm. lia.
    + rewrite dec_loop_app, dec_value_app, IH.
      * rewrite digit_val_char by exact Hm. lia.
      * rewrite Nat2N.inj_succ, N.pow_succ_r' in H. apply N.div_lt_upper_bound; lia.
Qed.

Lemma size_nat_bound n : (n < 10 ^ N.of_nat (S (N.size_nat n)))%N.
Proof.
  assert (H : (n < 2 ^ N.of_nat (N.size_nat n))%N).
  { destruct n as [|p]; [reflexivity|]. cbn [N.size_nat].
    induction p as [p IH|p IH|]; cbn [Pos.size_nat]; rewrite ?Nat2N.inj_succ, ?N.pow_succ_r';
      try lia. }
  eapply N.lt_le_trans; [exact H|].
  rewrite Nat2N.inj_succ, N.pow_succ_r'.
  assert (H2 : (2 ^ N.of_nat (N.size_nat n) <= 10 ^ N.of_nat (N.size_nat n))%N)
    by (apply N.pow_le_mono_l; lia).
  lia.
Qed.

Lemma dec_of_N_value n : dec_value (dec_of_N n) = n.
Proof. apply dec_loop_value, size_nat_bound. Qed.

Lemma dec_of_N_digits n : Forall (fun c => is_digit c = true) (dec_of_N n).
Proof. apply dec_loop_digits. Qed.

Lemma dec_of_N_nonempty n : dec_of_N n <> [].
Proof.
  unfold dec_of_N. cbn [dec_loop]. destruct (n / 10 =? 0)%N; [discriminate|].
  rewrite dec_loop_app. intros H. apply app_eq_nil in H. destruct H; discriminate.
Qed.

Lemma dec_of_N_inj m n : dec_of_N m = dec_of_N n -> m = n.
Proof. intros H. rewrite <- (dec_of_N_value m), <- (dec_of_N_value n), H. reflexivity. Qed.

Definition fold_dec (a : N) (ds : bytes) : N :=
  fold_left (fun a c => 10 * a + digit_val c)%N ds a.

Lemma read_u32_loop_mod s : forall acc acc',
  u32 acc = u32 acc' -> (acc < 4294967296)%N ->
  forall ds rest, s = ds ++ rest -> Forall (fun c => is_digit c = true) ds ->
  match rest with c :: _ => is_digit c = false | [] => True end ->
  read_u32_loop acc s = (u32 (fold_dec acc' ds), rest).
Proof.
  induction s as [|c s IH]; intros acc acc' Ha Hlt ds rest Hs Hd Hr.
  - symmetry in Hs. apply app_eq_nil in Hs. destruct Hs as [-> ->].
    cbn. rewrite <- Ha, u32_small by exact Hlt. reflexivity.
  - destruct ds as [|d ds].
    + cbn in Hs. subst rest. cbn [read_u32_loop fold_dec fold_left]. rewrite Hr.
      unfold fold_dec. cbn. rewrite <- Ha, u32_small by exact Hlt. reflexivity.
    + cbn in Hs. injection Hs as -> ->. inversion Hd as [|? ? Hd1 Hd2]; subst.
      cbn [read_u32_loop]. rewrite Hd1.
      rewrite (IH _ (10 * acc' + digit_val d)%N) with (ds := ds) (rest := rest); auto.
      * unfold u32 in *. rewrite N.mod_mod by discriminate.
        rewrite (N.add_mod (10 * acc)), (N.add_mod (10 * acc')) by discriminate.
        rewrite (N.mul_mod 10 acc), (N.mul_mod 10 acc'), Ha by discriminate. reflexivity.
      * apply u32_lt.
Qed.

Lemma read_u32_spec ds rest :
  Forall (fun c => is_digit c = true) ds ->
  match rest with c :: _ => is_digit c = false | [] => True end ->
  read_u32 (ds ++ rest) = (u32 (dec_value ds), rest).
Proof.
  intros Hd Hr. unfold read_u32.
  apply (read_u32_loop_mod (ds ++ rest) 0%N 0%N eq_refl) with (ds := ds); auto. lia.
Qed.

Lemma digits_split (s : bytes) : exists ds rest,
  s = ds ++ rest /\ Forall (fun c => is_digit c = true) ds /\
  match rest with c :: _ => is_digit c = false | [] => True end.
Proof.
  induction s as [|c s IH].
  - exists [], []. auto.
  - destruct (is_digit c) eqn:E.
    + destruct IH as (ds & rest & -> & Hd & Hr). exists (c :: ds), rest. auto.
    + exists [], (c :: s). auto.
Qed.

(* cstr *)
Lemma cstr_no_nul l : ~ In NUL l -> cstr l = l.
Proof.
  induction l as [|c l IH]; [reflexivity|]. intros H. cbn [cstr].
  destruct (ceq c NUL) eqn:E.
  - apply ceq_eq in E. subst. exfalso. apply H. left. reflexivity.
  - f_equal. apply IH. intros Hin. apply H. right. exact Hin.
Qed.

Lemma cstr_split l : In NUL l -> exists p r, l = p ++ NUL :: r /\ cstr l = p /\ ~ In NUL p.
Proof.
  induction l as [|c l IH]; [intros []|]. intros H. cbn [cstr].
  destruct (ceq c NUL) eqn:E.
  - apply ceq_eq in E. subst. exists [], l. auto.
  - apply ceq_neq in E. destruct H as [H|H]; [contradiction|].
    destruct (IH H) as (p & r & -> & Hc & Hn). exists (c :: p), r. repeat split.
    + rewrite Hc. reflexivity.
    + intros [Hx|Hx]; auto.
Qed.

(* fgets *)
Lemma fgets_loop_short n l rest :
  ~ In NL l -> length l < n -> fgets_loop n (l ++ NL :: rest) = (l ++ [NL], rest).
Proof.
  revert n; induction l as [|c l IH]; intros n Hnl Hlen.
  - destruct n; [cbn in Hlen; lia|]. reflexivity.
  - destruct n as [|n]; [cbn in Hlen; lia|]. cbn [app fgets_loop].
    destruct (ceq c NL) eqn:E.
    + apply ceq_eq in E. subst. exfalso. apply Hnl. left. reflexivity.
    + rewrite IH; [reflexivity| |cbn in Hlen; lia].
      intros H. apply Hnl. right. exact H.
Qed.

(* what a call returns: a full line, a full buffer, or the unterminated rest *)
Lemma fgets_loop_cases n s l r :
  fgets_loop n s = (l, r) ->
  s = l ++ r /\ length l <= n /\
  ((exists l', l = l' ++ [NL] /\ ~ In NL l') \/ (~ In NL l /\ (length l = n \/ r = []))).
Proof.
  revert s l r; induction n as [|n IH]; intros s l r H.
  - cbn in H. injection H as <- <-. cbn. repeat split; auto.
  - destruct s as [|c s]; cbn [fgets_loop] in H.
    + injection H as <- <-. cbn. repeat split; auto; lia.
    + destruct (ceq c NL) eqn:E.
      * apply ceq_eq in E. subst. injection H as <- <-. cbn. repeat split; try lia.
        left. exists []. auto.
      * apply ceq_neq in E. destruct (fgets_loop n s) as [l1 r1] eqn:F.
        injection H as <- <-. destruct (IH _ _ _ F) as (-> & Hlen & Hc).
        cbn. repeat split; [lia|].
        destruct Hc as [(l' & -> & Hn)|(Hn & Hc)].
        -- left. exists (c :: l'). split; [reflexivity|]. intros [H|H]; auto.
        -- right. split; [intros [H|H]; auto|]. destruct Hc; [left; lia|right; auto].
Qed.

(* case-insensitive comparison *)
Definition ci_eq (x y : bytes) : Prop := map to_lower x = map to_lower y.

Lemma cmp_by_eq f x y : cmp_by f x y = Eq <-> map f x = map f y.
Proof.
  revert y; induction x as [|c x IH]; intros [|d y]; cbn; split; intros H; try discriminate; auto.
  - destruct (N.compare (f c) (f d)) eqn:E; try discriminate.
    apply N.compare_eq in E. apply IH in H. congruence.
  - injection H as H1 H2. rewrite H1, N.compare_refl. apply IH, H2.
Qed.

Lemma map_code_inj x y : map code x = map code y -> x = y.
Proof.
  revert y; induction x as [|c x IH]; intros [|d y]; cbn; intros H; try discriminate; auto.
  injection H as H1 H2. f_equal; auto using code_inj.
Qed.

Lemma strcmp_eq x y : strcmp x y = Eq <-> x = y.
Proof.
  unfold strcmp. rewrite cmp_by_eq. split; [apply map_code_inj|congruence].
Qed.

Lemma stricmp_eq x y : stricmp x y = Eq <-> ci_eq x y.
Proof.
  unfold stricmp, ci_eq. rewrite cmp_by_eq, <- !(map_map to_lower code).
  split; [apply map_code_inj|congruence].
Qed.

Lemma strieq_iff x y : strieq x y = true <-> ci_eq x y.
Proof.
  unfold strieq. rewrite <- stricmp_eq. destruct (stricmp x y); split; congruence.
Qed.

Lemma cmp_by_antisym f x y : cmp_by f y x = CompOpp (cmp_by f x y).
Proof.
  revert y; induction x as [|c x IH]; intros [|d y]; cbn; auto.
  rewrite N.compare_antisym. destruct (N.compare (f c) (f d)); cbn; auto.
Qed.

Lemma cmp_by_trans f x y z : cmp_by f x y = Lt -> cmp_by f y z = Lt -> cmp_by f x z = Lt.
Proof.
  revert y z; induction x as [|c x IH]; intros [|d y] [|e z]; cbn; intros H1 H2;
    try discriminate; auto.
  destruct (N.compare_spec (f c) (f d)); destruct (N.compare_spec (f d) (f e)); try discriminate.
  - assert (E : f c = f e) by congruence. rewrite E, N.compare_refl. eauto.
  - assert (E : (f c < f e)%N) by lia. rewrite (proj2 (N.compare_lt_iff _ _) E). reflexivity.
  - assert (E : (f c < f e)%N) by lia. rewrite (proj2 (N.compare_lt_iff _ _) E). reflexivity.
  - assert (E : (f c < f e)%N) by lia. rewrite (proj2 (N.compare_lt_iff _ _) E). reflexivity.
Qed.

(* find_index *)
Lemma find_index_Some {A} (f : A -> bool) l i :
  find_index f l = Some i ->
  exists x, nth_error l i = Some x /\ f x = true /\
            forall j y, j < i -> nth_error l j = Some y -> f y = false.
Proof.
  revert i; induction l as [|a l IH]; intros i H; cbn in H; [discriminate|].
  destruct (f a) eqn:E.
  - injection H as <-. exists a. repeat split; auto. intros j y Hj. lia.
  - destruct (find_index f l) as [k|] eqn:F; [|discriminate]. injection H as <-.
    destruct (IH k eq_refl) as (x & Hx & Hf & Hm). exists x. repeat split; auto.
    intros [|j] y Hj Hy; cbn in Hy; [congruence|]. apply (Hm j); [lia|exact Hy].
Qed.

Lemma find_index_None {A} (f : A -> bool) l :
  find_index f l = None <-> forall x, In x l -> f x = false.
Proof.
  induction l as [|a l IH]; cbn; split; auto; try (intros H x []; fail).
  - intros H x Hx. destruct (f a) eqn:E; [discriminate|].
    destruct (find_index f l); [discriminate|].
    destruct Hx as [<-|Hx]; [exact E|]. apply IH; auto.
  - intros H. rewrite (H a) by auto. replace (find_index f l) with (@None nat); [reflexivity|].
    symmetry. apply IH. auto.
Qed.

Lemma remove_nth_spec {A} (l : list A) i x :
  nth_error l i = Some x -> exists p r, l = p ++ x :: r /\ length p = i /\ remove_nth l i = p ++ r.
Proof.
  revert i; induction l as [|a l IH]; intros [|i] H; cbn in H; try discriminate.
  - injection H as ->. exists [], l. auto.
  - destruct (IH _ H) as (p & r & -> & Hp & Hr). exists (a :: p), r. cbn. rewrite Hr, Hp. auto.
Qed.

Lemma span_spec {A} (f : A -> bool) l p q :
  span f l = (p, q) ->
  l = p ++ q /\ Forall (fun x => f x = true) p /\
  match q with x :: _ => f x = false | [] => True end.
Proof.
  revert p q; induction l as [|x l IH]; intros p q H; cbn in H.
  - injection H as <- <-. auto.
  - destruct (f x) eqn:E.
    + destruct (span f l) as [p1 q1]. injection H as <- <-.
      destruct (IH _ _ eq_refl) as (-> & Hp & Hq). auto.
    + injection H as <- <-. auto.
Qed.

Lemma nth_error_firstn_lt {A} (l : list A) n i : i < n -> nth_error (firstn n l) i = nth_error l i.
Proof.
  revert n i; induction l as [|a l IH]; intros [|n] [|i] H; cbn; try reflexivity; try lia. apply IH. lia.
Qed.
Lemma nth_error_skipn {A} (l : list A) n i : nth_error (skipn n l) i = nth_error l (n + i).
Proof.
  revert n; induction l as [|a l IH]; intros [|n]; cbn; try reflexivity; [|apply IH].
  destruct i; reflexivity.
Qed.
