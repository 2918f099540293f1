(* PRINT (C19). *)
From Coq Require Import Lia ZifyBool ZifyNat ZifyN SpecFloat.
From Verif Require Import Base BaseLemmas Num NumSpec NumLemmas DoubleProofs BcodeModel VmModel
  VmLemmas VmSpec ControlProofs ValueSpec ValueProofs OpSpec OpProofs PrintSpec.
Local Open Scope nat_scope.

(* ---------- what does not print ---------- *)

Definition screen (v : vm) : option (list oev * N) :=
  if o_trace_basic (v_opt v) || o_trace_for (v_opt v) then None else Some (v_out v, v_col v).

(* left alone by successful actions *)
Definition okeeps {A T} (f : vm -> T) (m : M A) : Prop := forall v a v', m v = (Ok a, v') -> f v' = f v.
Lemma okeeps_keeps {A T} (f : vm -> T) (m : M A) : keeps f m -> okeeps f m.
Proof. intros H v a v' E. specialize (H v). rewrite E in H. exact H. Qed.
Lemma okeeps_bind {A B T} (f : vm -> T) (m : M A) (k : A -> M B) :
  okeeps f m -> (forall a, okeeps f (k a)) -> okeeps f (bind m k).
Proof.
  intros Hm Hk v b v' E. unfold bind in E. destruct (m v) as [[a|e| |] v1] eqn:E1; try discriminate E.
  rewrite (Hk a v1 b v' E). exact (Hm v a v1 E1).
Qed.
Lemma okeeps_fail {A B T} (f : vm -> T) (m : M A) e : okeeps f (bind m (fun _ => @run_error B e)).
Proof. intros v b v' E. unfold bind in E. destruct (m v) as [[a|e'| |] v1]; discriminate E. Qed.
Lemma keeps_trace_screen m : keeps v_opt m -> keeps screen (trace_for m).
Proof.
  intros H v. unfold trace_for. destruct (o_trace_for (v_opt v)) eqn:T; [|reflexivity].
  unfold screen. rewrite H, T, Bool.orb_true_r. reflexivity.
Qed.

Definition is_print (i : instr) : bool :=
  match i with
  | I_PRINT_LN | I_PRINT_SPC | I_PRINT_TAB | I_PRINT_COMMA | I_PRINT_NUM | I_PRINT_STR | I_CLS => true
  | _ => false
  end.

Ltac scr := first
  [ match goal with
    | |- keeps screen (trace_for _) => apply keeps_trace_screen; repeat keeps_more
    end
  | keeps_more ].
Lemma exec_for_screen id : okeeps screen (exec_for id).
Proof.
  unfold exec_for. apply okeeps_bind; [apply okeeps_keeps; repeat scr|intros _].
  apply okeeps_bind; [apply okeeps_keeps; repeat scr|intros s].
  apply okeeps_bind; [apply okeeps_keeps; repeat scr|intros _].
  apply okeeps_bind; [apply okeeps_keeps; repeat scr|intros v0].
  apply okeeps_bind; [|intros _; apply okeeps_keeps; repeat scr].
  destruct (find_for _ _); [apply okeeps_keeps; repeat scr|].
  destruct (Nat.leb _ _); [apply okeeps_fail|apply okeeps_keeps; repeat scr].
Qed.

Lemma exec_screen E i : is_input i = false -> is_print i = false -> okeeps screen (exec_instr E i).
Proof.
  destruct i; intros H1 H2; try discriminate H1; try discriminate H2; clear H1 H2; cbn [exec_instr];
    try (apply okeeps_keeps; repeat scr; fail).
  - (* SOURCE_LINE *)
    apply okeeps_bind; [apply okeeps_keeps; repeat scr|intros _].
    intros v a v' X. unfold screen. destruct (o_trace_basic (v_opt v)) eqn:T.
    + destruct (cs_code (v_cs v)) as [r|]; [|discriminate X]. destruct (c_source _) as [src|]; [|discriminate X].
      destruct (nth_error _ _) as [ln|]; [|discriminate X]. unfold bind, put, modify in X.
      injection X as <- <-. cbn. rewrite T. reflexivity.
    + injection X as <- <-. rewrite T. reflexivity.
  - apply okeeps_bind; [apply exec_for_screen|]. intros _. apply okeeps_keeps. repeat scr.
Qed.

(* ---------- columns ---------- *)

Definition plain_text (s : bytes) : Prop := Forall (fun c => ceq c NL = false) s.
Lemma column_app c a b : column_after c (a ++ b) = column_after (column_after c a) b.
Proof. apply fold_left_app. Qed.
Lemma u32_alt n : u32 n = (n mod 2 ^ 32)%N.
Proof. reflexivity. Qed.
Lemma column_plain s : plain_text s -> forall c, s <> [] ->
  column_after c (map OB s) = u32 (c + N.of_nat (length s)).
Proof.
  induction 1 as [|x s X F IH]; intros c N; [congruence|]. cbn [map column_after fold_left after_event]. rewrite X.
  destruct s as [|y s]; [reflexivity|].
  change (fold_left after_event (map OB (y :: s)) ((c + 1) mod 2 ^ 32)%N) with (column_after ((c + 1) mod 2 ^ 32)%N (map OB (y :: s))).
  rewrite IH by discriminate. rewrite !u32_alt. rewrite N.add_mod_idemp_l by discriminate. f_equal. cbn [length]. lia.
Qed.
Lemma column_col_after s : forall c, column_after c (map OB s) = col_after c s.
Proof. induction s as [|x s IH]; intros c; [reflexivity|]. exact (IH _). Qed.
Lemma plain_spaces n : plain_text (repeat SP n).
Proof. apply Forall_forall. intros c H. apply repeat_spec in H. subst c. reflexivity. Qed.
Lemma plain_app s t : plain_text s -> plain_text t -> plain_text (s ++ t).
Proof. intros A B. apply Forall_app. auto. Qed.

(* numbers are printed without line ends *)
Lemma plain_digit d : (d < 10)%N -> ceq (digit_char d) NL = false.
Proof.
  intros H. pose proof (digit_char_is_digit d H) as I. destruct (ceq (digit_char d) NL) eqn:E; [|reflexivity].
  apply ceq_eq in E. rewrite E in I. discriminate I.
Qed.
Lemma plain_digits l : Forall (fun c => is_digit c = true) l -> plain_text l.
Proof.
  intros H. apply Forall_forall. intros c C. rewrite Forall_forall in H. specialize (H c C).
  destruct (ceq c NL) eqn:E; [|reflexivity]. apply ceq_eq in E. subst c. discriminate H.
Qed.
Lemma plain_fixed k : forall n, plain_text (digits_fixed k n).
Proof.
  induction k as [|k IH]; intros n; [constructor|]. cbn [digits_fixed]. apply plain_app; [apply IH|].
  constructor; [apply plain_digit; pose proof (Z.mod_pos_bound n 10); lia|constructor].
Qed.
Lemma plain_strip l : plain_text l -> plain_text (strip_zeros l).
Proof.
  induction 1 as [|c l C F IH]; [constructor|]. cbn [strip_zeros]. destruct (strip_zeros l) as [|d r].
  - destruct (ceq c "0"); repeat constructor; assumption.
  - constructor; assumption.
Qed.
Lemma plain_point a b : plain_text a -> plain_text b -> plain_text (with_point a b).
Proof.
  intros A B. unfold with_point. pose proof (plain_strip b B) as P. destruct (strip_zeros b); [exact A|].
  apply plain_app; [exact A|]. constructor; [reflexivity|exact P].
Qed.
Lemma plain_firstn n l : plain_text l -> plain_text (firstn n l).
Proof. intros H. apply Forall_forall. intros c C. eapply Forall_forall in H; [exact H|]. rewrite <- (firstn_skipn n l). apply in_or_app. auto. Qed.
Lemma plain_skipn n l : plain_text l -> plain_text (skipn n l).
Proof. intros H. apply Forall_forall. intros c C. eapply Forall_forall in H; [exact H|]. rewrite <- (firstn_skipn n l). apply in_or_app. auto. Qed.
Lemma plain_pos n d : plain_text (format_pos n d).
Proof.
  unfold format_pos. destruct (scaled _ _ _) as [a c].
  destruct (if (_ =? _)%Z then _ else _) as [q x]. pose proof (plain_fixed 6 q) as P. set (ds := digits_fixed 6 q) in *. clearbody ds.
  destruct (_ || _).
  - apply plain_app; [apply plain_point; [apply plain_firstn|apply plain_skipn]; exact P|].
    constructor; [reflexivity|]. constructor; [destruct (x <? 0)%Z; reflexivity|].
    pose proof (plain_digits _ (dec_of_N_digits (Z.abs_N x))) as D. destruct (_ <? _)%N; [constructor; [reflexivity|]|]; exact D.
  - destruct (x <? 0)%Z.
    + apply plain_point; [repeat constructor|]. apply plain_app; [|exact P].
      apply Forall_forall. intros ch C. apply repeat_spec in C. subst ch. reflexivity.
    + apply plain_point; [apply plain_firstn|apply plain_skipn]; exact P.
Qed.
Lemma plain_format x : plain_text (format_g x).
Proof.
  assert (S : forall s : bool, plain_text (if s then ["-"%char] else [])) by (intros []; repeat constructor).
  destruct x as [s|s| |s m e]; cbn [format_g].
  - apply plain_app; [apply S|repeat constructor].
  - apply plain_app; [apply S|repeat constructor].
  - repeat constructor.
  - apply plain_app; [apply S|]. destruct e; apply plain_pos.
Qed.

(* ---------- the items ---------- *)

Lemma prints_intro E v i s col st ss : current v = Some i ->
  exec_instr E i v = (Ok true, set_outcol (v_out v ++ map OB s) col (set_sstack ss (set_stack st v))) ->
  prints E v s col st ss.
Proof.
  intros C X. unfold prints. rewrite (execute_eq E v i C), X. cbn [finish].
  f_equal. rewrite (set_pc_place v); [destruct v|]; reflexivity.
Qed.

Theorem print_line E v : current v = Some I_PRINT_LN -> prints E v [NL] 1 (v_stack v) (v_sstack v).
Proof. intros C. eapply prints_intro; [exact C|]. destruct v; reflexivity. Qed.

Theorem print_string E v s ss : current v = Some I_PRINT_STR -> v_sstack v = s :: ss ->
  prints E v s (column_after (v_col v) (map OB s)) (v_stack v) ss.
Proof.
  intros C S. eapply prints_intro; [exact C|]. cbn [exec_instr]. rewrite (bind_pop_str _ v s ss S).
  rewrite column_col_after. destruct v; reflexivity.
Qed.

Theorem print_number E v x st : current v = Some I_PRINT_NUM -> v_stack v = x :: st ->
  prints E v (SP :: format_g x ++ [SP]) (column_after (v_col v) (map OB (SP :: format_g x ++ [SP]))) st (v_sstack v).
Proof.
  intros C S. eapply prints_intro; [exact C|]. cbn [exec_instr]. rewrite (bind_pop _ v x st S).
  rewrite column_plain; [destruct v; reflexivity| |discriminate].
  constructor; [reflexivity|]. apply plain_app; [apply plain_format|repeat constructor].
Qed.

Lemma comma_spec c : (c < 2 ^ 32)%N ->
  exists n, fst (comma_loop 8 c) = n /\ 1 <= n <= 8 /\ snd (comma_loop 8 c) = u32 (c + N.of_nat n) /\
    (u32 (c + N.of_nat n) mod 8 = 1)%N.
Proof.
  intros B.
  assert (G : forall f c, (c < 2 ^ 32)%N -> (exists k, (1 <= k <= f) /\ (u32 (c + N.of_nat k) mod 8 = 1)%N) ->
    exists n, fst (comma_loop f c) = n /\ 1 <= n <= f /\ snd (comma_loop f c) = u32 (c + N.of_nat n) /\
      (u32 (c + N.of_nat n) mod 8 = 1)%N).
  { clear c B. induction f as [|f IH]; intros c B (k & K & H); [lia|]. cbn [comma_loop]. unfold TAB_SIZE.
    destruct (u32 (c + 1) mod 8 =? 1)%N eqn:T.
    - exists 1. cbn [fst snd]. apply N.eqb_eq in T. repeat split; try lia; exact T.
    - assert (B' : (u32 (c + 1) < 2 ^ 32)%N) by (apply N.mod_upper_bound; discriminate).
      assert (K1 : k <> 1) by (intros ->; apply N.eqb_neq in T; apply T, H).
      assert (SH : forall j, u32 (u32 (c + 1) + N.of_nat j) = u32 (c + N.of_nat (S j))).
      { intros j. unfold u32. rewrite N.add_mod_idemp_l by discriminate. f_equal. lia. }
      destruct (IH (u32 (c + 1)) B') as (n & N1 & N2 & N3 & N4).
      { exists (k - 1). split; [lia|]. rewrite SH. replace (S (k - 1)) with k by lia. exact H. }
      rewrite SH in N3, N4. exists (S n).
      destruct (comma_loop f (u32 (c + 1))) as [n' c']. cbn [fst snd] in *. subst n'. repeat split; try lia; assumption. }
  apply G; [exact B|].
  assert (M : forall k, (u32 (c + N.of_nat k) mod 8 = (c + N.of_nat k) mod 8)%N).
  { intros k. unfold u32. change 4294967296%N with (8 * 536870912)%N. rewrite N.mod_mul_r by discriminate.
    rewrite N.mul_comm, N.mod_add by discriminate. apply N.mod_mod. discriminate. }
  exists (N.to_nat (8 - (c + 7) mod 8)). rewrite M.
  pose proof (N.mod_upper_bound (c + 7) 8 ltac:(discriminate)). split; [lia|].
  pose proof (N.div_mod (c + 7) 8 ltac:(discriminate)) as D.
  replace (c + N.of_nat (N.to_nat (8 - (c + 7) mod 8)))%N with (1 + ((c + 7) / 8) * 8)%N by lia.
  rewrite N.mod_add by discriminate. reflexivity.
Qed.

Theorem print_comma E v : current v = Some I_PRINT_COMMA -> (v_col v < 2 ^ 32)%N ->
  exists n, 1 <= n <= 8 /\ prints E v (blanks n) (column_after (v_col v) (map OB (blanks n))) (v_stack v) (v_sstack v) /\
    (column_after (v_col v) (map OB (blanks n)) mod 8 = 1)%N.
Proof.
  intros C B. destruct (comma_spec (v_col v) B) as (n & N1 & N2 & N3 & N4). exists n.
  assert (CA : column_after (v_col v) (map OB (blanks n)) = u32 (v_col v + N.of_nat n)).
  { unfold blanks. rewrite column_plain; [rewrite repeat_length; reflexivity|apply plain_spaces|].
    destruct n; [lia|discriminate]. }
  rewrite CA. split; [exact N2|]. split; [|exact N4].
  eapply prints_intro; [exact C|]. cbn [exec_instr]. unfold bind at 1, get.
  destruct (comma_loop 8 (v_col v)) as [n' c']. cbn [fst snd] in N1, N3. subst n' c'. destruct v; reflexivity.
Qed.

Theorem print_spc E v x st n : current v = Some I_PRINT_SPC -> v_stack v = x :: st -> double x -> count x n ->
  (v_col v < 2 ^ 32)%N ->
  prints E v (blanks n) (column_after (v_col v) (map OB (blanks n))) st (v_sstack v).
Proof.
  intros C S V K B. eapply prints_intro; [exact C|]. cbn [exec_instr]. rewrite (bind_count _ v x st n S V K).
  unfold bind, get, spaces. rewrite Nat2N.id.
  assert (CA : column_after (v_col v) (map OB (blanks n)) = u32 (v_col v + N.of_nat n)).
  { destruct n as [|n].
    - cbn. unfold u32. rewrite N.add_0_r, N.mod_small by lia. reflexivity.
    - unfold blanks. rewrite column_plain; [rewrite repeat_length; reflexivity|apply plain_spaces|discriminate]. }
  rewrite CA. destruct v; reflexivity.
Qed.

(* TAB(n): forward on the line, or to a new line *)
Theorem print_tab E v x st n : current v = Some I_PRINT_TAB -> v_stack v = x :: st -> double x -> count x n ->
  (1 <= v_col v < 2 ^ 32)%N ->
  let c := N.to_nat (v_col v) in
  let s := if Nat.leb c n then blanks (n - c) else NL :: blanks (n - 1) in
  prints E v s (column_after (v_col v) (map OB s)) st (v_sstack v) /\
  (1 <= n -> column_after (v_col v) (map OB s) = N.of_nat n).
Proof.
  intros C S V K B c s.
  assert (N32 : (N.of_nat n < 2 ^ 32)%N) by (destruct K; lia).
  assert (CA : column_after (v_col v) (map OB s) = if Nat.leb n 0 then 1%N else N.of_nat n).
  { subst s c. destruct (Nat.leb_spec (N.to_nat (v_col v)) n) as [L|L].
    - replace (Nat.leb n 0) with false by (symmetry; apply Nat.leb_gt; lia).
      destruct (n - N.to_nat (v_col v)) eqn:D; [cbn; lia|].
      unfold blanks. rewrite column_plain; [rewrite repeat_length|apply plain_spaces|discriminate].
      rewrite <- D. unfold u32. rewrite N.mod_small by lia. lia.
    - cbn [map column_after fold_left after_event]. cbn [ceq]. change (ceq NL NL) with true. cbv iota.
      change (fold_left after_event (map OB (blanks (n - 1))) 1%N) with (column_after 1 (map OB (blanks (n - 1)))).
      destruct (n - 1) eqn:D.
      + cbn. destruct (Nat.leb_spec n 0); lia.
      + unfold blanks. rewrite column_plain; [rewrite repeat_length|apply plain_spaces|discriminate].
        rewrite <- D. unfold u32. rewrite N.mod_small by lia. destruct (Nat.leb_spec n 0); lia. }
  split; [|intros; rewrite CA; destruct (Nat.leb_spec n 0); lia].
  rewrite CA. eapply prints_intro; [exact C|]. cbn [exec_instr]. rewrite (bind_count _ v x st n S V K).
  unfold bind at 1, get. change (v_col (set_stack st v)) with (v_col v).
  subst s c. destruct (Nat.leb_spec (N.to_nat (v_col v)) n) as [L|L].
  - replace (N.of_nat n <? v_col v)%N with false by lia. replace (Nat.leb n 0) with false by (symmetry; apply Nat.leb_gt; lia).
    destruct (N.ltb_spec (v_col v) (N.of_nat n)).
    + cbn [app]. unfold spaces. replace (N.to_nat (N.of_nat n - v_col v)) with (n - N.to_nat (v_col v)) by lia. destruct v; reflexivity.
    + replace (n - N.to_nat (v_col v)) with 0 by lia. replace (N.of_nat n) with (v_col v) by lia. destruct v; reflexivity.
  - replace (N.of_nat n <? v_col v)%N with true by lia.
    destruct (N.ltb_spec 1 (N.of_nat n)).
    + unfold spaces. replace (N.to_nat (N.of_nat n - 1)) with (n - 1) by lia.
      replace (Nat.leb n 0) with false by (symmetry; apply Nat.leb_gt; lia). destruct v; reflexivity.
    + replace (n - 1) with 0 by lia. replace (if Nat.leb n 0 then 1%N else N.of_nat n) with 1%N by (destruct (Nat.leb_spec n 0); lia).
      destruct v; reflexivity.
Qed.

Theorem tab_refused E v x st i : current v = Some i -> i = I_PRINT_TAB \/ i = I_PRINT_SPC -> v_stack v = x :: st ->
  double x -> (forall n, ~ count x n) -> raises E v (count_error x).
Proof.
  intros C D S V Nc. destruct D as [-> | ->].
  - destruct (bind_count_bad (fun k => let* v := get in
      let '(pre, col) := if (k <? v_col v)%N then ([NL], 1%N) else ([], v_col v) in
      adv (if (col <? k)%N then put_cols (pre ++ spaces (k - col)) k else put_cols pre col)) v x st S V Nc) as (w & W & A & B).
    eapply raises_intro; [exact C|exact W|exact A|exact B].
  - destruct (bind_count_bad (fun k => let* v := get in adv (put_cols (spaces k) (u32 (v_col v + k)))) v x st S V Nc) as (w & W & A & B).
    eapply raises_intro; [exact C|exact W|exact A|exact B].
Qed.

(* ---------- executions ---------- *)

Definition col_ok (v : vm) : Prop := (v_col v < 2 ^ 32)%N.
Lemma column_bound o : forall c, (c < 2 ^ 32)%N -> (column_after c o < 2 ^ 32)%N.
Proof.
  induction o as [|e o IH]; intros c B; [exact B|]. apply IH. unfold after_event. destruct e as [ch|]; [|lia].
  destruct (ceq ch NL); [lia|]. apply N.mod_upper_bound. discriminate.
Qed.

Definition tracks (v v' : vm) : Prop :=
  exists new, v_out v' = v_out v ++ new /\ v_col v' = column_after (v_col v) new.
Lemma tracks_same v v' : v_out v' = v_out v -> v_col v' = v_col v -> tracks v v'.
Proof. intros A B. exists []. rewrite app_nil_r. split; assumption. Qed.
Lemma tracks_trans a b c : tracks a b -> tracks b c -> tracks a c.
Proof.
  intros (m & A & B) (n & C & D). exists (m ++ n). rewrite C, A, app_assoc, column_app. split; [reflexivity|congruence].
Qed.

Lemma pop_unsigned_bound v k v1 : Forall double (v_stack v) -> pop_unsigned v = (Ok k, v1) -> (k < 2 ^ 32)%N.
Proof.
  intros SD PU. unfold pop_unsigned, bind, pop in PU. destruct (v_stack v) as [|x st]; [discriminate PU|].
  inversion SD as [|? ? V _]; subst.
  destruct (_ || _) eqn:F; [discriminate PU|]. rewrite fgtb_uint in PU. destruct (fgtb x _) eqn:G; [discriminate PU|].
  destruct (ftoZ x) as [z|] eqn:T; [|discriminate PU]. injection PU as <- <-.
  apply orb_false_iff in F as [_ F]. unfold fneb in F. apply negb_false_iff in F.
  destruct (whole_or_not x V) as [(z' & I)|[(sg & ->)|[F' _]]].
  - rewrite (ftoZ_integer x z' V I) in T. injection T as ->. rewrite (fgtb_int x z _ V I) in G by lia. lia.
  - discriminate T.
  - change SFeqb with feqb in F. congruence.
Qed.

Lemma exec_tracks E i v b v' : is_input i = false -> quiet v -> col_ok v -> Forall double (v_stack v) -> exec_instr E i v = (Ok b, v') -> tracks v v'.
Proof.
  intros NI [Q1 Q2] CO SD X. destruct (is_print i) eqn:P.
  2:{ pose proof (exec_screen E i NI P v b v' X) as S. unfold screen in S. rewrite Q1, Q2 in S. cbn [orb] in S.
      destruct (_ || _); [discriminate S|]. injection S as S1 S2. apply tracks_same; assumption. }
  destruct i; try discriminate P; clear P NI; cbn [exec_instr] in X.
  - injection X as <- <-. exists [OB NL]. split; reflexivity.
  - (* SPC *) unfold bind at 1 in X. pose proof (keeps_pop_unsigned (fun v => (v_out v, v_col v)) ltac:(reflexivity) ltac:(reflexivity) v) as K.
    destruct (pop_unsigned v) as [[k|e| |] v1]; try discriminate X. cbn [snd] in K. injection K as K1 K2.
    unfold adv, bind, get, put_cols, modify, ret in X. injection X as <- <-. cbn [v_out v_col set_outcol].
    exists (map OB (spaces k)). rewrite K1. split; [reflexivity|]. rewrite K2. unfold spaces.
    destruct (N.eq_dec k 0) as [->|NZ].
    + cbn. unfold u32. rewrite N.add_0_r, N.mod_small by exact CO. reflexivity.
    + rewrite column_plain; [|apply plain_spaces|destruct (N.to_nat k) eqn:D; [lia|discriminate]].
      rewrite repeat_length. rewrite N2Nat.id. reflexivity.
  - (* TAB *) unfold bind at 1 in X. pose proof (keeps_pop_unsigned (fun v => (v_out v, v_col v)) ltac:(reflexivity) ltac:(reflexivity) v) as K.
    destruct (pop_unsigned v) as [[k|e| |] v1] eqn:PU; try discriminate X. cbn [snd] in K. injection K as K1 K2.
    assert (KB : (k < 2 ^ 32)%N).
    { exact (pop_unsigned_bound v k v1 SD PU). }
    unfold bind, get in X.
    destruct (k <? v_col v1)%N eqn:T1.
    + destruct (1 <? k)%N eqn:T2; unfold adv, bind, put_cols, modify, ret in X; injection X as <- <-; cbn [v_out v_col set_outcol].
      * exists (map OB ([NL] ++ spaces (k - 1))). rewrite K1. split; [reflexivity|].
        cbn [app map column_after fold_left after_event]. change (ceq NL NL) with true. cbv iota.
        change (k = column_after 1 (map OB (spaces (k - 1)))). unfold spaces.
        rewrite column_plain; [|apply plain_spaces|destruct (N.to_nat (k - 1)) eqn:D; [lia|discriminate]].
        rewrite repeat_length. unfold u32. rewrite N.mod_small; lia.
      * exists [OB NL]. rewrite K1. split; reflexivity.
    + destruct (v_col v1 <? k)%N eqn:T2; unfold adv, bind, put_cols, modify, ret in X; injection X as <- <-; cbn [v_out v_col set_outcol].
      * exists (map OB ([] ++ spaces (k - v_col v1))). rewrite K1. split; [reflexivity|]. cbn [app]. rewrite <- K2. unfold spaces.
        rewrite column_plain; [|apply plain_spaces|destruct (N.to_nat (k - v_col v1)) eqn:D; [lia|discriminate]].
        rewrite repeat_length. unfold u32. rewrite N.mod_small by lia. cbn [v_col set_outcol]. lia.
      * exists []. rewrite K1. split; [reflexivity|exact K2].
  - (* comma *) unfold bind at 1, get in X. destruct (comma_spec (v_col v) CO) as (n & N1 & N2 & N3 & N4).
    destruct (comma_loop 8 (v_col v)) as [n' c']. cbn [fst snd] in N1, N3. subst n' c'.
    unfold adv, bind, put_cols, modify, ret in X. injection X as <- <-. cbn [v_out v_col set_outcol].
    exists (map OB (repeat SP n)). split; [reflexivity|].
    rewrite column_plain; [rewrite repeat_length; reflexivity|apply plain_spaces|destruct n; [lia|discriminate]].
  - (* number *) unfold bind at 1 in X. pose proof (keeps_pop (fun v => (v_out v, v_col v)) ltac:(reflexivity) ltac:(reflexivity) v) as K.
    destruct (pop v) as [[x|e| |] v1]; try discriminate X. cbn [snd] in K. injection K as K1 K2.
    unfold adv, bind, get, put_cols, modify, ret in X. injection X as <- <-. cbn [v_out v_col set_outcol].
    exists (map OB (SP :: format_g x ++ [SP])). rewrite K1, <- K2. split; [reflexivity|].
    rewrite column_plain; [reflexivity| |discriminate].
    constructor; [reflexivity|]. apply plain_app; [apply plain_format|repeat constructor].
  - (* string *) unfold bind at 1 in X. pose proof (keeps_pop_str (fun v => (v_out v, v_col v)) ltac:(reflexivity) ltac:(reflexivity) v) as K.
    destruct (pop_str v) as [[s|e| |] v1]; try discriminate X. cbn [snd] in K. injection K as K1 K2.
    unfold adv, bind, get, put_cols, modify, ret in X. injection X as <- <-. cbn [v_out v_col set_outcol].
    exists (map OB s). rewrite K1, <- K2. split; [reflexivity|]. symmetry. apply column_col_after.
  - (* CLS *) injection X as <- <-. exists [OCls]. split; reflexivity.
Qed.

Theorem print_columns E v l v' : env_ok E -> values_ok v -> runs E v l v' -> no_input l -> quiet v -> (v_col v < 2 ^ 32)%N ->
  exists new, v_out v' = v_out v ++ new /\ v_col v' = column_after (v_col v) new.
Proof.
  intros EO VO R N Q B. change (tracks v v'). induction R as [v|v v1 l v' X R IH]; [apply tracks_same; reflexivity|].
  inversion N as [|? ? N1 N2]; subst. destruct (current v) as [i|] eqn:C.
  2:{ rewrite (execute_none E v C) in X. discriminate X. }
  assert (V1 : values_ok v1) by (exact (vo_runs E v [v] v1 EO (Runs_cons E v v1 [] v1 X (Runs_nil E v1)) VO)).
  rewrite (execute_eq E v i C) in X. destruct (exec_instr E i v) as [[b|e| |] w] eqn:Y; cbn [finish] in X; try discriminate X.
  pose proof (exec_tracks E i v b w (N1 i eq_refl) Q B (ok_stack _ VO) Y) as T.
  assert (T1 : tracks v v1) by (destruct b; injection X as <-; exact T).
  pose proof (exec_keeps_opt E i v) as O. rewrite Y in O. cbn [snd] in O.
  assert (O1 : v_opt v1 = v_opt v) by (destruct b; injection X as <-; exact O).
  eapply tracks_trans; [exact T1|]. apply IH; [exact V1|exact N2|unfold quiet; rewrite O1; exact Q|].
  destruct T1 as (new & _ & ->). apply column_bound, B.
Qed.
