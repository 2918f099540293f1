(* Error messages (C43): the line in which the machine is when there is an
   error. *)
From Coq Require Import Lia ZifyBool ZifyNat ZifyN.
From Verif Require Import Base BaseLemmas Num SourceModel LineMapModel ArrayModel BcodeModel SymbolModel ParseModel GrammarSpec VmModel VmLemmas VmSpec ControlProofs VmTyping
  TypeSpec CodeProofs LineSpec LineProofs ErrSpec ErrProofs FnSpec BlameProofs EvalSpec ReportSpec.
Local Open Scope nat_scope.
Local Open Scope list_scope.
Local Notation num := Num.num.

(* ---------- the code of a statement ---------- *)

(* the instructions that need the ones around them *)
Definition special (i : instr) : bool :=
  match i with
  | I_IF_ELSE | I_DEF _ _ | I_ON_GOTO _ | I_ON_GOSUB _ | I_INPUT_NUM _ _ | I_INPUT_SEP => true
  | _ => false
  end.
Definition usual (i : instr) : Prop := special i = false.
Lemma exprop_usual i : exprop i = true -> usual i.
Proof. destruct i; intros H; try discriminate H; reflexivity. Qed.
Lemma ecode_usual g e : wt g e -> Forall usual (ecode e).
Proof. intros W. apply Forall_impl with (2 := ecode_exprop g e W). intros i [H _]. exact (exprop_usual i H). Qed.
Lemma subs_usual g p : wplace g p -> Forall usual (subs_code p).
Proof. intros W. apply Forall_impl with (2 := subs_consts g p W). intros i [H _]. exact (exprop_usual i H). Qed.
Lemma map_usual {A} (f : A -> instr) l : (forall a, usual (f a)) -> Forall usual (map f l).
Proof. intros H. apply Forall_map. apply Forall_forall. intros a _. apply H. Qed.
Ltac usual_one := first [reflexivity | (match goal with |- usual (match ?x with _ => _ end) => destruct x end; usual_one)].
Ltac usuals := repeat first
  [ apply Forall_nil | apply Forall_app; split | eapply ecode_usual; eassumption | eapply subs_usual; eassumption | apply map_usual; intros ?; reflexivity
  | apply Forall_cons; [usual_one|] ].
Lemma scode_usual g x : wstmt g x -> match x with SIf _ true | SDef _ _ _ | SOn _ _ _ | SInput _ _ => True | _ => Forall usual (scode x) end.
Proof.
  intros W. destruct x; cbn [scode wstmt] in *; try exact Logic.I; try solve [usuals].
  all: repeat match goal with x : option _ |- _ => destruct x | x : bool |- _ => destruct x end; cbn [oall] in *; try exact Logic.I; try solve [usuals].
  all: try solve [unfold wnum in W; repeat match goal with H : _ /\ _ |- _ => destruct H end; unfold set_instr; usuals].
  all: try solve [apply Forall_flat_map; apply Forall_impl with (2 := W); intros p [H _]; unfold dim_code, read_code; usuals].
  - destruct l as [|a l]; [usuals|]. apply map_usual. reflexivity.
  - apply Forall_app. split; [|destruct (separator_last l); usuals]. apply Forall_flat_map. apply Forall_impl with (2 := W). intros it H.
    destruct it; cbn [item_code witem] in *; unfold wnum in *; repeat match goal with H : _ /\ _ |- _ => destruct H end; usuals.
Qed.

(* the instructions of an INPUT, except the first *)
Definition asks (i : instr) : bool :=
  match i with I_INPUT_NUM _ _ | I_INPUT_STR _ _ | I_INPUT_SEP | I_INPUT_END => true | _ => exprop i end.
(* an instruction not of an INPUT *)
Definition apart (i : instr) : bool := match i with I_INPUT_BUF _ => false | _ => negb (asks i) end.
Lemma subs_asks g p : wplace g p -> Forall (fun i => asks i = true) (subs_code p).
Proof. intros W. apply Forall_impl with (2 := subs_consts g p W). intros i [H _]. destruct i; try discriminate H; reflexivity. Qed.
Lemma input_asks g p : wplace g p -> Forall (fun i => asks i = true) (input_code p).
Proof. intros W. unfold input_code. apply Forall_app. split; [exact (subs_asks g p W)|]. constructor; [|constructor]. destruct (pl_type p); reflexivity. Qed.
Lemma sinput_code g prompt l : wstmt g (SInput prompt l) -> exists r, scode (SInput prompt l) = I_INPUT_BUF prompt :: r /\ Forall (fun i => asks i = true) r.
Proof.
  intros [_ W]. cbn [scode]. eexists. split; [reflexivity|]. apply Forall_app. split; [|repeat constructor]. destruct W as [|p r H W]; [constructor|]. apply Forall_app. split; [exact (input_asks g p H)|].
  apply Forall_flat_map. apply Forall_impl with (2 := W). intros q Q. constructor; [reflexivity|exact (input_asks g q Q)].
Qed.

(* ---------- the lines of a program ---------- *)

Lemma lcode_split xs : forall p i, nth_error (lcode xs) p = Some i ->
  exists pre x post j, xs = pre ++ x :: post /\ p = length (lcode pre) + j /\ nth_error (scode x) j = Some i.
Proof.
  induction xs as [|x xs IH]; intros p i H; [destruct p; discriminate H|]. change (lcode (x :: xs)) with (scode x ++ lcode xs) in H.
  destruct (Nat.lt_ge_cases p (length (scode x))) as [L|L].
  - rewrite nth_error_app1 in H by exact L. exists [], x, xs, p. auto.
  - rewrite nth_error_app2 in H by exact L. destruct (IH _ _ H) as (pre & y & post & j & E & P & N). exists (x :: pre), y, post, j. split; [rewrite E; reflexivity|]. split; [|exact N].
    change (lcode (x :: pre)) with (scode x ++ lcode pre). rewrite app_length. lia.
Qed.
Lemma lcode_app a b : lcode (a ++ b) = lcode a ++ lcode b.
Proof. unfold lcode. apply flat_map_app. Qed.
Lemma lcode_cons x b : lcode (x :: b) = scode x ++ lcode b.
Proof. reflexivity. Qed.
Lemma line_next xss k : k < length xss -> line_start xss (S k) = line_start xss k + 1 + length (lcode (line_stmts xss k)).
Proof.
  unfold line_stmts. revert k. induction xss as [|xs xss IH]; intros [|k] K; cbn [length] in K; try lia.
  - cbn [line_start nth]. destruct xss; cbn [line_start]; lia.
  - change (line_start (xs :: xss) (S (S k))) with (S (length (lcode xs)) + line_start xss (S k)). rewrite (IH k) by lia. cbn [line_start nth]. lia.
Qed.
Lemma line_all xss : length (pcode 0 xss) = line_start xss (length xss).
Proof.
  assert (H : forall m, length (pcode m xss) = line_start xss (length xss)); [|exact (H 0)]. induction xss as [|xs r IH]; intros m; [reflexivity|]. cbn [pcode length line_start]. rewrite app_length, IH. lia.
Qed.

Section Line.
Variables (g : list sig) (kw : bool) (st0 st1 : symtab) (texts : list bytes) (xss : list (list stmt)).
Hypothesis WS : Forall (Forall (wstmt g)) xss.
Hypothesis PI : program_is kw st0 texts xss st1.
Local Notation code := (pcode 0 xss).
Local Notation within := (in_code xss).

Lemma line_at k p : k < length xss -> nth_error code (line_start xss k + p) = nth_error (I_SOURCE_LINE k :: lcode (line_stmts xss k) ++ pcode (S k) (skipn (S k) xss)) p.
Proof. intros K. rewrite <- nth_error_skipn, (line_start_code xss k K). reflexivity. Qed.
Lemma marker_at k : k < length xss -> nth_error code (line_start xss k) = Some (I_SOURCE_LINE k).
Proof. intros K. rewrite <- (Nat.add_0_r (line_start xss k)), line_at by exact K. reflexivity. Qed.
Lemma end_at : nth_error code (line_start xss (length xss)) = None.
Proof. apply nth_error_None. rewrite line_all. lia. Qed.
Lemma within_code k pc : within k pc -> exists pre x post j i, line_stmts xss k = pre ++ x :: post /\ nth_error (scode x) j = Some i /\
  pc = line_start xss k + 1 + length (lcode pre) + j /\ nth_error code pc = Some i /\ wstmt g x.
Proof.
  intros (K & A & B). rewrite (line_next xss k K) in B. set (p := pc - (line_start xss k + 1)). assert (P : pc = line_start xss k + S p) by (unfold p; lia).
  assert (L : p < length (lcode (line_stmts xss k))) by lia. destruct (nth_error (lcode (line_stmts xss k)) p) as [i|] eqn:N; [|apply nth_error_None in N; lia].
  destruct (lcode_split _ _ _ N) as (pre & x & post & j & E & PJ & NJ). exists pre, x, post, j, i. split; [exact E|]. split; [exact NJ|]. split; [lia|]. split.
  - rewrite P, line_at by exact K. cbn [nth_error]. rewrite nth_error_app1 by exact L. exact N.
  - assert (W : Forall (wstmt g) (line_stmts xss k)) by (unfold line_stmts; rewrite Forall_forall in WS; apply WS, nth_In, K).
    rewrite E in W. apply Forall_app in W as [_ W]. inversion W. assumption.
Qed.
Lemma within_unmarked k pc i : within k pc -> nth_error code pc = Some i -> unmarked i.
Proof.
  intros (K & A & B) N. rewrite (line_next xss k K) in B. replace pc with (line_start xss k + S (pc - (line_start xss k + 1))) in N by lia. rewrite line_at in N by exact K. cbn [nth_error] in N.
  rewrite nth_error_app1 in N by lia. apply nth_error_In in N. destruct (LineProofs.program_line _ _ _ _ _ _ PI K) as (text & s1 & s2 & L). pose proof (stmts_unmarked _ (line_plain _ _ _ _ _ L)) as U.
  rewrite Forall_forall in U. exact (U i N).
Qed.
(* a place is in one line *)

Lemma stmt_within k pre x post j : k < length xss -> line_stmts xss k = pre ++ x :: post -> j < length (scode x) -> within k (line_start xss k + 1 + length (lcode pre) + j).
Proof.
  intros K E J. split; [exact K|]. split; [lia|]. rewrite (line_next xss k K), E, lcode_app, lcode_cons, !app_length. lia.
Qed.
Lemma usual_not x j i : wstmt g x -> nth_error (scode x) j = Some i -> special i = true -> match x with SIf _ true | SDef _ _ _ | SOn _ _ _ | SInput _ _ => True | _ => False end.
Proof.
  intros W N SP. pose proof (scode_usual g x W) as U. destruct x; try exact Logic.I.
  all: try solve [pose proof (VmTyping.Forall_nth _ _ _ _ U N) as X; unfold usual in X; cbn beta in X; congruence].
  destruct has_else; [exact Logic.I|]. pose proof (VmTyping.Forall_nth _ _ _ _ U N) as X. unfold usual in X; cbn beta in X; congruence.
Qed.
Lemma ecode_not e j i : wt g e -> nth_error (ecode e) j = Some i -> special i = true -> False.
Proof. intros W N SP. pose proof (VmTyping.Forall_nth _ _ _ _ (ecode_usual g e W) N) as X. unfold usual in X; cbn beta in X; congruence. Qed.
(* pc is in an INPUT of line k, not at its first instruction, which is at a *)
Definition mid (k pc a : nat) : Prop := exists pre prompt l post j, line_stmts xss k = pre ++ SInput prompt l :: post /\ 0 < j /\ j < length (scode (SInput prompt l)) /\
  a = line_start xss k + 1 + length (lcode pre) /\ pc = a + j.
Lemma stmt_code k pre x post j : k < length xss -> line_stmts xss k = pre ++ x :: post -> j < length (scode x) -> nth_error code (line_start xss k + 1 + length (lcode pre) + j) = nth_error (scode x) j.
Proof.
  intros K E J. replace (line_start xss k + 1 + length (lcode pre) + j) with (line_start xss k + S (length (lcode pre) + j)) by lia. rewrite line_at by exact K. cbn [nth_error].
  rewrite E, lcode_app, lcode_cons, <- !app_assoc, nth_error_app2 by lia. replace (length (lcode pre) + j - length (lcode pre)) with j by lia. apply nth_error_app1. exact J.
Qed.
Lemma mid_stmt k pc a : mid k pc a -> k < length xss /\ within k a /\ exists prompt i, nth_error code a = Some (I_INPUT_BUF prompt) /\ nth_error code pc = Some i /\ asks i = true.
Proof.
  intros (pre & prompt & l & post & j & E & J1 & J2 & A & P). assert (K : k < length xss).
  { destruct (Nat.lt_ge_cases k (length xss)) as [K|K]; [exact K|]. exfalso. unfold line_stmts in E. rewrite nth_overflow in E by exact K. destruct pre; discriminate E. }
  split; [exact K|]. assert (W : wstmt g (SInput prompt l)).
  { assert (W : Forall (wstmt g) (line_stmts xss k)) by (unfold line_stmts; rewrite Forall_forall in WS; apply WS, nth_In, K). rewrite E in W. apply Forall_app in W as [_ W]. inversion W. assumption. }
  destruct (sinput_code g prompt l W) as (r & SC & R). split.
  - rewrite A, <- (Nat.add_0_r (_ + length (lcode pre))). apply (stmt_within k pre _ post 0 K E). lia.
  - exists prompt. pose proof (stmt_code k pre _ post 0 K E ltac:(lia)) as N0. pose proof (stmt_code k pre _ post j K E J2) as NJ. rewrite Nat.add_0_r, <- A in N0. rewrite <- A, <- P in NJ. rewrite SC in N0, NJ.
    destruct j as [|j]; [lia|]. cbn [nth_error] in N0, NJ. destruct (nth_error r j) as [i|] eqn:NR; [|exfalso; apply nth_error_None in NR; rewrite SC in J2; cbn [length] in J2; lia].
    exists i. split; [exact N0|]. split; [exact NJ|]. exact (VmTyping.Forall_nth _ _ _ _ R NR).
Qed.
Lemma mid_next k pc a i : nth_error code pc = Some i -> mid k (S pc) a -> (pc = a /\ exists prompt, i = I_INPUT_BUF prompt) \/ (mid k pc a /\ asks i = true).
Proof.
  intros N M. destruct (mid_stmt k _ a M) as (K & WI & prompt' & i' & NA & _). pose proof M as (pre & prompt & l & post & j & E & J1 & J2 & A & P). destruct j as [|[|j]]; [lia| |].
  - left. assert (pc = a) by lia. subst pc. split; [reflexivity|]. exists prompt'. congruence.
  - right. assert (M' : mid k pc a) by (exists pre, prompt, l, post, (S j); split; [exact E|]; split; [lia|]; split; [lia|]; split; [exact A|lia]).
    split; [exact M'|]. destruct (mid_stmt k _ a M') as (_ & _ & _ & i2 & _ & N2 & Q). congruence.
Qed.
Lemma apart_next k pc a i : nth_error code pc = Some i -> apart i = true -> ~ mid k (S pc) a.
Proof. intros N AP M. destruct (mid_next k pc a i N M) as [(_ & prompt & ->)|[_ Q]]; [discriminate AP|]. destruct i; cbn [apart] in AP; try discriminate AP; rewrite Q in AP; discriminate AP. Qed.
Lemma mid_first k pc a b : mid k pc a -> ~ mid k a b.
Proof. intros M M'. destruct (mid_stmt k _ a M) as (_ & _ & prompt & _ & N & _). destruct (mid_stmt k _ b M') as (_ & _ & _ & i & _ & N' & Q). rewrite N in N'. injection N' as <-. discriminate Q. Qed.
(* the special instructions *)
Lemma special_at k pc i : within k pc -> nth_error code pc = Some i -> special i = true ->
  match i with
  | I_IF_ELSE => exists r, pc < r /\ within k r /\ nth_error code r = Some I_ELSE
  | I_DEF id n => exists q e r, n = 1%N /\ In (SDef id q e) (line_stmts xss k) /\ skipn pc code = definition id q e ++ r /\ wt g e /\ pc + 2 + length (ecode e) < line_start xss (S k)
  | I_ON_GOTO n | I_ON_GOSUB n => pc + n < line_start xss (S k) /\ exists i', nth_error code (pc + n) = Some i' /\ apart i' = true
  | _ => exists a, mid k pc a
  end.
Proof.
  intros H N SP. pose proof H as (K & _). destruct (within_code k pc H) as (pre & x & post & j & i' & E & NJ & P & N' & W). rewrite N in N'. injection N' as <-.
  pose proof (usual_not x j i W NJ SP) as Q. destruct x; try contradiction Q; cbn [scode wstmt] in *.
  - destruct W as (_ & _ & _ & W). destruct j as [|[|j]]; cbn [nth_error] in NJ.
    + injection NJ as <-. exists param, body. eexists. split; [reflexivity|]. split; [rewrite E; apply in_or_app; right; left; reflexivity|]. split; [|split; [exact W|]].
      * replace pc with (line_start xss k + (1 + length (lcode pre))) by lia. rewrite (Nat.add_comm (line_start xss k)), <- LineProofs.skipn_skipn, (line_start_code xss k K). cbn [plus skipn]. rewrite E, lcode_app, <- app_assoc.
        rewrite skipn_app, skipn_all, Nat.sub_diag. cbn [app skipn]. rewrite lcode_cons. cbn [scode]. unfold definition. rewrite <- app_assoc. reflexivity.
      * rewrite (line_next xss k K), E, lcode_app, lcode_cons, !app_length. cbn [scode length]. rewrite app_length. cbn [length]. lia.
    + injection NJ as <-. discriminate SP.
    + destruct (Nat.lt_ge_cases j (length (ecode body))) as [L|L].
      * rewrite nth_error_app1 in NJ by exact L. destruct (ecode_not body j i W NJ SP).
      * rewrite nth_error_app2 in NJ by exact L. destruct (j - length (ecode body)) as [|[|]]; try discriminate NJ. injection NJ as <-. discriminate SP.
  - destruct has_else; [|contradiction Q]. destruct W as [W _]. destruct (Nat.lt_ge_cases j (length (ecode e))) as [L|L].
    + rewrite nth_error_app1 in NJ by exact L. destruct (ecode_not e j i W NJ SP).
    + rewrite nth_error_app2 in NJ by exact L. destruct (j - length (ecode e)) as [|[|]] eqn:J; try discriminate NJ. injection NJ as <-.
      destruct (LineProofs.program_line _ _ _ _ _ _ PI K) as (text & s1 & s2 & LI). destruct (if_has_else _ _ _ _ _ _ _ _ LI E) as (thn & els & T & _).
      assert (E2 : line_stmts xss k = (pre ++ SIf e true :: thn) ++ SElse :: els) by (rewrite E, T, <- app_assoc; reflexivity).
      exists (line_start xss k + 1 + length (lcode (pre ++ SIf e true :: thn)) + 0). split; [|split].
      * rewrite lcode_app, lcode_cons, !app_length. cbn [scode]. rewrite app_length. cbn [length]. lia.
      * apply (stmt_within k _ SElse els 0 K E2). cbn. lia.
      * replace (line_start xss k + 1 + length (lcode (pre ++ SIf e true :: thn)) + 0) with (line_start xss k + S (length (lcode (pre ++ SIf e true :: thn)))) by lia. rewrite line_at by exact K. cbn [nth_error].
        rewrite E2, (lcode_app (pre ++ SIf e true :: thn)), <- app_assoc, nth_error_app2 by lia. rewrite Nat.sub_diag. reflexivity.
  - destruct j as [|j]; [injection NJ as <-; discriminate SP|]. assert (M : exists a, mid k pc a).
    { exists (line_start xss k + 1 + length (lcode pre)), pre, prompt, l, post, (S j). split; [exact E|]. split; [lia|]. split; [apply nth_error_Some; cbn [scode]; rewrite NJ; discriminate|]. split; [reflexivity|exact P]. }
    destruct M as (a & M). destruct (mid_stmt k pc a M) as (_ & _ & _ & i' & _ & N' & Q'). rewrite N in N'. injection N' as <-. destruct i; try discriminate SP; try discriminate Q'; exists a; exact M.
  - destruct W as [W _]. destruct (Nat.lt_ge_cases j (length (ecode e))) as [L|L].
    + rewrite nth_error_app1 in NJ by exact L. destruct (ecode_not e j i W NJ SP).
    + rewrite nth_error_app2 in NJ by exact L. destruct (j - length (ecode e)) as [|m] eqn:J; cbn [nth_error] in NJ.
      * assert (X : pc + length l < line_start xss (S k)).
        { rewrite (line_next xss k K), E, lcode_app, lcode_cons, !app_length. cbn [scode]. rewrite app_length. cbn [length]. rewrite map_length. lia. }
        assert (Y : exists i', nth_error code (pc + length l) = Some i' /\ apart i' = true).
        { assert (JL : j + length l < length (scode (SOn e gosub l))) by (cbn [scode]; rewrite app_length; cbn [length]; rewrite map_length; lia).
          pose proof (stmt_code k pre _ post (j + length l) K E JL) as NL. replace (line_start xss k + 1 + length (lcode pre) + (j + length l)) with (pc + length l) in NL by lia. rewrite NL. cbn [scode].
          rewrite nth_error_app2 by lia. replace (j + length l - length (ecode e)) with (length l) by lia. destruct (length l) as [|m] eqn:LL.
          - eexists. split; [reflexivity|]. destruct gosub; reflexivity.
          - cbn [nth_error]. rewrite nth_error_map. destruct (nth_error l m) as [y|] eqn:NM; [|apply nth_error_None in NM; lia]. eexists. split; reflexivity. }
        destruct gosub; injection NJ as <-; split; assumption.
      * exfalso. apply nth_error_In in NJ. apply in_map_iff in NJ as (y & <- & _). discriminate SP.
Qed.
End Line.

(* ---------- the machine ---------- *)

Definition frame (v : vm) := (v_stored v, v_ret v, v_for v, v_fn v, v_def v, v_cs v).
Definition moves (i : instr) : bool :=
  match i with
  | I_SOURCE_LINE _ | I_END | I_GOTO _ | I_GOTRUE _ | I_GOSUB _ | I_RETURN | I_FOR _ | I_NEXT_VAR _ | I_NEXT_IMP | I_ON_GOTO _ | I_ON_GOSUB _ | I_IF_THEN | I_IF_ELSE | I_ELSE
  | I_DEF _ _ | I_END_DEF | I_GET_PAREN_NUM _ _ | I_GET_PAREN_STR _ _ | I_INPUT_NUM _ _ | I_INPUT_SEP => true
  | _ => false
  end.
Lemma still_frame E i : moves i = false -> keeps frame (exec_instr E i).
Proof. intros H. destruct i; try discriminate H; cbn [exec_instr]; repeat keeps_more. Qed.
Lemma adv_inv m v b w : adv m v = (Ok b, w) -> b = true /\ m v = (Ok tt, w).
Proof. unfold adv, bind, ret. destruct (m v) as [[[]|e| |] u]; intros X; try discriminate X. injection X as <- <-. auto. Qed.
Lemma jump_inv m v b w : jump m v = (Ok b, w) -> b = false /\ m v = (Ok tt, w).
Proof. unfold jump, bind, ret. destruct (m v) as [[[]|e| |] u]; intros X; try discriminate X. injection X as <- <-. auto. Qed.
Lemma pop_inv v x w : pop v = (Ok x, w) -> exists r, w = set_stack r v.
Proof. unfold pop. destruct (v_stack v) as [|y r]; [discriminate|]. intros X. injection X as _ <-. eexists. reflexivity. Qed.
Lemma modify_inv f v u w : modify f v = (Ok u, w) -> w = f v.
Proof. unfold modify. intros X. injection X as _ X. congruence. Qed.
Lemma keeps_ok {A T} (f : vm -> T) (m : M A) v a w : keeps f m -> m v = (Ok a, w) -> f w = f v.
Proof. intros K X. specialize (K v). rewrite X in K. exact K. Qed.
Lemma execute_inv E v i w u : current v = Some i -> execute E v = (Ok u, w) -> exists b w1, exec_instr E i v = (Ok b, w1) /\ w = if b then set_pc (S (cs_pc (v_cs w1))) w1 else w1.
Proof.
  intros C X. rewrite (execute_eq E v i C) in X. destruct (exec_instr E i v) as [[[]|e'| |] w1]; try discriminate X; cbn [finish] in X; apply (f_equal snd) in X; cbn [snd] in X; [exists true, w1|exists false, w1]; auto.
Qed.
Lemma scan_def l r : Forall (fun i => exprop i = true) l -> scan_to is_end_def (l ++ I_END_DEF :: r) = length l.
Proof. induction 1 as [|i l H _ IH]; [reflexivity|]. cbn [app scan_to length]. rewrite IH. destruct i; try reflexivity. discriminate H. Qed.
Lemma scan_at f l : forall k i, nth_error l k = Some i -> f i = true -> scan_to f l <= k.
Proof. induction l as [|a l IH]; intros [|k] i N F; try discriminate N; cbn [scan_to nth_error] in *; [injection N as ->; rewrite F; lia|]. specialize (IH _ _ N F). destruct (f a); lia. Qed.
Lemma scan_found f l : scan_to f l = length l \/ exists i, nth_error l (scan_to f l) = Some i /\ f i = true.
Proof.
  induction l as [|a l IH]; [left; reflexivity|]. cbn [scan_to length]. destruct (f a) eqn:F; [right; exists a; auto|]. destruct IH as [->|IH]; [left; reflexivity|right; exact IH].
Qed.

Section Where.
Variables (E : env) (g : list sig) (kw : bool) (st0 st1 : symtab) (src : source) (xss : list (list stmt)) (bc : bcode) (idx : linemap).
Hypothesis WS : Forall (Forall (wstmt g)) xss.
Hypothesis PI : program_is kw st0 (map ln_text src) xss st1.
Hypothesis BC : bc_inst bc = pcode 0 xss.
Hypothesis IX : bcode_index bc src = Some idx.
Hypothesis DL : distinct_lines src.
Local Notation code := (pcode 0 xss).
Local Notation within := (in_code xss).

Definition inside (c : code_state) : Prop := cs_code c = Some CStored /\ within (cs_line c) (cs_pc c).
Definition lands (c : code_state) : Prop := cs_code c = Some CStored /\ exists j, j <= length xss /\ cs_pc c = line_start xss j.
Definition spotted (c : code_state) : Prop := inside c \/ lands c.
Definition made (d : def) : Prop := def_stored d = true /\ exists id p e, In (SDef id p e) (line_stmts xss (def_line d)) /\ bc_inst (def_bcode d) = definition id p e.
Definition after (c : code_state) : code_state := mkCs (cs_code c) (cs_line c) (S (cs_pc c)).
(* c is not in the middle of an INPUT, or the machine knows where that begins *)
Definition free (c : code_state) : Prop := inside c -> forall a, ~ mid xss (cs_line c) (cs_pc c) a.
Definition asked (c : code_state) (v : vm) : Prop := inside c -> forall a, mid xss (cs_line c) (cs_pc c) a -> v_input_pc v = a.
Definition within_fn (v : vm) : Prop := cs_code (v_cs v) = Some CDef /\ 2 <= cs_pc (v_cs v) /\ (inside (fn_cs (v_fn v)) /\ asked (after (fn_cs (v_fn v))) v) /\ c_source (v_def v) = Some src /\
  exists b id p e, c_bcode (v_def v) = Some b /\ In (SDef id p e) (line_stmts xss (cs_line (v_cs v))) /\ bc_inst b = definition id p e.
Record base (v : vm) : Prop := {
  b_stored : v_stored v = mkCode (Some src) (Some bc) (Some idx);
  b_ret : Forall (fun c => spotted c /\ free c) (v_ret v);
  b_for : Forall (fun f => inside (f_cs f) /\ free (after (f_cs f))) (v_for v)
}.
Definition outside (v : vm) : Prop := cs_code (fn_cs (v_fn v)) = None.
Definition here (v : vm) : Prop := (spotted (v_cs v) /\ asked (v_cs v) v /\ outside v) \/ within_fn v.
Definition lined (v : vm) : Prop := base v /\ here v /\ fine_defs made v.

Lemma inside_next c : inside c -> spotted (mkCs (cs_code c) (cs_line c) (S (cs_pc c))).
Proof.
  intros (C & K & A & B). destruct (Nat.lt_ge_cases (S (cs_pc c)) (line_start xss (S (cs_line c)))) as [L|L].
  - left. split; [exact C|]. split; [exact K|]. cbn [cs_line cs_pc]. lia.
  - right. split; [exact C|]. exists (S (cs_line c)). split; [lia|]. cbn [cs_pc]. lia.
Qed.
Lemma inside_upto c p : inside c -> cs_pc c < p -> p <= line_start xss (S (cs_line c)) -> spotted (mkCs (cs_code c) (cs_line c) p).
Proof.
  intros (C & K & A & B) P Q. destruct (Nat.eq_dec p (line_start xss (S (cs_line c)))) as [->|N].
  - right. split; [exact C|]. exists (S (cs_line c)). split; [lia|reflexivity].
  - left. split; [exact C|]. split; [exact K|]. cbn [cs_line cs_pc]. lia.
Qed.
Lemma base_frame v w : v_stored w = v_stored v -> v_ret w = v_ret v -> v_for w = v_for v -> base v -> base w.
Proof. intros H1 H2 H3 [B1 B2 B3]. constructor; rewrite ?H1, ?H2, ?H3; assumption. Qed.
Lemma base_same v w : frame w = frame v -> base v -> base w.
Proof. unfold frame. intros F. injection F as F1 F2 F3 F4 F5 F6. apply base_frame; assumption. Qed.
Lemma fn_next v n : cs_pc (v_cs v) <= n -> within_fn v -> within_fn (set_pc n v).
Proof. intros L (C & P & F & S & X). split; [exact C|]. split; [cbn; lia|]. auto. Qed.
Lemma free_asked c v : free c -> asked c v.
Proof. intros F I a M. destruct (F I a M). Qed.
Lemma start_not_within k j : j <= length xss -> ~ within k (line_start xss j).
Proof.
  intros J (K & A & B). destruct (Nat.lt_trichotomy j k) as [Q|[Q|Q]].
  - pose proof (line_starts_lt xss j k Q ltac:(lia)). lia.
  - subst j. lia.
  - destruct (Nat.eq_dec j (S k)) as [->|N]; [lia|]. pose proof (line_starts_lt xss (S k) j ltac:(lia) J). lia.
Qed.
Lemma lands_free c : lands c -> free c.
Proof. intros (_ & j & J & P) (_ & W) a _. rewrite P in W. exact (start_not_within _ _ J W). Qed.
Lemma apart_free c i : nth_error code (cs_pc c) = Some i -> apart i = true -> free (after c).
Proof. intros N AP _ a M. exact (apart_next g xss WS _ _ a i N AP M). Qed.
Lemma asked_after c v v' i : inside c -> nth_error code (cs_pc c) = Some i -> asked c v -> v_input_pc v' = match i with I_INPUT_BUF _ => cs_pc c | _ => v_input_pc v end -> asked (after c) v'.
Proof.
  intros I N A P _ a M. destruct (mid_next g xss WS _ _ a i N M) as [(Q & prompt & ->)|[M' Q]]; [congruence|]. rewrite P. destruct i; try discriminate Q; exact (A I a M').
Qed.
Lemma advance_here w i v : inside (v_cs w) -> nth_error code (cs_pc (v_cs w)) = Some i -> asked (v_cs w) v -> v_input_pc w = match i with I_INPUT_BUF _ => cs_pc (v_cs w) | _ => v_input_pc v end ->
  outside w -> here (set_pc (S (cs_pc (v_cs w))) w).
Proof. intros L N A P O. left. split; [exact (inside_next _ L)|]. split; [|exact O]. exact (asked_after (v_cs w) v w i L N A P). Qed.
Lemma free_here w : inside (v_cs w) -> free (after (v_cs w)) -> outside w -> here (set_pc (S (cs_pc (v_cs w))) w).
Proof. intros L F O. left. split; [exact (inside_next _ L)|]. split; [|exact O]. exact (free_asked (after (v_cs w)) w F). Qed.
Lemma lands_here w : lands (v_cs w) -> outside w -> here w.
Proof. intros L O. left. split; [right; exact L|]. split; [|exact O]. exact (free_asked _ w (lands_free _ L)). Qed.
Lemma input_kept i : (forall prompt, i <> I_INPUT_BUF prompt) -> keeps v_input_pc (exec_instr E i).
Proof. intros H. destruct i; try (destruct (H _ eq_refl)); cbn [exec_instr]; repeat keeps_more. Qed.

Lemma stored_current v i : base v -> cs_code (v_cs v) = Some CStored -> current v = Some i -> nth_error code (cs_pc (v_cs v)) = Some i.
Proof. intros B C H. unfold current, cur_bcode in H. rewrite C in H. cbn [code_of] in H. rewrite (b_stored v B) in H. cbn [c_bcode] in H. rewrite BC in H. exact H. Qed.
Lemma def_wt id p e k : In (SDef id p e) (line_stmts xss k) -> wt g e.
Proof.
  intros H. unfold line_stmts in H. destruct (Nat.lt_ge_cases k (length xss)) as [L|L]; [|rewrite nth_overflow in H by exact L; destruct H].
  rewrite Forall_forall in WS. pose proof (WS _ (nth_In _ [] L)) as W. rewrite Forall_forall in W. specialize (W _ H). cbn [wstmt] in W. apply W.
Qed.
Lemma fn_current v i : within_fn v -> current v = Some i -> exprop i = true \/ i = I_END_DEF.
Proof.
  intros (C & P & _ & _ & (b & id & p & e & B & I & D)) H. unfold current, cur_bcode in H. rewrite C in H. cbn [code_of] in H. rewrite B, D in H.
  unfold definition in H. destruct (cs_pc (v_cs v)) as [|[|pc]]; try lia. cbn [nth_error] in H. pose proof (ecode_exprop g e (def_wt id p e _ I)) as X.
  destruct (Nat.lt_ge_cases pc (length (ecode e))) as [L|L].
  - rewrite nth_error_app1 in H by exact L. left. exact (proj1 (VmTyping.Forall_nth _ _ _ _ X H)).
  - rewrite nth_error_app2 in H by exact L. destruct (pc - length (ecode e)) as [|[|]]; try discriminate H. injection H as <-. right. reflexivity.
Qed.

(* ---------- what the instructions do ---------- *)

Lemma go_lands n v u w : base v -> go_to_basic_line n v = (Ok u, w) -> base w /\ lands (v_cs w) /\ v_fn w = v_fn v.
Proof.
  intros B X. pose proof (b_stored v B) as S. unfold go_to_basic_line, find_basic_line, bind, modify in X. rewrite S in X. cbn [c_index] in X.
  destruct (lookup_line_mapping idx n) as [i|] eqn:L; [|discriminate X]. apply (f_equal snd) in X. cbn [snd] in X. subst w. split; [apply (base_frame v); auto|].
  split; [|reflexivity]. split; [reflexivity|]. apply (index_lookup _ _ _ _ _ _ _ PI BC IX DL) in L as (k & (l & N & _) & ->). exists k. pose proof (program_length _ _ _ _ _ PI) as LE. rewrite map_length in LE.
  split; [rewrite LE; apply Nat.lt_le_incl, nth_error_Some; congruence|]. cbn [v_cs set_cs cs_pc]. apply Nat2N.id.
Qed.
Lemma skip_inv f v u w : base v -> cs_code (v_cs v) = Some CStored -> skip_to f v = (Ok u, w) -> w = set_pc (S (cs_pc (v_cs v)) + scan_to f (skipn (S (cs_pc (v_cs v))) code)) v.
Proof. intros B C. unfold skip_to, bind, get_bcode, cur_bcode. rewrite C. cbn [code_of]. rewrite (b_stored v B). cbn [c_bcode]. rewrite BC. unfold modify. intros X. injection X as _ <-. reflexivity. Qed.
(* the next marker is that of the next line *)
Lemma skip_line k pc : within k pc -> S pc + scan_to is_source_line (skipn (S pc) code) = line_start xss (S k).
Proof.
  intros (K & A & B). assert (LT : S k <= length xss) by lia. destruct (scan_found is_source_line (skipn (S pc) code)) as [L|(i & N & F)].
  - rewrite L, skipn_length, line_all. assert (J : line_start xss (S k) <= line_start xss (length xss)) by (destruct (Nat.eq_dec (S k) (length xss)) as [->|]; [lia|apply Nat.lt_le_incl, line_starts_lt; lia]).
    destruct (Nat.eq_dec (S k) (length xss)) as [Q|Q]; [rewrite Q in *; lia|]. exfalso.
    pose proof (marker_at xss (S k) ltac:(lia)) as M. replace (line_start xss (S k)) with (S pc + (line_start xss (S k) - S pc)) in M by lia. rewrite <- nth_error_skipn in M.
    assert (LL : line_start xss (S k) - S pc < length (skipn (S pc) code)) by (apply nth_error_Some; congruence). pose proof (scan_at is_source_line _ _ _ M eq_refl). lia.
  - rewrite nth_error_skipn in N. destruct i; try discriminate F.
    destruct (Nat.lt_trichotomy (S pc + scan_to is_source_line (skipn (S pc) code)) (line_start xss (S k))) as [Q|[Q|Q]]; [|exact Q|].
    + exfalso. assert (WI : within k (S pc + scan_to is_source_line (skipn (S pc) code))) by (split; [exact K|lia]). destruct (within_unmarked kw st0 st1 _ xss PI k _ _ WI N) as [_ X]. exact X.
    + exfalso. destruct (Nat.eq_dec (S k) (length xss)) as [Y|Y].
      * assert (nth_error code (S pc + scan_to is_source_line (skipn (S pc) code)) <> None) as Z by congruence. apply nth_error_Some in Z. rewrite line_all, <- Y in Z. lia.
      * pose proof (marker_at xss (S k) ltac:(lia)) as M. replace (line_start xss (S k)) with (S pc + (line_start xss (S k) - S pc)) in M by lia. rewrite <- nth_error_skipn in M.
        pose proof (scan_at is_source_line _ _ _ M eq_refl). lia.
Qed.
Lemma skip_else k pc : within k pc -> nth_error code pc = Some I_IF_ELSE -> within k (S pc + scan_to is_else (skipn (S pc) code)) /\ nth_error code (S pc + scan_to is_else (skipn (S pc) code)) = Some I_ELSE.
Proof.
  intros W N. pose proof (special_at g kw st0 st1 _ xss WS PI k pc _ W N eq_refl) as X. cbn beta iota in X. destruct X as (r & R & (_ & _ & WR) & M).
  replace r with (S pc + (r - S pc)) in M by lia. rewrite <- nth_error_skipn in M. pose proof (scan_at is_else _ _ _ M eq_refl) as LE. destruct W as (K & A & B). split; [split; [exact K|lia]|].
  destruct (scan_found is_else (skipn (S pc) code)) as [L|(i & N' & F)].
  - exfalso. assert (LL : r - S pc < length (skipn (S pc) code)) by (apply nth_error_Some; congruence). lia.
  - rewrite nth_error_skipn in N'. destruct i; try discriminate F. exact N'.
Qed.
Definition tracked (v : vm) := (v_cs v, v_ret v, v_for v, v_stored v, v_fn v).
Lemma trace_inv m (v : vm) u w : keeps tracked m -> trace_for m v = (Ok u, w) -> tracked w = tracked v.
Proof. intros K X. unfold trace_for in X. destruct (o_trace_for _); [exact (keeps_ok _ _ _ _ _ K X)|]. injection X as _ <-. reflexivity. Qed.
Ltac traced X := apply trace_inv in X; [|solve [repeat keeps_more]]; unfold tracked in X; injection X as ? ? ? ? ?.
Lemma put_inv id s v u w : put_sym id s v = (Ok u, w) -> tracked w = tracked v.
Proof. intros X. apply modify_inv in X as ->. reflexivity. Qed.

Definition goes_on (v w : vm) : Prop := base w /\ inside (v_cs w) /\ free (after (v_cs w)) /\ v_fn w = v_fn v.
Lemma next_lined si v u w : inside (v_cs v) -> free (after (v_cs v)) -> base v -> next si v = (Ok u, w) -> goes_on v w.
Proof.
  intros L FR B X. unfold next in X. apply bind_ok in X as (v0 & u0 & X0 & X). injection X0 as <- <-.
  apply bind_ok in X as (f & u1 & X1 & X). apply some_ok in X1 as [-> NF]. apply bind_ok in X as (sy & u2 & X2 & X). apply get_sym_ok in X2 as [-> SY].
  apply bind_ok in X as (x0 & u3 & X3 & X). apply some_ok in X3 as [-> VN]. apply bind_ok in X as (u4 & v4 & X4 & X). apply trace_inv in X; [|solve [repeat keeps_more]].
  unfold tracked in X. injection X as Y1 Y2 Y3 Y4 Y5.
  destruct (_ || _) in X4.
  - injection X4 as _ <-. cbn [v_cs v_ret v_for v_stored v_fn set_for] in *. split; [|rewrite Y1; split; [exact L|split; [exact FR|exact Y5]]]. destruct B as [B1 B2 B3].
    constructor; rewrite ?Y2, ?Y3, ?Y4; try assumption. apply Forall_remove_nth. exact B3.
  - apply bind_ok in X4 as (u5 & v5 & X5 & X4). injection X5 as _ <-. injection X4 as _ <-. cbn [v_cs v_ret v_for v_stored v_fn set_cs set_st] in *. split; [apply (base_frame v); assumption|].
    rewrite Y1. destruct (VmTyping.Forall_nth _ _ _ _ (b_for v B) NF) as [G1 G2]. split; [exact G1|]. split; [exact G2|exact Y5].
Qed.
Lemma for_lined id v u w : inside (v_cs v) -> free (after (v_cs v)) -> base v -> exec_for id v = (Ok u, w) -> goes_on v w.
Proof.
  intros C FR B X. unfold exec_for in X. apply bind_ok in X as (u0 & v0 & X0 & X). apply trace_inv in X0; [|solve [repeat keeps_more]]. unfold tracked in X0. injection X0 as Z1 Z2 Z3 Z4 Z5.
  apply (base_frame v v0 Z4 Z2 Z3) in B. unfold goes_on. rewrite <- Z5. rewrite <- Z1 in C, FR. clear Z1 Z2 Z3 Z4 Z5 v.
  apply bind_ok in X as (sy & u2 & X2 & X). apply get_sym_ok in X2 as [-> SY].
  apply bind_ok in X as (u3 & v3 & X3 & X). unfold assert in X3. destruct (is_kind _ _ _); [|discriminate X3]. injection X3 as _ <-.
  apply bind_ok in X as (v1 & u4 & X4 & X). injection X4 as <- <-. apply bind_ok in X as (u5 & v5 & X5 & X).
  assert (Y : exists fs f, v5 = set_for (fs ++ [f]) v0 /\ Forall (fun f => inside (f_cs f) /\ free (after (f_cs f))) fs).
  { destruct (find_for (v_for v0) id) as [si|].
    - apply bind_ok in X5 as (f & u6 & X6 & X5). apply some_ok in X6 as [-> NF]. injection X5 as _ <-. eexists _, _. split; [reflexivity|]. apply Forall_remove_nth. exact (b_for v0 B).
    - destruct (Nat.leb _ _).
      + apply bind_ok in X5 as (u6 & v6 & _ & X5). discriminate X5.
      + injection X5 as _ <-. eexists _, _. split; [reflexivity|exact (b_for v0 B)]. }
  destruct Y as (fs & f & -> & FS). clear X5 SY u5.
  apply bind_ok in X as (v1 & u4 & X4 & X). injection X4 as <- <-. cbn [v_for set_for] in X.
  apply bind_ok in X as (f1 & u6 & X6 & X). apply some_ok in X6 as [-> NF]. clear NF.
  apply bind_ok in X as (u7 & v7 & X7 & X). apply modify_inv in X7 as ->. cbn [v_for v_cs set_for] in X. rewrite list_upd_last in X.
  apply bind_ok in X as (st & v8 & X8 & X). apply pop_inv in X8 as (r8 & ->).
  apply bind_ok in X as (u9 & v9 & X9 & X). apply modify_inv in X9 as ->. cbn [v_for v_cs set_for set_stack] in X.
  apply bind_ok in X as (li & v10 & X10 & X). apply pop_inv in X10 as (r10 & ->).
  apply bind_ok in X as (u11 & v11 & X11 & X). apply modify_inv in X11 as ->. cbn [v_for v_cs set_for set_stack] in X.
  apply bind_ok in X as (x & v12 & X12 & X). apply pop_inv in X12 as (r12 & ->).
  apply bind_ok in X as (u13 & v13 & X13 & X). apply put_inv in X13. apply trace_inv in X; [|solve [repeat keeps_more]]. rewrite X13 in X. clear X13. unfold tracked in X. injection X as Y1 Y2 Y3 Y4 Y5.
  cbn [v_cs v_ret v_for v_stored v_fn set_stack set_for] in Y1, Y2, Y3, Y4, Y5.
  assert (LU : forall y z, length (fs ++ [y]) - 1 = length (fs ++ [z]) - 1) by (intros; rewrite !app_length; reflexivity).
  split; [|rewrite Y1; split; [exact C|split; [exact FR|exact Y5]]]. destruct B as [B1 B2 B3]. constructor; rewrite ?Y2, ?Y4; try assumption. rewrite Y3.
  match goal with |- Forall _ (list_upd (list_upd (fs ++ [?a]) _ ?b) _ ?c) => rewrite (LU f a) at 1; rewrite (LU f a); rewrite list_upd_last; rewrite (LU a b); rewrite list_upd_last end.
  apply Forall_app. split; [exact FS|]. constructor; [split; [exact C|exact FR]|constructor].
Qed.
Lemma push_lined p v u w : spotted (mkCs (cs_code (v_cs v)) (cs_line (v_cs v)) p) -> free (mkCs (cs_code (v_cs v)) (cs_line (v_cs v)) p) -> base v -> push_return p v = (Ok u, w) -> base w /\ v_fn w = v_fn v.
Proof.
  intros P FR B. unfold push_return. destruct (Nat.leb _ _); [discriminate|]. intros X. injection X as _ <-. destruct B as [B1 B2 B3]. split; [|reflexivity]. constructor; try assumption. constructor; [split; assumption|assumption].
Qed.
Lemma on_lined b k v u w : inside (v_cs v) -> cs_pc (v_cs v) + k < line_start xss (S (cs_line (v_cs v))) -> (exists i, nth_error code (cs_pc (v_cs v) + k) = Some i /\ apart i = true) -> base v -> outside v -> exec_on b k v = (Ok u, w) -> base w /\ here w.
Proof.
  intros L KK (ik & NK & AK) B O X. unfold exec_on in X. apply bind_ok in X as (x & v0 & X0 & X). apply pop_inv in X0 as (r0 & ->).
  assert (NX : spotted (mkCs (cs_code (v_cs v)) (cs_line (v_cs v)) (cs_pc (v_cs v) + (k + 1)))) by (apply inside_upto; [exact L|lia|lia]).
  assert (NF : free (mkCs (cs_code (v_cs v)) (cs_line (v_cs v)) (cs_pc (v_cs v) + (k + 1)))).
  { replace (cs_pc (v_cs v) + (k + 1)) with (S (cs_pc (v_cs v) + k)) by lia. exact (apart_free (mkCs (cs_code (v_cs v)) (cs_line (v_cs v)) (cs_pc (v_cs v) + k)) ik NK AK). }
  assert (B0 : base (set_stack r0 v)) by (apply (base_frame v); auto).
  destruct (fneb x (ffloor x)); [discriminate X|]. apply bind_ok in X as (v1 & u4 & X4 & X). injection X4 as <- <-. cbn [v_cs set_stack] in X.
  destruct (_ || _) in X.
  - injection X as _ <-. split; [apply (base_frame v); auto|]. left. split; [exact NX|]. split; [exact (free_asked _ _ NF)|exact O].
  - apply bind_ok in X as (z & u1 & X1 & X). apply some_ok in X1 as [-> _]. apply bind_ok in X as (bc' & u2 & X2 & X).
    assert (u2 = set_stack r0 v) as ->. { unfold get_bcode in X2. destruct (cur_bcode _); [|discriminate X2]. injection X2 as _ <-. reflexivity. }
    destruct (nth_error _ _) as [[]|] in X; try discriminate X. apply bind_ok in X as (u3 & v3 & X3 & X).
    assert (Y : base v3 /\ v_fn v3 = v_fn v).
    { destruct b; [|injection X3 as _ <-; split; [exact B0|reflexivity]]. replace (cs_pc (v_cs v) + k + 1) with (cs_pc (v_cs v) + (k + 1)) in X3 by lia. exact (push_lined _ (set_stack r0 v) _ _ NX NF B0 X3). }
    destruct Y as [Y1 Y2]. destruct (go_lands _ _ _ _ Y1 X) as (H1 & H2 & H3). split; [exact H1|]. apply lands_here; [exact H2|]. unfold outside. rewrite H3, Y2. exact O.
Qed.
Lemma call_lined id n v u w : inside (v_cs v) -> asked (after (v_cs v)) v -> base v -> fine_defs made v -> call_def id n v = (Ok u, w) -> base w /\ within_fn (set_pc (S (cs_pc (v_cs w))) w).
Proof.
  intros L AK B FD X. unfold call_def in X. apply bind_ok in X as (s & u1 & X1 & X). apply get_sym_ok in X1 as [-> SY].
  apply bind_ok in X as (u2 & v2 & X2 & X). unfold assert in X2. destruct (skind_eqb _ _); [|discriminate X2]. injection X2 as _ <-.
  destruct (negb (s_defined s)); [discriminate X|]. apply bind_ok in X as (d0 & u3 & X3 & X). apply some_ok in X3 as [-> VD]. apply bind_ok in X as (d & u4 & X4 & X). apply some_ok in X4 as [-> ->].
  assert (MD : made d). { pose proof (VmTyping.Forall_nth _ _ _ _ FD SY) as F. cbn beta in F. destruct (s_val s); try discriminate VD. injection VD as ->. exact F. }
  apply bind_ok in X as (v1 & u5 & X5 & X). injection X5 as <- <-. destruct (cs_code (fn_cs (v_fn v))) as [r|] eqn:FN; [discriminate X|].
  destruct (n =? 1)%N eqn:N1; [|discriminate X]. apply N.eqb_eq in N1 as ->. cbn [negb] in X. apply bind_ok in X as (bc' & u6 & X6 & X).
  assert (u6 = v) as ->. { unfold get_bcode in X6. destruct (cur_bcode _); [|discriminate X6]. injection X6 as _ <-. reflexivity. }
  destruct (Nat.leb _ _); [discriminate X|]. apply bind_ok in X as (u7 & v7 & X7 & X). apply modify_inv in X7 as ->. apply bind_ok in X as (u8 & v8 & X8 & X). apply modify_inv in X8 as ->.
  apply bind_ok in X as (u9 & v9 & X9 & X). apply modify_inv in X9 as ->. destruct (nth_error (bc_inst (def_bcode d)) 1) as [[]|]; try discriminate X.
  apply bind_ok in X as (ps & u10 & X10 & X). apply get_sym_ok in X10 as [-> _]. apply bind_ok in X as (u11 & v11 & X11 & X). unfold assert in X11. destruct (is_kind _ _ _); [|discriminate X11]. injection X11 as _ <-.
  apply bind_ok in X as (old & u12 & X12 & X). apply some_ok in X12 as [-> _]. apply bind_ok in X as (u13 & v13 & X13 & X). apply modify_inv in X13 as ->.
  apply bind_ok in X as (x & v14 & X14 & X). apply pop_inv in X14 as (r14 & ->). apply bind_ok in X as (u15 & v15 & X15 & X). apply modify_inv in X15 as ->. apply modify_inv in X as ->.
  destruct B as [B1 B2 B3]. destruct MD as (DS & id' & p & e & IN & BD). split.
  - constructor; assumption.
  - split; [reflexivity|]. split; [cbn; lia|]. split; [split; [exact L|exact AK]|]. split; [cbn; rewrite DS, B1; reflexivity|].
    exists (def_bcode d), id', p, e. split; [reflexivity|]. split; [exact IN|exact BD].
Qed.
Lemma end_lined v u w : base v -> within_fn v -> end_def v = (Ok u, w) -> base w /\ here (set_pc (S (cs_pc (v_cs w))) w).
Proof.
  intros B (_ & _ & (FI & FA) & _) X. unfold end_def in X. apply bind_ok in X as (v1 & u1 & X1 & X). injection X1 as <- <-. destruct (cs_code (fn_cs (v_fn v))) as [r|] eqn:FN; [|discriminate X].
  apply bind_ok in X as (u2 & v2 & X2 & X). apply modify_inv in X2 as ->. apply bind_ok in X as (u3 & v3 & X3 & X). apply modify_inv in X3 as ->.
  apply bind_ok in X as (ps & u4 & X4 & X). apply get_sym_ok in X4 as [-> _]. apply modify_inv in X as ->. destruct B as [B1 B2 B3]. split; [constructor; assumption|].
  left. split; [exact (inside_next _ FI)|]. split; [exact FA|reflexivity].
Qed.
Lemma def_frame id n : keeps (fun v => (v_stored v, v_ret v, v_for v, v_fn v)) (exec_def id n).
Proof. unfold exec_def. repeat keeps_more. Qed.
Lemma copied_definition k pc id q e r : In (SDef id q e) (line_stmts xss k) -> skipn pc code = definition id q e ++ r -> bc_inst (bcode_copy_def bc pc) = definition id q e.
Proof.
  intros I S. pose proof (def_wt id q e k I) as W. assert (EX : Forall (fun i => exprop i = true) (ecode e)) by (apply Forall_impl with (2 := ecode_exprop g e W); intros i H; apply H).
  rewrite copy_def_inst, BC, S. unfold definition. cbn [app scan_to is_end_def]. rewrite <- app_assoc. cbn [app]. rewrite (scan_def (ecode e) r EX). cbn [firstn app].
  rewrite firstn_app, Nat.sub_diag, firstn_all. cbn [firstn]. rewrite app_nil_r. reflexivity.
Qed.
Lemma def_lined id n v u w : inside (v_cs v) -> nth_error code (cs_pc (v_cs v)) = Some (I_DEF id n) -> base v -> fine_defs made v -> exec_def id n v = (Ok u, w) ->
  goes_on v w /\ fine_defs made w.
Proof.
  intros L N B FD X. pose proof (keeps_ok _ _ _ _ _ (def_frame id n) X) as K. cbn beta in K. injection K as K1 K2 K3 K4. assert (BW : base w) by (apply (base_frame v); assumption).
  destruct L as [CS WI]. pose proof (special_at g kw st0 st1 _ xss WS PI _ _ _ WI N eq_refl) as Q. cbn beta iota in Q. destruct Q as (q & e & r & N1 & IN & SK & WT & LE).
  pose proof (copied_definition _ _ _ _ _ _ IN SK) as CD.
  unfold exec_def in X. apply bind_ok in X as (s & u1 & X1 & X). apply get_sym_ok in X1 as [-> SY].
  apply bind_ok in X as (u2 & v2 & X2 & X). unfold assert in X2. destruct (skind_eqb _ _); [|discriminate X2]. injection X2 as _ <-.
  apply bind_ok in X as (d0 & u3 & X3 & X). apply some_ok in X3 as [-> VD]. apply bind_ok in X as (u4 & v4 & X4 & X).
  assert (Y : fine_defs made v4 /\ v_cs v4 = v_cs v /\ v_stored v4 = v_stored v).
  { destruct d0 as [d|]; [|injection X4 as _ <-; auto]. apply bind_ok in X4 as (u5 & v5 & X5 & X4). unfold assert in X5. destruct (s_defined s); [|discriminate X5]. injection X5 as _ <-.
    pose proof (fd_put made id (undefine s)) as FP. assert (FU : fine_value made (s_val (undefine s))).
    { cbn [undefine s_val]. unfold undefine_value. destruct (s_kind s); try exact Logic.I; exact (VmTyping.Forall_nth _ _ _ _ FD SY). }
    specialize (FP FU v FD). rewrite X4 in FP. apply modify_inv in X4 as ->. split; [exact FP|split; reflexivity]. }
  destruct Y as (F4 & C4 & S4). destruct (negb _); [discriminate X|]. apply bind_ok in X as (bc' & u6 & X6 & X).
  assert (BB : bc' = bc /\ u6 = v4). { unfold get_bcode, cur_bcode in X6. rewrite C4, CS in X6. cbn [code_of] in X6. rewrite S4, (b_stored v B) in X6. cbn [c_bcode] in X6. injection X6 as <- <-. auto. }
  destruct BB as [-> ->]. apply bind_ok in X as (v7 & u7 & X7 & X). injection X7 as <- <-. rewrite C4, CS in X. cbv zeta beta iota in X.
  apply bind_ok in X as (u8 & v8 & X8 & X). match type of X8 with put_sym id ?y v4 = _ => pose proof (fd_put made id y) as FP; assert (FU : fine_value made (s_val y)) end.
  { split; [reflexivity|]. exists id, q, e. split; [exact IN|exact CD]. }
  specialize (FP FU v4 F4). rewrite X8 in FP. apply modify_inv in X8 as ->. apply modify_inv in X as ->. split; [|exact FP]. split; [exact BW|]. clear BW K1 K2 K3.
  assert (SC : scan_to is_end_def (skipn (S (cs_pc (v_cs v))) (bc_inst bc)) = 1 + length (ecode e)).
  { rewrite BC. replace (S (cs_pc (v_cs v))) with (1 + cs_pc (v_cs v)) by lia. rewrite <- LineProofs.skipn_skipn, SK. unfold definition. cbn [skipn app scan_to is_end_def]. rewrite <- app_assoc. cbn [app].
    rewrite scan_def; [reflexivity|]. apply Forall_impl with (2 := ecode_exprop g e WT). intros i H. apply H. }
  match goal with |- inside ?c /\ _ => assert (EC : c = mkCs (Some CStored) (cs_line (v_cs v)) (cs_pc (v_cs v) + 2 + length (ecode e))) end.
  { rewrite SC. cbn [v_cs set_pc set_cs]. change (v_cs (set_st _ v4)) with (v_cs v4). rewrite C4, CS. f_equal. lia. }
  rewrite EC. split.
  - split; [reflexivity|]. destruct WI as (W1 & W2 & W3). split; [exact W1|]. cbn [cs_line cs_pc]. lia.
  - split; [|exact K4]. apply (apart_free _ I_END_DEF); [|reflexivity]. cbn [cs_pc]. rewrite <- Nat.add_assoc, <- nth_error_skipn, SK. unfold definition. cbn [plus nth_error app].
    rewrite <- app_assoc, nth_error_app2 by lia. rewrite Nat.sub_diag. reflexivity.
Qed.

(* ---------- one instruction ---------- *)

(* an answer that is not fit is asked for again, from the beginning of the INPUT *)
Lemma redo_inv i v b w : match i with I_INPUT_NUM _ _ | I_INPUT_SEP => True | _ => False end -> exec_instr E i v = (Ok b, w) ->
  (b = true /\ frame w = frame v /\ v_input_pc w = v_input_pc v) \/ (b = false /\ exists u, frame u = frame v /\ w = set_pc (v_input_pc v) u).
Proof.
  assert (R : forall s v' b' w', frame v' = frame v -> (put s ;;; jump (modify (set_pc (v_input_pc v)))) v' = (Ok b', w') -> b' = false /\ exists u, frame u = frame v /\ w' = set_pc (v_input_pc v) u).
  { intros s v' b' w' F X. apply bind_ok in X as (u1 & v1 & X1 & X). apply jump_inv in X as [-> X]. apply modify_inv in X as ->. split; [reflexivity|]. exists v1. split; [|reflexivity]. rewrite <- F.
    apply (keeps_ok _ _ _ _ _) with (2 := X1). repeat keeps_more. }
  destruct i; intros []; cbn [exec_instr]; intros X; apply bind_ok in X as (v0 & v1 & X1 & X); injection X1 as <- <-; apply bind_ok in X as ([i' t] & v2 & X2 & X); apply some_ok in X2 as [-> _].
  - apply bind_ok in X as (u1 & v1 & X1 & X). apply modify_inv in X1 as ->. destruct (drop_while is_blank t) as [|c r]; [right; refine (R _ _ b w _ X); reflexivity|]. destruct (ceq c ",") in X; [|right; refine (R _ _ b w _ X); reflexivity].
    left. apply bind_ok in X as (u3 & v3 & X3 & X). apply modify_inv in X3 as ->. injection X as <- <-. split; [reflexivity|]. split; reflexivity.
  - destruct (convert t) as [[x r]|]; [|right; exact (R _ v b w eq_refl X)]. destruct (match r with [] => true | _ :: _ => _ end); [|right; exact (R _ v b w eq_refl X)].
    apply bind_ok in X as (u1 & v1 & X1 & X). apply adv_inv in X as [-> X]. apply modify_inv in X as ->. left. split; [reflexivity|].
    split; [change (frame v1 = frame v)|change (v_input_pc v1 = v_input_pc v)]; apply (keeps_ok _ _ _ _ _) with (2 := X1); repeat keeps_more.
Qed.
Lemma buf_inv prompt v b w : exec_instr E (I_INPUT_BUF prompt) v = (Ok b, w) -> b = true /\ v_input_pc w = cs_pc (v_cs v).
Proof.
  cbn [exec_instr]. intros X. apply bind_ok in X as (u1 & v1 & X1 & X). apply adv_inv in X as [-> X]. apply modify_inv in X as ->. split; [reflexivity|].
  assert (K : v_cs v1 = v_cs v) by (apply (keeps_ok _ _ _ _ _) with (2 := X1); repeat keeps_more). destruct (fgets 128 (v_in v1)) as [[buf rest]|]; cbn; rewrite K; reflexivity.
Qed.
Lemma lined_inside i v b w1 : base v -> inside (v_cs v) -> asked (v_cs v) v -> outside v -> fine_defs made v -> current v = Some i -> exec_instr E i v = (Ok b, w1) ->
  base w1 /\ here (if b then set_pc (S (cs_pc (v_cs w1))) w1 else w1).
Proof.
  intros B L A O FD C X. pose proof (stored_current v i B (proj1 L) C) as N. destruct (moves i) eqn:MV.
  2: { pose proof (keeps_ok _ _ _ _ _ (still_frame E i MV) X) as F. split; [exact (base_same v w1 F B)|]. unfold frame in F. injection F as F1 F2 F3 F4 F5 F6.
    assert (O1 : outside w1) by (unfold outside; rewrite F4; exact O).
    assert (D : (exists prompt, i = I_INPUT_BUF prompt) \/ forall prompt, i <> I_INPUT_BUF prompt) by (destruct i; try (right; intros; discriminate); left; eauto).
    destruct D as [(prompt & ->)|D].
    - destruct (buf_inv _ _ _ _ X) as [-> P]. apply (advance_here w1 (I_INPUT_BUF prompt) v); rewrite ?F6; assumption.
    - pose proof (keeps_ok _ _ _ _ _ (input_kept i D) X) as P. destruct b.
      + apply (advance_here w1 i v); rewrite ?F6; try assumption. destruct i; try exact P. destruct (D _ eq_refl).
      + left. rewrite F6. split; [left; exact L|]. split; [|exact O1]. intros I a M. rewrite P. exact (A I a M). }
  assert (FA : apart i = true -> free (after (v_cs v))) by (intros Q; exact (apart_free (v_cs v) i N Q)).
  assert (GO : forall w u n, base w -> v_fn w = v_fn v -> go_to_basic_line n w = (Ok u, w1) -> base w1 /\ here w1).
  { intros w u n Bw Fw Y. destruct (go_lands _ _ _ _ Bw Y) as (H1 & H2 & H3). split; [exact H1|]. apply lands_here; [exact H2|]. unfold outside. rewrite H3, Fw. exact O. }
  assert (ON : forall w, goes_on v w -> base w /\ here (set_pc (S (cs_pc (v_cs w))) w)).
  { intros w (G1 & G2 & G3 & G4). split; [exact G1|]. apply free_here; [exact G2|exact G3|]. unfold outside. rewrite G4. exact O. }
  assert (PAR : frame w1 = frame v -> v_input_pc w1 = v_input_pc v -> (forall prompt, i <> I_INPUT_BUF prompt) -> base w1 /\ here (set_pc (S (cs_pc (v_cs w1))) w1)).
  { intros F P D. split; [exact (base_same v w1 F B)|]. unfold frame in F. injection F as F1 F2 F3 F4 F5 F6. apply (advance_here w1 i v); rewrite ?F6; try assumption; [|unfold outside; rewrite F4; exact O].
    destruct i; try exact P. destruct (D _ eq_refl). }
  assert (NXT : forall v1 u si, tracked v1 = tracked v -> apart i = true -> next si v1 = (Ok u, w1) -> base w1 /\ here (set_pc (S (cs_pc (v_cs w1))) w1)).
  { intros v1 u si Z Q Y. unfold tracked in Z. injection Z as Z1 Z2 Z3 Z4 Z5. apply (base_frame v v1 Z4 Z2 Z3) in B. apply ON. unfold goes_on. rewrite <- Z5. pose proof (FA Q) as FQ. rewrite <- Z1 in L, FQ. exact (next_lined _ _ _ _ L FQ B Y). }
  assert (RE : match i with I_INPUT_NUM _ _ | I_INPUT_SEP => True | _ => False end -> base w1 /\ here (if b then set_pc (S (cs_pc (v_cs w1))) w1 else w1)).
  { intros Q. destruct (redo_inv i v b w1 Q X) as [(-> & F & P)|(-> & w & F & ->)].
    - apply PAR; [exact F|exact P|]. intros prompt ->. exact Q.
    - assert (SP : special i = true) by (destruct i; try destruct Q; reflexivity). pose proof (special_at g kw st0 st1 _ xss WS PI _ _ _ (proj2 L) N SP) as R. assert (MID : exists a, mid xss (cs_line (v_cs v)) (cs_pc (v_cs v)) a) by (destruct i; try destruct Q; exact R).
      destruct MID as [a M]. rewrite (A L a M). destruct (mid_stmt g xss WS _ _ _ M) as (K & WI & _). split; [apply (base_frame w); auto; exact (base_same v w F B)|].
      unfold frame in F. injection F as F1 F2 F3 F4 F5 F6. left. split; [left; split; cbn; rewrite F6; [exact (proj1 L)|exact WI]|]. split; [|unfold outside; cbn; rewrite F4; exact O].
      apply free_asked. intros _ a' M'. cbn in M'. rewrite F6 in M'. exact (mid_first g xss WS _ _ _ _ M M'). }
  destruct i; try discriminate MV; clear MV; cbn [exec_instr] in X.
  - destruct (within_unmarked kw st0 st1 _ xss PI _ _ _ (proj2 L) N) as [_ []].
  - apply bind_ok in X as (s & u1 & X1 & X). apply get_sym_ok in X1 as [-> SY]. apply bind_ok in X as (u2 & v2 & X2 & X). unfold assert in X2. destruct (vtype_eqb _ _); [|discriminate X2]. injection X2 as _ <-.
    apply adv_inv in X as [-> X]. destruct (skind_eqb _ _).
    + apply PAR; [| |intros; discriminate]; apply (keeps_ok _ _ _ _ _) with (2 := X); repeat keeps_more.
    + destruct (call_lined _ _ _ _ _ L (asked_after _ v v _ L N A eq_refl) B FD X) as [H1 H2]. split; [exact H1|right; exact H2].
  - apply bind_ok in X as (s & u1 & X1 & X). apply get_sym_ok in X1 as [-> SY]. apply bind_ok in X as (u2 & v2 & X2 & X). unfold assert in X2. destruct (vtype_eqb _ _); [|discriminate X2]. injection X2 as _ <-.
    apply adv_inv in X as [-> X]. destruct (skind_eqb _ _).
    + apply PAR; [| |intros; discriminate]; apply (keeps_ok _ _ _ _ _) with (2 := X); repeat keeps_more.
    + destruct (call_lined _ _ _ _ _ L (asked_after _ v v _ L N A eq_refl) B FD X) as [H1 H2]. split; [exact H1|right; exact H2].
  - apply bind_ok in X as (bc' & v1 & X1 & X). unfold get_bcode, cur_bcode in X1. rewrite (proj1 L) in X1. cbn [code_of] in X1. rewrite (b_stored v B) in X1. cbn [c_bcode] in X1. injection X1 as <- <-.
    apply jump_inv in X as [-> X]. apply modify_inv in X as ->. split; [apply (base_frame v); auto|]. apply lands_here; [|exact O]. split; [exact (proj1 L)|]. exists (length xss). split; [lia|]. cbn [v_cs set_pc set_cs cs_pc]. unfold bc_used. rewrite BC. apply line_all.
  - apply jump_inv in X as [-> X]. exact (GO v _ _ B eq_refl X).
  - apply bind_ok in X as (x & v1 & X1 & X). apply pop_inv in X1 as (r0 & ->). assert (B0 : base (set_stack r0 v)) by (apply (base_frame v); auto). destruct (truth x).
    + apply jump_inv in X as [-> X]. exact (GO (set_stack r0 v) _ _ B0 eq_refl X).
    + injection X as <- <-. split; [exact B0|]. apply free_here; [exact L|exact (FA eq_refl)|exact O].
  - apply bind_ok in X as (v1 & u4 & X4 & X). injection X4 as <- <-. apply bind_ok in X as (u1 & v1 & X1 & X). apply jump_inv in X as [-> X]. rewrite Nat.add_1_r in X1.
    destruct (push_lined _ v _ _ (inside_next _ L) (FA eq_refl) B X1) as [Y1 Y2]. exact (GO v1 _ _ Y1 Y2 X).
  - apply jump_inv in X as [-> X]. unfold pop_return in X. destruct B as [B1 B2 B3]. destruct (v_ret v) as [|c r0]; [discriminate X|]. injection X as <-. inversion_clear B2 as [|? ? [H1 H1'] H2].
    split; [constructor; assumption|]. left. split; [exact H1|]. split; [exact (free_asked _ _ H1')|exact O].
  - apply adv_inv in X as [-> X]. apply ON. exact (for_lined _ _ _ _ L (FA eq_refl) B X).
  - apply bind_ok in X as (u1 & v1 & X1 & X). apply trace_inv in X1; [|solve [repeat keeps_more]]. apply bind_ok in X as (v2 & u4 & X4 & X). injection X4 as <- <-.
    destruct (last_opt (v_for v1)) as [f|]; [|discriminate X]. destruct (_ =? _)%N in X; [apply adv_inv in X as [-> X]; exact (NXT v1 _ _ X1 eq_refl X)|].
    destruct (find_for _ _) in X; [apply adv_inv in X as [-> X]; exact (NXT v1 _ _ X1 eq_refl X)|]. apply bind_ok in X as (sy & v3 & _ & X). discriminate X.
  - apply bind_ok in X as (u1 & v1 & X1 & X). apply trace_inv in X1; [|solve [repeat keeps_more]]. apply bind_ok in X as (v2 & u4 & X4 & X). injection X4 as <- <-.
    destruct (v_for v1) as [|f r0] eqn:FF; [discriminate X|]. rewrite <- FF in X. apply adv_inv in X as [-> X]. exact (NXT v1 _ _ X1 eq_refl X).
  - apply adv_inv in X as [-> X]. apply ON. exact (proj1 (def_lined _ _ _ _ _ L N B FD X)).
  - apply adv_inv in X as [-> X]. unfold end_def in X. apply bind_ok in X as (v1 & u1 & X1 & X). injection X1 as <- <-. rewrite O in X. discriminate X.
  - apply jump_inv in X as [-> X]. destruct (special_at g kw st0 st1 _ xss WS PI _ _ _ (proj2 L) N eq_refl) as [Q1 Q2]. exact (on_lined _ _ _ _ _ L Q1 Q2 B O X).
  - apply jump_inv in X as [-> X]. destruct (special_at g kw st0 st1 _ xss WS PI _ _ _ (proj2 L) N eq_refl) as [Q1 Q2]. exact (on_lined _ _ _ _ _ L Q1 Q2 B O X).
  - apply bind_ok in X as (x & v1 & X1 & X). apply pop_inv in X1 as (r0 & ->). assert (B0 : base (set_stack r0 v)) by (apply (base_frame v); auto). destruct (truth x); [injection X as <- <-; split; [exact B0|apply free_here; [exact L|exact (FA eq_refl)|exact O]]|].
    apply jump_inv in X as [-> X]. apply (skip_inv _ _ _ _ B0 (proj1 L)) in X as ->. split; [apply (base_frame v); auto|]. apply lands_here; [|exact O]. split; [exact (proj1 L)|]. exists (S (cs_line (v_cs v))). split; [exact (proj1 (proj2 L))|].
    exact (skip_line _ _ (proj2 L)).
  - apply bind_ok in X as (x & v1 & X1 & X). apply pop_inv in X1 as (r0 & ->). assert (B0 : base (set_stack r0 v)) by (apply (base_frame v); auto). destruct (truth x); [injection X as <- <-; split; [exact B0|apply free_here; [exact L|exact (FA eq_refl)|exact O]]|].
    apply adv_inv in X as [-> X]. apply (skip_inv _ _ _ _ B0 (proj1 L)) in X as ->. split; [apply (base_frame v); auto|]. destruct (skip_else _ _ (proj2 L) N) as [S1 S2].
    apply free_here; [split; [exact (proj1 L)|exact S1]| |exact O]. exact (apart_free (v_cs (set_pc _ _)) I_ELSE S2 eq_refl).
  - apply jump_inv in X as [-> X]. apply (skip_inv _ _ _ _ B (proj1 L)) in X as ->. split; [apply (base_frame v); auto|]. apply lands_here; [|exact O]. split; [exact (proj1 L)|]. exists (S (cs_line (v_cs v))). split; [exact (proj1 (proj2 L))|].
    exact (skip_line _ _ (proj2 L)).
  - exact (RE Logic.I).
  - exact (RE Logic.I).
Qed.
Lemma lined_fn i v b w1 : base v -> within_fn v -> current v = Some i -> exec_instr E i v = (Ok b, w1) ->
  base w1 /\ here (if b then set_pc (S (cs_pc (v_cs w1))) w1 else w1).
Proof.
  intros B L C X. destruct (fn_current v i L C) as [EX| ->].
  2: { cbn [exec_instr] in X. apply adv_inv in X as [-> X]. exact (end_lined _ _ _ B L X). }
  assert (F : frame w1 = frame v).
  { destruct (moves i) eqn:MV; [|exact (keeps_ok _ _ _ _ _ (still_frame E i MV) X)]. destruct i; try discriminate MV; try discriminate EX; cbn [exec_instr] in X.
    all: apply bind_ok in X as (s & u1 & X1 & X); apply get_sym_ok in X1 as [-> SY]; apply bind_ok in X as (u2 & v2 & X2 & X); unfold assert in X2; destruct (vtype_eqb _ _); [|discriminate X2]; injection X2 as _ <-.
    all: apply adv_inv in X as [-> X]; destruct (skind_eqb _ _); [apply (keeps_ok _ _ _ _ _) with (2 := X); repeat keeps_more|exfalso].
    all: unfold call_def in X; apply bind_ok in X as (s' & u3 & X3 & X); apply get_sym_ok in X3 as [-> _]; apply bind_ok in X as (u4 & v4 & X4 & X); unfold assert in X4; destruct (skind_eqb _ _); [|discriminate X4]; injection X4 as _ <-.
    all: destruct (negb (s_defined s')); [discriminate X|]; apply bind_ok in X as (d0 & u5 & X5 & X); apply some_ok in X5 as [-> _]; apply bind_ok in X as (d & u6 & X6 & X); apply some_ok in X6 as [-> _].
    all: apply bind_ok in X as (v7 & u7 & X7 & X); injection X7 as <- <-; destruct L as (_ & _ & ((FN & _) & _) & _); rewrite FN in X; discriminate X. }
  assert (P : v_input_pc w1 = v_input_pc v).
  { apply (keeps_ok _ _ _ _ _) with (2 := X). apply input_kept. intros prompt ->. discriminate EX. }
  split; [exact (base_same v w1 F B)|]. right. unfold frame in F. injection F as F1 F2 F3 F4 F5 F6.
  assert (W : within_fn w1) by (unfold within_fn, asked in *; rewrite F4, F5, F6, P; exact L). destruct b; [|exact W]. apply fn_next; [lia|exact W].
Qed.
Lemma lined_marker k v b w1 : base v -> outside v -> cs_code (v_cs v) = Some CStored -> k < length xss -> cs_pc (v_cs v) = line_start xss k -> exec_instr E (I_SOURCE_LINE k) v = (Ok b, w1) ->
  base w1 /\ here (if b then set_pc (S (cs_pc (v_cs w1))) w1 else w1).
Proof.
  intros B O C K P X. cbn [exec_instr] in X. apply bind_ok in X as (u1 & v1 & X1 & X). apply modify_inv in X1 as ->.
  set (v1 := set_cs (mkCs (cs_code (v_cs v)) k (cs_pc (v_cs v))) v) in *.
  assert (Y : b = true /\ frame w1 = frame v1).
  { destruct (o_trace_basic _); [|injection X as <- <-; auto]. destruct (cs_code (v_cs v1)) as [r|]; [|discriminate X]. destruct (c_source _); [|discriminate X]. destruct (nth_error _ _); [|discriminate X].
    unfold bind, put, modify, ret in X. injection X as <- <-. split; reflexivity. }
  destruct Y as [-> F]. split; [apply (base_same v1 w1 F); apply (base_frame v); auto|]. unfold frame in F. injection F as F1 F2 F3 F4 F5 F6. left. split.
  2: { split; [|unfold outside; cbn; rewrite F4; exact O]. apply free_asked. apply (apart_free (v_cs w1) (I_SOURCE_LINE k)); [|reflexivity]. rewrite F6. cbn [v1 v_cs set_cs cs_pc]. rewrite P. exact (marker_at xss k K). }
  unfold spotted, inside, lands. cbn [v_cs set_pc set_cs cs_code cs_line cs_pc]. rewrite F6. unfold v1. cbn [v_cs set_cs cs_code cs_line cs_pc]. rewrite P.
  pose proof (line_starts_lt xss k (S k) ltac:(lia) ltac:(lia)) as LT. destruct (Nat.eq_dec (S (line_start xss k)) (line_start xss (S k))) as [Q|Q].
  - right. split; [exact C|]. exists (S k). split; [lia|exact Q].
  - left. split; [exact C|]. split; [exact K|]. lia.
Qed.
Lemma lined_execute v w : lined v -> execute E v = (Ok tt, w) -> lined w.
Proof.
  intros (B & H & FD) X. destruct (current v) as [i|] eqn:C; [|rewrite (execute_none E v C) in X; discriminate X].
  destruct (execute_inv E v i w tt C X) as (b & w1 & X1 & W).
  assert (BH : base w1 /\ here w).
  { rewrite W. destruct H as [([L|(CS & j & J & P)] & A & O)|L].
    - exact (lined_inside i v b w1 B L A O FD C X1).
    - pose proof (stored_current v i B CS C) as N. rewrite P in N. destruct (Nat.eq_dec j (length xss)) as [Q|Q]; [rewrite Q, end_at in N; discriminate N|].
      rewrite marker_at in N by lia. injection N as <-. apply (lined_marker j v b w1 B O CS); [lia|exact P|exact X1].
    - exact (lined_fn i v b w1 B L C X1). }
  destruct BH as [B1 H1]. split; [rewrite W; destruct b; [apply (base_frame w1); auto|exact B1]|]. split; [exact H1|].
  assert (D : (exists id n, i = I_DEF id n) \/ forall id n, i <> I_DEF id n) by (destruct i; try (right; intros; discriminate); left; eauto).
  destruct D as [(id & n & ->)|D].
  - assert (L : inside (v_cs v)).
    { destruct H as [([L|(CS & j & J & P)] & _)|L]; [exact L| |destruct (fn_current v _ L C) as [Q|Q]; discriminate Q].
      pose proof (stored_current v _ B CS C) as N. rewrite P in N. destruct (Nat.eq_dec j (length xss)) as [Q|Q]; [rewrite Q, end_at in N; discriminate N|]. rewrite marker_at in N by lia. discriminate N. }
    cbn [exec_instr] in X1. apply adv_inv in X1 as [-> X1]. destruct (def_lined _ _ _ _ _ L (stored_current v _ B (proj1 L) C) B FD X1) as (_ & F). rewrite W. exact F.
  - pose proof (fd_execute made E v i C D FD) as F. rewrite X in F. exact F.
Qed.
Lemma lined_runs v l w : runs E v l w -> lined v -> lined w.
Proof. induction 1 as [v|v v1 l w X R IH]; [auto|]. intros L. apply IH. exact (lined_execute v v1 L X). Qed.

(* the error is that of the line in which the machine is *)
Lemma lined_error v e w : lined v -> execute E v = (Fail e, w) -> inner_error e = false -> exists k, in_line xss k v /\ v_err w = v_err v ++ [mkErr e (Some (print_source_line src k))].
Proof.
  intros (B & H & FD) X I. destruct (current v) as [i|] eqn:C; [|rewrite (execute_none E v C) in X; discriminate X].
  pose proof (execute_reports E v) as R. rewrite X in R. cbn beta iota in R. rewrite (failed_shown E v e w X I) in R. exists (cs_line (v_cs v)).
  destruct H as [([[CS L]|(CS & j & J & P)] & _)|L].
  - split; [apply IL_statement; assumption|]. rewrite R. unfold shown_line. rewrite CS. cbn [code_of]. rewrite (b_stored v B). reflexivity.
  - exfalso. pose proof (stored_current v i B CS C) as N. rewrite P in N. destruct (Nat.eq_dec j (length xss)) as [Q|Q]; [rewrite Q, end_at in N; discriminate N|]. rewrite marker_at in N by lia. injection N as <-.
    rewrite (execute_eq E v _ C) in X. cbn [exec_instr] in X. unfold bind at 1, modify in X.
    destruct (o_trace_basic _) in X; [|discriminate X]. destruct (cs_code (v_cs _)) in X; [|discriminate X]. destruct (c_source _) in X; [|discriminate X]. destruct (nth_error _ _) in X; discriminate X.
  - destruct L as (CS & _ & _ & SR & (b & id & p & e' & CB & IN & D)). split; [apply (IL_function xss _ v id p e' b); auto; unfold cur_bcode; rewrite CS; exact CB|].
    rewrite R. unfold shown_line. rewrite CS. cbn [code_of]. rewrite SR. reflexivity.
Qed.
End Where.
