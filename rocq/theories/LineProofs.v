(* Proofs about lines of the program and of the code. *)
From Coq Require Import Lia ZifyBool ZifyNat ZifyN.
From Verif Require Import Base BaseLemmas Num NumSpec SourceModel LineMapModel LineMapSpec LineMapProofs BcodeModel SymbolModel SymbolSpec
  LexModel LexSpec ParseModel GrammarSpec ParseProofs StmtProofs VmModel VmSpec VmLemmas ControlProofs ValueSpec TypeSpec CodeProofs CompileProofs LineSpec.
Local Open Scope nat_scope.

(* ---------- where lines are ---------- *)

Lemma line_start_skip : forall xss k m, k <= length xss ->
  skipn (line_start xss k) (pcode m xss) = pcode (m + k) (skipn k xss).
Proof.
  induction xss as [|xs xss IH]; intros [|k] m L; cbn [line_start skipn pcode length] in *; try lia; rewrite ?Nat.add_0_r; try reflexivity.
  cbn [plus skipn]. rewrite skipn_app. rewrite skipn_all2 by lia. cbn [app]. replace (_ + _ - _) with (line_start xss k) by lia.
  rewrite IH by lia. f_equal. lia.
Qed.

Lemma line_start_code xss k : k < length xss ->
  skipn (line_start xss k) (pcode 0 xss) = I_SOURCE_LINE k :: lcode (line_stmts xss k) ++ pcode (S k) (skipn (S k) xss).
Proof.
  intros L. rewrite line_start_skip by lia. cbn [plus]. unfold line_stmts.
  assert (X : skipn k xss = nth k xss [] :: skipn (S k) xss).
  { revert k L. induction xss as [|xs xss IH]; intros [|k] L; cbn [length] in L; try lia; [reflexivity|]. cbn [skipn nth]. apply IH. lia. }
  rewrite X. reflexivity.
Qed.

Lemma line_starts_lt xss : forall j k, j < k -> k <= length xss -> line_start xss j < line_start xss k.
Proof. induction xss as [|xs xss IH]; intros [|j] [|k] H L; cbn [line_start length] in *; try lia. specialize (IH j k). lia. Qed.

(* ---------- the index ---------- *)

Lemma index_plain l : Forall unmarked l -> forall i src idx m,
  bcode_index_loop (l ++ m) i src idx = bcode_index_loop m (i + length l) src idx.
Proof.
  induction 1 as [|a l [_ P] _ IH]; intros i src idx m; cbn [app length]; [rewrite Nat.add_0_r; reflexivity|].
  replace (i + S (length l)) with (S i + length l) by lia. rewrite <- IH. destruct a; try reflexivity. contradiction.
Qed.

Lemma index_loop src : forall xss k i idx, Forall (fun xs => Forall unmarked (lcode xs)) xss -> k + length xss = length src ->
  bcode_index_loop (pcode k xss) i src idx =
  Some (fold_left insert_try (map (fun j => (ln_num (nth (k + j) src (mkLine 0 [])), N.of_nat (i + line_start xss j))) (seq 0 (length xss))) idx).
Proof.
  induction xss as [|xs xss IH]; intros k i idx P L; [reflexivity|]. inversion P; subst.
  cbn [pcode bcode_index_loop length seq map fold_left] in *. cbn [line_start].
  destruct (nth_error src k) as [ln|] eqn:E; [|apply nth_error_None in E; lia].
  rewrite index_plain by assumption. rewrite (IH (S k)) by (auto; lia). f_equal. f_equal.
  - rewrite <- seq_shift, map_map. apply map_ext. intros j. f_equal; [f_equal; f_equal; lia|]. f_equal. lia.
  - unfold insert_try. cbn [fst snd]. rewrite !Nat.add_0_r. rewrite (nth_error_nth _ _ _ E). reflexivity.
Qed.

Lemma latest_distinct kvs k : NoDup (map fst kvs) -> forall v, latest_entry kvs k = Some v <-> In (k, v) kvs.
Proof.
  induction kvs as [|[a b] kvs IH]; intros N v; cbn [latest_entry map fst] in *; [split; [discriminate | intros []]|].
  inversion N; subst. specialize (IH H2). destruct (latest_entry kvs k) as [w|] eqn:E.
  - split.
    + intros H. injection H as <-. right. apply IH. reflexivity.
    + intros [H|H].
      * exfalso. injection H as -> ->. apply H1. apply in_map_iff. exists (k, w). split; [reflexivity|]. apply IH. reflexivity.
      * apply IH. exact H.
  - destruct (k =? a)%N eqn:Q.
    + apply N.eqb_eq in Q. subst a. split; [intros H; injection H as <-; left; reflexivity|]. intros [H|H]; [congruence|].
      exfalso. apply H1. apply in_map_iff. exists (k, v). auto.
    + apply N.eqb_neq in Q. split; [discriminate|]. intros [H|H]; [congruence|]. apply IH in H. discriminate.
Qed.

Lemma map_nth_seq {A B} (f : A -> B) (d : A) l : map (fun j => f (nth j l d)) (seq 0 (length l)) = map f l.
Proof.
  induction l as [|a l IH]; [reflexivity|]. cbn [length seq map nth]. f_equal. rewrite <- seq_shift, map_map. exact IH.
Qed.

Lemma index_lookup kw st src xss st1 bc idx : program_is kw st (map ln_text src) xss st1 -> bc_inst bc = pcode 0 xss ->
  bcode_index bc src = Some idx -> distinct_lines src ->
  forall n p, lookup_line_mapping idx n = Some p <-> exists k, line_numbered src n k /\ p = N.of_nat (line_start xss k).
Proof.
  intros P E I D n p. pose proof (program_plain _ _ _ _ _ P) as PL. pose proof (program_length _ _ _ _ _ P) as LE. rewrite map_length in LE.
  unfold bcode_index in I. rewrite E in I. unfold line_count in I. rewrite (pcode_markers _ PL), map_length, seq_length in I.
  rewrite (index_loop src xss 0 0) in I by (auto; lia). cbn [plus] in I. injection I as <-.
  match goal with |- lookup_line_mapping (fold_left insert_try ?kvs (new_line_map ?c)) n = _ <-> _ => change (fold_left insert_try kvs (new_line_map c)) with (insert_all c kvs); set (K := kvs) end.
  rewrite line_map_latest, Nat2N.id. rewrite firstn_all2 by (unfold K; rewrite map_length, seq_length; lia).
  assert (ND : NoDup (map fst K)).
  { unfold K. rewrite map_map. cbn [fst]. rewrite LE. rewrite (map_nth_seq ln_num). exact D. }
  rewrite (latest_distinct K n ND). unfold K. rewrite in_map_iff. split.
  - intros (k & H & S). injection H as H1 H2. apply in_seq in S. exists k. split; [|congruence].
    destruct (nth_error src k) as [l|] eqn:Q; [|apply nth_error_None in Q; lia]. exists l. split; [exact Q|]. rewrite (nth_error_nth _ _ _ Q) in H1. exact H1.
  - intros (k & (l & Q & H) & ->). exists k. split; [rewrite (nth_error_nth _ _ _ Q), H; reflexivity|]. apply in_seq.
    assert (k < length src) by (apply nth_error_Some; congruence). lia.
Qed.

Lemma index_exists kw st src xss st1 bc : program_is kw st (map ln_text src) xss st1 -> bc_inst bc = pcode 0 xss ->
  exists idx, bcode_index bc src = Some idx.
Proof.
  intros P E. pose proof (program_plain _ _ _ _ _ P) as PL. pose proof (program_length _ _ _ _ _ P) as LE. rewrite map_length in LE.
  unfold bcode_index. rewrite E. eexists. apply (index_loop src xss 0 0); [exact PL | lia].
Qed.

(* ---------- jumps ---------- *)

Lemma goes_jumps v0 v src xss n r : loaded v0 src xss -> v_stored v = v_stored v0 -> distinct_lines src -> goes_to v n r -> jumps v src xss n r.
Proof.
  intros (kw & bc & idx & st & S & P & E & I) SE D G. unfold goes_to, line_place in G. rewrite SE, S in G. cbn [c_index] in G.
  pose proof (index_lookup _ _ _ _ _ _ _ P E I D n) as L. destruct (lookup_line_mapping idx n) as [p|]; cbn [option_map] in G.
  - destruct (proj1 (L p) eq_refl) as (k & K & ->). left. exists k. split; [exact K|]. rewrite Nat2N.id in G. exact G.
  - right. destruct G as [G1 G2]. split; [|auto]. intros k K. assert (X : None = Some (N.of_nat (line_start xss k))) by (apply L; eauto). discriminate X.
Qed.

Lemma line_goto E v src xss n : loaded v src xss -> distinct_lines src -> current v = Some (I_GOTO n) -> jumps v src xss n (execute E v).
Proof. intros L D C. eapply goes_jumps; [exact L | reflexivity | exact D|]. apply goto_step. exact C. Qed.

Lemma gotrue_step E v n x st : current v = Some (I_GOTRUE n) -> v_stack v = x :: st ->
  if truth x then goes_to (set_stack st v) n (execute E v)
  else execute E v = (Ok tt, set_cs (place_after v 1) (set_stack st v)).
Proof.
  intros C S. rewrite (execute_eq _ _ _ C). cbn [exec_instr]. assert (X : forall B (k : _ -> M B), bind pop k v = k x (set_stack st v)) by (intros; unfold bind, pop; rewrite S; reflexivity).
  rewrite X. destruct (truth x).
  - unfold jump, bind. pose proof (go_to_goes (set_stack st v) n) as G. destruct (go_to_basic_line n (set_stack st v)) as [[[]|e| |] w] eqn:Q; cbn [finish ret]; try exact G;
      unfold goes_to in *; destruct (line_place (set_stack st v) n); try discriminate G; try exact G; destruct G; discriminate.
  - cbn [ret finish]. unfold place_after. rewrite Nat.add_1_r. reflexivity.
Qed.

Lemma line_then E v src xss n x st : loaded v src xss -> distinct_lines src -> current v = Some (I_GOTRUE n) -> v_stack v = x :: st ->
  if truth x then jumps (set_stack st v) src xss n (execute E v)
  else execute E v = (Ok tt, set_cs (place_after v 1) (set_stack st v)).
Proof.
  intros L D C S. pose proof (gotrue_step E v n x st C S) as H. destruct (truth x); [|exact H]. eapply goes_jumps; [exact L | reflexivity | exact D | exact H].
Qed.

Lemma line_gosub E v src xss n : loaded v src xss -> distinct_lines src -> current v = Some (I_GOSUB n) -> length (v_ret v) < 8 ->
  jumps (set_ret (place_after v 1 :: v_ret v) v) src xss n (execute E v).
Proof.
  intros L D C R. pose proof (gosub_cases E v n C) as H. assert (X : Nat.ltb (length (v_ret v)) 8 = true) by (apply Nat.ltb_lt; lia).
  rewrite X in H. eapply goes_jumps; [exact L | reflexivity | exact D | exact H].
Qed.

Lemma line_on E v src xss (g : bool) ls x st z : loaded v src xss -> distinct_lines src -> on_list v g ls -> v_stack v = x :: st -> double x ->
  is_integer x z -> (Z.of_nat (length ls) < 2 ^ 32)%Z -> (1 <= z <= Z.of_nat (length ls))%Z -> length (v_ret v) < 8 ->
  exists n, nth_error ls (Z.to_nat (z - 1)) = Some n /\
    jumps (if g then set_ret (place_after v (length ls + 1) :: v_ret v) (set_stack st v) else set_stack st v) src xss n (execute E v).
Proof.
  intros L D O S DX IZ LL Z R.
  destruct (on_selected E v g ls x st z O S DX IZ Z LL) as (n & N & H). exists n. split; [exact N|].
  destruct g.
  - destruct (Nat.leb 8 (length (v_ret v))) eqn:Q; [apply Nat.leb_le in Q; lia|]. eapply goes_jumps; [exact L | reflexivity | exact D | exact H].
  - eapply goes_jumps; [exact L | reflexivity | exact D | exact H].
Qed.

(* the marker at the start of a line *)
Lemma marker_step E v src xss k : loaded v src xss -> k < length xss -> o_trace_basic (v_opt v) = false ->
  cs_code (v_cs v) = Some CStored -> cs_pc (v_cs v) = line_start xss k ->
  current v = Some (I_SOURCE_LINE k) /\ execute E v = (Ok tt, set_cs (mkCs (Some CStored) k (S (line_start xss k))) v).
Proof.
  intros (kw & bc & idx & st & S & P & EQ & I) L T CC PC.
  assert (C : current v = Some (I_SOURCE_LINE k)).
  { unfold current, cur_bcode. rewrite CC. cbn [code_of]. rewrite S. cbn [c_bcode]. rewrite EQ, PC.
    pose proof (line_start_code xss k L) as X. rewrite <- (Nat.add_0_r (line_start xss k)), <- nth_error_skipn, X. reflexivity. }
  split; [exact C|]. rewrite (execute_eq _ _ _ C). cbn [exec_instr]. unfold bind, modify. 
  change (o_trace_basic (v_opt (set_cs ?c v))) with (o_trace_basic (v_opt v)).
  cbn [v_opt set_cs]. rewrite T. cbn [finish set_pc v_cs set_cs cs_pc cs_line cs_code]. rewrite CC, PC. reflexivity.
Qed.

Lemma loaded_runs E v l v' src xss : runs E v l v' -> loaded v src xss -> loaded v' src xss.
Proof.
  induction 1 as [|v v1 l v' X R IH]; intros L; [exact L|]. apply IH. destruct L as (kw & bc & idx & st & S & P). exists kw, bc, idx, st. split; [|exact P].
  destruct (current v) as [i|] eqn:C.
  - pose proof (execute_keeps v_stored E v i C (fun _ _ => eq_refl) (exec_keeps_stored E i)) as K. rewrite X in K. cbn [snd] in K. congruence.
  - rewrite (execute_none _ _ C) in X. discriminate.
Qed.

(* ---------- IF and ELSE ---------- *)

(* open: inside the THEN part of an IF with ELSE *)
Fixpoint pstate (open : bool) (xs : list stmt) : option bool :=
  match xs with
  | [] => Some open
  | SIf _ true :: r => if open then None else pstate true r
  | SIf _ false :: r | SIfGo _ _ :: r => if open then None else pstate false r
  | SElse :: r => if open then pstate false r else None
  | _ :: r => pstate open r
  end.
Lemma pstate_app xs : forall o ys, pstate o (xs ++ ys) = match pstate o xs with Some o' => pstate o' ys | None => None end.
Proof. induction xs as [|x xs IH]; intros o ys; [reflexivity|]. cbn [app pstate]. destruct x; auto; try destruct has_else; destruct o; auto. Qed.
Lemma pstate_neutral xs o : Forall neutral xs -> pstate o xs = Some o.
Proof. induction 1 as [|x xs N _ IH]; [reflexivity|]. cbn [pstate]. destruct x; try exact IH; contradiction. Qed.

Lemma open_rev_neutral l n : open_rev l = Some n -> forall a e b, l = a ++ SIf e false :: b -> n = length b -> Forall neutral a.
Proof.
  induction l as [|x l IH]; intros H a e b E N; [discriminate|]. destruct a as [|y a]; [constructor|]. cbn [app] in E. injection E as -> ->.
  assert (X : match y with SIf _ _ => n = length (a ++ SIf e false :: b) | SIfGo _ _ | SElse => False | _ => True end).
  { destruct y; cbn in H; try exact I; try discriminate. injection H as <-. reflexivity. }
  assert (Y : match y with SIf _ _ => False | _ => True end). { destruct y; try exact I. rewrite app_length in X. cbn in X. lia. }
  constructor; [destruct y; try exact I; contradiction|]. apply (IH ltac:(destruct y; try contradiction; exact H) a e b eq_refl N).
Qed.
Lemma open_if_neutral xs e ys : open_if (xs ++ SIf e false :: ys) = Some (length xs) -> Forall neutral ys.
Proof.
  intros H. unfold open_if in H. rewrite rev_app_distr in H. cbn [rev] in H. rewrite <- app_assoc in H. cbn [app] in H.
  pose proof (open_rev_neutral _ _ H (rev ys) e (rev xs) eq_refl) as X. rewrite rev_length in X. specialize (X eq_refl).
  apply Forall_rev in X. rewrite rev_involutive in X. exact X.
Qed.

Lemma gstmt_neutral st ts x st' : gstmt st ts x st' -> neutral x.
Proof. destruct 1; exact I. Qed.

Lemma lstep_paired kw ph L st xs ph' L' st' xs' : lstep kw ph L st xs ph' L' st' xs' -> pstate false xs = Some false -> pstate false xs' = Some false.
Proof.
  assert (Z : forall xs x, neutral x -> pstate false xs = Some false -> pstate false (xs ++ [x]) = Some false).
  { intros xs0 x N H. rewrite pstate_app, H. apply pstate_neutral. constructor; [exact N | constructor]. }
  destruct 1; intros P; try exact P; try (apply Z; [exact I | exact P]).
  - apply Z; [exact (gstmt_neutral _ _ _ _ H1) | exact P].
  - rewrite pstate_app, P. reflexivity.
  - rewrite pstate_app, P. reflexivity.
  - pose proof (open_if_neutral _ _ _ H1) as N. rewrite pstate_app in P |- *. destruct (pstate false xs) as [[]|]; cbn [pstate] in *; try discriminate.
    rewrite pstate_app, (pstate_neutral ys true N). reflexivity.
Qed.
Lemma lsteps_paired kw ph L st xs ph' L' st' xs' : lsteps kw ph L st xs ph' L' st' xs' -> pstate false xs = Some false -> pstate false xs' = Some false.
Proof. induction 1; intros P; [exact P|]. eapply lstep_paired; eauto. Qed.
Lemma line_paired kw text st xs st' : line_is kw text st xs st' -> pstate false xs = Some false.
Proof. intros (L & ph & r & A & S & _). exact (lsteps_paired _ _ _ _ _ _ _ _ _ S eq_refl). Qed.

Lemma pstate_open xs : pstate true xs = Some false -> exists thn els, xs = thn ++ SElse :: els /\ Forall neutral thn.
Proof.
  induction xs as [|x xs IH]; [discriminate|]. intros H. cbn [pstate] in H.
  assert (N : x = SElse \/ neutral x /\ pstate true xs = Some false).
  { destruct x; try (right; split; [exact I | exact H]); try discriminate; [destruct has_else; discriminate | left; reflexivity]. }
  destruct N as [-> | [N P]]; [exists [], xs; split; [reflexivity | constructor]|].
  destruct (IH P) as (thn & els & -> & F). exists (x :: thn), els. split; [reflexivity | constructor; assumption].
Qed.

Lemma pstate_back xs : forall o, pstate o xs = Some true ->
  (o = true /\ Forall neutral xs) \/ exists p e thn, xs = p ++ SIf e true :: thn /\ Forall neutral thn.
Proof.
  induction xs as [|x xs IH]; intros o H; [cbn in H; injection H as ->; left; auto|]. cbn [pstate] in H.
  assert (Z : forall o', pstate o' xs = Some true -> (o' = true -> (exists e, x = SIf e true) \/ (o = true /\ neutral x)) ->
    (o = true /\ Forall neutral (x :: xs)) \/ exists p e thn, x :: xs = p ++ SIf e true :: thn /\ Forall neutral thn).
  { intros o' H' K. destruct (IH o' H') as [[O F] | (p & e & thn & -> & F)].
    - destruct (K O) as [(e & ->) | [O2 N]]; [right; exists [], e, xs; auto | left; split; [exact O2 | constructor; assumption]].
    - right. exists (x :: p), e, thn. auto. }
  destruct x; try (apply (Z o H); intros; right; split; [assumption | exact I]); try (destruct o; try discriminate; apply (Z false H); discriminate).
  destruct o; [destruct has_else; discriminate|]. destruct has_else; [apply (Z true H); intros _; left; eauto | apply (Z false H); discriminate].
Qed.

(* the ELSE of an IF: nothing but other statements in between *)
Lemma if_has_else kw text st xs st' pre e post : line_is kw text st xs st' -> xs = pre ++ SIf e true :: post ->
  exists thn els, post = thn ++ SElse :: els /\ Forall neutral thn.
Proof.
  intros L ->. pose proof (line_paired _ _ _ _ _ L) as P. rewrite pstate_app in P. destruct (pstate false pre) as [[]|]; cbn [pstate] in P; try discriminate.
  exact (pstate_open _ P).
Qed.
Lemma else_has_if kw text st xs st' pre els : line_is kw text st xs st' -> xs = pre ++ SElse :: els ->
  exists p e thn, pre = p ++ SIf e true :: thn /\ Forall neutral thn.
Proof.
  intros L ->. pose proof (line_paired _ _ _ _ _ L) as P. rewrite pstate_app in P. destruct (pstate false pre) as [[]|] eqn:Q; cbn [pstate] in P; try discriminate.
  destruct (pstate_back _ _ Q) as [[X _] | X]; [discriminate | exact X].
Qed.

(* ---------- executing IF and ELSE ---------- *)

Lemma program_line kw st src xss st' k : program_is kw st src xss st' -> k < length xss -> exists text st1 st2, line_is kw text st1 (line_stmts xss k) st2.
Proof.
  intros P. revert k. induction P as [|st text xs st1 src xss st2 L P IH]; intros k H; cbn [length] in H; [lia|].
  destruct k as [|k]; [exists text, st, st1; exact L|]. apply (IH k). lia.
Qed.

Lemma skipn_skipn {A} a b (l : list A) : skipn a (skipn b l) = skipn (a + b) l.
Proof. revert l. induction b as [|b IH]; intros l; [rewrite Nat.add_0_r; reflexivity|]. rewrite Nat.add_succ_r. destruct l; [rewrite !skipn_nil; reflexivity | apply IH]. Qed.

Lemma skipn_past {A} (a b : list A) j : skipn (length a + j) (a ++ b) = skipn j b.
Proof. induction a; [reflexivity | exact IHa]. Qed.

Lemma firstn_add {A} a b (l : list A) : firstn (a + b) l = firstn a l ++ firstn b (skipn a l).
Proof. revert l. induction a as [|a IH]; intros l; [reflexivity|]. destruct l; [cbn; rewrite firstn_nil; reflexivity|]. cbn. f_equal. apply IH. Qed.

Lemma stmt_skip xss k i j m : k < length xss -> i < length (line_stmts xss k) -> j <= length (lcode (skipn i (line_stmts xss k))) ->
  m = stmt_start xss k i + j ->
  skipn m (pcode 0 xss) = skipn j (lcode (skipn i (line_stmts xss k))) ++ pcode (S k) (skipn (S k) xss).
Proof.
  intros K I J ->. unfold stmt_start. replace (line_start xss k + 1 + length (lcode (firstn i (line_stmts xss k))) + j)
    with (line_start xss k + S (length (lcode (firstn i (line_stmts xss k))) + j)) by lia.
  rewrite Nat.add_comm, <- skipn_skipn. rewrite (line_start_code _ _ K). cbn [skipn].
  rewrite <- (firstn_skipn i (line_stmts xss k)) at 2. rewrite lcode_app, <- app_assoc.
  rewrite skipn_past.
  rewrite skipn_app. replace (j - length (lcode (skipn i (line_stmts xss k)))) with 0 by lia. reflexivity.
Qed.

Lemma scan_none f l m : Forall (fun i => f i = false) l -> scan_to f (l ++ m) = length l + scan_to f m.
Proof. induction 1 as [|i l H _ IH]; cbn; [reflexivity|]. rewrite H, IH. reflexivity. Qed.

Lemma unmarked_no_line l : Forall unmarked l -> Forall (fun i => is_source_line i = false) l.
Proof. intros H. apply Forall_impl with (2 := H). intros i [_ X]. destruct i; try reflexivity. contradiction. Qed.

Lemma scan_next_line xss k : scan_to is_source_line (pcode (S k) (skipn (S k) xss)) = 0.
Proof. destruct (skipn (S k) xss); reflexivity. Qed.

Lemma line_end_pos xss k i j : k < length xss -> i < length (line_stmts xss k) -> j <= length (lcode (skipn i (line_stmts xss k))) ->
  stmt_start xss k i + j + (length (lcode (skipn i (line_stmts xss k))) - j) = line_start xss (S k).
Proof.
  intros K I J. assert (X : line_start xss (S k) = line_start xss k + 1 + length (lcode (line_stmts xss k))).
  { clear I J. unfold line_stmts. revert k K. induction xss as [|xs xss IH]; intros [|k] K; cbn [length] in K; try lia.
    - cbn [line_start nth]. destruct xss; cbn [line_start]; lia.
    - change (line_start (xs :: xss) (S (S k))) with (S (length (lcode xs)) + line_start xss (S k)). rewrite (IH k) by lia. cbn [line_start nth]. lia. }
  rewrite X. pose proof (f_equal (@length _) (lcode_app (firstn i (line_stmts xss k)) (skipn i (line_stmts xss k)))) as Y.
  rewrite firstn_skipn, app_length in Y. unfold stmt_start. lia.
Qed.

Lemma stmt_start_next xss k i x r : skipn i (line_stmts xss k) = x :: r -> stmt_start xss k (i + 1) = stmt_start xss k i + length (scode x).
Proof.
  intros H. unfold stmt_start. rewrite firstn_add, H. cbn [firstn]. rewrite lcode_app, app_length. unfold lcode at 2. cbn [flat_map]. rewrite app_nil_r. lia.
Qed.

Section If.
Variables (kw : bool) (st : symtab) (src : list bytes) (src0 : source) (xss : list (list stmt)) (st' : symtab).
Hypothesis P : program_is kw st src xss st'.

Lemma stmts_plain_at k : k < length xss -> Forall stmt_plain (line_stmts xss k).
Proof. intros K. destruct (program_line _ _ _ _ _ _ P K) as (text & st1 & st2 & L). exact (line_plain _ _ _ _ _ L). Qed.

Lemma Forall_skipn' {A} (Q : A -> Prop) n l : Forall Q l -> Forall Q (skipn n l).
Proof. intros H. rewrite <- (firstn_skipn n l) in H. apply Forall_app in H. tauto. Qed.

Lemma neutral_no_else xs : Forall stmt_plain xs -> Forall neutral xs -> Forall (fun i => is_else i = false) (lcode xs).
Proof.
  intros A B. apply Forall_flat_map. apply Forall_forall. intros x I. rewrite Forall_forall in A, B. specialize (A x I). specialize (B x I).
  destruct A as [-> | A]; [contradiction|]. apply Forall_impl with (2 := A). intros i [_ X]. destruct i; try reflexivity. contradiction.
Qed.

Lemma if_else_step E v k i thn els x stk : at_if_else v xss k i thn els -> Forall neutral thn -> v_stack v = x :: stk ->
  continues v stk (stmt_start xss k (if truth x then i + 1 else i + 2 + length thn)) (execute E v).
Proof.
  intros (e & SK & bc & CB & CI & K & I & PC) NT S.
  assert (LE : length (lcode (skipn i (line_stmts xss k))) = length (ecode e) + 1 + length (lcode thn) + 1 + length (lcode els)).
  { rewrite SK. change (lcode (SIf e true :: thn ++ SElse :: els)) with ((ecode e ++ [I_IF_ELSE]) ++ lcode (thn ++ SElse :: els)).
    rewrite lcode_app, !app_length. change (lcode (SElse :: els)) with (I_ELSE :: lcode els). cbn [length]. lia. }
  pose proof (stmt_skip xss k i (length (ecode e)) _ K I ltac:(lia) PC) as X. rewrite SK in X.
  change (lcode (SIf e true :: thn ++ SElse :: els)) with ((ecode e ++ [I_IF_ELSE]) ++ lcode (thn ++ SElse :: els)) in X.
  rewrite <- app_assoc in X. rewrite skipn_app, skipn_all, Nat.sub_diag in X. cbn [app skipn] in X.
  rewrite lcode_app in X. change (lcode (SElse :: els)) with (I_ELSE :: lcode els) in X.
  assert (C : current v = Some I_IF_ELSE).
  { unfold current. rewrite CB, CI. rewrite <- (Nat.add_0_r (cs_pc (v_cs v))), <- nth_error_skipn, X. reflexivity. }
  assert (X1 : skipn (Datatypes.S (cs_pc (v_cs v))) (bc_inst bc) = lcode thn ++ I_ELSE :: lcode els ++ pcode (Datatypes.S k) (skipn (Datatypes.S k) xss)).
  { rewrite CI. change (Datatypes.S (cs_pc (v_cs v))) with (1 + cs_pc (v_cs v)). rewrite <- skipn_skipn, X. cbn [skipn app]. rewrite <- app_assoc. reflexivity. }
  unfold continues. rewrite (execute_eq _ _ _ C). cbn [exec_instr].
  assert (PP : forall B (f : _ -> M B), bind pop f v = f x (set_stack stk v)) by (intros; unfold bind, pop; rewrite S; reflexivity).
  rewrite PP. unfold truth. destruct (fneb x fzero); cbn [negb].
  - rewrite (stmt_start_next _ _ _ _ _ SK). cbn [scode]. rewrite app_length. cbn [length]. cbn [ret finish]. unfold set_pc, set_cs, set_stack. cbn. do 3 f_equal. rewrite PC. lia.
  - unfold adv, bind at 1. unfold skip_to, bind, get_bcode.
    change (cur_bcode (set_stack stk v)) with (cur_bcode v). rewrite CB. cbn [modify ret finish].
    cbn [set_stack v_cs]. rewrite X1. rewrite scan_none by (apply neutral_no_else; [|exact NT];
      pose proof (Forall_skipn' _ i _ (stmts_plain_at k K)) as Q; rewrite SK in Q; inversion Q; subst; apply Forall_app in H2; tauto).
    cbn [scan_to is_else]. f_equal. unfold set_pc, set_cs, set_stack. cbn. f_equal. f_equal. rewrite PC. unfold stmt_start.
    replace (i + 2 + length thn) with (i + (2 + length thn)) by lia. rewrite firstn_add.
    assert (FS : firstn (2 + length thn) (skipn i (line_stmts xss k)) = SIf e true :: thn ++ [SElse]).
    { rewrite SK. change (firstn (2 + length thn) (SIf e true :: thn ++ SElse :: els)) with (SIf e true :: firstn (1 + length thn) (thn ++ SElse :: els)).
      rewrite (Nat.add_comm 1), firstn_app_2. reflexivity. }
    rewrite FS, lcode_app. change (lcode (SIf e true :: thn ++ [SElse])) with ((ecode e ++ [I_IF_ELSE]) ++ lcode (thn ++ [SElse])).
    rewrite lcode_app, !app_length. change (length (lcode [SElse])) with 1. cbn [length]. lia.
Qed.

Lemma if_step E v k i r x stk : at_if v xss k i r -> v_stack v = x :: stk ->
  continues v stk (if truth x then stmt_start xss k (i + 1) else line_start xss (S k)) (execute E v).
Proof.
  intros (e & SK & bc & CB & CI & K & I & PC) S.
  assert (LC : lcode (skipn i (line_stmts xss k)) = (ecode e ++ [I_IF_THEN]) ++ lcode r) by (rewrite SK; reflexivity).
  assert (LE : length (lcode (skipn i (line_stmts xss k))) = length (ecode e) + 1 + length (lcode r)) by (rewrite LC, !app_length; cbn; lia).
  pose proof (stmt_skip xss k i (length (ecode e)) _ K I ltac:(lia) PC) as X. rewrite LC in X.
  rewrite <- app_assoc in X. rewrite skipn_app, skipn_all, Nat.sub_diag in X. cbn [app skipn] in X.
  assert (C : current v = Some I_IF_THEN).
  { unfold current. rewrite CB, CI. rewrite <- (Nat.add_0_r (cs_pc (v_cs v))), <- nth_error_skipn, X. reflexivity. }
  assert (X1 : skipn (Datatypes.S (cs_pc (v_cs v))) (bc_inst bc) = lcode r ++ pcode (Datatypes.S k) (skipn (Datatypes.S k) xss)).
  { rewrite CI. change (Datatypes.S (cs_pc (v_cs v))) with (1 + cs_pc (v_cs v)). rewrite <- skipn_skipn, X. reflexivity. }
  unfold continues. rewrite (execute_eq _ _ _ C). cbn [exec_instr].
  assert (PP : forall B (f : _ -> M B), bind pop f v = f x (set_stack stk v)) by (intros; unfold bind, pop; rewrite S; reflexivity).
  rewrite PP. unfold truth. destruct (fneb x fzero); cbn [negb].
  - rewrite (stmt_start_next _ _ _ _ _ SK). cbn [scode]. rewrite app_length. cbn [length]. cbn [ret finish]. unfold set_pc, set_cs, set_stack. cbn. do 3 f_equal. rewrite PC. lia.
  - unfold jump, bind at 1. unfold skip_to, bind, get_bcode.
    change (cur_bcode (set_stack stk v)) with (cur_bcode v). rewrite CB. cbn [modify ret finish].
    cbn [set_stack v_cs]. rewrite X1. rewrite scan_none by (apply unmarked_no_line, stmts_unmarked;
      pose proof (Forall_skipn' _ i _ (stmts_plain_at k K)) as Q; rewrite SK in Q; inversion Q; subst; assumption).
    rewrite scan_next_line. f_equal. unfold set_pc, set_cs, set_stack. cbn. f_equal. f_equal.
    pose proof (line_end_pos xss k i (length (ecode e)) K I ltac:(lia)) as LP. rewrite PC. lia.
Qed.

Lemma else_step E v k i els : executing v xss k i 0 -> skipn i (line_stmts xss k) = SElse :: els ->
  continues v (v_stack v) (line_start xss (S k)) (execute E v).
Proof.
  intros (bc & CB & CI & K & I & PC) SK.
  assert (LC : lcode (skipn i (line_stmts xss k)) = I_ELSE :: lcode els) by (rewrite SK; reflexivity).
  pose proof (stmt_skip xss k i 0 _ K I ltac:(lia) PC) as X. rewrite LC in X. cbn [app skipn] in X.
  assert (C : current v = Some I_ELSE).
  { unfold current. rewrite CB, CI. rewrite <- (Nat.add_0_r (cs_pc (v_cs v))), <- nth_error_skipn, X. reflexivity. }
  assert (X1 : skipn (Datatypes.S (cs_pc (v_cs v))) (bc_inst bc) = lcode els ++ pcode (Datatypes.S k) (skipn (Datatypes.S k) xss)).
  { rewrite CI. change (Datatypes.S (cs_pc (v_cs v))) with (1 + cs_pc (v_cs v)). rewrite <- skipn_skipn, X. reflexivity. }
  unfold continues. rewrite (execute_eq _ _ _ C). cbn [exec_instr].
  unfold jump, bind at 1. unfold skip_to, bind, get_bcode. rewrite CB. cbn [modify ret finish].
  rewrite X1. rewrite scan_none by (apply unmarked_no_line, stmts_unmarked;
      pose proof (Forall_skipn' _ i _ (stmts_plain_at k K)) as Q; rewrite SK in Q; inversion Q; subst; assumption).
  rewrite scan_next_line. f_equal. unfold set_pc, set_cs, set_stack. cbn. f_equal. f_equal.
  pose proof (line_end_pos xss k i 0 K I ltac:(lia)) as LP. rewrite LC in LP. cbn [length] in LP. rewrite PC. lia.
Qed.

Lemma if_go_step E v k i x stk e n r v0 : loaded v0 src0 xss -> v_stored v = v_stored v0 -> distinct_lines src0 ->
  skipn i (line_stmts xss k) = SIfGo e n :: r -> executing v xss k i (length (ecode e)) -> v_stack v = x :: stk ->
  if truth x then jumps (set_stack stk v) src0 xss n (execute E v) else continues v stk (stmt_start xss k (i + 1)) (execute E v).
Proof.
  intros L SE D SK (bc & CB & CI & K & I & PC) S.
  assert (LC : lcode (skipn i (line_stmts xss k)) = (ecode e ++ [I_GOTRUE n]) ++ lcode r) by (rewrite SK; reflexivity).
  assert (LE : length (lcode (skipn i (line_stmts xss k))) = length (ecode e) + 1 + length (lcode r)) by (rewrite LC, !app_length; cbn; lia).
  pose proof (stmt_skip xss k i (length (ecode e)) _ K I ltac:(lia) PC) as X. rewrite LC in X.
  rewrite <- app_assoc in X. rewrite skipn_app, skipn_all, Nat.sub_diag in X. cbn [app skipn] in X.
  assert (C : current v = Some (I_GOTRUE n)).
  { unfold current. rewrite CB, CI. rewrite <- (Nat.add_0_r (cs_pc (v_cs v))), <- nth_error_skipn, X. reflexivity. }
  pose proof (gotrue_step E v n x stk C S) as H. destruct (truth x).
  - eapply goes_jumps; [exact L | exact SE | exact D | exact H].
  - unfold continues. rewrite H. rewrite (stmt_start_next _ _ _ _ _ SK). cbn [scode]. rewrite app_length. cbn [length].
    unfold place_after, set_cs, set_stack. cbn. do 3 f_equal. rewrite PC. lia.
Qed.
End If.

(* IF .. THEN n ELSE m: nothing is executed between *)
Definition else_gos (xs : list stmt) : Prop :=
  forall pre n post, xs = pre ++ SElseGo n :: post -> exists m, last_opt (lcode pre) = Some (I_GOTRUE m).
Lemma else_gos_snoc xs x : else_gos xs -> (forall n, x = SElseGo n -> exists m, last_opt (lcode xs) = Some (I_GOTRUE m)) -> else_gos (xs ++ [x]).
Proof.
  intros H X pre n post E. destruct post as [|y post].
  - apply app_inj_tail in E. destruct E as [-> E]. exact (X n E).
  - assert (N : y :: post <> []) by discriminate. destruct (exists_last N) as (q & z & Q). rewrite Q in E.
    change (pre ++ SElseGo n :: q ++ [z]) with (pre ++ (SElseGo n :: q) ++ [z]) in E. rewrite app_assoc in E. apply app_inj_tail in E. destruct E as [E _].
    exact (H pre n q E).
Qed.
Lemma last_opt_pre {A} (l m : list A) : m <> [] -> last_opt (l ++ m) = last_opt m.
Proof.
  intros H. destruct (exists_last H) as (q & z & ->). rewrite app_assoc, (BaseLemmas.last_opt_app (l ++ q) z). symmetry. exact (BaseLemmas.last_opt_app q z).
Qed.
Lemma lstep_else_gos kw ph L st xs ph' L' st' xs' : lstep kw ph L st xs ph' L' st' xs' -> else_gos xs -> else_gos xs'.
Proof.
  destruct 1; intros P; try exact P; try (apply else_gos_snoc; [exact P | intros; discriminate]).
  - apply else_gos_snoc; [exact P|]. intros n ->. inversion H1.
  - change (xs ++ SIf e true :: ys ++ [SElse]) with (xs ++ (SIf e true :: ys) ++ [SElse]). rewrite app_assoc. apply else_gos_snoc; [|intros; discriminate].
    intros pre n post E. destruct (app_eq_app _ _ _ _ E) as (q & [[E1 E2] | [E1 E2]]).
    + destruct q as [|y q].
      * cbn in E2. discriminate E2.
      * cbn in E2. injection E2 as <- E2. exact (P pre n (q ++ SIf e false :: ys) ltac:(rewrite E1, <- app_assoc; reflexivity)).
    + destruct q as [|y q]; cbn in E2; [discriminate E2|]. injection E2 as <- E2. subst pre ys.
      destruct (P (xs ++ SIf e false :: q) n post ltac:(rewrite <- app_assoc; reflexivity)) as (m & G). exists m.
      rewrite lcode_app in G |- *. change (lcode (SIf e false :: q)) with ((ecode e ++ [I_IF_THEN]) ++ lcode q) in G.
      change (lcode (SIf e true :: q)) with ((ecode e ++ [I_IF_ELSE]) ++ lcode q).
      rewrite app_assoc in G |- *. destruct (lcode q) as [|i0 l0]; [rewrite !app_nil_r in G; rewrite app_assoc, BaseLemmas.last_opt_app in G; discriminate G|].
      rewrite last_opt_pre in G |- * by discriminate. exact G.
  - apply else_gos_snoc; [exact P|]. intros k _. exists m. assumption.
Qed.
Lemma line_else_gos kw text st xs st' : line_is kw text st xs st' -> else_gos xs.
Proof.
  intros (L & ph & r & A & S & _). assert (Z : else_gos []) by (intros [|] n post E; discriminate E).
  revert Z. generalize dependent r. clear A. intros r S. induction S; intros Z; [exact Z|]. eapply lstep_else_gos; eauto.
Qed.
Lemma last_stmt xs i : last_opt (lcode xs) = Some i -> exists p x silent, xs = p ++ x :: silent /\ lcode silent = [] /\ last_opt (scode x) = Some i.
Proof.
  induction xs as [|x xs IH] using rev_ind; [discriminate|]. rewrite lcode_app. unfold lcode at 2. cbn [flat_map]. rewrite app_nil_r. intros H.
  destruct (scode x) as [|i0 l0] eqn:Q.
  - rewrite app_nil_r in H. destruct (IH H) as (p & y & silent & -> & S & T). exists p, y, (silent ++ [x]). rewrite <- app_assoc. split; [reflexivity|].
    split; [|exact T]. rewrite lcode_app, S. unfold lcode. cbn. rewrite Q. reflexivity.
  - rewrite last_opt_pre in H by discriminate. exists xs, x, []. rewrite Q. auto.
Qed.


Definition not_go (i : instr) : Prop := match i with I_GOTRUE _ => False | _ => True end.
Definition ends (l : list instr) : Prop := forall i, last_opt l = Some i -> not_go i.
Lemma ends_snoc a i : not_go i -> ends (a ++ [i]).
Proof. intros H j. rewrite BaseLemmas.last_opt_app. intros E. injection E as <-. exact H. Qed.
Lemma ends_nil : ends [].
Proof. intros i H. discriminate H. Qed.
Lemma ends_app a b : ends a -> ends b -> ends (a ++ b).
Proof. intros A B. destruct b as [|i b]; [rewrite app_nil_r; exact A|]. intros j. rewrite last_opt_pre by discriminate. apply B. Qed.
Lemma ends_flat {A} (f : A -> list instr) l : (forall a, ends (f a)) -> ends (flat_map f l).
Proof. intros H. induction l; [apply ends_nil|]. apply ends_app; auto. Qed.
Lemma ends_map {A} (f : A -> instr) l : (forall a, not_go (f a)) -> ends (map f l).
Proof.
  intros H. induction l as [|a l IH] using rev_ind; [apply ends_nil|]. rewrite map_app. apply ends_snoc, H.
Qed.
Lemma scode_last x m : last_opt (scode x) = Some (I_GOTRUE m) -> exists e, x = SIfGo e m.
Proof.
  assert (C : forall a i, not_go i -> forall b, ends b -> ends (a ++ i :: b)).
  { intros a i H b B. change (i :: b) with ([i] ++ b). rewrite app_assoc. apply ends_app; [apply ends_snoc, H | exact B]. }
  assert (Z : forall l, ends l -> last_opt l = Some (I_GOTRUE m) -> exists e, x = SIfGo e m) by (intros l H E; destruct (H _ E)).
  destruct x; cbn [scode]; try (apply Z; apply (ends_snoc []); exact I).
  - apply Z, ends_nil.
  - apply Z, ends_map. intros; exact I.
  - apply Z. change (I_DEF id 1 :: I_PARAM param :: ecode body ++ [I_END_DEF]) with ((I_DEF id 1 :: I_PARAM param :: ecode body) ++ [I_END_DEF]). apply ends_snoc. exact I.
  - apply Z, ends_flat. intros p. unfold dim_code. apply ends_snoc. destruct (pl_type p); exact I.
  - apply Z. rewrite !app_assoc. apply ends_snoc. exact I.
  - apply Z, ends_snoc. destruct has_else; exact I.
  - rewrite BaseLemmas.last_opt_app. intros H. injection H as ->. eauto.
  - apply Z. rewrite app_comm_cons. apply ends_snoc. exact I.
  - apply Z. rewrite app_comm_cons. apply ends_snoc. exact I.
  - apply Z. rewrite app_assoc. apply ends_snoc. unfold set_instr. destruct (pl_subs p), (pl_type p); exact I.
  - apply Z. destruct l as [|a l]; [apply (ends_snoc []); exact I | apply ends_map; intros; exact I].
  - apply Z. apply C; [destruct gosub; exact I | apply ends_map; intros; exact I].
  - apply Z, ends_app; [|destruct (separator_last l); [apply ends_nil | apply (ends_snoc []); exact I]].
    apply ends_flat. intros [e|e|e| |]; cbn [item_code]; try (apply ends_snoc; try destruct (etype e); exact I); [apply (ends_snoc []); exact I | apply ends_nil].
  - apply Z. destruct e; [apply ends_snoc | apply (ends_snoc [])]; exact I.
  - apply Z, ends_flat. intros p. unfold read_code. apply ends_snoc. destruct (pl_type p); exact I.
  - apply Z. destruct n; apply (ends_snoc []); exact I.
Qed.

Lemma else_go_if kw text st xs st' pre n post : line_is kw text st xs st' -> xs = pre ++ SElseGo n :: post ->
  exists p e m silent, pre = p ++ SIfGo e m :: silent /\ lcode silent = [].
Proof.
  intros L E. destruct (line_else_gos _ _ _ _ _ L pre n post E) as (m & H). destruct (last_stmt _ _ H) as (p & x & silent & -> & S & X).
  destruct (scode_last _ _ X) as (e & ->). eauto 6.
Qed.

Lemma line_code_here xss k : k < length xss ->
  skipn (line_start xss k) (pcode 0 xss) = I_SOURCE_LINE k :: lcode (line_stmts xss k) ++ skipn (line_start xss (k + 1)) (pcode 0 xss).
Proof.
  intros K. rewrite (line_start_code _ _ K), (line_start_skip xss (k + 1) 0) by lia. cbn [plus]. rewrite (Nat.add_1_r k). reflexivity.
Qed.
