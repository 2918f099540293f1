(* The items of the DATA statements of a program (C18). *)
From Coq Require Import Lia ZifyBool ZifyNat ZifyN SpecFloat.
From Verif Require Import Base BaseLemmas Num NumSpec SourceModel LineMapModel ArraySpec BcodeModel SymbolModel SymbolSpec SymbolProofs
  LexModel ParseModel GrammarSpec ParseProofs StmtProofs CompileProofs VmModel VmLemmas VmSpec ControlProofs OpSpec VmTyping ValueSpec PrintSpec StoreSpec
  DataSpec DataProofs FnSpec FnProofs KindProofs TypeSpec CodeProofs LineSpec LineProofs EvalSpec EvalOps EvalProofs StepSpec StepProofs
  SessionModel MonitorModel MonSpec SessionSpec PromptProofs RunProofs TypedProofs RunSpec BeginProofs SafeSpec SafeTop.
Local Open Scope nat_scope.
Local Open Scope list_scope.
Local Opaque init_builtins new_symbol_table parse_source.

(* ---------- an item is determined by the text ---------- *)

Lemma blank_not_end c : data_blank c -> ~ ends_datum c.
Proof. intros [->| ->] [H|[H|[H|[H|H]]]]; vm_compute in H; discriminate H. Qed.
(* two ways to divide a list into what satisfies p and a rest that does not begin so *)
Lemma divide {X} (p : X -> Prop) (a b x y : list X) : a ++ x = b ++ y -> Forall p a -> Forall p b ->
  match x with z :: _ => ~ p z | [] => True end -> match y with z :: _ => ~ p z | [] => True end -> a = b /\ x = y.
Proof.
  revert b. induction a as [|c a IH]; intros [|d b] E A B NX NY; cbn [app] in E.
  - split; [reflexivity|exact E].
  - exfalso. rewrite E in NX. inversion B; contradiction.
  - exfalso. rewrite <- E in NY. inversion A; contradiction.
  - injection E as -> E. inversion A; inversion B; subst. destruct (IH b E) as [-> ->]; auto.
Qed.
Lemma last_rev {X} (l : list X) d : match rev l with [] => True | z :: _ => last l d = z end.
Proof. destruct (rev l) as [|z m] eqn:R; [exact I|]. rewrite <- (rev_involutive l), R. cbn [rev]. apply last_last. Qed.
Lemma divide_end {X} (p : X -> Prop) (w c w' c' : list X) : w ++ c = w' ++ c' -> Forall p c -> Forall p c' ->
  match w with x :: _ => ~ p (last w x) | [] => True end -> match w' with x :: _ => ~ p (last w' x) | [] => True end -> w = w'.
Proof.
  intros E C C' L L'. assert (R : rev c ++ rev w = rev c' ++ rev w') by (rewrite <- !rev_app_distr, E; reflexivity).
  apply (divide p) in R.
  - destruct R as [_ R]. rewrite <- (rev_involutive w), R. apply rev_involutive.
  - apply Forall_rev, C.
  - apply Forall_rev, C'.
  - destruct w as [|x w]; [exact I|]. pose proof (last_rev (x :: w) x) as Z. destruct (rev (x :: w)); [exact I|]. rewrite <- Z. exact L.
  - destruct w' as [|x w']; [exact I|]. pose proof (last_rev (x :: w') x) as Z. destruct (rev (x :: w')); [exact I|]. rewrite <- Z. exact L'.
Qed.
Lemma quoted_once (w w' r r' : bytes) : w ++ DQ :: r = w' ++ DQ :: r' -> ~ In DQ w -> ~ In DQ w' -> w = w' /\ r = r'.
Proof.
  intros E A B. apply (divide (fun c => c <> DQ)) in E.
  - destruct E as [-> E]. injection E as ->. auto.
  - apply Forall_forall. intros c H ->. contradiction.
  - apply Forall_forall. intros c H ->. contradiction.
  - intros H. apply H. reflexivity.
  - intros H. apply H. reflexivity.
Qed.
Lemma end_not_blank c : ends_datum c -> ~ data_blank c.
Proof. intros A B. exact (blank_not_end c B A). Qed.
Lemma quote_ends : ends_datum DQ.
Proof. left. reflexivity. Qed.

(* what an item is once the blanks before it are gone *)
Definition bare (x w r : bytes) : Prop :=
  (exists t, x = DQ :: w ++ DQ :: t /\ r = t /\ ~ In DQ w) \/
  (exists c t, x = w ++ c ++ t /\ Forall data_blank c /\ Forall (fun x => ~ ends_datum x) w /\
    match w with x :: _ => ~ data_blank x /\ ~ data_blank (last w x) | [] => c = [] /\ hd NL t <> DQ end /\
    match t with x :: _ => ends_datum x | [] => True end /\ ((r = t /\ t <> [NL]) \/ (r = [] /\ t = [NL]))).
Lemma bare_head x w r : bare x w r -> match x with z :: _ => ~ data_blank z | [] => True end.
Proof.
  intros [(t & -> & _)|(c & t & -> & C & F & W & T & _)].
  - apply end_not_blank, quote_ends.
  - destruct w as [|z w]; [destruct W as [-> _]; cbn [app]; destruct t as [|z t]; [exact I|apply end_not_blank, T]|cbn [app]; apply W].
Qed.
Lemma bare_plain x w r : bare (DQ :: x) w r -> exists t, x = w ++ DQ :: t /\ r = t /\ ~ In DQ w.
Proof.
  intros [(t & E & H)|(c & t & E & C & F & W & T & _)].
  - injection E as ->. exists t. split; [reflexivity|exact H].
  - exfalso. destruct w as [|z w]; cbn [app] in E.
    + destruct W as [-> W]. cbn [app] in E. rewrite <- E in W. apply W. reflexivity.
    + injection E as <- _. inversion F as [|? ? N]. exact (N quote_ends).
Qed.
Lemma bare_unique x w r w' r' : bare x w r -> bare x w' r' -> w = w' /\ r = r'.
Proof.
  intros [(t & -> & -> & N)|(c & t & -> & C & F & W & T & R)] B.
  - apply bare_plain in B as (t' & E & -> & N'). destruct (quoted_once _ _ _ _ E N N') as [-> ->]. auto.
  - destruct B as [(t' & E & -> & N')|(c' & t' & E & C' & F' & W' & T' & R')].
    + exfalso. assert (B : bare (DQ :: w' ++ DQ :: t') w r) by (rewrite <- E; right; exists c, t; repeat (split; [assumption || reflexivity|]); assumption).
      destruct w as [|z w]; cbn [app] in E; [destruct W as [-> W]; cbn [app] in E; rewrite E in W; apply W; reflexivity|]. injection E as -> _. inversion F as [|? ? Q]. exact (Q quote_ends).
    + rewrite !app_assoc in E. apply (divide (fun x => ~ ends_datum x)) in E.
      * destruct E as [E ->]. assert (w = w').
        { apply (divide_end data_blank w c w' c' E C C'); [destruct w; [exact I|apply W]|destruct w'; [exact I|apply W']]. }
        split; [assumption|]. destruct R as [[-> N]|[-> N]], R' as [[-> N']|[-> N']]; congruence.
      * apply Forall_app. split; [exact F|]. apply Forall_impl with (2 := C). exact blank_not_end.
      * apply Forall_app. split; [exact F'|]. apply Forall_impl with (2 := C'). exact blank_not_end.
      * destruct t; [exact I|]. intros H. exact (H T).
      * destruct t'; [exact I|]. intros H. exact (H T').
Qed.
Lemma datum_bare s w r : datum_is s w r -> exists b x, s = b ++ x /\ Forall data_blank b /\ bare x w r.
Proof.
  intros [b w0 r0 B N _ _|b w0 c t r0 B C F _ W T R].
  - exists b, (DQ :: w0 ++ DQ :: r0). split; [reflexivity|]. split; [exact B|]. left. exists r0. auto.
  - exists b, (w0 ++ c ++ t). split; [reflexivity|]. split; [exact B|]. right. exists c, t. repeat (split; [assumption || reflexivity|]). assumption.
Qed.
Theorem datum_unique s w r w' r' : datum_is s w r -> datum_is s w' r' -> w = w' /\ r = r'.
Proof.
  intros D D'. destruct (datum_bare _ _ _ D) as (b & x & -> & B & X). destruct (datum_bare _ _ _ D') as (b' & x' & E & B' & X').
  destruct (divide data_blank b b' x x' E B B' (bare_head _ _ _ X) (bare_head _ _ _ X')) as [_ <-]. exact (bare_unique x w r w' r' X X').
Qed.
Theorem data_unique kw s : forall l L, gdata kw s l L -> forall l' L', gdata kw s l' L' -> l = l' /\ L = L'.
Proof.
  induction 1 as [r w r' L D A N | r w r' r1 l L D A G IH]; intros l' L' H; inversion H as [? w2 r2 ? D2 A2 N2 | ? w2 r2 r3 l2 ? D2 A2 G2]; subst;
    destruct (datum_unique _ _ _ _ _ D D2) as [-> <-]; rewrite A in A2.
  - injection A2 as <-. auto.
  - injection A2 as ->. destruct N. reflexivity.
  - injection A2 as <-. destruct N2. reflexivity.
  - injection A2 as <-. destruct (IH _ _ G2) as [-> ->]. auto.
Qed.

(* ---------- the items of a program ---------- *)

Lemma program_statements o src xss st : statements_of o src xss st -> few_names st -> Forall (Forall (wstmt (sigs st))) xss.
Proof.
  intros (bc & st1 & C & PI & ST & B) FN. rewrite ST. apply (program_good st1) with (2 := PI) (3 := fine_init).
  - rewrite ST in FN. unfold few_names in *. cbn [sym_make_unknown_array st_syms] in FN. rewrite map_length in FN. exact FN.
  - apply Nm_refl.
Qed.

Section Run.
Variables (o : options) (E : env) (line rest : bytes) (s : sess) (src : source) (xss : list (list stmt)) (st : symtab).
Hypothesis IS : in_step o s.
Hypothesis ML : means line (MCommand C_RUN rest).
Hypothesis SS : c_source (v_stored (ss_vm s)) = Some src.
Hypothesis SO : statements_of o src xss st.
Hypothesis FN : few_names st.

Theorem run_items : exists u, starts src (new_machine src (ss_vm s)) u /\
  (forall l w, runs E u l w -> in_program l -> exists left, lines_data xss = items_read l ++ left /\ items_from (v_stored w) (v_pdata w) = left) /\
  (distinct_lines src -> forall l w n k, runs E u l w -> line_numbered src n k ->
     exists p, line_place w n = Some p /\ items_from (v_stored w) p = lines_data (skipn k xss)) /\
  (forall l w, runs E u l w -> items_from (v_stored w) 0 = lines_data xss).
Proof.
  destruct (begins_too o E line rest s src xss st IS ML SS SO) as (bc & idx & CO & IX & _). set (u := first_vm src st (ss_vm s) bc idx). exists u.
  pose proof (program_statements o src xss st SO FN) as WS. pose proof (first_bcode o src xss st SO bc CO) as FB.
  assert (I0 : forall k, k <= length xss -> items_from (v_stored u) (line_start xss k) = lines_data (skipn k xss)).
  { intros k K. change (v_stored u) with (mkCode (Some src) (Some bc) (Some idx)). unfold items_from. cbn [c_bcode]. rewrite FB, (line_start_skip xss k 0 K). apply (program_data (sigs st)). apply Forall_skipn', WS. }
  assert (I1 : items_from (v_stored u) 0 = lines_data xss) by (rewrite <- (I0 0 ltac:(lia)) at 1; destruct xss; reflexivity).
  split; [exact (at_starts o s src st IS bc idx CO IX)|]. split; [|split].
  - intros l w R P. destruct (data_in_order E u l w R) as [D Q].
    + exact (first_marked o src st (ss_vm s) bc idx CO).
    + intros b H. discriminate H.
    + exact P.
    + exists (items_from (v_stored w) (v_pdata w)). split; [|reflexivity]. rewrite <- D, <- I1. reflexivity.
  - intros DL l w n k R (ln & L & LN). destruct (runs_stored E u l w R) as [S1 _]. exists (line_start xss k). destruct SO as (bc' & st1 & C & PI & ST & B). split.
    + unfold line_place. rewrite S1. change (c_index (v_stored u)) with (Some idx). cbn [option_map].
      rewrite (proj2 (index_lookup _ _ src xss st1 bc idx PI FB IX DL n (N.of_nat (line_start xss k)))); [cbn; rewrite Nat2N.id; reflexivity|]. exists k. split; [exists ln; auto|reflexivity].
    + rewrite S1. apply I0. pose proof (program_length _ _ _ _ _ PI) as LE. rewrite map_length in LE. assert (nth_error src k <> None) by congruence. apply nth_error_Some in H. lia.
  - intros l w R. destruct (runs_stored E u l w R) as [S1 _]. rewrite S1. exact I1.
Qed.
End Run.
