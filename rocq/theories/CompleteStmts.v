(* The compiler accepts every program of the grammar. *)
From Coq Require Import Lia ZifyBool ZifyNat ZifyN.
From Verif Require Import Base BaseLemmas Num SourceModel BcodeModel SymbolModel SymbolSpec SymbolProofs
  LexModel LexSpec LexProofs ParseModel GrammarSpec ParseProofs StmtProofs CodeProofs DatumProofs CompileProofs CompleteProofs.
Local Open Scope nat_scope.
Local Open Scope parse_scope.

(* ---------- expressions ---------- *)

Definition sound (e : expr) : Prop := everywhere (fun x => match x with EBad _ _ => False | _ => True end) e.

Lemma sound_all l : (fix all (l : list expr) : Prop := match l with [] => True | a :: r => sound a /\ all r end) l -> Forall sound l.
Proof. induction l as [|a l IH]; intros H; constructor; [exact (proj1 H) | exact (IH (proj2 H))]. Qed.
Lemma all_proper l : Forall proper l -> (fix all (l : list expr) : Prop := match l with [] => True | a :: r => proper a /\ all r end) l.
Proof. induction 1 as [|a l P H IH]; [exact I | split; assumption]. Qed.

Lemma gram_proper :
  (forall l st ts e st', gram l st ts e st' -> fine st -> sound e -> proper e) /\
  (forall k st ts es st', gargs k st ts es st' -> fine st -> Forall sound es -> Forall proper es) /\
  (forall k st ts name s es st', guse k st ts name s es st' -> fine st -> Forall sound es -> Forall proper es /\ (find_builtin name = None -> s_type s <> TErr)).
Proof.
  pose proof gram_names as (NG & NA & NU).
  assert (BIN : forall o l st ts a st1 l2 us b st2, gram l st ts a st1 -> (fine st -> sound a -> proper a) -> gram l2 st1 us b st2 -> (fine st1 -> sound b -> proper b) ->
    fine st -> sound (EBin o a b) -> proper (EBin o a b)).
  { intros o l st ts a st1 l2 us b st2 GA IA GB IB F (_ & SA & SB). specialize (IA F SA). specialize (IB (names_fine _ _ (NG _ _ _ _ _ GA) F) SB).
    split; [|split; assumption]. pose proof (proper_type _ IA). destruct o; cbn [etype]; assumption || discriminate. }
  apply gram_ind3.
  - intros l st ts e st' N G IH F SO. exact (IH F SO).
  - intros. eapply BIN; eassumption.
  - intros. eapply BIN; eassumption.
  - intros n st ts a st' G IH T F (_ & SO). specialize (IH F SO). split; [exact (proper_type _ IH) | exact IH].
  - intros. eapply BIN; eassumption.
  - intros. eapply BIN; eassumption.
  - intros. eapply BIN; eassumption.
  - intros. eapply BIN; eassumption.
  - intros. eapply BIN; eassumption.
  - intros n st ts a st' G IH T F (_ & SO). specialize (IH F SO). split; [exact (proper_type _ IH) | exact IH].
  - intros. eapply BIN; eassumption.
  - intros st ts a st1 us b st2 _ _ _ _ _ _ _ ([] & _).
  - intros r st ts a st1 us b st2 _ _ _ _ _ _ _ ([] & _).
  - intros st x w _ _. split; [discriminate | exact I].
  - intros st w _ _. split; [discriminate | exact I].
  - intros st ts e st' G IH N F SO. exact (IH F SO).
  - intros st ts e st' G IH N F SO. exact (IH F SO).
  - intros st ts name s args st' FB U IH F SO. destruct (IH F) as [H1 H2]; [destruct args; [constructor | apply sound_all; exact (proj2 SO)]|].
    specialize (H2 FB). destruct args; split; try exact H2; [exact I | apply all_proper; exact H1].
  - intros w b st ts args st' FB NE G IH F SO. split; [exact NE|]. apply all_proper. apply IH; [exact F|]. apply sound_all. exact (proj2 SO).
  - intros w b r st FB NE A F SO. split; [exact NE | exact I].
  - intros w b r st FB NE A F SO. split; [exact NE | exact I].
  - intros w b r st ts e st' FB NE A G IH F (_ & SO). split; [exact NE | exact (IH F SO)].
  - intros a st ts e st' G IH K F SO. constructor; [exact (IH F (Forall_inv SO)) | constructor].
  - intros a k st ts e st1 us es st2 G IH K GA IA F SO. constructor; [exact (IH F (Forall_inv SO))|].
    apply IA; [exact (names_fine _ _ (NG _ _ _ _ _ G) F) | exact (Forall_inv_tail SO)].
  - intros k name st s st' O F _. split; [constructor|]. intros FB E. destruct (occurs_untyped _ _ _ _ _ _ F O E) as (w & b & X & Y & _). injection X as <-. congruence.
  - intros k name st ts es st1 s st' G IH O F SO. split; [exact (IH F SO)|]. intros FB E.
    destruct (occurs_untyped _ _ _ _ _ _ (names_fine _ _ (NA _ _ _ _ _ G) F) O E) as (w & b & X & Y & _). injection X as <-. congruence.
Qed.

(* an expression whose sum at the end has the type ty *)
Lemma rel_head (a : token) : starts LRel a = true -> is_kw K_NOT a = false.
Proof. intros X. destruct a; try reflexivity. destruct k; discriminate X || reflexivity. Qed.

Lemma sum_full l st ts e st' ty : sum_end l st ts e st' ty -> proper e ->
  match l with LOr | LAnd => looped l ty st ts e st' | LNot | LRel => direct l ty st ts e st' | LAdd => direct LAdd ty st ts e st' | _ => True end.
Proof.
  pose proof gram_solid as (SG & _). pose proof gram_starts as (BG & _).
  assert (NE : forall l st ts e st' ty, sum_end l st ts e st' ty -> ts <> []) by (intros l0 s0 t0 e0 s1 y H; exact (proj1 (SG _ _ _ _ _ (sum_gram _ _ _ _ _ _ H)))).
  induction 1 as [st ts e st' G | l st ts e st' ty IN S IH | st ts a st1 us b st2 ty GA S IH TA TB | st ts a st1 us b st2 ty GA S IH TA TB | n st ts a st' ty S IH TA |
    r st ts a st1 us b st2 ty GA S IH TY N | r st ts a st1 us b st2 ty GA S IH TA TB]; intros PR.
  - apply (full_direct LAdd). exact (proj1 gram_full _ _ _ _ _ G PR).
  - specialize (IH PR). destruct IN as [<- | [<- | [<- | [<- | []]]]]; cbn [tighter] in *.
    + apply direct_looped. apply looped_direct; [right; left; reflexivity | discriminate | exact IH].
    + apply direct_looped. exact IH.
    + apply (not_step ty 0 st ts e st'); [|left; reflexivity | exact IH].
      destruct (BG _ _ _ _ _ (sum_gram _ _ _ _ _ _ S)) as (t & r & E & X). exists t, r. split; [exact E | exact (rel_head _ X)].
    + apply rel_none. exact IH.
  - destruct PR as (_ & PA & PB). apply (looped_op OOr ty TNum st ts a st1 us b st2); [left; reflexivity | split; congruence | exact (NE _ _ _ _ _ _ S) | exact (proj1 gram_full _ _ _ _ _ GA PA)|].
    apply looped_direct; [right; left; reflexivity | discriminate | exact (IH PB)].
  - destruct PR as (_ & PA & PB). apply (looped_op OAnd ty TNum st ts a st1 us b st2); [right; left; reflexivity | split; congruence | exact (NE _ _ _ _ _ _ S) | exact (proj1 gram_full _ _ _ _ _ GA PA) | exact (IH PB)].
  - destruct PR as (_ & PA). apply (not_step ty (Datatypes.S n) st ts a st'); [|right; exact TA | exact (IH PA)].
    destruct (BG _ _ _ _ _ (sum_gram _ _ _ _ _ _ S)) as (t & r & E & X). exists t, r. split; [exact E | exact (rel_head _ X)].
  - destruct PR as (_ & PA & PB). apply (rel_step ty (etype a) r st ts a st1 us b st2); [exact (NE _ _ _ _ _ _ S) | exact TY | exact N | apply (full_direct LAdd); exact (proj1 gram_full _ _ _ _ _ GA PA) | exact (IH PB)].
  - exfalso. exact (proper_type _ PR eq_refl).
Qed.
Lemma sum_direct st ts e st' ty : sum_end LOr st ts e st' ty -> proper e -> direct LOr ty st ts e st'.
Proof. intros S PR. apply looped_direct; [left; reflexivity | discriminate | exact (sum_full _ _ _ _ _ _ S PR)]. Qed.

Lemma expr_goes ty st ts e st' s L : direct LOr ty st ts e st' -> solid ts -> p_st s = st -> reads (p_kw s) (view s) ts L ->
  cont LOr ty ts (fst L) = false -> goes expression s (etype e) L (ecode e) st'.
Proof. intros D SO T R C. exact (runs_expression (S (length ts)) ty st ts e st' s L D SO ltac:(lia) T R C). Qed.

(* tokens that do not continue an expression *)
Definition stops (t : token) : bool := negb (is_char "(" t) && negb (cont LOr TNum [] t).
Lemma stops_cont ty ts t : stops t = true -> cont LOr ty ts t = false.
Proof.
  unfold stops. intros H. apply andb_prop in H. destruct H as [H1 H2]. apply negb_true_iff in H1, H2. apply cont_num.
  unfold cont in *. rewrite H1 in *. exact H2.
Qed.
Lemma stops_paren t : stops t = true -> is_char "(" t = false.
Proof. unfold stops. intros H. apply andb_prop in H. destruct H as [H _]. apply negb_true_iff in H. exact H. Qed.
Lemma eos_stops t : eos t = true -> stops t = true.
Proof.
  destruct t as [c| | | | | | | | | |k]; try discriminate; try reflexivity.
  - cbn [eos]. intros H. apply orb_prop in H. destruct H as [H|H]; apply ceq_eq in H; subst c; reflexivity.
  - destruct k; discriminate || reflexivity.
Qed.

Lemma gexp_goes ty st ts e st' : gexp ty st ts e st' -> fine st -> sound e -> forall s L, p_st s = st -> reads (p_kw s) (view s) ts L -> stops (fst L) = true ->
  goes expression s ty L (ecode e) st'.
Proof.
  intros [G Y] F SO s L T R C. rewrite <- Y.
  apply (expr_goes TNum st ts); [apply (full_direct LOr); apply (proj1 gram_full _ _ _ _ _ G); exact (proj1 gram_proper _ _ _ _ _ G F SO) | exact (proj1 gram_solid _ _ _ _ _ G) | exact T | exact R | apply stops_cont; exact C].
Qed.
Lemma num_goes st ts e st' s L : gexp TNum st ts e st' -> fine st -> sound e -> p_st s = st -> reads (p_kw s) (view s) ts L -> stops (fst L) = true ->
  goes numeric_expression s tt L (ecode e) st'.
Proof.
  intros G F SO T R C. apply (numeric_goes _ _ e); [|exact (proj2 G)]. rewrite (proj2 G). exact (gexp_goes _ _ _ _ _ G F SO _ _ T R C).
Qed.
Lemma str_goes st ts e st' s L : gexp TStr st ts e st' -> fine st -> sound e -> p_st s = st -> reads (p_kw s) (view s) ts L -> stops (fst L) = true ->
  goes string_expression s tt L (ecode e) st'.
Proof.
  intros G F SO T R C. apply (string_goes _ _ e); [|exact (proj2 G)]. rewrite (proj2 G). exact (gexp_goes _ _ _ _ _ G F SO _ _ T R C).
Qed.

(* a name, with subscripts or not *)
Lemma use_goes k st ts name y es st' : guse k st ts name y es st' -> fine st -> Forall sound es ->
  exists p, nth_error (st_syms st') p = Some y /\
    forall s L, p_st s = st -> reads (p_kw s) (view s) ts L -> is_char "(" (fst L) = false -> goes (identifier k) s (p, length es) L (flat_map ecode es) st'.
Proof.
  intros G F SO. destruct (proj2 (proj2 gram_proper) _ _ _ _ _ _ _ G F SO) as [PR _].
  destruct (proj2 (proj2 gram_full) _ _ _ _ _ _ _ G PR) as (p & E & H). exists p. split; [exact E|]. intros s L T R C.
  apply (H expression (length ts) _ s L (runs_expression _) ltac:(lia)); [|exact T | exact R | rewrite C; reflexivity].
  apply (solid_fuel _ _ _ R). exact (proj2 (proj2 (proj2 gram_solid) _ _ _ _ _ _ _ G)).
Qed.

Lemma psym_goes p y s : nth_error (st_syms (p_st s)) p = Some y -> goes (psym p) s y (view s) [] (p_st s).
Proof. intros E. exists s. unfold psym. rewrite E. split; [reflexivity | apply lands_refl]. Qed.
(* psym, then f *)
Lemma goes_psym {B} (f : symbol -> P B) p y s b L c st : nth_error (st_syms (p_st s)) p = Some y -> goes (f y) s b L c st -> goes (pbind (psym p) f) s b L c st.
Proof. intros E H. unfold goes, pbind, psym. rewrite E. exact H. Qed.

Lemma emit_goes i s L c st : view s = L -> p_st s = st -> c = [i] -> goes (emit_ i) s tt L c st.
Proof. intros <- <- ->. apply goes_emit. Qed.

Lemma nth_on s L c st s1 p (y : symbol) : lands s L c st s1 -> nth_error (st_syms st) p = Some y -> nth_error (st_syms (p_st s1)) p = Some y.
Proof. intros D E. rewrite (ld_st _ _ _ _ _ D). exact E. Qed.

Lemma place_goes st ts p st' : gplace st ts p st' -> fine st -> Forall sound (pl_subs p) ->
  exists q y, nth_error (st_syms st') q = Some y /\ s_id y = pl_id p /\ s_kind y = pl_kind p /\ s_type y = pl_type p /\
    forall s L, p_st s = st -> reads (p_kw s) (view s) ts L -> is_char "(" (fst L) = false -> goes (identifier KArray) s (q, length (pl_subs p)) L (subs_code p) st'.
Proof.
  intros (name & y & es & G & ->) F SO. cbn [pl_subs pl_id pl_kind pl_type] in *. destruct (use_goes _ _ _ _ _ _ _ G F SO) as (q & E & H).
  exists q, y. repeat (split; [assumption || reflexivity|]). exact H.
Qed.

(* a place, then the instruction for it *)
Lemma place_item (f : symbol -> nat -> P unit) code st ts p st' : gplace st ts p st' -> fine st -> Forall sound (pl_subs p) ->
  (forall y, s_id y = pl_id p -> s_kind y = pl_kind p -> s_type y = pl_type p -> exists i, f y (length (pl_subs p)) = emit_ i /\ code = subs_code p ++ [i]) ->
  forall s L, p_st s = st -> reads (p_kw s) (view s) ts L -> stops (fst L) = true ->
  goes (let* (q, dim) := identifier KArray in let* sym := psym q in f sym dim) s tt L code st'.
Proof.
  intros G F SO H s L T R C. destruct (place_goes _ _ _ _ G F SO) as (q & y & E & Y1 & Y2 & Y3 & GO). destruct (H y Y1 Y2 Y3) as (i & EI & ->).
  apply (goes_bind _ _ _ _ _ _ _ _ _ _ _ (GO s L T R (stops_paren _ C))). intros s1 D1. cbv beta iota. apply (goes_psym _ _ y); [exact (nth_on _ _ _ _ _ _ _ D1 E)|].
  rewrite EI. apply emit_goes; [exact (ld_view _ _ _ _ _ D1) | exact (ld_st _ _ _ _ _ D1) | reflexivity].
Qed.

Lemma read_goes st ts p st' : gread st ts p st' -> fine st -> Forall sound (pl_subs p) ->
  forall s L, p_st s = st -> reads (p_kw s) (view s) ts L -> stops (fst L) = true -> goes read_item s tt L (read_code p) st'.
Proof.
  intros [G N] F SO. unfold read_item. apply (place_item (fun sym dim => match s_type sym with TStr => _ | TNum => _ | TErr => _ end) _ _ _ _ _ G F SO).
  intros y Y1 Y2 Y3. rewrite Y1, Y3. unfold read_code, nsubs, params8. destruct (pl_type p); [contradiction | eexists; split; reflexivity..].
Qed.
Lemma dim_goes st ts p st' : gdim st ts p st' -> fine st -> Forall sound (pl_subs p) ->
  forall s L, p_st s = st -> reads (p_kw s) (view s) ts L -> stops (fst L) = true -> goes dim_array s tt L (dim_code p) st'.
Proof.
  intros [G K] F SO. unfold dim_array. apply (place_item (fun sym dim => if negb (skind_eqb (s_kind sym) KArray) then _ else _) _ _ _ _ _ G F SO).
  intros y Y1 Y2 Y3. rewrite Y1, Y2, Y3, K. unfold dim_code, nsubs, params8. cbn [skind_eqb negb]. destruct (pl_type p); eexists; split; reflexivity.
Qed.
Lemma input_goes st ts p st' : gplace st ts p st' -> fine st -> Forall sound (pl_subs p) ->
  forall s L, p_st s = st -> reads (p_kw s) (view s) ts L -> stops (fst L) = true -> goes input_item s tt L (input_code p) st'.
Proof.
  intros G F SO. unfold input_item. apply (place_item (fun sym dim => emit_ _) _ _ _ _ _ G F SO).
  intros y Y1 Y2 Y3. rewrite Y1, Y3. unfold input_code, nsubs, params8. destruct (pl_type p); eexists; split; reflexivity.
Qed.

Lemma var_goes st ts id st' s L : gvar st ts id st' -> fine st -> p_st s = st -> reads (p_kw s) (view s) ts L -> is_char "(" (fst L) = false ->
  exists y, s_id y = id /\ goes numeric_simple_variable s y L [] st'.
Proof.
  intros (name & y & -> & O & K & V & ->) F T R C. exists y. split; [reflexivity|].
  destruct (use_goes KUnknown st [T_ID name] name y [] st' (GU_simple _ _ _ _ _ O) F (Forall_nil _)) as (p & E & H).
  unfold numeric_simple_variable, simple_variable. apply (goes_bind _ _ _ y _ L [] st').
  - apply (goes_bind _ _ _ _ _ _ _ _ _ _ _ (H s L T R C)). intros s1 D1. cbv beta iota. apply (goes_psym _ _ y); [exact (nth_on _ _ _ _ _ _ _ D1 E)|].
    rewrite K. cbn [skind_eqb]. apply goes_ret; [symmetry; exact (ld_view _ _ _ _ _ D1) | reflexivity | symmetry; exact (ld_st _ _ _ _ _ D1)].
  - intros s1 D1. rewrite V. change (vtype_eqb TNum TNum) with true. cbv iota.
    apply goes_ret; [symmetry; exact (ld_view _ _ _ _ _ D1) | reflexivity | symmetry; exact (ld_st _ _ _ _ _ D1)].
Qed.

Lemma number_goes st ts n st' s L : gline st ts n st' -> p_st s = st -> reads (p_kw s) (view s) ts L -> goes line_number s n L [] st'.
Proof.
  intros (t & -> & E & ->) T R. unfold line_number. apply goes_tok. rewrite (reads_tok _ _ _ _ R), E.
  apply (goes_then _ _ _ L _ _ _ _ R). intros s1 D1. apply goes_ret; [symmetry; exact (ld_view _ _ _ _ _ D1) | reflexivity|].
  rewrite (ld_st _ _ _ _ _ D1). symmetry. exact T.
Qed.
Lemma gline_num st ts n st' : gline st ts n st' -> exists x w, ts = [T_NUM x w].
Proof. intros (t & -> & E & _). destruct t; try discriminate E. eauto. Qed.

(* tables and tokens of the parts *)
Lemma gplace_names st ts p st' : gplace st ts p st' -> names st st'.
Proof. intros (name & y & es & G & _). exact (proj2 (proj2 gram_names) _ _ _ _ _ _ _ G array_kind). Qed.
Lemma gplace_solid st ts p st' : gplace st ts p st' -> Forall (fun t => t <> T_NL) ts.
Proof. intros (name & y & es & G & _). exact (proj2 (proj2 (proj2 gram_solid) _ _ _ _ _ _ _ G)). Qed.
Lemma gplace_head st ts p st' : gplace st ts p st' -> exists name us, ts = T_ID name :: us.
Proof. intros (name & y & es & G & _). destruct (guse_head _ _ _ _ _ _ _ G) as (us & E). eauto. Qed.
Lemma gvar_guse st ts id st' : gvar st ts id st' -> exists name y, guse KUnknown st ts name y [] st'.
Proof. intros (name & y & -> & O & _). exists name, y. exact (GU_simple _ _ _ _ _ O). Qed.
Lemma gvar_names st ts id st' : gvar st ts id st' -> names st st'.
Proof. intros H. destruct (gvar_guse _ _ _ _ H) as (name & y & G). exact (proj2 (proj2 gram_names) _ _ _ _ _ _ _ G (or_introl eq_refl)). Qed.
Lemma gexp_names ty st ts e st' : gexp ty st ts e st' -> names st st'.
Proof. intros [G _]. exact (proj1 gram_names _ _ _ _ _ G). Qed.
Lemma gexp_fine ty st ts e st' : gexp ty st ts e st' -> fine st -> fine st'.
Proof. intros G. exact (names_fine _ _ (gexp_names _ _ _ _ _ G)). Qed.

(* lists with commas *)
Section Lists.
Variable A : Type.
Variable g : symtab -> list token -> A -> symtab -> Prop.
Variables code0 code : A -> list instr.
Variables item0 item : P unit.
Variable good : A -> Prop.
Hypothesis NAMES : forall st ts x st', g st ts x st' -> names st st'.
Hypothesis SOLID : forall st ts x st', g st ts x st' -> Forall (fun t => t <> T_NL) ts.
Hypothesis FIRST : forall st ts x st', g st ts x st' -> fine st -> good x ->
  forall s L, p_st s = st -> reads (p_kw s) (view s) ts L -> stops (fst L) = true -> goes item0 s tt L (code0 x) st'.
Hypothesis ITEM : forall st ts x st', g st ts x st' -> fine st -> good x ->
  forall s L, p_st s = st -> reads (p_kw s) (view s) ts L -> stops (fst L) = true -> goes item s tt L (code x) st'.

Lemma glist_solid st ts l st' : glist g st ts l st' -> Forall (fun t => t <> T_NL) ts.
Proof.
  induction 1 as [st ts x st' G | st ts x st1 us l st2 G GL IH]; [exact (SOLID _ _ _ _ G)|]. apply Forall_app. split; [exact (SOLID _ _ _ _ G)|].
  constructor; [discriminate | exact IH].
Qed.

Lemma commas_go st ts l st' : glist g st ts l st' -> fine st -> Forall good l -> forall f s L, S (length ts) < f -> p_st s = st ->
  reads (p_kw s) (view s) (COMMA :: ts) L -> stops (fst L) = true -> is_char "," (fst L) = false -> goes (comma_list f item) s tt L (flat_map code l) st'.
Proof.
  induction 1 as [st ts x st' G | st ts x st1 us l st2 G GL IH]; intros F GO f s L LT T R C NC; (destruct f as [|f]; [lia|]); cbn [comma_list];
    destruct (reads_cons _ _ _ _ _ R) as (M & _ & R1 & R2); apply goes_tok; rewrite (reads_tok _ _ _ _ R); change (is_char "," COMMA) with true; cbv iota;
    apply (goes_then _ _ _ M _ _ _ _ R1); intros s1 D1; cbn [flat_map].
  - apply (goes_bind _ _ _ tt _ L (code x) st'); [apply (ITEM _ _ _ _ G F (Forall_inv GO)); [rewrite (ld_st _ _ _ _ _ D1); exact T | exact (reads_on _ _ _ _ _ _ _ D1 R2) | exact C]|].
    intros s2 D2. destruct f as [|f]; [lia|]. cbn [comma_list]. apply goes_tok. rewrite (lands_tok _ _ _ _ _ D2), NC.
    apply goes_ret; [symmetry; exact (ld_view _ _ _ _ _ D2) | reflexivity | symmetry; exact (ld_st _ _ _ _ _ D2)].
  - destruct (reads_split _ _ _ _ _ R2) as (M2 & R3 & R4). rewrite app_length in LT. cbn [length] in LT.
    apply (goes_bind _ _ _ tt _ M2 (code x) st1).
    + apply (ITEM _ _ _ _ G F (Forall_inv GO)); [rewrite (ld_st _ _ _ _ _ D1); exact T | exact (reads_on _ _ _ _ _ _ _ D1 R3)|].
      destruct (reads_cons _ _ _ _ _ R4) as (M3 & -> & _). reflexivity.
    + intros s2 D2. apply IH; [exact (names_fine _ _ (NAMES _ _ _ _ G) F) | exact (Forall_inv_tail GO) | lia | exact (ld_st _ _ _ _ _ D2) | | exact C | exact NC].
      rewrite <- (ld_kw _ _ _ _ _ D1) in R4. exact (reads_on _ _ _ _ _ _ _ D2 R4).
Qed.

Lemma list_goes st ts l st' s L : glist g st ts l st' -> fine st -> Forall good l -> p_st s = st -> reads (p_kw s) (view s) ts L ->
  stops (fst L) = true -> is_char "," (fst L) = false ->
  goes (item0 ;;; with_fuel (fun f => comma_list f item)) s tt L (match l with [] => [] | x :: r => code0 x ++ flat_map code r end) st'.
Proof.
  intros H F GO T R C NC. destruct H as [st ts x st' G | st ts x st1 us l st2 G GL].
  - apply (goes_bind _ _ _ tt _ L (code0 x) st'); [exact (FIRST _ _ _ _ G F (Forall_inv GO) s L T R C)|]. intros s2 D2. unfold with_fuel. cbn [comma_list flat_map].
    change (goes (let* t := tok in if is_char "," t then next_token ;;; item ;;; comma_list (S (length (p_rest s2))) item else pret tt) s2 tt L [] st').
    apply goes_tok. rewrite (lands_tok _ _ _ _ _ D2), NC. apply goes_ret; [symmetry; exact (ld_view _ _ _ _ _ D2) | reflexivity | symmetry; exact (ld_st _ _ _ _ _ D2)].
  - destruct (reads_split _ _ _ _ _ R) as (M2 & R3 & R4). apply (goes_bind _ _ _ tt _ M2 (code0 x) st1).
    + apply (FIRST _ _ _ _ G F (Forall_inv GO) s M2 T R3). destruct (reads_cons _ _ _ _ _ R4) as (M3 & -> & _). reflexivity.
    + intros s2 D2. pose proof (reads_on _ _ _ _ _ _ _ D2 R4) as R5. unfold with_fuel.
      apply (commas_go _ _ _ _ GL (names_fine _ _ (NAMES _ _ _ _ G) F) (Forall_inv_tail GO) _ s2 L); [| exact (ld_st _ _ _ _ _ D2) | exact R5 | exact C | exact NC].
      pose proof (solid_fuel s2 _ _ R5) as SF. cbn [length] in SF. pose proof (SF ltac:(constructor; [discriminate | exact (glist_solid _ _ _ _ GL)])). lia.
Qed.
End Lists.

Definition places_sound (l : list place) : Prop := Forall (fun p => Forall sound (pl_subs p)) l.
Lemma flat_sound l : Forall sound (flat_map pl_subs l) -> places_sound l.
Proof. induction l as [|p l IH]; cbn [flat_map]; intros H; constructor; apply Forall_app in H; [exact (proj1 H) | exact (IH (proj2 H))]. Qed.
Lemma cons_flat {A B} (f : A -> list B) l : match l with [] => [] | x :: r => f x ++ flat_map f r end = flat_map f l.
Proof. destruct l; reflexivity. Qed.

Lemma eos_comma t : eos t = true -> is_char "," t = false.
Proof.
  destruct t as [c| | | | | | | | | |k]; try discriminate; try reflexivity. cbn [eos is_char]. intros H. apply orb_prop in H. destruct H as [H|H]; apply ceq_eq in H; subst c; reflexivity.
Qed.

(* ---------- statements ---------- *)

Definition goes_as (m : P unit) (st : symtab) (ts : list token) (x : stmt) (st' : symtab) : Prop :=
  forall s L, p_st s = st -> reads (p_kw s) (view s) ts L -> eos (fst L) = true -> goes m s tt L (scode x) st'.

Lemma emit_end i s L c st s1 d : lands s L c st s1 -> d = [i] -> goes (emit_ i) s1 tt L d st.
Proof. intros D ->. apply emit_goes; [exact (ld_view _ _ _ _ _ D) | exact (ld_st _ _ _ _ _ D) | reflexivity]. Qed.
Lemma ret_end {A} (a : A) s L c st s1 : lands s L c st s1 -> goes (pret a) s1 a L [] st.
Proof. intros D. apply goes_ret; [symmetry; exact (ld_view _ _ _ _ _ D) | reflexivity | symmetry; exact (ld_st _ _ _ _ _ D)]. Qed.
Lemma st_on s L c st s1 st0 : lands s L c st s1 -> st = st0 -> p_st s1 = st0.
Proof. intros D <-. exact (ld_st _ _ _ _ _ D). Qed.

Lemma plain_goes k i x st : scode x = [i] -> goes_as (plain_statement k i) st [T_KW k] x st.
Proof. intros E s L T R C. unfold plain_statement. apply (goes_match_kw _ _ _ L _ _ _ _ R). intros s1 D1. apply (emit_end _ _ _ _ _ _ _ D1) in E. rewrite <- T. exact E. Qed.

Lemma read_stmt st ts l st' : glist gread st ts l st' -> fine st -> places_sound l -> goes_as read_statement st (T_KW K_READ :: ts) (SRead l) st'.
Proof.
  intros G F SO s L T R C. destruct (reads_cons _ _ _ _ _ R) as (M & _ & R1 & R2). unfold read_statement. apply (goes_match_kw _ _ _ M _ _ _ _ R1). intros s1 D1.
  cbn [scode]. rewrite <- (cons_flat read_code). unfold items.
  apply (list_goes place gread read_code read_code read_item read_item (fun p => Forall sound (pl_subs p))) with (st := st) (ts := ts); try assumption.
  - intros st0 us x st0' H. exact (gplace_names _ _ _ _ (proj1 H)).
  - intros st0 us x st0' H. exact (gplace_solid _ _ _ _ (proj1 H)).
  - exact read_goes.
  - exact read_goes.
  - exact (st_on _ _ _ _ _ _ D1 T).
  - exact (reads_on _ _ _ _ _ _ _ D1 R2).
  - exact (eos_stops _ C).
  - exact (eos_comma _ C).
Qed.
Lemma dim_stmt st ts l st' : glist gdim st ts l st' -> fine st -> places_sound l -> goes_as dim_statement st (T_KW K_DIM :: ts) (SDim l) st'.
Proof.
  intros G F SO s L T R C. destruct (reads_cons _ _ _ _ _ R) as (M & _ & R1 & R2). unfold dim_statement. apply (goes_match_kw _ _ _ M _ _ _ _ R1). intros s1 D1.
  cbn [scode]. rewrite <- (cons_flat dim_code). unfold items.
  apply (list_goes place gdim dim_code dim_code dim_array dim_array (fun p => Forall sound (pl_subs p))) with (st := st) (ts := ts); try assumption.
  - intros st0 us x st0' H. exact (gplace_names _ _ _ _ (proj1 H)).
  - intros st0 us x st0' H. exact (gplace_solid _ _ _ _ (proj1 H)).
  - exact dim_goes.
  - exact dim_goes.
  - exact (st_on _ _ _ _ _ _ D1 T).
  - exact (reads_on _ _ _ _ _ _ _ D1 R2).
  - exact (eos_stops _ C).
  - exact (eos_comma _ C).
Qed.

Lemma glist_head {A} (g : symtab -> list token -> A -> symtab -> Prop) st ts l st' : (forall st ts x st', g st ts x st' -> exists w us, ts = T_ID w :: us) ->
  glist g st ts l st' -> exists w us, ts = T_ID w :: us.
Proof. intros H G. destruct G as [st ts x st' G | st ts x st1 us l st2 G GL]; destruct (H _ _ _ _ G) as (w & vs & ->); eauto. exists w, (vs ++ COMMA :: us). reflexivity. Qed.

Lemma next_stmt st ts l st' : glist gvar st ts l st' -> fine st -> goes_as next_statement st (T_KW K_NEXT :: ts) (SNext l) st'.
Proof.
  intros G F s L T R C. destruct (reads_cons _ _ _ _ _ R) as (M & _ & R1 & R2). unfold next_statement. apply (goes_match_kw _ _ _ M _ _ _ _ R1). intros s1 D1. apply goes_tok.
  destruct (glist_head gvar st ts l st') as (w & us & E); [|exact G|].
  { intros st0 us x st0' H. destruct (gvar_guse _ _ _ _ H) as (name & y & H1). destruct (guse_head _ _ _ _ _ _ _ H1) as (vs & E). eauto. }
  pose proof (reads_on _ _ _ _ _ _ _ D1 R2) as R3. replace (p_tok s1) with (T_ID w) by (symmetry; rewrite E in R3; exact (reads_tok _ _ _ _ R3)). cbn [is_id].
  assert (E2 : scode (SNext l) = flat_map (fun id => [I_NEXT_VAR id]) l).
  { rewrite flat_map_single. destruct l; [|reflexivity]. exfalso. exact (glist_cons _ _ _ _ _ G eq_refl). }
  rewrite E2, <- (cons_flat (fun id => [I_NEXT_VAR id])). unfold items.
  assert (IT : forall st ts x st', gvar st ts x st' -> fine st -> True -> forall s L, p_st s = st -> reads (p_kw s) (view s) ts L -> stops (fst L) = true -> goes next_item s tt L [I_NEXT_VAR x] st').
  { intros st0 vs x st0' H F0 _ s0 L0 T0 R0 C0. destruct (var_goes _ _ _ _ s0 L0 H F0 T0 R0 (stops_paren _ C0)) as (y & <- & GO). unfold next_item.
    apply (goes_bind _ _ _ _ _ _ _ _ _ _ _ GO). intros s2 D2. exact (emit_end _ _ _ _ _ _ _ D2 eq_refl). }
  apply (list_goes symid gvar _ _ next_item next_item (fun _ => True)) with (st := st) (ts := ts); try assumption.
  - exact gvar_names.
  - intros st0 vs x st0' H. destruct (gvar_guse _ _ _ _ H) as (name & y & H1). exact (proj2 (proj2 (proj2 gram_solid) _ _ _ _ _ _ _ H1)).
  - apply Forall_forall. intros; exact Logic.I.
  - exact (st_on _ _ _ _ _ _ D1 T).
  - exact (eos_stops _ C).
  - exact (eos_comma _ C).
Qed.
Lemma eos_id t : eos t = true -> is_id t = false.
Proof. destruct t; try reflexivity. discriminate. Qed.
Lemma next_bare st : goes_as next_statement st [T_KW K_NEXT] (SNext []) st.
Proof.
  intros s L T R C. unfold next_statement. apply (goes_match_kw _ _ _ L _ _ _ _ R). intros s1 D1. apply goes_tok. rewrite (lands_tok _ _ _ _ _ D1), (eos_id _ C).
  rewrite <- T. exact (emit_end _ _ _ _ _ _ _ D1 eq_refl).
Qed.

Lemma goto_stmt st ts n st' : gline st ts n st' -> goes_as goto_statement st (T_KW K_GOTO :: ts) (SGoto n) st'.
Proof.
  intros G s L T R C. destruct (reads_cons _ _ _ _ _ R) as (M & _ & R1 & R2). unfold goto_statement. apply (goes_match_kw _ _ _ M _ _ _ _ R1). intros s1 D1.
  apply (goes_bind _ _ _ _ _ _ _ _ _ _ _ (number_goes _ _ _ _ s1 L G (st_on _ _ _ _ _ _ D1 T) (reads_on _ _ _ _ _ _ _ D1 R2))). intros s2 D2. exact (emit_end _ _ _ _ _ _ _ D2 eq_refl).
Qed.
Lemma gosub_stmt st ts n st' : gline st ts n st' -> goes_as gosub_statement st (T_KW K_GOSUB :: ts) (SGosub n) st'.
Proof.
  intros G s L T R C. destruct (reads_cons _ _ _ _ _ R) as (M & _ & R1 & R2). unfold gosub_statement. apply (goes_match_kw _ _ _ M _ _ _ _ R1). intros s1 D1.
  apply (goes_bind _ _ _ _ _ _ _ _ _ _ _ (number_goes _ _ _ _ s1 L G (st_on _ _ _ _ _ _ D1 T) (reads_on _ _ _ _ _ _ _ D1 R2))). intros s2 D2. exact (emit_end _ _ _ _ _ _ _ D2 eq_refl).
Qed.
Lemma restore_stmt st ts n st' : gline st ts n st' -> goes_as restore_statement st (T_KW K_RESTORE :: ts) (SRestore (Some n)) st'.
Proof.
  intros G s L T R C. destruct (reads_cons _ _ _ _ _ R) as (M & _ & R1 & R2). unfold restore_statement. apply (goes_match_kw _ _ _ M _ _ _ _ R1). intros s1 D1. apply goes_tok.
  pose proof (reads_on _ _ _ _ _ _ _ D1 R2) as R3. destruct (gline_num _ _ _ _ G) as (x & w & E). replace (p_tok s1) with (T_NUM x w) by (symmetry; rewrite E in R3; exact (reads_tok _ _ _ _ R3)).
  apply (goes_bind _ _ _ _ _ _ _ _ _ _ _ (number_goes _ _ _ _ s1 L G (st_on _ _ _ _ _ _ D1 T) R3)). intros s2 D2. exact (emit_end _ _ _ _ _ _ _ D2 eq_refl).
Qed.
Lemma restore_bare st : goes_as restore_statement st [T_KW K_RESTORE] (SRestore None) st.
Proof.
  intros s L T R C. unfold restore_statement. apply (goes_match_kw _ _ _ L _ _ _ _ R). intros s1 D1. apply goes_tok. rewrite (lands_tok _ _ _ _ _ D1).
  rewrite <- T. pose proof (emit_end I_RESTORE _ _ _ _ _ _ D1 eq_refl) as X. destruct (fst L); try exact X. discriminate C.
Qed.
Lemma seed_stmt st ts e st' : gexp TNum st ts e st' -> fine st -> sound e -> goes_as randomize_statement st (T_KW K_RANDOMIZE :: ts) (SRandomize (Some e)) st'.
Proof.
  intros G F SO s L T R C. destruct (reads_cons _ _ _ _ _ R) as (M & _ & R1 & R2). unfold randomize_statement. apply (goes_match_kw _ _ _ M _ _ _ _ R1). intros s1 D1. apply goes_tok.
  pose proof (reads_on _ _ _ _ _ _ _ D1 R2) as R3. replace (eos (p_tok s1)) with false.
  - apply (goes_bind _ _ _ _ _ _ _ _ _ _ _ (num_goes _ _ _ _ s1 L G F SO (st_on _ _ _ _ _ _ D1 T) R3 (eos_stops _ C))). intros s2 D2. exact (emit_end _ _ _ _ _ _ _ D2 eq_refl).
  - destruct (proj1 gram_starts _ _ _ _ _ (proj1 G)) as (t & r & E & X). rewrite E in R3. rewrite (reads_tok _ _ _ _ R3). symmetry. clear - X.
    destruct t; try discriminate X; try reflexivity; cbn [starts eos] in *; [|destruct k; discriminate X || reflexivity].
    apply orb_prop in X. destruct X as [X|X]; [|apply andb_prop in X; destruct X as [X _]]; apply ceq_eq in X; subst c; reflexivity.
Qed.
Lemma random_stmt st : goes_as randomize_statement st [T_KW K_RANDOMIZE] (SRandomize None) st.
Proof.
  intros s L T R C. unfold randomize_statement. apply (goes_match_kw _ _ _ L _ _ _ _ R). intros s1 D1. apply goes_tok. rewrite (lands_tok _ _ _ _ _ D1), C.
  rewrite <- T. exact (emit_end _ _ _ _ _ _ _ D1 eq_refl).
Qed.

(* the prompt of INPUT; the token after it begins a name *)
Lemma prompt_goes ps prompt s M w : gprompt ps prompt -> reads (p_kw s) (view s) ps M -> fst M = T_ID w ->
  goes input_buffer s tt M [I_INPUT_BUF prompt] (p_st s).
Proof.
  intros G R E. unfold input_buffer. apply goes_tok. destruct G as [|v|v|v].
  - pose proof (reads_nil _ _ _ R) as ->. replace (p_tok s) with (T_ID w) by (symmetry; exact E). apply goes_emit.
  - rewrite (reads_tok _ _ _ _ R). apply (goes_then _ _ _ M _ _ _ _ R). intros s1 D1. apply goes_tok. rewrite (lands_tok _ _ _ _ _ D1), E. cbn [is_char orb].
    apply (goes_bind _ _ _ tt _ M [] (p_st s) _ [I_INPUT_BUF (Some v)] _ (ret_end tt _ _ _ _ _ D1)). intros s2 D2. exact (emit_end _ _ _ _ _ _ _ D2 eq_refl).
  - rewrite (reads_tok _ _ _ _ R). destruct (reads_cons _ _ _ _ _ R) as (M1 & _ & R1 & R2). apply (goes_then _ _ _ M1 _ _ _ _ R1). intros s1 D1. apply goes_tok.
    pose proof (reads_on _ _ _ _ _ _ _ D1 R2) as R3. rewrite (reads_tok _ _ _ _ R3). change (is_char ";" (T_CHAR ";")) with true. cbn [orb].
    rewrite <- (st_on _ _ _ _ _ _ D1 eq_refl).
    apply (goes_bind _ _ _ tt _ M [] (p_st s1) _ [I_INPUT_BUF (Some v)] _ (goes_next _ _ _ R3)). intros s2 D2. exact (emit_end _ _ _ _ _ _ _ D2 eq_refl).
  - rewrite (reads_tok _ _ _ _ R). destruct (reads_cons _ _ _ _ _ R) as (M1 & _ & R1 & R2). apply (goes_then _ _ _ M1 _ _ _ _ R1). intros s1 D1. apply goes_tok.
    pose proof (reads_on _ _ _ _ _ _ _ D1 R2) as R3. rewrite (reads_tok _ _ _ _ R3). change (is_char ";" COMMA || is_char "," COMMA) with true. cbv iota.
    rewrite <- (st_on _ _ _ _ _ _ D1 eq_refl).
    apply (goes_bind _ _ _ tt _ M [] (p_st s1) _ [I_INPUT_BUF (Some v)] _ (goes_next _ _ _ R3)). intros s2 D2. exact (emit_end _ _ _ _ _ _ _ D2 eq_refl).
Qed.

Lemma input_stmt st ps prompt ts l st' : gprompt ps prompt -> glist gplace st ts l st' -> fine st -> places_sound l ->
  goes_as input_statement st (T_KW K_INPUT :: ps ++ ts) (SInput prompt l) st'.
Proof.
  intros GP G F SO s L T R C. destruct (reads_cons _ _ _ _ _ R) as (M & _ & R1 & R2). unfold input_statement. apply (goes_match_kw _ _ _ M _ _ _ _ R1). intros s1 D1.
  destruct (reads_split _ _ _ _ _ R2) as (M1 & R3 & R4). destruct (glist_head _ _ _ _ _ gplace_head G) as (w & us & E).
  pose proof (st_on _ _ _ _ _ _ D1 T) as T1. cbn [scode]. change (I_INPUT_BUF prompt :: ?c) with ([I_INPUT_BUF prompt] ++ c).
  apply (goes_bind _ _ _ tt _ M1 [I_INPUT_BUF prompt] st).
  - rewrite <- T1. apply (prompt_goes ps prompt s1 M1 w GP (reads_on _ _ _ _ _ _ _ D1 R3)). rewrite E in R4. destruct (reads_cons _ _ _ _ _ R4) as (M2 & E2 & _). exact E2.
  - intros s2 D2. rewrite <- (ld_kw _ _ _ _ _ D1) in R4. pose proof (reads_on _ _ _ _ _ _ _ D2 R4) as R5.
    assert (LG : goes (input_item ;;; with_fuel (fun f => comma_list f (emit_ I_INPUT_SEP ;;; input_item))) s2 tt L
      (match l with [] => [] | p :: r => input_code p ++ flat_map (fun q => I_INPUT_SEP :: input_code q) r end) st').
    { apply (list_goes place gplace input_code _ input_item _ (fun p => Forall sound (pl_subs p))) with (st := st) (ts := ts); try assumption.
      - exact gplace_names.
      - exact gplace_solid.
      - exact input_goes.
      - intros st0 vs x st0' H F0 S0 s0 L0 T0 R0 C0. apply goes_put. intros s3 D3. apply (input_goes _ _ _ _ H F0 S0); [exact (st_on _ _ _ _ _ _ D3 T0) | exact (reads_on _ _ _ _ _ _ _ D3 R0) | exact C0].
      - exact (ld_st _ _ _ _ _ D2).
      - exact (eos_stops _ C).
      - exact (eos_comma _ C). }
    pose proof (goes_bind _ (fun _ => emit_ I_INPUT_END) s2 tt tt L _ st' L [I_INPUT_END] st' LG (fun s3 D3 => emit_end _ _ _ _ _ _ _ D3 eq_refl)) as X.
    destruct X as (s4 & X1 & X2). exists s4. split; [|exact X2]. revert X1. unfold pbind. destruct (input_item s2); intros X1; exact X1.
Qed.

Lemma line_input_stmt st ps prompt ts p st' : gprompt ps prompt -> gplace st ts p st' -> pl_type p = TStr -> fine st -> Forall sound (pl_subs p) ->
  goes_as line_input_statement st (T_KW K_LINE :: T_KW K_INPUT :: ps ++ ts) (SLineInput prompt p) st'.
Proof.
  intros GP G TY F SO s L T R C. destruct (reads_cons _ _ _ _ _ R) as (M & _ & R1 & R2). unfold line_input_statement. apply (goes_match_kw _ _ _ M _ _ _ _ R1). intros s1 D1.
  pose proof (reads_on _ _ _ _ _ _ _ D1 R2) as R3. destruct (reads_cons _ _ _ _ _ R3) as (M1 & _ & R4 & R5). apply (goes_match_kw _ _ _ M1 _ _ _ _ R4). intros s2 D2.
  pose proof (reads_on _ _ _ _ _ _ _ D2 R5) as R6. destruct (reads_split _ _ _ _ _ R6) as (M2 & R7 & R8). destruct (gplace_head _ _ _ _ G) as (w & us & E).
  pose proof (st_on _ _ _ _ _ _ D2 (st_on _ _ _ _ _ _ D1 T)) as T2. cbn [scode]. change (I_INPUT_BUF prompt :: ?c) with ([I_INPUT_BUF prompt] ++ c).
  apply (goes_bind _ _ _ tt _ M2 [I_INPUT_BUF prompt] st).
  - rewrite <- T2. apply (prompt_goes ps prompt s2 M2 w GP R7). rewrite E in R8. destruct (reads_cons _ _ _ _ _ R8) as (M3 & E2 & _). exact E2.
  - intros s3 D3. apply (place_item (fun sym dim => if vtype_eqb (s_type sym) TStr then _ else _) _ _ _ _ _ G F SO).
    + intros y Y1 Y2 Y3. rewrite Y1, Y3, TY. eexists. split; reflexivity.
    + exact (ld_st _ _ _ _ _ D3).
    + exact (reads_on _ _ _ _ _ _ _ D3 R8).
    + exact (eos_stops _ C).
Qed.

Lemma vtype_eqb_refl t : vtype_eqb t t = true.
Proof. destruct t; reflexivity. Qed.

Lemma assign_stmt st ts p st1 us e st2 : gplace st ts p st1 -> gexp (pl_type p) st1 us e st2 -> fine st -> Forall sound (pl_subs p) -> sound e ->
  goes_as assignment st (ts ++ T_CHAR "=" :: us) (SLet p e) st2.
Proof.
  intros G GE F SO SE s L T R C. destruct (place_goes _ _ _ _ G F SO) as (q & y & E & Y1 & Y2 & Y3 & GO).
  destruct (reads_split _ _ _ _ _ R) as (M & R1 & R2). destruct (reads_cons _ _ _ _ _ R2) as (M1 & EM & R3 & R4). unfold assignment. cbn [scode].
  apply (goes_bind _ _ _ (q, length (pl_subs p)) _ M (subs_code p) st1); [apply (GO s M T R1); rewrite EM; reflexivity|]. intros s1 D1. cbv beta iota.
  apply (goes_match_char _ _ _ M1); [exact (reads_on _ _ _ _ _ _ _ D1 R3)|]. intros s2 D2. pose proof (st_on _ _ _ _ _ _ D2 (ld_st _ _ _ _ _ D1)) as T2.
  apply (goes_bind _ _ _ (pl_type p) _ L (ecode e) st2).
  - apply (gexp_goes _ _ _ _ _ GE (names_fine _ _ (gplace_names _ _ _ _ G) F) SE); [exact T2 | | exact (eos_stops _ C)].
    rewrite <- (ld_kw _ _ _ _ _ D1) in R4. exact (reads_on _ _ _ _ _ _ _ D2 R4).
  - intros s3 D3. destruct (names_keep _ _ _ _ (gexp_names _ _ _ _ _ GE) E) as (y' & E' & I1 & I2).
    apply (goes_psym _ _ y'); [exact (nth_on _ _ _ _ _ _ _ D3 E')|]. 
    replace (s_type y') with (pl_type p) by congruence. rewrite vtype_eqb_refl. cbn [negb]. apply (emit_end _ _ _ _ _ _ _ D3).
    unfold set_instr, nsubs, params8. replace (s_id y') with (pl_id p) by congruence. f_equal. destruct (pl_subs p), (pl_type p); reflexivity.
Qed.

Lemma for_stmt st vs id st1 ts a st2 us b st3 : gvar st vs id st1 -> gexp TNum st1 ts a st2 -> gexp TNum st2 us b st3 -> fine st -> sound a -> sound b ->
  goes_as for_statement st (T_KW K_FOR :: vs ++ T_CHAR "=" :: ts ++ T_KW K_TO :: us) (SFor id a b None) st3 /\
  forall ws c st4, gexp TNum st3 ws c st4 -> sound c ->
    goes_as for_statement st (T_KW K_FOR :: vs ++ T_CHAR "=" :: ts ++ T_KW K_TO :: us ++ T_KW K_STEP :: ws) (SFor id a b (Some c)) st4.
Proof.
  intros GV GA GB F SA SB. pose proof (names_fine _ _ (gvar_names _ _ _ _ GV) F) as F1. pose proof (gexp_fine _ _ _ _ _ GA F1) as F2. pose proof (gexp_fine _ _ _ _ _ GB F2) as F3.
  (* up to the second expression *)
  assert (H : forall s L vs', p_st s = st -> reads (p_kw s) (view s) (T_KW K_FOR :: vs ++ T_CHAR "=" :: ts ++ T_KW K_TO :: us ++ vs') L ->
    exists M, reads (p_kw s) M vs' L /\ (stops (fst M) = true -> forall c st4,
      (forall s1, p_kw s1 = p_kw s -> view s1 = M -> p_st s1 = st3 ->
         goes (let* t := tok in if is_kw K_STEP t then next_token ;;; numeric_expression else emit_ (I_PUSH_NUM fone)) s1 tt L c st4) ->
      goes for_statement s tt L (ecode a ++ ecode b ++ c ++ [I_FOR id]) st4)).
  { intros s L vs' T R. destruct (reads_cons _ _ _ _ _ R) as (M & _ & R1 & R2). destruct (reads_split _ _ _ _ _ R2) as (M1 & R3 & R4).
    destruct (reads_cons _ _ _ _ _ R4) as (M2 & E2 & R5 & R6). destruct (reads_split _ _ _ _ _ R6) as (M3 & R7 & R8). destruct (reads_cons _ _ _ _ _ R8) as (M4 & E4 & R9 & R10).
    destruct (reads_split _ _ _ _ _ R10) as (M5 & R11 & R12). exists M5. split; [exact R12|]. intros SM c st4 K. unfold for_statement.
    apply (goes_match_kw _ _ _ M _ _ _ _ R1). intros s1 D1.
    destruct (var_goes _ _ _ _ s1 M1 GV F (st_on _ _ _ _ _ _ D1 T) (reads_on _ _ _ _ _ _ _ D1 R3) ltac:(rewrite E2; reflexivity)) as (y & Y & GO).
    apply (goes_bind _ _ _ _ _ _ _ _ _ _ _ GO). intros s2 D2. rewrite <- (ld_kw _ _ _ _ _ D1) in R5, R7, R9, R11.
    apply (goes_match_char _ _ _ M2); [exact (reads_on _ _ _ _ _ _ _ D2 R5)|]. intros s3 D3. rewrite <- (ld_kw _ _ _ _ _ D2) in R7, R9, R11.
    apply (goes_bind _ _ _ tt _ M3 (ecode a) st2).
    { apply (num_goes _ _ _ _ s3 M3 GA F1 SA (st_on _ _ _ _ _ _ D3 (ld_st _ _ _ _ _ D2)) (reads_on _ _ _ _ _ _ _ D3 R7)). rewrite E4. reflexivity. }
    intros s4 D4. rewrite <- (ld_kw _ _ _ _ _ D3) in R9, R11. apply (goes_match_kw _ _ _ M4); [exact (reads_on _ _ _ _ _ _ _ D4 R9)|]. intros s5 D5.
    rewrite <- (ld_kw _ _ _ _ _ D4) in R11. apply (goes_bind _ _ _ tt _ M5 (ecode b) st3).
    { exact (num_goes _ _ _ _ s5 M5 GB F2 SB (st_on _ _ _ _ _ _ D5 (ld_st _ _ _ _ _ D4)) (reads_on _ _ _ _ _ _ _ D5 R11) SM). }
    intros s6 D6. rewrite <- Y. 
    apply (goes_bind (if is_kw K_STEP (p_tok s6) then next_token ;;; numeric_expression else emit_ (I_PUSH_NUM fone)) (fun _ => emit_ (I_FOR (s_id y))) s6 tt tt L c st4 L [I_FOR (s_id y)] st4).
    - apply (K s6); [|exact (ld_view _ _ _ _ _ D6) | exact (ld_st _ _ _ _ _ D6)].
      rewrite (ld_kw _ _ _ _ _ D6), (ld_kw _ _ _ _ _ D5), (ld_kw _ _ _ _ _ D4), (ld_kw _ _ _ _ _ D3), (ld_kw _ _ _ _ _ D2). exact (ld_kw _ _ _ _ _ D1).
    - intros s7 D7. exact (emit_end _ _ _ _ _ _ _ D7 eq_refl). }
  split.
  - intros s L T R C. destruct (H s L [] T) as (M & RM & K); [rewrite app_nil_r; exact R|]. pose proof (reads_nil _ _ _ RM) as <-. cbn [scode]. apply (K (eos_stops _ C)).
    intros s1 K1 V1 T1. apply goes_tok. replace (p_tok s1) with (fst L) by (rewrite <- V1; reflexivity). replace (is_kw K_STEP (fst L)) with false by (destruct (fst L); try reflexivity; destruct k; discriminate C || reflexivity).
    apply emit_goes; auto.
  - intros ws c st4 GC SC s L T R C. destruct (H s L (T_KW K_STEP :: ws) T R) as (M & RM & K). destruct (reads_cons _ _ _ _ _ RM) as (M1 & EM & R1 & R2). cbn [scode]. apply K; [rewrite EM; reflexivity|].
    intros s1 K1 V1 T1. apply goes_tok. replace (p_tok s1) with (T_KW K_STEP) by (rewrite <- EM, <- V1; reflexivity). cbn [is_kw kw_eqb].
    rewrite <- K1, <- V1 in R1. apply (goes_then _ _ _ M1 _ _ _ _ R1). intros s2 D2. rewrite <- K1 in R2.
    exact (num_goes _ _ _ _ s2 L GC F3 SC (st_on _ _ _ _ _ _ D2 T1) (reads_on _ _ _ _ _ _ _ D2 R2) (eos_stops _ C)).
Qed.

Lemma def_symbol_goes name st y st' s : occurs KDef name true st y st' -> p_st s = st -> goes (def_symbol name) s (s_id y) (view s) [] st'.
Proof.
  intros O T. unfold goes, def_symbol. rewrite T. destruct O as [p y E | p y _ E N K Q | p y _ E N K | st' p y E I N].
  - discriminate E.
  - rewrite E, N. exists s. split; [|subst st; apply lands_refl]. destruct Q as [Q|Q]; [discriminate Q|]. rewrite Q. reflexivity.
  - rewrite E, N, K. eexists. split; [reflexivity|]. split; reflexivity.
  - rewrite E. pose proof (insert_nth st name KDef (name_type name)) as X. rewrite <- name_type_eq in I. cbn iota in I. rewrite I in *. cbn [fst snd] in X.
    exists (set_pst st' s). split; [|split; reflexivity]. rewrite N in X. injection X as ->. reflexivity.
Qed.

Lemma def_stmt name st y st1 ps param st2 ts e st3 : occurs KDef name true st y st1 -> gvar st1 ps param st2 -> gexp (type_of_name name) st2 ts e st3 -> fine st -> sound e ->
  goes_as def_statement st (T_KW K_DEF :: T_ID name :: LPAREN :: ps ++ RPAREN :: T_CHAR "=" :: ts) (SDef (s_id y) param e) st3.
Proof.
  intros O GV GE F SE s L T R C. pose proof (names_fine _ _ (occurs_names _ _ _ _ _ _ (or_intror (or_intror eq_refl)) O) F) as F1. pose proof (names_fine _ _ (gvar_names _ _ _ _ GV) F1) as F2.
  destruct (reads_cons _ _ _ _ _ R) as (M & _ & R1 & R2). destruct (reads_cons _ _ _ _ _ R2) as (M1 & _ & R3 & R4). destruct (reads_cons _ _ _ _ _ R4) as (M2 & _ & R5 & R6).
  destruct (reads_split _ _ _ _ _ R6) as (M3 & R7 & R8). destruct (reads_cons _ _ _ _ _ R8) as (M4 & E4 & R9 & R10). destruct (reads_cons _ _ _ _ _ R10) as (M5 & _ & R11 & R12).
  unfold def_statement. apply (goes_match_kw _ _ _ M _ _ _ _ R1). intros s1 D1. apply goes_tok. pose proof (reads_on _ _ _ _ _ _ _ D1 R3) as R3'. rewrite (reads_tok _ _ _ _ R3').
  rewrite <- (ld_kw _ _ _ _ _ D1) in R5, R7, R9, R11, R12.
  apply (goes_bind _ _ _ _ _ _ _ _ _ _ _ (def_symbol_goes name st y st1 s1 O (st_on _ _ _ _ _ _ D1 T))). intros s2 D2. rewrite <- (ld_kw _ _ _ _ _ D2) in R5, R7, R9, R11, R12.
  pose proof (reads_on _ _ _ _ _ _ _ D2 R3') as R3''. rewrite <- (ld_st _ _ _ _ _ D2) in GV. cbn [scode].
  apply (goes_bind _ _ _ tt _ M1 [] (p_st s2)).
  { unfold match_id. apply goes_tok. rewrite (reads_tok _ _ _ _ R3''). cbn [is_id]. exact (goes_next _ _ _ R3''). }
  intros s3 D3. rewrite <- (ld_kw _ _ _ _ _ D3) in R5, R7, R9, R11, R12. apply goes_put. intros s4 D4. rewrite (ld_view _ _ _ _ _ D3) in D4. rewrite <- (ld_kw _ _ _ _ _ D4) in R5, R7, R9, R11, R12.
  apply (goes_match_char _ _ _ M2); [rewrite (ld_view _ _ _ _ _ D4); exact R5|]. intros s5 D5. rewrite <- (ld_kw _ _ _ _ _ D5) in R7, R9, R11, R12.
  destruct (var_goes _ _ _ _ s5 M3 GV) as (z & Z & GO); [rewrite (ld_st _ _ _ _ _ D2); exact F1 | rewrite (ld_st _ _ _ _ _ D5), (ld_st _ _ _ _ _ D4); exact (ld_st _ _ _ _ _ D3) | rewrite (ld_view _ _ _ _ _ D5); exact R7 | rewrite E4; reflexivity|].
  apply (goes_bind _ _ _ _ _ _ _ _ _ _ _ GO). intros s6 D6. rewrite <- (ld_kw _ _ _ _ _ D6) in R9, R11, R12. rewrite Z. apply goes_put. intros s7 D7. rewrite (ld_view _ _ _ _ _ D6) in D7. rewrite <- (ld_kw _ _ _ _ _ D7) in R9, R11, R12.
  apply (goes_match_char _ _ _ M4); [rewrite (ld_view _ _ _ _ _ D7); exact R9|]. intros s8 D8. rewrite <- (ld_kw _ _ _ _ _ D8) in R11, R12.
  apply (goes_match_char _ _ _ M5); [rewrite (ld_view _ _ _ _ _ D8); exact R11|]. intros s9 D9. rewrite <- (ld_kw _ _ _ _ _ D9), <- (ld_view _ _ _ _ _ D9) in R12.
  assert (T9 : p_st s9 = st2) by (rewrite (ld_st _ _ _ _ _ D9), (ld_st _ _ _ _ _ D8), (ld_st _ _ _ _ _ D7); exact (ld_st _ _ _ _ _ D6)).
  apply (goes_bind _ _ _ tt _ L (ecode e) st3).
  - rewrite string_name_type in GE. destruct (string_name name); [apply (str_goes st2 ts) | apply (num_goes st2 ts)]; auto using eos_stops.
  - intros s10 D10. exact (emit_end _ _ _ _ _ _ _ D10 eq_refl).
Qed.

(* ON *)
Lemma glist_line_st st ts l st' : glist gline st ts l st' -> st' = st.
Proof. induction 1 as [st ts x st' (t & _ & _ & E) | st ts x st1 us l st2 (t & _ & _ & E) GL IH]; congruence. Qed.
Lemma gline_solid st ts n st' : gline st ts n st' -> Forall (fun t => t <> T_NL) ts.
Proof. intros H. destruct (gline_num _ _ _ _ H) as (x & w & ->). constructor; [discriminate | constructor]. Qed.
Lemma on_line_goes st ts n st' s L : gline st ts n st' -> p_st s = st -> reads (p_kw s) (view s) ts L -> goes on_line s tt L [I_ON_LINE n] st'.
Proof.
  intros G T R. unfold on_line. apply (goes_bind _ _ _ _ _ _ _ _ _ _ _ (number_goes _ _ _ _ s L G T R)). intros s1 D1. exact (emit_end _ _ _ _ _ _ _ D1 eq_refl).
Qed.
Lemma on_loop_goes st ts l st' : glist gline st ts l st' -> forall f k s L, S (length ts) < f -> p_st s = st -> reads (p_kw s) (view s) (COMMA :: ts) L -> is_char "," (fst L) = false ->
  goes (on_loop f k) s (k + length l) L (map I_ON_LINE l) st'.
Proof.
  induction 1 as [st ts x st' G | st ts x st1 us l st2 G GL IH]; intros f k s L LT T R NC; (destruct f as [|f]; [lia|]); cbn [on_loop];
    destruct (reads_cons _ _ _ _ _ R) as (M & _ & R1 & R2); apply goes_tok; rewrite (reads_tok _ _ _ _ R); change (is_char "," COMMA) with true; cbv iota;
    apply (goes_then _ _ _ M _ _ _ _ R1); intros s1 D1; cbn [map length]; change (I_ON_LINE x :: ?c) with ([I_ON_LINE x] ++ c).
  - apply (goes_bind _ _ _ tt _ L [I_ON_LINE x] st' _ [] _ (on_line_goes _ _ _ _ s1 L G (st_on _ _ _ _ _ _ D1 T) (reads_on _ _ _ _ _ _ _ D1 R2))).
    intros s2 D2. destruct f as [|f]; [lia|]. cbn [on_loop]. apply goes_tok. rewrite (lands_tok _ _ _ _ _ D2), NC. replace (k + 1) with (S k) by lia. exact (ret_end _ _ _ _ _ _ D2).
  - destruct (reads_split _ _ _ _ _ R2) as (M2 & R3 & R4). rewrite app_length in LT. cbn [length] in LT.
    apply (goes_bind _ _ _ tt _ M2 [I_ON_LINE x] st1 _ _ _ (on_line_goes _ _ _ _ s1 M2 G (st_on _ _ _ _ _ _ D1 T) (reads_on _ _ _ _ _ _ _ D1 R3))).
    intros s2 D2. replace (k + S (length l)) with (S k + length l) by lia. apply IH; [lia | exact (ld_st _ _ _ _ _ D2) | | exact NC].
    rewrite <- (ld_kw _ _ _ _ _ D1) in R4. exact (reads_on _ _ _ _ _ _ _ D2 R4).
Qed.
Lemma on_lines_goes st ts l st' s L : glist gline st ts l st' -> p_st s = st -> reads (p_kw s) (view s) ts L -> is_char "," (fst L) = false ->
  goes (on_line ;;; with_fuel (fun f => on_loop f 1)) s (length l) L (map I_ON_LINE l) st'.
Proof.
  intros H T R NC. destruct H as [st ts x st' G | st ts x st1 us l st2 G GL]; cbn [map length]; change (I_ON_LINE x :: ?c) with ([I_ON_LINE x] ++ c).
  - apply (goes_bind _ _ _ tt _ L [I_ON_LINE x] st' _ [] _ (on_line_goes _ _ _ _ s L G T R)). intros s2 D2.
    change (goes (let* t := tok in if is_char "," t then next_token ;;; on_line ;;; on_loop (S (length (p_rest s2))) 2 else pret 1) s2 1 L [] st').
    apply goes_tok. rewrite (lands_tok _ _ _ _ _ D2), NC. exact (ret_end _ _ _ _ _ _ D2).
  - destruct (reads_split _ _ _ _ _ R) as (M2 & R3 & R4). apply (goes_bind _ _ _ tt _ M2 [I_ON_LINE x] st1 _ _ _ (on_line_goes _ _ _ _ s M2 G T R3)).
    intros s2 D2. pose proof (reads_on _ _ _ _ _ _ _ D2 R4) as R5. unfold with_fuel. change (S (length l)) with (1 + length l).
    apply (on_loop_goes _ _ _ _ GL); [|exact (ld_st _ _ _ _ _ D2) | exact R5 | exact NC].
    pose proof (solid_fuel s2 _ _ R5) as SF. cbn [length] in SF.
    pose proof (SF ltac:(constructor; [discriminate | exact (glist_solid _ gline gline_solid _ _ _ _ GL)])). lia.
Qed.

Lemma on_stmt (gosub : bool) st ts e st1 us l st2 : gexp TNum st ts e st1 -> glist gline st1 us l st2 -> fine st -> sound e ->
  goes_as on_statement st (T_KW K_ON :: ts ++ T_KW (if gosub then K_GOSUB else K_GOTO) :: us) (SOn e gosub l) st2.
Proof.
  intros GE GL F SE s L T R C. destruct (reads_cons _ _ _ _ _ R) as (M & _ & R1 & R2). destruct (reads_split _ _ _ _ _ R2) as (M1 & R3 & R4). destruct (reads_cons _ _ _ _ _ R4) as (M2 & E2 & R5 & R6).
  unfold on_statement. apply (goes_match_kw _ _ _ M _ _ _ _ R1). intros s1 D1. cbn [scode].
  apply (goes_bind _ _ _ tt _ M1 (ecode e) st1).
  { apply (num_goes _ _ _ _ s1 M1 GE F SE (st_on _ _ _ _ _ _ D1 T) (reads_on _ _ _ _ _ _ _ D1 R3)). rewrite E2. destruct gosub; reflexivity. }
  intros s2 D2. apply goes_tok. rewrite <- (ld_kw _ _ _ _ _ D1) in R5, R6. pose proof (reads_on _ _ _ _ _ _ _ D2 R5) as R5'. rewrite (reads_tok _ _ _ _ R5').
  set (i0 := if gosub then I_ON_GOSUB 0 else I_ON_GOTO 0).
  replace (is_kw K_GOTO (T_KW (if gosub then K_GOSUB else K_GOTO)) || is_kw K_GOSUB (T_KW (if gosub then K_GOSUB else K_GOTO))) with true by (destruct gosub; reflexivity). cbv iota.
  replace (if is_kw K_GOTO (T_KW (if gosub then K_GOSUB else K_GOTO)) then I_ON_GOTO 0 else I_ON_GOSUB 0) with i0 by (destruct gosub; reflexivity).
  set (s3 := set_pcode (emit_instr (p_code s2) i0) s2).
  assert (X : goes (next_token ;;; on_line ;;; with_fuel (fun f => on_loop f 1)) s3 (length l) L (map I_ON_LINE l) st2).
  { apply (goes_then _ _ (T_KW (if gosub then K_GOSUB else K_GOTO)) M2); [exact R5'|]. intros s4 D4. apply (on_lines_goes st1 us); [exact GL | | |exact (eos_comma _ C)].
    - apply (st_on _ _ _ _ _ _ D4). exact (ld_st _ _ _ _ _ D2).
    - apply (reads_on _ _ _ _ _ _ _ D4). change (p_kw s3) with (p_kw s2). rewrite (ld_kw _ _ _ _ _ D2). exact R6. }
  destruct X as (s4 & X & D4). pose proof (ld_code _ _ _ _ _ D4) as C4. change (p_code s3) with (emits (p_code s2) [i0]) in C4. rewrite emits_app in C4. cbn [app] in C4.
  set (i1 := if gosub then I_ON_GOSUB (length l) else I_ON_GOTO (length l)).
  destruct (patch_code (p_code s2) [] i0 (map I_ON_LINE l) i1 (set_count (length l)) ltac:(destruct gosub; reflexivity) ltac:(destruct gosub; reflexivity)) as [P1 P2]. cbn [app length] in P1, P2. rewrite Nat.add_0_r in P1, P2.
  exists (set_pcode (emits (p_code s2) (i1 :: map I_ON_LINE l)) s4). split.
  - unfold pbind at 1. unfold emit. fold s3. revert X. unfold pbind. destruct (next_token s3) as [u s5| | | |]; try discriminate. destruct (on_line s5) as [u' s6| | | |]; try discriminate. intros X.
    rewrite X. unfold patch. rewrite C4, P1, P2. reflexivity.
  - split; [exact (ld_view _ _ _ _ _ D4) | exact (ld_kw _ _ _ _ _ D4) | reflexivity | exact (ld_if _ _ _ _ _ D4) | exact (ld_st _ _ _ _ _ D4)].
Qed.

(* PRINT *)
Definition item_sound (i : pitem) : Prop := match i with PExpr e | PSpc e | PTab e => sound e | PComma | PSemi => True end.

Lemma gitems_head st ts l st' : gitems st ts l st' -> match ts with [] => True | t :: _ => t = T_CHAR ";" \/ t = COMMA \/ starts LOr t = true end.
Proof.
  destruct 1 as [st | st ts l st' G | st ts l st' G | st ts e st1 us l st2 G N NS GL AP | w st ts e st1 us l st2 W G GL | w st ts e st1 us l st2 W G GL]; auto.
  destruct (proj1 gram_starts _ _ _ _ _ G) as (t & r & -> & X). right; right. exact X.
Qed.
Lemma gitems_solid st ts l st' : gitems st ts l st' -> Forall (fun t => t <> T_NL) ts.
Proof.
  induction 1 as [st | st ts l st' G IH | st ts l st' G IH | st ts e st1 us l st2 G N NS GL IH AP | w st ts e st1 us l st2 W G GL IH | w st ts e st1 us l st2 W G GL IH];
    repeat (constructor; try discriminate); auto; apply Forall_app; (split; [|try (constructor; [discriminate|]); exact IH]).
  - exact (proj2 (proj1 gram_solid _ _ _ _ _ G)).
  - exact (proj2 (proj1 gram_solid _ _ _ _ _ (proj1 G))).
  - exact (proj2 (proj1 gram_solid _ _ _ _ _ (proj1 G))).
Qed.
Lemma head_stops t : t = T_CHAR ";" \/ t = COMMA \/ starts LOr t = true -> t <> LPAREN -> t <> T_CHAR "-" -> stops t = true.
Proof.
  intros [-> | [-> | X]] N1 N2; try reflexivity. destruct t; try discriminate X; try reflexivity; [|destruct k; discriminate X || reflexivity].
  cbn [starts] in X. apply orb_prop in X. destruct X as [X|X]; [|apply andb_prop in X; destruct X as [X _]]; apply ceq_eq in X; subst c; contradiction.
Qed.
Lemma starts_eos t : starts LOr t = true -> eos t = false.
Proof.
  intros X. destruct t; try discriminate X; try reflexivity; cbn [starts eos] in *; [|destruct k; discriminate X || reflexivity].
  apply orb_prop in X. destruct X as [X|X]; [|apply andb_prop in X; destruct X as [X _]]; apply ceq_eq in X; subst c; reflexivity.
Qed.

Lemma apart_goes st ts e st1 us l st2 s M L : gram LOr st ts e st1 -> fine st -> sound e -> gitems st1 us l st2 -> apart st ts e st1 us ->
  p_st s = st -> reads (p_kw s) (view s) ts M -> reads (p_kw s) M us L -> eos (fst L) = true -> goes expression s (etype e) M (ecode e) st1.
Proof.
  intros G F SE GL AP T R1 R2 C. pose proof (proj1 gram_proper _ _ _ _ _ G F SE) as PR. pose proof (proj1 gram_solid _ _ _ _ _ G) as SO.
  assert (D : direct LOr TNum st ts e st1) by (apply (full_direct LOr); exact (proj1 gram_full _ _ _ _ _ G PR)).
  destruct us as [|t us].
  - pose proof (reads_nil _ _ _ R2) as ->. exact (expr_goes TNum _ _ _ _ s M D SO T R1 (stops_cont _ _ _ (eos_stops _ C))).
  - destruct (reads_cons _ _ _ _ _ R2) as (M1 & E & _). destruct AP as [A1 A2]. pose proof (gitems_head _ _ _ _ GL) as H. cbn iota in H.
    destruct (is_char "(" t) eqn:EP; [|destruct (is_char "-" t) eqn:EM].
    + apply (expr_goes TNum _ _ _ _ s M D SO T R1). apply is_char_iff in EP.
      rewrite E. unfold cont. rewrite (A1 EP), EP. reflexivity.
    + apply is_char_iff in EM.
      destruct (A2 EM) as (ty & SU & NT). apply (expr_goes ty _ _ _ _ s M (sum_direct _ _ _ _ _ SU PR) SO T R1). rewrite E, EM. destruct ty; [reflexivity | contradiction | reflexivity].
    + apply (expr_goes TNum _ _ _ _ s M D SO T R1). apply stops_cont. rewrite E. apply (head_stops _ H); intros ->; discriminate.
Qed.

Lemma tab_not_spc w : named w "TAB" -> strieq w (lit "SPC") = false.
Proof.
  intros H. destruct (strieq w (lit "SPC")) eqn:E; [|reflexivity]. apply strieq_same in E. apply strieq_same in H. exfalso.
  pose proof (proj2 (strieq_same _ _) (same_name_trans _ _ _ (same_name_sym _ _ E) H)) as X. vm_compute in X. discriminate X.
Qed.

(* SPC or TAB with its number *)
Lemma builtin_goes i w st ts e st1 s M : gexp TNum st ts e st1 -> fine st -> sound e -> p_st s = st -> reads (p_kw s) (view s) (T_ID w :: LPAREN :: ts ++ [RPAREN]) M ->
  goes (print_builtin i) s tt M (ecode e ++ [i]) st1.
Proof.
  intros G F SE T R. destruct (reads_cons _ _ _ _ _ R) as (M1 & _ & R1 & R2). destruct (reads_cons _ _ _ _ _ R2) as (M2 & _ & R3 & R4). destruct (reads_split _ _ _ _ _ R4) as (M3 & R5 & R6).
  unfold print_builtin. apply (goes_then _ _ _ M1 _ _ _ _ R1). intros s1 D1. apply (goes_match_char _ _ _ M2); [exact (reads_on _ _ _ _ _ _ _ D1 R3)|]. intros s2 D2.
  rewrite <- (ld_kw _ _ _ _ _ D1), <- (ld_kw _ _ _ _ _ D2) in R5, R6.
  apply (goes_bind _ _ _ tt _ M3 (ecode e) st1).
  { apply (num_goes _ _ _ _ s2 M3 G F SE (st_on _ _ _ _ _ _ D2 (st_on _ _ _ _ _ _ D1 T))); [rewrite (ld_view _ _ _ _ _ D2); exact R5|]. destruct (reads_cons _ _ _ _ _ R6) as (M4 & -> & _). reflexivity. }
  intros s3 D3. apply (goes_match_char _ _ _ M); [exact (reads_on _ _ _ _ _ _ _ D3 R6)|]. intros s4 D4. rewrite <- (ld_st _ _ _ _ _ D3). exact (emit_end _ _ _ _ _ _ _ D4 eq_refl).
Qed.

Lemma split_builtin (w : bytes) ts us : T_ID w :: LPAREN :: ts ++ RPAREN :: us = (T_ID w :: LPAREN :: ts ++ [RPAREN]) ++ us.
Proof. cbn [app]. rewrite <- app_assoc. reflexivity. Qed.

Lemma print_goes st ts l st' : gitems st ts l st' -> fine st -> Forall item_sound l -> forall f sep s L, length ts < f -> p_st s = st -> reads (p_kw s) (view s) ts L -> eos (fst L) = true ->
  goes (print_loop f sep) s (ends sep l) L (flat_map item_code l) st'.
Proof.
  induction 1 as [st | st ts l st' G IH | st ts l st' G IH | st ts e st1 us l st2 G N NS GL IH AP | w st ts e st1 us l st2 W G GL IH | w st ts e st1 us l st2 W G GL IH];
    intros F SO f sep s L LT T R C; (destruct f as [|f]; [lia|]); cbn [print_loop flat_map]; rewrite ?ends_cons; apply goes_tok.
  - pose proof (reads_nil _ _ _ R) as ->. change (p_tok s) with (fst (view s)). rewrite C. apply goes_ret; auto.
  - destruct (reads_cons _ _ _ _ _ R) as (M & _ & R1 & R2). rewrite (reads_tok _ _ _ _ R). change (eos (T_CHAR ";")) with false. change (is_char ";" (T_CHAR ";")) with true. cbv iota.
    apply (goes_then _ _ _ M _ _ _ _ R1). intros s1 D1. apply IH; [exact F | exact (Forall_inv_tail SO) | cbn [length] in LT; lia | exact (st_on _ _ _ _ _ _ D1 T) | exact (reads_on _ _ _ _ _ _ _ D1 R2) | exact C].
  - destruct (reads_cons _ _ _ _ _ R) as (M & _ & R1 & R2). rewrite (reads_tok _ _ _ _ R). change (eos COMMA) with false. change (is_char ";" COMMA) with false. change (is_char "," COMMA) with true. cbv iota.
    apply (goes_then _ _ _ M _ _ _ _ R1). intros s1 D1. apply goes_put. intros s2 D2. apply IH; [exact F | exact (Forall_inv_tail SO) | cbn [length] in LT; lia | exact (st_on _ _ _ _ _ _ D2 (st_on _ _ _ _ _ _ D1 T)) | | exact C].
    exact (reads_on _ _ _ _ _ _ _ D2 (reads_on _ _ _ _ _ _ _ D1 R2)).
  - destruct (reads_split _ _ _ _ _ R) as (M & R1 & R2). destruct (proj1 gram_starts _ _ _ _ _ G) as (t & r & E & X).
    assert (K : goes (print_item ;;; print_loop f false) s (ends false l) L (item_code (PExpr e) ++ flat_map item_code l) st2).
    { apply (goes_bind _ _ _ tt _ M (item_code (PExpr e)) st1).
      - unfold print_item. apply (goes_bind _ _ _ _ _ _ _ _ _ _ _ (apart_goes _ _ _ _ _ _ _ s M L G F (Forall_inv SO) GL AP T R1 R2 C)). intros s1 D1.
        destruct (etype e); [contradiction | exact (emit_end _ _ _ _ _ _ _ D1 eq_refl)..].
      - intros s1 D1. rewrite app_length in LT. assert (0 < length ts) by (rewrite E; cbn; lia).
        apply IH; [exact (names_fine _ _ (proj1 gram_names _ _ _ _ _ G) F) | exact (Forall_inv_tail SO) | lia | exact (ld_st _ _ _ _ _ D1) | exact (reads_on _ _ _ _ _ _ _ D1 R2) | exact C]. }
    pose proof R1 as R0. rewrite E in R0. rewrite (reads_tok _ _ _ _ R0), (starts_eos _ X). cbn [separator]. destruct t as [c| | | |w|x w|w| | | |k]; try discriminate X; try exact K.
    + cbn [starts is_char] in *. apply orb_prop in X. destruct X as [X|X]; [|apply andb_prop in X; destruct X as [X _]]; apply ceq_eq in X; subst c; exact K.
    + destruct (strieq w (lit "SPC")) eqn:W1; [exfalso; apply NS; exists w, r; auto|]. destruct (strieq w (lit "TAB")) eqn:W2; [exfalso; apply NS; exists w, r; auto|]. exact K.
  - rewrite (reads_tok _ _ _ _ R). cbn [eos]. unfold named in W. rewrite W. rewrite split_builtin in R, LT. destruct (reads_split _ _ _ _ _ R) as (M & R1 & R2). rewrite app_length in LT. cbn [length] in LT.
    cbn [item_code separator]. apply (goes_bind _ _ _ _ _ _ _ _ _ _ _ (builtin_goes I_PRINT_SPC w _ _ _ _ s M G F (Forall_inv SO) T R1)). intros s1 D1.
    apply IH; [exact (gexp_fine _ _ _ _ _ G F) | exact (Forall_inv_tail SO) | lia | exact (ld_st _ _ _ _ _ D1) | exact (reads_on _ _ _ _ _ _ _ D1 R2) | exact C].
  - rewrite (reads_tok _ _ _ _ R). cbn [eos]. rewrite (tab_not_spc _ W). unfold named in W. rewrite W. rewrite split_builtin in R, LT. destruct (reads_split _ _ _ _ _ R) as (M & R1 & R2). rewrite app_length in LT. cbn [length] in LT.
    cbn [item_code separator]. apply (goes_bind _ _ _ _ _ _ _ _ _ _ _ (builtin_goes I_PRINT_TAB w _ _ _ _ s M G F (Forall_inv SO) T R1)). intros s1 D1.
    apply IH; [exact (gexp_fine _ _ _ _ _ G F) | exact (Forall_inv_tail SO) | lia | exact (ld_st _ _ _ _ _ D1) | exact (reads_on _ _ _ _ _ _ _ D1 R2) | exact C].
Qed.

Lemma print_stmt t st ts l st' : t = T_KW K_PRINT \/ t = T_CHAR "?" -> gitems st ts l st' -> fine st -> Forall item_sound l ->
  goes_as print_statement st (t :: ts) (SPrint l) st'.
Proof.
  intros TK G F SO s L T R C. destruct (reads_cons _ _ _ _ _ R) as (M & _ & R1 & R2). unfold print_statement. apply goes_tok. rewrite (reads_tok _ _ _ _ R).
  assert (K : goes (if is_char "?" t then next_token else match_kw K_PRINT) s tt M [] st).
  { rewrite <- T. destruct TK as [-> | ->]; [|exact (goes_next _ _ _ R1)]. cbn [is_char]. apply (goes_code _ _ _ _ ([] ++ [])); [|reflexivity].
    unfold match_kw. apply goes_tok. rewrite (reads_tok _ _ _ _ R). cbn [is_kw kw_eqb]. exact (goes_next _ _ _ R1). }
  apply (goes_bind _ _ _ tt _ M [] st _ _ _ K). intros s1 D1. pose proof (reads_on _ _ _ _ _ _ _ D1 R2) as R3. cbn [scode].
  apply (goes_bind _ _ _ (ends false l) _ L (flat_map item_code l) st').
  - unfold with_fuel. apply (print_goes _ _ _ _ G F SO); [exact (solid_fuel s1 _ _ R3 (gitems_solid _ _ _ _ G)) | exact (ld_st _ _ _ _ _ D1) | exact R3 | exact C].
  - intros s2 D2. rewrite ends_last. destruct (separator_last l); [exact (ret_end _ _ _ _ _ _ D2) | exact (emit_end _ _ _ _ _ _ _ D2 eq_refl)].
Qed.

(* ---------- all statements made of tokens ---------- *)

Lemma no_continue_goes m st ts x st' : goes_as m st ts x st' -> forall s L, p_st s = st -> reads (p_kw s) (view s) ts L -> eos (fst L) = true ->
  goes (no_continue m) s false L (scode x) st'.
Proof.
  intros H s L T R C. unfold no_continue. apply (goes_code _ _ _ _ (scode x ++ [])); [|apply app_nil_r].
  apply (goes_bind _ _ _ _ _ _ _ _ _ _ _ (H s L T R C)). intros s1 D1. exact (ret_end _ _ _ _ _ _ D1).
Qed.

Lemma items_sound l : Forall sound (flat_map (fun i => match i with PExpr e | PSpc e | PTab e => [e] | PComma | PSemi => [] end) l) -> Forall item_sound l.
Proof.
  induction l as [|i l IH]; cbn [flat_map]; intros H; constructor; apply Forall_app in H; destruct H as [H1 H2]; [|exact (IH H2)].
  destruct i; cbn [item_sound]; try exact Logic.I; exact (Forall_inv H1).
Qed.

Lemma body_goes st ts x st' : gstmt st ts x st' -> fine st -> no_bad x -> forall s L, p_st s = st -> reads (p_kw s) (view s) ts L -> eos (fst L) = true ->
  goes statement_body s false L (scode x) st'.
Proof.
  intros G F NB s L T R C. change (Forall sound (exprs x)) in NB. unfold exprs in NB. apply Forall_app in NB. destruct NB as [N1 N2].
  assert (HD : exists t us, ts = t :: us /\ p_tok s = t).
  { assert (exists t us, ts = t :: us) as (t & us & E).
    { destruct G; eauto. destruct (gplace_head _ _ _ _ H) as (w & vs & ->). cbn [app]. eauto. }
    exists t, us. split; [exact E|]. rewrite E in R. exact (reads_tok _ _ _ _ R). }
  destruct HD as (t & us & E & P). unfold statement_body. apply goes_tok. rewrite P.
  destruct G as [st | st | st | st | st | name st y st1 ps param st2 ts e st3 O GV GE | st ts l st' G | st vs id st1 ts a st2 ws b st3 GV GA GB
    | st vs id st1 ts a st2 ws b st3 zs c st4 GV GA GB GC | st ts n st' G | st ts n st' G | st ps prompt ts l st' GP G | st ps prompt ts p st' GP G TY
    | st ts p st1 ws e st2 GP GE | st ts p st1 ws e st2 GP GE | st | st ts l st' G | st ts e st1 ws l st2 GE GL | st ts e st1 ws l st2 GE GL
    | st ts l st' G | st ts l st' G | st | st ts e st' G | st ts l st' G | st | st ts n st' G];
    cbn [targets exprs flat_map app] in N1, N2; try (injection E as <- _).
  - exact (no_continue_goes _ _ _ _ _ (plain_goes K_CLEAR I_CLEAR SClear st eq_refl) s L T R C).
  - exact (no_continue_goes _ _ _ _ _ (plain_goes K_CLS I_CLS SCls st eq_refl) s L T R C).
  - exact (no_continue_goes _ _ _ _ _ (plain_goes K_END I_END SEnd st eq_refl) s L T R C).
  - exact (no_continue_goes _ _ _ _ _ (plain_goes K_RETURN I_RETURN SReturn st eq_refl) s L T R C).
  - exact (no_continue_goes _ _ _ _ _ (plain_goes K_STOP I_STOP SStop st eq_refl) s L T R C).
  - exact (no_continue_goes _ _ _ _ _ (def_stmt _ _ _ _ _ _ _ _ _ _ O GV GE F (Forall_inv N2)) s L T R C).
  - exact (no_continue_goes _ _ _ _ _ (dim_stmt _ _ _ _ G F (flat_sound _ N1)) s L T R C).
  - exact (no_continue_goes _ _ _ _ _ (proj1 (for_stmt _ _ _ _ _ _ _ _ _ _ GV GA GB F (Forall_inv N2) (Forall_inv (Forall_inv_tail N2)))) s L T R C).
  - exact (no_continue_goes _ _ _ _ _ (proj2 (for_stmt _ _ _ _ _ _ _ _ _ _ GV GA GB F (Forall_inv N2) (Forall_inv (Forall_inv_tail N2))) _ _ _ GC (Forall_inv (Forall_inv_tail (Forall_inv_tail N2)))) s L T R C).
  - exact (no_continue_goes _ _ _ _ _ (goto_stmt _ _ _ _ G) s L T R C).
  - exact (no_continue_goes _ _ _ _ _ (gosub_stmt _ _ _ _ G) s L T R C).
  - exact (no_continue_goes _ _ _ _ _ (input_stmt _ _ _ _ _ _ GP G F (flat_sound _ N1)) s L T R C).
  - rewrite app_nil_r in N1. exact (no_continue_goes _ _ _ _ _ (line_input_stmt _ _ _ _ _ _ GP G TY F N1) s L T R C).
  - rewrite app_nil_r in N1. destruct (gplace_head _ _ _ _ GP) as (w & vs & EW). rewrite EW in E. injection E as <- _.
    exact (no_continue_goes _ _ _ _ _ (assign_stmt _ _ _ _ _ _ _ GP GE F N1 (Forall_inv N2)) s L T R C).
  - rewrite app_nil_r in N1. refine (no_continue_goes _ _ _ (SLet p e) _ _ s L T R C). clear - GP GE F N1 N2. intros s L T R C.
    destruct (reads_cons _ _ _ _ _ R) as (M & _ & R1 & R2). apply (goes_match_kw _ _ _ M _ _ _ _ R1). intros s1 D1.
    exact (assign_stmt _ _ _ _ _ _ _ GP GE F N1 (Forall_inv N2) s1 L (st_on _ _ _ _ _ _ D1 T) (reads_on _ _ _ _ _ _ _ D1 R2) C).
  - exact (no_continue_goes _ _ _ _ _ (next_bare st) s L T R C).
  - exact (no_continue_goes _ _ _ _ _ (next_stmt _ _ _ _ G F) s L T R C).
  - exact (no_continue_goes _ _ _ _ _ (on_stmt false _ _ _ _ _ _ _ GE GL F (Forall_inv N2)) s L T R C).
  - exact (no_continue_goes _ _ _ _ _ (on_stmt true _ _ _ _ _ _ _ GE GL F (Forall_inv N2)) s L T R C).
  - exact (no_continue_goes _ _ _ _ _ (print_stmt _ _ _ _ _ (or_introl eq_refl) G F (items_sound _ N2)) s L T R C).
  - exact (no_continue_goes _ _ _ _ _ (print_stmt _ _ _ _ _ (or_intror eq_refl) G F (items_sound _ N2)) s L T R C).
  - exact (no_continue_goes _ _ _ _ _ (random_stmt st) s L T R C).
  - exact (no_continue_goes _ _ _ _ _ (seed_stmt _ _ _ _ G F (Forall_inv N2)) s L T R C).
  - exact (no_continue_goes _ _ _ _ _ (read_stmt _ _ _ _ G F (flat_sound _ N1)) s L T R C).
  - exact (no_continue_goes _ _ _ _ _ (restore_bare st) s L T R C).
  - exact (no_continue_goes _ _ _ _ _ (restore_stmt _ _ _ _ G) s L T R C).
Qed.

(* IF *)
Lemma if_head st ts e st' : gexp TNum st ts e st' -> fine st -> sound e -> forall us s L, p_st s = st -> reads (p_kw s) (view s) (T_KW K_IF :: ts ++ T_KW K_THEN :: us) L ->
  exists M, reads (p_kw s) M us L /\ forall (f : unit -> P bool) b N c st1, (forall s1, lands s M (ecode e) st' s1 -> goes (f tt) s1 b N c st1) ->
    goes (match_kw K_IF ;;; numeric_expression ;;; pbind (match_kw K_THEN) f) s b N (ecode e ++ c) st1.
Proof.
  intros G F SE us s L T R. destruct (reads_cons _ _ _ _ _ R) as (M & _ & R1 & R2). destruct (reads_split _ _ _ _ _ R2) as (M1 & R3 & R4). destruct (reads_cons _ _ _ _ _ R4) as (M2 & E2 & R5 & R6).
  exists M2. split; [exact R6|]. intros f b N c st1 H. apply (goes_match_kw _ _ _ M _ _ _ _ R1). intros s1 D1.
  apply (goes_bind _ _ _ tt _ M1 (ecode e) st').
  { apply (num_goes _ _ _ _ s1 M1 G F SE (st_on _ _ _ _ _ _ D1 T) (reads_on _ _ _ _ _ _ _ D1 R3)). rewrite E2. reflexivity. }
  intros s2 D2. rewrite <- (ld_kw _ _ _ _ _ D1) in R5. apply (goes_match_kw _ _ _ M2); [exact (reads_on _ _ _ _ _ _ _ D2 R5)|]. intros s3 D3. apply H.
  pose proof (lands_trans _ _ _ _ _ _ _ _ _ (lands_trans _ _ _ _ _ _ _ _ _ D1 D2) D3) as X. cbn [app] in X. rewrite app_nil_r in X. rewrite <- (ld_st _ _ _ _ _ D2). exact X.
Qed.
