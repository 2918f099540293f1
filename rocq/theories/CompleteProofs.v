(* The compiler accepts every expression of the grammar. *)
From Coq Require Import Lia ZifyBool ZifyNat ZifyN.
From Verif Require Import Base BaseLemmas Num SourceModel BcodeModel SymbolModel SymbolSpec SymbolProofs
  LexModel LexSpec LexProofs ParseModel GrammarSpec ParseProofs.
Local Open Scope nat_scope.
Local Open Scope parse_scope.

(* ---------- successful runs of the compiler ---------- *)

Record lands (s : pstate) (L : lexst) (c : list instr) (st : symtab) (s' : pstate) : Prop := mkLands {
  ld_view : view s' = L;
  ld_kw : p_kw s' = p_kw s;
  ld_code : p_code s' = emits (p_code s) c;
  ld_if : p_ifthen s' = p_ifthen s;
  ld_st : p_st s' = st
}.

Definition goes {A} (m : P A) (s : pstate) (a : A) (L : lexst) (c : list instr) (st : symtab) : Prop :=
  exists s', m s = POk a s' /\ lands s L c st s'.

Lemma lands_refl s : lands s (view s) [] (p_st s) s.
Proof. split; reflexivity. Qed.

Lemma lands_trans s L c st s1 L2 d st2 s2 : lands s L c st s1 -> lands s1 L2 d st2 s2 -> lands s L2 (c ++ d) st2 s2.
Proof.
  intros [V1 K1 C1 I1 T1] [V2 K2 C2 I2 T2]. split; [exact V2 | congruence | | congruence | exact T2]. rewrite C2, C1. apply emits_app.
Qed.

Lemma goes_bind {A B} (m : P A) (f : A -> P B) s a b L1 c st1 L2 d st2 : goes m s a L1 c st1 ->
  (forall s1, lands s L1 c st1 s1 -> goes (f a) s1 b L2 d st2) -> goes (pbind m f) s b L2 (c ++ d) st2.
Proof.
  intros (s1 & E1 & D1) H. destruct (H s1 D1) as (s2 & E2 & D2). exists s2. split; [unfold pbind; rewrite E1; exact E2|].
  exact (lands_trans _ _ _ _ _ _ _ _ _ D1 D2).
Qed.
Lemma goes_ret {A} (a : A) s L c st : L = view s -> c = [] -> st = p_st s -> goes (pret a) s a L c st.
Proof. intros -> -> ->. exists s. split; [reflexivity | apply lands_refl]. Qed.
Lemma goes_tok {B} (f : token -> P B) s b L c st : goes (f (p_tok s)) s b L c st -> goes (pbind tok f) s b L c st.
Proof. intros H. exact H. Qed.
Lemma goes_emit i s : goes (emit_ i) s tt (view s) [i] (p_st s).
Proof. eexists. split; [reflexivity|]. split; reflexivity. Qed.
Lemma goes_next s t L : reads (p_kw s) (view s) [t] L -> goes next_token s tt L [] (p_st s).
Proof.
  intros R. unfold view in R. inversion R as [|t0 r L0 ts L1 A R1]; subst. inversion R1; subst. unfold advance in A.
  unfold goes, next_token. destruct (lex_next (p_kw s) (p_rest s)) as [u st r|]; [|discriminate A]. injection A as <-.
  eexists. split; [reflexivity|]. split; reflexivity.
Qed.

Lemma goes_code {A} (m : P A) s a L c d st : goes m s a L c st -> c = d -> goes m s a L d st.
Proof. intros H <-. exact H. Qed.
Lemma goes_value {A} (m : P A) s a b L c st : goes m s a L c st -> a = b -> goes m s b L c st.
Proof. intros H <-. exact H. Qed.

(* next, then f *)
Lemma goes_then {B} (f : unit -> P B) s t L1 b L c st : reads (p_kw s) (view s) [t] L1 ->
  (forall s1, lands s L1 [] (p_st s) s1 -> goes (f tt) s1 b L c st) -> goes (pbind next_token f) s b L c st.
Proof. intros R H. exact (goes_bind _ _ _ _ _ _ _ _ _ _ _ (goes_next s t L1 R) H). Qed.
(* emit, then f *)
Lemma goes_put {B} (f : unit -> P B) s i b L c st :
  (forall s1, lands s (view s) [i] (p_st s) s1 -> goes (f tt) s1 b L c st) -> goes (pbind (emit_ i) f) s b L (i :: c) st.
Proof. intros H. exact (goes_bind _ _ _ _ _ _ _ _ _ _ _ (goes_emit i s) H). Qed.

Lemma reads_split kw L ts us L' : reads kw L (ts ++ us) L' -> exists M, reads kw L ts M /\ reads kw M us L'.
Proof.
  revert L. induction ts as [|t ts IH]; intros L H; [exists L; split; [apply Rd_nil | exact H]|].
  cbn in H. inversion H as [|t0 r L0 ts0 L1 A R]; subst. destruct (IH _ R) as (M & H1 & H2). exists M. split; [|exact H2].
  eapply Rd_cons; eauto.
Qed.
Lemma reads_cons kw L t ts L' : reads kw L (t :: ts) L' -> exists M, fst L = t /\ reads kw L [t] M /\ reads kw M ts L'.
Proof.
  intros H. inversion H as [|t0 r L0 ts0 L1 A R]; subst. exists L0. split; [reflexivity|]. split; [|exact R].
  eapply Rd_cons; [exact A | apply Rd_nil].
Qed.
Lemma reads_tok s t ts L' : reads (p_kw s) (view s) (t :: ts) L' -> p_tok s = t.
Proof. intros H. destruct (reads_cons _ _ _ _ _ H) as (M & E & _). exact E. Qed.
Lemma reads_on s L c st s1 ts L' : lands s L c st s1 -> reads (p_kw s) L ts L' -> reads (p_kw s1) (view s1) ts L'.
Proof. intros [V K _ _ _] H. rewrite V, K. exact H. Qed.
Lemma reads_nil kw L L' : reads kw L [] L' -> L' = L.
Proof. intros H. inversion H. reflexivity. Qed.
Lemma lands_tok s L c st s1 : lands s L c st s1 -> p_tok s1 = fst L.
Proof. intros [V _ _ _ _]. rewrite <- V. reflexivity. Qed.

Lemma goes_match_char {B} c (f : unit -> P B) s L1 b L d st : reads (p_kw s) (view s) [T_CHAR c] L1 ->
  (forall s1, lands s L1 [] (p_st s) s1 -> goes (f tt) s1 b L d st) -> goes (pbind (match_char c) f) s b L d st.
Proof.
  intros R H. apply (goes_bind _ _ _ tt _ L1 [] (p_st s)); [|exact H]. unfold match_char. apply goes_tok.
  rewrite (reads_tok _ _ _ _ R). cbn [is_char]. rewrite ceq_refl. exact (goes_next _ _ _ R).
Qed.
Lemma goes_match_char_end c s L1 : reads (p_kw s) (view s) [T_CHAR c] L1 -> goes (match_char c) s tt L1 [] (p_st s).
Proof.
  intros R. unfold match_char. apply goes_tok. rewrite (reads_tok _ _ _ _ R). cbn [is_char]. rewrite ceq_refl. exact (goes_next _ _ _ R).
Qed.
Lemma goes_match_kw {B} k (f : unit -> P B) s L1 b L d st : reads (p_kw s) (view s) [T_KW k] L1 ->
  (forall s1, lands s L1 [] (p_st s) s1 -> goes (f tt) s1 b L d st) -> goes (pbind (match_kw k) f) s b L d st.
Proof.
  intros R H. apply (goes_bind _ _ _ tt _ L1 [] (p_st s)); [|exact H]. unfold match_kw. apply goes_tok.
  rewrite (reads_tok _ _ _ _ R). cbn [is_kw]. replace (kw_eqb k k) with true by (symmetry; apply kw_eqb_iff; reflexivity). exact (goes_next _ _ _ R).
Qed.

(* ---------- what continues an expression ---------- *)

(* the token t after the tokens ts continues an expression of level l; ty is
   the type of the sum it ends with *)
Definition cont (l : level) (ty : vtype) (ts : list token) (t : token) : bool :=
  (is_char "(" t && ends_id ts) ||
  (match l with LPrim => false | _ => is_char "^" t end) ||
  (match l with LPrim | LPow | LNeg => false | _ => is_char "*" t || is_char "/" t end) ||
  (match l with LPrim | LPow | LNeg | LMul => false | _ => is_char "+" t || (vtype_eqb ty TNum && is_char "-" t) end) ||
  (match l with LRel | LNot | LAnd | LOr => match relop t with Some _ => true | None => false end | _ => false end) ||
  (match l with LAnd | LOr => is_kw K_AND t | _ => false end) ||
  (match l with LOr => is_kw K_OR t | _ => false end).

Lemma cont_suffix l ty ts us t : us <> [] -> cont l ty (ts ++ us) t = cont l ty us t.
Proof. intros N. unfold cont. rewrite (ends_id_suffix ts us N). reflexivity. Qed.
Lemma cont_suffix2 l ty ts u us t : us <> [] -> cont l ty (ts ++ u :: us) t = cont l ty us t.
Proof. intros N. rewrite cont_suffix by discriminate. apply (cont_suffix l ty [u] us t N). Qed.

Lemma cont_tighter l ty ts t : cont l ty ts t = false -> cont (tighter l) ty ts t = false.
Proof.
  unfold cont. intros H. repeat (apply orb_false_iff in H; destruct H as [H ?]).
  repeat (apply orb_false_iff; split); try assumption; destruct l; cbn [tighter]; assumption || reflexivity.
Qed.

(* what an expression starts with *)
Definition starts (l : level) (t : token) : bool :=
  match t with
  | T_NUM _ _ | T_STR _ | T_ID _ => true
  | T_CHAR c => ceq c "(" || (ceq c "-" && match l with LPow | LPrim => false | _ => true end)
  | T_KW K_NOT => match l with LOr | LAnd | LNot => true | _ => false end
  | _ => false
  end.
Lemma starts_tighter l t : starts (tighter l) t = true -> starts l t = true.
Proof. destruct t; cbn [starts]; auto; destruct l; cbn [tighter]; auto;
  repeat match goal with |- context [ceq ?a ?b] => destruct (ceq a b) end; auto; destruct k; auto. Qed.

Lemma gram_starts :
  (forall l st ts e st', gram l st ts e st' -> exists t r, ts = t :: r /\ starts l t = true) /\
  (forall k st ts es st', gargs k st ts es st' -> exists t r, ts = t :: r /\ starts LOr t = true) /\
  (forall k st ts name s es st', guse k st ts name s es st' -> exists r, ts = T_ID name :: r).
Proof.
  apply gram_ind3; intros;
    repeat match goal with H : exists _, _ |- _ => destruct H end;
    repeat match goal with H : _ /\ _ |- _ => destruct H end; subst.
  all: try (eexists; eexists; split; [reflexivity|]; (reflexivity || assumption || (apply starts_tighter; assumption) || idtac)).
  all: try (eexists; reflexivity).
  all: try (destruct l; assumption).
Qed.

(* ---------- the levels ---------- *)

Definition pf (f fuel : nat) (l : level) : P vtype :=
  let ex := expression_fuel f in
  match l with
  | LOr => or_expression ex fuel | LAnd => and_expression ex fuel | LNot => not_expression ex fuel
  | LRel => relational_expression ex fuel | LAdd => add_expr ex fuel | LMul => mult_expr ex fuel
  | LNeg => neg_expr ex fuel | LPow => power_expr ex fuel | LPrim => primary_expression ex fuel
  end.

Definition loop (l : level) (f fuel k : nat) (t : vtype) : P unit :=
  let ex := expression_fuel f in
  match l with
  | LOr => or_loop ex fuel k t | LAnd => and_loop ex fuel k t | LMul => mult_loop ex fuel k t
  | LAdd => match t with TNum => add_loop ex fuel k | TStr => concat_loop ex fuel k | TErr => pret tt end
  | _ => pret tt
  end.

Definition looping (l : level) : Prop := l = LOr \/ l = LAnd \/ l = LAdd \/ l = LMul.

Lemma pf_loop l f fuel : looping l -> pf f fuel l = (let* t := pf f fuel (tighter l) in loop l f fuel fuel t ;;; pret t).
Proof. intros [-> | [-> | [-> | ->]]]; reflexivity. Qed.

(* the expression is read, where ty is the type of the sum it ends with *)
Definition direct (l : level) (ty : vtype) (st : symtab) (ts : list token) (e : expr) (st' : symtab) : Prop :=
  forall f fuel s L, length ts <= f -> length ts < fuel -> p_st s = st -> reads (p_kw s) (view s) ts L ->
    cont l ty ts (fst L) = false -> goes (pf f fuel l) s (etype e) L (ecode e) st'.
(* the expression is read, and then the rest of the loop *)
Definition looped (l : level) (ty : vtype) (st : symtab) (ts : list token) (e : expr) (st' : symtab) : Prop :=
  forall f fuel k s L M c st2, length ts <= f -> length ts < fuel -> length ts < k -> p_st s = st -> reads (p_kw s) (view s) ts L ->
    cont (tighter l) ty ts (fst L) = false ->
    (forall s1 k', lands s L (ecode e) st' s1 -> k <= k' + length ts -> goes (loop l f fuel k' (etype e)) s1 tt M c st2) ->
    goes (let* t := pf f fuel (tighter l) in loop l f fuel k t ;;; pret t) s (etype e) M (ecode e ++ c) st2.

Lemma direct_looped l ty st ts e st' : direct (tighter l) ty st ts e st' -> looped l ty st ts e st'.
Proof.
  intros D f fuel k s L M c st2 F1 F2 F3 T R C H.
  apply (goes_bind _ _ _ (etype e) _ L (ecode e) st'); [exact (D f fuel s L F1 F2 T R C)|]. intros s1 D1.
  apply (goes_code _ _ _ _ (c ++ [])); [|apply app_nil_r]. apply (goes_bind _ _ _ tt _ M c st2); [apply H; [exact D1 | lia]|].
  intros s2 D2. apply goes_ret; [symmetry; apply (ld_view _ _ _ _ _ D2) | reflexivity | symmetry; apply (ld_st _ _ _ _ _ D2)].
Qed.

(* the loop ends at a token that does not continue the expression *)
Lemma loop_ends l ty f fuel k t ts s : looping l -> 0 < k -> cont l ty ts (p_tok s) = false -> (l = LAdd -> ty = t) -> goes (loop l f fuel k t) s tt (view s) [] (p_st s).
Proof.
  intros LP K C Y. destruct k as [|k]; [lia|]. unfold cont in C.
  repeat (apply orb_false_iff in C; let H := fresh "H" in destruct C as [C H]).
  destruct LP as [-> | [-> | [-> | ->]]]; cbn [loop].
  - cbn [or_loop]. apply goes_tok. rewrite H. apply goes_ret; reflexivity.
  - cbn [and_loop]. apply goes_tok. rewrite H0. apply goes_ret; reflexivity.
  - specialize (Y eq_refl). subst ty. destruct t; [apply goes_ret; reflexivity | |].
    + cbn [add_loop]. apply goes_tok. cbn [vtype_eqb andb] in H2. rewrite H2. apply goes_ret; reflexivity.
    + cbn [concat_loop]. apply goes_tok. apply orb_false_iff in H2. destruct H2 as [H2 _]. rewrite H2. apply goes_ret; reflexivity.
  - cbn [mult_loop]. apply goes_tok. rewrite H3. apply goes_ret; reflexivity.
Qed.

Lemma looped_direct l ty st ts e st' : looping l -> (l = LAdd -> ty = etype e) -> looped l ty st ts e st' -> direct l ty st ts e st'.
Proof.
  intros LP Y H f fuel s L F1 F2 T R C. rewrite (pf_loop l f fuel LP). apply (goes_code _ _ _ _ (ecode e ++ [])); [|apply app_nil_r].
  apply (H f fuel fuel s L L [] st' F1 F2 F2 T R (cont_tighter _ _ _ _ C)). intros s1 k' D1 K.
  pose proof (loop_ends l ty f fuel k' (etype e) ts s1 LP ltac:(lia)) as X. rewrite (lands_tok _ _ _ _ _ D1) in X.
  specialize (X C Y). rewrite (ld_view _ _ _ _ _ D1), (ld_st _ _ _ _ _ D1) in X. exact X.
Qed.

(* one round of a loop *)
Definition op_instr (o : binop) (t : vtype) : instr := bin_instr o t.
Definition op_token (o : binop) : token :=
  match o with
  | OOr => T_KW K_OR | OAnd => T_KW K_AND | ORel r => rel_token r
  | OAdd => T_CHAR "+" | OSub => T_CHAR "-" | OMul => T_CHAR "*" | ODiv => T_CHAR "/" | OPow => T_CHAR "^"
  end.
Definition op_level (o : binop) : level :=
  match o with OOr => LOr | OAnd => LAnd | ORel _ => LRel | OAdd | OSub => LAdd | OMul | ODiv => LMul | OPow => LPow end.
(* the types of the operands of a loop *)
Definition op_types (o : binop) (a b : vtype) : Prop :=
  a = b /\ match o with OAdd => a <> TErr | _ => a = TNum end.

Lemma loop_round o f fuel k t tb s L1 L2 M cb st2 c st3 : looping (op_level o) -> op_types o t tb ->
  reads (p_kw s) (view s) [op_token o] L1 ->
  (forall s1, lands s L1 [] (p_st s) s1 -> goes (pf f fuel (tighter (op_level o))) s1 tb L2 cb st2) ->
  (forall s2, lands s L2 (cb ++ [bin_instr o t]) st2 s2 -> goes (loop (op_level o) f fuel k t) s2 tt M c st3) ->
  goes (loop (op_level o) f fuel (S k) t) s tt M (cb ++ bin_instr o t :: c) st3.
Proof.
  intros LP [<- TY] R H1 H2.
  assert (G : forall er, goes (next_token ;;; (let* t2 := pf f fuel (tighter (op_level o)) in
      if vtype_eqb t2 t then emit_ (bin_instr o t) ;;; loop (op_level o) f fuel k t else perror er)) s tt M (cb ++ bin_instr o t :: c) st3).
  { intros er. apply (goes_then _ _ _ L1 _ _ _ _ R). intros s1 D1. apply (goes_bind _ _ _ t _ L2 cb st2 _ _ _ (H1 s1 D1)). intros s2 D2.
    replace (vtype_eqb t t) with true by (symmetry; apply vtype_eqb_iff; reflexivity). apply goes_put. intros s3 D3.
    pose proof (lands_trans _ _ _ _ _ _ _ _ _ D1 D2) as D12. pose proof (lands_trans _ _ _ _ _ _ _ _ _ D12 D3) as D123.
    apply H2. rewrite (ld_view _ _ _ _ _ D2), (ld_st _ _ _ _ _ D2) in D123. exact D123. }
  pose proof (reads_tok _ _ _ _ R) as TK.
  destruct o as [| | r | | | | |]; cbn [op_level] in *; try (destruct LP as [E | [E | [E | E]]]; discriminate E);
    cbn [op_token] in TK; cbn [loop tighter pf] in *;
    try (subst t; cbn [or_loop and_loop mult_loop add_loop]; apply goes_tok; rewrite TK; apply G).
  destruct t; [exfalso; apply TY; reflexivity | |]; cbn [add_loop concat_loop]; apply goes_tok; rewrite TK; apply G.
Qed.

Lemma cont_op o ty ts : looping (op_level o) -> cont (tighter (op_level o)) ty ts (op_token o) = false.
Proof. destruct o; intros [E | [E | [E | E]]]; discriminate E || (destruct ty; reflexivity). Qed.

Lemma ebin_type o a b : op_types o (etype a) (etype b) -> etype (EBin o a b) = etype a.
Proof. intros [_ H]. destruct o; cbn [etype]; congruence. Qed.

Lemma looped_op o ty tya st ts a st1 us b st2 : looping (op_level o) -> op_types o (etype a) (etype b) -> us <> [] ->
  looped (op_level o) tya st ts a st1 -> direct (tighter (op_level o)) ty st1 us b st2 ->
  looped (op_level o) ty st (ts ++ op_token o :: us) (EBin o a b) st2.
Proof.
  intros LP TY N HA HB f fuel k s L M c st3 F1 F2 F3 T R C H. rewrite app_length in F1, F2, F3. cbn [length] in F1, F2, F3.
  destruct (reads_split _ _ _ _ _ R) as (L1 & R1 & R'). destruct (reads_cons _ _ _ _ _ R') as (L2 & E1 & R2 & R3).
  rewrite (ebin_type _ _ _ TY). cbn [ecode].
  apply (goes_code _ _ _ _ (ecode a ++ ecode b ++ bin_instr o (etype a) :: c)); [|rewrite <- !app_assoc; reflexivity].
  apply (HA f fuel k s L1 M _ st3 ltac:(lia) ltac:(lia) ltac:(lia) T R1); [rewrite E1; apply cont_op; exact LP|].
  intros s1 k' D1 K. destruct k' as [|k']; [lia|].
  apply (loop_round o f fuel k' (etype a) (etype b) s1 L2 L M (ecode b) st2 c st3 LP TY); [exact (reads_on _ _ _ _ _ _ _ D1 R2) | |].
  - intros s2 D2. pose proof (lands_trans _ _ _ _ _ _ _ _ _ D1 D2) as D12.
    apply (HB f fuel s2 L ltac:(lia) ltac:(lia)); [rewrite (ld_st _ _ _ _ _ D2); exact (ld_st _ _ _ _ _ D1) | exact (reads_on _ _ _ _ _ _ _ D12 R3)|].
    rewrite (cont_suffix2 _ _ _ _ _ _ N) in C. exact C.
  - intros s2 D2. pose proof (lands_trans _ _ _ _ _ _ _ _ _ D1 D2) as D12. specialize (H s2 k'). rewrite (ebin_type _ _ _ TY) in H.
    apply H; [exact D12|]. rewrite app_length. cbn [length]. lia.
Qed.

(* leading operators *)
Lemma count_goes is t n : is t = true -> forall k fuel s L, n < fuel -> reads (p_kw s) (view s) (repeat t n) L -> is (fst L) = false ->
  goes (count_tokens fuel is k) s (k + n) L [] (p_st s).
Proof.
  intros IS. induction n as [|n IH]; intros k fuel s L F R E; (destruct fuel as [|fuel]; [lia|]); cbn [count_tokens]; apply goes_tok.
  - apply reads_nil in R. subst L. cbn in E. rewrite E. rewrite Nat.add_0_r. apply goes_ret; reflexivity.
  - cbn [repeat] in R. destruct (reads_cons _ _ _ _ _ R) as (L1 & T & R1 & R2). cbn in T. rewrite T, IS.
    apply (goes_then _ _ _ L1 _ _ _ _ R1). intros s1 D1. replace (k + S n) with (S k + n) by lia.
    rewrite <- (ld_st _ _ _ _ _ D1). apply IH; [lia | exact (reads_on _ _ _ _ _ _ _ D1 R2) | exact E].
Qed.

Lemma neg_step ty n st ts a st' : (exists t r, ts = t :: r /\ is_char "-" t = false) -> (n = 0 \/ etype a = TNum) -> direct LPow ty st ts a st' ->
  direct LNeg ty st (repeat (T_CHAR "-") n ++ ts) (match n with O => a | _ => ENegs n a end) st'.
Proof.
  intros (t & r & -> & NT) NN H f fuel s L F1 F2 T R C. rewrite app_length, repeat_length in F1, F2.
  destruct (reads_split _ _ _ _ _ R) as (L1 & R1 & R2). cbn [pf]. unfold neg_expr.
  assert (T1 : fst L1 = t) by (destruct (reads_cons _ _ _ _ _ R2) as (? & E & _); exact E).
  apply (goes_code _ _ _ _ ([] ++ ecode (match n with O => a | _ => ENegs n a end))); [|reflexivity].
  apply (goes_bind _ _ _ (0 + n) _ L1 [] (p_st s)); [apply (count_goes (is_char "-") (T_CHAR "-") n eq_refl 0 fuel s L1); [lia | exact R1 | rewrite T1; exact NT]|].
  intros s1 D1. cbn [Nat.add].
  apply (goes_code _ _ _ _ (ecode a ++ (if Nat.odd n then [I_NEG] else []))); [|destruct n; [apply app_nil_r | reflexivity]].
  apply (goes_bind _ _ _ (etype a) _ L (ecode a) st').
  { apply (H f fuel s1 L ltac:(lia) ltac:(lia)); [rewrite (ld_st _ _ _ _ _ D1); exact T | exact (reads_on _ _ _ _ _ _ _ D1 R2)|].
    rewrite cont_suffix in C by discriminate. exact C. }
  intros s2 D2. replace (etype (match n with O => a | _ => ENegs n a end)) with (etype a) by (destruct n; reflexivity).
  destruct n as [|n].
  - cbn [Nat.eqb Nat.odd]. apply (goes_bind (pret tt) _ s2 tt _ (view s2) [] (p_st s2)); [apply goes_ret; reflexivity|]. intros s3 D3.
    apply goes_ret; [rewrite (ld_view _ _ _ _ _ D3); symmetry; exact (ld_view _ _ _ _ _ D2) | reflexivity|].
    rewrite (ld_st _ _ _ _ _ D3). symmetry. exact (ld_st _ _ _ _ _ D2).
  - destruct NN as [NN | NN]; [discriminate NN|]. rewrite NN. change (Nat.eqb (S n) 0) with false. change (negb (vtype_eqb TNum TNum)) with false. cbv iota.
    apply (goes_code _ _ _ _ ((if Nat.odd (S n) then [I_NEG] else []) ++ [])); [|apply app_nil_r].
    apply (goes_bind _ _ _ tt _ (view s2) (if Nat.odd (S n) then [I_NEG] else []) (p_st s2)).
    { destruct (Nat.odd (S n)); [apply goes_emit | apply goes_ret; reflexivity]. }
    intros s3 D3. apply goes_ret; [rewrite (ld_view _ _ _ _ _ D3); symmetry; exact (ld_view _ _ _ _ _ D2) | reflexivity|].
    rewrite (ld_st _ _ _ _ _ D3). symmetry. exact (ld_st _ _ _ _ _ D2).
Qed.

Lemma not_step ty n st ts a st' : (exists t r, ts = t :: r /\ is_kw K_NOT t = false) -> (n = 0 \/ etype a = TNum) -> direct LRel ty st ts a st' ->
  direct LNot ty st (repeat (T_KW K_NOT) n ++ ts) (match n with O => a | _ => ENots n a end) st'.
Proof.
  intros (t & r & -> & NT) NN H f fuel s L F1 F2 T R C. rewrite app_length, repeat_length in F1, F2.
  destruct (reads_split _ _ _ _ _ R) as (L1 & R1 & R2). cbn [pf]. unfold not_expression.
  assert (T1 : fst L1 = t) by (destruct (reads_cons _ _ _ _ _ R2) as (? & E & _); exact E).
  apply (goes_code _ _ _ _ ([] ++ ecode (match n with O => a | _ => ENots n a end))); [|reflexivity].
  apply (goes_bind _ _ _ (0 + n) _ L1 [] (p_st s)); [apply (count_goes (is_kw K_NOT) (T_KW K_NOT) n eq_refl 0 fuel s L1); [lia | exact R1 | rewrite T1; exact NT]|].
  intros s1 D1. cbn [Nat.add].
  apply (goes_code _ _ _ _ (ecode a ++ (if Nat.odd n then [I_NOT] else []))); [|destruct n; [apply app_nil_r | reflexivity]].
  apply (goes_bind _ _ _ (etype a) _ L (ecode a) st').
  { apply (H f fuel s1 L ltac:(lia) ltac:(lia)); [rewrite (ld_st _ _ _ _ _ D1); exact T | exact (reads_on _ _ _ _ _ _ _ D1 R2)|].
    rewrite cont_suffix in C by discriminate. exact C. }
  intros s2 D2. replace (etype (match n with O => a | _ => ENots n a end)) with (etype a) by (destruct n; reflexivity).
  destruct n as [|n].
  - cbn [Nat.eqb Nat.odd]. apply (goes_bind (pret tt) _ s2 tt _ (view s2) [] (p_st s2)); [apply goes_ret; reflexivity|]. intros s3 D3.
    apply goes_ret; [rewrite (ld_view _ _ _ _ _ D3); symmetry; exact (ld_view _ _ _ _ _ D2) | reflexivity|].
    rewrite (ld_st _ _ _ _ _ D3). symmetry. exact (ld_st _ _ _ _ _ D2).
  - destruct NN as [NN | NN]; [discriminate NN|]. rewrite NN. change (Nat.eqb (S n) 0) with false. change (negb (vtype_eqb TNum TNum)) with false. cbv iota.
    apply (goes_code _ _ _ _ ((if Nat.odd (S n) then [I_NOT] else []) ++ [])); [|apply app_nil_r].
    apply (goes_bind _ _ _ tt _ (view s2) (if Nat.odd (S n) then [I_NOT] else []) (p_st s2)).
    { destruct (Nat.odd (S n)); [apply goes_emit | apply goes_ret; reflexivity]. }
    intros s3 D3. apply goes_ret; [rewrite (ld_view _ _ _ _ _ D3); symmetry; exact (ld_view _ _ _ _ _ D2) | reflexivity|].
    rewrite (ld_st _ _ _ _ _ D3). symmetry. exact (ld_st _ _ _ _ _ D2).
Qed.

Lemma rel_none ty st ts a st' : direct LAdd ty st ts a st' -> direct LRel ty st ts a st'.
Proof.
  intros H f fuel s L F1 F2 T R C. cbn [pf]. unfold relational_expression.
  apply (goes_code _ _ _ _ (ecode a ++ [])); [|apply app_nil_r].
  apply (goes_bind _ _ _ (etype a) _ L (ecode a) st'); [exact (H f fuel s L F1 F2 T R (cont_tighter LRel _ _ _ C))|]. intros s1 D1.
  assert (X : goes (pret (etype a)) s1 (etype a) L [] st').
  { apply goes_ret; [symmetry; exact (ld_view _ _ _ _ _ D1) | reflexivity | symmetry; exact (ld_st _ _ _ _ _ D1)]. }
  destruct (vtype_eqb (etype a) TErr) eqn:E; [apply vtype_eqb_iff in E; rewrite E in *; exact X|].
  apply goes_tok. rewrite (lands_tok _ _ _ _ _ D1). unfold cont in C. repeat (apply orb_false_iff in C; let H := fresh "H" in destruct C as [C H]).
  destruct (relop (fst L)); [discriminate|]. exact X.
Qed.

Lemma rel_step ty tya r st ts a st1 us b st2 : us <> [] -> etype a = etype b -> etype a <> TErr ->
  direct LAdd tya st ts a st1 -> direct LAdd ty st1 us b st2 -> direct LRel ty st (ts ++ rel_token r :: us) (EBin (ORel r) a b) st2.
Proof.
  intros N TY NE HA HB f fuel s L F1 F2 T R C. rewrite app_length in F1, F2. cbn [length] in F1, F2.
  destruct (reads_split _ _ _ _ _ R) as (L1 & R1 & R'). destruct (reads_cons _ _ _ _ _ R') as (L2 & E1 & R2 & R3).
  cbn [pf etype ecode bin_instr]. unfold relational_expression.
  apply (goes_bind _ _ _ (etype a) _ L1 (ecode a) st1).
  { apply (HA f fuel s L1 ltac:(lia) ltac:(lia) T R1). rewrite E1. destruct r, tya; reflexivity. }
  intros s1 D1. replace (vtype_eqb (etype a) TErr) with false by (symmetry; apply vtype_eqb_false; exact NE).
  apply goes_tok. rewrite (lands_tok _ _ _ _ _ D1), E1.
  assert (G : forall opn ops, rel_instr r (etype a) = (if vtype_eqb (etype a) TStr then ops else opn) ->
    goes (next_token ;;; let* type2 := add_expr (expression_fuel f) fuel in
        if vtype_eqb type2 TErr then pret TErr
        else if negb (vtype_eqb (etype a) type2) then perror PE_relational
        else emit_ (if vtype_eqb (etype a) TStr then ops else opn) ;;; pret TNum) s1 TNum L (ecode b ++ [rel_instr r (etype a)]) st2).
  { intros opn ops EI. apply (goes_then _ _ _ L2 _ _ _ _ (reads_on _ _ _ _ _ _ _ D1 R2)). intros s2 D2.
    pose proof (lands_trans _ _ _ _ _ _ _ _ _ D1 D2) as D12.
    apply (goes_bind _ _ _ (etype b) _ L (ecode b) st2).
    { apply (HB f fuel s2 L ltac:(lia) ltac:(lia)); [rewrite (ld_st _ _ _ _ _ D2); exact (ld_st _ _ _ _ _ D1) | exact (reads_on _ _ _ _ _ _ _ D12 R3)|].
      apply (cont_tighter LRel). rewrite (cont_suffix2 _ _ _ _ _ _ N) in C. exact C. }
    intros s3 D3. rewrite <- TY. replace (vtype_eqb (etype a) TErr) with false by (symmetry; apply vtype_eqb_false; exact NE).
    replace (vtype_eqb (etype a) (etype a)) with true by (symmetry; apply vtype_eqb_iff; reflexivity). cbn [negb].
    rewrite <- EI. apply goes_put. intros s4 D4. apply goes_ret; [rewrite (ld_view _ _ _ _ _ D4); symmetry; exact (ld_view _ _ _ _ _ D3) | reflexivity|].
    rewrite (ld_st _ _ _ _ _ D4). symmetry. exact (ld_st _ _ _ _ _ D3). }
  destruct r; cbn [rel_token relop]; (apply G || idtac); destruct (etype a); reflexivity || contradiction.
Qed.

Lemma pow_none ty st ts a st' : direct LPrim ty st ts a st' -> direct LPow ty st ts a st'.
Proof.
  intros H f fuel s L F1 F2 T R C. destruct fuel as [|fuel]; [lia|]. cbn [pf power_expr].
  apply (goes_code _ _ _ _ (ecode a ++ [])); [|apply app_nil_r].
  apply (goes_bind _ _ _ (etype a) _ L (ecode a) st'); [exact (H f (S fuel) s L F1 F2 T R (cont_tighter LPow _ _ _ C))|]. intros s1 D1.
  apply goes_tok. rewrite (lands_tok _ _ _ _ _ D1). unfold cont in C. repeat (apply orb_false_iff in C; let H := fresh "H" in destruct C as [C H]).
  rewrite H5, andb_false_r. apply goes_ret; [symmetry; exact (ld_view _ _ _ _ _ D1) | reflexivity | symmetry; exact (ld_st _ _ _ _ _ D1)].
Qed.

Lemma pow_step ty tya st ts a st1 us b st2 : us <> [] -> etype a = TNum -> etype b = TNum ->
  direct LPrim tya st ts a st1 -> direct LPow ty st1 us b st2 -> direct LPow ty st (ts ++ T_CHAR "^" :: us) (EBin OPow a b) st2.
Proof.
  intros N TA TB HA HB f fuel s L F1 F2 T R C. rewrite app_length in F1, F2. cbn [length] in F1, F2.
  destruct (reads_split _ _ _ _ _ R) as (L1 & R1 & R'). destruct (reads_cons _ _ _ _ _ R') as (L2 & E1 & R2 & R3).
  destruct fuel as [|fuel]; [lia|]. cbn [pf power_expr etype ecode bin_instr].
  apply (goes_bind _ _ _ (etype a) _ L1 (ecode a) st1).
  { apply (HA f (S fuel) s L1 ltac:(lia) ltac:(lia) T R1). rewrite E1. destruct tya; reflexivity. }
  intros s1 D1. apply goes_tok. rewrite (lands_tok _ _ _ _ _ D1), E1, TA. change (vtype_eqb TNum TNum && is_char "^" (T_CHAR "^")) with true. cbv iota.
  apply (goes_then _ _ _ L2 _ _ _ _ (reads_on _ _ _ _ _ _ _ D1 R2)). intros s2 D2.
  pose proof (lands_trans _ _ _ _ _ _ _ _ _ D1 D2) as D12.
  apply (goes_bind _ _ _ (etype b) _ L (ecode b) st2).
  { apply (HB f fuel s2 L ltac:(lia) ltac:(lia)); [rewrite (ld_st _ _ _ _ _ D2); exact (ld_st _ _ _ _ _ D1) | exact (reads_on _ _ _ _ _ _ _ D12 R3)|].
    rewrite (cont_suffix2 _ _ _ _ _ _ N) in C. exact C. }
  intros s3 D3. rewrite TB. change (vtype_eqb TNum TNum) with true. cbv iota.
  apply goes_put. intros s4 D4. apply goes_ret; [rewrite (ld_view _ _ _ _ _ D4); symmetry; exact (ld_view _ _ _ _ _ D3) | reflexivity|].
  rewrite (ld_st _ _ _ _ _ D4). symmetry. exact (ld_st _ _ _ _ _ D3).
Qed.

(* ---------- primaries ---------- *)

Lemma ex_goes ty st ts e st' f s L : direct LOr ty st ts e st' -> length ts < f -> p_st s = st -> reads (p_kw s) (view s) ts L ->
  cont LOr ty ts (fst L) = false -> goes (expression_fuel f) s (etype e) L (ecode e) st'.
Proof. intros H F T R C. destruct f as [|f]; [lia|]. cbn [expression_fuel]. exact (H f (S f) s L ltac:(lia) F T R C). Qed.

(* expressions of fewer than n tokens are read *)
Definition runs (ex : P vtype) (n : nat) : Prop :=
  forall ty st ts e st' s L, direct LOr ty st ts e st' -> solid ts -> length ts < n -> p_st s = st -> reads (p_kw s) (view s) ts L ->
    cont LOr ty ts (fst L) = false -> goes ex s (etype e) L (ecode e) st'.
Lemma runs_fuel f : runs (expression_fuel f) f.
Proof. intros ty st ts e st' s L H _ F T R C. exact (ex_goes _ _ _ _ _ _ _ _ H F T R C). Qed.
Lemma solid_fuel s ts L : reads (p_kw s) (view s) ts L -> Forall (fun t => t <> T_NL) ts -> length ts < S (S (length (p_rest s))).
Proof. intros R F. pose proof (reads_phi _ _ _ _ R F). pose proof (phi_le (p_tok s) (p_rest s)). unfold view in *. lia. Qed.
Lemma runs_expression n : runs expression n.
Proof.
  intros ty st ts e st' s L H SO F T R C. exact (ex_goes _ _ _ _ _ _ _ _ H (solid_fuel _ _ _ R (proj2 SO)) T R C).
Qed.

(* tokens after an expression in parentheses *)
Definition closes (t : token) : Prop := t = RPAREN \/ t = COMMA.
Lemma closes_cont l ty ts t : closes t -> cont l ty ts t = false.
Proof. intros [-> | ->]; destruct l, ty; reflexivity. Qed.

Lemma numeric_goes (ex : P vtype) s e L c st : goes ex s (etype e) L c st -> etype e = TNum -> goes (numeric_expression_ ex) s tt L c st.
Proof.
  intros H T. unfold numeric_expression_. apply (goes_code _ _ _ _ (c ++ [])); [|apply app_nil_r].
  apply (goes_bind _ _ _ _ _ _ _ _ _ _ _ H). intros s1 D1. rewrite T. change (vtype_eqb TNum TNum) with true. cbv iota.
  apply goes_ret; [symmetry; exact (ld_view _ _ _ _ _ D1) | reflexivity | symmetry; exact (ld_st _ _ _ _ _ D1)].
Qed.
Lemma string_goes (ex : P vtype) s e L c st : goes ex s (etype e) L c st -> etype e = TStr -> goes (string_expression_ ex) s tt L c st.
Proof.
  intros H T. unfold string_expression_. apply (goes_code _ _ _ _ (c ++ [])); [|apply app_nil_r].
  apply (goes_bind _ _ _ _ _ _ _ _ _ _ _ H). intros s1 D1. rewrite T. change (vtype_eqb TStr TStr) with true. cbv iota.
  apply goes_ret; [symmetry; exact (ld_view _ _ _ _ _ D1) | reflexivity | symmetry; exact (ld_st _ _ _ _ _ D1)].
Qed.
Lemma arg_goes (ex : P vtype) a s e L c st : goes ex s (etype e) L c st -> arg_ok a e -> goes (builtin_arg ex a) s tt L c st.
Proof. intros H K. destruct a; cbn [arg_ok builtin_arg] in *; first [contradiction | exact (numeric_goes _ _ _ _ _ _ H K) | exact (string_goes _ _ _ _ _ _ H K)]. Qed.

Definition args_go (k : list argkind) (st : symtab) (ts : list token) (es : list expr) (st' : symtab) : Prop :=
  (forall ex f s L, runs ex f -> length ts < f -> p_st s = st -> reads (p_kw s) (view s) ts L -> fst L = RPAREN ->
     goes (match k with [] => pret tt | a :: r => builtin_arg ex a ;;; builtin_args ex r end) s tt L (flat_map ecode es) st') /\
  (k = repeat ArgNum (length es) -> forall t ex f fuel n s L, runs ex f -> length ts < f -> length ts <= fuel -> p_st s = st -> reads (p_kw s) (view s) (t :: ts) L -> fst L = RPAREN ->
     goes (subscripts ex fuel n) s (n + length es) L (flat_map ecode es) st').

Lemma args_last a st ts e st' : solid ts -> direct LOr TNum st ts e st' -> arg_ok a e -> args_go [a] st ts [e] st'.
Proof.
  intros NE H K. split.
  - intros ex f s L RX F T R E. cbn [flat_map]. apply (goes_bind _ _ _ tt _ L (ecode e) st').
    + apply (arg_goes _ _ _ e); [|exact K]. apply (RX TNum _ _ _ _ _ _ H NE F T R). apply closes_cont. left. exact E.
    + intros s1 D1. apply goes_ret; [symmetry; exact (ld_view _ _ _ _ _ D1) | reflexivity | symmetry; exact (ld_st _ _ _ _ _ D1)].
  - intros KK t ex f fuel n s L RX F F2 T R E. cbn [length repeat] in KK. injection KK as ->. cbn [arg_ok length] in *.
    destruct (reads_cons _ _ _ _ _ R) as (L1 & _ & R1 & R2).
    destruct fuel as [|fuel]; [destruct NE as [NE _]; destruct ts; [contradiction | cbn [length] in F2; lia]|]. cbn [subscripts flat_map].
    apply (goes_then _ _ _ L1 _ _ _ _ R1). intros s1 D1. apply (goes_bind _ _ _ tt _ L (ecode e) st').
    + apply (numeric_goes _ _ e); [|exact K]. apply (RX TNum _ _ _ _ _ _ H NE F); [rewrite (ld_st _ _ _ _ _ D1); exact T | exact (reads_on _ _ _ _ _ _ _ D1 R2)|].
      apply closes_cont. left. exact E.
    + intros s2 D2. apply goes_tok. rewrite (lands_tok _ _ _ _ _ D2), E. change (is_char "," RPAREN) with false. cbv iota. rewrite Nat.add_1_r.
      apply goes_ret; [symmetry; exact (ld_view _ _ _ _ _ D2) | reflexivity | symmetry; exact (ld_st _ _ _ _ _ D2)].
Qed.

Lemma args_more a k st ts e st1 us es st2 : solid ts -> k <> [] -> direct LOr TNum st ts e st1 -> arg_ok a e -> args_go k st1 us es st2 ->
  args_go (a :: k) st (ts ++ COMMA :: us) (e :: es) st2.
Proof.
  intros NE NK H K [G1 G2]. split.
  - intros ex f s L RX F T R E. rewrite app_length in F. cbn [length] in F.
    destruct (reads_split _ _ _ _ _ R) as (L1 & R1 & R'). destruct (reads_cons _ _ _ _ _ R') as (L2 & E1 & R2 & R3).
    cbn [flat_map]. apply (goes_bind _ _ _ tt _ L1 (ecode e) st1).
    + apply (arg_goes _ _ _ e); [|exact K]. apply (RX TNum _ _ _ _ _ _ H NE ltac:(lia) T R1). apply closes_cont. right. exact E1.
    + intros s1 D1. destruct k as [|b k]; [contradiction|]. cbn [builtin_args].
      apply (goes_match_char _ _ _ L2 _ _ _ _ (reads_on _ _ _ _ _ _ _ D1 R2)). intros s2 D2. pose proof (lands_trans _ _ _ _ _ _ _ _ _ D1 D2) as D12.
      apply (G1 ex f s2 L RX ltac:(lia)); [rewrite (ld_st _ _ _ _ _ D2); exact (ld_st _ _ _ _ _ D1) | exact (reads_on _ _ _ _ _ _ _ D12 R3) | exact E].
  - intros KK t ex f fuel n s L RX F F2 T R E. rewrite app_length in F, F2. cbn [length] in F, F2. cbn [length repeat] in KK. injection KK as -> KK. cbn [arg_ok] in K.
    destruct (reads_cons _ _ _ _ _ R) as (L0 & _ & R0 & R0').
    destruct (reads_split _ _ _ _ _ R0') as (L1 & R1 & R'). destruct (reads_cons _ _ _ _ _ R') as (L2 & E1 & R2 & R3).
    destruct fuel as [|fuel]; [lia|]. cbn [subscripts flat_map length].
    apply (goes_then _ _ _ L0 _ _ _ _ R0). intros s0 D0. apply (goes_bind _ _ _ tt _ L1 (ecode e) st1).
    + apply (numeric_goes _ _ e); [|exact K]. apply (RX TNum _ _ _ _ _ _ H NE ltac:(lia)); [rewrite (ld_st _ _ _ _ _ D0); exact T | exact (reads_on _ _ _ _ _ _ _ D0 R1)|].
      apply closes_cont. right. exact E1.
    + intros s1 D1. pose proof (lands_trans _ _ _ _ _ _ _ _ _ D0 D1) as D01. apply goes_tok. rewrite (lands_tok _ _ _ _ _ D1), E1. change (is_char "," COMMA) with true. cbv iota.
      replace (n + S (length es)) with (S n + length es) by lia.
      destruct NE as [NE _]; destruct ts as [|t0 ts]; [contradiction|]. cbn [length] in F, F2.
      apply (G2 KK COMMA ex f fuel (S n) s1 L RX ltac:(lia) ltac:(lia)); [exact (ld_st _ _ _ _ _ D1) | | exact E].
      apply (reads_on _ _ _ _ _ _ _ D01). exact R'.
Qed.

(* a use of a name *)
Definition use_go (k : skind) (st : symtab) (ts : list token) (name : bytes) (y : symbol) (es : list expr) (st' : symtab) : Prop :=
  exists p, nth_error (st_syms st') p = Some y /\
  forall ex f fuel s L, runs ex f -> length ts <= S f -> length ts < fuel -> p_st s = st -> reads (p_kw s) (view s) ts L -> (is_char "(" (fst L) && ends_id ts = false) ->
    goes (identifier_ ex fuel k) s (p, length es) L (flat_map ecode es) st'.

(* the symbol table's part of identifier_ *)
Definition find_symbol (name : bytes) (k : skind) (params : nat) : P (nat * nat) :=
  let paren := negb (Nat.eqb params 0) in
  fun s =>
    match sym_lookup (p_st s) name paren with
    | Some p =>
        if paren then
          match nth_error (st_syms (p_st s)) p with
          | None => PCrash
          | Some sym =>
              if skind_eqb (s_kind sym) KUnknown
              then POk (p, params) (set_pst (sym_update (p_st s) p (set_kind sym k)) s)
              else if negb (skind_eqb k KUnknown) && negb (skind_eqb (s_kind sym) k)
              then PErr (PE_kind k (s_kind sym) name) s
              else POk (p, params) s
          end
        else POk (p, params) s
    | None =>
        let (st', p) := sym_insert (p_st s) name (if paren then k else KVariable) (name_type name) in
        POk (p, params) (set_pst st' s)
    end.

Lemma skind_eqb_iff a b : skind_eqb a b = true <-> a = b.
Proof. destruct a, b; cbn; split; intros H; congruence. Qed.
Lemma skind_eqb_no a b : a <> b -> skind_eqb a b = false.
Proof. intros H. destruct (skind_eqb a b) eqn:E; [apply skind_eqb_iff in E; contradiction | reflexivity]. Qed.

Lemma find_goes k name n st y st' : occurs k name (negb (Nat.eqb n 0)) st y st' ->
  exists p, nth_error (st_syms st') p = Some y /\ forall s, p_st s = st -> goes (find_symbol name k n) s (p, n) (view s) [] st'.
Proof.
  intros O. unfold find_symbol. destruct O as [p y P L E | p y P L E N U | p y P L E U | st1 p y L I E].
  - exists p. split; [exact E|]. intros s <-. unfold goes. rewrite P in *. rewrite L. exists s. split; [reflexivity | apply lands_refl].
  - exists p. split; [exact E|]. intros s <-. unfold goes. rewrite P in *. rewrite L, E. rewrite (skind_eqb_no _ _ N).
    replace (negb (skind_eqb k KUnknown) && negb (skind_eqb (s_kind y) k)) with false.
    + exists s. split; [reflexivity | apply lands_refl].
    + destruct U as [-> | <-]; [reflexivity|]. replace (skind_eqb (s_kind y) (s_kind y)) with true by (symmetry; apply skind_eqb_iff; reflexivity).
      symmetry. apply andb_false_r.
  - exists p. split; [apply nth_error_list_upd_eq; apply nth_error_Some; congruence|]. intros s <-. unfold goes. rewrite P in *. rewrite L, E.
    replace (skind_eqb (s_kind y) KUnknown) with true by (symmetry; apply skind_eqb_iff; exact U). eexists. split; [reflexivity|]. split; reflexivity.
  - exists p. split; [exact E|]. intros s <-. unfold goes. rewrite L. rewrite name_type_eq, I. eexists. split; [reflexivity|]. split; reflexivity.
Qed.

Lemma use_simple k name st y st' : occurs k name false st y st' -> use_go k st [T_ID name] name y [] st'.
Proof.
  intros O. destruct (find_goes k name 0 st y st' O) as (p & E & H). exists p. split; [exact E|].
  intros ex f fuel s L RX F1 F2 T R C. unfold identifier_. apply goes_tok. rewrite (reads_tok _ _ _ _ R).
  cbn [flat_map]. apply (goes_bind match_id _ s tt _ L [] (p_st s)).
  { unfold match_id. apply goes_tok. rewrite (reads_tok _ _ _ _ R). cbn [is_id]. exact (goes_next _ _ _ R). }
  intros s1 D1. apply goes_tok. rewrite (lands_tok _ _ _ _ _ D1). cbn in C. rewrite andb_true_r in C. rewrite C.
  apply (goes_bind (pret 0) _ s1 0 _ (view s1) [] (p_st s1)); [apply goes_ret; reflexivity|]. intros s2 D2.
  pose proof (H s2) as X. rewrite (ld_st _ _ _ _ _ D2), (ld_st _ _ _ _ _ D1), (ld_view _ _ _ _ _ D2), (ld_view _ _ _ _ _ D1) in X. exact (X T).
Qed.

Lemma use_paren k name st ts es st1 y st' : es <> [] -> args_go (repeat ArgNum (length es)) st ts es st1 -> occurs k name true st1 y st' ->
  use_go k st (T_ID name :: LPAREN :: ts ++ [RPAREN]) name y es st'.
Proof.
  intros NE [_ G] O. replace true with (negb (Nat.eqb (length es) 0)) in O by (destruct es; [contradiction | reflexivity]).
  destruct (find_goes k name (length es) st1 y st' O) as (p & E & H). exists p. split; [exact E|].
  intros ex f fuel s L RX F1 F2 T R C. cbn [length] in F1, F2. rewrite app_length in F1, F2. cbn [length] in F1, F2.
  destruct (reads_cons _ _ _ _ _ R) as (L1 & T1 & R1 & R'). destruct (reads_cons _ _ _ _ _ R') as (L2 & T2 & R2 & R'').
  destruct (reads_split _ _ _ _ _ R'') as (L3 & R3 & R4).
  assert (T3 : fst L3 = RPAREN) by (destruct (reads_cons _ _ _ _ _ R4) as (? & X & _); exact X).
  unfold identifier_. apply goes_tok. rewrite (reads_tok _ _ _ _ R).
  apply (goes_code _ _ _ _ ([] ++ flat_map ecode es)); [|reflexivity]. apply (goes_bind match_id _ s tt _ L1 [] (p_st s)).
  { unfold match_id. apply goes_tok. rewrite (reads_tok _ _ _ _ R). cbn [is_id]. exact (goes_next _ _ _ R1). }
  intros s1 D1. apply goes_tok. rewrite (lands_tok _ _ _ _ _ D1), T2. change (is_char "(" LPAREN) with true. cbv iota.
  apply (goes_code _ _ _ _ (flat_map ecode es ++ [])); [|apply app_nil_r].
  apply (goes_bind _ _ _ (length es) _ L (flat_map ecode es) st1).
  { apply (goes_code _ _ _ _ (flat_map ecode es ++ [])); [|apply app_nil_r]. apply (goes_bind _ _ _ (0 + length es) _ L3 (flat_map ecode es) st1).
    - apply (G eq_refl LPAREN ex f fuel 0 s1 L3 RX ltac:(lia) ltac:(lia)); [rewrite (ld_st _ _ _ _ _ D1); exact T | | exact T3].
      apply (reads_on _ _ _ _ _ _ _ D1). eapply (reads_app _ _ [LPAREN]); [exact R2 | exact R3].
    - intros s2 D2. pose proof (lands_trans _ _ _ _ _ _ _ _ _ D1 D2) as D12.
      apply (goes_match_char _ _ _ L _ _ _ _ (reads_on _ _ _ _ _ _ _ D12 R4)). intros s3 D3.
      apply goes_ret; [symmetry; exact (ld_view _ _ _ _ _ D3) | reflexivity|]. rewrite (ld_st _ _ _ _ _ D3). symmetry. exact (ld_st _ _ _ _ _ D2). }
  intros s2 D2. pose proof (H s2) as X. rewrite (ld_view _ _ _ _ _ D2) in X. exact (X (ld_st _ _ _ _ _ D2)).
Qed.

Lemma prim_num ty st x w : direct LPrim ty st [T_NUM x w] (ENum x) st.
Proof.
  intros f fuel s L F1 F2 T R C. cbn [pf]. unfold primary_expression. apply goes_tok. rewrite (reads_tok _ _ _ _ R). cbn [etype ecode].
  apply goes_put. intros s1 D1. apply (goes_then _ _ (T_NUM x w) L); [apply (reads_on _ _ _ _ _ _ _ D1); exact R|]. intros s2 D2.
  apply goes_ret; [symmetry; exact (ld_view _ _ _ _ _ D2) | reflexivity|]. rewrite (ld_st _ _ _ _ _ D2), (ld_st _ _ _ _ _ D1). symmetry. exact T.
Qed.
Lemma prim_str ty st w : direct LPrim ty st [T_STR w] (EStr w) st.
Proof.
  intros f fuel s L F1 F2 T R C. cbn [pf]. unfold primary_expression. apply goes_tok. rewrite (reads_tok _ _ _ _ R). cbn [etype ecode].
  apply goes_put. intros s1 D1. apply (goes_then _ _ (T_STR w) L); [apply (reads_on _ _ _ _ _ _ _ D1); exact R|]. intros s2 D2.
  apply goes_ret; [symmetry; exact (ld_view _ _ _ _ _ D2) | reflexivity|]. rewrite (ld_st _ _ _ _ _ D2), (ld_st _ _ _ _ _ D1). symmetry. exact T.
Qed.

Lemma prim_paren ty st ts e st' : direct LOr TNum st ts e st' -> etype e <> TErr -> direct LPrim ty st (LPAREN :: ts ++ [RPAREN]) e st'.
Proof.
  intros H NE f fuel s L F1 F2 T R C. cbn [length] in F1, F2. rewrite app_length in F1, F2. cbn [length] in F1, F2.
  destruct (reads_cons _ _ _ _ _ R) as (L1 & T1 & R1 & R'). destruct (reads_split _ _ _ _ _ R') as (L2 & R2 & R3).
  assert (T3 : fst L2 = RPAREN) by (destruct (reads_cons _ _ _ _ _ R3) as (? & X & _); exact X).
  cbn [pf]. unfold primary_expression. apply goes_tok. rewrite (reads_tok _ _ _ _ R). change (is_char "(" LPAREN) with true. unfold LPAREN at 1. cbv iota.
  apply (goes_then _ _ _ L1 _ _ _ _ R1). intros s1 D1. apply (goes_code _ _ _ _ (ecode e ++ [])); [|apply app_nil_r].
  apply (goes_bind _ _ _ (etype e) _ L2 (ecode e) st').
  { apply (ex_goes TNum _ _ _ _ f _ _ H ltac:(lia)); [rewrite (ld_st _ _ _ _ _ D1); exact T | exact (reads_on _ _ _ _ _ _ _ D1 R2)|]. apply closes_cont. left. exact T3. }
  intros s2 D2. pose proof (lands_trans _ _ _ _ _ _ _ _ _ D1 D2) as D12.
  replace (vtype_eqb (etype e) TErr) with false by (symmetry; apply vtype_eqb_false; exact NE).
  apply (goes_match_char _ _ _ L _ _ _ _ (reads_on _ _ _ _ _ _ _ D12 R3)). intros s3 D3.
  apply goes_ret; [symmetry; exact (ld_view _ _ _ _ _ D3) | reflexivity|]. rewrite (ld_st _ _ _ _ _ D3). symmetry. exact (ld_st _ _ _ _ _ D2).
Qed.

Lemma cont_paren l ty ts t : cont l ty ts t = false -> is_char "(" t && ends_id ts = false.
Proof. unfold cont. intros C. repeat (apply orb_false_iff in C; let H := fresh "H" in destruct C as [C H]). exact C. Qed.

Lemma prim_name ty st ts name y args st' : find_builtin name = None -> (exists r, ts = T_ID name :: r) -> use_go KUnknown st ts name y args st' ->
  direct LPrim ty st ts (match args with [] => EVar (s_id y) (s_type y) | _ => EElem (s_id y) (s_type y) args end) st'.
Proof.
  intros NB (r & ->) (p & E & H) f fuel s L F1 F2 T R C. cbn [pf]. unfold primary_expression. apply goes_tok. rewrite (reads_tok _ _ _ _ R), NB.
  apply (goes_code _ _ _ _ (flat_map ecode args ++ [match args with [] => get_instr (s_id y) (s_type y) | _ => paren_instr (s_id y) (s_type y) (length args) end]));
    [|destruct args; reflexivity].
  apply (goes_bind _ _ _ (p, length args) _ L (flat_map ecode args) st'); [exact (H _ f fuel s L (runs_fuel f) ltac:(lia) F2 T R (cont_paren _ _ _ _ C))|]. intros s1 D1.
  apply (goes_bind (psym p) _ s1 y _ (view s1) [] (p_st s1)).
  { unfold goes, psym. rewrite (ld_st _ _ _ _ _ D1), E. exists s1. split; [reflexivity|]. rewrite <- (ld_st _ _ _ _ _ D1). apply lands_refl. }
  intros s2 D2. pose proof (lands_trans _ _ _ _ _ _ _ _ _ D1 D2) as D12.
  match goal with |- goes (pbind (emit_ ?i) _) _ _ _ [?j] _ => assert (EI : i = j) end.
  { destruct args; cbn [length]; unfold get_instr, paren_instr; destruct (s_type y); reflexivity. }
  rewrite EI. apply (goes_value _ _ (s_type y)); [|destruct args; reflexivity].
  apply goes_put. intros s3 D3. apply goes_ret; [rewrite (ld_view _ _ _ _ _ D3), (ld_view _ _ _ _ _ D2); symmetry; exact (ld_view _ _ _ _ _ D1) | reflexivity|].
  rewrite (ld_st _ _ _ _ _ D3), (ld_st _ _ _ _ _ D2). symmetry. exact (ld_st _ _ _ _ _ D1).
Qed.

Lemma prim_fun ty w b st ts args st' : find_builtin w = Some b -> bi_type b <> TErr -> bi_args b <> [] -> hd ArgNum (bi_args b) <> ArgDummy ->
  args_go (bi_args b) st ts args st' -> direct LPrim ty st (T_ID w :: LPAREN :: ts ++ [RPAREN]) (EFun b args) st'.
Proof.
  intros FB NE NN ND [G _] f fuel s L F1 F2 T R C. cbn [length] in F1, F2. rewrite app_length in F1, F2. cbn [length] in F1, F2.
  destruct (reads_cons _ _ _ _ _ R) as (L1 & T1 & R1 & R'). destruct (reads_cons _ _ _ _ _ R') as (L2 & T2 & R2 & R'').
  destruct (reads_split _ _ _ _ _ R'') as (L3 & R3 & R4).
  assert (T3 : fst L3 = RPAREN) by (destruct (reads_cons _ _ _ _ _ R4) as (? & X & _); exact X).
  cbn [pf]. unfold primary_expression. apply goes_tok. rewrite (reads_tok _ _ _ _ R), FB.
  replace (vtype_eqb (bi_type b) TErr) with false by (symmetry; apply vtype_eqb_false; exact NE). cbn [etype ecode].
  apply (goes_then _ _ _ L1 _ _ _ _ R1). intros s1 D1.
  apply (goes_bind _ _ _ tt _ L (flat_map ecode args) st').
  - assert (X : goes (match_char "(" ;;; (match bi_args b with [] => pret tt | a :: r => builtin_arg (expression_fuel f) a ;;; builtin_args (expression_fuel f) r end) ;;; match_char ")")
                s1 tt L (flat_map ecode args) st').
    { apply (goes_match_char _ _ _ L2 _ _ _ _ (reads_on _ _ _ _ _ _ _ D1 R2)). intros s2 D2. pose proof (lands_trans _ _ _ _ _ _ _ _ _ D1 D2) as D12.
      apply (goes_code _ _ _ _ (flat_map ecode args ++ [])); [|apply app_nil_r]. apply (goes_bind _ _ _ tt _ L3 (flat_map ecode args) st').
      - apply (G _ f s2 L3 (runs_fuel f) ltac:(lia)); [rewrite (ld_st _ _ _ _ _ D2), (ld_st _ _ _ _ _ D1); exact T | exact (reads_on _ _ _ _ _ _ _ D12 R3) | exact T3].
      - intros s3 D3. pose proof (lands_trans _ _ _ _ _ _ _ _ _ D12 D3) as D123.
        pose proof (goes_match_char_end ")" s3 L (reads_on _ _ _ _ _ _ _ D123 R4)) as Y. rewrite (ld_st _ _ _ _ _ D3) in Y. exact Y. }
    clear - X NN ND. destruct (bi_args b) as [|a r]; [contradiction|]. destruct a; cbn [hd] in ND; try contradiction.
    + destruct X as (s' & X & Y). exists s'. split; [|exact Y]. rewrite <- X. unfold pbind. destruct (match_char "(" s1) as [u s2| | | |]; try reflexivity.
      destruct (builtin_arg (expression_fuel f) ArgNum s2); reflexivity.
    + destruct X as (s' & X & Y). exists s'. split; [|exact Y]. rewrite <- X. unfold pbind. destruct (match_char "(" s1) as [u s2| | | |]; try reflexivity.
      destruct (builtin_arg (expression_fuel f) ArgStr s2); reflexivity.
  - intros s2 D2. apply goes_put. intros s3 D3. apply goes_ret; [rewrite (ld_view _ _ _ _ _ D3); symmetry; exact (ld_view _ _ _ _ _ D2) | reflexivity|].
    rewrite (ld_st _ _ _ _ _ D3). symmetry. exact (ld_st _ _ _ _ _ D2).
Qed.

Lemma prim_bare ty w b r st : find_builtin w = Some b -> bi_type b <> TErr -> bi_args b = ArgDummy :: r -> direct LPrim ty st [T_ID w] (EFun b []) st.
Proof.
  intros FB NE A f fuel s L F1 F2 T R C. cbn [pf]. unfold primary_expression. apply goes_tok. rewrite (reads_tok _ _ _ _ R), FB.
  replace (vtype_eqb (bi_type b) TErr) with false by (symmetry; apply vtype_eqb_false; exact NE). cbn [etype ecode flat_map app]. rewrite A.
  apply (goes_then _ _ _ L _ _ _ _ R). intros s1 D1. apply (goes_bind _ _ _ tt _ L [] st).
  - apply goes_tok. rewrite (lands_tok _ _ _ _ _ D1). pose proof (cont_paren _ _ _ _ C) as X. cbn in X. rewrite andb_true_r in X. rewrite X.
    apply goes_ret; [symmetry; exact (ld_view _ _ _ _ _ D1) | reflexivity|]. rewrite (ld_st _ _ _ _ _ D1). symmetry. exact T.
  - intros s2 D2. apply goes_put. intros s3 D3. apply goes_ret; [rewrite (ld_view _ _ _ _ _ D3); symmetry; exact (ld_view _ _ _ _ _ D2) | reflexivity|].
    rewrite (ld_st _ _ _ _ _ D3). symmetry. exact (ld_st _ _ _ _ _ D2).
Qed.

Lemma prim_nothing ty w b r st : find_builtin w = Some b -> bi_type b <> TErr -> bi_args b = ArgDummy :: r ->
  direct LPrim ty st [T_ID w; LPAREN; RPAREN] (EFun b []) st.
Proof.
  intros FB NE A f fuel s L F1 F2 T R C. destruct (reads_cons _ _ _ _ _ R) as (L1 & T1 & R1 & R'). destruct (reads_cons _ _ _ _ _ R') as (L2 & T2 & R2 & R3).
  assert (T3 : fst L2 = RPAREN) by (destruct (reads_cons _ _ _ _ _ R3) as (? & X & _); exact X).
  cbn [pf]. unfold primary_expression. apply goes_tok. rewrite (reads_tok _ _ _ _ R), FB.
  replace (vtype_eqb (bi_type b) TErr) with false by (symmetry; apply vtype_eqb_false; exact NE). cbn [etype ecode flat_map app]. rewrite A.
  apply (goes_then _ _ _ L1 _ _ _ _ R1). intros s1 D1. apply (goes_bind _ _ _ tt _ L [] st).
  - apply goes_tok. rewrite (lands_tok _ _ _ _ _ D1), T2. change (is_char "(" LPAREN) with true. cbv iota.
    apply (goes_then _ _ _ L2 _ _ _ _ (reads_on _ _ _ _ _ _ _ D1 R2)). intros s2 D2. pose proof (lands_trans _ _ _ _ _ _ _ _ _ D1 D2) as D12.
    apply goes_tok. rewrite (lands_tok _ _ _ _ _ D2), T3. change (is_char ")" RPAREN) with true. cbv iota.
    apply (goes_bind (pret tt) _ s2 tt _ (view s2) [] (p_st s2)); [apply goes_ret; reflexivity|]. intros s3 D3.
    pose proof (lands_trans _ _ _ _ _ _ _ _ _ D12 D3) as D123. rewrite (ld_view _ _ _ _ _ D2) in D123.
    pose proof (goes_match_char_end ")" s3 L (reads_on _ _ _ _ _ _ _ D123 R3)) as Y.
    rewrite (ld_st _ _ _ _ _ D3), (ld_st _ _ _ _ _ D2), (ld_st _ _ _ _ _ D1), T in Y. exact Y.
  - intros s2 D2. apply goes_put. intros s3 D3. apply goes_ret; [rewrite (ld_view _ _ _ _ _ D3); symmetry; exact (ld_view _ _ _ _ _ D2) | reflexivity|].
    rewrite (ld_st _ _ _ _ _ D3). symmetry. exact (ld_st _ _ _ _ _ D2).
Qed.

Lemma prim_drop ty w b r st ts e st' : find_builtin w = Some b -> bi_type b <> TErr -> bi_args b = ArgDummy :: r ->
  (exists t u, ts = t :: u /\ is_char ")" t = false) ->
  direct LOr TNum st ts e st' -> direct LPrim ty st (T_ID w :: LPAREN :: ts ++ [RPAREN]) (EDrop b e) st'.
Proof.
  intros FB NE A (t & u & -> & NT) H f fuel s L F1 F2 T R C. cbn [length] in F1, F2. rewrite app_length in F1, F2. cbn [length] in F1, F2.
  destruct (reads_cons _ _ _ _ _ R) as (L1 & T1 & R1 & R'). destruct (reads_cons _ _ _ _ _ R') as (L2 & T2 & R2 & R'').
  destruct (reads_split _ _ _ _ _ R'') as (L3 & R3 & R4).
  assert (T2' : fst L2 = t) by (destruct (reads_cons _ _ _ _ _ R3) as (? & X & _); exact X).
  assert (T3 : fst L3 = RPAREN) by (destruct (reads_cons _ _ _ _ _ R4) as (? & X & _); exact X).
  cbn [pf]. unfold primary_expression. apply goes_tok. rewrite (reads_tok _ _ _ _ R), FB.
  replace (vtype_eqb (bi_type b) TErr) with false by (symmetry; apply vtype_eqb_false; exact NE). cbn [etype ecode]. rewrite A.
  apply (goes_then _ _ _ L1 _ _ _ _ R1). intros s1 D1. rewrite app_assoc. apply (goes_bind _ _ _ tt _ L (ecode e ++ drop_code (etype e)) st').
  - apply goes_tok. rewrite (lands_tok _ _ _ _ _ D1), T2. change (is_char "(" LPAREN) with true. cbv iota.
    apply (goes_then _ _ _ L2 _ _ _ _ (reads_on _ _ _ _ _ _ _ D1 R2)). intros s2 D2. pose proof (lands_trans _ _ _ _ _ _ _ _ _ D1 D2) as D12.
    apply goes_tok. rewrite (lands_tok _ _ _ _ _ D2), T2', NT.
    apply (goes_code _ _ _ _ ((ecode e ++ drop_code (etype e)) ++ [])); [|apply app_nil_r].
    apply (goes_bind _ _ _ tt _ L3 (ecode e ++ drop_code (etype e)) st').
    + unfold discard_expression_. apply (goes_bind _ _ _ (etype e) _ L3 (ecode e) st').
      * apply (ex_goes TNum _ _ _ _ f _ _ H ltac:(cbn [length]; lia)); [rewrite (ld_st _ _ _ _ _ D2), (ld_st _ _ _ _ _ D1); exact T | exact (reads_on _ _ _ _ _ _ _ D12 R3)|].
        apply closes_cont. left. exact T3.
      * intros s3 D3. destruct (etype e); cbn [drop_code].
        -- apply goes_ret; [symmetry; exact (ld_view _ _ _ _ _ D3) | reflexivity | symmetry; exact (ld_st _ _ _ _ _ D3)].
        -- pose proof (goes_emit I_POP_NUM s3) as Y. rewrite (ld_view _ _ _ _ _ D3), (ld_st _ _ _ _ _ D3) in Y. exact Y.
        -- pose proof (goes_emit I_POP_STR s3) as Y. rewrite (ld_view _ _ _ _ _ D3), (ld_st _ _ _ _ _ D3) in Y. exact Y.
    + intros s3 D3. pose proof (lands_trans _ _ _ _ _ _ _ _ _ D12 D3) as D123.
      pose proof (goes_match_char_end ")" s3 L (reads_on _ _ _ _ _ _ _ D123 R4)) as Y. rewrite (ld_st _ _ _ _ _ D3) in Y. exact Y.
  - intros s2 D2. apply goes_put. intros s3 D3. apply goes_ret; [rewrite (ld_view _ _ _ _ _ D3); symmetry; exact (ld_view _ _ _ _ _ D2) | reflexivity|].
    rewrite (ld_st _ _ _ _ _ D3). symmetry. exact (ld_st _ _ _ _ _ D2).
Qed.

(* ---------- all expressions ---------- *)

Definition proper (e : expr) : Prop := everywhere (fun x => etype x <> TErr) e.

Lemma proper_type e : proper e -> etype e <> TErr.
Proof. destruct e; intros H; exact (proj1 H). Qed.

Lemma cont_num l ty ts t : cont l TNum ts t = false -> cont l ty ts t = false.
Proof.
  unfold cont. intros H. repeat (apply orb_false_iff in H; destruct H as [H ?]).
  repeat (apply orb_false_iff; split); try assumption. destruct l; auto; cbn [vtype_eqb andb] in *; destruct (is_char "+" t), (is_char "-" t); try discriminate;
  cbn [orb]; apply andb_false_r.
Qed.
Lemma direct_num l ty st ts e st' : direct l ty st ts e st' -> direct l TNum st ts e st'.
Proof. intros H f fuel s L F1 F2 T R C. exact (H f fuel s L F1 F2 T R (cont_num _ _ _ _ C)). Qed.

Definition full (l : level) (st : symtab) (ts : list token) (e : expr) (st' : symtab) : Prop :=
  match l with
  | LOr | LAnd => looped l TNum st ts e st'
  | LNot | LRel => direct l TNum st ts e st'
  | LAdd | LMul => forall ty, looped l ty st ts e st'
  | LNeg | LPow | LPrim => forall ty, direct l ty st ts e st'
  end.

Lemma full_direct l st ts e st' : full l st ts e st' -> direct l (match l with LAdd => etype e | _ => TNum end) st ts e st'.
Proof.
  intros H. destruct l; cbn [full] in H; auto.
  - apply looped_direct; [left; reflexivity | discriminate | exact H].
  - apply looped_direct; [right; left; reflexivity | discriminate | exact H].
  - apply looped_direct; [right; right; left; reflexivity | reflexivity | apply H].
  - apply looped_direct; [right; right; right; reflexivity | discriminate | apply H].
Qed.
Lemma full_mul ty st ts e st' : full LMul st ts e st' -> direct LMul ty st ts e st'.
Proof. intros H. apply looped_direct; [right; right; right; reflexivity | discriminate | apply H]. Qed.

Lemma pow_start t : starts LPow t = true -> is_char "-" t = false.
Proof.
  intros X. destruct t; try reflexivity. cbn [starts is_char] in *. rewrite andb_false_r, orb_false_r in X. apply ceq_eq in X. subst c. reflexivity.
Qed.

Lemma full_up l st ts e st' : l <> LPrim -> gram (tighter l) st ts e st' -> full (tighter l) st ts e st' -> full l st ts e st'.
Proof.
  intros N G H. destruct l; cbn [full tighter] in *.
  - apply direct_looped. apply (full_direct LAnd). exact H.
  - apply direct_looped. exact H.
  - apply (not_step TNum 0 st ts e st'); [|left; reflexivity | exact H].
    destruct (proj1 gram_starts _ _ _ _ _ G) as (t & r & E & X). exists t, r. split; [exact E|]. destruct t; try reflexivity. destruct k; discriminate X || reflexivity.
  - apply direct_num with (ty := etype e). apply rel_none. apply (full_direct LAdd). exact H.
  - intros ty. apply direct_looped. apply full_mul. exact H.
  - intros ty. apply direct_looped. apply H.
  - intros ty. apply (neg_step ty 0 st ts e st'); [|left; reflexivity | apply H].
    destruct (proj1 gram_starts _ _ _ _ _ G) as (t & r & E & X). exists t, r. split; [exact E|]. exact (pow_start _ X).
  - intros ty. apply pow_none. apply H.
  - contradiction.
Qed.

Lemma full_op o st ts a st1 us b st2 : looping (op_level o) -> op_types o (etype a) (etype b) -> us <> [] ->
  full (op_level o) st ts a st1 -> full (tighter (op_level o)) st1 us b st2 -> full (op_level o) st (ts ++ op_token o :: us) (EBin o a b) st2.
Proof.
  intros LP TY N HA HB. pose proof (full_direct _ _ _ _ _ HB) as DB.
  destruct o; cbn [op_level] in *; try (destruct LP as [E | [E | [E | E]]]; discriminate E); cbn [full tighter] in *.
  - exact (looped_op OOr TNum TNum st ts a st1 us b st2 LP TY N HA DB).
  - exact (looped_op OAnd TNum TNum st ts a st1 us b st2 LP TY N HA DB).
  - intros ty. exact (looped_op OAdd ty TNum st ts a st1 us b st2 LP TY N (HA _) (full_mul ty _ _ _ _ HB)).
  - intros ty. exact (looped_op OSub ty TNum st ts a st1 us b st2 LP TY N (HA _) (full_mul ty _ _ _ _ HB)).
  - intros ty. exact (looped_op OMul ty TNum st ts a st1 us b st2 LP TY N (HA _) (HB ty)).
  - intros ty. exact (looped_op ODiv ty TNum st ts a st1 us b st2 LP TY N (HA _) (HB ty)).
Qed.

Lemma proper_all l : (fix all (l : list expr) : Prop := match l with [] => True | a :: r => proper a /\ all r end) l -> Forall proper l.
Proof. induction l as [|a l IH]; intros H; constructor; [exact (proj1 H) | exact (IH (proj2 H))]. Qed.

Lemma gargs_some k st ts es st' : gargs k st ts es st' -> k <> [] /\ es <> [] /\ hd ArgNum k <> ArgDummy.
Proof. intros H. destruct H; repeat split; try discriminate; cbn [hd]; intros ->; assumption. Qed.

Lemma gram_full :
  (forall l st ts e st', gram l st ts e st' -> proper e -> full l st ts e st') /\
  (forall k st ts es st', gargs k st ts es st' -> Forall proper es -> args_go k st ts es st') /\
  (forall k st ts name s es st', guse k st ts name s es st' -> Forall proper es -> use_go k st ts name s es st').
Proof.
  pose proof gram_solid as (SG & SA & SU). pose proof gram_starts as (BG & BA & BU).
  apply gram_ind3.
  - intros l st ts e st' N G IH PR. exact (full_up _ _ _ _ _ N G (IH PR)).
  - intros st ts a st1 us b st2 GA IA GB IB TA TB (_ & PA & PB). apply (full_op OOr st ts a st1 us b st2); [left; reflexivity | split; congruence | apply (SG _ _ _ _ _ GB) | exact (IA PA) | exact (IB PB)].
  - intros st ts a st1 us b st2 GA IA GB IB TA TB (_ & PA & PB). apply (full_op OAnd st ts a st1 us b st2); [right; left; reflexivity | split; congruence | apply (SG _ _ _ _ _ GB) | exact (IA PA) | exact (IB PB)].
  - intros n st ts a st' G IH TA (_ & PA). apply (not_step TNum (S n) st ts a st'); [|right; exact TA | exact (IH PA)].
    destruct (BG _ _ _ _ _ G) as (t & r & E & X). exists t, r. split; [exact E|]. destruct t; try reflexivity. destruct k; discriminate X || reflexivity.
  - intros r st ts a st1 us b st2 GA IA GB IB TY NE (_ & PA & PB). cbn [full]. apply direct_num with (ty := etype b).
    apply (rel_step (etype b) (etype a) r st ts a st1 us b st2); [apply (SG _ _ _ _ _ GB) | exact TY | exact NE | apply (full_direct LAdd); exact (IA PA) | apply (full_direct LAdd); exact (IB PB)].
  - intros st ts a st1 us b st2 GA IA GB IB TY NE (_ & PA & PB). apply (full_op OAdd st ts a st1 us b st2); [right; right; left; reflexivity | split; assumption | apply (SG _ _ _ _ _ GB) | exact (IA PA) | exact (IB PB)].
  - intros st ts a st1 us b st2 GA IA GB IB TA TB (_ & PA & PB). apply (full_op OSub st ts a st1 us b st2); [right; right; left; reflexivity | split; congruence | apply (SG _ _ _ _ _ GB) | exact (IA PA) | exact (IB PB)].
  - intros st ts a st1 us b st2 GA IA GB IB TA TB (_ & PA & PB). apply (full_op OMul st ts a st1 us b st2); [right; right; right; reflexivity | split; congruence | apply (SG _ _ _ _ _ GB) | exact (IA PA) | exact (IB PB)].
  - intros st ts a st1 us b st2 GA IA GB IB TA TB (_ & PA & PB). apply (full_op ODiv st ts a st1 us b st2); [right; right; right; reflexivity | split; congruence | apply (SG _ _ _ _ _ GB) | exact (IA PA) | exact (IB PB)].
  - intros n st ts a st' G IH TA (_ & PA) ty. apply (neg_step ty (S n) st ts a st'); [|right; exact TA | exact (IH PA ty)].
    destruct (BG _ _ _ _ _ G) as (t & r & E & X). exists t, r. split; [exact E|]. exact (pow_start _ X).
  - intros st ts a st1 us b st2 GA IA GB IB TA TB (_ & PA & PB) ty. exact (pow_step ty TNum _ _ _ _ _ _ _ (proj1 (SG _ _ _ _ _ GB)) TA TB (IA PA TNum) (IB PB ty)).
  - intros st ts a st1 us b st2 GA IA GB IB TA TB (X & _). exfalso. apply X. reflexivity.
  - intros r st ts a st1 us b st2 GA IA GB IB TA TB (X & _). exfalso. apply X. reflexivity.
  - intros st x w _ ty. apply prim_num.
  - intros st w _ ty. apply prim_str.
  - intros st ts e st' G IH NE PR ty. apply prim_paren; [apply (full_direct LOr); exact (IH PR) | exact NE].
  - intros st ts e st' G IH TE PR ty. exfalso. exact (proper_type _ PR TE).
  - intros st ts name s args st' NB U IH PR ty. apply (prim_name ty st ts name); [exact NB | exact (BU _ _ _ _ _ _ _ U)|]. apply IH.
    destruct args; [constructor|]. apply proper_all. exact (proj2 PR).
  - intros w b st ts args st' FB NE G IH PR ty. destruct (gargs_some _ _ _ _ _ G) as (N1 & N2 & N3). apply prim_fun; auto. apply IH. apply proper_all. exact (proj2 PR).
  - intros w b r st FB NE A PR ty. exact (prim_bare ty w b r st FB NE A).
  - intros w b r st FB NE A PR ty. exact (prim_nothing ty w b r st FB NE A).
  - intros w b r st ts e st' FB NE A G IH (_ & PR) ty. apply (prim_drop ty w b r); auto; [|apply (full_direct LOr); exact (IH PR)].
    destruct (BG _ _ _ _ _ G) as (t & u & E & X). exists t, u. split; [exact E|]. destruct t; try reflexivity.
    cbn [starts is_char] in *. destruct (ceq c ")") eqn:EC; [|reflexivity]. apply ceq_eq in EC. subst c. discriminate X.
  - intros a st ts e st' G IH K PR. apply args_last; [exact (SG _ _ _ _ _ G) | apply (full_direct LOr); exact (IH (Forall_inv PR)) | exact K].
  - intros a k st ts e st1 us es st2 G IH K GA IA PR.
    apply (args_more a k st ts e st1 us es st2); [exact (SG _ _ _ _ _ G) | apply (gargs_some _ _ _ _ _ GA) | apply (full_direct LOr); exact (IH (Forall_inv PR)) | exact K | exact (IA (Forall_inv_tail PR))].
  - intros k name st s st' O _. exact (use_simple _ _ _ _ _ O).
  - intros k name st ts es st1 s st' G IH O PR. destruct (gargs_some _ _ _ _ _ G) as (_ & N & _). exact (use_paren k name st ts es st1 s st' N (IH PR) O).
Qed.
