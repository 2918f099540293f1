(* The code of statements uses the stacks correctly (C31). *)
From Coq Require Import Lia ZifyBool ZifyNat ZifyN.
From Verif Require Import Base BaseLemmas Num SourceModel LineMapModel ArrayModel BcodeModel SymbolModel SymbolSpec
  VmModel VmLemmas VmSpec ControlProofs VmTyping GrammarSpec TypeSpec StepSpec SafeProofs.
Local Open Scope nat_scope.

Section Code.
Variable g : list sig.
Local Notation wt := (wt g).
Local Notation tail := (tail g).

Lemma flow_then a b n s n1 s1 n' s' : flow a n s n1 s1 -> flow b n1 s1 n' s' -> flow (a ++ b) n s n' s'.
Proof. apply flow_app. Qed.
Lemma flow_up l n' s' : flow l 0 0 n' s' -> forall k u, flow l k u (k + n') (u + s').
Proof. intros H k u. pose proof (flow_frame _ _ _ _ _ H k u) as F. rewrite !Nat.add_0_r in F. exact F. Qed.
Lemma flow_one i p q c d n s n' s' : (if wants_line i then None else effect i) = Some (p, q, (c, d)) -> p <= n -> q <= s -> n' <= c + (n - p) -> s' <= d + (s - q) -> flow [i] n s n' s'.
Proof. intros H P Q N S. destruct (wants_line i) eqn:WL; [discriminate H|]. econstructor; [exact H|exact WL|exact P|exact Q|]. constructor; assumption. Qed.

Lemma expr_args (P : expr -> Prop) : (forall x, P (ENum x)) -> (forall w, P (EStr w)) -> (forall id t, P (EVar id t)) ->
  (forall id t l, Forall P l -> P (EElem id t l)) -> (forall b l, Forall P l -> P (EFun b l)) -> (forall b a, P a -> P (EDrop b a)) ->
  (forall n a, P a -> P (ENegs n a)) -> (forall n a, P a -> P (ENots n a)) -> (forall o a b, P a -> P b -> P (EBin o a b)) ->
  (forall a b, P a -> P b -> P (EBad a b)) -> forall e, P e.
Proof.
  intros H1 H2 H3 H4 H5 H6 H7 H8 H9 H10. fix IH 1.
  assert (IL : forall l, Forall P l) by (fix IL 1; intros [|a r]; [constructor|constructor; [apply IH|apply IL]]).
  intros [x|w|id t|id t l|b l|b a|n a|n a|o a b|a b]; [apply H1|apply H2|apply H3|apply H4, IL|apply H5, IL|apply H6, IH|apply H7, IH|apply H8, IH|apply H9; apply IH|apply H10; apply IH].
Qed.
Lemma all_wt l : (fix all (l : list expr) : Prop := match l with [] => True | a :: r => wt a /\ all r end) l -> Forall wt l.
Proof. induction l as [|a r IH]; intros H; constructor; [apply H|apply IH, H]. Qed.
Definition flows (e : expr) : Prop := wt e -> flow (ecode e) 0 0 (rn (etype e)) (rs (etype e)).
Lemma args_flow l : Forall flows l -> Forall wt l -> forall n s, flow (flat_map ecode l) n s (list_sum (map (fun a => rn (etype a)) l) + n) (list_sum (map (fun a => rs (etype a)) l) + s).
Proof.
  induction 1 as [|a r H F IH]; intros W n s; [constructor; cbn; lia|]. inversion_clear W as [|? ? W1 W2]. cbn [flat_map map list_sum fold_right].
  eapply flow_app; [exact (flow_up _ _ _ (H W1) n s)|]. eapply flow_weak; [exact (IH W2 (n + rn (etype a)) (s + rs (etype a)))|..]; try lia;
      change (fold_right Nat.add 0 (map (fun a0 => rn (etype a0)) r)) with (list_sum (map (fun a0 => rn (etype a0)) r));
      change (fold_right Nat.add 0 (map (fun a0 => rs (etype a0)) r)) with (list_sum (map (fun a0 => rs (etype a0)) r)); lia.
Qed.
Lemma NUMS l : Forall (fun a => etype a = TNum) l -> list_sum (map (fun a => rn (etype a)) l) = length l /\ list_sum (map (fun a => rs (etype a)) l) = 0.
Proof. induction 1 as [|a l H F [IH1 IH2]]; [split; reflexivity|]. cbn [map list_sum fold_right length]. rewrite H. unfold list_sum in IH1, IH2. rewrite IH1, IH2. split; reflexivity. Qed.
Lemma ecode_flow e : flows e.
Proof.
  induction e as [x|w|id t|id t l IH|b l IH|b a IH|n a IH|n a IH|o a b IHa IHb|a b IHa IHb] using expr_args; intros W; cbn [TypeSpec.wt] in W; cbn [ecode etype].
  - eapply flow_one; [reflexivity|cbn; lia..].
  - eapply flow_one; [reflexivity|cbn; lia..].
  - destruct W as [W _]. destruct t; [congruence|..]; (eapply flow_one; [reflexivity|cbn; lia..]).
  - destruct W as (W1 & W2 & _ & W4 & W5). destruct (NUMS l W4) as [N1 N2]. pose proof (args_flow l IH (all_wt l W5) 0 0) as ARGS. rewrite N1, N2 in ARGS.
    eapply flow_app; [exact ARGS|]. assert (L : N.to_nat (u8 (N.of_nat (length l))) <= length l) by (unfold u8; lia).
    destruct t; [congruence|..]; (eapply flow_one; [reflexivity|cbn [needed fst snd]; lia..]).
  - destruct W as (W1 & W2 & W3 & W4). pose proof (args_flow l IH (all_wt l W4) 0 0) as ARGS. eapply flow_app; [exact ARGS|]. clear ARGS IH W4.
    destruct W3 as [W3|[-> (r & W3)]].
    + repeat (destruct W1 as [<-|W1]; [cbn [bi_type bi_op bi_args] in *; try congruence;
        repeat match goal with H : Forall2 arg_ok _ _ |- _ => inversion H; clear H; subst end; cbn [map list_sum fold_right];
        repeat match goal with H : arg_ok _ _ |- _ => cbn [arg_ok] in H; first [contradiction H|rewrite H; clear H] end;
        (eapply flow_one; [reflexivity|cbn; lia..])|]). destruct W1.
    + repeat (destruct W1 as [<-|W1]; [cbn [bi_type bi_op bi_args] in *; try congruence; try discriminate W3; (eapply flow_one; [reflexivity|cbn; lia..])|]). destruct W1.
  - destruct W as (W1 & W2 & (r & W3) & W4). eapply flow_app; [exact (IH W4)|]. eapply (flow_app (drop_code (etype a)) [bi_op b] _ _ 0 0).
    + destruct (etype a); cbn [drop_code needed fst snd]; [constructor; lia|eapply flow_one; [reflexivity|cbn; lia..]|eapply flow_one; [reflexivity|cbn; lia..]].
    + clear IH W4. repeat (destruct W1 as [<-|W1]; [cbn [bi_type bi_op bi_args] in *; try congruence; try discriminate W3; (eapply flow_one; [reflexivity|cbn; lia..])|]). destruct W1.
  - destruct W as [W1 W2]. eapply flow_app; [exact (IH W2)|]. rewrite W1. destruct (Nat.odd n); [eapply flow_one; [reflexivity|cbn; lia..]|constructor; cbn; lia].
  - destruct W as [W1 W2]. eapply flow_app; [exact (IH W2)|]. rewrite W1. destruct (Nat.odd n); [eapply flow_one; [reflexivity|cbn; lia..]|constructor; cbn; lia].
  - destruct W as (W1 & W2 & W3). eapply flow_app; [exact (IHa W2)|]. eapply flow_app; [exact (flow_up _ _ _ (IHb W3) (rn (etype a)) (rs (etype a)))|].
    destruct o as [| |r| | | | |]; cbn [bin_ok bin_instr] in *; destruct W1 as [W1 W1'];
      try (rewrite W1, W1'; eapply flow_one; [reflexivity|cbn; lia..]);
      rewrite <- W1; destruct (etype a); try congruence; try destruct r; cbn [rel_instr]; (eapply flow_one; [reflexivity|cbn; lia..]).
  - destruct W as (W2 & W3). eapply flow_weak; [eapply flow_app; [exact (IHa W2)|exact (flow_up _ _ _ (IHb W3) (rn (etype a)) (rs (etype a)))]|cbn; lia..].
Qed.

(* ---------- statements ---------- *)

Definition odd_one (i : instr) (a : bool) : bool := parens i || (wants_line i && negb a).
Lemma plain i l p q c d n s a : effect i = Some (p, q, (c, d)) -> odd_one i a = false -> p <= n -> q <= s -> tail l 0 0 a -> tail (i :: l) n s a.
Proof. intros H K P Q T. apply Bool.orb_false_iff in K as [K WL]. econstructor; [exact H|rewrite K; discriminate|destruct a; [reflexivity|intros X; rewrite X in WL; discriminate WL]|exact P|exact Q|]. eapply tail_weak; [exact T|lia|lia|auto]. Qed.
Lemma e_then e i l p q c d a : wt e -> effect i = Some (p, q, (c, d)) -> odd_one i a = false -> p <= rn (etype e) -> q <= rs (etype e) -> tail l 0 0 a -> tail (ecode e ++ i :: l) 0 0 a.
Proof. intros W H K P Q T. eapply flow_tail; [exact (ecode_flow e W)|discriminate|]. eapply plain; eassumption. Qed.
Lemma e_leap e i l k : wt e -> leap i = Some k -> k <= rn (etype e) -> tail l 0 0 false -> tail (ecode e ++ i :: l) 0 0 false.
Proof. intros W H K T. eapply flow_tail; [exact (ecode_flow e W)|discriminate|]. econstructor; eassumption. Qed.
Lemma flow_all l : Forall wt l -> flow (flat_map ecode l) 0 0 (list_sum (map (fun a => rn (etype a)) l)) (list_sum (map (fun a => rs (etype a)) l)).
Proof.
  intros W. pose proof (args_flow l) as F. eapply flow_weak; [apply (F (proj2 (Forall_forall _ _) (fun e _ => ecode_flow e)) W 0 0)|lia..].
Qed.
Lemma subs_flow p : wplace g p -> flow (subs_code p) 0 0 (length (pl_subs p)) 0.
Proof. intros (W1 & W2 & _). pose proof (flow_all _ W1) as F. destruct (NUMS _ W2) as [N1 N2]. rewrite N1, N2 in F. exact F. Qed.
Lemma nsubs_le p : N.to_nat (nsubs p) <= length (pl_subs p).
Proof. unfold nsubs, u8. lia. Qed.
Lemma p_then p i l d a : wplace g p -> effect i = Some (N.to_nat (nsubs p), 0, (0, d)) -> odd_one i a = false -> tail l 0 0 a -> tail (subs_code p ++ i :: l) 0 0 a.
Proof. intros W H K T. eapply flow_tail; [exact (subs_flow p W)|discriminate|]. eapply plain; [exact H|exact K|apply nsubs_le|lia|exact T]. Qed.

(* no value of no type is stored *)
Definition solid (x : stmt) : Prop := match x with SLet p _ => pl_type p <> TErr | SOn _ _ l => (N.of_nat (length l) < 2 ^ 32)%N | _ => True end.

Lemma read_tail p l : wplace g p -> tail l 0 0 false -> tail (read_code p ++ l) 0 0 false.
Proof. intros W T. unfold read_code. rewrite <- app_assoc. cbn [app]. eapply p_then; [exact W| | |exact T]; destruct (pl_type p); reflexivity. Qed.
Lemma dim_tail p l : wplace g p -> tail l 0 0 false -> tail (dim_code p ++ l) 0 0 false.
Proof. intros W T. unfold dim_code. rewrite <- app_assoc. cbn [app]. eapply p_then; [exact W| | |exact T]; destruct (pl_type p); reflexivity. Qed.
Lemma input_tail p l : wplace g p -> tail l 0 0 true -> tail (input_code p ++ l) 0 0 true.
Proof.
  intros W T. unfold input_code. rewrite <- app_assoc. cbn [app].
  destruct (pl_type p); [eapply p_then; [exact W|reflexivity|reflexivity|exact T]| |eapply p_then; [exact W|reflexivity|reflexivity|exact T]].
  eapply flow_tail; [exact (subs_flow p W)|discriminate|]. constructor; [apply nsubs_le|exact T].
Qed.
Lemma item_tail i l : witem g i -> tail l 0 0 false -> tail (item_code i ++ l) 0 0 false.
Proof.
  intros W T. destruct i as [e|e|e| |]; cbn [item_code witem] in *; rewrite <- ?app_assoc; cbn [app].
  - destruct W as [W K]. destruct (etype e) eqn:Q; [congruence|..]; (eapply e_then; [exact W|reflexivity|reflexivity|rewrite Q; cbn; lia|rewrite Q; cbn; lia|exact T]).
  - destruct W as [W Q]. eapply e_then; [exact W|reflexivity|reflexivity|rewrite Q; cbn; lia|rewrite Q; cbn; lia|exact T].
  - destruct W as [W Q]. eapply e_then; [exact W|reflexivity|reflexivity|rewrite Q; cbn; lia|rewrite Q; cbn; lia|exact T].
  - eapply plain; [reflexivity|reflexivity|lia|lia|exact T].
  - exact T.
Qed.
Lemma flat_tail {B} (f : B -> list instr) (P : B -> Prop) a (H : forall x l, P x -> tail l 0 0 a -> tail (f x ++ l) 0 0 a) xs l :
  Forall P xs -> tail l 0 0 a -> tail (flat_map f xs ++ l) 0 0 a.
Proof. induction 1 as [|x r Q F IH]; intros T; [exact T|]. cbn [flat_map]. rewrite <- app_assoc. apply H; [exact Q|]. apply IH, T. Qed.

Lemma scode_tail x l : wstmt g x -> solid x -> tail l 0 0 false -> tail (scode x ++ l) 0 0 false.
Proof.
  intros W S T. destruct x; cbn [scode wstmt] in *; rewrite <- ?app_assoc; cbn [app]; rewrite <- ?app_assoc; cbn [app].
  - eapply plain; [reflexivity|reflexivity|lia|lia|exact T].
  - eapply plain; [reflexivity|reflexivity|lia|lia|exact T].
  - eapply T_leap; [reflexivity|lia|exact T].
  - eapply T_leap; [reflexivity|lia|exact T].
  - eapply T_leap; [reflexivity|lia|exact T].
  - exact T.
  - clear W S. induction l0 as [|w r IH]; [exact T|]. cbn [map app]. eapply plain; [reflexivity|reflexivity|lia|lia|exact IH].
  - destruct W as (W1 & W2 & W3 & W4). eapply T_def; [exact (ecode_flow _ W4)|exact W2|exact T].
  - eapply flat_tail; [|exact W|exact T]. intros p m [Q _] M. apply dim_tail; assumption.
  - destruct W as (_ & [W1 Q1] & [W2 Q2] & W3).
    eapply flow_tail; [exact (ecode_flow _ W1)|intros X; repeat apply app_eq_nil in X as [_ X]; discriminate X|].
    rewrite Q1.
    eapply flow_tail; [exact (flow_up _ _ _ (ecode_flow _ W2) _ _)|intros X; repeat apply app_eq_nil in X as [_ X]; discriminate X|].
    rewrite Q2. destruct step as [e|].
    + destruct W3 as [W3 Q3]. eapply flow_tail; [exact (flow_up _ _ _ (ecode_flow _ W3) _ _)|discriminate|]. rewrite Q3.
      eapply T_leap; [reflexivity|cbn; lia|exact T].
    + cbn [app]. econstructor; [reflexivity|discriminate|discriminate|lia|lia|]. eapply T_leap; [reflexivity|cbn; lia|exact T].
  - eapply T_leap; [reflexivity|lia|exact T].
  - eapply T_leap; [reflexivity|lia|exact T].
  - destruct W as [W Q]. destruct has_else; (eapply e_leap; [exact W|reflexivity|rewrite Q; cbn; lia|exact T]).
  - destruct W as [W Q]. eapply e_leap; [exact W|reflexivity|rewrite Q; cbn; lia|exact T].
  - eapply T_leap; [reflexivity|lia|exact T].
  - eapply T_leap; [reflexivity|lia|exact T].
  - destruct W as [_ W]. eapply T_buf. assert (TE : tail (I_INPUT_END :: l) 0 0 true) by (eapply plain; [reflexivity|reflexivity|lia|lia|eapply tail_weak; [exact T|lia|lia|discriminate]]).
    destruct l0 as [|p r]; [exact TE|]. rewrite <- app_assoc. inversion_clear W as [|? ? W1 W2]. apply input_tail; [exact W1|].
    eapply flat_tail; [|exact W2|exact TE]. intros q m Q M. cbn [app]. constructor. apply input_tail; assumption.
  - destruct W as (_ & W & Q). eapply T_buf. eapply p_then; [exact W|reflexivity|reflexivity|]. eapply tail_weak; [exact T|lia|lia|discriminate].
  - destruct W as (W1 & W2 & Q). cbn [solid] in S.
    eapply flow_tail; [exact (subs_flow _ W1)|intros X; apply app_eq_nil in X as [_ X]; discriminate X|].
    eapply flow_tail; [exact (flow_up _ _ _ (ecode_flow _ W2) _ _)|discriminate|]. rewrite Q. pose proof (nsubs_le p) as L.
    unfold set_instr. destruct (pl_subs p), (pl_type p); try congruence; cbn [length needed fst snd] in *;
      (econstructor; [reflexivity|discriminate|discriminate|lia|lia|eapply tail_weak; [exact T|lia|lia|auto]]).
  - destruct l0 as [|id r]; [eapply T_leap; [reflexivity|lia|exact T]|]. clear W S. induction (id :: r) as [|i m IH]; [exact T|]. eapply T_leap; [reflexivity|lia|exact IH].
  - destruct W as [W Q]. eapply flow_tail; [exact (ecode_flow _ W)|discriminate|]. rewrite Q. change (if gosub then I_ON_GOSUB (length l0) else I_ON_GOTO (length l0)) with (on_instr gosub (length l0)).
    constructor; [cbn; lia|exact S|exact T].
  - eapply flat_tail; [exact item_tail|exact W|]. destruct (separator_last l0); [exact T|]. eapply plain; [reflexivity|reflexivity|lia|lia|exact T].
  - destruct e as [e|]; cbn [oall] in W.
    + destruct W as [W Q]. rewrite <- app_assoc. eapply e_then; [exact W|reflexivity|reflexivity|rewrite Q; cbn; lia|cbn; lia|exact T].
    + eapply plain; [reflexivity|reflexivity|lia|lia|exact T].
  - eapply flat_tail; [|exact W|exact T]. intros p m [Q _] M. apply read_tail; assumption.
  - destruct n as [n|]; (eapply plain; [reflexivity|reflexivity|lia|lia|exact T]).
Qed.
Lemma lcode_tail xs l : Forall (wstmt g) xs -> Forall solid xs -> tail l 0 0 false -> tail (lcode xs ++ l) 0 0 false.
Proof.
  induction 1 as [|x r W F IH]; intros S T; [exact T|]. inversion_clear S as [|? ? S1 S2]. cbn [lcode flat_map]. rewrite <- app_assoc.
  apply scode_tail; [exact W|exact S1|]. apply IH; assumption.
Qed.
Lemma pcode_tail xss : Forall (Forall (wstmt g)) xss -> Forall (Forall solid) xss -> forall k, tail (pcode k xss) 0 0 false.
Proof.
  induction 1 as [|x r W F IH]; intros S k; [constructor|]. inversion_clear S as [|? ? S1 S2]. cbn [pcode]. eapply T_leap; [reflexivity|lia|].
  apply lcode_tail; [exact W|exact S1|]. apply IH. exact S2.
Qed.
End Code.
