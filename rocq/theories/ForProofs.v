(* FOR and NEXT (C14). *)
From Coq Require Import Lia ZifyBool ZifyNat ZifyN.
From Verif Require Import Base BaseLemmas Num NumSpec NumLemmas LineMapModel BcodeModel SymbolModel VmModel
  VmLemmas VmSpec ControlProofs VmTyping ForSpec.

(* ---------- the list of loops ---------- *)

Lemma find_for_spec fs id : 
  match find_for fs id with
  | Some si => exists a f b, fs = a ++ f :: b /\ length a = si /\ f_sym f = id /\ Forall (fun g => f_sym g <> id) a
  | None => Forall (fun g => f_sym g <> id) fs
  end.
Proof.
  unfold find_for. induction fs as [|f fs IH]; cbn [find_index]; [constructor|].
  destruct (f_sym f =? id)%N eqn:E.
  - apply N.eqb_eq in E. exists [], f, fs. repeat split; auto.
  - apply N.eqb_neq in E. destruct (find_index _ fs) as [si|]; cbn [option_map] in *.
    + destruct IH as (a & g & b & -> & <- & G & A). exists (f :: a), g, b. repeat split; auto.
    + constructor; assumption.
Qed.

Lemma remove_nth_app {A} (a : list A) x b : remove_nth (a ++ x :: b) (length a) = a ++ b.
Proof. induction a as [|y a IH]; cbn; [reflexivity|]. rewrite IH. reflexivity. Qed.

Lemma filter_others l id : Forall (fun g => f_sym g <> id) l -> filter (fun f => negb (f_sym f =? id)%N) l = l.
Proof.
  induction 1 as [|g l H F IH]; cbn; [reflexivity|]. apply N.eqb_neq in H. rewrite H. cbn. rewrite IH. reflexivity.
Qed.

Lemma nodup_split a (f : for_loop) b : NoDup (map f_sym (a ++ f :: b)) ->
  Forall (fun g => f_sym g <> f_sym f) a /\ Forall (fun g => f_sym g <> f_sym f) b.
Proof.
  rewrite map_app. cbn [map]. intros H. apply NoDup_remove_2 in H. rewrite in_app_iff in H.
  split; apply Forall_forall; intros g G E; apply H; [left|right]; rewrite <- E; apply in_map, G.
Qed.

Lemma others_split v a f b : NoDup (map f_sym (v_for v)) -> v_for v = a ++ f :: b ->
  other_loops v (f_sym f) = a ++ b.
Proof.
  intros N E. rewrite E in N. apply nodup_split in N as [A B]. unfold other_loops. rewrite E, filter_app. cbn [filter].
  rewrite N.eqb_refl. cbn [negb]. rewrite !filter_others by assumption. reflexivity.
Qed.

(* ---------- FOR ---------- *)

Lemma for_tail (v : vm) id s l f x limit step st : 
  o_trace_for (v_opt v) = false -> v_stack v = step :: limit :: x :: st ->
  (let* v1 := get in
      let si := length (v_for v1) - 1 in
      let* f1 := some_or_crash (nth_error (v_for v1) si) in
      let put_for f := modify (fun w => set_for (list_upd (v_for w) si f) w) in
      put_for (mkFor (v_cs v1) id (f_step f1) (f_limit f1)) ;;;
      let* step := pop in
      put_for (mkFor (v_cs v1) id step (f_limit f1)) ;;;
      let* limit := pop in
      put_for (mkFor (v_cs v1) id step limit) ;;;
      let* x := pop in
      put_sym id (define s (VNum x)) ;;;
      trace_for (dump_for_stack (lit "final stack"))) (set_for (l ++ [f]) v) =
  (Ok tt, set_st (sym_update (v_st v) (N.to_nat id) (define s (VNum x)))
            (set_stack st (set_for (l ++ [mkFor (v_cs v) id step limit]) v))).
Proof.
  intros TR ST. unfold bind at 1, get. cbv zeta. unfold bind at 1. cbn [v_for set_for]. rewrite nth_error_last.
  cbn [some_or_crash]. unfold ret at 1. unfold bind at 1, modify at 1. cbn [v_for set_for v_cs].
  assert (LU : forall y z, list_upd (l ++ [y]) (length (l ++ [f]) - 1) z = l ++ [z]).
  { intros y z. replace (length (l ++ [f])) with (length (l ++ [y])) by (rewrite !app_length; reflexivity). apply list_upd_last. }
  rewrite LU. unfold bind at 1, pop at 1. cbn [v_stack set_for]. rewrite ST.
  unfold bind at 1, modify at 1. cbn [v_for set_for set_stack]. rewrite LU.
  unfold bind at 1, pop at 1. cbn [v_stack set_for set_stack].
  unfold bind at 1, modify at 1. cbn [v_for set_for set_stack]. rewrite LU.
  unfold bind at 1, pop at 1. cbn [v_stack set_for set_stack].
  unfold bind, put_sym, modify, trace_for. cbn [v_opt set_for set_stack set_st v_st]. rewrite TR. reflexivity.
Qed.

Lemma others_le v id : loops_ok v -> length (other_loops v id) <= length (v_for v).
Proof.
  intros _. unfold other_loops. induction (v_for v) as [|f l IH]; cbn; [lia|]. destruct (negb _); cbn; lia.
Qed.

Lemma exec_for_eq v id step limit x st :
  o_trace_for (v_opt v) = false -> v_stack v = step :: limit :: x :: st ->
  number_var v id -> NoDup (map f_sym (v_for v)) -> length (other_loops v id) < 8 -> 
  exec_for id v = (Ok tt, assign id x
        (set_stack st (set_for (other_loops v id ++ [mkFor (v_cs v) id step limit]) v))).
Proof.
  intros TR ST (s & SY & K1 & K2) ND LT. unfold exec_for. unfold bind at 1, trace_for at 1. rewrite TR.
  unfold bind at 1, get_sym. rewrite SY. unfold bind at 1, assert, is_kind. rewrite K1, K2. cbn [skind_eqb vtype_eqb andb].
  unfold ret at 1.
  unfold assign. cbn [v_st set_stack set_for]. rewrite SY.
  pose proof (find_for_spec (v_for v) id) as F. unfold bind at 1, get at 1. unfold bind at 1.
  destruct (find_for (v_for v) id) as [si|].
  - destruct F as (a & f & b & EQ & L & <- & A).
    unfold bind at 1. rewrite EQ, nth_error_app2 by lia. rewrite L, Nat.sub_diag. cbn [nth_error some_or_crash]. unfold ret at 1.
    rewrite <- L, remove_nth_app. rewrite (others_split v a f b ND EQ).
    exact (for_tail v (f_sym f) s (a ++ b) f x limit step st TR ST).
  - unfold other_loops in *. rewrite filter_others in * by exact F. change MAX_FOR with 8.
    destruct (Nat.leb 8 (length (v_for v))) eqn:LE; [apply Nat.leb_le in LE; lia|].
    exact (for_tail v id s (v_for v) _ x limit step st TR ST).
Qed.

Lemma set_pc_assign n id x v : set_pc n (assign id x v) = assign id x (set_pc n v).
Proof. unfold assign. cbn [v_st set_pc set_cs]. destruct (symbol_at (v_st v) id); reflexivity. Qed.

Lemma assign_cs id x v : v_cs (assign id x v) = v_cs v.
Proof. unfold assign. destruct (symbol_at _ _); reflexivity. Qed.

Lemma for_step E v id step limit x st :
  current v = Some (I_FOR id) -> o_trace_for (v_opt v) = false -> v_stack v = step :: limit :: x :: st ->
  number_var v id -> NoDup (map f_sym (v_for v)) -> length (other_loops v id) < 8 -> 
  execute E v = (Ok tt, set_cs (place_after v 1) (assign id x
        (set_stack st (set_for (other_loops v id ++ [mkFor (v_cs v) id step limit]) v)))).
Proof.
  intros C TR ST NV ND LT. rewrite (execute_eq E v _ C). cbn [exec_instr]. unfold adv, bind.
  rewrite (exec_for_eq v id step limit x st TR ST NV ND LT). cbn [finish ret]. unfold ret. cbn [finish].
  rewrite assign_cs. unfold set_pc. rewrite assign_cs. unfold place_after. cbn [v_cs set_stack set_for].
  rewrite Nat.add_1_r. reflexivity.
Qed.

(* the ninth loop *)
Lemma dump_entries_some st fs : (forall f, In f fs -> exists y, sym_num st (f_sym f) = Some y) ->
  exists s, dump_entries st fs = Some s.
Proof.
  induction fs as [|f fs IH]; intros H; cbn [dump_entries]; [eauto|].
  destruct (H f (or_introl eq_refl)) as ([nm y] & ->). destruct IH as (s & ->); [intros g G; apply H; right; exact G|]. eauto.
Qed.

Lemma typed_sym_num g v id : typed g v -> sg_kind g id KVariable TNum -> exists y, sym_num (v_st v) id = Some y.
Proof.
  intros T (nm & i & K). pose proof (ty_sigs _ _ T) as S. pose proof (ty_fits _ _ T) as F.
  rewrite <- S in K. unfold sigs in K. rewrite nth_error_map in K. unfold sym_num, symbol_at.
  destruct (nth_error (st_syms (v_st v)) (N.to_nat id)) as [s|] eqn:E; [|discriminate K].
  apply (Forall_nth _ _ _ _ F) in E. injection K as _ _ K1 K2. unfold fits in E. rewrite K1, K2 in E.
  destruct (s_val s); try contradiction; cbn [val_num]; eauto.
Qed.

Lemma for_full E g v id : typed g v -> current v = Some (I_FOR id) -> o_trace_for (v_opt v) = false ->
  number_var v id -> NoDup (map f_sym (v_for v)) -> 8 <= length (other_loops v id) ->
  length (v_for v) <= 8 ->
  exists w, execute E v = (Fail RE_for_nested, w) /\ v_for w = v_for v /\ v_cs w = v_cs v /\ v_st w = v_st v.
Proof.
  intros T C TR (s & SY & K1 & K2) ND LE B. rewrite (execute_eq E v _ C). cbn [exec_instr]. unfold adv, exec_for.
  unfold bind at 1. unfold bind at 1, trace_for at 1. rewrite TR.
  unfold bind at 1, get_sym. rewrite SY. unfold bind at 1, assert, is_kind. rewrite K1, K2. cbn [skind_eqb vtype_eqb andb].
  unfold ret at 1. unfold bind at 1, get at 1. unfold bind at 1.
  pose proof (find_for_spec (v_for v) id) as F. destruct (find_for (v_for v) id) as [si|].
  - exfalso. destruct F as (a & f & b & EQ & L & <- & A). rewrite (others_split v a f b ND EQ) in LE.
    rewrite EQ in B. rewrite app_length in *. cbn [length] in B. lia.
  - unfold other_loops in LE. rewrite filter_others in LE by exact F. change MAX_FOR with 8.
    destruct (Nat.leb 8 (length (v_for v))) eqn:LB; [|apply Nat.leb_gt in LB; lia].
    unfold bind at 1, dump_for_stack. destruct (v_for v) as [|f0 l0] eqn:EF; [cbn in LE; lia|].
    destruct (dump_entries_some (v_st v) (rev (f0 :: l0))) as (str & ->).
    { intros f IN. apply (typed_sym_num g v _ T). apply in_rev in IN. pose proof (ty_for _ _ T) as TF.
      rewrite Forall_forall in TF. apply TF. rewrite EF. exact IN. }
    unfold put, modify. eexists. split; [reflexivity|]. cbn [v_for v_cs v_st set_err set_out set_outcol]. auto.
Qed.

(* ---------- NEXT ---------- *)

Lemma past_cond f x :
  (fgtb (f_step f) fzero && fgtb x (f_limit f)) || (fltb (f_step f) fzero && fltb x (f_limit f)) = past f x.
Proof. reflexivity. Qed.

Lemma define_defined s x : s_defined s = true -> set_val s x = define s x.
Proof. destruct s; cbn. intros ->. reflexivity. Qed.

Lemma next_eq v a f b : o_trace_for (v_opt v) = false -> v_for v = a ++ f :: b ->
  number_var v (f_sym f) -> assigned v (f_sym f) -> (exists y, sym_num (v_st v) (f_sym f) = Some y) ->
  next (length a) v =
    (Ok tt, let x := fadd (number_of v (f_sym f)) (f_step f) in
            if past f x then set_for (a ++ b) v
            else set_cs (f_cs f) (assign (f_sym f) x v)).
Proof.
  intros TR EQ (s & SY & K1 & K2) AS (y & SN). unfold next. unfold bind at 1, get at 1.
  unfold bind at 1. rewrite EQ, nth_error_app2 by lia. rewrite Nat.sub_diag. cbn [nth_error some_or_crash]. unfold ret at 1.
  unfold bind at 1, get_sym. rewrite SY. unfold assigned in AS. rewrite SY in AS.
  unfold sym_num in SN. rewrite SY in SN.
  assert (VN : val_num (s_val s) = Some (number_of v (f_sym f))).
  { unfold number_of. rewrite SY, AS. destruct (s_val s); try discriminate SN; reflexivity. }
  unfold bind at 1. rewrite VN. cbn [some_or_crash]. unfold ret at 1. cbv zeta. rewrite past_cond.
  set (x := fadd (number_of v (f_sym f)) (f_step f)). unfold bind at 1. destruct (past f x).
  - unfold modify. rewrite EQ, remove_nth_app. unfold trace_for. cbn [v_opt set_for]. rewrite TR. reflexivity.
  - unfold bind, put_sym, modify, trace_for. cbn [v_opt set_st set_cs]. rewrite TR.
    rewrite (define_defined s _ AS). unfold assign. rewrite SY. reflexivity.
Qed.

Lemma last_opt_snoc {A} (l : list A) x : last_opt (l ++ [x]) = Some x.
Proof. induction l as [|a l IH]; [reflexivity|]. cbn [app]. destruct l; [reflexivity|exact IH]. Qed.

Lemma at_next_exec E v f : NoDup (map f_sym (v_for v)) -> o_trace_for (v_opt v) = false -> at_next v f ->
  exists a b, v_for v = a ++ f :: b /\ execute E v = finish (adv (next (length a)) v).
Proof.
  intros ND TR [IN [C|[C (outer & EQ)]]].
  - destruct (in_split _ _ IN) as (a & b & EQ). exists a, b. split; [exact EQ|].
    rewrite (execute_eq E v _ C). cbn [exec_instr]. unfold bind at 1, trace_for. rewrite TR. unfold bind at 1, get.
    destruct (exists_last (l := v_for v)) as (l' & z & EZ); [rewrite EQ; destruct a; discriminate|].
    assert (LZ : last_opt (v_for v) = Some z) by (rewrite EZ; apply last_opt_snoc). rewrite LZ.
    pose proof (nodup_split a f b ltac:(rewrite <- EQ; exact ND)) as [NA NB].
    destruct (f_sym z =? f_sym f)%N eqn:EZF.
    + apply N.eqb_eq in EZF. destruct b as [|b0 b].
      * do 2 f_equal. f_equal. rewrite EQ, app_length. cbn. lia.
      * exfalso. assert (In z (b0 :: b)).
        { rewrite EQ in EZ. destruct (exists_last (l := b0 :: b)) as (b' & y & EB); [discriminate|].
          rewrite EB in *. change (f :: b' ++ [y]) with ((f :: b') ++ [y]) in EZ. rewrite app_assoc in EZ.
          apply app_inj_tail in EZ as [_ ->]. apply in_or_app. right. left. reflexivity. }
        rewrite Forall_forall in NB. exact (NB z H EZF).
    + pose proof (find_for_spec (v_for v) (f_sym f)) as F. destruct (find_for (v_for v) (f_sym f)) as [si|].
      * destruct F as (a' & f' & b' & EQ' & L & S' & A'). do 2 f_equal. f_equal. rewrite <- L.
        rewrite EQ in EQ'. clear -NA EQ' A' S'. revert a' A' EQ'. induction a as [|y a IH]; intros [|y' a'] A' EQ'; cbn in *.
        -- reflexivity.
        -- injection EQ' as E1 E2; subst. inversion A'; subst. contradiction.
        -- injection EQ' as E1 E2; subst. inversion NA; subst. congruence.
        -- injection EQ' as E1 E2. inversion NA; inversion A'; subst. f_equal. apply IH; assumption.
      * exfalso. rewrite Forall_forall in F. exact (F f IN eq_refl).
  - exists outer, []. split; [exact EQ|]. rewrite (execute_eq E v _ C). cbn [exec_instr]. unfold bind at 1, trace_for. rewrite TR.
    unfold bind at 1, get. rewrite EQ. destruct (outer ++ [f]) as [|y l] eqn:EL; [destruct outer; discriminate|].
    rewrite <- EL, app_length. cbn [length]. replace (length outer + 1 - 1) with (length outer) by lia. reflexivity.
Qed.

Lemma number_sym_num g v id : typed g v -> number_var v id -> exists y, sym_num (v_st v) id = Some y.
Proof.
  intros T (s & SY & K1 & K2). pose proof (ty_fits _ _ T) as F. unfold symbol_at in SY.
  unfold sym_num, symbol_at. rewrite SY. apply (Forall_nth _ _ _ _ F) in SY. unfold fits in SY. rewrite K1, K2 in SY.
  destruct (s_val s); try contradiction; cbn [val_num]; eauto.
Qed.

Lemma loop_var g v f : typed g v -> In f (v_for v) -> number_var v (f_sym f).
Proof.
  intros T IN. pose proof (ty_for _ _ T) as TF. rewrite Forall_forall in TF. destruct (TF f IN) as (nm & i & K).
  pose proof (ty_sigs _ _ T) as S. rewrite <- S in K. unfold sigs in K. rewrite nth_error_map in K.
  unfold number_var, symbol_at. destruct (nth_error (st_syms (v_st v)) _) as [s|]; [|discriminate K].
  injection K as _ _ K1 K2. exists s. repeat split; assumption.
Qed.

Lemma next_step E g v f : typed g v -> loops_ok v -> o_trace_for (v_opt v) = false -> at_next v f ->
  assigned v (f_sym f) ->
  let x := fadd (number_of v (f_sym f)) (f_step f) in
  execute E v = (Ok tt, if past f x then set_cs (place_after v 1) (set_for (other_loops v (f_sym f)) v)
                        else set_cs (loop_body f) (assign (f_sym f) x v)).
Proof.
  intros T [ND _] TR AN AS x. pose proof AN as [IN _].
  destruct (at_next_exec E v f ND TR AN) as (a & b & EQ & ->). unfold adv, bind.
  pose proof (loop_var g v f T IN) as NV.
  rewrite (next_eq v a f b TR EQ NV AS (number_sym_num g v _ T NV)). cbv zeta. fold x.
  unfold ret. cbn [finish]. rewrite (others_split v a f b ND EQ). f_equal. destruct (past f x).
  - unfold set_pc, place_after. cbn [v_cs set_for]. rewrite Nat.add_1_r. reflexivity.
  - reflexivity.
Qed.

Lemma next_none E v : o_trace_for (v_opt v) = false ->
  (current v = Some I_NEXT_IMP -> v_for v = [] ->
     exists w, execute E v = (Fail (RE_next_without_for None), w) /\ v_cs w = v_cs v) /\
  (forall id, current v = Some (I_NEXT_VAR id) -> number_var v id -> (forall f, In f (v_for v) -> f_sym f <> id) ->
     exists e w, execute E v = (Fail (RE_next_without_for e), w) /\ v_cs w = v_cs v).
Proof.
  intros TR. split.
  - intros C N. rewrite (execute_eq E v _ C). cbn [exec_instr]. unfold bind, trace_for, get. rewrite TR.
    rewrite N. eexists. split; reflexivity.
  - intros id C (s & SY & _) H. rewrite (execute_eq E v _ C). cbn [exec_instr]. unfold bind at 1, trace_for. rewrite TR.
    unfold bind at 1, get. destruct (last_opt (v_for v)) as [f|] eqn:L.
    + assert (IN : In f (v_for v)).
      { destruct (v_for v) as [|a l]; [discriminate|]. destruct (exists_last (l := a :: l)) as (l' & z & EZ); [discriminate|].
        rewrite EZ in L. rewrite last_opt_snoc in L. injection L as ->. rewrite EZ. apply in_or_app. right. left. reflexivity. }
      destruct (f_sym f =? id)%N eqn:EF; [apply N.eqb_eq in EF; destruct (H f IN EF)|].
      pose proof (find_for_spec (v_for v) id) as F. destruct (find_for (v_for v) id) as [si|].
      * destruct F as (a & f' & b & EQ & _ & S' & _). exfalso. apply (H f'); [|exact S']. rewrite EQ. apply in_or_app. right. left. reflexivity.
      * unfold bind, get_sym. rewrite SY. do 2 eexists. split; reflexivity.
    + do 2 eexists. split; reflexivity.
Qed.

(* ---------- distinct variables ---------- *)

Definition nodup_loops (v : vm) : Prop := NoDup (map f_sym (v_for v)).

Lemma nd_keeps {A} (m : M A) : keeps v_for m -> inv nodup_loops m.
Proof. intros K v H. unfold nodup_loops in *. rewrite K. exact H. Qed.

Lemma nodup_remove (fs : list for_loop) i : NoDup (map f_sym fs) -> NoDup (map f_sym (remove_nth fs i)).
Proof.
  revert i; induction fs as [|f fs IH]; intros [|i] H; cbn in *; try assumption; inversion H; subst; [assumption|].
  constructor; [|apply IH; assumption]. intros X. apply H2. clear -X. revert i X.
  induction fs as [|g fs IH]; intros [|i] X; cbn in *; try assumption; [right; exact X|]. destruct X as [X|X]; [left; exact X|right; eapply IH, X].
Qed.

Lemma nd_next si : inv nodup_loops (next si).
Proof.
  unfold next. apply inv_bind; [apply inv_get|intros v]. apply inv_bind; [apply inv_some|intros f].
  apply inv_bind; [apply nd_keeps; repeat keeps_more|intros s]. apply inv_bind; [apply inv_some|intros x0]. cbv zeta.
  apply inv_bind; [|intros _; apply nd_keeps; repeat keeps_more]. destruct (_ || _).
  - apply inv_modify. intros w H. unfold nodup_loops. cbn. apply nodup_remove, H.
  - apply nd_keeps. repeat keeps_more.
Qed.

Lemma nodup_snoc l (id : symid) : NoDup l -> ~ In id l -> NoDup (l ++ [id]).
Proof.
  induction 1 as [|a l A N IH]; intros H; cbn; [constructor; [exact (fun X => X)|constructor]|].
  constructor; [|apply IH; intros X; apply H; right; exact X]. rewrite in_app_iff. intros [X|[X|[]]]; [contradiction|]. apply H. left. auto.
Qed.

Section Entry.
Variables (l : list for_loop) (id : symid).
Definition entry_last (w : vm) : Prop := exists f, v_for w = l ++ [f] /\ f_sym f = id.
Lemma el_keeps {A} (m : M A) : keeps v_for m -> inv entry_last m.
Proof. intros K v (f & H). exists f. rewrite K. exact H. Qed.
Lemma el_put f : f_sym f = id -> inv entry_last (modify (fun w => set_for (list_upd (v_for w) (length l) f) w)).
Proof.
  intros F. apply inv_modify. intros v (f0 & H & _). exists f. split; [|exact F]. cbn [v_for set_for]. rewrite H.
  pose proof (list_upd_last l f0 f) as L. rewrite app_length in L. cbn [length] in L. replace (length l + 1 - 1) with (length l) in L by lia. exact L.
Qed.
End Entry.

Lemma nd_exec_for id v : nodup_loops v -> nodup_loops (snd (exec_for id v)).
Proof.
  intros H. unfold exec_for. unfold bind at 1.
  assert (K : keeps v_for (trace_for (dump_for (lit "FOR")))) by repeat keeps_more.
  specialize (K v). destruct (trace_for _ v) as [[u|e| |] v0]; cbn [snd] in *; try (unfold nodup_loops; rewrite K; exact H).
  assert (H0 : nodup_loops v0) by (unfold nodup_loops; rewrite K; exact H). clear K H v.
  unfold bind at 1, get_sym. destruct (symbol_at (v_st v0) id) as [s|]; [|exact H0].
  unfold bind at 1, assert. destruct (is_kind _ _ _); [|exact H0]. unfold ret at 1, bind at 1, get at 1.
  assert (TAIL : forall l f, NoDup (map f_sym l) -> ~ In id (map f_sym l) ->
    nodup_loops (snd ((let* v1 := get in
      let si := length (v_for v1) - 1 in
      let* f1 := some_or_crash (nth_error (v_for v1) si) in
      let put_for f := modify (fun w => set_for (list_upd (v_for w) si f) w) in
      put_for (mkFor (v_cs v1) id (f_step f1) (f_limit f1)) ;;;
      let* step := pop in
      put_for (mkFor (v_cs v1) id step (f_limit f1)) ;;;
      let* limit := pop in
      put_for (mkFor (v_cs v1) id step limit) ;;;
      let* x := pop in
      put_sym id (define s (VNum x)) ;;;
      trace_for (dump_for_stack (lit "final stack"))) (set_for (l ++ [f]) v0)))).
  { intros l f L NI. unfold bind at 1, get. cbv zeta. unfold bind at 1. cbn [v_for set_for]. rewrite nth_error_last.
    cbn [some_or_crash]. unfold ret at 1. unfold bind at 1, modify at 1. cbn [v_for set_for v_cs].
    rewrite list_upd_last. rewrite app_length. cbn [length]. replace (length l + 1 - 1) with (length l) by lia.
    assert (EL : forall w, entry_last l id w -> nodup_loops w).
    { intros w (f' & W & F). unfold nodup_loops. rewrite W, map_app. cbn [map]. rewrite F. apply nodup_snoc; assumption. }
    apply EL.
    match goal with |- entry_last _ _ (snd (?m ?w)) => assert (R : inv (entry_last l id) m); [|apply R] end.
    - apply inv_bind; [apply el_keeps; repeat keeps_more|intros step].
      apply inv_bind; [apply el_put; reflexivity|intros _].
      apply inv_bind; [apply el_keeps; repeat keeps_more|intros limit].
      apply inv_bind; [apply el_put; reflexivity|intros _].
      apply inv_bind; [apply el_keeps; repeat keeps_more|intros x].
      apply el_keeps; repeat keeps_more.
    - eexists. split; reflexivity. }
  unfold bind at 1. pose proof (find_for_spec (v_for v0) id) as F.
  destruct (find_for (v_for v0) id) as [si|].
  - destruct F as (a & f & b & EQ & L & <- & A). unfold nodup_loops in H0.
    unfold bind at 1. rewrite EQ, nth_error_app2 by lia. rewrite L, Nat.sub_diag. cbn [nth_error some_or_crash]. unfold ret at 1.
    rewrite <- L, remove_nth_app. apply (TAIL (a ++ b) f); rewrite EQ in H0; rewrite map_app in *; cbn [map] in H0.
    + exact (NoDup_remove_1 _ _ _ H0).
    + exact (NoDup_remove_2 _ _ _ H0).
  - destruct (Nat.leb MAX_FOR (length (v_for v0))).
    + match goal with |- nodup_loops (snd match ?m v0 with _ => _ end) => assert (R : inv nodup_loops m) end.
      { apply nd_keeps; repeat keeps_more. }
      specialize (R v0 H0).
      destruct ((dump_for_stack (lit "overflow");;; run_error RE_for_nested) v0) as [[u'|e| |] w] eqn:E; try exact R.
      apply bind_ok in E as (u0 & w0 & _ & E). discriminate E.
    + apply (TAIL (v_for v0)); [exact H0|]. rewrite in_map_iff. intros (g & G1 & G2). rewrite Forall_forall in F. exact (F g G2 G1).
Qed.

Lemma nd_exec E i : inv nodup_loops (exec_instr E i).
Proof.
  destruct (touches_for i) eqn:T; [|apply nd_keeps, exec_keeps_for, T].
  destruct i; try discriminate T; cbn [exec_instr]; unfold adv.
  - apply inv_bind; [exact (nd_exec_for id)|intros; apply inv_ret].
  - apply inv_bind; [apply nd_keeps; repeat keeps_more|intros _]. apply inv_bind; [apply inv_get|intros v].
    destruct (last_opt (v_for v)) as [f|]; [|apply nd_keeps; repeat keeps_more].
    destruct (_ =? _)%N; [apply inv_bind; [apply nd_next|intros; apply inv_ret]|].
    destruct (find_for _ _); [apply inv_bind; [apply nd_next|intros; apply inv_ret]|apply nd_keeps; repeat keeps_more].
  - apply inv_bind; [apply nd_keeps; repeat keeps_more|intros _]. apply inv_bind; [apply inv_get|intros v].
    destruct (v_for v); [apply nd_keeps; repeat keeps_more|]. apply inv_bind; [apply nd_next|intros; apply inv_ret].
Qed.

Lemma nd_runs E v l v' : runs E v l v' -> nodup_loops v -> nodup_loops v'.
Proof.
  induction 1 as [v|v v1 l v' H R IH]; intros L; [exact L|]. apply IH.
  pose proof (execute_inv nodup_loops E v (fun n w H => H) (nd_exec E) L) as H1. rewrite H in H1. exact H1.
Qed.

Lemma loops_runs E v l v' : runs E v l v' -> within_limits v -> loops_ok v -> loops_ok v'.
Proof.
  intros R W [A _]. split; [exact (nd_runs E v l v' R A)|]. pose proof (lim_runs E v l v' R W) as (_ & _ & _ & L). exact L.
Qed.

Lemma loops_run E fuel brk v : within_limits v -> loops_ok v -> loops_ok (snd (run E fuel brk v)).
Proof.
  intros W [A _]. split.
  - revert A. apply (run_inv nodup_loops E); try (intros; assumption). intros w. apply execute_inv; [intros n x H; exact H|apply nd_exec].
  - pose proof (lim_run E fuel brk v W) as (_ & _ & _ & L). exact L.
Qed.

(* ---------- whole-number loops ---------- *)

Lemma assign_number id x v : number_var v id -> number_of (assign id x v) id = x.
Proof.
  intros (s & SY & _). unfold assign. rewrite SY. unfold number_of, symbol_at, sym_update. cbn [v_st set_st st_syms].
  assert (N.to_nat id < length (st_syms (v_st v))) by (apply nth_error_Some; unfold symbol_at in SY; congruence).
  rewrite nth_error_list_upd_eq by assumption. reflexivity.
Qed.
Lemma assign_other id x v id' : id' <> id -> number_of (assign id x v) id' = number_of v id'.
Proof.
  intros NE. unfold assign. destruct (symbol_at (v_st v) id); [|reflexivity].
  unfold number_of, symbol_at, sym_update. cbn [v_st set_st st_syms]. rewrite nth_error_list_upd_neq by lia. reflexivity.
Qed.
Lemma assign_assigned id x v : number_var v id -> assigned (assign id x v) id.
Proof.
  intros (s & SY & _). unfold assign. rewrite SY. unfold assigned, symbol_at, sym_update. cbn [v_st set_st st_syms].
  assert (N.to_nat id < length (st_syms (v_st v))) by (apply nth_error_Some; unfold symbol_at in SY; congruence).
  rewrite nth_error_list_upd_eq by assumption. reflexivity.
Qed.

Lemma fltb_integers x y a b : double x -> double y -> is_integer x a -> is_integer y b -> fltb x y = (a <? b)%Z.
Proof.
  intros Vx Vy A B. unfold fltb, SpecFloat.SFltb. rewrite (compare_integers x y a b Vx Vy A B). unfold Z.ltb. destruct (a ?= b)%Z; reflexivity.
Qed.

Lemma zero_integer : double fzero /\ is_integer fzero 0.
Proof. split; reflexivity. Qed.

Lemma past_integers f x s b a : double (f_step f) -> double (f_limit f) -> double x ->
  is_integer (f_step f) s -> is_integer (f_limit f) b -> is_integer x a ->
  past f x = ((0 <? s) && (b <? a) || (s <? 0) && (a <? b))%Z.
Proof.
  intros Vs Vb Vx S B X. unfold past. destruct zero_integer as [V0 Z0].
  rewrite (fltb_integers _ _ _ _ V0 Vs Z0 S), (fltb_integers _ _ _ _ Vb Vx B X), (fltb_integers _ _ _ _ Vs V0 S Z0), (fltb_integers _ _ _ _ Vx Vb X B).
  reflexivity.
Qed.

Lemma div_small n d : (0 < d -> n < d -> n / d <= 0)%Z.
Proof. intros D L. assert (n / d < 1)%Z by (apply Z.div_lt_upper_bound; lia). lia. Qed.
Lemma div_next n d : (0 < d -> n / d = (n - d) / d + 1)%Z.
Proof. intros D. replace n with (n - d + 1 * d)%Z at 1 by lia. rewrite Z.div_add by lia. reflexivity. Qed.

Lemma rep_step a b s : s <> 0%Z ->
  repetitions a b s = if ((0 <? s) && (b <? a + s) || (s <? 0) && (a + s <? b))%Z then 1 else S (repetitions (a + s) b s).
Proof.
  intros NZ. unfold repetitions. destruct (0 <? s)%Z eqn:P.
  - replace (s <? 0)%Z with false by lia. rewrite Bool.andb_false_l, Bool.orb_false_r, Bool.andb_true_l.
    destruct (b <? a + s)%Z eqn:L.
    + pose proof (div_small (b - a) s). rewrite Z.max_l by lia. reflexivity.
    + rewrite (div_next (b - a) s) by lia. replace (b - a - s)%Z with (b - (a + s))%Z by lia.
      assert (0 <= (b - (a + s)) / s)%Z by (apply Z.div_pos; lia). set (q := ((b - (a + s)) / s)%Z) in *. lia.
  - replace (s <? 0)%Z with true by lia. rewrite Bool.andb_false_l, Bool.orb_false_l, Bool.andb_true_l.
    destruct (a + s <? b)%Z eqn:L.
    + pose proof (div_small (a - b) (- s)). rewrite Z.max_l by lia. reflexivity.
    + rewrite (div_next (a - b) (- s)) by lia. replace (a - b - - s)%Z with (a + s - b)%Z by lia.
      assert (0 <= (a + s - b) / (- s))%Z by (apply Z.div_pos; lia). set (q := ((a + s - b) / (- s))%Z) in *. lia.
Qed.

(* the values of the variable in a loop over whole numbers *)
Lemma looping_next E g v l w : typed g v -> within_limits v -> loops_ok v ->
  o_trace_for (v_opt v) = false -> runs E v l w -> typed g w /\ loops_ok w /\ o_trace_for (v_opt w) = false /\ within_limits w.
Proof.
  intros T W L TR R. split; [exact (typed_runs g E v l w R T)|]. split; [exact (loops_runs E v l w R W L)|].
  split; [|exact (lim_runs E v l w R W)].
  clear T W L. induction R as [|v v1 l v' X R IH]; [exact TR|]. apply IH.
  assert (K : v_opt (snd (execute E v)) = v_opt v).
  { destruct (current v) as [i|] eqn:C.
    - apply (execute_keeps v_opt E v i C); [reflexivity|apply exec_keeps_opt].
    - rewrite (execute_none E v C). reflexivity. }
  rewrite X in K. cbn [snd] in K. rewrite K. exact TR.
Qed.

Lemma loop_in_distinct v f : NoDup (map f_sym (v_for v)) -> In f (v_for v) -> ~ In f (other_loops v (f_sym f)).
Proof. intros _ _ H. unfold other_loops in H. apply filter_In in H as [_ H]. rewrite N.eqb_refl in H. discriminate H. Qed.

Lemma opt_next_step E g v f : typed g v -> loops_ok v -> within_limits v -> o_trace_for (v_opt v) = false -> at_next v f ->
  assigned v (f_sym f) -> forall v1, execute E v = (Ok tt, v1) ->
  typed g v1 /\ loops_ok v1 /\ o_trace_for (v_opt v1) = false /\ within_limits v1.
Proof.
  intros T L W TR AN AS v1 X.
  apply (looping_next E g v [v] v1 T W L TR). econstructor; [exact X|constructor].
Qed.

Definition BIG : Z := (2 ^ 51)%Z.

Lemma looping_values E g f b s : double (f_step f) -> double (f_limit f) ->
  is_integer (f_step f) s -> is_integer (f_limit f) b -> (Z.abs s < BIG)%Z -> (Z.abs b < BIG)%Z ->
  forall v xs v', looping E f v xs v' -> forall a,
  typed g v -> loops_ok v -> within_limits v -> o_trace_for (v_opt v) = false ->
  double (number_of v (f_sym f)) -> is_integer (number_of v (f_sym f)) a -> (Z.abs a < BIG)%Z ->
  s <> 0%Z /\ length xs = repetitions a b s /\
  forall k x, nth_error xs k = Some x -> is_integer x (a + Z.of_nat k * s).
Proof.
  intros Vs Vb Is Ib Bs Bb v xs v' LP. unfold BIG in *.
  induction LP as [v l w v' R AN [KP KA] X CS OUT|v l w v1 xs v' R AN [KP KA] X CS IN LP IH];
    intros a T L W TR Va Ia Ba.
  - destruct (looping_next E g v l w T W L TR R) as (T1 & L1 & TR1 & W1).
    pose proof (next_step E g w f T1 L1 TR1 AN KA) as NX. cbv zeta in NX. rewrite X in NX. injection NX as NX.
    rewrite KP in NX. set (y := fadd (number_of v (f_sym f)) (f_step f)) in *.
    destruct (fadd_integers _ _ _ _ Va Vs Ia Is) as (Vy & Iy); [lia|]. fold y in Vy, Iy.
    rewrite (past_integers f y s b (a + s) Vs Vb Vy Is Ib Iy) in NX.
    destruct ((0 <? s) && (b <? a + s) || (s <? 0) && (a + s <? b))%Z eqn:P.
    + assert (NZ : s <> 0%Z) by lia. split; [exact NZ|]. rewrite (rep_step a b s NZ), P. split; [reflexivity|].
      intros [|[|k]] x K; try discriminate K. injection K as <-. cbn. rewrite Z.add_0_r. exact Ia.
    + exfalso. apply OUT. subst v'. destruct AN as [IN _].
      unfold assign. destruct (symbol_at _ _); exact IN.
  - destruct (looping_next E g v l w T W L TR R) as (T1 & L1 & TR1 & W1).
    destruct (opt_next_step E g w f T1 L1 W1 TR1 AN KA v1 X) as (T2 & L2 & TR2 & W2).
    pose proof (next_step E g w f T1 L1 TR1 AN KA) as NX. cbv zeta in NX. rewrite X in NX. injection NX as NX.
    rewrite KP in NX. set (y := fadd (number_of v (f_sym f)) (f_step f)) in *.
    destruct (fadd_integers _ _ _ _ Va Vs Ia Is) as (Vy & Iy); [lia|]. fold y in Vy, Iy.
    rewrite (past_integers f y s b (a + s) Vs Vb Vy Is Ib Iy) in NX.
    destruct ((0 <? s) && (b <? a + s) || (s <? 0) && (a + s <? b))%Z eqn:P.
    + exfalso. subst v1. cbn [v_for set_cs set_for] in IN. destruct L1 as [ND _]. destruct AN as [IN' _].
      exact (loop_in_distinct w f ND IN' IN).
    + assert (NV : number_var w (f_sym f)) by (apply (loop_var g); [exact T1|apply AN]).
      assert (NY : number_of v1 (f_sym f) = y).
      { subst v1. unfold number_of. cbn [v_st set_cs]. fold (number_of (assign (f_sym f) y w) (f_sym f)). apply assign_number, NV. }
      destruct (Z.eq_dec s 0) as [->|NZ].
      * (* with step 0 the value stays a; the rest of the loop contradicts *)
        destruct (IH a T2 L2 W2 TR2) as (C & _); rewrite ?NY; try assumption; [|congruence].
        rewrite Z.add_0_r in Iy. exact Iy.
      * destruct (IH (a + s)%Z T2 L2 W2 TR2) as (_ & LEN & VAL); rewrite ?NY; try assumption; [lia|].
        split; [exact NZ|]. rewrite (rep_step a b s NZ), P. split; [cbn [length]; rewrite LEN; reflexivity|].
        intros [|k] x K; cbn [nth_error] in K.
        -- injection K as <-. cbn. rewrite Z.add_0_r. exact Ia.
        -- apply VAL in K. replace (a + Z.of_nat (Datatypes.S k) * s)%Z with (a + s + Z.of_nat k * s)%Z by lia. exact K.
Qed.

Lemma for_whole_numbers E g v0 id step limit x st a b s v xs v' :
  current v0 = Some (I_FOR id) -> v_stack v0 = step :: limit :: x :: st ->
  number_var v0 id -> typed g v0 -> loops_ok v0 -> within_limits v0 -> o_trace_for (v_opt v0) = false ->
  double x -> double step -> double limit -> is_integer x a -> is_integer step s -> is_integer limit b ->
  (Z.abs a < BIG)%Z -> (Z.abs s < BIG)%Z -> (Z.abs b < BIG)%Z ->
  execute E v0 = (Ok tt, v) -> looping E (mkFor (v_cs v0) id step limit) v xs v' ->
  s <> 0%Z /\ length xs = repetitions a b s /\
  forall k y, nth_error xs k = Some y -> is_integer y (a + Z.of_nat k * s).
Proof.
  intros C ST NV T L W TR Vx Vs Vb Ia Is Ib Ba Bs Bb X LP.
  destruct (looping_next E g v0 [v0] v T W L TR) as (T1 & L1 & TR1 & W1); [econstructor; [exact X|constructor]|].
  assert (LT : length (other_loops v0 id) < 8).
  { destruct (le_lt_dec 8 (length (other_loops v0 id))) as [G|G]; [exfalso|exact G]. destruct L as [ND B].
    destruct (for_full E g v0 id T C TR NV ND G B) as (w & X' & _). congruence. }
  assert (NO : number_of v id = x).
  { rewrite (for_step E v0 id step limit x st C TR ST NV (proj1 L) LT) in X. injection X as <-.
    unfold number_of. cbn [v_st set_cs]. match goal with |- context [assign id x ?u] => fold (number_of (assign id x u) id) end.
    apply assign_number. exact NV. }
  apply (looping_values E g (mkFor (v_cs v0) id step limit) b s Vs Vb Is Ib Bs Bb v xs v' LP a T1 L1 W1 TR1); cbn [f_sym]; rewrite ?NO; assumption.
Qed.
