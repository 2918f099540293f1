(* READ, DATA and RESTORE (C18). *)
From Coq Require Import Lia ZifyBool ZifyNat ZifyN.
From Verif Require Import Base BaseLemmas Num BcodeModel SymbolModel VmModel VmLemmas VmSpec ControlProofs OpSpec OpProofs
  StoreSpec StoreProofs DataSpec VmTyping ArrayModel ArraySpec LineMapModel.
Local Open Scope nat_scope.

Lemma data_items_app a b : data_items (a ++ b) = data_items a ++ data_items b.
Proof. induction a as [|i a IH]; [reflexivity|]. cbn [app data_items]. destruct i; rewrite ?IH; reflexivity. Qed.

(* scanning for the next item *)
Lemma scan_data l : match nth_error l (scan_to is_data l) with
  | Some (I_DATA s) => data_items l = s :: data_items (skipn (S (scan_to is_data l)) l)
  | _ => data_items l = []
  end.
Proof.
  induction l as [|i l IH]; [reflexivity|]. cbn [scan_to]. destruct i; cbn [is_data nth_error skipn data_items]; try exact IH. reflexivity.
Qed.

Lemma skipn_plus {A} a b (l : list A) : skipn a (skipn b l) = skipn (b + a) l.
Proof. revert l; induction b as [|b IH]; intros l; [reflexivity|]. destruct l; [rewrite !skipn_nil; reflexivity|]. apply IH. Qed.

Lemma next_item l dp : match nth_error l (dp + scan_to is_data (skipn dp l)) with
  | Some (I_DATA s) => data_items (skipn dp l) = s :: data_items (skipn (S (dp + scan_to is_data (skipn dp l))) l)
  | _ => data_items (skipn dp l) = []
  end.
Proof.
  pose proof (scan_data (skipn dp l)) as H. rewrite nth_error_skipn in H.
  destruct (nth_error l _) as [[]|]; try exact H. rewrite H, skipn_plus. do 3 f_equal. lia.
Qed.

Definition imm_has (v : vm) : bool := match items_from (v_imm v) 0 with [] => false | _ => true end.
Lemma marked_flag c bc : marked c -> c_bcode c = Some bc -> bc_has_data bc = match items_from c 0 with [] => false | _ => true end.
Proof.
  intros M B. specialize (M bc B). unfold items_from. rewrite B. cbn [skipn].
  destruct (bc_has_data bc), (data_items (bc_inst bc)); try reflexivity; exfalso; destruct M as [M1 M2].
  - apply M1; reflexivity.
  - discriminate M2. discriminate.
Qed.


(* the object READ takes its items from *)
Lemma find_data_eq v i : marked (v_stored v) -> marked (v_imm v) -> current v = Some i ->
  find_data v =
    let c := if reads_own v then v_imm v else v_stored v in
    let dp := if reads_own v then v_idata v else v_pdata v in
    match items_from c 0 with
    | [] => run_error RE_no_data v
    | _ =>
        match c_bcode c with
        | None => run_error RE_no_data v
        | Some b =>
            let dp' := dp + scan_to is_data (skipn dp (bc_inst b)) in
            match nth_error (bc_inst b) dp' with
            | Some (I_DATA s) => (Ok s, if reads_own v then set_data (v_pdata v) (S dp') v else set_data (S dp') (v_idata v) v)
            | _ => run_error RE_out_of_data v
            end
        end
    end.
Proof.
  intros MS MI C. unfold current, cur_bcode in C. unfold find_data, reads_own. cbv zeta.
  assert (ST : forall dp, match c_bcode (v_stored v) with
    | None => run_error RE_no_data v
    | Some b => if negb (bc_has_data b) then run_error RE_no_data v else
        match nth_error (bc_inst b) (dp + scan_to is_data (skipn dp (bc_inst b))) with
        | Some (I_DATA s) => (Ok s, set_data (S (dp + scan_to is_data (skipn dp (bc_inst b)))) (v_idata v) v)
        | _ => run_error RE_out_of_data v
        end
    end = match items_from (v_stored v) 0 with
          | [] => run_error RE_no_data v
          | _ => match c_bcode (v_stored v) with
                 | None => run_error RE_no_data v
                 | Some b => match nth_error (bc_inst b) (dp + scan_to is_data (skipn dp (bc_inst b))) with
                             | Some (I_DATA s) => (Ok s, set_data (S (dp + scan_to is_data (skipn dp (bc_inst b)))) (v_idata v) v)
                             | _ => run_error RE_out_of_data v
                             end
                 end
          end).
  { intros dp. destruct (c_bcode (v_stored v)) as [b|] eqn:BS.
    - rewrite (marked_flag _ _ MS BS). destruct (items_from (v_stored v) 0); reflexivity.
    - unfold items_from. rewrite BS. reflexivity. }
  destruct (cs_code (v_cs v)) as [[]|] eqn:CC; cbn [andb]; try (rewrite ST; reflexivity).
  cbn [code_of] in C. destruct (c_bcode (v_imm v)) as [bi|] eqn:BI; [|discriminate C].
  rewrite (marked_flag _ _ MI BI). destruct (items_from (v_imm v) 0) as [|y l] eqn:I0; [rewrite ST; reflexivity|].
  rewrite (marked_flag _ _ MI BI), I0. cbn [negb]. rewrite BI. reflexivity.
Qed.

Lemma items_all c p s r : items_from c p = s :: r -> items_from c 0 <> [].
Proof.
  unfold items_from. destruct (c_bcode c) as [b|]; [|discriminate]. cbn [skipn]. intros H E0.
  rewrite <- (firstn_skipn p (bc_inst b)), data_items_app, H in E0. destruct (data_items (firstn _ _)); discriminate E0.
Qed.
Lemma upcoming_eq v : upcoming v = items_from (if reads_own v then v_imm v else v_stored v) (if reads_own v then v_idata v else v_pdata v).
Proof. unfold upcoming. destruct (reads_own v); reflexivity. Qed.

Lemma find_data_ok v i s r : marked (v_stored v) -> marked (v_imm v) -> current v = Some i -> upcoming v = s :: r ->
  exists w, find_data v = (Ok s, w) /\ same_but_data v w /\ upcoming w = r.
Proof.
  intros MS MI C U. rewrite (find_data_eq v i MS MI C). cbv zeta. rewrite upcoming_eq in U. pose proof (items_all _ _ _ _ U) as NE.
  destruct (items_from (if reads_own v then v_imm v else v_stored v) 0) as [|y l]; [congruence|]. clear NE.
  unfold items_from in U. destruct (c_bcode (if reads_own v then v_imm v else v_stored v)) as [b|] eqn:B; [|discriminate U].
  pose proof (next_item (bc_inst b) (if reads_own v then v_idata v else v_pdata v)) as NI.
  destruct (nth_error _ _) as [[]|]; try congruence. rewrite U in NI. injection NI as -> NI.
  eexists. split; [reflexivity|]. destruct (reads_own v) eqn:RO; (split; [eexists _, _; reflexivity|]); rewrite upcoming_eq;
    (replace (reads_own (set_data _ _ v)) with (reads_own v) by reflexivity); rewrite RO; unfold items_from; cbn [v_imm v_stored v_idata v_pdata set_data];
    rewrite B; symmetry; exact NI.
Qed.
Lemma find_data_none v i : marked (v_stored v) -> marked (v_imm v) -> current v = Some i -> upcoming v = [] ->
  exists e, find_data v = run_error e v /\ (e = RE_no_data \/ e = RE_out_of_data).
Proof.
  intros MS MI C U. rewrite (find_data_eq v i MS MI C). cbv zeta. rewrite upcoming_eq in U.
  destruct (items_from (if reads_own v then v_imm v else v_stored v) 0) as [|y l]; [eauto|].
  unfold items_from in U. destruct (c_bcode (if reads_own v then v_imm v else v_stored v)) as [b|] eqn:B; [|eauto].
  pose proof (next_item (bc_inst b) (if reads_own v then v_idata v else v_pdata v)) as NI. rewrite U in NI.
  destruct (nth_error _ _) as [[]|]; eauto. discriminate NI.
Qed.

(* READ *)
Definition give (t : sort) (id : symid) (n : N) (d : datum) : M unit :=
  match d with Number x => set_numeric id n x | Text s => set_string id n s end.
Lemma read_eq E v t id n s r d : marked (v_stored v) -> marked (v_imm v) -> current v = Some (read t id n) -> upcoming v = s :: r -> item_value t s = Some d ->
  exists u, same_but_data v u /\ upcoming u = r /\ execute E v = finish (adv (give t id n d) u) /\ sort_of d = t.
Proof.
  intros MS MI C U D. destruct (find_data_ok v _ s r MS MI C U) as (u & F & SD & UP). exists u. split; [exact SD|]. split; [exact UP|].
  rewrite (execute_eq E v _ C). destruct t; cbn [read exec_instr item_value] in *; unfold bind; rewrite F.
  - destruct (convert s) as [[x [|]]|]; try discriminate D. injection D as <-. split; reflexivity.
  - injection D as <-. split; reflexivity.
Qed.
Lemma same_data_cs v u : same_but_data v u -> v_cs u = v_cs v.
Proof. intros (p & i & ->). reflexivity. Qed.
Lemma same_data_named v u id k t : same_but_data v u -> named v id k t -> named u id k t.
Proof. intros (p & i & ->). auto. Qed.
Lemma same_data_typed g v u : same_but_data v u -> typed g v -> typed g u.
Proof. intros (p & i & ->). exact (typed_keeps g (modify (set_data p i)) ltac:(repeat keeps_more) v). Qed.

Theorem read_variable E g v t id s r d : typed g v -> marked (v_stored v) -> marked (v_imm v) ->
  current v = Some (read t id 0) -> upcoming v = s :: r -> item_value t s = Some d -> named v id KVariable t ->
  exists u w, same_but_data v u /\ upcoming u = r /\ assigned_to u t id d w /\ execute E v = (Ok tt, set_cs (place_after v 1) w).
Proof.
  intros T MS MI C U D Hn. destruct (read_eq E v t id 0 s r d MS MI C U D) as (u & SD & UP & X & <-).
  destruct (assign_ok g u id d (same_data_typed g v u SD T) (same_data_named v u _ _ _ SD Hn)) as (w & W & AT).
  exists u, w. do 3 (split; [assumption|]). rewrite X.
  replace (place_after v 1) with (place_after u 1) by (unfold place_after; rewrite (same_data_cs v u SD); reflexivity).
  apply finish_place; [destruct d; exact W|]. exact (only_cs _ _ _ (proj1 AT)).
Qed.
Lemma read_two g v t id n : typed g v -> current v = Some (read t id n) -> (n <= 2)%N.
Proof. intros T C. pose proof (typed_current g v _ T C) as I. destruct t; cbn in I; destruct I as [[-> _]|[I _]]; lia. Qed.
Lemma read_some g v t id n : typed g v -> current v = Some (read t id n) -> named v id KArray t -> (n =? 0)%N = false.
Proof.
  intros T C Hn. pose proof (typed_current g v _ T C) as I. destruct t; cbn in I; destruct I as [[-> I]|[I _]]; try lia;
    destruct (typed_named g v id KArray _ _ _ T Hn I) as [Q _]; discriminate Q.
Qed.
Lemma give_store t id n d : (n =? 0)%N = false -> give t id n d = store id n d.
Proof. intros H. destruct d; cbn [give store]; unfold set_numeric, set_string; rewrite H; reflexivity. Qed.

Theorem read_element_ok E g v t id n s r d idx st b : typed g v -> arrays_ok v -> marked (v_stored v) -> marked (v_imm v) ->
  current v = Some (read t id n) -> upcoming v = s :: r -> item_value t s = Some d -> named v id KArray t ->
  subscripts v n idx st -> bounds v id = Some b -> in_bounds b idx ->
  exists u w, same_but_data v u /\ upcoming u = r /\ stored (set_stack st u) t id idx d w /\ arrays_ok w /\
    execute E v = (Ok tt, set_cs (place_after v 1) w).
Proof.
  intros T A MS MI C U D Hn S B IB. destruct (read_eq E v t id n s r d MS MI C U D) as (u & SD & UP & X & <-).
  pose proof (read_two g v _ id n T C) as N2. rewrite (give_store _ _ _ _ (read_some g v _ id n T C Hn)) in X.
  destruct (store_ok g u id n d idx st b) as (w & W & ST & AW); try assumption;
    try (destruct SD as (p & i & ->); assumption); try exact (same_data_typed g v u SD T).
  exists u, w. do 4 (split; [assumption|]). rewrite X.
  replace (place_after v 1) with (place_after u 1) by (unfold place_after; rewrite (same_data_cs v u SD); reflexivity).
  apply finish_place; [exact W|]. destruct ST as (O & _). exact (only_cs _ _ _ O).
Qed.

Theorem read_refused E g v t id n s r d idx st b : typed g v -> arrays_ok v -> marked (v_stored v) -> marked (v_imm v) ->
  current v = Some (read t id n) -> upcoming v = s :: r -> item_value t s = Some d -> named v id KArray t ->
  subscripts v n idx st -> bounds v id = Some b -> ~ in_bounds b idx ->
  exists y, symbol_at (v_st v) id = Some y /\ raises E v (RE_subscript (s_name y)).
Proof.
  intros T A MS MI C U D Hn S B IB. destruct (read_eq E v t id n s r d MS MI C U D) as (u & SD & UP & X & <-).
  pose proof (read_two g v _ id n T C) as N2. rewrite (give_store _ _ _ _ (read_some g v _ id n T C Hn)) in X.
  pose proof (same_data_typed g v u SD T) as Tu. destruct Hn as (y & H & K & Y). exists y. split; [exact H|].
  assert (W : exists w, store id n d u = (Fail (RE_subscript (s_name y)), w) /\ v_st w = v_st u /\ v_cs w = v_cs u).
  { destruct SD as (p & i & ->). destruct d; cbn [store sort_of vtype_of] in *.
    - exact (store_num_refused g (set_data p i v) id n idx st Tu A S y b x H K Y B N2 IB).
    - exact (store_str_refused g (set_data p i v) id n idx st Tu A S y b s0 H K Y B N2 IB). }
  destruct W as (w & W & W1 & W2). exists w. rewrite X. unfold adv, bind. rewrite W. cbn [finish]. destruct SD as (p & i & ->). auto.
Qed.

Lemma find_data_st x v : find_data (set_st x v) = (fst (find_data v), set_st x (snd (find_data v))).
Proof.
  unfold find_data. destruct v as [vs vi vd vc y0 y1 y2 y3 y4 y5 y6 y7 y8 y9 y10 y11 y12 y13 y14 y15 y16 y17 y18 y19 y20]. cbn.
  destruct (cs_code vc) as [[]|]; cbn; repeat (match goal with |- context [match ?x with _ => _ end] => destruct x; cbn end; try reflexivity).
Qed.
Theorem read_auto E g v t id n s r d idx st : typed g v -> arrays_ok v -> marked (v_stored v) -> marked (v_imm v) ->
  current v = Some (read t id n) -> upcoming v = s :: r -> item_value t s = Some d -> named v id KArray t ->
  subscripts v n idx st -> bounds v id = None ->
  Forall (fun m => (m < 4294967295)%N) idx -> acceptable (map (N.max 10) idx) ->
  exists w, dimensioned v t id (map (N.max 10) idx) w /\ arrays_ok w /\ execute E v = execute E w.
Proof.
  intros T A MS MI C U D Hn S B BB AC.
  pose proof (read_two g v _ id n T C) as N2. pose proof (read_some g v _ id n T C Hn) as N0.
  destruct (find_data_ok v _ s r MS MI C U) as (u & F & SD & UP).
  pose proof (same_data_typed g v u SD T) as Tu. destruct SD as (p & i & ->).
  assert (SO : sort_of d = t).
  { destruct t; cbn [item_value] in D; [destruct (convert s) as [[y [|]]|]; try discriminate D|]; injection D as <-; reflexivity. }
  subst t. destruct (store_auto g (set_data p i v) id n d idx st Tu A Hn S B N2 BB AC) as (w & DI & AW & X).
  exists (set_st (v_st w) v). destruct DI as ((O1 & O2 & O3) & B' & EL). split; [split; [split; [reflexivity|split; assumption]|split; assumption]|].
  split; [exact AW|].
  assert (C' : current (set_st (v_st w) v) = Some (read (sort_of d) id n)) by exact C.
  rewrite (execute_eq E v _ C), (execute_eq E _ _ C'). f_equal.
  assert (F' : find_data (set_st (v_st w) v) = (Ok s, w)) by (rewrite find_data_st, F; cbn [fst snd]; rewrite O1 at 2; reflexivity).
  rewrite <- !(give_store (sort_of d) id n d N0) in X.
  destruct d; cbn [sort_of read exec_instr item_value give] in *; unfold bind; rewrite F, F'.
  - destruct (convert s) as [[y [|]]|]; try discriminate D. injection D as ->. unfold adv, bind. rewrite X. reflexivity.
  - injection D as ->. unfold adv, bind. rewrite X. reflexivity.
Qed.

Theorem read_not_number E v id n s r : marked (v_stored v) -> marked (v_imm v) ->
  current v = Some (I_READ_NUM id n) -> upcoming v = s :: r -> item_value Numbers s = None ->
  exists w, execute E v = (Fail (RE_numeric_data s), w) /\ upcoming w = r /\ v_st w = v_st v /\ v_cs w = v_cs v.
Proof.
  intros MS MI C U D. destruct (find_data_ok v _ s r MS MI C U) as (u & F & (p & i & ->) & UP).
  rewrite (execute_eq E v _ C). cbn [exec_instr item_value] in *. unfold bind. rewrite F.
  assert (X : (match convert s with Some (x, []) => adv (set_numeric id n x) | _ => run_error (RE_numeric_data s) end) = run_error (RE_numeric_data s)).
  { destruct (convert s) as [[x [|]]|]; [discriminate D|reflexivity|reflexivity]. }
  rewrite X. eexists. split; [reflexivity|]. split; [exact UP|split; reflexivity].
Qed.
Theorem read_none E v t id n : marked (v_stored v) -> marked (v_imm v) ->
  current v = Some (read t id n) -> upcoming v = [] -> raises E v RE_no_data \/ raises E v RE_out_of_data.
Proof.
  intros MS MI C U. destruct (find_data_none v _ MS MI C U) as (e & F & K).
  assert (R : raises E v e).
  { unfold raises. rewrite (execute_eq E v _ C). destruct t; cbn [read exec_instr]; unfold bind; rewrite F; eexists; split; [reflexivity|split; reflexivity|reflexivity|split; reflexivity]. }
  destruct K as [-> | ->]; auto.
Qed.

Theorem restore_all E v : current v = Some I_RESTORE ->
  exists w, execute E v = (Ok tt, set_cs (place_after v 1) w) /\ same_but_data v w /\
    upcoming w = items_from (if reads_own v then v_imm v else v_stored v) 0.
Proof.
  intros C. exists (set_data 0 0 v). rewrite (execute_eq E v _ C). split; [apply finish_place; reflexivity|]. split; [eexists _, _; reflexivity|].
  unfold upcoming. change (reads_own (set_data 0 0 v)) with (reads_own v). destruct (reads_own v); reflexivity.
Qed.
Theorem restore_line E v n : current v = Some (I_RESTORE_LINE n) ->
  match line_place v n with
  | Some p => exists w, execute E v = (Ok tt, set_cs (place_after v 1) w) /\ same_but_data v w /\
      (reads_own v = false -> upcoming w = items_from (v_stored v) p)
  | None => raises E v (RE_line_not_found n)
  end.
Proof.
  intros C. unfold line_place, raises. rewrite (execute_eq E v _ C). cbn [exec_instr].
  destruct (c_index (v_stored v)) as [m|] eqn:I; [destruct (lookup_line_mapping m n) as [p|] eqn:L|]; cbn [option_map].
  - exists (set_data (N.to_nat p) (v_idata v) v). unfold bind at 1, find_basic_line. rewrite I, L.
    split; [apply finish_place; reflexivity|]. split; [eexists _, _; reflexivity|].
    intros R. unfold upcoming. change (reads_own (set_data _ _ v)) with (reads_own v). rewrite R. reflexivity.
  - unfold bind at 1, find_basic_line. rewrite I, L. eexists. split; [reflexivity|split; reflexivity].
  - unfold bind at 1, find_basic_line. rewrite I. eexists. split; [reflexivity|split; reflexivity].
Qed.

(* a whole execution *)
Lemma keep_data E i v : is_read i = false -> is_restore i = false ->
  v_pdata (snd (exec_instr E i v)) = v_pdata v /\ v_stored (snd (exec_instr E i v)) = v_stored v.
Proof.
  intros R1 R2. assert (T : touches_data i = false) by (destruct i; try reflexivity; try discriminate R1; discriminate R2).
  destruct (exec_keeps_data E i T) as [K _]. split; [apply K|apply exec_keeps_stored].
Qed.
Theorem data_in_order E v l v' : runs E v l v' -> marked (v_stored v) -> marked (v_imm v) -> in_program l ->
  items_from (v_stored v) (v_pdata v) = items_read l ++ items_from (v_stored v') (v_pdata v') /\ v_stored v' = v_stored v.
Proof.
  intros R MS MI. induction R as [|v v1 l v' X R IH]; intros P; [split; reflexivity|].
  inversion P as [|? ? [NI NR] P']; subst.
  assert (RO : reads_own v = false) by (unfold reads_own; destruct (cs_code (v_cs v)) as [[]|]; try reflexivity; congruence).
  assert (KI : v_imm v1 = v_imm v /\ v_stored v1 = v_stored v).
  { destruct (current v) as [i|] eqn:C.
    - rewrite (execute_eq E v i C) in X. pose proof (exec_keeps_imm E i v) as K1. pose proof (exec_keeps_stored E i v) as K2.
      destruct (exec_instr E i v) as [[[]|e| |] w]; inversion X; subst; split; assumption.
    - rewrite (execute_none E v C) in X. discriminate X. }
  destruct KI as [KI KS]. rewrite <- KI in MI. assert (MS1 : marked (v_stored v1)) by (rewrite KS; exact MS).
  destruct (IH MS1 MI P') as [I1 I2]. split; [|congruence]. rewrite KI in MI.
  cbn [items_read]. destruct (current v) as [i|] eqn:C; [|rewrite (execute_none E v C) in X; discriminate X].
  specialize (NR i eq_refl). destruct (is_read i) eqn:RD.
  - assert (UP : upcoming v = items_from (v_stored v) (v_pdata v)) by (unfold upcoming; rewrite RO; reflexivity). rewrite <- UP.
    destruct (upcoming v) as [|s r] eqn:U.
    + destruct (find_data_none v _ MS MI C U) as (e & F & _). rewrite (execute_eq E v i C) in X.
      destruct i; try discriminate RD; cbn [exec_instr] in X; unfold bind in X; rewrite F in X; discriminate X.
    + cbn [firstn app]. rewrite <- I1. f_equal.
      destruct (find_data_ok v _ s r MS MI C U) as (u & F & (p & q & ->) & UP').
      rewrite (execute_eq E v i C) in X.
      unfold upcoming in UP'. change (reads_own (set_data p q v)) with (reads_own v) in UP'. rewrite RO in UP'. rewrite <- UP'.
      cbn [v_stored v_pdata set_data]. assert (PD : v_pdata v1 = p); [|rewrite KS, PD; reflexivity].
      destruct i; try discriminate RD; cbn [exec_instr] in X; unfold bind in X; rewrite F in X.
      * destruct (convert s) as [[x [|]]|]; try discriminate X.
        assert (K : keeps v_pdata (adv (set_numeric id params x))) by (repeat keeps_more). specialize (K (set_data p q v)).
        destruct (adv (set_numeric id params x) (set_data p q v)) as [[[]|e| |] w]; inversion X; subst; exact K.
      * assert (K : keeps v_pdata (adv (set_string id params s))) by (repeat keeps_more). specialize (K (set_data p q v)).
        destruct (adv (set_string id params s) (set_data p q v)) as [[[]|e| |] w]; inversion X; subst; exact K.
  - destruct (keep_data E i v RD NR) as [K _]. rewrite (execute_eq E v i C) in X.
    assert (PD : v_pdata v1 = v_pdata v) by (destruct (exec_instr E i v) as [[[]|e| |] w]; inversion X; subst; exact K).
    rewrite <- I1, KS, PD. reflexivity.
Qed.
