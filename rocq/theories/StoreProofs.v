(* Variables and arrays in the machine (C08, C09, C10, C12). *)
From Coq Require Import Lia ZifyBool ZifyNat ZifyN SpecFloat.
From Verif Require Import Base BaseLemmas Num NumSpec NumLemmas ArrayModel ArraySpec ArrayProofs BcodeModel SymbolModel VmModel VmLemmas VmSpec
  ControlProofs VmTyping OpSpec OpProofs StoreSpec.
Local Open Scope nat_scope.

Lemma elements_rev b : length b = 1 \/ length b = 2 -> elements_wanted (rev b) = elements_wanted b.
Proof.
  destruct b as [|x [|y [|z b]]]; cbn; intros [H|H]; try discriminate H; [reflexivity|]. unfold elements_wanted. cbn. lia.
Qed.
Lemma acceptable_rev b : acceptable b -> acceptable (rev b).
Proof. intros [H1 H2]. split; [rewrite rev_length; exact H1|]. rewrite elements_rev by exact H1. exact H2. Qed.
Lemma in_bounds_rev b idx : in_bounds b idx -> in_bounds (rev b) (rev idx).
Proof.
  unfold in_bounds. induction 1 as [|i m idx b H F IH]; [constructor|]. cbn [rev]. apply Forall2_app; [exact IH|]. constructor; [exact H|constructor].
Qed.
Lemma in_bounds_rev' b idx : in_bounds b (rev idx) -> in_bounds (rev b) idx.
Proof. intros H. rewrite <- (rev_involutive idx). apply in_bounds_rev, H. Qed.

Lemma sound_arr {A} (a : array A) : sound_array a -> exists max, arr_ok a max.
Proof. intros (max & D & S & L). exists max. split; [exact D|]. split; [exact S|]. lia. Qed.
Lemma arr_sound {A} (a : array A) max : arr_ok a max -> sound_array a.
Proof. intros (D & S & L). exists max. split; [exact D|]. split; [exact S|]. lia. Qed.

Lemma symbol_update st p s q : symbol_at (sym_update st p s) q =
  if Nat.eqb (N.to_nat q) p then match symbol_at st q with Some _ => Some s | None => None end else symbol_at st q.
Proof.
  unfold symbol_at, sym_update. cbn [st_syms]. generalize (N.to_nat q). intros n. revert p n.
  induction (st_syms st) as [|a l IH]; intros p n.
  - cbn. destruct n; destruct (Nat.eqb _ _); reflexivity.
  - destruct n, p; cbn; try reflexivity. apply IH.
Qed.
Lemma symbol_update_same st id s s0 : symbol_at st id = Some s0 -> symbol_at (sym_update st (N.to_nat id) s) id = Some s.
Proof. intros H. rewrite symbol_update, Nat.eqb_refl, H. reflexivity. Qed.
Lemma symbol_update_other st id s j : j <> id -> symbol_at (sym_update st (N.to_nat id) s) j = symbol_at st j.
Proof. intros H. rewrite symbol_update. destruct (Nat.eqb_spec (N.to_nat j) (N.to_nat id)) as [E|E]; [exfalso; apply H; lia|reflexivity]. Qed.

Lemma list_upd_same {A} (l : list A) p x : nth_error l p = Some x -> list_upd l p x = l.
Proof. revert p; induction l as [|a l IH]; intros [|p] H; cbn in *; try discriminate H; [congruence|]. rewrite IH by exact H. reflexivity. Qed.

Lemma update_only v id s s0 : symbol_at (v_st v) id = Some s0 -> s_kind s = s_kind s0 -> s_type s = s_type s0 ->
  only id v (set_st (sym_update (v_st v) (N.to_nat id) s) v).
Proof.
  intros H K T. split; [reflexivity|]. split.
  - intros j J. apply symbol_update_other, J.
  - intros k t (s' & E & E1 & E2). rewrite H in E. injection E as <-. exists s. cbn [v_st set_st].
    split; [eapply symbol_update_same, H|]. split; congruence.
Qed.

(* ---------- subscripts ---------- *)

Lemma bind_index {B} name (k : N -> M B) v x st i : v_stack v = x :: st -> double x -> count x (N.to_nat i) ->
  bind (pop_index name) k v = k i (set_stack st v).
Proof.
  intros S V [I R]. unfold bind at 1, pop_index. rewrite (bind_pop _ v x st S), fgtb_uint.
  rewrite (fltb_zero x _ V I), (fgtb_int x _ _ V I) by lia. unfold fneb. change SFeqb with feqb.
  rewrite (proj1 (floor_int x _ V I)).
  replace (_ <? 0)%Z with false by lia. replace (4294967295 <? _)%Z with false by lia. cbn [orb negb].
  rewrite (ftoZ_integer x _ V I). unfold ret. replace (Z.to_N _) with i by lia. reflexivity.
Qed.

Lemma bind_index_bad {B} name (k : N -> M B) v x st : v_stack v = x :: st -> double x -> (forall n, ~ count x n) ->
  exists w, bind (pop_index name) k v = (Fail (subscript_error name x), w) /\ v_st w = v_st v /\ v_cs w = v_cs v.
Proof.
  intros S V N. unfold bind at 1, pop_index. rewrite (bind_pop _ v x st S). unfold subscript_error, run_error.
  unfold fneb. change SFeqb with feqb. destruct (fltb x fzero || negb (feqb (ffloor x) x)) eqn:F.
  - eexists. split; [reflexivity|split; reflexivity].
  - rewrite fgtb_uint. assert (G : fgtb x (fofZ 4294967295) = true).
    { apply orb_false_iff in F as [F1 F2]. destruct (whole_or_not x V) as [(z & I)|[([] & ->)|[F _]]].
      - rewrite (fgtb_int x z) by (try assumption; lia). rewrite (fltb_zero x z V I) in F1.
        assert (~ count x (Z.to_nat z)) as C by apply N. unfold count in C.
        destruct (Z.ltb_spec 4294967295 z); [reflexivity|]. exfalso. apply C.
        replace (Z.of_nat (Z.to_nat z)) with z by lia. split; [exact I|lia].
      - discriminate F1.
      - reflexivity.
      - rewrite F in F2. discriminate. }
    rewrite G. eexists. split; [reflexivity|split; reflexivity].
Qed.

Lemma pop_loop name : forall idx ys v st,
  v_stack v = ys ++ st -> Forall2 (fun x i => double x /\ count x (N.to_nat i)) ys idx ->
  pop_indexes_loop (length idx) name v = (Ok idx, set_stack st v).
Proof.
  induction idx as [|i idx IH]; intros ys v st S F; inversion F as [|x ? ys' ? [D K] F']; subst; cbn [length pop_indexes_loop].
  - cbn in S. subst st. destruct v; reflexivity.
  - cbn [app] in S. rewrite (bind_index name _ v x (ys' ++ st) i S D K).
    unfold bind. rewrite (IH ys' (set_stack (ys' ++ st) v) st eq_refl F'). destruct v; reflexivity.
Qed.

Lemma Forall2_rev' {A B} (P : A -> B -> Prop) l m : Forall2 P l m -> Forall2 P (rev l) (rev m).
Proof. induction 1; cbn; [constructor|]. apply Forall2_app; [assumption|]. constructor; [assumption|constructor]. Qed.

Lemma subscripts_pop v n idx st name : subscripts v n idx st -> (n <= 2)%N ->
  pop_indexes n name v = (Ok (rev idx), set_stack st v).
Proof.
  intros (xs & S & F & L) N2. unfold pop_indexes, assert. replace (n <=? _)%N with true by (cbn; lia).
  unfold bind, ret. replace (N.to_nat n) with (length (rev idx)) by (rewrite rev_length; lia).
  apply (pop_loop name (rev idx) (rev xs)); [exact S|apply Forall2_rev', F].
Qed.

(* ---------- from typing ---------- *)

Lemma typed_current g v i : typed g v -> current v = Some i -> instr_ok g i.
Proof.
  intros T C. unfold current, cur_bcode in C. destruct (cs_code (v_cs v)) as [r|]; [|discriminate C].
  destruct (c_bcode (code_of v r)) as [bc|] eqn:B; [|discriminate C].
  destruct (ty_code g v T r bc B) as [F _]. eapply Forall_nth; [exact F|exact C].
Qed.
Lemma typed_sig g v id s : typed g v -> symbol_at (v_st v) id = Some s -> nth_error g (N.to_nat id) = Some (sig_of s).
Proof. intros T H. rewrite <- (ty_sigs g v T). unfold sigs. rewrite nth_error_map. unfold symbol_at in H. rewrite H. reflexivity. Qed.
Lemma typed_named g v id k t k' t' : typed g v -> named v id k t -> sg_kind g id k' t' -> k' = k /\ t' = vtype_of t.
Proof.
  intros T (s & H & K & Y) (nm & i & G). rewrite (typed_sig g v id s T H) in G. unfold sig_of in G. injection G as _ _ G1 G2. split; congruence.
Qed.
Lemma typed_fits g v id s : typed g v -> symbol_at (v_st v) id = Some s -> fits g s.
Proof. intros T H. eapply Forall_nth; [exact (ty_fits g v T)|exact H]. Qed.

(* ---------- elements ---------- *)

Lemma count_below x i : count x (N.to_nat i) -> (i < 4294967296)%N.
Proof. intros [_ H]. lia. Qed.

Section Elements.
Variables (E : env) (g : list sig) (v : vm) (id : symid) (n : N) (idx : list N) (st : list num).
Hypothesis T : typed g v.
Hypothesis A : arrays_ok v.
Hypothesis SUB : subscripts v n idx st.

Lemma num_array_of s a : symbol_at (v_st v) id = Some s -> s_val s = VNumArr a -> sound_array a.
Proof. intros H1 H2. pose proof (Forall_nth _ _ _ _ A H1) as H. cbn beta in H. rewrite H2 in H. exact H. Qed.
Lemma str_array_of s a : symbol_at (v_st v) id = Some s -> s_val s = VStrArr a -> sound_array a.
Proof. intros H1 H2. pose proof (Forall_nth _ _ _ _ A H1) as H. cbn beta in H. rewrite H2 in H. exact H. Qed.

(* the array object of a dimensioned array *)
Lemma numeric_array_defined s a : symbol_at (v_st v) id = Some s -> s_kind s = KArray -> s_type s = TNum ->
  s_val s = VNumArr a -> (n <= 2)%N -> numeric_array_at id n v = (Ok (rev idx, a), set_stack st v).
Proof.
  intros H K Y X N2. pose proof (typed_fits g v id s T H) as F. unfold fits in F. rewrite K, Y, X in F.
  unfold numeric_array_at. unfold bind at 1, get_sym at 1. rewrite H. unfold is_kind. rewrite K, Y. cbn [skind_eqb vtype_eqb andb assert].
  unfold bind at 1, ret at 1. unfold bind at 1. rewrite (subscripts_pop v n idx st _ SUB N2). rewrite F.
  unfold bind, ret, get_sym. cbn [v_st set_stack]. rewrite H. unfold some_or_crash, ret. rewrite X. reflexivity.
Qed.
Lemma string_array_defined s a : symbol_at (v_st v) id = Some s -> s_kind s = KArray -> s_type s = TStr ->
  s_val s = VStrArr a -> (n <= 2)%N -> string_array_at id n v = (Ok (rev idx, a), set_stack st v).
Proof.
  intros H K Y X N2. pose proof (typed_fits g v id s T H) as F. unfold fits in F. rewrite K, Y, X in F.
  unfold string_array_at. unfold bind at 1, get_sym at 1. rewrite H. unfold is_kind. rewrite K, Y. cbn [skind_eqb vtype_eqb andb assert].
  unfold bind at 1, ret at 1. unfold bind at 1. rewrite (subscripts_pop v n idx st _ SUB N2). rewrite F.
  unfold bind, ret, get_sym. cbn [v_st set_stack]. rewrite H. unfold some_or_crash, ret. rewrite X. reflexivity.
Qed.

(* a dimensioned array and its object *)
Lemma bounds_num s b : symbol_at (v_st v) id = Some s -> s_kind s = KArray -> s_type s = TNum -> bounds v id = Some b ->
  exists a, s_val s = VNumArr a /\ arr_ok a (rev b).
Proof.
  intros H K Y B. pose proof (typed_fits g v id s T H) as F. unfold fits in F. rewrite K, Y in F.
  unfold bounds in B. rewrite H in B. destruct (s_val s) as [| | |a| | |] eqn:X; try contradiction; try discriminate B.
  exists a. split; [reflexivity|]. destruct (sound_arr _ (num_array_of s a H X)) as (max & O). injection B as <-. rewrite rev_involutive.
  pose proof O as (_ & Z & _). rewrite Z. exact O.
Qed.
Lemma bounds_str s b : symbol_at (v_st v) id = Some s -> s_kind s = KArray -> s_type s = TStr -> bounds v id = Some b ->
  exists a, s_val s = VStrArr a /\ arr_ok a (rev b).
Proof.
  intros H K Y B. pose proof (typed_fits g v id s T H) as F. unfold fits in F. rewrite K, Y in F.
  unfold bounds in B. rewrite H in B. destruct (s_val s) as [| | | |a| |] eqn:X; try contradiction; try discriminate B.
  exists a. split; [reflexivity|]. destruct (sound_arr _ (str_array_of s a H X)) as (max & O). injection B as <-. rewrite rev_involutive.
  pose proof O as (_ & Z & _). rewrite Z. exact O.
Qed.

Lemma subs_two t : current v = Some (get_element t id n) -> named v id KArray t -> (n <= 2)%N.
Proof.
  intros C Hn. pose proof (typed_current g v _ T C) as I. destruct t; cbn in I; destruct I as [[I _]|I]; try lia;
    destruct (typed_named g v id KArray _ _ _ T Hn I) as [X _]; discriminate X.
Qed.

Theorem element_read t b : current v = Some (get_element t id n) -> named v id KArray t -> bounds v id = Some b ->
  length st < 16 -> length (v_sstack v) < 8 -> in_bounds b idx ->
  execute E v = (Ok tt, set_cs (place_after v 1) (push_datum (element v t id idx) (set_stack st v))).
Proof.
  intros C Hn B R1 R2 IB. pose proof (subs_two t C Hn) as N2. rewrite (execute_eq E v _ C).
  destruct Hn as (s & H & K & Y). destruct t; cbn [get_element exec_instr vtype_of] in *.
  - destruct (bounds_num s b H K Y B) as (a & X & O).
    destruct (read_ok a (rev b) (rev idx) O (in_bounds_rev _ _ IB)) as (x & RX & _).
    unfold element. rewrite H, X, RX. cbn [push_datum].
    unfold bind at 1, get_sym at 1. rewrite H, Y. cbn [vtype_eqb assert]. unfold bind at 1, ret at 1. rewrite K. cbn [skind_eqb].
    erewrite adv_ok.
    2:{ unfold get_numeric_element. unfold bind at 1. rewrite (numeric_array_defined s a H K Y X N2).
        unfold bind, get_sym. cbn [v_st set_stack]. rewrite H, RX. apply push_room. exact R1. }
    cbn [finish]. rewrite (set_pc_place v) by reflexivity. reflexivity.
  - destruct (bounds_str s b H K Y B) as (a & X & O).
    destruct (read_ok a (rev b) (rev idx) O (in_bounds_rev _ _ IB)) as (x & RX & _).
    unfold element. rewrite H, X, RX. cbn [push_datum].
    unfold bind at 1, get_sym at 1. rewrite H, Y. cbn [vtype_eqb assert]. unfold bind at 1, ret at 1. rewrite K. cbn [skind_eqb].
    erewrite adv_ok.
    2:{ unfold get_string_element. unfold bind at 1. rewrite (string_array_defined s a H K Y X N2).
        unfold bind, get_sym. cbn [v_st set_stack]. rewrite H, RX. apply push_str_room. exact R2. }
    cbn [finish]. rewrite (set_pc_place v) by reflexivity. reflexivity.
Qed.

Theorem element_read_refused t b : current v = Some (get_element t id n) -> named v id KArray t -> bounds v id = Some b ->
  ~ in_bounds b idx -> exists s, symbol_at (v_st v) id = Some s /\ raises E v (RE_subscript (s_name s)).
Proof.
  intros C Hn B IB. pose proof (subs_two t C Hn) as N2.
  assert (IB' : ~ in_bounds (rev b) (rev idx)) by (intros H; apply IB; rewrite <- (rev_involutive b); apply in_bounds_rev', H).
  destruct Hn as (s & H & K & Y). exists s. split; [exact H|]. destruct t; cbn [get_element vtype_of] in *.
  - destruct (bounds_num s b H K Y B) as (a & X & O). eapply raises_intro; [exact C| | |].
    { cbn [exec_instr]. unfold bind at 1, get_sym at 1. rewrite H, Y. cbn [vtype_eqb assert]. unfold bind at 1, ret at 1. rewrite K. cbn [skind_eqb].
      unfold adv, get_numeric_element. unfold bind at 1. unfold bind at 1. rewrite (numeric_array_defined s a H K Y X N2).
      unfold bind, get_sym. cbn [v_st set_stack]. rewrite H, (read_fail a (rev b) (rev idx) O IB'). reflexivity. }
    all: reflexivity.
  - destruct (bounds_str s b H K Y B) as (a & X & O). eapply raises_intro; [exact C| | |].
    { cbn [exec_instr]. unfold bind at 1, get_sym at 1. rewrite H, Y. cbn [vtype_eqb assert]. unfold bind at 1, ret at 1. rewrite K. cbn [skind_eqb].
      unfold adv, get_string_element. unfold bind at 1. unfold bind at 1. rewrite (string_array_defined s a H K Y X N2).
      unfold bind, get_sym. cbn [v_st set_stack]. rewrite H, (read_fail a (rev b) (rev idx) O IB'). reflexivity. }
    all: reflexivity.
Qed.

Lemma store_num s b x : symbol_at (v_st v) id = Some s -> s_kind s = KArray -> s_type s = TNum -> bounds v id = Some b -> (n <= 2)%N ->
  in_bounds b idx -> exists w, set_numeric_element id n x v = (Ok tt, w) /\ stored (set_stack st v) (sort_of (Number x)) id idx (Number x) w /\ arrays_ok w.
Proof.
  intros H K Y B N2 IB. destruct (bounds_num s b H K Y B) as (a & X & O).
  destruct (write_ok a (rev b) (rev idx) x O (in_bounds_rev _ _ IB)) as (a' & WA & OA & RA & RO).
  eexists. split.
  { unfold set_numeric_element. unfold bind at 1. rewrite (numeric_array_defined s a H K Y X N2).
    unfold bind, get_sym. cbn [v_st set_stack]. rewrite H, WA. reflexivity. }
  cbn [v_st set_stack]. split; [split; [apply (update_only (set_stack st v) id _ s); [exact H|reflexivity|reflexivity]|]|].
  - unfold bounds, element. cbn [v_st set_st set_stack]. rewrite (symbol_update_same _ _ _ s H), H. cbn [s_val set_val]. rewrite X.
    destruct O as (_ & O & _), OA as (_ & O' & _). split; [rewrite O, O'; reflexivity|]. split; [rewrite RA; reflexivity|].
    intros j J. rewrite RO; [reflexivity|]. intros Q. apply J. rewrite <- (rev_involutive j), Q. apply rev_involutive.
  - unfold arrays_ok. cbn [v_st set_st sym_update st_syms]. apply Forall_list_upd; [exact A|]. cbn. eapply arr_sound, OA.
Qed.
Lemma store_num_refused s b x : symbol_at (v_st v) id = Some s -> s_kind s = KArray -> s_type s = TNum -> bounds v id = Some b -> (n <= 2)%N ->
  ~ in_bounds b idx -> exists w, set_numeric_element id n x v = (Fail (RE_subscript (s_name s)), w) /\ v_st w = v_st v /\ v_cs w = v_cs v.
Proof.
  intros H K Y B N2 IB. destruct (bounds_num s b H K Y B) as (a & X & O).
  assert (IB' : ~ in_bounds (rev b) (rev idx)) by (intros Q; apply IB; rewrite <- (rev_involutive b); apply in_bounds_rev', Q).
  eexists. split; [unfold set_numeric_element; unfold bind at 1; rewrite (numeric_array_defined s a H K Y X N2);
    unfold bind, get_sym; cbn [v_st set_stack]; rewrite H, (write_fail a (rev b) (rev idx) x O IB'); reflexivity|]. split; reflexivity.
Qed.

(* the array object made for an array that has not been dimensioned *)
Lemma undimensioned_num s : symbol_at (v_st v) id = Some s -> s_kind s = KArray -> s_type s = TNum -> bounds v id = None ->
  s_val s = VZero /\ s_defined s = false.
Proof.
  intros H K Y B. pose proof (typed_fits g v id s T H) as F. unfold fits in F. rewrite K, Y in F.
  unfold bounds in B. rewrite H in B. destruct (s_val s); try contradiction; try discriminate B. split; [reflexivity|exact F].
Qed.
Lemma made_num u s b a : symbol_at (v_st u) id = Some s -> s_kind s = KArray -> s_type s = TNum ->
  Forall (fun m => (m < 4294967295)%N) b -> acceptable b -> new_array fzero 0 (rev b) = AOk a -> arrays_ok u ->
  let w := set_st (sym_update (v_st u) (N.to_nat id) (define s (VNumArr a))) u in
  dimensioned u Numbers id b w /\ arrays_ok w.
Proof.
  intros H K Y BB AC NA AU w. assert (BB' : Forall (fun m => (m < 4294967295)%N) (rev b)) by (apply Forall_rev, BB).
  destruct (new_array_ok fzero (rev b) BB' (acceptable_rev b AC)) as (p & P & O & Z). rewrite NA in P. injection P as <-.
  split; [split; [|split]|].
  - apply (update_only u id _ s); [exact H|reflexivity|reflexivity].
  - unfold bounds, w. cbn [v_st set_st]. rewrite (symbol_update_same _ _ _ s H). cbn. destruct O as (_ & O & _). rewrite O. cbn. rewrite rev_involutive. reflexivity.
  - intros j. unfold element, w. cbn [v_st set_st]. rewrite (symbol_update_same _ _ _ s H). cbn [s_val define set_defined set_val].
    destruct (in_bounds_dec (rev b) (rev j)) as [I|I]; [rewrite (Z _ I); reflexivity|rewrite (read_fail a (rev b) (rev j) O I); reflexivity].
  - unfold arrays_ok, w. cbn [v_st set_st sym_update st_syms]. apply Forall_list_upd; [exact AU|]. cbn. eapply arr_sound, O.
Qed.

Lemma store_str s b x : symbol_at (v_st v) id = Some s -> s_kind s = KArray -> s_type s = TStr -> bounds v id = Some b -> (n <= 2)%N ->
  in_bounds b idx -> exists w, set_string_element id n x v = (Ok tt, w) /\ stored (set_stack st v) (sort_of (Text x)) id idx (Text x) w /\ arrays_ok w.
Proof.
  intros H K Y B N2 IB. destruct (bounds_str s b H K Y B) as (a & X & O).
  destruct (write_ok a (rev b) (rev idx) (Some x) O (in_bounds_rev _ _ IB)) as (a' & WA & OA & RA & RO).
  eexists. split.
  { unfold set_string_element. unfold bind at 1. rewrite (string_array_defined s a H K Y X N2).
    unfold bind, get_sym. cbn [v_st set_stack]. rewrite H, WA. reflexivity. }
  cbn [v_st set_stack]. split; [split; [apply (update_only (set_stack st v) id _ s); [exact H|reflexivity|reflexivity]|]|].
  - unfold bounds, element. cbn [v_st set_st set_stack]. rewrite (symbol_update_same _ _ _ s H), H. cbn [s_val set_val]. rewrite X.
    destruct O as (_ & O & _), OA as (_ & O' & _). split; [rewrite O, O'; reflexivity|]. split; [rewrite RA; reflexivity|].
    intros j J. rewrite RO; [reflexivity|]. intros Q. apply J. rewrite <- (rev_involutive j), Q. apply rev_involutive.
  - unfold arrays_ok. cbn [v_st set_st sym_update st_syms]. apply Forall_list_upd; [exact A|]. cbn. eapply arr_sound, OA.
Qed.
Lemma store_str_refused s b x : symbol_at (v_st v) id = Some s -> s_kind s = KArray -> s_type s = TStr -> bounds v id = Some b -> (n <= 2)%N ->
  ~ in_bounds b idx -> exists w, set_string_element id n x v = (Fail (RE_subscript (s_name s)), w) /\ v_st w = v_st v /\ v_cs w = v_cs v.
Proof.
  intros H K Y B N2 IB. destruct (bounds_str s b H K Y B) as (a & X & O).
  assert (IB' : ~ in_bounds (rev b) (rev idx)) by (intros Q; apply IB; rewrite <- (rev_involutive b); apply in_bounds_rev', Q).
  eexists. split; [unfold set_string_element; unfold bind at 1; rewrite (string_array_defined s a H K Y X N2);
    unfold bind, get_sym; cbn [v_st set_stack]; rewrite H, (write_fail a (rev b) (rev idx) (Some x) O IB'); reflexivity|]. split; reflexivity.
Qed.

(* the array object made for an array that has not been dimensioned *)
Lemma undimensioned_str s : symbol_at (v_st v) id = Some s -> s_kind s = KArray -> s_type s = TStr -> bounds v id = None ->
  s_val s = VZero /\ s_defined s = false.
Proof.
  intros H K Y B. pose proof (typed_fits g v id s T H) as F. unfold fits in F. rewrite K, Y in F.
  unfold bounds in B. rewrite H in B. destruct (s_val s); try contradiction; try discriminate B. split; [reflexivity|exact F].
Qed.
Lemma made_str u s b a : symbol_at (v_st u) id = Some s -> s_kind s = KArray -> s_type s = TStr ->
  Forall (fun m => (m < 4294967295)%N) b -> acceptable b -> new_array None 0 (rev b) = AOk a -> arrays_ok u ->
  let w := set_st (sym_update (v_st u) (N.to_nat id) (define s (VStrArr a))) u in
  dimensioned u Texts id b w /\ arrays_ok w.
Proof.
  intros H K Y BB AC NA AU w. assert (BB' : Forall (fun m => (m < 4294967295)%N) (rev b)) by (apply Forall_rev, BB).
  destruct (new_array_ok (@None bytes) (rev b) BB' (acceptable_rev b AC)) as (p & P & O & Z). rewrite NA in P. injection P as <-.
  split; [split; [|split]|].
  - apply (update_only u id _ s); [exact H|reflexivity|reflexivity].
  - unfold bounds, w. cbn [v_st set_st]. rewrite (symbol_update_same _ _ _ s H). cbn. destruct O as (_ & O & _). rewrite O. cbn. rewrite rev_involutive. reflexivity.
  - intros j. unfold element, w. cbn [v_st set_st]. rewrite (symbol_update_same _ _ _ s H). cbn [s_val define set_defined set_val].
    destruct (in_bounds_dec (rev b) (rev j)) as [I|I]; [rewrite (Z _ I); reflexivity|rewrite (read_fail a (rev b) (rev j) O I); reflexivity].
  - unfold arrays_ok, w. cbn [v_st set_st sym_update st_syms]. apply Forall_list_upd; [exact AU|]. cbn. eapply arr_sound, O.
Qed.

Lemma auto_num s : symbol_at (v_st v) id = Some s -> s_kind s = KArray -> s_type s = TNum -> bounds v id = None -> (n <= 2)%N ->
  Forall (fun m => (m < 4294967295)%N) idx -> acceptable (map (N.max 10) idx) ->
  exists a, new_array fzero 0 (rev (map (N.max 10) idx)) = AOk a /\
    let w := set_st (sym_update (v_st v) (N.to_nat id) (define s (VNumArr a))) v in
    numeric_array_at id n v = numeric_array_at id n w.
Proof.
  intros H K Y B N2 BB AC. destruct (undimensioned_num s H K Y B) as [X D].
  assert (BB' : Forall (fun m => (m < 4294967295)%N) (rev (map (N.max 10) idx))).
  { apply Forall_rev, Forall_map. eapply Forall_impl; [|exact BB]. cbn beta. lia. }
  destruct (new_array_ok fzero _ BB' (acceptable_rev _ AC)) as (a & NA & _ & _). exists a. split; [exact NA|]. intros w.
  assert (SUBw : subscripts w n idx st) by exact SUB.
  assert (Hw : symbol_at (v_st w) id = Some (define s (VNumArr a))) by (apply (symbol_update_same _ _ _ s H)).
  unfold numeric_array_at. unfold bind at 1, get_sym at 1. rewrite H. unfold is_kind. rewrite K, Y. cbn [skind_eqb vtype_eqb andb assert].
  unfold bind at 1, ret at 1. unfold bind at 1. rewrite (subscripts_pop v n idx st _ SUB N2), D.
  symmetry. unfold bind at 1, get_sym at 1. rewrite Hw. unfold is_kind. cbn [s_kind s_type define set_defined set_val]. rewrite K, Y. cbn [skind_eqb vtype_eqb andb assert].
  unfold bind at 1, ret at 1. unfold bind at 1. rewrite (subscripts_pop w n idx st _ SUBw N2). change (s_defined (define s _)) with true. cbv iota.
  unfold bind at 1, ret at 1. unfold bind at 1, get_sym at 1. change (symbol_at (v_st (set_stack st w)) id) with (symbol_at (v_st w) id). rewrite Hw.
  symmetry. unfold dimension_numeric_auto. unfold bind at 1. unfold bind at 1, get_sym at 1. cbn [v_st set_stack]. rewrite H, X.
  unfold bind at 1. cbn [some_or_crash val_numarr val_strarr]. unfold ret at 1. unfold dimension_numeric, bind at 1, get_sym at 1. cbn [v_st set_stack]. rewrite H.
  unfold is_kind. rewrite K, Y. cbn [skind_eqb vtype_eqb andb assert]. unfold bind at 1, ret at 1.
  rewrite auto_max_max, map_rev, NA. unfold put_sym, modify. unfold bind at 1, get_sym at 1. cbn [v_st set_st set_stack].
  change (sym_update (v_st v) (N.to_nat id) (define s (VNumArr a))) with (v_st w). rewrite Hw. reflexivity.
Qed.
Lemma auto_num_refused s : symbol_at (v_st v) id = Some s -> s_kind s = KArray -> s_type s = TNum -> bounds v id = None -> (n <= 2)%N ->
  Forall (fun m => (m < 4294967295)%N) idx -> ~ acceptable (map (N.max 10) idx) ->
  exists w, numeric_array_at id n v = (Fail (RE_dimensions (s_name s)), w) /\ v_st w = v_st v /\ v_cs w = v_cs v.
Proof.
  intros H K Y B N2 BB AC. destruct (undimensioned_num s H K Y B) as [X D].
  assert (BB' : Forall (fun m => (m < 4294967295)%N) (rev (map (N.max 10) idx))).
  { apply Forall_rev, Forall_map. eapply Forall_impl; [|exact BB]. cbn beta. lia. }
  destruct (new_array_cases fzero _ BB') as [[AC' _]|[_ NA]].
  { exfalso. apply AC. rewrite <- (rev_involutive (map _ idx)). apply acceptable_rev, AC'. }
  eexists. split.
  { unfold numeric_array_at. unfold bind at 1, get_sym at 1. rewrite H. unfold is_kind. rewrite K, Y. cbn [skind_eqb vtype_eqb andb assert].
    unfold bind at 1, ret at 1. unfold bind at 1. rewrite (subscripts_pop v n idx st _ SUB N2), D.
    unfold dimension_numeric_auto. unfold bind at 1. unfold bind at 1, get_sym at 1. cbn [v_st set_stack]. rewrite H, X.
    unfold bind at 1. cbn [some_or_crash val_numarr val_strarr]. unfold ret at 1. unfold dimension_numeric, bind at 1, get_sym at 1. cbn [v_st set_stack]. rewrite H.
    unfold is_kind. rewrite K, Y. cbn [skind_eqb vtype_eqb andb assert]. unfold bind at 1, ret at 1.
    rewrite auto_max_max, map_rev, NA. unfold put_sym, modify, bind, run_error. reflexivity. }
  cbn [v_st set_err set_st set_stack v_cs]. split; [|reflexivity]. replace (undefine s) with s.
  - unfold sym_update, symbol_at in *. rewrite (list_upd_same _ _ _ H). destruct (v_st v); reflexivity.
  - destruct s; cbn in *; subst; reflexivity.
Qed.

Lemma auto_str s : symbol_at (v_st v) id = Some s -> s_kind s = KArray -> s_type s = TStr -> bounds v id = None -> (n <= 2)%N ->
  Forall (fun m => (m < 4294967295)%N) idx -> acceptable (map (N.max 10) idx) ->
  exists a, new_array (@None bytes) 0 (rev (map (N.max 10) idx)) = AOk a /\
    let w := set_st (sym_update (v_st v) (N.to_nat id) (define s (VStrArr a))) v in
    string_array_at id n v = string_array_at id n w.
Proof.
  intros H K Y B N2 BB AC. destruct (undimensioned_str s H K Y B) as [X D].
  assert (BB' : Forall (fun m => (m < 4294967295)%N) (rev (map (N.max 10) idx))).
  { apply Forall_rev, Forall_map. eapply Forall_impl; [|exact BB]. cbn beta. lia. }
  destruct (new_array_ok (@None bytes) _ BB' (acceptable_rev _ AC)) as (a & NA & _ & _). exists a. split; [exact NA|]. intros w.
  assert (SUBw : subscripts w n idx st) by exact SUB.
  assert (Hw : symbol_at (v_st w) id = Some (define s (VStrArr a))) by (apply (symbol_update_same _ _ _ s H)).
  unfold string_array_at. unfold bind at 1, get_sym at 1. rewrite H. unfold is_kind. rewrite K, Y. cbn [skind_eqb vtype_eqb andb assert].
  unfold bind at 1, ret at 1. unfold bind at 1. rewrite (subscripts_pop v n idx st _ SUB N2), D.
  symmetry. unfold bind at 1, get_sym at 1. rewrite Hw. unfold is_kind. cbn [s_kind s_type define set_defined set_val]. rewrite K, Y. cbn [skind_eqb vtype_eqb andb assert].
  unfold bind at 1, ret at 1. unfold bind at 1. rewrite (subscripts_pop w n idx st _ SUBw N2). change (s_defined (define s _)) with true. cbv iota.
  unfold bind at 1, ret at 1. unfold bind at 1, get_sym at 1. change (symbol_at (v_st (set_stack st w)) id) with (symbol_at (v_st w) id). rewrite Hw.
  symmetry. unfold dimension_string_auto. unfold bind at 1. unfold bind at 1, get_sym at 1. cbn [v_st set_stack]. rewrite H, X.
  unfold bind at 1. cbn [some_or_crash val_numarr val_strarr]. unfold ret at 1. unfold dimension_string, bind at 1, get_sym at 1. cbn [v_st set_stack]. rewrite H.
  unfold is_kind. rewrite K, Y. cbn [skind_eqb vtype_eqb andb assert]. unfold bind at 1, ret at 1.
  rewrite auto_max_max, map_rev, NA. unfold put_sym, modify. unfold bind at 1, get_sym at 1. cbn [v_st set_st set_stack].
  change (sym_update (v_st v) (N.to_nat id) (define s (VStrArr a))) with (v_st w). rewrite Hw. reflexivity.
Qed.
Lemma auto_str_refused s : symbol_at (v_st v) id = Some s -> s_kind s = KArray -> s_type s = TStr -> bounds v id = None -> (n <= 2)%N ->
  Forall (fun m => (m < 4294967295)%N) idx -> ~ acceptable (map (N.max 10) idx) ->
  exists w, string_array_at id n v = (Fail (RE_dimensions (s_name s)), w) /\ v_st w = v_st v /\ v_cs w = v_cs v.
Proof.
  intros H K Y B N2 BB AC. destruct (undimensioned_str s H K Y B) as [X D].
  assert (BB' : Forall (fun m => (m < 4294967295)%N) (rev (map (N.max 10) idx))).
  { apply Forall_rev, Forall_map. eapply Forall_impl; [|exact BB]. cbn beta. lia. }
  destruct (new_array_cases (@None bytes) _ BB') as [[AC' _]|[_ NA]].
  { exfalso. apply AC. rewrite <- (rev_involutive (map _ idx)). apply acceptable_rev, AC'. }
  eexists. split.
  { unfold string_array_at. unfold bind at 1, get_sym at 1. rewrite H. unfold is_kind. rewrite K, Y. cbn [skind_eqb vtype_eqb andb assert].
    unfold bind at 1, ret at 1. unfold bind at 1. rewrite (subscripts_pop v n idx st _ SUB N2), D.
    unfold dimension_string_auto. unfold bind at 1. unfold bind at 1, get_sym at 1. cbn [v_st set_stack]. rewrite H, X.
    unfold bind at 1. cbn [some_or_crash val_numarr val_strarr]. unfold ret at 1. unfold dimension_string, bind at 1, get_sym at 1. cbn [v_st set_stack]. rewrite H.
    unfold is_kind. rewrite K, Y. cbn [skind_eqb vtype_eqb andb assert]. unfold bind at 1, ret at 1.
    rewrite auto_max_max, map_rev, NA. unfold put_sym, modify, bind, run_error. reflexivity. }
  cbn [v_st set_err set_st set_stack v_cs]. split; [|reflexivity]. replace (undefine s) with s.
  - unfold sym_update, symbol_at in *. rewrite (list_upd_same _ _ _ H). destruct (v_st v); reflexivity.
  - destruct s; cbn in *; subst; reflexivity.
Qed.

Lemma only_trans a b c : only id a b -> only id b c -> only id a c.
Proof.
  intros (A1 & A2 & A3) (B1 & B2 & B3). split; [|split].
  - rewrite B1. rewrite A1. destruct a; reflexivity.
  - intros j J. rewrite B2, A2 by exact J. reflexivity.
  - intros k t Q. apply B3, A3, Q.
Qed.

Lemma dim_num_ok s : symbol_at (v_st v) id = Some s -> s_kind s = KArray -> s_type s = TNum -> (n <= 2)%N ->
  Forall (fun m => (m < 4294967295)%N) idx -> acceptable idx ->
  exists w, exec_dim_num id n v = (Ok tt, w) /\ dimensioned (set_stack st v) Numbers id idx w /\ arrays_ok w.
Proof.
  intros H K Y N2 BB AC. pose proof (typed_fits g v id s T H) as F. unfold fits in F. rewrite K, Y in F.
  assert (BB' : Forall (fun m => (m < 4294967295)%N) (rev idx)) by (apply Forall_rev, BB).
  destruct (new_array_ok fzero _ BB' (acceptable_rev _ AC)) as (a & NA & _ & _).
  set (u := match s_val s with VNumArr _ => set_st (sym_update (v_st v) (N.to_nat id) (undefine s)) v | _ => v end).
  set (s' := match s_val s with VNumArr _ => undefine s | _ => s end).
  assert (Hu : symbol_at (v_st u) id = Some s' /\ s_kind s' = KArray /\ s_type s' = TNum /\ only id v u /\ arrays_ok u).
  { subst u s'. destruct (s_val s); try (split; [exact H|split; [exact K|split; [exact Y|split; [split; [destruct v; reflexivity|split; auto]|exact A]]]]).
    split; [apply (symbol_update_same _ _ _ s H)|]. split; [exact K|]. split; [exact Y|].
    split; [apply (update_only v id _ s); [exact H|reflexivity|reflexivity]|].
    unfold arrays_ok. cbn [v_st set_st sym_update st_syms]. apply Forall_list_upd; [exact A|exact I]. }
  destruct Hu as (Hu & Ku & Yu & Ou & Au). assert (SUBu : subscripts u n idx st) by (subst u; destruct (s_val s); exact SUB).
  exists (set_st (sym_update (v_st u) (N.to_nat id) (define s' (VNumArr a))) (set_stack st u)). split; [|].
  - unfold exec_dim_num. unfold bind at 1, get_sym at 1. rewrite H. unfold is_kind. rewrite K, Y. cbn [skind_eqb vtype_eqb andb assert].
    unfold bind at 1, ret at 1.
    transitivity (bind (pop_indexes n (s_name s)) (dimension_numeric id) u).
    { subst u. destruct (s_val s) eqn:X; try contradiction; cbn [val_numarr val_strarr some_or_crash]; [reflexivity|].
      rewrite F. reflexivity. }
    unfold bind. rewrite (subscripts_pop u n idx st _ SUBu N2). unfold dimension_numeric, bind, get_sym. cbn [v_st set_stack]. rewrite Hu.
    unfold is_kind. rewrite Ku, Yu. cbn [skind_eqb vtype_eqb andb assert]. unfold ret. rewrite NA. reflexivity.
  - destruct (made_num (set_stack st u) s' idx a Hu Ku Yu BB AC NA Au) as ((M1 & M2 & M3) & M4). split; [|exact M4].
    split; [|split; [exact M2|exact M3]]. eapply only_trans; [|exact M1].
    destruct Ou as (O1 & O2 & O3). split; [|split; [exact O2|exact O3]]. cbn [v_st set_stack]. rewrite O1. destruct v; reflexivity.
Qed.
Lemma dim_num_refused s : symbol_at (v_st v) id = Some s -> s_kind s = KArray -> s_type s = TNum -> (n <= 2)%N ->
  Forall (fun m => (m < 4294967295)%N) idx -> ~ acceptable idx ->
  exists w, exec_dim_num id n v = (Fail (RE_dimensions (s_name s)), w) /\ bounds w id = None /\ v_cs w = v_cs v /\
    forall j, j <> id -> symbol_at (v_st w) j = symbol_at (v_st v) j.
Proof.
  intros H K Y N2 BB AC. pose proof (typed_fits g v id s T H) as F. unfold fits in F. rewrite K, Y in F.
  assert (BB' : Forall (fun m => (m < 4294967295)%N) (rev idx)) by (apply Forall_rev, BB).
  destruct (new_array_cases fzero _ BB') as [[AC' _]|[_ NA]].
  { exfalso. apply AC. rewrite <- (rev_involutive idx). apply acceptable_rev, AC'. }
  set (u := match s_val s with VNumArr _ => set_st (sym_update (v_st v) (N.to_nat id) (undefine s)) v | _ => v end).
  set (s' := match s_val s with VNumArr _ => undefine s | _ => s end).
  assert (Hu : symbol_at (v_st u) id = Some s' /\ s_kind s' = KArray /\ s_type s' = TNum /\ only id v u /\ s_name s' = s_name s).
  { subst u s'. destruct (s_val s); try (split; [exact H|split; [exact K|split; [exact Y|split; [split; [destruct v; reflexivity|split; auto]|reflexivity]]]]).
    split; [apply (symbol_update_same _ _ _ s H)|]. split; [exact K|]. split; [exact Y|].
    split; [apply (update_only v id _ s); [exact H|reflexivity|reflexivity]|reflexivity]. }
  destruct Hu as (Hu & Ku & Yu & (O1 & O2 & O3) & Nu). assert (SUBu : subscripts u n idx st) by (subst u; destruct (s_val s); exact SUB).
  eexists. split; [|split; [|split]].
  - unfold exec_dim_num. unfold bind at 1, get_sym at 1. rewrite H. unfold is_kind. rewrite K, Y. cbn [skind_eqb vtype_eqb andb assert].
    unfold bind at 1, ret at 1.
    transitivity (bind (pop_indexes n (s_name s)) (dimension_numeric id) u).
    { subst u. destruct (s_val s) eqn:X; try contradiction; cbn [val_numarr val_strarr some_or_crash]; [reflexivity|].
      rewrite F. reflexivity. }
    unfold bind. rewrite (subscripts_pop u n idx st _ SUBu N2). unfold dimension_numeric, bind, get_sym. cbn [v_st set_stack]. rewrite Hu.
    unfold is_kind. rewrite Ku, Yu. cbn [skind_eqb vtype_eqb andb assert]. unfold ret. rewrite NA, Nu. reflexivity.
  - unfold bounds. cbn [v_st set_err set_st set_stack]. rewrite (symbol_update_same _ _ _ s' Hu). reflexivity.
  - cbn [v_cs set_err set_st set_stack]. subst u. destruct (s_val s); reflexivity.
  - intros j J. cbn [v_st set_err set_st set_stack]. rewrite symbol_update_other by exact J. apply O2, J.
Qed.

Lemma dim_str_ok s : symbol_at (v_st v) id = Some s -> s_kind s = KArray -> s_type s = TStr -> (n <= 2)%N ->
  Forall (fun m => (m < 4294967295)%N) idx -> acceptable idx ->
  exists w, exec_dim_str id n v = (Ok tt, w) /\ dimensioned (set_stack st v) Texts id idx w /\ arrays_ok w.
Proof.
  intros H K Y N2 BB AC. pose proof (typed_fits g v id s T H) as F. unfold fits in F. rewrite K, Y in F.
  assert (BB' : Forall (fun m => (m < 4294967295)%N) (rev idx)) by (apply Forall_rev, BB).
  destruct (new_array_ok (@None bytes) _ BB' (acceptable_rev _ AC)) as (a & NA & _ & _).
  set (u := match s_val s with VStrArr _ => set_st (sym_update (v_st v) (N.to_nat id) (undefine s)) v | _ => v end).
  set (s' := match s_val s with VStrArr _ => undefine s | _ => s end).
  assert (Hu : symbol_at (v_st u) id = Some s' /\ s_kind s' = KArray /\ s_type s' = TStr /\ only id v u /\ arrays_ok u).
  { subst u s'. destruct (s_val s); try (split; [exact H|split; [exact K|split; [exact Y|split; [split; [destruct v; reflexivity|split; auto]|exact A]]]]).
    split; [apply (symbol_update_same _ _ _ s H)|]. split; [exact K|]. split; [exact Y|].
    split; [apply (update_only v id _ s); [exact H|reflexivity|reflexivity]|].
    unfold arrays_ok. cbn [v_st set_st sym_update st_syms]. apply Forall_list_upd; [exact A|exact I]. }
  destruct Hu as (Hu & Ku & Yu & Ou & Au). assert (SUBu : subscripts u n idx st) by (subst u; destruct (s_val s); exact SUB).
  exists (set_st (sym_update (v_st u) (N.to_nat id) (define s' (VStrArr a))) (set_stack st u)). split; [|].
  - unfold exec_dim_str. unfold bind at 1, get_sym at 1. rewrite H. unfold is_kind. rewrite K, Y. cbn [skind_eqb vtype_eqb andb assert].
    unfold bind at 1, ret at 1.
    transitivity (bind (pop_indexes n (s_name s)) (dimension_string id) u).
    { subst u. destruct (s_val s) eqn:X; try contradiction; cbn [val_numarr val_strarr some_or_crash]; [reflexivity|].
      rewrite F. reflexivity. }
    unfold bind. rewrite (subscripts_pop u n idx st _ SUBu N2). unfold dimension_string, bind, get_sym. cbn [v_st set_stack]. rewrite Hu.
    unfold is_kind. rewrite Ku, Yu. cbn [skind_eqb vtype_eqb andb assert]. unfold ret. rewrite NA. reflexivity.
  - destruct (made_str (set_stack st u) s' idx a Hu Ku Yu BB AC NA Au) as ((M1 & M2 & M3) & M4). split; [|exact M4].
    split; [|split; [exact M2|exact M3]]. eapply only_trans; [|exact M1].
    destruct Ou as (O1 & O2 & O3). split; [|split; [exact O2|exact O3]]. cbn [v_st set_stack]. rewrite O1. destruct v; reflexivity.
Qed.
Lemma dim_str_refused s : symbol_at (v_st v) id = Some s -> s_kind s = KArray -> s_type s = TStr -> (n <= 2)%N ->
  Forall (fun m => (m < 4294967295)%N) idx -> ~ acceptable idx ->
  exists w, exec_dim_str id n v = (Fail (RE_dimensions (s_name s)), w) /\ bounds w id = None /\ v_cs w = v_cs v /\
    forall j, j <> id -> symbol_at (v_st w) j = symbol_at (v_st v) j.
Proof.
  intros H K Y N2 BB AC. pose proof (typed_fits g v id s T H) as F. unfold fits in F. rewrite K, Y in F.
  assert (BB' : Forall (fun m => (m < 4294967295)%N) (rev idx)) by (apply Forall_rev, BB).
  destruct (new_array_cases (@None bytes) _ BB') as [[AC' _]|[_ NA]].
  { exfalso. apply AC. rewrite <- (rev_involutive idx). apply acceptable_rev, AC'. }
  set (u := match s_val s with VStrArr _ => set_st (sym_update (v_st v) (N.to_nat id) (undefine s)) v | _ => v end).
  set (s' := match s_val s with VStrArr _ => undefine s | _ => s end).
  assert (Hu : symbol_at (v_st u) id = Some s' /\ s_kind s' = KArray /\ s_type s' = TStr /\ only id v u /\ s_name s' = s_name s).
  { subst u s'. destruct (s_val s); try (split; [exact H|split; [exact K|split; [exact Y|split; [split; [destruct v; reflexivity|split; auto]|reflexivity]]]]).
    split; [apply (symbol_update_same _ _ _ s H)|]. split; [exact K|]. split; [exact Y|].
    split; [apply (update_only v id _ s); [exact H|reflexivity|reflexivity]|reflexivity]. }
  destruct Hu as (Hu & Ku & Yu & (O1 & O2 & O3) & Nu). assert (SUBu : subscripts u n idx st) by (subst u; destruct (s_val s); exact SUB).
  eexists. split; [|split; [|split]].
  - unfold exec_dim_str. unfold bind at 1, get_sym at 1. rewrite H. unfold is_kind. rewrite K, Y. cbn [skind_eqb vtype_eqb andb assert].
    unfold bind at 1, ret at 1.
    transitivity (bind (pop_indexes n (s_name s)) (dimension_string id) u).
    { subst u. destruct (s_val s) eqn:X; try contradiction; cbn [val_numarr val_strarr some_or_crash]; [reflexivity|].
      rewrite F. reflexivity. }
    unfold bind. rewrite (subscripts_pop u n idx st _ SUBu N2). unfold dimension_string, bind, get_sym. cbn [v_st set_stack]. rewrite Hu.
    unfold is_kind. rewrite Ku, Yu. cbn [skind_eqb vtype_eqb andb assert]. unfold ret. rewrite NA, Nu. reflexivity.
  - unfold bounds. cbn [v_st set_err set_st set_stack]. rewrite (symbol_update_same _ _ _ s' Hu). reflexivity.
  - cbn [v_cs set_err set_st set_stack]. subst u. destruct (s_val s); reflexivity.
  - intros j J. cbn [v_st set_err set_st set_stack]. rewrite symbol_update_other by exact J. apply O2, J.
Qed.
End Elements.

Lemma typed_push g d u : typed g u -> typed g (push_datum d u).
Proof. intros [A B C D F]. destruct d; constructor; assumption. Qed.

Lemma subs_bound v n idx st : subscripts v n idx st -> Forall (fun m => (m < 4294967296)%N) idx.
Proof. intros (xs & _ & F & _). induction F as [|x i xs idx [_ K] F IH]; constructor; [exact (count_below x i K)|exact IH]. Qed.

(* the machine with the state changed by storing *)
Definition store (id : symid) (n : N) (d : datum) : M unit :=
  match d with Number x => set_numeric_element id n x | Text s => set_string_element id n s end.

Lemma store_step E u id n d : current u = Some (set_element (sort_of d) id n) -> (exists s, symbol_at (v_st u) id = Some s) ->
  execute E (push_datum d u) = finish (adv (store id n d) u).
Proof.
  intros C (s & H). assert (C' : current (push_datum d u) = Some (set_element (sort_of d) id n)) by (destruct d; exact C).
  rewrite (execute_eq E _ _ C'). f_equal. destruct d; cbn [set_element sort_of exec_instr push_datum store]; unfold bind at 1, get_sym; cbn [v_st set_stack set_sstack];
    rewrite H; [rewrite (bind_pop _ (set_stack (x :: v_stack u) u) x (v_stack u) eq_refl)|rewrite (bind_pop_str _ (set_sstack (s0 :: v_sstack u) u) s0 (v_sstack u) eq_refl)]; destruct u; reflexivity.
Qed.

Lemma set_two g v id n t : typed g v -> current v = Some (set_element t id n) -> (n <= 2)%N.
Proof. intros T C. pose proof (typed_current g v _ T C) as I. destruct t; cbn in I; lia. Qed.
Lemma dim_two g v id n t : typed g v -> current v = Some (dim t id n) -> (n <= 2)%N.
Proof. intros T C. pose proof (typed_current g v _ T C) as I. destruct t; cbn in I; lia. Qed.

Lemma finish_place v m w : m v = (Ok tt, w) -> v_cs w = v_cs v -> finish (adv m v) = (Ok tt, set_cs (place_after v 1) w).
Proof. intros X Cs. rewrite (adv_ok m v w X). cbn [finish]. rewrite (set_pc_place v w Cs). reflexivity. Qed.

Lemma only_cs id v w : only id v w -> v_cs w = v_cs v.
Proof. intros (-> & _). reflexivity. Qed.

Theorem store_ok g u id n d idx st b : typed g u -> arrays_ok u -> subscripts u n idx st -> named u id KArray (sort_of d) ->
  bounds u id = Some b -> (n <= 2)%N -> in_bounds b idx ->
  exists w, store id n d u = (Ok tt, w) /\ stored (set_stack st u) (sort_of d) id idx d w /\ arrays_ok w.
Proof.
  intros T A S (s & H & K & Y) B N2 IB. destruct d; cbn [store sort_of vtype_of] in *.
  - exact (store_num g u id n idx st T A S s b x H K Y B N2 IB).
  - exact (store_str g u id n idx st T A S s b s0 H K Y B N2 IB).
Qed.

Theorem element_write E g u id n d idx st b : typed g u -> arrays_ok u -> current u = Some (set_element (sort_of d) id n) ->
  named u id KArray (sort_of d) -> subscripts u n idx st -> bounds u id = Some b -> in_bounds b idx ->
  exists w, execute E (push_datum d u) = (Ok tt, set_cs (place_after u 1) w) /\
    stored (set_stack st u) (sort_of d) id idx d w /\ arrays_ok w.
Proof.
  intros T A C Hn S B IB. pose proof (set_two g u id n _ T C) as N2.
  destruct (store_ok g u id n d idx st b T A S Hn B N2 IB) as (w & W & ST & AW). exists w. split; [|split; assumption].
  rewrite (store_step E u id n d C) by (destruct Hn as (s & Hs & _); exists s; exact Hs).
  apply finish_place; [exact W|]. destruct ST as (O & _). exact (only_cs _ _ _ O).
Qed.

Theorem element_write_refused E g u id n d idx st b : typed g u -> arrays_ok u -> current u = Some (set_element (sort_of d) id n) ->
  named u id KArray (sort_of d) -> subscripts u n idx st -> bounds u id = Some b -> ~ in_bounds b idx ->
  exists s, symbol_at (v_st u) id = Some s /\ raises E (push_datum d u) (RE_subscript (s_name s)).
Proof.
  intros T A C Hn S B IB. pose proof (set_two g u id n _ T C) as N2. destruct Hn as (s & H & K & Y). exists s. split; [exact H|].
  unfold raises. rewrite (store_step E u id n d C) by (exists s; exact H).
  assert (W : exists w, store id n d u = (Fail (RE_subscript (s_name s)), w) /\ v_st w = v_st u /\ v_cs w = v_cs u).
  { destruct d; cbn [store sort_of vtype_of] in *.
    - exact (store_num_refused g u id n idx st T A S s b x H K Y B N2 IB).
    - exact (store_str_refused g u id n idx st T A S s b s0 H K Y B N2 IB). }
  destruct W as (w & W & W1 & W2). exists w. unfold adv, bind. rewrite W. cbn [finish]. destruct d; auto.
Qed.

(* automatic dimensioning *)
Theorem element_read_auto E g v t id n idx st : typed g v -> arrays_ok v -> current v = Some (get_element t id n) ->
  named v id KArray t -> subscripts v n idx st -> bounds v id = None ->
  Forall (fun m => (m < 4294967295)%N) idx -> acceptable (map (N.max 10) idx) ->
  exists w, dimensioned v t id (map (N.max 10) idx) w /\ arrays_ok w /\ execute E v = execute E w.
Proof.
  intros T A C Hn S B BB AC. pose proof (subs_two g v id n T t C Hn) as N2.
  assert (BB' : Forall (fun m => (m < 4294967295)%N) (map (N.max 10) idx)).
  { apply Forall_map. eapply Forall_impl; [|exact BB]. cbn beta. lia. }
  destruct Hn as (s & H & K & Y). destruct t; cbn [get_element vtype_of] in *.
  - destruct (auto_num g v id n idx st T S s H K Y B N2 BB AC) as (a & NA & X).
    set (w := set_st (sym_update (v_st v) (N.to_nat id) (define s (VNumArr a))) v) in *.
    destruct (made_num id v s (map (N.max 10) idx) a H K Y BB' AC NA A) as (D & AW). exists w. split; [exact D|]. split; [exact AW|].
    rewrite (execute_eq E v _ C), (execute_eq E w _ C). f_equal. cbn [exec_instr]. unfold bind at 1, get_sym at 1. rewrite H, Y.
    cbn [vtype_eqb assert]. unfold bind at 1, ret at 1. rewrite K. cbn [skind_eqb].
    symmetry. unfold bind at 1, get_sym at 1. unfold w at 1. cbn [v_st set_st]. rewrite (symbol_update_same _ _ _ s H). cbn [s_type s_kind define set_defined set_val].
    rewrite Y, K. cbn [vtype_eqb assert skind_eqb]. unfold bind at 1, ret at 1. symmetry.
    unfold adv, get_numeric_element. unfold bind at 1. unfold bind at 1. rewrite X. reflexivity.
  - destruct (auto_str g v id n idx st T S s H K Y B N2 BB AC) as (a & NA & X).
    set (w := set_st (sym_update (v_st v) (N.to_nat id) (define s (VStrArr a))) v) in *.
    destruct (made_str id v s (map (N.max 10) idx) a H K Y BB' AC NA A) as (D & AW). exists w. split; [exact D|]. split; [exact AW|].
    rewrite (execute_eq E v _ C), (execute_eq E w _ C). f_equal. cbn [exec_instr]. unfold bind at 1, get_sym at 1. rewrite H, Y.
    cbn [vtype_eqb assert]. unfold bind at 1, ret at 1. rewrite K. cbn [skind_eqb].
    symmetry. unfold bind at 1, get_sym at 1. unfold w at 1. cbn [v_st set_st]. rewrite (symbol_update_same _ _ _ s H). cbn [s_type s_kind define set_defined set_val].
    rewrite Y, K. cbn [vtype_eqb assert skind_eqb]. unfold bind at 1, ret at 1. symmetry.
    unfold adv, get_string_element. unfold bind at 1. unfold bind at 1. rewrite X. reflexivity.
Qed.

Theorem store_auto g u id n d idx st : typed g u -> arrays_ok u ->
  named u id KArray (sort_of d) -> subscripts u n idx st -> bounds u id = None -> (n <= 2)%N ->
  Forall (fun m => (m < 4294967295)%N) idx -> acceptable (map (N.max 10) idx) ->
  exists w, dimensioned u (sort_of d) id (map (N.max 10) idx) w /\ arrays_ok w /\ store id n d u = store id n d w.
Proof.
  intros T A Hn S B N2 BB AC.
  assert (BB' : Forall (fun m => (m < 4294967295)%N) (map (N.max 10) idx)).
  { apply Forall_map. eapply Forall_impl; [|exact BB]. cbn beta. lia. }
  destruct Hn as (s & H & K & Y). destruct d; cbn [store sort_of vtype_of] in *.
  - destruct (auto_num g u id n idx st T S s H K Y B N2 BB AC) as (a & NA & X).
    destruct (made_num id u s (map (N.max 10) idx) a H K Y BB' AC NA A) as (D & AW). eexists. split; [exact D|]. split; [exact AW|].
    unfold set_numeric_element. unfold bind at 1. rewrite X. reflexivity.
  - destruct (auto_str g u id n idx st T S s H K Y B N2 BB AC) as (a & NA & X).
    destruct (made_str id u s (map (N.max 10) idx) a H K Y BB' AC NA A) as (D & AW). eexists. split; [exact D|]. split; [exact AW|].
    unfold set_string_element. unfold bind at 1. rewrite X. reflexivity.
Qed.

Lemma only_current id v w : only id v w -> current w = current v.
Proof. intros (-> & _). reflexivity. Qed.
Lemma only_named id v w k t : only id v w -> named v id k t -> named w id k t.
Proof. intros (_ & _ & H). apply H. Qed.

Theorem element_write_auto E g u id n d idx st : typed g u -> arrays_ok u -> current u = Some (set_element (sort_of d) id n) ->
  named u id KArray (sort_of d) -> subscripts u n idx st -> bounds u id = None ->
  Forall (fun m => (m < 4294967295)%N) idx -> acceptable (map (N.max 10) idx) ->
  exists w, dimensioned u (sort_of d) id (map (N.max 10) idx) w /\ arrays_ok w /\
    execute E (push_datum d u) = execute E (push_datum d w).
Proof.
  intros T A C Hn S B BB AC. pose proof (set_two g u id n _ T C) as N2.
  destruct (store_auto g u id n d idx st T A Hn S B N2 BB AC) as (w & D & AW & X). exists w. split; [exact D|]. split; [exact AW|].
  pose proof D as (O & _). assert (Cw : current w = Some (set_element (sort_of d) id n)) by (rewrite (only_current _ _ _ O); exact C).
  rewrite (store_step E u id n d C) by (destruct Hn as (s & Hs & _); exists s; exact Hs).
  rewrite (store_step E w id n d Cw) by (destruct (only_named _ _ _ _ _ O Hn) as (s & Hs & _); exists s; exact Hs).
  f_equal. unfold adv, bind. rewrite X. reflexivity.
Qed.

Theorem auto_refused E g u id n d idx st t : typed g u -> arrays_ok u ->
  named u id KArray t -> subscripts u n idx st -> bounds u id = None ->
  Forall (fun m => (m < 4294967295)%N) idx -> ~ acceptable (map (N.max 10) idx) ->
  exists s, symbol_at (v_st u) id = Some s /\
    (current u = Some (get_element t id n) -> raises E u (RE_dimensions (s_name s))) /\
    (current u = Some (set_element (sort_of d) id n) -> sort_of d = t -> raises E (push_datum d u) (RE_dimensions (s_name s))).
Proof.
  intros T A Hn S B BB AC. pose proof Hn as (s & H & K & Y). exists s. split; [exact H|]. split.
  - intros C. pose proof (subs_two g u id n T t C Hn) as N2. destruct t; cbn [get_element vtype_of] in *.
    + destruct (auto_num_refused g u id n idx st T S s H K Y B N2 BB AC) as (w & W & W1 & W2).
      eapply raises_intro; [exact C| |exact W1|exact W2]. cbn [exec_instr]. unfold bind at 1, get_sym at 1. rewrite H, Y.
      cbn [vtype_eqb assert]. unfold bind at 1, ret at 1. rewrite K. cbn [skind_eqb].
      unfold adv, get_numeric_element. unfold bind at 1. unfold bind at 1. rewrite W. reflexivity.
    + destruct (auto_str_refused g u id n idx st T S s H K Y B N2 BB AC) as (w & W & W1 & W2).
      eapply raises_intro; [exact C| |exact W1|exact W2]. cbn [exec_instr]. unfold bind at 1, get_sym at 1. rewrite H, Y.
      cbn [vtype_eqb assert]. unfold bind at 1, ret at 1. rewrite K. cbn [skind_eqb].
      unfold adv, get_string_element. unfold bind at 1. unfold bind at 1. rewrite W. reflexivity.
  - intros C <-. pose proof (set_two g u id n _ T C) as N2. unfold raises. rewrite (store_step E u id n d C) by (exists s; exact H).
    assert (W : exists w, store id n d u = (Fail (RE_dimensions (s_name s)), w) /\ v_st w = v_st u /\ v_cs w = v_cs u).
    { destruct d; cbn [store sort_of vtype_of] in *.
      - destruct (auto_num_refused g u id n idx st T S s H K Y B N2 BB AC) as (w & W & W1 & W2). exists w.
        split; [|split; assumption]. unfold set_numeric_element, bind at 1. rewrite W. reflexivity.
      - destruct (auto_str_refused g u id n idx st T S s H K Y B N2 BB AC) as (w & W & W1 & W2). exists w.
        split; [|split; assumption]. unfold set_string_element, bind at 1. rewrite W. reflexivity. }
    destruct W as (w & W & W1 & W2). exists w. unfold adv, bind. rewrite W. cbn [finish]. destruct d; auto.
Qed.

(* DIM *)
Theorem dim_accepted E g v t id n idx st : typed g v -> arrays_ok v -> current v = Some (dim t id n) ->
  named v id KArray t -> subscripts v n idx st -> Forall (fun m => (m < 4294967295)%N) idx -> acceptable idx ->
  exists w, execute E v = (Ok tt, set_cs (place_after v 1) w) /\ dimensioned (set_stack st v) t id idx w /\ arrays_ok w.
Proof.
  intros T A C (s & H & K & Y) S BB AC. pose proof (dim_two g v id n _ T C) as N2.
  assert (W : exists w, (match t with Numbers => exec_dim_num id n | Texts => exec_dim_str id n end) v = (Ok tt, w) /\
    dimensioned (set_stack st v) t id idx w /\ arrays_ok w).
  { destruct t; cbn [vtype_of] in *.
    - exact (dim_num_ok g v id n idx st T A S s H K Y N2 BB AC).
    - exact (dim_str_ok g v id n idx st T A S s H K Y N2 BB AC). }
  destruct W as (w & W & D & AW). exists w. split; [|split; assumption].
  rewrite (execute_eq E v _ C). destruct D as (O & _). pose proof (only_cs _ _ _ O) as Cs. cbn [v_cs set_stack] in Cs.
  destruct t; cbn [dim exec_instr]; apply finish_place; assumption.
Qed.

Theorem dim_rejected E g v t id n idx st : typed g v -> arrays_ok v -> current v = Some (dim t id n) ->
  named v id KArray t -> subscripts v n idx st -> Forall (fun m => (m < 4294967295)%N) idx -> ~ acceptable idx ->
  exists s w, symbol_at (v_st v) id = Some s /\ execute E v = (Fail (RE_dimensions (s_name s)), w) /\ v_cs w = v_cs v /\
    bounds w id = None /\ forall j, j <> id -> symbol_at (v_st w) j = symbol_at (v_st v) j.
Proof.
  intros T A C (s & H & K & Y) S BB AC. pose proof (dim_two g v id n _ T C) as N2.
  assert (W : exists w, (match t with Numbers => exec_dim_num id n | Texts => exec_dim_str id n end) v = (Fail (RE_dimensions (s_name s)), w) /\
    bounds w id = None /\ v_cs w = v_cs v /\ forall j, j <> id -> symbol_at (v_st w) j = symbol_at (v_st v) j).
  { destruct t; cbn [vtype_of] in *.
    - exact (dim_num_refused g v id n idx st T A S s H K Y N2 BB AC).
    - exact (dim_str_refused g v id n idx st T A S s H K Y N2 BB AC). }
  destruct W as (w & W & B & Cs & O). exists s, w. split; [exact H|]. split; [|auto].
  rewrite (execute_eq E v _ C). destruct t; cbn [dim exec_instr]; unfold adv, bind; rewrite W; reflexivity.
Qed.

(* numbers that are no subscripts *)
Lemma pop_loop_bad name : forall idx ys v x st k, v_stack v = ys ++ x :: st ->
  Forall2 (fun x i => double x /\ count x (N.to_nat i)) ys idx -> double x -> (forall m, ~ count x m) ->
  exists w, pop_indexes_loop (length idx + S k) name v = (Fail (subscript_error name x), w) /\ v_st w = v_st v /\ v_cs w = v_cs v.
Proof.
  induction idx as [|i idx IH]; intros ys v x st k S F D B; inversion F as [|y ? ys' ? [Dy K] F']; subst; cbn [length Nat.add pop_indexes_loop].
  - exact (bind_index_bad name _ v x st S D B).
  - cbn [app] in S. rewrite (bind_index name _ v y (ys' ++ x :: st) i S Dy K).
    destruct (IH ys' (set_stack (ys' ++ x :: st) v) x st k eq_refl F' D B) as (w & W & W1 & W2).
    exists w. unfold bind. rewrite W. auto.
Qed.

(* simple variables *)
Theorem variable_read E g v t id : typed g v -> current v = Some (get_variable t id) -> named v id KVariable t ->
  length (v_stack v) < 16 -> length (v_sstack v) < 8 ->
  exists w, execute E v = (Ok tt, set_cs (place_after v 1) (push_datum (variable v t id) w)) /\
    assigned_to v t id (variable v t id) w.
Proof.
  intros T C (s & H & K & Y) R1 R2. rewrite (execute_eq E v _ C). pose proof (typed_fits g v id s T H) as F. unfold fits in F. rewrite K, Y in F.
  assert (O1 : only id v v) by (split; [destruct v; reflexivity|split; auto]).
  assert (O2 : only id v (set_st (sym_update (v_st v) (N.to_nat id) (define s VZero)) v)) by (apply (update_only v id _ s H); reflexivity).
  destruct t; cbn [get_variable vtype_of] in *; cbn [exec_instr].
  - unfold variable at 1. rewrite H. destruct (s_defined s) eqn:D.
    + exists v. split; [|split; [exact O1|reflexivity]].
      destruct (s_val s) as [|x| | | | |] eqn:X; try contradiction;
        erewrite finish_place; try reflexivity;
        unfold get_numeric_simple, bind, get_sym; rewrite H; unfold is_kind; rewrite K, Y; cbn; rewrite D, X; cbn; apply push_room; exact R1.
    + exists (set_st (sym_update (v_st v) (N.to_nat id) (define s VZero)) v). split; [|split; [exact O2|]].
      * erewrite finish_place; [reflexivity| |reflexivity].
        unfold get_numeric_simple, bind, get_sym. rewrite H. unfold is_kind. rewrite K, Y. cbn. rewrite D. cbn.
        apply (push_room fzero (set_st _ v)). exact R1.
      * unfold variable. cbn [v_st set_st]. rewrite (symbol_update_same _ _ _ s H), H, D. reflexivity.
  - unfold variable at 1. rewrite H. destruct (s_defined s) eqn:D.
    + exists v. split; [|split; [exact O1|reflexivity]].
      destruct (s_val s) as [| |x| | | |] eqn:X; try contradiction;
        erewrite finish_place; try reflexivity;
        unfold get_string_simple, bind, get_sym; rewrite H; unfold is_kind; rewrite K, Y; cbn; rewrite D, X; cbn; apply push_str_room; exact R2.
    + exists (set_st (sym_update (v_st v) (N.to_nat id) (define s VZero)) v). split; [|split; [exact O2|]].
      * erewrite finish_place; [reflexivity| |reflexivity].
        unfold get_string_simple, bind, get_sym. rewrite H. unfold is_kind. rewrite K, Y. cbn. rewrite D. cbn.
        apply (push_str_room [] (set_st _ v)). exact R2.
      * unfold variable. cbn [v_st set_st]. rewrite (symbol_update_same _ _ _ s H), H, D. reflexivity.
Qed.

Definition assign_var (id : symid) (d : datum) : M unit :=
  match d with Number x => set_numeric_simple id x | Text s => set_string_simple id s end.

Lemma assign_ok g u id d : typed g u -> named u id KVariable (sort_of d) ->
  exists w, assign_var id d u = (Ok tt, w) /\ assigned_to u (sort_of d) id d w.
Proof.
  intros T (s & H & K & Y). pose proof (typed_fits g u id s T H) as F. unfold fits in F. rewrite K, Y in F.
  destruct d as [x|x]; cbn [sort_of vtype_of assign_var] in *.
  - exists (set_st (sym_update (v_st u) (N.to_nat id) (define s (VNum x))) u). split.
    + unfold set_numeric_simple, bind, get_sym. rewrite H. unfold is_kind. rewrite K, Y. reflexivity.
    + split; [apply (update_only u id _ s H); reflexivity|]. unfold variable. cbn [v_st set_st]. rewrite (symbol_update_same _ _ _ s H). reflexivity.
  - exists (set_st (sym_update (v_st u) (N.to_nat id) (define s (VStr x))) u). split.
    + unfold set_string_simple, bind, get_sym. rewrite H. unfold is_kind. rewrite K, Y. cbn.
      destruct (s_val s) eqn:X; try contradiction; cbn; rewrite ?F; reflexivity.
    + split; [apply (update_only u id _ s H); reflexivity|]. unfold variable. cbn [v_st set_st]. rewrite (symbol_update_same _ _ _ s H). reflexivity.
Qed.

Theorem variable_write E g u id d : typed g u -> current u = Some (set_variable (sort_of d) id) -> named u id KVariable (sort_of d) ->
  exists w, execute E (push_datum d u) = (Ok tt, set_cs (place_after u 1) w) /\ assigned_to u (sort_of d) id d w.
Proof.
  intros T C Hn. destruct (assign_ok g u id d T Hn) as (w & W & O). exists w. split; [|exact O].
  destruct Hn as (s & H & _).
  assert (C' : current (push_datum d u) = Some (set_variable (sort_of d) id)) by (destruct d; exact C).
  rewrite (execute_eq E _ _ C'). destruct O as (O & _).
  transitivity (finish (adv (assign_var id d) u)); [|apply finish_place; [exact W|exact (only_cs _ _ _ O)]].
  f_equal. destruct d; cbn [set_variable sort_of exec_instr push_datum assign_var]; unfold bind at 1, get_sym; cbn [v_st set_stack set_sstack];
    rewrite H; [rewrite (bind_pop _ (set_stack (x :: v_stack u) u) x (v_stack u) eq_refl)|rewrite (bind_pop_str _ (set_sstack (s0 :: v_sstack u) u) s0 (v_sstack u) eq_refl)]; destruct u; reflexivity.
Qed.
