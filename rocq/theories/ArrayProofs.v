From Coq Require Import Lia ZifyBool ZifyNat ZifyN.
From Verif Require Import Base BaseLemmas ArrayModel ArraySpec.

Lemma u32_succ m : (m < 4294967295)%N -> u32 (m - 0 + 1) = (m + 1)%N.
Proof. intros H. rewrite N.sub_0_r. apply u32_small. lia. Qed.

Definition dim_ok (max : list N) : Prop :=
  (length max = 1 \/ length max = 2) /\ (elements_wanted max <= MAX_ELEMENTS)%N.

Definition below_max32 (max : list N) : Prop := Forall (fun m => (m < 4294967295)%N) max.

Lemma new_array_cases {A} (zero : A) (max : list N) :
  below_max32 max ->
  (dim_ok max /\
   new_array zero 0 max = AOk (mkArray (mkSize 0 max (elements_wanted max))
                                       (repeat zero (N.to_nat (elements_wanted max))))) \/
  (~ dim_ok max /\ new_array zero 0 max = AFail).
Proof.
  intros Hb. unfold new_array, init_array_size, compute_total_elements, MAX_DIMENSIONS, dim_ok, MAX_ELEMENTS.
  destruct max as [|m0 [|m1 [|m2 r]]].
  - right. cbn. split; [|reflexivity]. intros [[H|H] _]; discriminate.
  - inversion Hb as [|? ? H0 _]; subst.
    cbn [length Nat.ltb Nat.leb orb total_elements_loop elements_wanted fold_right map].
    rewrite u32_succ by exact H0. rewrite N.mul_1_l.
    destruct (m0 <? 0)%N eqn:E; [lia|]. change (1 =? 0)%N with false. cbv beta iota.
    unfold MAX_ELEMENTS. change (65536 / 1)%N with 65536%N.
    destruct (65536 <? m0 + 1)%N eqn:E2.
    + right. split; [|reflexivity]. intros [_ H]. lia.
    + left. split; [split; [auto|lia]|].
      rewrite (u32_small (m0 + 1)) by lia. rewrite (u16_small m0) by lia.
      rewrite N.mul_1_r. reflexivity.
  - inversion Hb as [|? ? H0 Hb1]; subst. inversion Hb1 as [|? ? H1 _]; subst.
    cbn [length Nat.ltb Nat.leb orb total_elements_loop elements_wanted fold_right map].
    rewrite u32_succ by exact H0. rewrite u32_succ by exact H1. rewrite N.mul_1_l, N.mul_1_r.
    destruct (m0 <? 0)%N eqn:E; [lia|]. destruct (m1 <? 0)%N eqn:E'; [lia|].
    change (1 =? 0)%N with false. cbv beta iota.
    unfold MAX_ELEMENTS. change (65536 / 1)%N with 65536%N.
    destruct (65536 <? m0 + 1)%N eqn:E2.
    + right. split; [|reflexivity]. intros [_ H]. nia.
    + rewrite (u32_small (m0 + 1)) by lia.
      destruct (m0 + 1 =? 0)%N eqn:E3; [lia|].
      destruct (65536 / (m0 + 1) <? m1 + 1)%N eqn:E4.
      * right. split; [|reflexivity]. intros [_ H].
        apply N.ltb_lt in E4. apply N.lt_nge in E4. apply E4.
        apply N.div_le_lower_bound; lia.
      * assert (Hp : ((m0 + 1) * (m1 + 1) <= 65536)%N).
        { apply N.ltb_ge in E4.
          eapply N.le_trans; [apply N.mul_le_mono_l, E4|]. apply N.mul_div_le. lia. }
        left. split; [split; [auto|exact Hp]|].
        rewrite (u32_small ((m0 + 1) * (m1 + 1))) by lia.
        rewrite !u16_small by nia. reflexivity.
  - right. split; [|reflexivity]. intros [[H|H] _]; discriminate.
Qed.

(* A well-formed array with maxima max. *)
Definition arr_ok {A} (p : array A) (max : list N) : Prop :=
  dim_ok max /\ ar_size p = mkSize 0 max (elements_wanted max) /\
  length (ar_val p) = N.to_nat (elements_wanted max).

Lemma indexes_in_range_iff max : forall idx,
  indexes_in_range 0 max idx = true <-> in_bounds max idx.
Proof.
  unfold in_bounds. induction max as [|m max IH]; intros [|i idx]; cbn [indexes_in_range]; split; intros H;
    try discriminate; try (inversion H; fail); try constructor; auto.
  - apply andb_true_iff in H. destruct H as [H _]. lia.
  - apply andb_true_iff in H. destruct H as [_ H]. apply IH, H.
  - inversion H; subst. apply andb_true_iff. split; [lia|apply IH; assumption].
Qed.

Lemma in_bounds_length max idx : in_bounds max idx -> length idx = length max.
Proof. intros H. induction H; cbn; congruence. Qed.

(* Row-major position, the reference for the address computation. *)
Definition position (max idx : list N) : N :=
  match idx, max with
  | [i0], _ => i0
  | [i0; i1], [_; m1] => i0 * (m1 + 1) + i1
  | _, _ => 0
  end.

Lemma offset_ok max idx :
  dim_ok max ->
  (in_bounds max idx ->
   compute_element_offset (mkSize 0 max (elements_wanted max)) idx = AOk (position max idx) /\
   (position max idx < elements_wanted max)%N) /\
  (~ in_bounds max idx ->
   compute_element_offset (mkSize 0 max (elements_wanted max)) idx = AFail).
Proof.
  intros [Hl He]. unfold compute_element_offset. cbn [as_base as_max]. split.
  - intros Hb. rewrite (in_bounds_length _ _ Hb), Nat.eqb_refl. cbn [negb].
    rewrite (proj2 (indexes_in_range_iff max idx) Hb). cbn [negb].
    unfold in_bounds in Hb. unfold MAX_ELEMENTS in He.
    destruct Hb as [|i0 m0 ? ? H0 [|i1 m1 ? ? H1 [|i2 m2 ? ? H2 _]]].
    + cbn in Hl. lia.
    + cbn [position elements_wanted fold_right]. rewrite N.sub_0_r. split; [reflexivity|lia].
    + cbn [position elements_wanted fold_right] in *. rewrite N.mul_1_r in *. rewrite !N.sub_0_r.
      rewrite (u32_small (m1 + 1)) by nia.
      rewrite (u32_small (i0 * (m1 + 1))) by nia.
      assert (i0 * (m1 + 1) + i1 < (m0 + 1) * (m1 + 1))%N by nia.
      rewrite (u32_small (_ + _)) by lia. split; [reflexivity|assumption].
    + cbn in Hl. lia.
  - intros Hb. destruct (Nat.eqb (length idx) (length max)); [|reflexivity]. cbn [negb].
    destruct (indexes_in_range 0 max idx) eqn:E; [|reflexivity].
    exfalso. apply Hb, indexes_in_range_iff, E.
Qed.

Lemma position_inj max a c :
  dim_ok max -> in_bounds max a -> in_bounds max c -> position max a = position max c -> a = c.
Proof.
  intros [Hl _] Ha Hc. unfold in_bounds in *.
  destruct max as [|m0 [|m1 [|m2 r]]].
  - cbn in Hl. lia.
  - inversion Ha as [|i0 ? ? ? H0 H0']; subst. inversion H0'; subst.
    inversion Hc as [|j0 ? ? ? K0 K0']; subst. inversion K0'; subst. cbn. congruence.
  - inversion Ha as [|i0 ? ? ? H0 H0']; subst. inversion H0' as [|i1 ? ? ? H1 H1']; subst. inversion H1'; subst.
    inversion Hc as [|j0 ? ? ? K0 K0']; subst. inversion K0' as [|j1 ? ? ? K1 K1']; subst. inversion K1'; subst.
    cbn [position]. intros H.
    assert (i0 = j0) by nia. subst j0. assert (i1 = j1) by lia. congruence.
  - cbn in Hl. lia.
Qed.

Lemma in_bounds_dec max idx : {in_bounds max idx} + {~ in_bounds max idx}.
Proof.
  destruct (indexes_in_range 0 max idx) eqn:E.
  - left. apply indexes_in_range_iff, E.
  - right. intros H. apply indexes_in_range_iff in H. congruence.
Qed.

Lemma read_ok {A} (p : array A) max idx :
  arr_ok p max -> in_bounds max idx ->
  exists v, read_element p idx = AOk v /\ nth_error (ar_val p) (N.to_nat (position max idx)) = Some v.
Proof.
  intros (Hd & Hs & Hl) Hb. destruct (proj1 (offset_ok max idx Hd) Hb) as [Ho Hlt].
  unfold read_element. rewrite Hs, Ho.
  destruct (nth_error (ar_val p) _) as [v|] eqn:E; [eauto|].
  apply nth_error_None in E. lia.
Qed.

Lemma read_fail {A} (p : array A) max idx :
  arr_ok p max -> ~ in_bounds max idx -> read_element p idx = AFail.
Proof.
  intros (Hd & Hs & Hl) Hb. unfold read_element.
  rewrite Hs, (proj2 (offset_ok max idx Hd) Hb). reflexivity.
Qed.

Lemma write_ok {A} (p : array A) max idx v :
  arr_ok p max -> in_bounds max idx ->
  exists p', write_element p idx v = AOk p' /\ arr_ok p' max /\
    read_element p' idx = AOk v /\
    forall j, j <> idx -> read_element p' j = read_element p j.
Proof.
  intros Hok Hb. pose proof Hok as (Hd & Hs & Hl).
  destruct (proj1 (offset_ok max idx Hd) Hb) as [Ho Hlt].
  unfold write_element. rewrite Hs, Ho.
  destruct (nth_error (ar_val p) _) as [v0|] eqn:E; [|apply nth_error_None in E; lia].
  eexists. split; [reflexivity|]. split; [|split].
  - split; [exact Hd|]. cbn. rewrite list_upd_length. auto.
  - unfold read_element. cbn [ar_size ar_val]. rewrite Ho.
    rewrite nth_error_list_upd_eq by lia. reflexivity.
  - intros j Hj. destruct (in_bounds_dec max j) as [Hbj|Hbj].
    + unfold read_element. cbn [ar_size ar_val]. rewrite Hs.
      destruct (proj1 (offset_ok max j Hd) Hbj) as [-> _].
      rewrite nth_error_list_upd_neq; [reflexivity|].
      intros Heq. apply Hj. symmetry. eapply position_inj; eauto. lia.
    + unfold read_element. cbn [ar_size ar_val]. rewrite Hs, (proj2 (offset_ok max j Hd) Hbj). reflexivity.
Qed.

Lemma write_fail {A} (p : array A) max idx v :
  arr_ok p max -> ~ in_bounds max idx -> write_element p idx v = AFail.
Proof.
  intros (Hd & Hs & Hl) Hb. unfold write_element.
  rewrite Hs, (proj2 (offset_ok max idx Hd) Hb). reflexivity.
Qed.

Lemma idx_eqb_eq a : forall c, idx_eqb a c = true <-> a = c.
Proof.
  induction a as [|x a IH]; intros [|y c]; cbn; split; intros H; try discriminate; auto.
  - apply andb_true_iff in H. destruct H as [H1 H2]. apply N.eqb_eq in H1. apply IH in H2. congruence.
  - injection H as -> ->. rewrite N.eqb_refl. apply IH. reflexivity.
Qed.

Lemma new_array_ok {A} (zero : A) max :
  below_max32 max -> dim_ok max ->
  exists p, new_array zero 0 max = AOk p /\ arr_ok p max /\
    forall idx, in_bounds max idx -> read_element p idx = AOk zero.
Proof.
  intros Hb Hd. destruct (new_array_cases zero max Hb) as [[_ H]|[H _]]; [|contradiction].
  eexists. split; [exact H|].
  assert (Hok : arr_ok (mkArray (mkSize 0 max (elements_wanted max))
                          (repeat zero (N.to_nat (elements_wanted max)))) max).
  { split; [exact Hd|]. split; [reflexivity|]. apply repeat_length. }
  split; [exact Hok|]. intros idx Hi. destruct (read_ok _ _ _ Hok Hi) as (v & -> & Hv).
  cbn [ar_val] in Hv. apply nth_error_In, repeat_spec in Hv. congruence.
Qed.

Lemma store_all_read {A} (zero : A) ws : forall (p : array A) max init,
  arr_ok p max -> (forall idx, in_bounds max idx -> read_element p idx = AOk (init idx)) ->
  exists p', store_all p ws = AOk p' /\ arr_ok p' max /\
    forall idx, in_bounds max idx ->
      read_element p' idx = AOk (fold_left (fun acc w => if idx_eqb idx (fst w) then snd w else acc) ws (init idx)).
Proof.
  induction ws as [|[i v] ws IH]; intros p max init Hok Hr.
  - exists p. auto.
  - cbn [store_all fold_left fst snd]. destruct (in_bounds_dec max i) as [Hi|Hi].
    + destruct (write_ok p max i v Hok Hi) as (p1 & -> & Hok1 & Hv & Ho).
      destruct (IH p1 max (fun idx => if idx_eqb idx i then v else init idx) Hok1) as (p2 & H1 & H2 & H3).
      { intros idx Hidx. destruct (idx_eqb idx i) eqn:E.
        - apply idx_eqb_eq in E. subst. exact Hv.
        - rewrite Ho; [auto|]. intros ->. rewrite (proj2 (idx_eqb_eq i i) eq_refl) in E. discriminate. }
      exists p2. auto.
    + rewrite (write_fail p max i v Hok Hi).
      destruct (IH p max init Hok Hr) as (p2 & H1 & H2 & H3). exists p2. split; [auto|]. split; [auto|].
      intros idx Hidx. rewrite H3 by exact Hidx.
      destruct (idx_eqb idx i) eqn:E; [|reflexivity].
      apply idx_eqb_eq in E. subst. contradiction.
Qed.

Lemma array_refines {A} (zero : A) max ws :
  below_max32 max -> dim_ok max ->
  exists p p', new_array zero 0 max = AOk p /\ store_all p ws = AOk p' /\
    (forall idx, in_bounds max idx -> read_element p' idx = AOk (last_stored zero ws idx)) /\
    (forall idx, ~ in_bounds max idx -> read_element p' idx = AFail /\ forall v, write_element p' idx v = AFail).
Proof.
  intros Hb Hd. destruct (new_array_ok zero max Hb Hd) as (p & Hp & Hok & Hz).
  destruct (store_all_read zero ws p max (fun _ => zero) Hok Hz) as (p' & H1 & H2 & H3).
  exists p, p'. repeat split; auto.
  - eapply read_fail; eauto.
  - intros v. eapply write_fail; eauto.
Qed.

(* automatic dimensioning *)
Lemma auto_max_max idx : auto_max idx = map (N.max 10) idx.
Proof.
  unfold auto_max. apply map_ext. intros i. destruct (i <? 10)%N eqn:E; lia.
Qed.
Lemma auto_max_covers idx : in_bounds (auto_max idx) idx.
Proof.
  unfold in_bounds, auto_max. induction idx as [|i idx IH]; cbn; constructor; auto.
  destruct (i <? 10)%N eqn:E; lia.
Qed.

Lemma auto_bounds idx : auto_max idx = map (N.max 10) idx /\ in_bounds (auto_max idx) idx.
Proof. split; [apply auto_max_max|apply auto_max_covers]. Qed.

Lemma dim_iff (A : Type) (zero : A) max :
  Forall (fun m => (m < 4294967295)%N) max ->
  ((length max = 1 \/ length max = 2) /\ (elements_wanted max <= 65536)%N ->
     exists p, new_array zero 0 max = AOk p) /\
  (~ ((length max = 1 \/ length max = 2) /\ (elements_wanted max <= 65536)%N) ->
     new_array zero 0 max = AFail).
Proof.
  intros Hb. destruct (new_array_cases zero max Hb) as [[Hd H]|[Hd H]]; rewrite H; split; eauto.
  - intros Hn. contradiction.
  - intros Hn. contradiction.
Qed.

Lemma dim_wraps : exists max (p : array N),
  new_array 0%N 0 max = AOk p /\ elements_wanted max <> as_elements (ar_size p) /\
  read_element p [0%N] = ACrash /\ (forall v, write_element p [65535%N] v = ACrash).
Proof.
  exists [4294967295%N], (mkArray (mkSize 0 [65535%N] 0) []). split; [reflexivity|].
  split; [discriminate|]. split; [reflexivity|]. intros v. reflexivity.
Qed.

Lemma dim_div_zero : exists max, new_array 0%N 0 max = ACrash.
Proof. exists [4294967295; 5]%N. reflexivity. Qed.
