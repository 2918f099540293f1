From Coq Require Import Lia ZifyBool ZifyNat ZifyN Sorted.
From Verif Require Import Base BaseLemmas SourceModel SourceSpec.

(* ---------- editing ---------- *)

Definition below (n : N) (src : source) : Prop := Forall (fun l => (n < ln_num l)%N) src.

Lemma increasing_cons l src :
  increasing (l :: src) <-> increasing src /\ below (ln_num l) src.
Proof.
  unfold increasing, below. cbn. split.
  - intros H. apply StronglySorted_inv in H. destruct H as [H1 H2]. split; [exact H1|].
    rewrite Forall_map in H2. exact H2.
  - intros [H1 H2]. constructor; [exact H1|]. rewrite Forall_map. exact H2.
Qed.

Lemma increasing_nil : increasing [].
Proof. constructor. Qed.

Lemma below_in n src l : below n src -> In l src -> (n < ln_num l)%N.
Proof. unfold below. rewrite Forall_forall. auto. Qed.

Lemma enter_loop_some src : forall n t src',
  increasing src -> enter_loop src n t = Some src' ->
  increasing src' /\
  (forall m, (m < n)%N -> below m src -> below m src') /\
  (forall k u, In (mkLine k u) src' <-> (if (k =? n)%N then u = t else In (mkLine k u) src)).
Proof.
  induction src as [|l r IH]; intros n t src' Hi H; cbn [enter_loop] in H; [discriminate|].
  apply increasing_cons in Hi. destruct Hi as [Hi Hb]. destruct l as [ln lt]. cbn in H, Hb.
  destruct (ln =? n)%N eqn:E1; [|destruct (n <? ln)%N eqn:E2].
  - injection H as <-. assert (ln = n) by lia. subst ln. split; [|split].
    + apply increasing_cons. auto.
    + intros m Hm Hbm. unfold below in *. inversion Hbm; subst. constructor; auto.
    + intros k u. cbn. destruct (k =? n)%N eqn:Ek.
      * assert (k = n) by lia. subst k. split; [|intros ->; left; reflexivity].
        intros [H|H]; [congruence|]. apply (below_in _ _ _ Hb) in H. cbn in H. lia.
      * split; intros [H|H]; auto; injection H as <- <-; lia.
  - injection H as <-. split; [|split].
    + apply increasing_cons. split; [apply increasing_cons; auto|]. cbn.
      unfold below in *. constructor; [cbn; lia|].
      eapply Forall_impl; [|exact Hb]. cbn. intros; lia.
    + intros m Hm Hbm. unfold below in *. constructor; [cbn; lia|exact Hbm].
    + intros k u. cbn. destruct (k =? n)%N eqn:Ek.
      * assert (k = n) by lia. subst k. split; [|intros ->; left; reflexivity].
        intros [H|[H|H]]; [congruence|injection H; lia|].
        apply (below_in _ _ _ Hb) in H. cbn in H. lia.
      * split; intros H; auto. destruct H as [H|H]; [injection H; lia|exact H].
  - destruct (enter_loop r n t) as [r'|] eqn:F; [|discriminate]. cbn in H. injection H as <-.
    destruct (IH _ _ _ Hi F) as (H1 & H2 & H3). split; [|split].
    + apply increasing_cons. split; [exact H1|]. apply H2; [cbn; lia|exact Hb].
    + intros m Hm Hbm. unfold below in *. inversion Hbm as [|? ? Hx Hy]; subst.
      constructor; [exact Hx|]. apply H2; [exact Hm|exact Hy].
    + intros k u. cbn. rewrite H3. destruct (k =? n)%N eqn:Ek; [|reflexivity].
      split; [intros [H|H]; [injection H; lia|exact H]|auto].
Qed.

Lemma enter_loop_none src : forall n t,
  enter_loop src n t = None -> Forall (fun l => (ln_num l < n)%N) src.
Proof.
  induction src as [|l r IH]; intros n t H; [constructor|]. cbn in H.
  destruct (ln_num l =? n)%N eqn:E1; [discriminate|].
  destruct (n <? ln_num l)%N eqn:E2; [discriminate|].
  destruct (enter_loop r n t) eqn:F; [discriminate|].
  constructor; [lia|]. eapply IH, F.
Qed.

Lemma latest_num_in src : src <> [] -> exists l, In l src /\ latest_num src = ln_num l.
Proof.
  intros H. unfold latest_num. destruct (last_opt src) as [l|] eqn:E.
  - apply last_opt_Some in E. destruct E as (p & ->). exists l. split; [|reflexivity].
    apply in_or_app. right. left. reflexivity.
  - apply last_opt_None in E. contradiction.
Qed.

Lemma increasing_app_one src n t :
  increasing src -> Forall (fun l => (ln_num l < n)%N) src -> increasing (src ++ [mkLine n t]).
Proof.
  induction src as [|l r IH]; intros Hi Hf.
  - cbn. apply increasing_cons. split; [apply increasing_nil|constructor].
  - cbn. apply increasing_cons in Hi. destruct Hi as [Hi Hb]. inversion Hf; subst.
    apply increasing_cons. split; [apply IH; auto|]. unfold below in *.
    apply Forall_app. split; [exact Hb|]. constructor; [cbn; assumption|constructor].
Qed.

Lemma enter_lists src m n t :
  lists src m ->
  (n = 0%N /\ src = [] /\ enter_source_line src n t = SExit SE_zero_number) \/
  (~ (n = 0%N /\ src = []) /\
   exists src', enter_source_line src n t = SOk src' /\ lists src' (spec_edit m (EdEnter n t))).
Proof.
  intros [Hi Hm]. unfold enter_source_line.
  destruct (enter_loop src n t) as [src'|] eqn:E.
  - right. split.
    + intros [-> ->]. discriminate.
    + exists src'. split; [reflexivity|].
      destruct (enter_loop_some _ _ _ _ Hi E) as (H1 & _ & H3). split; [exact H1|].
      intros k u. rewrite H3. cbn. destruct (k =? n)%N; [|apply Hm].
      split; congruence.
  - pose proof (enter_loop_none _ _ _ E) as Hl. unfold append_line.
    destruct (n =? 0)%N eqn:E0.
    + left. assert (n = 0%N) by lia. subst n. repeat split; auto.
      destruct src as [|l r]; [reflexivity|]. inversion Hl; lia.
    + right. split; [intros [-> _]; lia|].
      assert (Hlt : (n <=? latest_num src)%N = false).
      { destruct src as [|l r]; [cbn; lia|].
        destruct (latest_num_in (l :: r)) as (x & Hx & Hn); [discriminate|].
        rewrite Hn. rewrite Forall_forall in Hl. apply Hl in Hx. lia. }
      rewrite Hlt. eexists. split; [reflexivity|]. split.
      * apply increasing_app_one; auto.
      * intros k u. rewrite in_app_iff, Hm. cbn.
        destruct (k =? n)%N eqn:Ek.
        -- assert (k = n) by lia. subst k. split.
           ++ intros [H|[H|[]]]; [|congruence]. apply Hm in H.
              rewrite Forall_forall in Hl. apply Hl in H. cbn in H. lia.
           ++ intros [= ->]. auto.
        -- split; [|auto]. intros [H|[H|[]]]; [exact H|]. injection H; lia.
Qed.

Lemma increasing_app p q :
  increasing (p ++ q) -> increasing p /\ increasing q /\
  (forall a c, In a p -> In c q -> (ln_num a < ln_num c)%N).
Proof.
  induction p as [|l p IH]; cbn; intros H.
  - repeat split; auto using increasing_nil. intros a c [].
  - apply increasing_cons in H. destruct H as [H Hb]. destruct (IH H) as (H1 & H2 & H3).
    unfold below in Hb. rewrite Forall_app in Hb. destruct Hb as [Hb1 Hb2].
    repeat split; [apply increasing_cons; auto|exact H2|].
    intros a c [<-|Ha] Hc; [|auto]. rewrite Forall_forall in Hb2. auto.
Qed.

Lemma app_increasing p q :
  increasing p -> increasing q ->
  (forall a c, In a p -> In c q -> (ln_num a < ln_num c)%N) -> increasing (p ++ q).
Proof.
  induction p as [|l p IH]; cbn; intros H1 H2 H3; [exact H2|].
  apply increasing_cons in H1. destruct H1 as [H1 Hb]. apply increasing_cons. split.
  - apply IH; auto.
  - unfold below in *. apply Forall_app. split; [exact Hb|].
    apply Forall_forall. intros c Hc. apply H3; auto.
Qed.

Lemma increasing_unique src : increasing src ->
  forall a c, In a src -> In c src -> ln_num a = ln_num c -> a = c.
Proof.
  induction src as [|l r IH]; intros Hi a c Ha Hc E; [destruct Ha|].
  apply increasing_cons in Hi. destruct Hi as [Hi Hb].
  destruct Ha as [<-|Ha], Hc as [<-|Hc]; auto.
  - apply (below_in _ _ _ Hb) in Hc. lia.
  - apply (below_in _ _ _ Hb) in Ha. lia.
Qed.

Lemma delete_lists src m n :
  lists src m ->
  exists src', apply_edit src (EdDelete n) = SOk src' /\ lists src' (spec_edit m (EdDelete n)).
Proof.
  intros [Hi Hm]. cbn. unfold find_source_linenum.
  destruct (find_index _ src) as [i|] eqn:E.
  - eexists. split; [reflexivity|].
    apply find_index_Some in E. destruct E as (x & Hx & Hn & _).
    destruct (remove_nth_spec _ _ _ Hx) as (p & r & -> & _ & Hr).
    unfold delete_source_line. rewrite Hr.
    destruct (increasing_app _ _ Hi) as (H1 & H2 & H3).
    apply increasing_cons in H2. destruct H2 as [H2 Hb].
    assert (Hxn : ln_num x = n) by lia. split.
    + apply app_increasing; auto. intros a c Ha Hc. apply H3; [exact Ha|right; exact Hc].
    + intros k u. specialize (Hm k u). rewrite in_app_iff in Hm |- *. cbn in Hm.
      destruct (k =? n)%N eqn:Ek.
      * assert (k = n) by lia. subst k. split; [|discriminate].
        intros [H|H]; exfalso.
        -- assert (ln_num (mkLine n u) < ln_num x)%N by (apply H3; [exact H|left; reflexivity]).
           cbn in *. lia.
        -- apply (below_in _ _ _ Hb) in H. cbn in H. lia.
      * rewrite <- Hm. split; [tauto|]. intros [H|[H|H]]; auto.
        subst x. cbn in Hxn. lia.
  - exists src. split; [reflexivity|]. split; [exact Hi|].
    intros k u. destruct (k =? n)%N eqn:Ek; [|apply Hm].
    assert (k = n) by lia. subst k. split; [|discriminate].
    intros H. rewrite find_index_None in E. apply E in H. cbn in H. lia.
Qed.

Lemma lists_ext src m m' : (forall n, m n = m' n) -> lists src m -> lists src m'.
Proof. intros He [Hi Hm]. split; [exact Hi|]. intros n t. rewrite <- He. apply Hm. Qed.

Lemma lists_empty src m : lists src m -> (src = [] <-> forall n, m n = None).
Proof.
  intros [Hi Hm]. split.
  - intros -> n. destruct (m n) as [t|] eqn:E; [|reflexivity].
    apply Hm in E. destruct E.
  - intros H. destruct src as [|[n t] r]; [reflexivity|].
    assert (E : m n = Some t) by (apply Hm; left; reflexivity). congruence.
Qed.

Lemma apply_edits_gen es : forall src m,
  lists src m ->
  (exists src', apply_edits src es = SOk src' /\ lists src' (fold_left spec_edit es m) /\
     forall pre t post, es = pre ++ EdEnter 0 t :: post ->
        exists n, fold_left spec_edit pre m n <> None) \/
  (apply_edits src es = SExit SE_zero_number /\
   exists pre t post, es = pre ++ EdEnter 0 t :: post /\
     (forall n, fold_left spec_edit pre m n = None)).
Proof.
  induction es as [|e es IH]; intros src m Hl.
  - left. exists src. repeat split; try apply Hl.
    intros [|? ?] t post H; discriminate.
  - assert (Hstep : (apply_edit src e = SExit SE_zero_number /\ src = [] /\ exists t, e = EdEnter 0 t) \/
              (exists src', apply_edit src e = SOk src' /\ lists src' (spec_edit m e) /\
                 forall t, e = EdEnter 0 t -> src <> [])).
    { destruct e as [n t|n|].
      - destruct (enter_lists src m n t Hl) as [(-> & -> & H)|(Hn & src' & H & Hl')].
        + left. eauto.
        + right. exists src'. repeat split; auto; try apply Hl'.
          intros u [= -> ->] ->. apply Hn. auto.
      - right. destruct (delete_lists src m n Hl) as (src' & H & Hl'). exists src'.
        repeat split; auto; try apply Hl'. discriminate.
      - right. exists []. repeat split; auto using increasing_nil; cbn; try tauto; discriminate. }
    cbn [apply_edits fold_left]. destruct Hstep as [(H & -> & t & ->)|(src' & H & Hl' & Hne)].
    + right. rewrite H. split; [reflexivity|]. exists [], t, es. split; [reflexivity|].
      cbn. apply (lists_empty _ _ Hl). reflexivity.
    + rewrite H. destruct (IH _ _ Hl') as [(s2 & H1 & H2 & H3)|(H1 & pre & t & post & -> & H2)].
      * left. exists s2. split; [exact H1|]. split; [exact H2|].
        intros [|e0 pre] t post Heq; cbn in Heq; injection Heq as -> ->.
        -- cbn. specialize (Hne _ eq_refl). destruct src as [|[n u] r]; [congruence|].
           exists n. destruct Hl as [_ Hm]. rewrite (proj1 (Hm n u)); [discriminate|left; reflexivity].
        -- cbn. eauto.
      * right. split; [exact H1|]. exists (e :: pre), t, post. auto.
Qed.

Lemma lists_nil : lists [] (fun _ => None).
Proof. split; [apply increasing_nil|]. intros n t. split; [intros []|discriminate]. Qed.

Lemma edits_ok es :
  ~ zero_on_empty es ->
  exists src, apply_edits [] es = SOk src /\ lists src (spec_edits es).
Proof.
  intros Hz. destruct (apply_edits_gen es [] _ lists_nil) as [(src & H & Hl & _)|(H & pre & t & post & -> & Hn)].
  - exists src. auto.
  - exfalso. apply Hz. exists pre, t, post. auto.
Qed.

Lemma edits_exit es :
  zero_on_empty es <-> apply_edits [] es = SExit SE_zero_number.
Proof.
  destruct (apply_edits_gen es [] _ lists_nil) as [(src & H & Hl & Hnz)|(H & Hz)].
  - rewrite H. split; [|discriminate]. intros (pre & t & post & -> & Hn). exfalso.
    destruct (Hnz _ _ _ eq_refl) as (n & Hc). apply Hc, Hn.
  - split; auto.
Qed.

Lemma below_none n src t : below n src -> ~ In (mkLine n t) src.
Proof. intros H Hin. apply (below_in _ _ _ H) in Hin. cbn in Hin. lia. Qed.

(* The listing of a map is unique, so "lists" determines the program. *)
Lemma lists_unique m : forall s1 s2, lists s1 m -> lists s2 m -> s1 = s2.
Proof.
  intros s1. revert m. induction s1 as [|[n1 t1] r1 IH]; intros m s2 [Hi1 H1] [Hi2 H2].
  - symmetry. apply (lists_empty s2 m); [split; auto|].
    apply (lists_empty [] m); [split; auto|reflexivity].
  - destruct s2 as [|[n2 t2] r2].
    { assert (E : m n1 = Some t1) by (apply H1; left; reflexivity).
      apply H2 in E. destruct E. }
    pose proof Hi1 as Hi1'. pose proof Hi2 as Hi2'.
    apply increasing_cons in Hi1, Hi2. destruct Hi1 as [Hi1 Hb1], Hi2 as [Hi2 Hb2]. cbn in Hb1, Hb2.
    assert (E1 : In (mkLine n1 t1) (mkLine n2 t2 :: r2)) by (apply H2, H1; left; reflexivity).
    assert (E2 : In (mkLine n2 t2) (mkLine n1 t1 :: r1)) by (apply H1, H2; left; reflexivity).
    assert (E : mkLine n1 t1 = mkLine n2 t2).
    { destruct E1 as [E1|E1]; [congruence|]. destruct E2 as [E2|E2]; [congruence|].
      apply (below_in _ _ _ Hb1) in E2. apply (below_in _ _ _ Hb2) in E1. cbn in *. lia. }
    injection E as -> ->. f_equal.
    apply (IH (fun k => if (k =? n2)%N then None else m k)).
    + split; [exact Hi1|]. intros k u. specialize (H1 k u). cbn in H1.
      destruct (k =? n2)%N eqn:Ek.
      * assert (k = n2) by lia. subst k. split; [|discriminate].
        intros H. exfalso. eapply below_none, H. exact Hb1.
      * rewrite <- H1. split; [auto|]. intros [H|H]; [injection H; lia|exact H].
    + split; [exact Hi2|]. intros k u. specialize (H2 k u). cbn in H2.
      destruct (k =? n2)%N eqn:Ek.
      * assert (k = n2) by lia. subst k. split; [|discriminate].
        intros H. exfalso. eapply below_none, H. exact Hb2.
      * rewrite <- H2. split; [auto|]. intros [H|H]; [injection H; lia|exact H].
Qed.

(* ---------- loading ---------- *)

Lemma parse_line_number_ok digits rest :
  digits <> [] -> Forall (fun c => is_digit c = true) digits ->
  match rest with c :: _ => is_digit c = false | [] => True end ->
  exists text, parse_line_number (digits ++ rest) = SOk (u32 (dec_value digits), text) /\
    (rest = SP :: text \/ (rest = text /\ forall r, rest <> SP :: r)).
Proof.
  intros Hne Hd Hr. unfold parse_line_number. rewrite read_u32_spec by assumption.
  destruct (Nat.eqb (length rest) (length (digits ++ rest))) eqn:E.
  - apply Nat.eqb_eq in E. rewrite app_length in E. destruct digits; [congruence|cbn in E; lia].
  - destruct rest as [|c r].
    + exists []. split; [reflexivity|]. right. split; [reflexivity|]. intros r; discriminate.
    + destruct (ceq c SP) eqn:Ec.
      * apply ceq_eq in Ec. subst. exists r. auto.
      * apply ceq_neq in Ec. exists (c :: r). split; [reflexivity|]. right.
        split; [reflexivity|]. intros r' H. injection H. intros; contradiction.
Qed.

Lemma parse_line_number_cases s :
  (exists num text, parse_line_number s = SOk (num, text)) \/
  parse_line_number s = SExit SE_no_number.
Proof.
  unfold parse_line_number. destruct (read_u32 s) as [num rest].
  destruct (Nat.eqb _ _); [auto|]. destruct rest as [|c r]; [eauto|].
  destruct (ceq c SP); eauto.
Qed.

Lemma parse_line_number_inv raw num text :
  parse_line_number raw = SOk (num, text) ->
  exists digits rest,
    raw = digits ++ rest /\ digits <> [] /\
    Forall (fun c => is_digit c = true) digits /\
    match rest with c :: _ => is_digit c = false | [] => True end /\
    num = u32 (dec_value digits) /\
    (rest = SP :: text \/ (rest = text /\ forall r, rest <> SP :: r)).
Proof.
  destruct (digits_split raw) as (ds & rest & -> & Hd & Hr).
  destruct ds as [|d ds].
  - unfold parse_line_number. rewrite read_u32_spec by assumption.
    cbn [app]. rewrite Nat.eqb_refl. discriminate.
  - destruct (parse_line_number_ok (d :: ds) rest) as (t & Ht & Hc); auto; [discriminate|].
    rewrite Ht. intros [= <- <-]. exists (d :: ds), rest. repeat split; auto. discriminate.
Qed.

(* One fgets chunk is accepted exactly when it is a well-formed line. *)
Lemma load_one_ok src raw src' :
  length raw <= 254 -> ~ In NL raw ->
  load_one src (raw ++ [NL]) = SOk src' <->
  exists l, file_line raw l /\ ln_num l <> 0%N /\ (latest_num src < ln_num l)%N /\ src' = src ++ [l].
Proof.
  intros Hlen Hnl.
  assert (Hnlnul : NL <> NUL) by discriminate.
  destruct (in_dec ascii_dec NUL raw) as [Hin|Hnin].
  - split.
    + unfold load_one. destruct (cstr_split (raw ++ [NL])) as (p & r & Heq & Hc & Hn).
      { apply in_or_app; auto. }
      rewrite Hc. destruct (last_opt p) as [c|] eqn:El; [|discriminate].
      apply last_opt_Some in El. destruct El as (p' & ->).
      destruct (ceq c NL) eqn:Ec; [|discriminate]. apply ceq_eq in Ec. subst c.
      exfalso. apply Hnl.
      assert (H : exists r', raw = (p' ++ [NL]) ++ r').
      { destruct r as [|x r] using rev_ind.
        - apply (f_equal (fun l => last l NL)) in Heq. rewrite last_last in Heq.
          rewrite last_last in Heq. contradiction.
        - clear IHr. rewrite app_comm_cons, app_assoc in Heq. apply app_inj_tail in Heq.
          destruct Heq as [Heq _]. exists (NUL :: r). exact Heq. }
      destruct H as (r' & ->). rewrite <- app_assoc. apply in_or_app. right. left. reflexivity.
    + intros (l & (_ & _ & H & _) & _). contradiction.
  - assert (Hc : cstr (raw ++ [NL]) = raw ++ [NL]).
    { apply cstr_no_nul. rewrite in_app_iff. intros [H|[H|[]]]; [auto|]. apply Hnlnul, H. }
    unfold load_one. rewrite Hc, last_opt_app, ceq_refl, removelast_last.
    split.
    + destruct raw as [|c0 raw0] eqn:Er; [discriminate|]. rewrite <- Er in *. clear c0 raw0 Er.
      destruct (parse_line_number raw) as [[num text]|e|] eqn:E; try discriminate.
      apply parse_line_number_inv in E. unfold append_line.
      destruct (num =? 0)%N eqn:E0; [discriminate|].
      destruct (num <=? latest_num src)%N eqn:E1; [discriminate|].
      intros [= <-]. exists (mkLine num text). cbn. repeat split; auto; try lia.
    + intros (l & (_ & _ & _ & ds & rest & -> & Hne & Hd & Hr & Hnum & Ht) & H0 & H1 & ->).
      destruct (ds ++ rest) as [|c0 raw0] eqn:Er.
      { apply app_eq_nil in Er. destruct Er; contradiction. }
      rewrite <- Er in *. clear c0 raw0 Er.
      destruct (parse_line_number_ok ds rest Hne Hd Hr) as (text & -> & Ht2).
      assert (text = ln_text l).
      { destruct Ht as [->|[-> Ht]], Ht2 as [Ht2|[Ht2 Ht3]].
        - congruence.
        - exfalso. eapply Ht3. reflexivity.
        - exfalso. eapply Ht, Ht2.
        - symmetry. exact Ht2. }
      subst text. unfold append_line, u32. rewrite <- Hnum.
      destruct (ln_num l =? 0)%N eqn:E0; [lia|].
      destruct (ln_num l <=? latest_num src)%N eqn:E1; [lia|].
      destruct l; reflexivity.
Qed.

Lemma load_one_no_fuel src raw : load_one src raw <> SNoFuel.
Proof.
  unfold load_one. destruct (last_opt _); [|discriminate]. destruct (ceq _ _); [|discriminate].
  destruct (removelast _) as [|c r]; [discriminate|].
  destruct (parse_line_number_cases (c :: r)) as [(num & text & ->)| ->]; [|discriminate].
  unfold append_line. destruct (_ =? _)%N; [discriminate|].
  destruct (_ <=? _)%N; discriminate.
Qed.

(* A chunk without final newline is rejected. *)
Lemma load_one_unterminated src raw src' : ~ In NL raw -> load_one src raw <> SOk src'.
Proof.
  intros Hn. unfold load_one. destruct (last_opt (cstr raw)) as [c|] eqn:E; [|discriminate].
  destruct (ceq c NL) eqn:Ec; [|discriminate]. exfalso. apply ceq_eq in Ec. subst c.
  apply last_opt_Some in E. destruct E as (p & E).
  destruct (in_dec ascii_dec NUL raw) as [Hin|Hnin].
  - destruct (cstr_split _ Hin) as (q & r & -> & Hc & _). rewrite E in Hc. subst q.
    apply Hn. rewrite <- app_assoc. apply in_or_app. right. left. reflexivity.
  - rewrite cstr_no_nul in E by exact Hnin. subst raw. apply Hn. apply in_or_app. right. left. reflexivity.
Qed.

Definition latest_below (n : N) (src : source) : Prop :=
  match src with [] => True | l :: _ => (n < ln_num l)%N end.

Lemma flat_map_cons_app (raw : bytes) raws rest :
  flat_map (fun raw => raw ++ [NL]) (raw :: raws) ++ rest =
  raw ++ NL :: (flat_map (fun raw => raw ++ [NL]) raws ++ rest).
Proof. cbn [flat_map]. rewrite <- !app_assoc. reflexivity. Qed.

Lemma latest_num_app src l : latest_num (src ++ [l]) = ln_num l.
Proof. unfold latest_num. rewrite last_opt_app. reflexivity. Qed.

Definition ascending_from (n : N) (src : source) : Prop := increasing src /\ below n src.

Lemma load_loop_ok fuel : forall src file out,
  length file < fuel ->
  load_loop fuel src file = SOk out <->
  exists raws new, file = flat_map (fun raw => raw ++ [NL]) raws /\ Forall2 file_line raws new /\
    ascending_from (latest_num src) new /\ Forall (fun l => ln_num l <> 0%N) new /\ out = src ++ new.
Proof.
  induction fuel as [|f IH]; intros src file out Hf; [lia|].
  cbn [load_loop]. unfold fgets. destruct file as [|c0 file0] eqn:Efile.
  - split.
    + intros [= <-]. exists [], []. rewrite app_nil_r. repeat split; auto; constructor.
    + intros (raws & new & Hfile & H2 & _ & _ & ->).
      destruct raws as [|raw raws].
      * inversion H2; subst. rewrite app_nil_r. reflexivity.
      * cbn in Hfile. destruct raw; discriminate.
  - rewrite <- Efile in *. assert (Hne : file <> []) by (subst; discriminate). clear c0 file0 Efile.
    destruct (fgets_loop (256 - 1) file) as [raw0 rest] eqn:Eg.
    change (256 - 1) with 255 in Eg.
    destruct (fgets_loop_cases _ _ _ _ Eg) as (Hfile & Hlen & Hcase).
    assert (Hlenf : length rest < length file).
    { rewrite Hfile, app_length. destruct raw0 as [|c r0]; [|cbn; lia].
      exfalso. destruct Hcase as [(l' & H & _)|(_ & [H|H])].
      - destruct l'; discriminate.
      - discriminate.
      - subst. auto. }
    destruct Hcase as [(raw & -> & Hnl)|(Hnl & _)].
    + (* a complete line *)
      assert (Hlen' : length raw <= 254) by (rewrite app_length in Hlen; cbn in Hlen; lia).
      split.
      * destruct (load_one src (raw ++ [NL])) as [src1|e|] eqn:E1; try discriminate.
        intros H. apply (proj1 (load_one_ok src raw src1 Hlen' Hnl)) in E1.
        destruct E1 as (l & Hl & H0 & Hlt & ->).
        apply IH in H; [|lia]. destruct H as (raws & new & -> & H2 & [Hi Hb] & Hz & ->).
        exists (raw :: raws), (l :: new). rewrite latest_num_app in Hb.
        split; [|split; [|split; [|split]]].
        -- rewrite Hfile. cbn. reflexivity.
        -- constructor; auto.
        -- split; [apply increasing_cons; auto|]. unfold below in *. constructor; [exact Hlt|].
           eapply Forall_impl; [|exact Hb]. cbn. intros; lia.
        -- constructor; auto.
        -- rewrite <- app_assoc. reflexivity.
      * intros (raws & new & Hfile2 & H2 & [Hi Hb] & Hz & ->).
        destruct raws as [|raw' raws]; [cbn in Hfile2; contradiction|].
        inversion H2 as [|? l ? new' Hl Hls]; subst.
        assert (Hraw : raw' = raw /\ flat_map (fun raw => raw ++ [NL]) raws = rest).
        { assert (Hg2 : fgets_loop 255 (raw' ++ NL :: flat_map (fun raw => raw ++ [NL]) raws)
                        = (raw' ++ [NL], flat_map (fun raw => raw ++ [NL]) raws)).
          { apply fgets_loop_short; [apply Hl|]. destruct Hl as [Hl _]. lia. }
          rewrite Hfile2 in Eg. cbn [flat_map] in Eg. rewrite <- app_assoc in Eg.
          cbn [app] in Eg. rewrite Hg2 in Eg. injection Eg as Ea Eb.
          apply app_inj_tail in Ea. tauto. }
        destruct Hraw as [-> <-].
        apply increasing_cons in Hi. destruct Hi as [Hi Hbl].
        inversion Hb; subst. inversion Hz; subst.
        assert (E1 : load_one src (raw ++ [NL]) = SOk (src ++ [l])).
        { apply load_one_ok; auto. exists l. auto. }
        rewrite E1. apply IH; [lia|].
        exists raws, new'. repeat split; auto.
        -- rewrite latest_num_app. exact Hbl.
        -- rewrite <- app_assoc. reflexivity.
    + split.
      * destruct (load_one src raw0) as [src1|e|] eqn:E1; try discriminate.
        exfalso. eapply load_one_unterminated; eauto.
      * intros (raws & new & Hfile2 & H2 & _). exfalso.
        destruct raws as [|raw' raws]; [cbn in Hfile2; contradiction|].
        inversion H2 as [|? l ? new' Hl Hls]; subst.
        rewrite Hfile2 in Eg. cbn [flat_map] in Eg. rewrite <- app_assoc in Eg. cbn [app] in Eg.
        rewrite fgets_loop_short in Eg; [|apply Hl|destruct Hl as [Hl _]; lia].
        injection Eg as <- _. apply Hnl. apply in_or_app. right. left. reflexivity.
Qed.

Lemma below_zero src : Forall (fun l => ln_num l <> 0%N) src <-> below 0 src.
Proof. unfold below. split; intros H; (eapply Forall_impl; [|exact H]); cbn; intros; lia. Qed.

Lemma load_source_iff file src : load_source file = SOk src <-> file_program file src.
Proof.
  unfold load_source, file_program. rewrite load_loop_ok by lia. split.
  - intros (raws & new & -> & H2 & [Hi _] & Hz & ->). exists raws. auto.
  - intros (raws & -> & H2 & Hi & Hz). exists raws, src. repeat split; auto.
    apply below_zero, Hz.
Qed.

Lemma load_loop_fuel fuel : forall src file, length file < fuel -> load_loop fuel src file <> SNoFuel.
Proof.
  induction fuel as [|f IH]; intros src file Hf; [lia|]. cbn [load_loop]. unfold fgets.
  destruct file as [|c file']; [discriminate|].
  destruct (fgets_loop (256 - 1) (c :: file')) as [raw rest] eqn:E.
  assert (Hl : length rest < length (c :: file')).
  { destruct (fgets_loop_cases _ _ _ _ E) as (Hfile & Hlen & Hcase). rewrite Hfile, app_length.
    destruct raw as [|x raw]; [|cbn; lia]. exfalso.
    destruct Hcase as [(l' & H & _)|(_ & [H|H])]; [destruct l'; discriminate|discriminate|].
    subst. discriminate. }
  destruct (load_one src raw) as [s|e|] eqn:E1; [|discriminate|].
  - apply IH. lia.
  - exfalso. eapply load_one_no_fuel, E1.
Qed.

Lemma load_source_total file :
  (exists src, load_source file = SOk src) \/ (exists e, load_source file = SExit e).
Proof.
  destruct (load_source file) as [s|e|] eqn:E; eauto.
  exfalso. eapply load_loop_fuel; [|exact E]. lia.
Qed.

(* ---------- saving ---------- *)

Lemma digit_not_nl c : is_digit c = true -> c <> NL /\ c <> NUL.
Proof.
  intros H. apply is_digit_code in H. split; intros ->; cbn in H; lia.
Qed.

Lemma line_text_file_line l : storable_line l -> file_line (line_text l) l.
Proof.
  intros (Hn & Hnl & Hnul & Hlen). unfold file_line, line_text.
  assert (Hdig : forall c, In c (dec_of_N (ln_num l)) -> c <> NL /\ c <> NUL).
  { intros c Hc. apply digit_not_nl. pose proof (dec_of_N_digits (ln_num l)) as H.
    rewrite Forall_forall in H. auto. }
  split; [|split; [|split]].
  - rewrite app_length. cbn [length]. lia.
  - rewrite in_app_iff. cbn [In]. intros [H|[H|H]]; [|discriminate|auto].
    apply Hdig in H. destruct H; congruence.
  - rewrite in_app_iff. cbn [In]. intros [H|[H|H]]; [|discriminate|auto].
    apply Hdig in H. destruct H; congruence.
  - exists (dec_of_N (ln_num l)), (SP :: ln_text l). repeat split; auto.
    + apply dec_of_N_nonempty.
    + apply dec_of_N_digits.
    + rewrite dec_of_N_value. symmetry. apply N.mod_small. lia.
Qed.

Lemma flat_map_map {A B C} (f : B -> list C) (g : A -> B) l :
  flat_map f (map g l) = flat_map (fun x => f (g x)) l.
Proof. induction l as [|x l IH]; cbn; [reflexivity|]. rewrite IH. reflexivity. Qed.

Lemma save_load_ok src :
  increasing src -> Forall storable_line src -> load_source (save_source src) = SOk src.
Proof.
  intros Hi Hs. apply load_source_iff. exists (map line_text src). split; [|split; [|split; [exact Hi|]]].
  - unfold save_source. rewrite flat_map_map. reflexivity.
  - clear Hi. induction Hs as [|l r Hl Hs IH]; cbn [map]; constructor; auto using line_text_file_line.
  - eapply Forall_impl; [|exact Hs]. intros l (H & _). lia.
Qed.

(* Decomposition of a newline-separated file is unique. *)
Lemma split_unique raws : forall raws',
  Forall (fun r => ~ In NL r) raws -> Forall (fun r => ~ In NL r) raws' ->
  flat_map (fun raw => raw ++ [NL]) raws = flat_map (fun raw => raw ++ [NL]) raws' -> raws = raws'.
Proof.
  assert (Hone : forall (a c : bytes) x y, ~ In NL a -> ~ In NL c -> a ++ NL :: x = c ++ NL :: y -> a = c /\ x = y).
  { induction a as [|a0 a IH]; intros [|c0 c] x y Ha Hc H; cbn in *.
    - injection H; auto.
    - injection H. intros; subst. exfalso. apply Hc. auto.
    - injection H. intros; subst. exfalso. apply Ha. auto.
    - injection H as -> H. apply IH in H; [|tauto|tauto]. destruct H as [-> ->]. auto. }
  induction raws as [|r raws IH]; intros [|r' raws'] H1 H2 H; auto.
  - cbn in H. destruct r'; discriminate.
  - cbn in H. destruct r; discriminate.
  - inversion H1; subst. inversion H2; subst. cbn in H. rewrite <- !app_assoc in H. cbn in H.
    apply Hone in H; auto. destruct H as [-> H]. f_equal. apply IH; auto.
Qed.

Lemma save_load_conv src :
  Forall (fun l => ~ In NL (ln_text l)) src ->
  load_source (save_source src) = SOk src -> increasing src /\ Forall storable_line src.
Proof.
  intros Hnl H. apply load_source_iff in H. destruct H as (raws & Hsave & H2 & Hi & Hz).
  split; [exact Hi|].
  assert (Hraws : raws = map line_text src).
  { apply split_unique.
    - apply Forall_forall. intros r Hr. clear -Hr H2. induction H2 as [|r' l raws src Hl H2 IH]; [destruct Hr|].
      destruct Hr as [<-|Hr]; [apply Hl|auto].
    - apply Forall_map. eapply Forall_impl; [|exact Hnl]. intros l Hl. unfold line_text.
      rewrite in_app_iff. cbn [In]. intros [H|[H|H]]; [|discriminate|auto].
      pose proof (dec_of_N_digits (ln_num l)) as Hd. rewrite Forall_forall in Hd.
      apply Hd in H. discriminate.
    - rewrite <- Hsave. unfold save_source. rewrite flat_map_map. reflexivity. }
  subst raws. clear Hsave Hi. rewrite Forall_forall in *. intros l Hl. specialize (Hz l Hl).
  specialize (Hnl l Hl).
  assert (Hf : file_line (line_text l) l).
  { clear -H2 Hl. remember (map line_text src) as raws eqn:Er. revert Er.
    induction H2 as [|r l' raws src Hf H2 IH]; intros Er; [destruct Hl|].
    cbn in Er. injection Er as -> Er. destruct Hl as [<-|Hl]; [exact Hf|auto]. }
  destruct Hf as (Hlen & _ & Hnul & ds & rest & Heq & _ & _ & _ & Hnum & _).
  unfold line_text in *. rewrite app_length in Hlen. cbn [length] in Hlen.
  repeat split; auto.
  - lia.
  - rewrite Hnum. apply N.mod_lt. discriminate.
  - intros H. apply Hnul. apply in_or_app. right. right. exact H.
  - lia.
Qed.
