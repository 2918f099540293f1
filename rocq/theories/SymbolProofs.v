(* Lemmas about SymbolModel.v. *)
From Coq Require Import Lia ZifyBool ZifyNat ZifyN.
From Verif Require Import Base BaseLemmas Num SymbolModel SymbolSpec.

(* ---------- spelling ---------- *)

Lemma upper_lower c d : (to_upper c = to_upper d) <-> (to_lower c = to_lower d).
Proof.
  assert (H : forallb (fun c => forallb (fun d =>
             Bool.eqb (ceq (to_upper c) (to_upper d)) (ceq (to_lower c) (to_lower d))) all_ascii)
             all_ascii = true) by (vm_compute; reflexivity).
  pose proof (forall_ascii _ H c) as H1. cbn beta in H1.
  pose proof (forall_ascii _ H1 d) as H2. cbn beta in H2.
  apply Bool.eqb_prop in H2.
  rewrite <- !ceq_eq. rewrite H2. reflexivity.
Qed.

Lemma same_name_ci a b : same_name a b <-> ci_eq a b.
Proof.
  unfold same_name, ci_eq. revert b; induction a as [|c a IH]; intros [|d b]; cbn [map];
    split; intros H; try discriminate; try reflexivity.
  - injection H as H1 H2. apply upper_lower in H1. apply IH in H2. congruence.
  - injection H as H1 H2. apply upper_lower in H1. apply IH in H2. congruence.
Qed.

Lemma strieq_same a b : strieq a b = true <-> same_name a b.
Proof. rewrite strieq_iff. symmetry. apply same_name_ci. Qed.

Lemma upper_unsigned_same c d : to_upper c = to_upper d -> upper_unsigned c = upper_unsigned d.
Proof.
  assert (H : forallb (fun c => forallb (fun d =>
             implb (ceq (to_upper c) (to_upper d)) (upper_unsigned c =? upper_unsigned d)%N) all_ascii)
             all_ascii = true) by (vm_compute; reflexivity).
  pose proof (forall_ascii _ H c) as H1. cbn beta in H1.
  pose proof (forall_ascii _ H1 d) as H2. cbn beta in H2.
  intros E. apply ceq_eq in E. rewrite E in H2. cbn [implb] in H2. apply N.eqb_eq, H2.
Qed.

Lemma hash_same a b : same_name a b -> hashpjw_upper a = hashpjw_upper b.
Proof.
  unfold same_name, hashpjw_upper. generalize 0%N. revert b.
  induction a as [|c a IH]; intros [|d b] h H; cbn [map] in H; try discriminate; [reflexivity|].
  injection H as H1 H2. cbn [fold_left]. rewrite (upper_unsigned_same _ _ H1). apply IH, H2.
Qed.

Lemma bucket_same a b : same_name a b -> sym_bucket a = sym_bucket b.
Proof. intros H. unfold sym_bucket. rewrite (hash_same _ _ H). reflexivity. Qed.

Lemma bucket_lt a : sym_bucket a < N.to_nat SYMBOL_HASH_SIZE.
Proof. unfold sym_bucket. pose proof (N.mod_lt (hashpjw_upper a) SYMBOL_HASH_SIZE). cbv [SYMBOL_HASH_SIZE] in *. lia. Qed.

Lemma match_paren_iff k paren : match_paren k paren = true <-> can_mean paren k.
Proof. destruct k, paren; cbn; split; intros; congruence || exact I. Qed.

Lemma sym_matches_iff syms name paren p :
  sym_matches syms name paren p = true <-> denotes syms name paren p.
Proof.
  unfold sym_matches, denotes. destruct (nth_error syms p) as [s|].
  - rewrite andb_true_iff, match_paren_iff, strieq_same. split.
    + intros [H1 H2]. exists s. auto.
    + intros (s' & [= <-] & H1 & H2). auto.
  - split; [discriminate|]. intros (s & H & _). discriminate.
Qed.

(* ---------- the chains ---------- *)

Definition in_bucket (syms : list symbol) (h p : nat) : bool :=
  match nth_error syms p with
  | Some s => Nat.eqb (sym_bucket (s_name s)) h
  | None => false
  end.

Definition chain_of (syms : list symbol) (h : nat) : list nat :=
  rev (filter (in_bucket syms h) (seq 0 (length syms))).

Definition st_wf (st : symtab) : Prop :=
  length (st_hash st) = N.to_nat SYMBOL_HASH_SIZE /\
  (forall h, h < N.to_nat SYMBOL_HASH_SIZE -> nth h (st_hash st) [] = chain_of (st_syms st) h).

(* at most one symbol per name and use *)
Definition st_uniq (st : symtab) : Prop :=
  forall name paren p q, denotes (st_syms st) name paren p -> denotes (st_syms st) name paren q -> p = q.

(* symbol identifiers are positions, modulo the 16 bits of SYMID *)
Definition st_ids (st : symtab) : Prop :=
  st_next st = u16 (N.of_nat (length (st_syms st))) /\
  forall p s, nth_error (st_syms st) p = Some s -> s_id s = u16 (N.of_nat p).

Lemma find_app {A} (f : A -> bool) l l' :
  find f (l ++ l') = match find f l with Some x => Some x | None => find f l' end.
Proof. induction l as [|a l IH]; cbn; [reflexivity|]. destruct (f a); auto. Qed.

(* the last element satisfying f *)
Lemma find_rev_seq (f : nat -> bool) n :
  match find f (rev (seq 0 n)) with
  | Some p => p < n /\ f p = true /\ forall q, p < q < n -> f q = false
  | None => forall q, q < n -> f q = false
  end.
Proof.
  induction n as [|n IH]; [cbn; intros; lia|].
  rewrite seq_S, rev_app_distr. cbn [rev app Nat.add find].
  destruct (f n) eqn:E.
  - split; [lia|]. split; [exact E|]. intros; lia.
  - destruct (find f (rev (seq 0 n))) as [p|].
    + destruct IH as (H1 & H2 & H3). split; [lia|]. split; [exact H2|].
      intros q Hq. destruct (Nat.eq_dec q n) as [->|]; [exact E|]. apply H3. lia.
    + intros q Hq. destruct (Nat.eq_dec q n) as [->|]; [exact E|]. apply IH. lia.
Qed.

Lemma find_filter {A} (f g : A -> bool) l :
  (forall x, In x l -> f x = true -> g x = true) -> find f (filter g l) = find f l.
Proof.
  induction l as [|a l IH]; intros H; [reflexivity|]. cbn [filter find].
  destruct (g a) eqn:Eg; cbn [find].
  - destruct (f a); [reflexivity|]. apply IH. intros x Hx. apply H. right. exact Hx.
  - destruct (f a) eqn:Ef.
    + rewrite (H a (or_introl eq_refl) Ef) in Eg. discriminate.
    + apply IH. intros x Hx. apply H. right. exact Hx.
Qed.

Lemma filter_rev {A} (f : A -> bool) l : filter f (rev l) = rev (filter f l).
Proof.
  induction l as [|a l IH]; [reflexivity|]. cbn [rev filter].
  rewrite filter_app, IH. cbn [filter]. destruct (f a); cbn [rev]; [reflexivity|].
  apply app_nil_r.
Qed.

(* the lookup through the hash chain finds the newest symbol the use can mean *)
Lemma lookup_spec st name paren : st_wf st ->
  match sym_lookup st name paren with
  | Some p => denotes (st_syms st) name paren p /\
              forall q, p < q -> ~ denotes (st_syms st) name paren q
  | None => forall q, ~ denotes (st_syms st) name paren q
  end.
Proof.
  intros [Hlen Hch]. unfold sym_lookup.
  rewrite (Hch _ (bucket_lt name)). unfold chain_of. rewrite <- filter_rev.
  rewrite find_filter.
  2:{ intros p _ Hp. apply sym_matches_iff in Hp. destruct Hp as (s & Hs & Hn & _).
      unfold in_bucket. rewrite Hs. apply Nat.eqb_eq. apply bucket_same, Hn. }
  pose proof (find_rev_seq (sym_matches (st_syms st) name paren) (length (st_syms st))) as H.
  assert (Hout : forall q, length (st_syms st) <= q -> ~ denotes (st_syms st) name paren q).
  { intros q Hq (s & Hs & _). apply nth_error_None in Hq. congruence. }
  destruct (find _ _) as [p|].
  - destruct H as (H1 & H2 & H3). split; [apply sym_matches_iff, H2|].
    intros q Hq Hd. destruct (Nat.lt_ge_cases q (length (st_syms st))) as [L|L].
    + apply sym_matches_iff in Hd. rewrite H3 in Hd by lia. discriminate.
    + exact (Hout q L Hd).
  - intros q Hd. destruct (Nat.lt_ge_cases q (length (st_syms st))) as [L|L].
    + apply sym_matches_iff in Hd. rewrite H in Hd by lia. discriminate.
    + exact (Hout q L Hd).
Qed.

Lemma wf_new : st_wf new_symbol_table.
Proof.
  split; [apply repeat_length|]. intros h Hh. unfold new_symbol_table, chain_of.
  cbn [st_hash st_syms length seq filter rev]. apply nth_repeat.
Qed.

Lemma in_bucket_app syms s h p : p < length syms -> in_bucket (syms ++ [s]) h p = in_bucket syms h p.
Proof. intros H. unfold in_bucket. rewrite nth_error_app1 by exact H. reflexivity. Qed.

Lemma chain_of_app syms s h :
  chain_of (syms ++ [s]) h =
  if Nat.eqb (sym_bucket (s_name s)) h then length syms :: chain_of syms h else chain_of syms h.
Proof.
  unfold chain_of. rewrite app_length. cbn [length]. rewrite Nat.add_1_r, seq_S, filter_app, rev_app_distr.
  cbn [Nat.add filter].
  unfold in_bucket at 1. rewrite nth_error_app2, Nat.sub_diag by lia. cbn [nth_error].
  rewrite (filter_ext_in (in_bucket (syms ++ [s]) h) (in_bucket syms h) (seq 0 (length syms))).
  2:{ intros p Hp. apply in_seq in Hp. apply in_bucket_app. lia. }
  destruct (Nat.eqb _ _); reflexivity.
Qed.

Lemma wf_insert st name k t : st_wf st -> st_wf (fst (sym_insert st name k t)).
Proof.
  intros [Hlen Hch]. unfold sym_insert, st_wf. cbn [fst st_hash st_syms].
  rewrite list_upd_length. split; [exact Hlen|]. intros h Hh.
  rewrite chain_of_app. cbn [s_name].
  destruct (Nat.eqb (sym_bucket name) h) eqn:E.
  - apply Nat.eqb_eq in E. subst h. rewrite nth_list_upd_eq by lia. rewrite (Hch _ Hh). reflexivity.
  - apply Nat.eqb_neq in E. rewrite nth_list_upd_neq by exact E. apply Hch, Hh.
Qed.

Lemma chain_of_names syms syms' h :
  map s_name syms = map s_name syms' -> chain_of syms h = chain_of syms' h.
Proof.
  intros H. unfold chain_of.
  assert (L : length syms = length syms') by (rewrite <- (map_length s_name), H; apply map_length).
  rewrite L. f_equal. apply filter_ext. intros p. unfold in_bucket.
  pose proof (nth_error_map s_name p syms) as H1. pose proof (nth_error_map s_name p syms') as H2.
  rewrite H in H1. rewrite H1 in H2.
  destruct (nth_error syms p), (nth_error syms' p); cbn in H2; try congruence.
Qed.

Lemma wf_names st st' :
  st_hash st' = st_hash st -> map s_name (st_syms st') = map s_name (st_syms st) ->
  st_wf st -> st_wf st'.
Proof.
  intros Hh Hn [Hlen Hch]. split; [congruence|]. intros h Hlt.
  rewrite Hh, (Hch h Hlt). symmetry. apply chain_of_names, Hn.
Qed.

Lemma map_list_upd {A B} (f : A -> B) l p x s :
  nth_error l p = Some s -> f x = f s -> map f (list_upd l p x) = map f l.
Proof.
  revert p; induction l as [|a l IH]; intros [|p] H E; cbn in *; try discriminate.
  - injection H as ->. congruence.
  - f_equal. apply IH; assumption.
Qed.

Lemma wf_update st p s x :
  st_wf st -> nth_error (st_syms st) p = Some s -> s_name x = s_name s -> st_wf (sym_update st p x).
Proof.
  intros H Hs E. apply (wf_names st); [reflexivity| |exact H].
  cbn [sym_update st_syms]. eapply map_list_upd; eassumption.
Qed.

(* ---------- uniqueness ---------- *)

(* changing kinds without changing how names are used *)
Definition same_use (s s' : symbol) : Prop :=
  s_name s = s_name s' /\ forall paren, can_mean paren (s_kind s) <-> can_mean paren (s_kind s').

Lemma denotes_same_use syms syms' name paren p :
  (forall p s, nth_error syms' p = Some s -> exists s0, nth_error syms p = Some s0 /\ same_use s s0) ->
  denotes syms' name paren p -> denotes syms name paren p.
Proof.
  intros H (s & Hs & Hn & Hk). destruct (H _ _ Hs) as (s0 & H0 & E1 & E2).
  exists s0. split; [exact H0|]. split; [congruence|]. apply E2, Hk.
Qed.

Lemma uniq_same_use st st' :
  (forall p s, nth_error (st_syms st') p = Some s ->
               exists s0, nth_error (st_syms st) p = Some s0 /\ same_use s s0) ->
  st_uniq st -> st_uniq st'.
Proof.
  intros H U name paren p q Hp Hq. apply (U name paren); eapply denotes_same_use; eassumption.
Qed.

Lemma same_name_sym a b : same_name a b -> same_name b a.
Proof. unfold same_name. auto. Qed.
Lemma same_name_trans a b c : same_name a b -> same_name b c -> same_name a c.
Proof. unfold same_name. congruence. Qed.

(* two kinds used in a common way, where one is not built-in *)
Lemma can_mean_common k k' p p' :
  can_mean p k -> can_mean p' k -> can_mean p k' -> k <> KBuiltin -> can_mean p' k'.
Proof. destruct k, k', p, p'; cbn; congruence. Qed.

Lemma uniq_insert st name k t paren :
  st_wf st -> st_uniq st -> can_mean paren k -> k <> KBuiltin ->
  sym_lookup st name paren = None -> st_uniq (fst (sym_insert st name k t)).
Proof.
  intros W U Hk Hb Hl nm pa p q Hp Hq.
  pose proof (lookup_spec st name paren W) as HS. rewrite Hl in HS.
  assert (Hcase : forall p, denotes (st_syms (fst (sym_insert st name k t))) nm pa p ->
            (denotes (st_syms st) nm pa p) \/ (p = length (st_syms st) /\ same_name name nm /\ can_mean pa k)).
  { intros r (s & Hs & Hn & Hc). cbn [sym_insert fst st_syms] in Hs.
    destruct (Nat.lt_ge_cases r (length (st_syms st))) as [L|L].
    - rewrite nth_error_app1 in Hs by exact L. left. exists s. auto.
    - rewrite nth_error_app2 in Hs by exact L.
      destruct (r - length (st_syms st)) as [|m] eqn:Er; cbn [nth_error] in Hs.
      + injection Hs as <-. cbn [s_name s_kind] in *. right. split; [lia|]. auto.
      + destruct m; discriminate. }
  assert (Hno : forall r, denotes (st_syms st) nm pa r -> same_name name nm -> can_mean pa k -> False).
  { intros r (s & Hs & Hn & Hc) Hsn Hcm. apply (HS r). exists s. split; [exact Hs|].
    split; [eapply same_name_trans; [exact Hn|]; apply same_name_sym, Hsn|].
    exact (can_mean_common _ _ _ _ Hcm Hk Hc Hb). }
  destruct (Hcase _ Hp) as [H1|(E1 & S1 & C1)]; destruct (Hcase _ Hq) as [H2|(E2 & S2 & C2)].
  - exact (U _ _ _ _ H1 H2).
  - exfalso. exact (Hno _ H1 S2 C2).
  - exfalso. exact (Hno _ H2 S1 C1).
  - congruence.
Qed.

(* ---------- identifiers ---------- *)

Lemma u16_succ n : u16 (u16 n + 1) = u16 (n + 1).
Proof. unfold u16. rewrite N.add_mod_idemp_l by discriminate. reflexivity. Qed.

Lemma ids_insert st name k t : st_ids st -> st_ids (fst (sym_insert st name k t)).
Proof.
  intros [H1 H2]. unfold sym_insert, st_ids. cbn [fst st_next st_syms]. rewrite app_length. split.
  - rewrite H1, u16_succ. cbn [length]. f_equal. lia.
  - intros p s Hs. destruct (Nat.lt_ge_cases p (length (st_syms st))) as [L|L].
    + rewrite nth_error_app1 in Hs by exact L. apply H2, Hs.
    + rewrite nth_error_app2 in Hs by exact L.
      destruct (p - length (st_syms st)) as [|m] eqn:Er; cbn [nth_error] in Hs.
      * injection Hs as <-. cbn [s_id]. rewrite H1. do 2 f_equal. lia.
      * destruct m; discriminate.
Qed.

Lemma ids_map st st' :
  st_next st' = st_next st -> map s_id (st_syms st') = map s_id (st_syms st) ->
  st_ids st -> st_ids st'.
Proof.
  intros Hn Hm [H1 H2]. split.
  - rewrite Hn, H1. do 2 f_equal. rewrite <- (map_length s_id (st_syms st)), <- Hm, map_length. reflexivity.
  - intros p s Hs. pose proof (map_nth_error s_id _ _ Hs) as Hi. rewrite Hm in Hi.
    rewrite nth_error_map in Hi. destruct (nth_error (st_syms st) p) as [s0|] eqn:E; [|discriminate].
    cbn in Hi. injection Hi as <-. apply H2, E.
Qed.

(* ---------- all reachable tables ---------- *)

Definition st_good (st : symtab) : Prop := st_wf st /\ st_uniq st /\ st_ids st.

Lemma nth_list_upd_inv {A} (l : list A) p q x s y :
  nth_error l p = Some s -> nth_error (list_upd l p x) q = Some y ->
  (q = p /\ y = x) \/ (q <> p /\ nth_error l q = Some y).
Proof.
  intros Hs H. rewrite nth_error_list_upd in H. destruct (Nat.eqb p q) eqn:E.
  - apply Nat.eqb_eq in E. subst. rewrite Hs in H. left. split; congruence.
  - apply Nat.eqb_neq in E. right. auto.
Qed.

Lemma update_good st p s x :
  st_good st -> nth_error (st_syms st) p = Some s -> s_id x = s_id s -> same_use x s ->
  st_good (sym_update st p x).
Proof.
  intros (W & U & I) Hs Hi [Hn Hk]. split; [|split].
  - eapply wf_update; eassumption.
  - apply (uniq_same_use st); [|exact U]. intros q y Hy. cbn [sym_update st_syms] in Hy.
    destruct (nth_list_upd_inv _ _ _ _ _ _ Hs Hy) as [[-> ->]|[_ H]].
    + exists s. split; [exact Hs|]. split; assumption.
    + exists y. split; [exact H|]. split; [reflexivity|]. intros; reflexivity.
  - apply (ids_map st); [reflexivity| |exact I]. cbn [sym_update st_syms].
    eapply map_list_upd; eassumption.
Qed.

Lemma map_good st (f : symbol -> symbol) :
  (forall s, s_id (f s) = s_id s /\ same_use (f s) s) ->
  st_good st -> st_good (mkSt (st_hash st) (map f (st_syms st)) (st_next st)).
Proof.
  intros Hf (W & U & I). split; [|split].
  - apply (wf_names st); [reflexivity| |exact W]. cbn [st_syms]. rewrite map_map.
    apply map_ext. intros s. apply Hf.
  - apply (uniq_same_use st); [|exact U]. cbn [st_syms]. intros p s Hs.
    rewrite nth_error_map in Hs. destruct (nth_error (st_syms st) p) as [s0|]; [|discriminate].
    injection Hs as <-. exists s0. split; [reflexivity|]. apply Hf.
  - apply (ids_map st); [reflexivity| |exact I]. cbn [st_syms]. rewrite map_map.
    apply map_ext. intros s. apply Hf.
Qed.

(* the built-in names are pairwise different *)
Lemma init_wf : forall bs st, st_wf st -> st_ids st ->
  st_wf (fold_left sym_insert_builtin bs st) /\ st_ids (fold_left sym_insert_builtin bs st).
Proof.
  induction bs as [|b bs IH]; intros st W I; [split; assumption|]. cbn [fold_left].
  assert (H : st_wf (sym_insert_builtin st b) /\ st_ids (sym_insert_builtin st b)).
  { unfold sym_insert_builtin. destruct (sym_insert st (bi_name b) KBuiltin (bi_type b)) as [st' p] eqn:E.
    pose proof (wf_insert st (bi_name b) KBuiltin (bi_type b) W) as W'.
    pose proof (ids_insert st (bi_name b) KBuiltin (bi_type b) I) as I'.
    rewrite E in W', I'. cbn [fst] in W', I'.
    destruct (nth_error (st_syms st') p) as [s|] eqn:Es; [|split; assumption].
    split; [eapply wf_update; [exact W'|exact Es|reflexivity]|].
    apply (ids_map st'); [reflexivity| |exact I']. cbn [sym_update st_syms].
    eapply map_list_upd; [exact Es|reflexivity]. }
  destruct H. apply IH; assumption.
Qed.

Definition builtin_sym (b : builtin) (p : nat) : symbol :=
  mkSym (bi_name b) (u16 (N.of_nat p)) KBuiltin (bi_type b) true (VBuiltin (bi_args b) (bi_op b)).

Lemma init_names : map s_name (st_syms (init_builtins new_symbol_table)) = map bi_name builtins /\
  forallb (fun s => skind_eqb (s_kind s) KBuiltin) (st_syms (init_builtins new_symbol_table)) = true.
Proof. split; vm_compute; reflexivity. Qed.

Lemma builtin_names_distinct :
  forall p q b c, nth_error builtins p = Some b -> nth_error builtins q = Some c ->
  strieq (bi_name b) (bi_name c) = true -> p = q.
Proof.
  assert (H : forallb (fun p => forallb (fun q =>
            match nth_error builtins p, nth_error builtins q with
            | Some b, Some c => implb (strieq (bi_name b) (bi_name c)) (Nat.eqb p q)
            | _, _ => true
            end) (seq 0 26)) (seq 0 26) = true) by (vm_compute; reflexivity).
  intros p q b c Hp Hq E.
  assert (Lp : p < 26) by (change 26 with (length builtins); apply nth_error_Some; congruence).
  assert (Lq : q < 26) by (change 26 with (length builtins); apply nth_error_Some; congruence).
  rewrite forallb_forall in H. specialize (H p). rewrite in_seq in H. specialize (H ltac:(lia)).
  rewrite forallb_forall in H. specialize (H q). rewrite in_seq in H. specialize (H ltac:(lia)).
  rewrite Hp, Hq, E in H. cbn [implb] in H. apply Nat.eqb_eq, H.
Qed.

Lemma init_good : st_good (init_builtins new_symbol_table).
Proof.
  assert (H : st_wf (init_builtins new_symbol_table) /\ st_ids (init_builtins new_symbol_table)).
  { apply init_wf; [apply wf_new|]. split; [reflexivity|]. intros [|p] s H; discriminate. }
  destruct H as [W I]. split; [exact W|]. split; [|exact I].
  intros name paren p q (s & Hs & Hn & _) (s' & Hs' & Hn' & _).
  destruct init_names as [HN _].
  pose proof (map_nth_error s_name _ _ Hs) as H1. pose proof (map_nth_error s_name _ _ Hs') as H2.
  rewrite HN, nth_error_map in H1. rewrite HN, nth_error_map in H2.
  destruct (nth_error builtins p) as [b|] eqn:Eb; [|discriminate].
  destruct (nth_error builtins q) as [c|] eqn:Ec; [|discriminate].
  cbn in H1, H2. apply (builtin_names_distinct p q b c Eb Ec).
  apply strieq_same. assert (bi_name b = s_name s) by congruence. assert (bi_name c = s_name s') by congruence.
  rewrite H, H0. eapply same_name_trans; [exact Hn|]. apply same_name_sym, Hn'.
Qed.

Lemma use_good st name paren k t :
  st_good st -> can_mean paren k -> k <> KBuiltin -> st_good (fst (use_name st name paren k t)).
Proof.
  intros (W & U & I) Hk Hb. unfold use_name. destruct (sym_lookup st name paren) as [p|] eqn:E.
  - split; [|split]; assumption.
  - split; [|split]; [apply wf_insert, W|eapply uniq_insert; eassumption|apply ids_insert, I].
Qed.

Lemma make_array_good st : st_good st -> st_good (sym_make_unknown_array st).
Proof.
  apply map_good. intros s. destruct (skind_eqb (s_kind s) KUnknown) eqn:E; cbn.
  - split; [reflexivity|]. split; [reflexivity|]. intros p. cbn [set_kind s_kind].
    destruct (s_kind s); try discriminate. reflexivity.
  - split; [reflexivity|]. split; [reflexivity|]. intros; reflexivity.
Qed.

Lemma undefine_value_same s : s_id (undefine_value s) = s_id s /\ same_use (undefine_value s) s /\
  s_name (undefine_value s) = s_name s /\ s_kind (undefine_value s) = s_kind s /\
  s_type (undefine_value s) = s_type s.
Proof.
  unfold undefine_value, same_use, undefine, set_defined, set_val.
  destruct (s_kind s) eqn:E; cbn; rewrite ?E; repeat (split; [reflexivity|]);
    repeat split; reflexivity || tauto || (intros; tauto) || auto.
Qed.

Lemma clear_good st : st_good st -> st_good (clear_symbol_table_values st).
Proof.
  apply map_good. intros s. destruct (s_defined s).
  - destruct (undefine_value_same s) as (H1 & H2 & _). auto.
  - split; [reflexivity|]. split; [reflexivity|]. intros; reflexivity.
Qed.

Lemma change_good st st' : change st st' -> st_good st -> st_good st'.
Proof.
  intros H IH. destruct H as [st name paren k t Hk Hb|st p s k Hs Hu Hk|st|st p s v d Hs Hnb|st].
  - apply use_good; assumption.
  - apply (update_good st p s); [exact IH|exact Hs|reflexivity|].
    split; [reflexivity|]. intros pa. cbn [set_kind s_kind]. rewrite Hu.
    destruct Hk; subst k; reflexivity.
  - apply make_array_good, IH.
  - apply (update_good st p s); [exact IH|exact Hs|reflexivity|].
    split; [reflexivity|]. intros pa. reflexivity.
  - apply clear_good, IH.
Qed.

Lemma changes_inv (P : symtab -> Prop) :
  (forall st st', change st st' -> P st -> P st') ->
  forall st st', changes st st' -> P st -> P st'.
Proof. intros H st st' C. induction C as [|st st' st'' C IH C']; intros HP; eauto. Qed.

Lemma changes_good st st' : changes st st' -> st_good st -> st_good st'.
Proof. apply changes_inv. exact change_good. Qed.

Lemma table_good st : table st -> st_good st.
Proof. intros H. eapply changes_good; [exact H|]. apply init_good. Qed.

Lemma changes_trans a b c : changes a b -> changes b c -> changes a c.
Proof.
  intros H1 H2. induction H2 as [|b c d H2 IH C]; [exact H1|].
  eapply Chs_step; [apply IH, H1|exact C].
Qed.

(* ---------- what a change keeps ---------- *)

(* how a symbol can evolve *)
Definition evolves (s s' : symbol) : Prop :=
  s_name s' = s_name s /\ s_id s' = s_id s /\ s_type s' = s_type s /\
  (s_kind s = KUnknown \/ s_kind s' = s_kind s) /\ same_use s' s /\
  (s_kind s = KBuiltin -> s' = s).

Lemma evolves_refl s : evolves s s.
Proof.
  split; [reflexivity|]. split; [reflexivity|]. split; [reflexivity|]. split; [right; reflexivity|].
  split; [split; [reflexivity|intros; reflexivity]|]. reflexivity.
Qed.

Lemma evolves_trans a b c : evolves a b -> evolves b c -> evolves a c.
Proof.
  intros (A1 & A2 & A3 & A4 & [A5 A5'] & A6) (B1 & B2 & B3 & B4 & [B5 B5'] & B6).
  split; [congruence|]. split; [congruence|]. split; [congruence|]. split.
  { destruct A4 as [|A4]; [left; assumption|]. destruct B4 as [B4|B4]; [left; congruence|right; congruence]. }
  split; [split; [congruence|intros p; rewrite B5'; apply A5']|].
  intros K. pose proof (A6 K) as E. subst b. apply B6, K.
Qed.

Lemma change_evolves st st' : change st st' ->
  forall p s, nth_error (st_syms st) p = Some s ->
  exists s', nth_error (st_syms st') p = Some s' /\ evolves s s'.
Proof.
  intros H. destruct H as [st name paren k t Hk Hb|st p0 s0 k Hs Hu Hk|st|st p0 s0 v d Hs Hnb|st];
    intros p s Hp.
  - exists s. split; [|apply evolves_refl]. unfold use_name.
    destruct (sym_lookup st name paren); [exact Hp|].
    cbn [sym_insert fst st_syms]. rewrite nth_error_app1; [exact Hp|]. apply nth_error_Some. congruence.
  - cbn [sym_update st_syms]. destruct (Nat.eq_dec p0 p) as [->|N].
    + assert (s0 = s) by congruence. subst s0. eexists. split; [eapply nth_error_list_upd_eq|].
      { apply nth_error_Some. congruence. }
      split; [reflexivity|]. split; [reflexivity|]. split; [reflexivity|]. split; [left; exact Hu|].
      split; [|congruence]. split; [reflexivity|]. intros pa. cbn [set_kind s_kind]. rewrite Hu.
      destruct Hk; subst k; reflexivity.
    + exists s. split; [rewrite nth_error_list_upd_neq by exact N; exact Hp|apply evolves_refl].
  - cbn [sym_make_unknown_array st_syms]. eexists. split; [apply map_nth_error, Hp|].
    destruct (skind_eqb (s_kind s) KUnknown) eqn:E; [|apply evolves_refl].
    assert (K : s_kind s = KUnknown) by (destruct (s_kind s); try discriminate; reflexivity).
    split; [reflexivity|]. split; [reflexivity|]. split; [reflexivity|]. split; [left; exact K|].
    split; [|congruence]. split; [reflexivity|]. intros pa. cbn [set_kind s_kind]. rewrite K. reflexivity.
  - cbn [sym_update st_syms]. destruct (Nat.eq_dec p0 p) as [->|N].
    + assert (s0 = s) by congruence. subst s0. eexists. split; [eapply nth_error_list_upd_eq|].
      { apply nth_error_Some. congruence. }
      split; [reflexivity|]. split; [reflexivity|]. split; [reflexivity|]. split; [right; reflexivity|].
      split; [|congruence]. split; [reflexivity|]. intros pa. reflexivity.
    + exists s. split; [rewrite nth_error_list_upd_neq by exact N; exact Hp|apply evolves_refl].
  - cbn [clear_symbol_table_values st_syms]. eexists. split; [apply map_nth_error, Hp|].
    destruct (s_defined s); [|apply evolves_refl].
    destruct (undefine_value_same s) as (H1 & H2 & H3 & H4 & H5).
    split; [exact H3|]. split; [exact H1|]. split; [exact H5|]. split; [right; exact H4|].
    split; [exact H2|]. intros K. unfold undefine_value. rewrite K. reflexivity.
Qed.

Lemma changes_evolves st st' : changes st st' ->
  forall p s, nth_error (st_syms st) p = Some s ->
  exists s', nth_error (st_syms st') p = Some s' /\ evolves s s'.
Proof.
  intros H. induction H as [st|st st' st'' H IH C]; intros p s Hp.
  - exists s. split; [exact Hp|apply evolves_refl].
  - destruct (IH p s Hp) as (s1 & H1 & E1). destruct (change_evolves _ _ C p s1 H1) as (s2 & H2 & E2).
    exists s2. split; [exact H2|]. eapply evolves_trans; eassumption.
Qed.

(* the built-in symbols of a table are the initial ones *)
Definition builtin_syms (st : symtab) : Prop :=
  forall p s, nth_error (st_syms st) p = Some s -> s_kind s = KBuiltin ->
  nth_error (st_syms (init_builtins new_symbol_table)) p = Some s.

Lemma change_builtin_syms st st' : change st st' -> builtin_syms st -> builtin_syms st'.
Proof.
  intros H B p s Hp K. destruct (nth_error (st_syms st) p) as [s0|] eqn:E0.
  - destruct (change_evolves _ _ H p s0 E0) as (s' & H' & Ev). rewrite Hp in H'. injection H' as <-.
    destruct Ev as (_ & _ & _ & [U|U] & [_ Us] & Eq).
    + exfalso. specialize (Us false). rewrite U, K in Us. cbn in Us. destruct Us as [Us _].
      specialize (Us I). discriminate.
    + rewrite (Eq (eq_trans (eq_sym U) K)). apply B; [exact E0|congruence].
  - exfalso. destruct H as [st name paren k t Hk Hb|st p0 s0 k Hs Hu Hk|st|st p0 s0 v d Hs Hnb|st].
    + unfold use_name in Hp. destruct (sym_lookup st name paren); [cbn [fst] in Hp; congruence|].
      cbn [sym_insert fst st_syms] in Hp. apply nth_error_None in E0.
      rewrite nth_error_app2 in Hp by exact E0.
      destruct (p - length (st_syms st)) as [|m]; [|destruct m; discriminate].
      cbn [nth_error] in Hp. injection Hp as <-. cbn [s_kind] in K. congruence.
    + cbn [sym_update st_syms] in Hp. apply nth_error_None in E0.
      assert (p < length (list_upd (st_syms st) p0 (set_kind s0 k))) by (apply nth_error_Some; congruence).
      rewrite list_upd_length in *. lia.
    + cbn [sym_make_unknown_array st_syms] in Hp. rewrite nth_error_map, E0 in Hp. discriminate.
    + cbn [sym_update st_syms] in Hp. apply nth_error_None in E0.
      assert (p < length (list_upd (st_syms st) p0 (set_defined (set_val s0 v) d)))
        by (apply nth_error_Some; congruence).
      rewrite list_upd_length in *. lia.
    + cbn [clear_symbol_table_values st_syms] in Hp. rewrite nth_error_map, E0 in Hp. discriminate.
Qed.

Lemma table_builtin_syms st : table st -> builtin_syms st.
Proof.
  intros H. refine (changes_inv builtin_syms change_builtin_syms _ _ H _). intros p s Hp _. exact Hp.
Qed.

Lemma builtin_sym_name st p s :
  table st -> nth_error (st_syms st) p = Some s -> s_kind s = KBuiltin -> builtin_name (s_name s).
Proof.
  intros H Hp K. pose proof (table_builtin_syms _ H p s Hp K) as Hi.
  destruct init_names as [HN _]. pose proof (map_nth_error s_name _ _ Hi) as H1.
  rewrite HN, nth_error_map in H1. destruct (nth_error builtins p) as [b|] eqn:E; [|discriminate].
  cbn in H1. injection H1 as H1. exists b. split; [eapply nth_error_In, E|]. unfold same_name. congruence.
Qed.

(* a built-in name always denotes its built-in symbol *)
Lemma builtin_denoted st b p paren :
  table st -> nth_error builtins p = Some b ->
  exists s, nth_error (st_syms st) p = Some s /\ s_kind s = KBuiltin /\ s_name s = bi_name b /\
            s_type s = bi_type b /\ s_defined s = true /\ s_val s = VBuiltin (bi_args b) (bi_op b) /\
            (forall name, same_name (bi_name b) name -> denotes (st_syms st) name paren p).
Proof.
  intros H Hb.
  assert (HB : exists s, nth_error (st_syms (init_builtins new_symbol_table)) p = Some s /\
            s_kind s = KBuiltin /\ s_name s = bi_name b /\
            s_type s = bi_type b /\ s_defined s = true /\ s_val s = VBuiltin (bi_args b) (bi_op b)).
  { assert (L : p < 26) by (change 26 with (length builtins); apply nth_error_Some; congruence).
    do 26 (destruct p as [|p]; [cbn [nth_error builtins] in Hb; injection Hb as <-;
      eexists; split; [vm_compute; reflexivity|]; repeat split; reflexivity|]). lia. }
  destruct HB as (s & Hs & K & E1 & E2 & E3 & E4).
  destruct (changes_evolves _ _ H p s Hs) as (s' & Hs' & (_ & _ & _ & _ & _ & Eq)).
  rewrite (Eq K) in Hs'. exists s.
  split; [exact Hs'|]. split; [exact K|]. split; [exact E1|]. split; [exact E2|]. split; [exact E3|].
  split; [exact E4|]. intros name Hn. exists s. split; [exact Hs'|]. split; [rewrite E1; exact Hn|].
  rewrite K. exact I.
Qed.

(* ---------- C11 ---------- *)

Lemma lookup_iff st name paren p : table st ->
  (sym_lookup st name paren = Some p <-> denotes (st_syms st) name paren p).
Proof.
  intros H. destruct (table_good _ H) as (W & U & _).
  pose proof (lookup_spec st name paren W) as HS. split; intros E.
  - rewrite E in HS. apply HS.
  - destruct (sym_lookup st name paren) as [q|].
    + f_equal. apply (U name paren); [apply HS|exact E].
    + exfalso. exact (HS _ E).
Qed.

Lemma use_denotes st name paren k t : table st -> can_mean paren k ->
  denotes (st_syms (fst (use_name st name paren k t))) name paren (snd (use_name st name paren k t)).
Proof.
  intros H Hk. unfold use_name. destruct (sym_lookup st name paren) as [p|] eqn:E; cbn [fst snd].
  - apply lookup_iff in E; assumption.
  - unfold sym_insert. cbn [fst snd st_syms].
    eexists. rewrite nth_error_app2, Nat.sub_diag by lia. split; [reflexivity|].
    split; [reflexivity|exact Hk].
Qed.

Lemma denotes_changes st st' name paren p :
  changes st st' -> denotes (st_syms st) name paren p -> denotes (st_syms st') name paren p.
Proof.
  intros C (s & Hs & Hn & Hk). destruct (changes_evolves _ _ C p s Hs) as (s' & Hs' & Ev).
  destruct Ev as (E1 & _ & _ & _ & [_ Us] & _). exists s'. split; [exact Hs'|].
  split; [rewrite E1; exact Hn|]. apply Us, Hk.
Qed.

Lemma two_uses st n1 pa1 k1 t1 st1 p1 st2 n2 pa2 k2 t2 st3 p2 :
  table st -> can_mean pa1 k1 -> k1 <> KBuiltin -> can_mean pa2 k2 -> k2 <> KBuiltin ->
  use_name st n1 pa1 k1 t1 = (st1, p1) -> changes st1 st2 ->
  use_name st2 n2 pa2 k2 t2 = (st3, p2) ->
  (p1 = p2 <-> same_name n1 n2 /\ (pa1 = pa2 \/ builtin_name n1)).
Proof.
  intros T H1 B1 H2 B2 U1 C U2.
  assert (T1 : table st1).
  { change st1 with (fst (st1, p1)). rewrite <- U1. eapply Chs_step; [exact T|]. apply Ch_use; assumption. }
  assert (T2 : table st2) by (eapply changes_trans; eassumption).
  assert (C3 : change st2 st3) by (change st3 with (fst (st3, p2)); rewrite <- U2; apply Ch_use; assumption).
  assert (T3 : table st3) by (eapply Chs_step; eassumption).
  pose proof (use_denotes st n1 pa1 k1 t1 T H1) as D1. rewrite U1 in D1. cbn [fst snd] in D1.
  apply (denotes_changes st1 st3) in D1.
  2:{ eapply Chs_step; eassumption. }
  pose proof (use_denotes st2 n2 pa2 k2 t2 T2 H2) as D2. rewrite U2 in D2. cbn [fst snd] in D2.
  destruct (table_good _ T3) as (_ & U & _). split.
  - intros <-. destruct D1 as (s & Hs & N1 & K1). destruct D2 as (s' & Hs' & N2 & K2).
    assert (s' = s) by congruence. subst s'.
    split; [eapply same_name_trans; [apply same_name_sym, N1|exact N2]|].
    destruct (Bool.bool_dec pa1 pa2) as [|N]; [left; assumption|right].
    assert (K : s_kind s = KBuiltin) by (destruct (s_kind s), pa1, pa2; cbn in *; congruence).
    destruct (builtin_sym_name _ _ _ T3 Hs K) as (b & Hb & Hn). exists b. split; [exact Hb|].
    eapply same_name_trans; eassumption.
  - intros [N [<-|(b & Hb & Hn)]].
    + apply (U n1 pa1); [exact D1|]. destruct D2 as (s & Hs & N2 & K2). exists s.
      split; [exact Hs|]. split; [|exact K2]. eapply same_name_trans; [exact N2|]. apply same_name_sym, N.
    + destruct (In_nth_error _ _ Hb) as (q & Hq).
      destruct (builtin_denoted st3 b q pa1 T3 Hq) as (s1 & _ & _ & _ & _ & _ & _ & F1).
      destruct (builtin_denoted st3 b q pa2 T3 Hq) as (s2 & _ & _ & _ & _ & _ & _ & F2).
      rewrite (U n1 pa1 p1 q D1 (F1 _ Hn)). symmetry.
      apply (U n2 pa2 p2 q D2), F2. eapply same_name_trans; eassumption.
Qed.

(* the identifier stored in the code is the position, up to 65536 symbols *)
Lemma id_position st p s : table st -> length (st_syms st) <= N.to_nat 65536 ->
  nth_error (st_syms st) p = Some s -> symbol_at st (s_id s) = Some s.
Proof.
  intros T L Hs. destruct (table_good _ T) as (_ & _ & _ & I). unfold symbol_at.
  rewrite (I p s Hs). assert (p < length (st_syms st)) by (apply nth_error_Some; congruence).
  unfold u16. rewrite N.mod_small by lia. rewrite Nat2N.id. exact Hs.
Qed.

(* ---------- C12 ---------- *)

(* undefined symbols hold no value; the value fits kind and type *)
Definition val_fits (s : symbol) : Prop :=
  match s_kind s, s_type s, s_val s with
  | KVariable, TNum, (VZero | VNum _) => True
  | KVariable, TStr, (VZero | VStr _) => True
  | KArray, TNum, (VZero | VNumArr _) => True
  | KArray, TStr, (VZero | VStrArr _) => True
  | KDef, _, (VZero | VDef _) => True
  | KUnknown, _, VZero => True
  | KBuiltin, _, VBuiltin _ _ => s_defined s = true
  | _, _, _ => False
  end.

Lemma clear_view st p s : nth_error (st_syms st) p = Some s ->
  exists s', nth_error (st_syms (clear_symbol_table_values st)) p = Some s' /\
    s_name s' = s_name s /\ s_id s' = s_id s /\ s_kind s' = s_kind s /\ s_type s' = s_type s /\
    seen s' = fresh_view (s_kind s) (s_type s) /\
    (s_kind s <> KBuiltin -> s_defined s' = false) /\
    (s_kind s = KBuiltin -> s' = s).
Proof.
  intros Hp. eexists. split; [cbn [clear_symbol_table_values st_syms]; apply map_nth_error, Hp|].
  destruct (s_defined s) eqn:D.
  - destruct (undefine_value_same s) as (H1 & H2 & H3 & H4 & H5).
    split; [exact H3|]. split; [exact H1|]. split; [exact H4|]. split; [exact H5|]. split; [|split].
    + unfold seen. rewrite H4, H5. unfold undefine_value.
      destruct (s_kind s), (s_type s); cbn; rewrite ?D; reflexivity.
    + intros K. unfold undefine_value. destruct (s_kind s); try congruence; reflexivity.
    + intros K. unfold undefine_value. rewrite K. reflexivity.
  - split; [reflexivity|]. split; [reflexivity|]. split; [reflexivity|]. split; [reflexivity|].
    split; [|split; [auto|reflexivity]].
    unfold seen. rewrite D. destruct (s_kind s), (s_type s); reflexivity.
Qed.

Lemma clear_length st : length (st_syms (clear_symbol_table_values st)) = length (st_syms st).
Proof. apply map_length. Qed.

Lemma clear_lookup st name paren :
  sym_lookup (clear_symbol_table_values st) name paren = sym_lookup st name paren.
Proof.
  unfold sym_lookup. cbn [clear_symbol_table_values st_hash st_syms].
  generalize (nth (sym_bucket name) (st_hash st) []). intros l.
  induction l as [|p l IH]; [reflexivity|]. cbn [find]. rewrite IH.
  replace (sym_matches (map (fun s => if s_defined s then undefine_value s else s) (st_syms st)) name paren p)
    with (sym_matches (st_syms st) name paren p); [reflexivity|].
  unfold sym_matches. rewrite nth_error_map. destruct (nth_error (st_syms st) p) as [s|]; [|reflexivity].
  cbn [option_map]. destruct (s_defined s); [|reflexivity].
  destruct (undefine_value_same s) as (_ & _ & H3 & H4 & _). rewrite H3, H4. reflexivity.
Qed.

(* ---------- identifiers wrap around ---------- *)

Lemma same_name_length a b : same_name a b -> length a = length b.
Proof. unfold same_name. intros H. rewrite <- (map_length to_upper a), H. apply map_length. Qed.

Lemma grow st : table st -> exists st', table st' /\ length (st_syms st') = S (length (st_syms st)).
Proof.
  intros T.
  set (m := fold_right (fun s a => length (s_name s) + a) 0 (st_syms st)).
  set (name := repeat "A"%char (S m)).
  assert (Hlong : forall s, In s (st_syms st) -> length (s_name s) <= m).
  { unfold m. clear. induction (st_syms st) as [|x l IH]; cbn [fold_right In]; [tauto|].
    intros s [->|H]; [lia|]. specialize (IH s H). lia. }
  assert (E : sym_lookup st name false = None).
  { destruct (sym_lookup st name false) as [p|] eqn:E; [|reflexivity]. exfalso.
    apply lookup_iff in E; [|exact T]. destruct E as (s & Hs & Hn & _).
    apply same_name_length in Hn. apply nth_error_In in Hs. apply Hlong in Hs.
    unfold name in Hn. rewrite repeat_length in Hn. lia. }
  exists (fst (use_name st name false KVariable TNum)). split.
  - eapply Chs_step; [exact T|]. apply Ch_use; [reflexivity|discriminate].
  - unfold use_name. rewrite E. cbn [sym_insert fst st_syms]. rewrite app_length. cbn [length]. lia.
Qed.

Lemma grow_many n : exists st, table st /\ length (st_syms st) = 26 + n.
Proof.
  induction n as [|n (st & T & L)].
  - exists (init_builtins new_symbol_table). split; [apply Chs_refl|]. vm_compute. reflexivity.
  - destruct (grow st T) as (st' & T' & L'). exists st'. split; [exact T'|lia].
Qed.

Lemma ids_wrap : exists st p s s', table st /\ nth_error (st_syms st) p = Some s /\
  symbol_at st (s_id s) = Some s' /\ ~ same_name (s_name s) (s_name s') /\
  s_name s' = lit "ABS".
Proof.
  destruct (grow_many (N.to_nat 65536)) as (st & T & L).
  destruct (nth_error (st_syms st) (N.to_nat 65536)) as [s|] eqn:E.
  2:{ apply nth_error_None in E. lia. }
  destruct (builtin_denoted st (mkBuiltin (lit "ABS") TNum [ArgNum] BcodeModel.I_ABS) 0 true T eq_refl)
    as (s0 & H0 & K0 & N0 & _ & _ & _ & F0).
  assert (Hid : s_id s = 0%N).
  { destruct (table_good _ T) as (_ & _ & _ & I). rewrite (I _ _ E). rewrite N2Nat.id. reflexivity. }
  exists st, (N.to_nat 65536), s, s0. split; [exact T|]. split; [exact E|]. split.
  { unfold symbol_at. rewrite Hid. exact H0. }
  split; [|exact N0]. intros Hn. rewrite N0 in Hn.
  destruct (table_good _ T) as (_ & U & _).
  assert (N.to_nat 65536 = 0); [|lia].
  destruct (s_kind s) eqn:K.
  all: first [ apply (U (lit "ABS") false); [exists s; rewrite K; split; [exact E|]; split; [exact Hn|reflexivity || exact I]|]
             | apply (U (lit "ABS") true); [exists s; rewrite K; split; [exact E|]; split; [exact Hn|reflexivity || exact I]|] ].
  all: exists s0; rewrite K0; split; [exact H0|]; split; [rewrite N0; reflexivity|exact I].
Qed.
