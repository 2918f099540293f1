From Coq Require Import Lia ZifyBool ZifyNat ZifyN.
From Verif Require Import Base BaseLemmas LineMapModel LineMapSpec.

Definition lm_ok (m : linemap) (hist : list (N * N)) : Prop :=
  length (lm_hash m) = N.to_nat LINE_HASH_SIZE /\
  lm_count m = N.of_nat (length hist) /\ (lm_count m <= lm_allocated m)%N /\
  forall k, lookup_line_mapping m k = latest_entry hist k.

Lemma line_bucket_lt k : line_bucket k < N.to_nat LINE_HASH_SIZE.
Proof.
  unfold line_bucket. assert (k mod LINE_HASH_SIZE < LINE_HASH_SIZE)%N by (apply N.mod_lt; discriminate).
  lia.
Qed.

Lemma latest_entry_app h k v q :
  latest_entry (h ++ [(k, v)]) q = if (q =? k)%N then Some v else latest_entry h q.
Proof.
  induction h as [|[k' v'] h IH]; cbn.
  - reflexivity.
  - rewrite IH. destruct (q =? k)%N; reflexivity.
Qed.

Lemma new_line_map_ok cap : lm_ok (new_line_map cap) [].
Proof.
  unfold lm_ok, new_line_map. cbn [lm_hash lm_allocated lm_count].
  split; [apply repeat_length|]. split; [reflexivity|]. split; [lia|].
  - intros k. unfold lookup_line_mapping. cbn [lm_hash].
    rewrite nth_repeat. reflexivity.
Qed.

Lemma insert_ok m hist k v m' :
  lm_ok m hist -> insert_line_mapping m k v = Some m' ->
  lm_ok m' (hist ++ [(k, v)]) /\ lm_allocated m' = lm_allocated m /\ (lm_count m < lm_allocated m)%N.
Proof.
  intros (Hlen & Hc & Hle & Hl). unfold insert_line_mapping.
  destruct (lm_count m =? lm_allocated m)%N eqn:E; [discriminate|]. intros [= <-].
  unfold lm_ok. cbn [lm_hash lm_allocated lm_count]. split; [|split; [reflexivity|lia]].
  rewrite list_upd_length, app_length. cbn [length]. repeat split; try lia.
  intros q. unfold lookup_line_mapping. cbn [lm_hash]. rewrite latest_entry_app.
  destruct (Nat.eq_dec (line_bucket k) (line_bucket q)) as [Eb|Eb].
  - rewrite <- Eb, nth_list_upd_eq by (rewrite Hlen; apply line_bucket_lt).
    cbn [chain_lookup]. rewrite N.eqb_sym. destruct (q =? k)%N; [reflexivity|].
    rewrite Eb. apply Hl.
  - rewrite nth_list_upd_neq by exact Eb.
    destruct (q =? k)%N eqn:Ek; [|apply Hl].
    apply N.eqb_eq in Ek. subst. contradiction.
Qed.

Lemma insert_refused m hist k v :
  lm_ok m hist ->
  insert_line_mapping m k v = None <-> N.of_nat (length hist) = lm_allocated m.
Proof.
  intros (Hlen & Hc & Hle & Hl). unfold insert_line_mapping.
  destruct (lm_count m =? lm_allocated m)%N eqn:E; split; intros Hx; try discriminate; try reflexivity; lia.
Qed.

Lemma insert_all_gen kvs : forall m hist,
  lm_ok m hist ->
  let m' := fold_left insert_try kvs m in
  lm_allocated m' = lm_allocated m /\
  lm_ok m' (hist ++ firstn (N.to_nat (lm_allocated m) - length hist) kvs).
Proof.
  induction kvs as [|[k v] kvs IH]; intros m hist Hok; cbn [fold_left].
  - rewrite firstn_nil, app_nil_r. auto.
  - unfold insert_try at 2 4. cbn [fst snd].
    destruct (insert_line_mapping m k v) as [m1|] eqn:E.
    + destruct (insert_ok _ _ _ _ _ Hok E) as (Hok1 & Ha & Hlt).
      destruct (IH _ _ Hok1) as (H1 & H2). rewrite Ha in *. split; [exact H1|].
      rewrite app_length in H2. cbn [length] in H2.
      destruct Hok as (_ & Hc & _).
      destruct (N.to_nat (lm_allocated m) - length hist) as [|n] eqn:En; [lia|].
      cbn [firstn]. rewrite <- app_assoc in H2. cbn [app] in H2.
      replace (N.to_nat (lm_allocated m) - (length hist + 1)) with n in H2 by lia. exact H2.
    + pose proof (proj1 (insert_refused _ _ k v Hok) E) as Hfull.
      destruct (IH _ _ Hok) as (H1 & H2). split; [exact H1|].
      replace (N.to_nat (lm_allocated m) - length hist) with 0 in * by lia. exact H2.
Qed.

Lemma line_map_latest cap kvs k :
  lookup_line_mapping (insert_all cap kvs) k = latest_entry (firstn (N.to_nat cap) kvs) k.
Proof.
  destruct (insert_all_gen kvs _ _ (new_line_map_ok cap)) as (_ & H).
  cbn [app length] in H. rewrite Nat.sub_0_r in H. apply H.
Qed.

Lemma line_map_refuses cap kvs k v :
  insert_line_mapping (insert_all cap kvs) k v = None <-> (cap <= N.of_nat (length kvs))%N.
Proof.
  destruct (insert_all_gen kvs _ _ (new_line_map_ok cap)) as (Ha & H).
  cbn [app length] in H. rewrite Nat.sub_0_r in H.
  unfold insert_all. rewrite (insert_refused _ _ k v H), Ha, firstn_length.
  change (lm_allocated (new_line_map cap)) with cap. lia.
Qed.
