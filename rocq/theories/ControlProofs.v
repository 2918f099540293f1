(* Stack limits (C21) and calls (C13). *)
From Coq Require Import Lia ZifyBool ZifyNat ZifyN.
From Verif Require Import Base BaseLemmas Num NumSpec NumLemmas LineMapModel BcodeModel SymbolModel VmModel
  VmLemmas VmSpec.

(* ---------- execute ---------- *)

Definition finish (x : res bool * vm) : res unit * vm :=
  match x with
  | (Ok true, w) => (Ok tt, set_pc (S (cs_pc (v_cs w))) w)
  | (Ok false, w) => (Ok tt, w)
  | (Fail e, w) => (Fail e, w)
  | (Crash, w) => (Crash, w)
  | (NoFuel, w) => (NoFuel, w)
  end.

Lemma execute_eq E v i : current v = Some i -> execute E v = finish (exec_instr E i v).
Proof.
  unfold current, execute, bind, get_bcode, get, finish. destruct (cur_bcode v) as [bc|]; [|discriminate].
  intros H. unfold some_or_crash. rewrite H. cbn [ret]. unfold ret.
  destruct (exec_instr E i v) as [[[]|e| |] w]; reflexivity.
Qed.

Lemma execute_none E v : current v = None -> execute E v = (Crash, v).
Proof.
  unfold current, execute, bind, get_bcode, get. destruct (cur_bcode v) as [bc|]; [|reflexivity].
  intros H. unfold some_or_crash. rewrite H. reflexivity.
Qed.

Lemma finish_field {T} (f : vm -> T) x :
  (forall n w, f (set_pc n w) = f w) -> f (snd (finish x)) = f (snd x).
Proof. intros H. destruct x as [[[]|e| |] w]; cbn; auto. Qed.

Lemma execute_keeps {T} (f : vm -> T) E v i :
  current v = Some i -> (forall n w, f (set_pc n w) = f w) ->
  keeps f (exec_instr E i) -> f (snd (execute E v)) = f v.
Proof. intros H Hp K. rewrite (execute_eq E v i H), finish_field by exact Hp. apply K. Qed.

Lemma execute_inv (P : vm -> Prop) E v :
  (forall n w, P w -> P (set_pc n w)) -> (forall i, inv P (exec_instr E i)) ->
  P v -> P (snd (execute E v)).
Proof.
  intros Hp Hi Hv. destruct (current v) as [i|] eqn:C.
  - rewrite (execute_eq E v i C). specialize (Hi i v Hv).
    destruct (exec_instr E i v) as [[[]|e| |] w]; cbn [finish snd] in *; auto.
  - rewrite (execute_none E v C). exact Hv.
Qed.

Lemma run_loop_inv (P : vm -> Prop) E :
  (forall v, P v -> P (snd (execute E v))) ->
  forall fuel brk v, P v -> P (snd (run_loop E fuel brk v)).
Proof.
  intros H fuel. induction fuel as [|f IH]; intros brk v Hv; cbn [run_loop];
    (destruct (cur_bcode v) as [bc|]; [|exact Hv]); destruct (_ && _); try exact Hv.
  specialize (H v Hv). destruct (execute E v) as [[u|e| |] w]; cbn [snd] in *; auto.
Qed.

Lemma run_inv (P : vm -> Prop) E :
  (forall v, P v -> P (snd (execute E v))) ->
  (forall b v, P v -> P (set_stopped b v)) ->
  (forall c v, P v -> P (set_stopcs c v)) ->
  (forall o c v, P v -> P (set_outcol o c v)) ->
  forall fuel brk, inv P (run E fuel brk).
Proof.
  intros He Hs Hc Ho fuel brk v Hv. unfold run. destruct (cs_code (v_cs v)); [|exact Hv].
  pose proof (run_loop_inv P E He fuel brk _ (Hs false v Hv)) as HL.
  destruct (run_loop E fuel brk (set_stopped false v)) as [[r b] w]. cbn [snd] in HL.
  assert (HR : P (snd (run_report b w))).
  { unfold run_report. destruct (interrupted b); [apply Ho, HL|]. destruct (v_stopped w); [|exact HL].
    destruct (cs_code (v_cs w)); [apply Ho, HL|exact HL]. }
  assert (HF : forall x : vm, P x -> P (run_stop_state b x)).
  { intros x Hx. unfold run_stop_state. destruct (cs_code (v_cs x)) as [[]|]; auto.
    destruct (_ || _); auto. }
  destruct r; try exact HL; destruct (run_report b w) as [[u'|e'| |] w']; cbn [snd] in *; auto.
Qed.

(* ---------- C21 ---------- *)

Lemma remove_nth_length {A} (l : list A) n : length (remove_nth l n) <= length l.
Proof.
  revert n; induction l as [|a l IH]; intros [|n]; cbn [remove_nth length]; try lia.
  specialize (IH n). lia.
Qed.
Lemma remove_nth_lt {A} (l : list A) n f : nth_error l n = Some f -> S (length (remove_nth l n)) = length l.
Proof.
  revert n; induction l as [|a l IH]; intros [|n] H; cbn [remove_nth length nth_error] in *; try discriminate; [reflexivity|].
  rewrite (IH n H). reflexivity.
Qed.

Ltac lim := unfold within_limits in *; cbn in *; lia.

Lemma lim_set_pc n v : within_limits v -> within_limits (set_pc n v).
Proof. exact (fun H => H). Qed.

Lemma lim_push x : inv within_limits (push x).
Proof.
  intros v H. unfold push. change MAX_NUM_STACK with 16.
  destruct (Nat.leb 16 (length (v_stack v))) eqn:E; [exact H|]. apply Nat.leb_gt in E. lim.
Qed.
Lemma lim_pop : inv within_limits pop.
Proof. intros v H. unfold pop. destruct (v_stack v) as [|x r] eqn:E; [exact H|]. unfold within_limits in *. rewrite E in H. lim. Qed.
Lemma lim_push_str x : inv within_limits (push_str x).
Proof.
  intros v H. unfold push_str. change MAX_STR_STACK with 8.
  destruct (Nat.leb 8 (length (v_sstack v))) eqn:E; [exact H|]. apply Nat.leb_gt in E. lim.
Qed.
Lemma lim_pop_str : inv within_limits pop_str.
Proof. intros v H. unfold pop_str. destruct (v_sstack v) as [|x r] eqn:E; [exact H|]. unfold within_limits in *. rewrite E in H. lim. Qed.
Lemma lim_run_error {A} e : inv within_limits (@run_error A e).
Proof. intros v H. exact H. Qed.
Lemma lim_push_return n : inv within_limits (push_return n).
Proof.
  intros v H. unfold push_return. change MAX_RETURN_STACK with 8.
  destruct (Nat.leb 8 (length (v_ret v))) eqn:E; [exact H|]. apply Nat.leb_gt in E. lim.
Qed.
Lemma lim_pop_return : inv within_limits pop_return.
Proof. intros v H. unfold pop_return. destruct (v_ret v) as [|x r] eqn:E; [exact H|]. unfold within_limits in *. rewrite E in H. lim. Qed.

(* actions that do not touch the stacks *)
Definition stacks (v : vm) := (v_stack v, v_sstack v, v_ret v, v_for v).
Lemma lim_keeps {A} (m : M A) : keeps stacks m -> inv within_limits m.
Proof.
  intros K v H. specialize (K v). unfold stacks, within_limits in *.
  injection K as -> -> -> ->. exact H.
Qed.

Lemma lim_indexes n name : inv within_limits (pop_indexes_loop n name).
Proof.
  induction n as [|n IH]; cbn [pop_indexes_loop]; [apply inv_ret|].
  apply inv_bind; [|intros i; apply inv_bind; [exact IH|intros; apply inv_ret]].
  unfold pop_index. apply inv_bind; [apply lim_pop|]. intros x.
  destruct (_ || _); [apply lim_run_error|]. destruct (fgtb _ _); [apply lim_run_error|].
  destruct (ftoZ x); [apply inv_ret|apply inv_crash].
Qed.

Ltac lim_step :=
  match goal with
  | |- inv _ (bind _ _) => apply inv_bind; [|intros ?]
  | |- inv _ (ret _) => apply inv_ret
  | |- inv _ crash => apply inv_crash
  | |- inv _ get => apply inv_get
  | |- inv _ (assert _) => apply inv_assert
  | |- inv _ (some_or_crash _) => apply inv_some
  | |- inv _ (push _) => apply lim_push
  | |- inv _ pop => apply lim_pop
  | |- inv _ (push_str _) => apply lim_push_str
  | |- inv _ pop_str => apply lim_pop_str
  | |- inv _ (push_return _) => apply lim_push_return
  | |- inv _ pop_return => apply lim_pop_return
  | |- inv _ (run_error _) => apply lim_run_error
  | |- inv _ (pop_indexes_loop _ _) => apply lim_indexes
  | |- inv _ (modify _) => apply inv_modify; intros ? ?;
      first [assumption | repeat match goal with |- context [match ?x with _ => _ end] => destruct x end; assumption]
  | |- inv _ (if ?b then _ else _) => destruct b
  | |- inv _ (match ?x with _ => _ end) => destruct x
  | |- inv _ _ => solve [apply lim_keeps; repeat keeps_more]
  | |- inv _ ?m => let h := lazymatch m with
                   | ?a ?b ?c ?d => a | ?a ?b ?c => a | ?a ?b => a | ?a => a end in unfold h
  end; cbv beta zeta.

Lemma lim_next si : inv within_limits (next si).
Proof.
  unfold next. repeat lim_step. apply inv_modify. intros v H. unfold within_limits in *. cbn.
  pose proof (remove_nth_length (v_for v) si). lia.
Qed.

Lemma inv_get_bind {A} (P : vm -> Prop) (k : vm -> M A) :
  (forall v, P v -> P (snd (k v v))) -> inv P (bind get k).
Proof. intros H v Hv. apply H, Hv. Qed.
Lemma at_bind {A B} (P : vm -> Prop) (m : M A) (k : A -> M B) v :
  P (snd (m v)) -> (forall a, inv P (k a)) -> P (snd (bind m k v)).
Proof.
  intros Hm Hk. unfold bind. destruct (m v) as [[a|e| |] w]; cbn [snd] in *; auto. apply Hk, Hm.
Qed.

Lemma lim_exec_for id : inv within_limits (exec_for id).
Proof.
  unfold exec_for. apply inv_bind; [apply lim_keeps; repeat keeps_more|intros _].
  apply inv_bind; [apply lim_keeps; repeat keeps_more|intros s].
  apply inv_bind; [apply inv_assert|intros _].
  apply inv_get_bind. intros v H. apply at_bind.
  - destruct (find_for (v_for v) id) as [si|].
    + destruct (nth_error (v_for v) si) as [f|] eqn:E; cbn [some_or_crash]; [|exact H].
      apply remove_nth_lt in E. unfold within_limits in *. cbn. rewrite app_length. cbn [length]. lia.
    + change MAX_FOR with 8. destruct (Nat.leb 8 (length (v_for v))) eqn:E.
      * apply at_bind; [|intros; apply lim_run_error].
        apply (lim_keeps (dump_for_stack (lit "overflow"))); [repeat keeps_more|exact H].
      * apply Nat.leb_gt in E. unfold within_limits in *. cbn. rewrite app_length. cbn [length]. lia.
  - intros _. repeat lim_step; apply inv_modify; intros w Hw; unfold within_limits in *; cbn;
      rewrite list_upd_length; lia.
Qed.

Lemma lim_exec E i : inv within_limits (exec_instr E i).
Proof.
  destruct i; cbn [exec_instr];
    first [ solve [apply lim_keeps; repeat keeps_more]
          | solve [unfold adv; apply inv_bind; [apply lim_exec_for|intros; apply inv_ret]]
          | idtac ].
  all: repeat first [apply lim_next | lim_step].
  - intros v H. destruct (rnd_loop _ _ _ _) as [[x k]|]; [|exact H].
    assert (K : inv within_limits (adv (push x))) by (unfold adv; repeat lim_step). apply K, H.
  - intros v H. destruct (e_hms E (v_clock v)) as [[h m] s].
    match goal with |- within_limits (snd (adv ?m _)) =>
      assert (K : inv within_limits (adv m)) by (unfold adv; repeat lim_step) end.
    apply K, H.
Qed.

Lemma lim_execute E v : within_limits v -> within_limits (snd (execute E v)).
Proof. apply execute_inv; [intros n w H; exact H|apply lim_exec]. Qed.

Lemma lim_runs E v l v' : runs E v l v' -> within_limits v -> within_limits v'.
Proof.
  induction 1 as [v|v v1 l v' H R IH]; intros L; [exact L|]. apply IH.
  pose proof (lim_execute E v L) as H1. rewrite H in H1. exact H1.
Qed.

Lemma lim_run E fuel brk v : within_limits v -> within_limits (snd (run E fuel brk v)).
Proof.
  apply (run_inv within_limits E); try (intros; assumption). apply lim_execute.
Qed.

(* the error of a full stack *)
Lemma push_full E v x : current v = Some (I_PUSH_NUM x) -> length (v_stack v) = 16 ->
  fst (execute E v) = Fail RE_num_overflow /\ v_stack (snd (execute E v)) = v_stack v.
Proof.
  intros C L. rewrite (execute_eq E v _ C). cbn [exec_instr]. unfold adv, bind, push.
  rewrite L. split; reflexivity.
Qed.
Lemma push_str_full E v x : current v = Some (I_PUSH_STR x) -> length (v_sstack v) = 8 ->
  fst (execute E v) = Fail RE_str_overflow /\ v_sstack (snd (execute E v)) = v_sstack v.
Proof.
  intros C L. rewrite (execute_eq E v _ C). cbn [exec_instr]. unfold adv, bind, push_str.
  rewrite L. split; reflexivity.
Qed.

(* ---------- C13 ---------- *)

Lemma go_to_keeps_ret n : keeps v_ret (go_to_basic_line n).
Proof. repeat keeps_more. Qed.

Lemma set_pc_ret n w : v_ret (set_pc n w) = v_ret w.
Proof. reflexivity. Qed.

(* GOSUB *)
Lemma gosub_step E v n : current v = Some (I_GOSUB n) ->
  execute E v =
    (if Nat.leb 8 (length (v_ret v)) then run_error RE_gosub_nested v
     else go_to_basic_line n (set_ret (place_after v 1 :: v_ret v) v)).
Proof.
  intros C. rewrite (execute_eq E v _ C). cbn [exec_instr]. unfold bind, get, jump, bind, push_return.
  change MAX_RETURN_STACK with 8. destruct (Nat.leb 8 (length (v_ret v))); [reflexivity|].
  unfold place_after. destruct (go_to_basic_line n _) as [[u|e| |] w]; cbn [finish ret]; unfold ret; cbn [finish];
    try reflexivity. destruct u. reflexivity.
Qed.

Lemma return_step E v : current v = Some I_RETURN ->
  execute E v = match v_ret v with
                | [] => run_error RE_return_without_gosub v
                | c :: r => (Ok tt, set_cs c (set_ret r v))
                end.
Proof.
  intros C. rewrite (execute_eq E v _ C). cbn [exec_instr]. unfold jump, bind, pop_return.
  destruct (v_ret v); reflexivity.
Qed.

(* ON..GOTO and ON..GOSUB up to the jump *)
Lemma on_step E v (g : bool) k x st : current v = Some (if g then I_ON_GOSUB k else I_ON_GOTO k) ->
  v_stack v = x :: st ->
  execute E v =
    (if feqb (ffloor x) x then
       if selects x k then
         match ftoZ x with
         | None => (Crash, set_stack st v)
         | Some z =>
             match match cur_bcode v with Some bc => nth_error (bc_inst bc) (cs_pc (v_cs v) + Z.to_nat z) | None => None end with
             | Some (I_ON_LINE n) =>
                 if g then
                   if Nat.leb 8 (length (v_ret v)) then run_error RE_gosub_nested (set_stack st v)
                   else go_to_basic_line n (set_ret (place_after v (k + 1) :: v_ret v) (set_stack st v))
                 else go_to_basic_line n (set_stack st v)
             | _ => run_error RE_on_line_expected (set_stack st v)
             end
         end
       else (Ok tt, set_pc (cs_pc (v_cs v) + (k + 1)) (set_stack st v))
     else run_error (RE_on_invalid x) (set_stack st v)).
Proof.
  intros C S. assert (B : exists bc, cur_bcode v = Some bc).
  { unfold current in C. destruct (cur_bcode v) as [bc|]; [eauto|destruct g; discriminate C]. }
  destruct B as [bc B]. rewrite (execute_eq E v _ C).
  assert (X : exec_instr E (if g then I_ON_GOSUB k else I_ON_GOTO k) = jump (exec_on g k)) by (destruct g; reflexivity).
  rewrite X. unfold jump, exec_on, bind at 1 2. unfold pop. rewrite S.
  assert (F : fneb x (ffloor x) = negb (feqb (ffloor x) x)) by (unfold fneb; rewrite feqb_sym; reflexivity).
  rewrite F. destruct (feqb (ffloor x) x) eqn:EF; cbn [negb]; [|reflexivity].
  assert (N : x <> SpecFloat.S754_nan) by (apply feqb_nan in EF; tauto).
  assert (K : fofN (N.of_nat k) <> SpecFloat.S754_nan).
  { unfold fofN. apply fofZ_not_nan. }
  unfold bind at 1, get. cbn [v_cs set_stack].
  assert (Y : fltb x fone || fgtb x (fofN (N.of_nat k)) = negb (selects x k)).
  { unfold selects. rewrite EF, (fltb_fgeb x fone N) by discriminate. rewrite (fgtb_fleb x _ N K).
    cbn [andb]. destruct (fgeb x fone), (fleb x (fofN (N.of_nat k))); reflexivity. }
  rewrite Y. destruct (selects x k) eqn:ES; cbn [negb]; [|reflexivity].
  unfold bind at 1. destruct (ftoZ x) as [z|]; cbn [some_or_crash]; [|reflexivity].
  unfold ret at 1, bind at 1, get_bcode, cur_bcode. cbn [v_cs set_stack]. change (code_of (set_stack st v)) with (code_of v).
  unfold cur_bcode in B. rewrite B. 
  destruct (nth_error (bc_inst bc) _) as [[]|]; try reflexivity.
  destruct g.
  - unfold bind at 1, push_return. cbn [v_ret set_stack]. change MAX_RETURN_STACK with 8.
    destruct (Nat.leb 8 (length (v_ret v))); [reflexivity|].
    unfold place_after. cbn [v_cs set_stack]. rewrite <- Nat.add_assoc.
    destruct (go_to_basic_line _ _) as [[[]|e| |] w]; reflexivity.
  - unfold bind at 1, ret at 1. destruct (go_to_basic_line _ _) as [[[]|e| |] w]; reflexivity.
Qed.

Lemma run_error_ret {A} e v : v_ret (snd (@run_error A e v)) = v_ret v.
Proof. reflexivity. Qed.

Lemma on_empty E v (g : bool) k : current v = Some (if g then I_ON_GOSUB k else I_ON_GOTO k) ->
  v_stack v = [] -> execute E v = run_error RE_num_empty v.
Proof.
  intros C S. rewrite (execute_eq E v _ C).
  assert (X : exec_instr E (if g then I_ON_GOSUB k else I_ON_GOTO k) = jump (exec_on g k)) by (destruct g; reflexivity).
  rewrite X. unfold jump, exec_on, bind, pop. rewrite S. reflexivity.
Qed.

(* one step of any execution *)
Lemma ret_step E v v1 : execute E v = (Ok tt, v1) ->
  match event_of v with
  | Call b => v_ret v1 = b :: v_ret v /\ length (v_ret v) < 8
  | Back => match v_ret v with b :: r => v_cs v1 = b /\ v_ret v1 = r | [] => False end
  | Other => v_ret v1 = v_ret v
  end.
Proof.
  intros X. unfold event_of. destruct (current v) as [i|] eqn:C.
  2:{ rewrite (execute_none E v C) in X. discriminate X. }
  destruct (touches_ret i) eqn:T.
  - destruct i; try discriminate T; clear T.
    + rewrite (gosub_step E v _ C) in X. destruct (Nat.leb 8 _) eqn:L; [discriminate X|].
      apply Nat.leb_gt in L.
      match type of X with go_to_basic_line ?n ?w = _ => pose proof (go_to_keeps_ret n w) as K end.
      rewrite X in K. split; [exact K|exact L].
    + rewrite (return_step E v C) in X. destruct (v_ret v) as [|b r]; [discriminate X|].
      injection X as <-. split; reflexivity.
    + destruct (v_stack v) as [|x st] eqn:S.
      { rewrite (on_empty E v true count C S) in X. discriminate X. }
      rewrite (on_step E v true count x st C S) in X.
      destruct (feqb (ffloor x) x) eqn:F; [|discriminate X].
      destruct (selects x count).
      * destruct (ftoZ x); [|discriminate X].
        destruct (match cur_bcode v with Some bc => _ | None => _ end) as [[]|]; try discriminate X.
        destruct (Nat.leb 8 (length (v_ret v))) eqn:L; [discriminate X|]. apply Nat.leb_gt in L.
        match type of X with go_to_basic_line ?n ?w = _ => pose proof (go_to_keeps_ret n w) as K end.
        rewrite X in K. split; [exact K|exact L].
      * injection X as <-. reflexivity.
  - assert (K : v_ret (snd (execute E v)) = v_ret v).
    { apply (execute_keeps v_ret E v i C); [reflexivity|]. apply exec_keeps_ret, T. }
    rewrite X in K. destruct i; try discriminate T; exact K.
Qed.

Lemma pending_runs E v l v' : runs E v l v' -> v_ret v' = pending_from (v_ret v) (map event_of l).
Proof.
  induction 1 as [v|v v1 l v' X R IH]; [reflexivity|]. cbn [map pending_from].
  apply ret_step in X. rewrite IH. destruct (event_of v) as [b| |].
  - destruct X as [-> _]. reflexivity.
  - destruct (v_ret v); [contradiction|]. destruct X as [_ ->]. reflexivity.
  - rewrite X. reflexivity.
Qed.

Lemma pending_from_app p h h' : pending_from p (h ++ h') = pending_from (pending_from p h) h'.
Proof. revert p; induction h as [|[] h IH]; intros p; cbn [app pending_from]; auto. Qed.

Lemma pending_balanced h : balanced h -> forall p, pending_from p h = p.
Proof.
  induction 1 as [|h H IH|b h h' H IH H' IH']; intros p; [reflexivity|apply IH|].
  cbn [pending_from]. rewrite pending_from_app. cbn [pending_from]. rewrite IH. cbn [tl]. apply IH'.
Qed.

Lemma nesting E v back v1 l w : event_of v = Call back -> execute E v = (Ok tt, v1) ->
  runs E v1 l w -> balanced (map event_of l) -> current w = Some I_RETURN ->
  exists w', execute E w = (Ok tt, w') /\ v_cs w' = back /\ v_ret w' = v_ret v.
Proof.
  intros EV X R B C. apply ret_step in X. rewrite EV in X. destruct X as [X _].
  apply pending_runs in R. rewrite (pending_balanced _ B), X in R.
  rewrite (return_step E w C), R. eexists. split; [reflexivity|]. split; reflexivity.
Qed.

(* a run inside the 8 limit *)
Lemma gosub_full E v n : current v = Some (I_GOSUB n) -> length (v_ret v) = 8 ->
  fst (execute E v) = Fail RE_gosub_nested /\ v_ret (snd (execute E v)) = v_ret v /\ v_cs (snd (execute E v)) = v_cs v.
Proof. intros C L. rewrite (gosub_step E v n C), L. repeat split; reflexivity. Qed.

(* ---------- jumps ---------- *)

Lemma go_to_goes v n : goes_to v n (go_to_basic_line n v).
Proof.
  unfold goes_to, line_place, go_to_basic_line, bind, find_basic_line.
  destruct (c_index (v_stored v)) as [idx|]; [|split; reflexivity].
  destruct (lookup_line_mapping idx n); cbn [option_map]; [reflexivity|split; reflexivity].
Qed.

Lemma goto_step E v n : current v = Some (I_GOTO n) -> goes_to v n (execute E v).
Proof.
  intros C. rewrite (execute_eq E v _ C). cbn [exec_instr]. unfold jump, bind at 1.
  pose proof (go_to_goes v n) as H. destruct (go_to_basic_line n v) as [[[]|e| |] w]; exact H.
Qed.

(* ---------- C15 ---------- *)

Lemma fofN_spec n : (Z.of_N n < 2 ^ 53)%Z -> double (fofN n) /\ is_integer (fofN n) (Z.of_N n).
Proof. intros H. apply fofZ_spec. lia. Qed.

Lemma selects_integer x k z : double x -> is_integer x z -> (Z.of_nat k < 2 ^ 53)%Z ->
  selects x k = ((1 <=? z) && (z <=? Z.of_nat k))%Z.
Proof.
  intros V I K. unfold selects. rewrite (floor_integer x z V I). cbn [andb].
  destruct (fofZ_spec 1 ltac:(lia)) as [V1 I1].
  destruct (fofN_spec (N.of_nat k)) as [Vk Ik]; [lia|].
  unfold fgeb, fleb, SpecFloat.SFleb, fone. rewrite (compare_integers _ _ _ _ V1 V I1 I).
  rewrite (compare_integers _ _ _ _ V Vk I Ik). rewrite nat_N_Z.
  unfold Z.leb. destruct (1 ?= z)%Z, (z ?= Z.of_nat k)%Z; reflexivity.
Qed.

Lemma selects_infinite s k : (Z.of_nat k < 2 ^ 53)%Z -> selects (SpecFloat.S754_infinity s) k = false.
Proof.
  intros K. unfold selects. destruct (fofN_spec (N.of_nat k)) as [Vk Ik]; [lia|].
  destruct (fofN (N.of_nat k)); try discriminate Ik; destruct s; reflexivity.
Qed.

Lemma nth_on_list v ls bc i : cur_bcode v = Some bc ->
  firstn (length ls) (following v) = map I_ON_LINE ls -> i < length ls ->
  nth_error (bc_inst bc) (cs_pc (v_cs v) + S i) = option_map I_ON_LINE (nth_error ls i).
Proof.
  intros B F I. unfold following in F. rewrite B in F. rewrite <- nth_error_map, <- F.
  rewrite nth_error_firstn_lt by exact I. rewrite nth_error_skipn. f_equal. lia.
Qed.

Lemma current_bcode v i : current v = Some i -> exists bc, cur_bcode v = Some bc.
Proof. unfold current. destruct (cur_bcode v); [eauto|discriminate]. Qed.

Lemma on_selected E v (g : bool) ls x st z : on_list v g ls -> v_stack v = x :: st -> double x ->
  is_integer x z -> (1 <= z <= Z.of_nat (length ls))%Z -> (Z.of_nat (length ls) < 2 ^ 32)%Z ->
  exists n, nth_error ls (Z.to_nat (z - 1)) = Some n /\
    if g then
      if Nat.leb 8 (length (v_ret v)) then fst (execute E v) = Fail RE_gosub_nested
      else goes_to (set_ret (place_after v (length ls + 1) :: v_ret v) (set_stack st v)) n (execute E v)
    else goes_to (set_stack st v) n (execute E v).
Proof.
  intros [C F] S V I Z K. destruct (current_bcode _ _ C) as [bc B].
  assert (L : Z.to_nat (z - 1) < length ls) by lia.
  destruct (nth_error ls (Z.to_nat (z - 1))) as [n|] eqn:N; [|apply nth_error_None in N; lia].
  exists n. split; [reflexivity|].
  pose proof (nth_on_list v ls bc _ B F L) as T. rewrite N in T. cbn [option_map] in T.
  replace (cs_pc (v_cs v) + Datatypes.S (Z.to_nat (z - 1))) with (cs_pc (v_cs v) + Z.to_nat z) in T by lia.
  rewrite (on_step E v g (length ls) x st C S). rewrite (floor_integer x z V I).
  rewrite (selects_integer x (length ls) z V I) by lia.
  replace ((1 <=? z) && (z <=? Z.of_nat (length ls)))%Z with true by lia.
  rewrite (ftoZ_integer x z V I), B, T. destruct g; [|apply go_to_goes].
  destruct (Nat.leb 8 (length (v_ret v))); [reflexivity|apply go_to_goes].
Qed.

Lemma on_fallthrough E v (g : bool) ls x st : on_list v g ls -> v_stack v = x :: st -> double x ->
  (exists z, is_integer x z /\ ~ (1 <= z <= Z.of_nat (length ls))%Z) \/ (exists s, x = SpecFloat.S754_infinity s) ->
  (Z.of_nat (length ls) < 2 ^ 32)%Z ->
  execute E v = (Ok tt, set_cs (place_after v (length ls + 1)) (set_stack st v)).
Proof.
  intros [C F] S V H K. rewrite (on_step E v g (length ls) x st C S).
  destruct H as [(z & I & Z)|[s ->]].
  - rewrite (floor_integer x z V I). rewrite (selects_integer x (length ls) z V I) by lia.
    replace ((1 <=? z) && (z <=? Z.of_nat (length ls)))%Z with false by lia. reflexivity.
  - rewrite selects_infinite by lia. destruct s; reflexivity.
Qed.

Lemma on_invalid E v (g : bool) ls x st : on_list v g ls -> v_stack v = x :: st -> double x ->
  ~ (exists z, is_integer x z) -> ~ (exists s, x = SpecFloat.S754_infinity s) ->
  fst (execute E v) = Fail (RE_on_invalid x) /\ v_cs (snd (execute E v)) = v_cs v.
Proof.
  intros [C F] S V NI NF. rewrite (on_step E v g (length ls) x st C S).
  destruct (feqb (ffloor x) x) eqn:Q; [|split; reflexivity].
  apply equal_floor in Q; [|exact V]. tauto.
Qed.

(* ---------- statements used by Prop_Control.v ---------- *)

Lemma pending_length E v l v' : runs E v l v' -> length (v_ret v) <= 8 -> length (v_ret v') <= 8.
Proof.
  induction 1 as [v|v v1 l v' X R IH]; intros L; [exact L|]. apply IH. apply ret_step in X.
  destruct (event_of v) as [b| |].
  - destruct X as [-> X]. cbn [length]. lia.
  - destruct (v_ret v); [contradiction|]. destruct X as [_ ->]. cbn [length] in L. lia.
  - rewrite X. exact L.
Qed.
Lemma pending_calls E v l v' : v_ret v = [] -> runs E v l v' ->
  v_ret v' = pending (map event_of l) /\ length (v_ret v') <= 8.
Proof.
  intros N R. split.
  - rewrite (pending_runs E v l v' R), N. reflexivity.
  - apply (pending_length E v l v' R). rewrite N. cbn [length]. lia.
Qed.
Lemma return_cases E v : current v = Some I_RETURN ->
  match v_ret v with
  | [] => fst (execute E v) = Fail RE_return_without_gosub
  | back :: rest => execute E v = (Ok tt, set_cs back (set_ret rest v))
  end.
Proof. intros C. rewrite (return_step E v C). destruct (v_ret v); reflexivity. Qed.
Lemma gosub_cases E v n : current v = Some (I_GOSUB n) ->
  if length (v_ret v) <? 8
  then goes_to (set_ret (place_after v 1 :: v_ret v) v) n (execute E v)
  else fst (execute E v) = Fail RE_gosub_nested /\
       v_ret (snd (execute E v)) = v_ret v /\ v_cs (snd (execute E v)) = v_cs v.
Proof.
  intros C. rewrite (gosub_step E v n C).
  assert (H : Nat.leb 8 (length (v_ret v)) = negb (length (v_ret v) <? 8)) by (unfold Nat.ltb; lia).
  rewrite H. destruct (length (v_ret v) <? 8); cbn [negb]; [apply go_to_goes|repeat split; reflexivity].
Qed.
Lemma lim_new o stdin : within_limits (new_vm o stdin).
Proof. unfold within_limits. cbn. lia. Qed.
Lemma full_stacks E v :
  (forall x, current v = Some (I_PUSH_NUM x) -> length (v_stack v) = 16 ->
     fst (execute E v) = Fail RE_num_overflow /\ v_stack (snd (execute E v)) = v_stack v) /\
  (forall x, current v = Some (I_PUSH_STR x) -> length (v_sstack v) = 8 ->
     fst (execute E v) = Fail RE_str_overflow /\ v_sstack (snd (execute E v)) = v_sstack v) /\
  (forall n, current v = Some (I_GOSUB n) -> length (v_ret v) = 8 ->
     fst (execute E v) = Fail RE_gosub_nested /\ v_ret (snd (execute E v)) = v_ret v).
Proof.
  split; [|split].
  - intros x C L. apply push_full with x; assumption.
  - intros x C L. apply push_str_full with x; assumption.
  - intros n C L. pose proof (gosub_full E v n C L). tauto.
Qed.
