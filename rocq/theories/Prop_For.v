(* FOR and NEXT (C14). *)
From Verif Require Import Base Num NumSpec LineMapModel BcodeModel SymbolModel VmModel VmSpec VmTyping ForSpec
  ControlProofs ForProofs Examples.

(* FOR assigns the initial value, makes the loop the innermost one in place of
   any loop of the same variable, and continues with the body. *)
Theorem C14_for E v id step limit x st :
  current v = Some (I_FOR id) -> o_trace_for (v_opt v) = false -> v_stack v = step :: limit :: x :: st ->
  number_var v id -> NoDup (map f_sym (v_for v)) -> length (other_loops v id) < 8 ->
  execute E v = (Ok tt, set_cs (place_after v 1) (assign id x
        (set_stack st (set_for (other_loops v id ++ [mkFor (v_cs v) id step limit]) v)))).
Proof. exact (for_step E v id step limit x st). Qed.
Print Assumptions C14_for.

(* A ninth loop is refused. *)
Theorem C14_for_full E g v id : typed g v -> current v = Some (I_FOR id) -> o_trace_for (v_opt v) = false ->
  number_var v id -> NoDup (map f_sym (v_for v)) -> 8 <= length (other_loops v id) ->
  length (v_for v) <= 8 ->
  exists w, execute E v = (Fail RE_for_nested, w) /\ v_for w = v_for v /\ v_cs w = v_cs v /\ v_st w = v_st v.
Proof. exact (for_full E g v id). Qed.
Print Assumptions C14_for_full.

(* NEXT adds the step. Past the limit it ends that loop and no other, leaving
   the variable; otherwise it assigns the sum and repeats the body. *)
Theorem C14_next E g v f : typed g v -> loops_ok v -> o_trace_for (v_opt v) = false -> at_next v f ->
  assigned v (f_sym f) ->
  let x := fadd (number_of v (f_sym f)) (f_step f) in
  execute E v = (Ok tt, if past f x then set_cs (place_after v 1) (set_for (other_loops v (f_sym f)) v)
                        else set_cs (loop_body f) (assign (f_sym f) x v)).
Proof. exact (next_step E g v f). Qed.
Print Assumptions C14_next.

(* NEXT without a loop. *)
Theorem C14_next_none E v : o_trace_for (v_opt v) = false ->
  (current v = Some I_NEXT_IMP -> v_for v = [] ->
     exists w, execute E v = (Fail (RE_next_without_for None), w) /\ v_cs w = v_cs v) /\
  (forall id, current v = Some (I_NEXT_VAR id) -> number_var v id -> (forall f, In f (v_for v) -> f_sym f <> id) ->
     exists e w, execute E v = (Fail (RE_next_without_for e), w) /\ v_cs w = v_cs v).
Proof. exact (next_none E v). Qed.
Print Assumptions C14_next_none.

(* assigning affects that variable only *)
Theorem C14_assign id x v : number_var v id ->
  number_of (assign id x v) id = x /\ assigned (assign id x v) id /\
  forall other, other <> id -> number_of (assign id x v) other = number_of v other.
Proof.
  exact (fun H => conj (assign_number id x v H) (conj (assign_assigned id x v H) (fun o N => assign_other id x v o N))).
Qed.
Print Assumptions C14_assign.

(* In every execution the active loops have distinct variables and are at most
   eight. *)
Theorem C14_distinct E v l v' : runs E v l v' -> within_limits v -> loops_ok v -> loops_ok v'.
Proof. exact (loops_runs E v l v'). Qed.
Print Assumptions C14_distinct.
Theorem C14_distinct_run E fuel brk v : within_limits v -> loops_ok v -> loops_ok (snd (run E fuel brk v)).
Proof. exact (loops_run E fuel brk v). Qed.
Print Assumptions C14_distinct_run.

(* The values a completed loop over whole numbers has taken. *)
Theorem C14_whole_numbers E g v0 id step limit x st a b s v xs v' :
  current v0 = Some (I_FOR id) -> v_stack v0 = step :: limit :: x :: st ->
  number_var v0 id -> typed g v0 -> loops_ok v0 -> within_limits v0 -> o_trace_for (v_opt v0) = false ->
  double x -> double step -> double limit -> is_integer x a -> is_integer step s -> is_integer limit b ->
  (Z.abs a < 2 ^ 51)%Z -> (Z.abs s < 2 ^ 51)%Z -> (Z.abs b < 2 ^ 51)%Z ->
  execute E v0 = (Ok tt, v) -> looping E (mkFor (v_cs v0) id step limit) v xs v' ->
  s <> 0%Z /\ length xs = repetitions a b s /\
  forall k y, nth_error xs k = Some y -> is_integer y (a + Z.of_nat k * s).
Proof. exact (for_whole_numbers E g v0 id step limit x st a b s v xs v'). Qed.
Print Assumptions C14_whole_numbers.

(* If the variable has lost its value since the loop began, because of a CLEAR
   in the body, NEXT repeats the body with the variable reading 0. *)
Definition clear_loop : vm := ex_start [] [(10, lit "FOR I=1 TO 3"); (20, lit "CLEAR"); (30, lit "NEXT")]%N.
Theorem C14_clear_refuted : exists E g v f w,
  (exists l, runs E clear_loop l v) /\ typed g v /\ loops_ok v /\ at_next v f /\
  fadd (number_of v (f_sym f)) (f_step f) = fone /\ past f fone = false /\
  execute E v = (Ok tt, w) /\ v_cs w = loop_body f /\ number_of w (f_sym f) = fzero.
Proof.
  set (v := ex_steps 8 clear_loop).
  exists ex_env, (sigs (v_st v)), v, (mkFor (mkCs (Some CStored) 0 4) 26%N fone (fofZ 3)), (ex_steps 9 clear_loop).
  split; [apply (ex_runs_ok 8); vm_compute; reflexivity|].
  split; [apply typedb_ok; vm_compute; reflexivity|].
  split; [split; [vm_compute; constructor; [easy|constructor]|apply Nat.leb_le; vm_compute; reflexivity]|].
  split; [split; [vm_compute; auto|right; split; [vm_compute; reflexivity|exists []; vm_compute; reflexivity]]|].
  repeat (split; [vm_compute; reflexivity|]); vm_compute; reflexivity.
Qed.
Print Assumptions C14_clear_refuted.

(* ---------- examples ---------- *)

(* two loops, one inside the other; I is symbol 26 and J symbol 27 *)
Definition ex_loops : vm := ex_start [] 
  [(10, lit "FOR I=1 TO 3"); (20, lit "FOR J=2 TO 1"); (30, lit "NEXT"); (40, lit "NEXT I")]%N.

Lemma ex_typed n : typedb (ex_steps n ex_loops) = true -> typed (sigs (v_st (ex_steps n ex_loops))) (ex_steps n ex_loops).
Proof. apply typedb_ok. Qed.

(* the hypotheses of C14_for, at the inner FOR *)
Example ex_for : let v := ex_steps 9 ex_loops in
  current v = Some (I_FOR 27%N) /\ o_trace_for (v_opt v) = false /\ v_stack v = [fone; fone; fofZ 2] /\
  number_var v 27%N /\ NoDup (map f_sym (v_for v)) /\ length (other_loops v 27%N) = 1.
Proof.
  intros v. do 3 (split; [vm_compute; reflexivity|]).
  split; [unfold number_var; eexists; vm_compute; repeat split|].
  split; [vm_compute; constructor; [easy|constructor]|vm_compute; reflexivity].
Qed.

(* ... of C14_next, at the NEXT of the inner loop, which ends it *)
Example ex_next : let v := ex_steps 11 ex_loops in exists f,
  typed (sigs (v_st v)) v /\ loops_ok v /\ at_next v f /\ assigned v (f_sym f) /\
  f_sym f = 27%N /\ past f (fadd (number_of v 27%N) (f_step f)) = true.
Proof.
  intros v. exists (mkFor (mkCs (Some CStored) 1 9) 27%N fone fone).
  split; [apply ex_typed; vm_compute; reflexivity|].
  split; [split; [vm_compute; repeat constructor; intros H; repeat (destruct H as [H|H]; try discriminate H); destruct H|apply Nat.leb_le; vm_compute; reflexivity]|].
  split; [split; [vm_compute; auto|right; split; [vm_compute; reflexivity|
    exists [mkFor (mkCs (Some CStored) 0 4) 26%N fone (fofZ 3)]; vm_compute; reflexivity]]|].
  repeat (split; [vm_compute; reflexivity|]); vm_compute; reflexivity.
Qed.
(* NEXT I repeats the outer one *)
Example ex_next_again : let v := ex_steps 13 ex_loops in
  current v = Some (I_NEXT_VAR 26%N) /\ v_cs (ex_steps 14 ex_loops) = mkCs (Some CStored) 0 5 /\
  number_of (ex_steps 14 ex_loops) 26%N = fofZ 2.
Proof. vm_compute. repeat split. Qed.

(* a ninth loop, as in C14_for_full *)
Definition ex_nine : vm := ex_start [] [(10, lit "FOR A=1 TO 2:FOR B=1 TO 2:FOR C=1 TO 2:FOR D=1 TO 2:FOR E=1 TO 2");
  (20, lit "FOR F=1 TO 2:FOR G=1 TO 2:FOR H=1 TO 2:FOR I=1 TO 2")]%N.
Example ex_for_full : let v := ex_steps 37 ex_nine in exists id,
  typed (sigs (v_st v)) v /\ current v = Some (I_FOR id) /\ length (other_loops v id) = 8.
Proof.
  intros v. exists 34%N. split; [apply typedb_ok; vm_compute; reflexivity|]. vm_compute. split; reflexivity.
Qed.

(* a loop over 1, 3, 5 that runs to its end, as in C14_whole_numbers *)
Definition ex_odd : vm := ex_start [] [(10, lit "FOR I=1 TO 6 STEP 2"); (30, lit "NEXT")]%N.
Example ex_looping : looping ex_env (mkFor (mkCs (Some CStored) 0 4) 26%N (fofZ 2) (fofZ 6))
    (ex_steps 5 ex_odd) [fofZ 1; fofZ 3; fofZ 5] (ex_steps 11 ex_odd).
Proof.
  assert (N1 : fofZ 1 = number_of (ex_steps 5 ex_odd) 26%N) by (vm_compute; reflexivity).
  assert (N3 : fofZ 3 = number_of (ex_steps 7 ex_odd) 26%N) by (vm_compute; reflexivity).
  assert (N5 : fofZ 5 = number_of (ex_steps 9 ex_odd) 26%N) by (vm_compute; reflexivity).
  rewrite N1, N3, N5.
  assert (R : forall n, ex_runs 1 (ex_steps n ex_odd) = true -> exists l, runs ex_env (ex_steps n ex_odd) l (ex_steps (S n) ex_odd)).
  { intros n H. destruct (ex_runs_ok 1 _ H) as (l & K). exists l. replace (ex_steps (S n) ex_odd) with (ex_steps 1 (ex_steps n ex_odd)); [exact K|].
    clear. revert n. generalize ex_odd. intros v n. revert v. induction n as [|n IH]; intros v; [reflexivity|]. cbn [ex_steps] in *. apply IH. }
  assert (N : forall n, v_for (ex_steps n ex_odd) = [mkFor (mkCs (Some CStored) 0 4) 26%N (fofZ 2) (fofZ 6)] ->
    current (ex_steps n ex_odd) = Some I_NEXT_IMP -> at_next (ex_steps n ex_odd) (mkFor (mkCs (Some CStored) 0 4) 26%N (fofZ 2) (fofZ 6))).
  { intros n H C. split; [rewrite H; left; reflexivity|]. right. split; [exact C|]. exists []. exact H. }
  destruct (R 5) as (l5 & R5); [vm_compute; reflexivity|].
  destruct (R 7) as (l7 & R7); [vm_compute; reflexivity|].
  destruct (R 9) as (l9 & R9); [vm_compute; reflexivity|].
  set (f := mkFor (mkCs (Some CStored) 0 4) 26%N (fofZ 2) (fofZ 6)) in *.
  refine (Looping_more ex_env f _ l5 (ex_steps 6 ex_odd) (ex_steps 7 ex_odd) _ _ R5 (N 6 _ _) _ _ _ _ _);
    try (vm_compute; reflexivity); [vm_compute; split; reflexivity|vm_compute; left; reflexivity|].
  refine (Looping_more ex_env f _ l7 (ex_steps 8 ex_odd) (ex_steps 9 ex_odd) _ _ R7 (N 8 _ _) _ _ _ _ _);
    try (vm_compute; reflexivity); [vm_compute; split; reflexivity|vm_compute; left; reflexivity|].
  refine (Looping_last ex_env f _ l9 (ex_steps 10 ex_odd) (ex_steps 11 ex_odd) R9 (N 10 _ _) _ _ _ _);
    try (vm_compute; reflexivity); [vm_compute; split; reflexivity|vm_compute; exact (fun H => H)].
Qed.
