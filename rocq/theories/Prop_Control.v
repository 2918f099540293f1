(* Calls (C13), ON (C15) and stack limits (C21). *)
From Verif Require Import Base Num NumSpec LineMapModel BcodeModel SymbolModel VmModel VmSpec ControlProofs.

(* ---------- C13 ---------- *)

(* In every execution starting with no call pending, the calls pending are
   those made and not yet returned from, and they are at most eight. *)
Theorem C13_pending E v l v' : v_ret v = [] -> runs E v l v' ->
  v_ret v' = pending (map event_of l) /\ length (v_ret v') <= 8.
Proof. exact (pending_calls E v l v'). Qed.
Print Assumptions C13_pending.

(* RETURN continues after the latest pending call. *)
Theorem C13_return E v : current v = Some I_RETURN ->
  match v_ret v with
  | [] => fst (execute E v) = Fail RE_return_without_gosub
  | back :: rest => execute E v = (Ok tt, set_cs back (set_ret rest v))
  end.
Proof. exact (return_cases E v). Qed.
Print Assumptions C13_return.

(* GOSUB records the place after it and goes to the line, or refuses. *)
Theorem C13_gosub E v n : current v = Some (I_GOSUB n) ->
  if length (v_ret v) <? 8
  then goes_to (set_ret (place_after v 1 :: v_ret v) v) n (execute E v)
  else fst (execute E v) = Fail RE_gosub_nested /\
       v_ret (snd (execute E v)) = v_ret v /\ v_cs (snd (execute E v)) = v_cs v.
Proof. exact (gosub_cases E v n). Qed.
Print Assumptions C13_gosub.

(* A RETURN reached from a call through completed calls only continues right
   after that call. *)
Theorem C13_nesting E v back v1 l w :
  event_of v = Call back -> execute E v = (Ok tt, v1) ->
  runs E v1 l w -> balanced (map event_of l) -> current w = Some I_RETURN ->
  exists w', execute E w = (Ok tt, w') /\ v_cs w' = back /\ v_ret w' = v_ret v.
Proof. exact (nesting E v back v1 l w). Qed.
Print Assumptions C13_nesting.

(* ---------- C15 ---------- *)

(* x is a whole number in the list: go to its line. *)
Theorem C15_on_goto E v ls x st z :
  on_list v false ls -> v_stack v = x :: st -> double x -> is_integer x z ->
  (1 <= z <= Z.of_nat (length ls))%Z -> (Z.of_nat (length ls) < 2 ^ 32)%Z ->
  exists n, nth_error ls (Z.to_nat (z - 1)) = Some n /\ goes_to (set_stack st v) n (execute E v).
Proof. intros A B C D F G. exact (on_selected E v false ls x st z A B C D F G). Qed.
Print Assumptions C15_on_goto.

Theorem C15_on_gosub E v ls x st z :
  on_list v true ls -> v_stack v = x :: st -> double x -> is_integer x z ->
  (1 <= z <= Z.of_nat (length ls))%Z -> (Z.of_nat (length ls) < 2 ^ 32)%Z ->
  exists n, nth_error ls (Z.to_nat (z - 1)) = Some n /\
    if Nat.leb 8 (length (v_ret v)) then fst (execute E v) = Fail RE_gosub_nested
    else goes_to (set_ret (place_after v (length ls + 1) :: v_ret v) (set_stack st v)) n (execute E v).
Proof. intros A B C D F G. exact (on_selected E v true ls x st z A B C D F G). Qed.
Print Assumptions C15_on_gosub.

(* Another whole number (or an infinity): continue after the list. *)
Theorem C15_on_other E v g ls x st :
  on_list v g ls -> v_stack v = x :: st -> double x ->
  (exists z, is_integer x z /\ ~ (1 <= z <= Z.of_nat (length ls))%Z) \/
  (exists s, x = SpecFloat.S754_infinity s) ->
  (Z.of_nat (length ls) < 2 ^ 32)%Z ->
  execute E v = (Ok tt, set_cs (place_after v (length ls + 1)) (set_stack st v)).
Proof. exact (on_fallthrough E v g ls x st). Qed.
Print Assumptions C15_on_other.

(* Not a whole number, or NaN: an error. *)
Theorem C15_on_invalid E v g ls x st :
  on_list v g ls -> v_stack v = x :: st -> double x ->
  ~ (exists z, is_integer x z) -> ~ (exists s, x = SpecFloat.S754_infinity s) ->
  fst (execute E v) = Fail (RE_on_invalid x) /\ v_cs (snd (execute E v)) = v_cs v.
Proof. exact (on_invalid E v g ls x st). Qed.
Print Assumptions C15_on_invalid.

(* ---------- C21 ---------- *)

(* Whatever code is executed, for any number of steps and with any interrupt:
   the stacks stay within their storage. *)
Theorem C21_limits E fuel brk v : within_limits v -> within_limits (snd (run E fuel brk v)).
Proof. exact (lim_run E fuel brk v). Qed.
Print Assumptions C21_limits.

Theorem C21_limits_steps E v l v' : runs E v l v' -> within_limits v -> within_limits v'.
Proof. exact (lim_runs E v l v'). Qed.
Print Assumptions C21_limits_steps.

Theorem C21_initial o stdin : within_limits (new_vm o stdin).
Proof. exact (lim_new o stdin). Qed.
Print Assumptions C21_initial.

(* A full stack is reported. *)
Theorem C21_full E v : 
  (forall x, current v = Some (I_PUSH_NUM x) -> length (v_stack v) = 16 ->
     fst (execute E v) = Fail RE_num_overflow /\ v_stack (snd (execute E v)) = v_stack v) /\
  (forall x, current v = Some (I_PUSH_STR x) -> length (v_sstack v) = 8 ->
     fst (execute E v) = Fail RE_str_overflow /\ v_sstack (snd (execute E v)) = v_sstack v) /\
  (forall n, current v = Some (I_GOSUB n) -> length (v_ret v) = 8 ->
     fst (execute E v) = Fail RE_gosub_nested /\ v_ret (snd (execute E v)) = v_ret v).
Proof. exact (full_stacks E v). Qed.
Print Assumptions C21_full.

(* ---------- examples ---------- *)

Definition ex_env : env :=
  mkEnv (fun x _ => x) (fun x => x) (fun x => x) (fun x => x) (fun x => x) (fun x => x) (fun x => x)
    (fun _ _ => 0%N) (fun _ => 0%N) (fun _ => (0, 0, 0)%N).

(* 10 ON 2 GOSUB 20,30: GOSUB 30 : END / 20 RETURN / 30 RETURN, compiled *)
Definition ex_code : list instr :=
  [I_SOURCE_LINE 0; I_PUSH_NUM (fofZ 2); I_ON_GOSUB 2; I_ON_LINE 20; I_ON_LINE 30; I_GOSUB 30; I_END;
   I_SOURCE_LINE 1; I_RETURN; I_SOURCE_LINE 2; I_RETURN].
Definition ex_index : linemap :=
  match insert_line_mapping (new_line_map 3) 10 0 with
  | Some m => match insert_line_mapping m 20 7 with
              | Some m => match insert_line_mapping m 30 9 with Some m => m | None => m end
              | None => m end
  | None => new_line_map 3 end.
Definition ex_vm : vm :=
  set_cs (mkCs (Some CStored) 0 0)
    (set_stored (mkCode None (Some (mkBcode ex_code false)) (Some ex_index))
       (new_vm (mkOpt false false false) [])).

Definition ex_step (v : vm) : vm := snd (execute ex_env v).
Fixpoint ex_steps (n : nat) (v : vm) : vm := match n with O => v | S m => ex_steps m (ex_step v) end.

(* the selector 2 meets the hypotheses of C15_on_gosub *)
Example ex_on : on_list (ex_steps 2 ex_vm) true [20; 30]%N /\
  v_stack (ex_steps 2 ex_vm) = [fofZ 2] /\ double (fofZ 2).
Proof. vm_compute. repeat split. Qed.
Example ex_on_integer : is_integer (fofZ 2) 2.
Proof. vm_compute. reflexivity. Qed.
(* ... and it calls line 30, the return place being the GOSUB *)
Example ex_on_called : v_cs (ex_steps 3 ex_vm) = mkCs (Some CStored) 0 9 /\
  v_ret (ex_steps 3 ex_vm) = [mkCs (Some CStored) 0 5].
Proof. vm_compute. split; reflexivity. Qed.
(* an execution with a call and its return, as in C13_nesting *)
Example ex_nesting : exists v1,
  event_of (ex_steps 2 ex_vm) = Call (mkCs (Some CStored) 0 5) /\
  execute ex_env (ex_steps 2 ex_vm) = (Ok tt, v1) /\
  runs ex_env v1 [v1] (ex_step v1) /\ balanced (map event_of [v1]) /\
  current (ex_step v1) = Some I_RETURN.
Proof.
  exists (ex_steps 3 ex_vm). split; [vm_compute; reflexivity|]. split; [vm_compute; reflexivity|].
  split; [|split; [|vm_compute; reflexivity]].
  - apply Runs_cons with (v1 := ex_step (ex_steps 3 ex_vm)); [vm_compute; reflexivity|apply Runs_nil].
  - cbn [map]. replace (event_of (ex_steps 3 ex_vm)) with Other by (vm_compute; reflexivity). repeat constructor.
Qed.
