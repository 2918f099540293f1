(* C18: READ, DATA and RESTORE. upcoming v are the items still to be read in
   the state v: those of the stored program from the current position on (or of
   the immediate line being executed if it has DATA). *)
From Verif Require Import Base Num NumSpec ArrayModel ArraySpec BcodeModel SymbolModel VmModel VmSpec OpSpec
  VmTyping ValueSpec StoreSpec DataSpec DataProofs Examples Prop_Store.
Local Open Scope nat_scope.

(* Along every execution of the program without RESTORE, the items taken by
   READ are those that were still to be read, in order, each once. *)
Theorem C18_in_order : forall E v l v', runs E v l v' -> marked (v_stored v) -> marked (v_imm v) -> in_program l ->
  items_from (v_stored v) (v_pdata v) = items_read l ++ items_from (v_stored v') (v_pdata v') /\ v_stored v' = v_stored v.
Proof. exact data_in_order. Qed.
Print Assumptions C18_in_order.

(* READ assigns the next item to a variable ... *)
Theorem C18_read_variable : forall E g v t id s r d, typed g v -> marked (v_stored v) -> marked (v_imm v) ->
  current v = Some (read t id 0) -> upcoming v = s :: r -> item_value t s = Some d -> named v id KVariable t ->
  exists u w, same_but_data v u /\ upcoming u = r /\ assigned_to u t id d w /\ execute E v = (Ok tt, set_cs (place_after v 1) w).
Proof. exact read_variable. Qed.
Print Assumptions C18_read_variable.

(* ... or to an element of an array, whose subscripts are checked as in an
   assignment ... *)
Theorem C18_read_element : forall E g v t id n s r d idx st b, typed g v -> arrays_ok v -> marked (v_stored v) -> marked (v_imm v) ->
  current v = Some (read t id n) -> upcoming v = s :: r -> item_value t s = Some d -> named v id KArray t ->
  subscripts v n idx st -> bounds v id = Some b -> in_bounds b idx ->
  exists u w, same_but_data v u /\ upcoming u = r /\ stored (set_stack st u) t id idx d w /\ arrays_ok w /\
    execute E v = (Ok tt, set_cs (place_after v 1) w).
Proof. exact read_element_ok. Qed.
Print Assumptions C18_read_element.
Theorem C18_read_refused : forall E g v t id n s r d idx st b, typed g v -> arrays_ok v -> marked (v_stored v) -> marked (v_imm v) ->
  current v = Some (read t id n) -> upcoming v = s :: r -> item_value t s = Some d -> named v id KArray t ->
  subscripts v n idx st -> bounds v id = Some b -> ~ in_bounds b idx ->
  exists y, symbol_at (v_st v) id = Some y /\ raises E v (RE_subscript (s_name y)).
Proof. exact read_refused. Qed.
Print Assumptions C18_read_refused.
Theorem C18_read_auto : forall E g v t id n s r d idx st, typed g v -> arrays_ok v -> marked (v_stored v) -> marked (v_imm v) ->
  current v = Some (read t id n) -> upcoming v = s :: r -> item_value t s = Some d -> named v id KArray t ->
  subscripts v n idx st -> bounds v id = None ->
  Forall (fun m => (m < 4294967295)%N) idx -> acceptable (map (N.max 10) idx) ->
  exists w, dimensioned v t id (map (N.max 10) idx) w /\ arrays_ok w /\ execute E v = execute E w.
Proof. exact read_auto. Qed.
Print Assumptions C18_read_auto.

(* ... unless it is not a number though one is wanted, or there is none. *)
Theorem C18_not_number : forall E v id n s r, marked (v_stored v) -> marked (v_imm v) ->
  current v = Some (I_READ_NUM id n) -> upcoming v = s :: r -> item_value Numbers s = None ->
  exists w, execute E v = (Fail (RE_numeric_data s), w) /\ upcoming w = r /\ v_st w = v_st v /\ v_cs w = v_cs v.
Proof. exact read_not_number. Qed.
Print Assumptions C18_not_number.
Theorem C18_no_more : forall E v t id n, marked (v_stored v) -> marked (v_imm v) ->
  current v = Some (read t id n) -> upcoming v = [] -> raises E v RE_no_data \/ raises E v RE_out_of_data.
Proof. exact read_none. Qed.
Print Assumptions C18_no_more.

(* RESTORE makes all items the ones to be read, RESTORE n those from line n
   on, if there is such a line. *)
Theorem C18_restore : forall E v, current v = Some I_RESTORE ->
  exists w, execute E v = (Ok tt, set_cs (place_after v 1) w) /\ same_but_data v w /\
    upcoming w = items_from (if reads_own v then v_imm v else v_stored v) 0.
Proof. exact restore_all. Qed.
Print Assumptions C18_restore.
Theorem C18_restore_line : forall E v n, current v = Some (I_RESTORE_LINE n) ->
  match line_place v n with
  | Some p => exists w, execute E v = (Ok tt, set_cs (place_after v 1) w) /\ same_but_data v w /\
      (reads_own v = false -> upcoming w = items_from (v_stored v) p)
  | None => raises E v (RE_line_not_found n)
  end.
Proof. exact restore_line. Qed.
Print Assumptions C18_restore_line.

(* ---------- examples ---------- *)

Definition ex_data : vm := ex_start []
  [(10, lit "DIM C(3)"); (20, lit "READ A,B$,C(2)"); (30, lit "DATA 5,xyz"); (40, lit "DATA 7,8"); (50, lit "RESTORE 40");
   (60, lit "READ D(11),A"); (70, lit "RESTORE"); (80, lit "READ A,A")]%N.

Lemma marked_dec c : match c_bcode c with
  | Some bc => Bool.eqb (bc_has_data bc) (match data_items (bc_inst bc) with [] => false | _ => true end) | None => true end = true -> marked c.
Proof.
  unfold marked. intros H bc B. rewrite B in H. apply Bool.eqb_prop in H. rewrite H. destruct (data_items _); split; congruence.
Qed.
Ltac ex_marked := split; [apply marked_dec; vm_compute; reflexivity|split; [apply marked_dec; vm_compute; reflexivity|]].

Example ex_read_variable : let v := ex_steps 4 ex_data in typed (sigs (v_st v)) v /\ marked (v_stored v) /\ marked (v_imm v) /\
  current v = Some (read Numbers 27%N 0) /\ upcoming v = [lit "5"; lit "xyz"; lit "7"; lit "8"] /\
  item_value Numbers (lit "5") = Some (Number (fofZ 5)) /\ named v 27%N KVariable Numbers.
Proof.
  intros v. split; [apply typedb_ok; vm_compute; reflexivity|]. ex_marked. do 3 (split; [vm_compute; reflexivity|]). ex_named.
Qed.
Example ex_read_element : let v := ex_steps 7 ex_data in typed (sigs (v_st v)) v /\ arrays_ok v /\ marked (v_stored v) /\ marked (v_imm v) /\
  current v = Some (read Numbers 26%N 1) /\ upcoming v = [lit "7"; lit "8"] /\ named v 26%N KArray Numbers /\
  subscripts v 1 [2]%N [] /\ bounds v 26%N = Some [3]%N /\ element (ex_steps 8 ex_data) Numbers 26%N [2]%N = Number (fofZ 7).
Proof.
  intros v. ex_base. ex_marked. do 2 (split; [vm_compute; reflexivity|]). split; [ex_named|]. split; [ex_subs [fofZ 2]|].
  split; vm_compute; reflexivity.
Qed.
Example ex_in_order : runs ex_env ex_data (ex_states 8 ex_data) (ex_steps 8 ex_data) /\ in_program (ex_states 8 ex_data) /\
  items_read (ex_states 8 ex_data) = [lit "5"; lit "xyz"; lit "7"] /\ upcoming (ex_steps 8 ex_data) = [lit "8"].
Proof.
  split; [apply ex_runs_states; vm_compute; reflexivity|]. split; [|split; vm_compute; reflexivity].
  assert (W := ex_without_ok is_restore (ex_states 8 ex_data)). 
  assert (N : Forall (fun v => cs_code (v_cs v) <> Some CImmediate) (ex_states 8 ex_data)).
  { assert (B : forallb (fun v => match cs_code (v_cs v) with Some CImmediate => false | _ => true end) (ex_states 8 ex_data) = true) by (vm_compute; reflexivity).
    rewrite forallb_forall in B. apply Forall_forall. intros v I H. specialize (B v I). rewrite H in B. discriminate B. }
  unfold in_program. apply Forall_forall. intros v I. split; [exact (proj1 (Forall_forall _ _) N v I)|].
  intros i C. refine (proj1 (Forall_forall _ _) (W _) v I i C). vm_compute. reflexivity.
Qed.
Example ex_restores : let v := ex_steps 15 ex_data in current v = Some (I_RESTORE_LINE 40) /\ line_place v 40 <> None /\ reads_own v = false /\
  upcoming (ex_steps 16 ex_data) = [lit "7"; lit "8"] /\
  current (ex_steps 21 ex_data) = Some I_RESTORE /\ upcoming (ex_steps 21 ex_data) = [] /\
  upcoming (ex_steps 22 ex_data) = [lit "5"; lit "xyz"; lit "7"; lit "8"].
Proof. intros v. split; [vm_compute; reflexivity|]. split; [vm_compute; discriminate|]. repeat (split; [vm_compute; reflexivity|]). vm_compute. reflexivity. Qed.
(* READ D(11), of an array not dimensioned; then READ A of xyz *)
Example ex_read_others : current (ex_steps 18 ex_data) = Some (read Numbers 29%N 1) /\ bounds (ex_steps 18 ex_data) 29%N = None /\
  bounds (ex_steps 19 ex_data) 29%N = Some [11]%N /\
  current (ex_steps 24 ex_data) = Some (read Numbers 27%N 0) /\ upcoming (ex_steps 24 ex_data) = [lit "xyz"; lit "7"; lit "8"] /\
  item_value Numbers (lit "xyz") = None /\ fst (execute ex_env (ex_steps 24 ex_data)) = Fail (RE_numeric_data (lit "xyz")).
Proof. repeat (split; [vm_compute; reflexivity|]). vm_compute. reflexivity. Qed.
