(* C08, C09, C10 and C12 at the level of the running program. An array is the
   function element from subscripts to values; bounds are its largest
   subscripts. push_datum d u is the machine u after the value d has been
   computed for an assignment. *)
From Coq Require Import Lia.
From Verif Require Import Base Num NumSpec ArrayModel ArraySpec BcodeModel SymbolModel VmModel VmSpec OpSpec
  VmTyping ValueSpec StoreSpec StoreProofs StoreFrames Examples.
Local Open Scope nat_scope.

(* C08: in every execution in which the array is only read and assigned (any
   other instructions may be executed in between), each element ends up with
   the value last assigned to its subscripts, or the one it had before. *)
Theorem C08_history : forall E g t id v l v' ws b, env_ok E -> runs E v l v' -> history t id l ws ->
  typed g v -> values_ok v -> arrays_ok v -> Forall no_wrap l -> named v id KArray t -> bounds v id = Some b ->
  bounds v' id = Some b /\ Forall (fun w => in_bounds b (fst w)) ws /\
  forall idx, element v' t id idx = last_stored (element v t id idx) ws idx.
Proof. exact array_history. Qed.
Print Assumptions C08_history.

(* C08: DIM makes an array all of whose elements are 0 or empty. *)
Theorem C08_dim : forall E g v t id n idx st, typed g v -> arrays_ok v -> current v = Some (dim t id n) ->
  named v id KArray t -> subscripts v n idx st -> Forall (fun m => (m < 4294967295)%N) idx -> acceptable idx ->
  exists w, execute E v = (Ok tt, set_cs (place_after v 1) w) /\ dimensioned (set_stack st v) t id idx w /\ arrays_ok w.
Proof. exact dim_accepted. Qed.
Print Assumptions C08_dim.

(* C08: reading an element gives its value and changes nothing else. *)
Theorem C08_read : forall E g v id n idx st, typed g v -> arrays_ok v -> subscripts v n idx st ->
  forall t b, current v = Some (get_element t id n) -> named v id KArray t -> bounds v id = Some b ->
  length st < 16 -> length (v_sstack v) < 8 -> in_bounds b idx ->
  execute E v = (Ok tt, set_cs (place_after v 1) (push_datum (element v t id idx) (set_stack st v))).
Proof. exact element_read. Qed.
Print Assumptions C08_read.

(* C08: assigning an element changes that element and nothing else. *)
Theorem C08_write : forall E g u id n d idx st b, typed g u -> arrays_ok u -> current u = Some (set_element (sort_of d) id n) ->
  named u id KArray (sort_of d) -> subscripts u n idx st -> bounds u id = Some b -> in_bounds b idx ->
  exists w, execute E (push_datum d u) = (Ok tt, set_cs (place_after u 1) w) /\
    stored (set_stack st u) (sort_of d) id idx d w /\ arrays_ok w.
Proof. exact element_write. Qed.
Print Assumptions C08_write.

(* C09: in every execution whose array subscripts are never 4294967295, array
   storage has exactly the dimensioned size. *)
Theorem C09_sound : forall E v l v', env_ok E -> runs E v l v' -> values_ok v -> arrays_ok v -> Forall no_wrap l -> arrays_ok v'.
Proof. exact arrays_sound. Qed.
Print Assumptions C09_sound.

(* C09: subscripts out of range, or too many or too few of them, are refused,
   in reading and in assigning. *)
Theorem C09_read_refused : forall E g v id n idx st, typed g v -> arrays_ok v -> subscripts v n idx st ->
  forall t b, current v = Some (get_element t id n) -> named v id KArray t -> bounds v id = Some b ->
  ~ in_bounds b idx -> exists s, symbol_at (v_st v) id = Some s /\ raises E v (RE_subscript (s_name s)).
Proof. exact element_read_refused. Qed.
Print Assumptions C09_read_refused.
Theorem C09_write_refused : forall E g u id n d idx st b, typed g u -> arrays_ok u -> current u = Some (set_element (sort_of d) id n) ->
  named u id KArray (sort_of d) -> subscripts u n idx st -> bounds u id = Some b -> ~ in_bounds b idx ->
  exists s, symbol_at (v_st u) id = Some s /\ raises E (push_datum d u) (RE_subscript (s_name s)).
Proof. exact element_write_refused. Qed.
Print Assumptions C09_write_refused.

(* C09: and so are subscripts that are negative, fractional or too large for
   an integer. *)
Theorem C09_read_bad : forall E g v t id n x, typed g v -> current v = Some (get_element t id n) -> named v id KArray t ->
  bad_subscript v n x -> exists s, symbol_at (v_st v) id = Some s /\ raises E v (subscript_error (s_name s) x).
Proof. exact element_read_bad. Qed.
Print Assumptions C09_read_bad.
Theorem C09_write_bad : forall E g u d id n x, typed g u -> current u = Some (set_element (sort_of d) id n) ->
  named u id KArray (sort_of d) -> bad_subscript u n x ->
  exists s, symbol_at (v_st u) id = Some s /\ raises E (push_datum d u) (subscript_error (s_name s) x).
Proof. exact element_write_bad. Qed.
Print Assumptions C09_write_bad.
Theorem C09_dim_bad : forall E g v t id n x, typed g v -> current v = Some (dim t id n) -> named v id KArray t ->
  bad_subscript v n x ->
  exists s w, symbol_at (v_st v) id = Some s /\ execute E v = (Fail (subscript_error (s_name s) x), w) /\ v_cs w = v_cs v.
Proof. exact dim_bad. Qed.
Print Assumptions C09_dim_bad.

(* C09: DIM of more than 65536 elements is refused; the array is then
   undimensioned, even if it had been dimensioned before. *)
Theorem C09_dim_refused : forall E g v t id n idx st, typed g v -> arrays_ok v -> current v = Some (dim t id n) ->
  named v id KArray t -> subscripts v n idx st -> Forall (fun m => (m < 4294967295)%N) idx -> ~ acceptable idx ->
  exists s w, symbol_at (v_st v) id = Some s /\ execute E v = (Fail (RE_dimensions (s_name s)), w) /\ v_cs w = v_cs v /\
    bounds w id = None /\ forall j, j <> id -> symbol_at (v_st w) j = symbol_at (v_st v) j.
Proof. exact dim_rejected. Qed.
Print Assumptions C09_dim_refused.

(* C10: reading or assigning an element of an undimensioned array is doing so
   after DIM with the larger of 10 and the subscript, in each dimension. *)
Theorem C10_read : forall E g v t id n idx st, typed g v -> arrays_ok v -> current v = Some (get_element t id n) ->
  named v id KArray t -> subscripts v n idx st -> bounds v id = None ->
  Forall (fun m => (m < 4294967295)%N) idx -> acceptable (map (N.max 10) idx) ->
  exists w, dimensioned v t id (map (N.max 10) idx) w /\ arrays_ok w /\ execute E v = execute E w.
Proof. exact element_read_auto. Qed.
Print Assumptions C10_read.
Theorem C10_write : forall E g u id n d idx st, typed g u -> arrays_ok u -> current u = Some (set_element (sort_of d) id n) ->
  named u id KArray (sort_of d) -> subscripts u n idx st -> bounds u id = None ->
  Forall (fun m => (m < 4294967295)%N) idx -> acceptable (map (N.max 10) idx) ->
  exists w, dimensioned u (sort_of d) id (map (N.max 10) idx) w /\ arrays_ok w /\
    execute E (push_datum d u) = execute E (push_datum d w).
Proof. exact element_write_auto. Qed.
Print Assumptions C10_write.
(* C10: if that DIM is refused so is the access. *)
Theorem C10_refused : forall E g u id n d idx st t, typed g u -> arrays_ok u ->
  named u id KArray t -> subscripts u n idx st -> bounds u id = None ->
  Forall (fun m => (m < 4294967295)%N) idx -> ~ acceptable (map (N.max 10) idx) ->
  exists s, symbol_at (v_st u) id = Some s /\
    (current u = Some (get_element t id n) -> raises E u (RE_dimensions (s_name s))) /\
    (current u = Some (set_element (sort_of d) id n) -> sort_of d = t -> raises E (push_datum d u) (RE_dimensions (s_name s))).
Proof. exact auto_refused. Qed.
Print Assumptions C10_refused.

(* C12: CLEAR clears all values and nothing else. *)
Theorem C12_clear : forall E g v, typed g v -> current v = Some I_CLEAR ->
  exists w, execute E v = (Ok tt, set_cs (place_after v 1) w) /\ cleared v w.
Proof. exact clear_instr. Qed.
Print Assumptions C12_clear.
(* C12: so variables read 0 or empty, arrays are undimensioned and functions
   undefined. *)
Theorem C12_cleared : forall v w, cleared v w -> forall id t,
  (named v id KVariable t -> named w id KVariable t /\ variable w t id = unset t) /\
  (named v id KArray t -> named w id KArray t /\ bounds w id = None) /\
  (forall s, symbol_at (v_st v) id = Some s -> s_kind s = KDef ->
     exists s', symbol_at (v_st w) id = Some s' /\ s_kind s' = KDef /\ s_defined s' = false).
Proof. exact cleared_views. Qed.
Print Assumptions C12_cleared.

(* C09 is violated by three subscripts: the program compiles, and running it
   fails an assertion. *)
Definition three_subscripts : vm := ex_start [] [(10, lit "A(1,2,3)=4")]%N.
Theorem C09_three_refuted : exists E v, (exists l, runs E three_subscripts l v) /\
  current v = Some (I_SET_ARRAY_NUM 26%N 3) /\ fst (execute E v) = Crash.
Proof.
  exists ex_env, (ex_steps 5 three_subscripts). split; [apply ex_runs_ok; vm_compute; reflexivity|]. split; vm_compute; reflexivity.
Qed.
Print Assumptions C09_three_refuted.

(* ---------- examples ---------- *)

Definition ex_arrays : vm := ex_start []
  [(10, lit "DIM A(3,4),B$(5)"); (20, lit "A(1,2)=7"); (30, lit "B$(2)=""x"""); (40, lit "PRINT A(1,2)");
   (50, lit "C(11)=5"); (60, lit "CLEAR"); (70, lit "A(1,2)=A(3,4)"); (80, lit "PRINT A(1,-1)"); (90, lit "DIM A(1000,1000)")]%N.

Definition sound_arrayb {A} (a : array A) : bool :=
  let max := as_max (ar_size a) in
  (Nat.eqb (length max) 1 || Nat.eqb (length max) 2) && (elements_wanted max <=? 65536)%N &&
  (as_base (ar_size a) =? 0)%N && (as_elements (ar_size a) =? elements_wanted max)%N &&
  (N.of_nat (length (ar_val a)) =? elements_wanted max)%N.
Lemma sound_arrayb_ok {A} (a : array A) : sound_arrayb a = true -> sound_array a.
Proof.
  unfold sound_arrayb. destruct a as [[b max e] vs]. cbn [ar_size as_max as_base as_elements ar_val]. intros H.
  repeat (apply andb_prop in H as [H ?]). exists max. cbn.
  repeat match goal with K : (_ =? _)%N = true |- _ => apply N.eqb_eq in K end.
  apply Bool.orb_prop in H. rewrite !Nat.eqb_eq in H. subst. unfold acceptable. split; [split; [exact H|apply N.leb_le; assumption]|auto].
Qed.
Definition arrays_okb (v : vm) : bool :=
  forallb (fun s => match s_val s with VNumArr a => sound_arrayb a | VStrArr a => sound_arrayb a | _ => true end) (st_syms (v_st v)).
Lemma arrays_okb_ok v : arrays_okb v = true -> arrays_ok v.
Proof.
  unfold arrays_okb, arrays_ok. rewrite forallb_forall, Forall_forall. intros H s I. specialize (H s I).
  destruct (s_val s); try exact Logic.I; apply sound_arrayb_ok, H.
Qed.
Definition no_wrapb (v : vm) : bool :=
  forallb (fun x => match units x with Some z => negb (z =? 4294967295 * UNIT)%Z | None => true end) (subscript_numbers v).
Lemma no_wrapb_ok v : no_wrapb v = true -> no_wrap v.
Proof.
  unfold no_wrapb, no_wrap. rewrite forallb_forall. intros H i id t _ _ _. apply Forall_forall. intros x X I. specialize (H x X).
  unfold is_integer in I. rewrite I, Z.eqb_refl in H. discriminate H.
Qed.
Lemma no_wraps l : forallb no_wrapb l = true -> Forall no_wrap l.
Proof. rewrite forallb_forall, Forall_forall. intros H x I. apply no_wrapb_ok, H, I. Qed.

Ltac ex_base := split; [apply typedb_ok; vm_compute; reflexivity|split; [apply arrays_okb_ok; vm_compute; reflexivity|]].
Ltac ex_named := eexists; split; [vm_compute; reflexivity|split; reflexivity].
Ltac ex_subs l := exists l; split; [vm_compute; reflexivity|split; [repeat constructor; vm_compute; reflexivity|reflexivity]].
Ltac ex_small := repeat constructor.

(* DIM A(3,4) *)
Example ex_dim : let v := ex_steps 3 ex_arrays in typed (sigs (v_st v)) v /\ arrays_ok v /\
  current v = Some (dim Numbers 26%N 2) /\ named v 26%N KArray Numbers /\ subscripts v 2 [3; 4]%N [] /\ acceptable [3; 4]%N.
Proof.
  intros v. ex_base. split; [vm_compute; reflexivity|]. split; [ex_named|]. split; [ex_subs [fofZ 3; fofZ 4]|].
  split; [right; reflexivity|vm_compute; discriminate].
Qed.
(* A(1,2)=7, where u is the machine before 7 is pushed *)
Example ex_write : let u := ex_steps 9 ex_arrays in let w := set_cs (v_cs (ex_steps 10 ex_arrays)) u in
  ex_steps 10 ex_arrays = push_datum (Number (fofZ 7)) w /\
  typed (sigs (v_st w)) w /\ arrays_ok w /\ current w = Some (set_element Numbers 26%N 2) /\
  named w 26%N KArray Numbers /\ subscripts w 2 [1; 2]%N [] /\ bounds w 26%N = Some [3; 4]%N.
Proof.
  intros u w. split; [vm_compute; reflexivity|]. ex_base. split; [vm_compute; reflexivity|]. split; [ex_named|]. split; [ex_subs [fofZ 1; fofZ 2]|].
  vm_compute. reflexivity.
Qed.
(* PRINT A(1,2) *)
Example ex_read : let v := ex_steps 18 ex_arrays in typed (sigs (v_st v)) v /\ arrays_ok v /\
  current v = Some (get_element Numbers 26%N 2) /\ named v 26%N KArray Numbers /\ subscripts v 2 [1; 2]%N [] /\
  bounds v 26%N = Some [3; 4]%N /\ in_bounds [3; 4]%N [1; 2]%N /\ element v Numbers 26%N [1; 2]%N = Number (fofZ 7).
Proof.
  intros v. ex_base. split; [vm_compute; reflexivity|]. split; [ex_named|]. split; [ex_subs [fofZ 1; fofZ 2]|].
  split; [vm_compute; reflexivity|]. split; [repeat constructor; discriminate|vm_compute; reflexivity].
Qed.
(* the assignment and the reading, as a history, as in C08_history *)
Example ex_history : let v := ex_steps 9 ex_arrays in
  runs ex_env v (ex_states 10 v) (ex_steps 10 v) /\ history Numbers 26%N (ex_states 10 v) [([1; 2]%N, Number (fofZ 7))] /\
  typed (sigs (v_st v)) v /\ values_ok v /\ arrays_ok v /\ Forall no_wrap (ex_states 10 v) /\ bounds v 26%N = Some [3; 4]%N /\
  element v Numbers 26%N [1; 2]%N = Number fzero.
Proof.
  intros v. split; [apply ex_runs_states; vm_compute; reflexivity|]. split.
  - cbn [ex_states]. apply Hist_other; [intros i C; vm_compute in C; injection C as <-; split; discriminate|].
    replace (snd (execute ex_env v)) with (push_datum (Number (fofZ 7)) (set_cs (v_cs (snd (execute ex_env v))) v)) at 1 by (vm_compute; reflexivity).
    apply (Hist_write _ _ _ 2%N _ []); [vm_compute; reflexivity|reflexivity|ex_subs [fofZ 1; fofZ 2]|].
    do 7 (apply Hist_other; [intros i C; vm_compute in C; injection C as <-; split; discriminate|]).
    apply (Hist_read _ _ _ 2%N); [vm_compute; reflexivity|]. constructor.
  - split; [apply typedb_ok; vm_compute; reflexivity|]. split; [apply values_okb_ok; vm_compute; reflexivity|].
    split; [apply arrays_okb_ok; vm_compute; reflexivity|]. split; [apply no_wraps; vm_compute; reflexivity|].
    split; vm_compute; reflexivity.
Qed.
(* C(11)=5 *)
Example ex_auto : let u := ex_steps 23 ex_arrays in let w := set_cs (v_cs (ex_steps 24 ex_arrays)) u in
  typed (sigs (v_st w)) w /\ arrays_ok w /\ current w = Some (set_element Numbers 28%N 1) /\ named w 28%N KArray Numbers /\
  subscripts w 1 [11]%N [] /\ bounds w 28%N = None /\ acceptable (map (N.max 10) [11]%N) /\
  bounds (ex_steps 25 ex_arrays) 28%N = Some [11]%N.
Proof.
  intros u w. ex_base. split; [vm_compute; reflexivity|]. split; [ex_named|]. split; [ex_subs [fofZ 11]|].
  split; [vm_compute; reflexivity|]. split; [split; [left; reflexivity|vm_compute; discriminate]|vm_compute; reflexivity].
Qed.
(* CLEAR *)
Example ex_clear : let v := ex_steps 26 ex_arrays in typed (sigs (v_st v)) v /\ current v = Some I_CLEAR /\
  bounds v 26%N = Some [3; 4]%N /\ bounds (ex_steps 27 ex_arrays) 26%N = None.
Proof. intros v. split; [apply typedb_ok; vm_compute; reflexivity|]. vm_compute. repeat split. Qed.
(* A(1,2)=A(3,4): the assignment, and the reading, of the array dimensioned by the reading *)
Example ex_refused : let v := ex_steps 32 ex_arrays in current v = Some (get_element Numbers 26%N 2) /\ bounds v 26%N = None /\
  bounds (ex_steps 33 ex_arrays) 26%N = Some [10; 10]%N /\ ~ in_bounds [10; 10]%N [3; 11]%N.
Proof.
  intros v. do 3 (split; [vm_compute; reflexivity|]). intros H. inversion H as [|? ? ? ? _ K]; subst. inversion K as [|? ? ? ? L _]; subst. lia.
Qed.
(* PRINT A(1,-1) *)
Example ex_bad : let v := ex_steps 38 ex_arrays in typed (sigs (v_st v)) v /\ current v = Some (get_element Numbers 26%N 2) /\
  named v 26%N KArray Numbers /\ bad_subscript v 2 (fofZ (-1)).
Proof.
  intros v. split; [apply typedb_ok; vm_compute; reflexivity|]. split; [vm_compute; reflexivity|]. split; [ex_named|].
  exists [], [], [fone]. split; [vm_compute; reflexivity|]. split; [constructor|]. split; [reflexivity|]. split; [vm_compute; reflexivity|].
  intros m [H _]. unfold is_integer in H. assert (U : units (fofZ (-1)) = Some (-1 * UNIT)%Z) by (vm_compute; reflexivity). rewrite U in H.
  injection H as H. assert (P : (0 < UNIT)%Z) by reflexivity. nia.
Qed.
