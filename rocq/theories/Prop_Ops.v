(* String functions, comparisons, logical operators and RND (C20, C22, C33). *)
From Coq Require Import Lia SpecFloat.
From Verif Require Import Base Num NumSpec BcodeModel SymbolModel VmModel VmSpec ValueSpec OpSpec
  ControlProofs ValueProofs OpProofs Examples.
Local Open Scope nat_scope.

(* ---------- C20 ---------- *)

(* In what follows the arguments of the function are the top elements of the
   stacks. *)

(* LEFT$(s, n): the first n characters, or all if there are fewer. *)
Theorem C20_left E v s ss x st n : current v = Some I_LEFT -> v_sstack v = s :: ss -> v_stack v = x :: st ->
  double x -> count x n -> length s <= 255 -> length ss < 8 -> gives E v st (firstn n s :: ss).
Proof. exact (left_ok E v s ss x st n). Qed.
Print Assumptions C20_left.

(* RIGHT$(s, n): the last n characters, or all if there are fewer. *)
Theorem C20_right E v s ss x st n : current v = Some I_RIGHT -> v_sstack v = s :: ss -> v_stack v = x :: st ->
  double x -> count x n -> length s <= 255 -> length ss < 8 -> gives E v st (skipn (length s - n) s :: ss).
Proof. exact (right_ok E v s ss x st n). Qed.
Print Assumptions C20_right.

(* MID$(s, k, n): n characters, or as many as there are, from the k-th; k must
   be the position of a character. *)
Theorem C20_mid E v s ss x y st n k : current v = Some I_MID3 -> v_sstack v = s :: ss -> v_stack v = y :: x :: st ->
  double x -> double y -> count x k -> count y n -> length s <= 255 -> length ss < 8 ->
  (1 <= k <= length s -> gives E v st (firstn n (skipn (k - 1) s) :: ss)) /\
  (~ 1 <= k <= length s -> raises E v RE_string_index).
Proof. exact (mid_ok E v s ss x y st n k). Qed.
Print Assumptions C20_mid.

(* Counts and positions that are negative, fractional, NaN, infinite or too
   large raise an error. *)
Theorem C20_count_refused E v s ss x st i : current v = Some i -> i = I_LEFT \/ i = I_RIGHT \/ i = I_MID3 ->
  v_sstack v = s :: ss -> v_stack v = x :: st -> double x -> (forall n, ~ count x n) -> raises E v (count_error x).
Proof. exact (count_refused E v s ss x st i). Qed.
Print Assumptions C20_count_refused.
Theorem C20_start_refused E v s ss x y st n : current v = Some I_MID3 ->
  v_sstack v = s :: ss -> v_stack v = y :: x :: st -> double x -> double y -> count y n -> (forall n, ~ count x n) ->
  raises E v (count_error x).
Proof. exact (start_refused E v s ss x y st n). Qed.
Print Assumptions C20_start_refused.

(* LEN *)
Theorem C20_len E v s ss : current v = Some I_LEN -> v_sstack v = s :: ss -> length s <= 255 -> length (v_stack v) < 16 ->
  exists x, gives E v (x :: v_stack v) ss /\ is_integer x (Z.of_nat (length s)).
Proof. exact (len_ok E v s ss). Qed.
Print Assumptions C20_len.

(* Concatenation, of at most 255 characters. *)
Theorem C20_concat E v s t ss : current v = Some I_CONCAT -> v_sstack v = t :: s :: ss -> length ss < 8 ->
  (length s + length t <= 255 -> gives E v (v_stack v) ((s ++ t) :: ss)) /\
  (255 < length s + length t -> raises E v (RE_concat_too_long (N.of_nat (length s + length t)))).
Proof. exact (concat_ok E v s t ss). Qed.
Print Assumptions C20_concat.

(* CHR$: the character with the code; code 0 gives the empty string. *)
Theorem C20_chr E v x st : current v = Some I_CHR -> v_stack v = x :: st -> double x -> length (v_sstack v) < 8 ->
  (forall c, is_integer x (Z.of_N (code c)) -> gives E v st ((if ceq c NUL then [] else [c]) :: v_sstack v)) /\
  ((forall c, ~ is_integer x (Z.of_N (code c))) -> raises E v (RE_chr x)).
Proof. exact (chr_ok E v x st). Qed.
Print Assumptions C20_chr.

(* ASC: the code of the first character for codes below 128. *)
Theorem C20_asc_partial E v s ss : current v = Some I_ASC -> v_sstack v = s :: ss -> length (v_stack v) < 16 ->
  exists x, gives E v (x :: v_stack v) ss /\
    match s with
    | [] => is_integer x 0
    | c :: _ => if (code c <? 128)%N then is_integer x (Z.of_N (code c)) else is_integer x (Z.of_N (code c) - 256)
    end.
Proof. exact (asc_ok E v s ss). Qed.
Print Assumptions C20_asc_partial.

(* ASC does not give back the code from 128 on. *)
Definition asc_machine : vm := ex_steps 3 (ex_start [] [(10, lit "PRINT ASC(CHR$(200))")]%N).
Theorem C20_asc_refuted : exists E v c ss x,
  current v = Some I_ASC /\ v_sstack v = [c] :: ss /\ code c = 200%N /\
  gives E v (x :: v_stack v) ss /\ is_integer x (-56).
Proof.
  exists ex_env, asc_machine, (chr 200), [], (fofZ (-56)).
  split; [vm_compute; reflexivity|]. split; [vm_compute; reflexivity|]. split; [vm_compute; reflexivity|].
  split; vm_compute; reflexivity.
Qed.
Print Assumptions C20_asc_refuted.

(* No string a program computes, stores, reads or types in has more than 255
   characters; every number is an IEEE double. *)
Theorem C20_limit E v l v' : env_ok E -> runs E v l v' -> values_ok v -> values_ok v'.
Proof. exact (vo_runs E v l v'). Qed.
Print Assumptions C20_limit.
Theorem C20_limit_run E fuel brk v : env_ok E -> values_ok v -> values_ok (snd (run E fuel brk v)).
Proof. exact (fun H => vo_run E fuel brk H v). Qed.
Print Assumptions C20_limit_run.

(* examples: MID$("HELLO",2,3), LEFT$("HELLO",9), "AB"+"CD" *)
Definition mid_machine : vm := ex_steps 4 (ex_start [] [(10, lit "PRINT MID$(""HELLO"",2,3)")]%N).
Example mid_example : gives ex_env mid_machine [] [lit "ELL"].
Proof.
  refine (proj1 (C20_mid ex_env mid_machine (lit "HELLO") [] (fofZ 2) (fofZ 3) [] 3 2 _ _ _ _ _ _ _ _ _) _);
    try (vm_compute; reflexivity).
  - split; vm_compute; reflexivity.
  - split; vm_compute; reflexivity.
  - cbn. lia.
  - cbn. lia.
  - cbn. lia.
Qed.
Definition left_machine : vm := ex_steps 3 (ex_start [] [(10, lit "PRINT LEFT$(""HELLO"",9)")]%N).
Example left_example : gives ex_env left_machine [] [lit "HELLO"].
Proof.
  refine (C20_left ex_env left_machine (lit "HELLO") [] (fofZ 9) [] 9 _ _ _ _ _ _ _); try (vm_compute; reflexivity).
  - split; vm_compute; reflexivity.
  - cbn. lia.
  - cbn. lia.
Qed.
Definition right_machine : vm := ex_steps 3 (ex_start [] [(10, lit "PRINT RIGHT$(""HELLO"",2)")]%N).
Example right_example : gives ex_env right_machine [] [lit "LO"].
Proof.
  refine (C20_right ex_env right_machine (lit "HELLO") [] (fofZ 2) [] 2 _ _ _ _ _ _ _); try (vm_compute; reflexivity).
  - split; vm_compute; reflexivity.
  - cbn. lia.
  - cbn. lia.
Qed.
Definition bad_count : vm := ex_steps 3 (ex_start [] [(10, lit "PRINT LEFT$(""HELLO"",1.5)")]%N).
Definition three_halves : num := S754_finite false 6755399441055744 (-52).
Example bad_count_example : raises ex_env bad_count (count_error three_halves) /\ count_error three_halves = RE_nonneg three_halves.
Proof.
  split; [|vm_compute; reflexivity].
  refine (C20_count_refused ex_env bad_count (lit "HELLO") [] three_halves [] I_LEFT _ _ _ _ _ _);
    [vm_compute; reflexivity|left; reflexivity|vm_compute; reflexivity|vm_compute; reflexivity|vm_compute; reflexivity|].
  intros n [I _]. unfold is_integer in I. vm_compute (units _) in I. injection I as I. unfold UNIT in I. lia.
Qed.
Definition long_machine : vm := ex_start [] [(10, lit "A$=""ABCDEFGH"""); (20, lit "A$=A$+A$:GOTO 20")]%N.
Example limit_example : values_ok long_machine /\ exists l, runs ex_env long_machine l (ex_steps 30 long_machine) /\
  current (ex_steps 30 long_machine) = Some I_CONCAT /\
  map (@length ascii) (v_sstack (ex_steps 30 long_machine)) = [128; 128].
Proof.
  split; [apply values_okb_ok; vm_compute; reflexivity|].
  destruct (ex_runs_ok 30 long_machine) as (l & R); [vm_compute; reflexivity|].
  exists l. split; [exact R|]. split; vm_compute; reflexivity.
Qed.

(* ---------- C22 ---------- *)

(* Comparisons of numbers follow the order of their values, with infinities at
   the ends; NaN is only different. *)
Theorem C22_numbers E v R x y st : current v = Some (compare_numbers R) -> v_stack v = x :: y :: st ->
  double x -> double y -> length st < 16 ->
  exists b, (b = true <-> related R (value y) (value x)) /\ gives E v (truth_value b :: st) (v_sstack v).
Proof. exact (compare_numbers_ok E v R x y st). Qed.
Print Assumptions C22_numbers.

(* Comparisons of strings follow the order of the character codes. *)
Theorem C22_strings E v R s t ss : current v = Some (compare_texts R) -> v_sstack v = t :: s :: ss ->
  length (v_stack v) < 16 ->
  exists b, (b = true <-> strings_related R s t) /\ gives E v (truth_value b :: v_stack v) ss.
Proof. exact (compare_texts_ok E v R s t ss). Qed.
Print Assumptions C22_strings.

(* AND, OR and NOT work on each bit of two's complement integers. *)
Theorem C22_and E v x y st a b : current v = Some I_AND -> v_stack v = y :: x :: st -> double x -> double y ->
  int32 x a -> int32 y b -> length st < 16 ->
  exists r c, gives E v (r :: st) (v_sstack v) /\ int32 r c /\
    (forall i, (0 <= i)%Z -> Z.testbit c i = Z.testbit a i && Z.testbit b i).
Proof. exact (and_ok E v x y st a b). Qed.
Print Assumptions C22_and.
Theorem C22_or E v x y st a b : current v = Some I_OR -> v_stack v = y :: x :: st -> double x -> double y ->
  int32 x a -> int32 y b -> length st < 16 ->
  exists r c, gives E v (r :: st) (v_sstack v) /\ int32 r c /\
    (forall i, (0 <= i)%Z -> Z.testbit c i = Z.testbit a i || Z.testbit b i).
Proof. exact (or_ok E v x y st a b). Qed.
Print Assumptions C22_or.
Theorem C22_not E v x st a : current v = Some I_NOT -> v_stack v = x :: st -> double x ->
  int32 x a -> length st < 16 ->
  exists r c, gives E v (r :: st) (v_sstack v) /\ int32 r c /\
    (forall i, (0 <= i)%Z -> Z.testbit c i = negb (Z.testbit a i)).
Proof. exact (not_ok E v x st a). Qed.
Print Assumptions C22_not.

(* So they are the logical connectives on truth values. *)
Theorem C22_connectives E v a b st ss : v_sstack v = ss -> length st < 16 ->
  (current v = Some I_AND -> v_stack v = truth_value b :: truth_value a :: st -> gives E v (truth_value (a && b) :: st) ss) /\
  (current v = Some I_OR -> v_stack v = truth_value b :: truth_value a :: st -> gives E v (truth_value (a || b) :: st) ss) /\
  (current v = Some I_NOT -> v_stack v = truth_value a :: st -> gives E v (truth_value (negb a) :: st) ss).
Proof. exact (truth_connectives E v a b st ss). Qed.
Print Assumptions C22_connectives.

(* Any operand that is not a 32-bit integer raises an error. *)
Theorem C22_operand E v i x y st : current v = Some i -> i = I_AND \/ i = I_OR -> v_stack v = y :: x :: st ->
  double x -> double y ->
  ((forall z, ~ int32 y z) -> raises E v (RE_logical y)) /\
  (forall z, int32 y z -> (forall z, ~ int32 x z) -> raises E v (RE_logical x)).
Proof. exact (logic_error E v i x y st). Qed.
Print Assumptions C22_operand.
Theorem C22_operand_not E v x st : current v = Some I_NOT -> v_stack v = x :: st -> double x ->
  (forall z, ~ int32 x z) -> raises E v (RE_logical x).
Proof. exact (not_error E v x st). Qed.
Print Assumptions C22_operand_not.

(* examples *)
Definition less_machine : vm := ex_steps 4 (ex_start [] [(10, lit "PRINT -1<2")]%N).
Example less_example : current less_machine = Some (compare_numbers Less) /\
  exists x y, v_stack less_machine = [x; y] /\ double x /\ double y /\ related Less (value y) (value x) /\
  related Different (value S754_nan) (value x) /\ ~ related Equal (value S754_nan) (value S754_nan).
Proof.
  split; [vm_compute; reflexivity|]. exists (fofZ 2), (fofZ (-1)).
  split; [vm_compute; reflexivity|]. split; [vm_compute; reflexivity|]. split; [vm_compute; reflexivity|].
  split; [vm_compute; reflexivity|]. split; [reflexivity|]. discriminate.
Qed.
Definition text_machine : vm := ex_steps 3 (ex_start [] [(10, lit "PRINT ""AB""<""ABC""")]%N).
Example text_example : current text_machine = Some (compare_texts Less) /\ v_sstack text_machine = [lit "ABC"; lit "AB"] /\
  strings_related Less (lit "AB") (lit "ABC").
Proof.
  split; [vm_compute; reflexivity|]. split; [vm_compute; reflexivity|]. left. exists "C"%char, []. reflexivity.
Qed.
Definition and_machine : vm := ex_steps 3 (ex_start [] [(10, lit "PRINT 6 AND 3")]%N).
Example and_example : exists r c, gives ex_env and_machine (r :: []) [] /\ int32 r c /\
  (forall i, (0 <= i)%Z -> Z.testbit c i = Z.testbit 6 i && Z.testbit 3 i).
Proof.
  refine (C22_and ex_env and_machine (fofZ 6) (fofZ 3) [] 6 3 _ _ _ _ _ _ _); try (vm_compute; reflexivity).
  - split; [vm_compute; reflexivity|lia].
  - split; [vm_compute; reflexivity|lia].
  - cbn. lia.
Qed.
Definition or_machine : vm := ex_steps 5 (ex_start [] [(10, lit "PRINT 1/2 OR 3")]%N).
Example or_example : raises ex_env or_machine (RE_logical (S754_finite false 4503599627370496 (-53))).
Proof.
  refine (proj2 (C22_operand ex_env or_machine I_OR (S754_finite false 4503599627370496 (-53)) (fofZ 3) [] _ _ _ _ _) 3%Z _ _);
    [vm_compute; reflexivity|right; reflexivity|vm_compute; reflexivity|vm_compute; reflexivity|vm_compute; reflexivity
    |split; [vm_compute; reflexivity|lia]|].
  intros z [I _]. unfold is_integer in I. vm_compute (units _) in I. injection I as I. unfold UNIT in I. lia.
Qed.

(* ---------- C33 ---------- *)

(* RND gives a number from 0 up to but not including 1, whatever rand() gives
   in its range. *)
Theorem C33_range E v w : rand_range E -> current v = Some I_RND -> execute E v = (Ok tt, w) ->
  exists x, v_stack w = x :: v_stack v /\ unit_interval x.
Proof. exact (rnd_unit E v w). Qed.
Print Assumptions C33_range.
(* It does give one, if rand() does not give RAND_MAX a hundred times. *)
Theorem C33_value E v : rand_range E -> rand_varies E -> current v = Some I_RND -> length (v_stack v) < 16 ->
  exists x k, execute E v = (Ok tt, set_cs (place_after v 1) (set_stack (x :: v_stack v) (set_rand (v_seed v) k (v_clock v) v))) /\
    unit_interval x.
Proof. exact (rnd_ok E v). Qed.
Print Assumptions C33_value.

(* After RANDOMIZE n the values depend on n and the generator only: those of
   two executions agree as far as both go. *)
Theorem C33_reproducible E F v l v' w m w' x y st st' n v1 w1 : (forall s k, e_rand E s k = e_rand F s k) ->
  current v = Some I_SEED -> v_stack v = x :: st -> double x -> count x n ->
  current w = Some I_SEED -> v_stack w = y :: st' -> double y -> count y n ->
  execute E v = (Ok tt, v1) -> execute F w = (Ok tt, w1) ->
  runs E v1 l v' -> runs F w1 m w' -> no_randomize l -> no_randomize m ->
  one_continues_other (rnd_values E l) (rnd_values F m).
Proof. exact (seed_reproducible E F v l v' w m w' x y st st' n v1 w1). Qed.
Print Assumptions C33_reproducible.

(* example: a generator, and a program that draws two numbers *)
Definition rnd_env : env :=
  mkEnv (fun x _ => x) (fun x => x) (fun x => x) (fun x => x) (fun x => x) (fun x => x) (fun x => x)
    (fun seed k => (if Nat.eqb k 0 then RAND_MAX else (seed * 1000003 + N.of_nat k * 12345677) mod RAND_MAX)%N) (fun _ => 0%N) (fun _ => (0, 0, 0)%N).
Fixpoint rnd_trace (n : nat) (v : vm) : list vm :=
  match n with O => [] | S m => v :: rnd_trace m (snd (execute rnd_env v)) end.
Definition rnd_machine : vm := ex_start [] [(10, lit "RANDOMIZE 7:A=RND(1):B=RND(1)")]%N.
Lemma rnd_env_ok : rand_range rnd_env /\ rand_varies rnd_env.
Proof.
  split.
  - intros seed k. cbn. destruct (Nat.eqb k 0); [lia|]. apply N.lt_le_incl, N.mod_upper_bound. discriminate.
  - intros seed k. exists 1. split; [lia|]. cbn [rnd_env e_rand]. destruct (Nat.eqb (k + 1) 0) eqn:K; [apply Nat.eqb_eq in K; lia|].
    apply N.mod_upper_bound. discriminate.
Qed.
Example rnd_example :
  let v := snd (execute rnd_env (snd (execute rnd_env rnd_machine))) in
  current v = Some I_SEED /\
  exists v1, execute rnd_env v = (Ok tt, v1) /\
  (exists v', runs rnd_env v1 (rnd_trace 8 v1) v') /\ no_randomize (rnd_trace 8 v1) /\
  length (rnd_values rnd_env (rnd_trace 8 v1)) = 2.
Proof.
  cbv zeta. split; [vm_compute; reflexivity|].
  eexists. split; [vm_compute; reflexivity|].
  split.
  - eexists. cbn [rnd_trace]. do 8 (econstructor; [vm_compute; reflexivity|]). constructor.
  - split; [|vm_compute; reflexivity].
    cbn [rnd_trace]. do 8 (constructor; [split; vm_compute; discriminate|]). constructor.
Qed.
