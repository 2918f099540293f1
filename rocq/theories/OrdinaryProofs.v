(* The errors of statements are never internal ones (C31). *)
From Verif Require Import Base Num NumSpec SourceModel ArraySpec BcodeModel SymbolModel VmModel VmSpec OpSpec ValueSpec StoreSpec FnSpec GrammarSpec
  ForSpec PrintSpec DataSpec LineSpec EvalSpec StepSpec.
Local Open Scope act_scope.
Definition ord {A} (a : answer A) : Prop := match a with Error e _ => ordinary e | _ => True end.
Lemma ord_then {A B} (a : answer A) (k : A -> memory -> answer B) : ord a -> (forall x m, ord (k x m)) -> ord (and_then a k).
Proof. intros H K. destruct a; [apply K|exact H|exact I]. Qed.
Definition rord (r : result) : Prop := match r with Fails e => ordinary e | _ => True end.
Lemma ord_of r m : rord r -> ord (answer_of r m).
Proof. destruct r; intros H; exact H. Qed.
Ltac cases := repeat match goal with |- context [match ?x with _ => _ end] => lazymatch x with context [match _ with _ => _ end] => fail | _ => destruct x end end; try exact I.
Lemma rord_binary E o a b : rord (binary_value E o a b).
Proof. unfold binary_value, logic, truth_datum, rord. destruct o, a, b; try exact I; cases. Qed.
Lemma count_ordinary x : ordinary (count_error x).
Proof. unfold count_error. cases. Qed.
Lemma subscript_ordinary name x : ordinary (subscript_error name x).
Proof. unfold subscript_error. cases. Qed.
Lemma rord_counted x f : (forall n, rord (f n)) -> rord (counted x f).
Proof. intros H. unfold counted. destruct (whole x); [apply H|apply count_ordinary]. Qed.
Lemma rord_number f ds : (forall x, rord (f x)) -> rord (of_number f ds).
Proof. intros H. unfold of_number. destruct ds as [|[x|s] [|]]; try exact I. apply H. Qed.
Lemma rord_text f ds : (forall x, rord (f x)) -> rord (of_text f ds).
Proof. intros H. unfold of_text. destruct ds as [|[x|s] [|]]; try exact I. apply H. Qed.
Lemma rord_functions E : Forall (fun p => forall ds, rord (snd p ds)) (functions E).
Proof.
  unfold functions, number.
  repeat first [apply Forall_nil | apply Forall_cons; [cbn [snd]; intros ds|]];
    first [apply rord_number; intros x; unfold rord; cases | apply rord_text; intros x; unfold rord; cases
          | destruct ds as [|[x|s] [|[y|t] [|[z|u] [|]]]]; try exact I; repeat (apply rord_counted; intros ?); unfold rord; cases].
Qed.
Lemma ord_builtin E name ds m : ord (builtin_value E name ds m).
Proof.
  unfold builtin_value. destruct (bytes_eqb _ _); [unfold draw; destruct (find _ _); exact I|]. destruct (bytes_eqb _ _); [unfold time_of_day; destruct (e_hms E (m_clock m)) as [[h mi] s]; exact I|].
  destruct (find _ _) as [[w f]|] eqn:F; [|exact I]. apply find_some in F. pose proof (rord_functions E) as R. rewrite Forall_forall in R. apply ord_of. exact (R _ (proj1 F) ds).
Qed.
Lemma ord_element t id a ds m : ord (element_value t id a ds m).
Proof. unfold element_value. destruct (subscripts_of ds) as [[idx|x]|]; [|apply subscript_ordinary|exact I]. unfold ord. cases. Qed.
Lemma ord_eval E call : (forall id f ds m, ord (call id f ds m)) -> forall e m, ord (eval E call e m).
Proof.
  intros C. fix IH 1. assert (EV : forall l m, ord ((fix evals (l : list expr) (m : memory) : answer (list datum) :=
    match l with [] => Value [] m | a :: r => and_then (eval E call a m) (fun d m => and_then (evals r m) (fun ds m => Value (d :: ds) m)) end) l m)).
  { fix IL 1. intros [|a r] m; [exact I|]. apply ord_then; [apply IH|]. intros d m1. apply ord_then; [apply IL|]. intros ds m2. exact I. }
  intros [x|s|id t|id t args|b args|b a|n a|n a|o a b|a b] m; cbn [eval]; try exact I.
  - apply ord_then; [apply EV|]. intros ds m1. destruct (m_obj m1 id); [|apply C]. destruct (Nat.leb _ _); [apply ord_element|exact I].
  - apply ord_then; [apply EV|]. intros ds m1. apply ord_builtin.
  - apply ord_then; [apply IH|]. intros ds m1. apply ord_builtin.
  - apply ord_then; [apply IH|]. intros d m1. destruct (Nat.odd n); [|exact I]. apply ord_of. unfold negative, rord. cases.
  - apply ord_then; [apply IH|]. intros d m1. destruct (Nat.odd n); [|exact I]. apply ord_of. unfold complement, rord. cases.
  - apply ord_then; [apply IH|]. intros d m1. apply ord_then; [apply IH|]. intros d2 m2. apply ord_of, rord_binary.
Qed.
Lemma ord_no_call id f ds m : ord (no_call id f ds m).
Proof. destruct f; exact I. Qed.
Lemma ord_call E id f ds m : ord (call_function E id f ds m).
Proof.
  unfold call_function. destruct f as [[p e]|]; [|exact I]. destruct ds as [|[x|s] [|d r]]; try (destruct (_ =? 1)%N; exact I).
  apply ord_then; [apply ord_eval, ord_no_call|]. intros d m1. exact I.
Qed.
Lemma ord_evaluate E e m : ord (evaluate E e m).
Proof. apply ord_eval, ord_call. Qed.
Lemma ord_evals E l : forall m, ord (evals E (call_function E) l m).
Proof. induction l as [|a r IH]; intros m; [exact I|]. cbn [evals]. apply ord_then; [apply ord_evaluate|]. intros d m1. apply ord_then; [apply IH|]. intros ds m2. exact I. Qed.

Definition mild {A} (a : act A) : Prop := forall s, match a s with Failed e _ => ordinary e | _ => True end.
Lemma mild_by {A B} (a : act A) (k : A -> act B) : mild a -> (forall x, mild (k x)) -> mild (following_by a k).
Proof. intros H K s. unfold following_by. specialize (H s). destruct (a s); [apply K|exact H|exact I]. Qed.
Lemma mild_answer {A} (f : memory -> answer A) : (forall m, ord (f m)) -> mild (with_answer f).
Proof. intros H s. unfold with_answer. specialize (H (x_memory s)). destruct (f (x_memory s)); [exact I|exact H|exact I]. Qed.
Lemma mild_fail {A} e : ordinary e -> mild (@fail A e).
Proof. intros H s. exact H. Qed.
Lemma mild_value E e : mild (value E e).
Proof. apply mild_answer, ord_evaluate. Qed.
Lemma mild_values E l : mild (values E l).
Proof. apply mild_answer, ord_evals. Qed.
Lemma mild_number E e : mild (number_value E e).
Proof. apply mild_by; [apply mild_value|]. intros [x|t] s; exact I. Qed.
Lemma mild_count E e : mild (count_value E e).
Proof. apply mild_by; [apply mild_number|]. intros x s. destruct (whole x); [exact I|apply count_ordinary]. Qed.
Lemma ord_element_store id a ds d m : ord (element_store id a ds d m).
Proof. unfold element_store. destruct (subscripts_of ds) as [[idx|x]|]; [|apply subscript_ordinary|exact I]. unfold ord. cases. Qed.
Lemma mild_store p ds d : mild (store p ds d).
Proof.
  apply mild_answer. intros m. unfold store_value. destruct (pl_kind p); try exact I; destruct ds as [|d0 r]; try exact I;
    destruct (m_obj m (pl_id p)); try exact I; (destruct (Nat.leb _ _); [apply ord_element_store|exact I]).
Qed.
Lemma mild_dim p ds : mild (with_answer (dim_value p ds)).
Proof. apply mild_answer. intros m. unfold dim_value. destruct (Nat.leb _ _); [|exact I]. destruct (subscripts_of ds) as [[idx|x]|]; [|apply subscript_ordinary|exact I]. unfold ord. cases. Qed.
Lemma mild_each {A} (f : A -> act unit) l : (forall a, mild (f a)) -> mild (each f l).
Proof. intros H. induction l as [|a r IH]; [exact (fun _ => I)|]. apply mild_by; [apply H|intros _; exact IH]. Qed.
Ltac mild_go := repeat first
  [ apply mild_value | apply mild_values | apply mild_number | apply mild_count | apply mild_store | apply mild_dim | assumption
  | (apply mild_fail; first [exact I | apply count_ordinary | apply subscript_ordinary]) | exact (fun _ => I)
  | (apply mild_by; [|intros ?]) | (apply mild_each; intros ?)
  | match goal with |- mild (match ?x with _ => _ end) => destruct x end ].
Section Program.
Variable E : env.
Variable P : program.
Lemma mild_go_line n : mild (go_line P n).
Proof. unfold go_line. mild_go. Qed.
Lemma mild_call_line p n : mild (call_line P p n).
Proof. unfold call_line. mild_go. apply mild_go_line. Qed.
Lemma mild_next_round f : mild (next_round f).
Proof. unfold next_round. mild_go. Qed.
Lemma mild_next_all l : mild (next_all l).
Proof. induction l as [|id r IH]; [exact (fun _ => I)|]. cbn [next_all]. unfold next_of. mild_go. apply mild_next_round. Qed.
Lemma mild_items l : mild (print_items E l).
Proof. induction l as [|i r IH]; [exact (fun _ => I)|]. cbn [print_items]. unfold print_item. mild_go. Qed.
Lemma mild_fields l : forall first text, mild (take_fields E first l text).
Proof. induction l as [|p r IH]; intros first text; [exact (fun _ => I)|]. cbn [take_fields]. mild_go; apply IH. Qed.
Lemma mild_perform k xs i x : mild (perform E P k xs i x).
Proof.
  unfold perform. destruct x; unfold go_back, choose, start_loop, next_innermost, read_place, take_item, input_statement, line_input_statement; mild_go;
    first [apply mild_go_line | apply mild_call_line | apply mild_next_round | apply mild_next_all | apply mild_items | apply mild_fields | idtac].
  - destruct gosub; [apply mild_call_line|apply mild_go_line].
  - apply mild_fail. destruct (all_data P); exact I.
Qed.
Lemma step_ordinary s e t : step E P s = Erred e t -> ordinary e.
Proof.
  unfold step. destruct (x_spot s) as [k i]. destruct (nth_error P k) as [[n xs]|]; [|discriminate]. destruct (nth_error xs i) as [x|]; [|discriminate].
  pose proof (mild_perform k xs i x s) as H. destruct (perform E P k xs i x s) as [[|p|] s1|e1 s1|]; try discriminate. intros X. injection X as X _. rewrite <- X. exact H.
Qed.
Lemma steps_ordinary n : forall s e t, steps E P n s = Erred e t -> ordinary e.
Proof. induction n as [|n IH]; intros s e t; [discriminate|]. cbn [steps]. destruct (step E P s) eqn:S; try discriminate; [apply IH|]. intros X. injection X as X _. rewrite <- X. exact (step_ordinary _ _ _ S). Qed.
End Program.
