(* What the machine does with numbers and their text (C32). *)
From Coq Require Import Lia ZifyBool ZifyNat ZifyN SpecFloat.
From Verif Require Import Base Num NumSpec TextNumSpec BaseLemmas BcodeModel SymbolModel VmModel VmSpec OpSpec ValueSpec ValueProofs ControlProofs OpProofs PrintSpec PrintProofs
  StoreSpec DataSpec GrammarSpec EvalSpec InputSpec TextNumProofs.
Local Notation num := Num.num.
Local Notation plain := TextNumSpec.plain.
Local Notation blanks := TextNumSpec.blanks.
Local Open Scope list_scope.
Local Open Scope Z_scope.

Lemma str_gives E v x st z : current v = Some I_STR -> v_stack v = x :: st -> (length (v_sstack v) < 8)%nat -> number_is x z -> Z.abs z < 10 ^ 6 ->
  exists t, plain z t /\ reads_as t x /\ gives E v st (t :: v_sstack v).
Proof.
  intros C S L X Z. pose proof (number_fofZ x z (small_exact z Z) X) as ->. pose proof (format_plain z Z) as F. exists (format_g (fofZ z)). split; [exact F|]. split.
  - pose proof (plain_reads [] z _ [] (small_exact z Z) F (Forall_nil _) (Forall_nil _)) as R. cbn [app] in R. rewrite app_nil_r in R. exact R.
  - eapply gives_intro; [exact C|]. cbn [exec_instr]. rewrite (bind_pop _ v _ st S). apply adv_ok. unfold push_str. cbn [v_sstack set_stack]. destruct (Nat.leb_spec MAX_STR_STACK (length (v_sstack v))) as [Q|_]; [exfalso; unfold MAX_STR_STACK in Q; lia|]. destruct v; reflexivity.
Qed.
Lemma print_gives E v x st z : current v = Some I_PRINT_NUM -> v_stack v = x :: st -> number_is x z -> Z.abs z < 10 ^ 6 ->
  exists t, plain z t /\ prints E v (SP :: t ++ [SP]) (column_after (v_col v) (map OB (SP :: t ++ [SP]))) st (v_sstack v).
Proof.
  intros C S X Z. pose proof (number_fofZ x z (small_exact z Z) X) as ->. exists (format_g (fofZ z)). split; [exact (format_plain z Z)|]. exact (print_number E v _ st C S).
Qed.
Lemma val_gives E v s ss : current v = Some I_VAL -> v_sstack v = s :: ss ->
  (forall x, reads_as s x -> (length (v_stack v) < 16)%nat -> gives E v (x :: v_stack v) ss) /\
  ((forall x, ~ reads_as s x) -> raises E v (RE_number s)).
Proof.
  intros C S. split.
  - intros x R L. apply convert_iff in R. eapply gives_intro; [exact C|]. cbn [exec_instr]. rewrite (bind_pop_str _ v s ss S), R. apply adv_ok. rewrite push_room by exact L. destruct v; reflexivity.
  - intros N. unfold raises. rewrite (execute_eq E v _ C). cbn [exec_instr]. rewrite (bind_pop_str _ v s ss S). destruct (convert s) as [[x [|c r]]|] eqn:CV; [exfalso; apply (N x), convert_iff, CV| |]; (eexists; split; [reflexivity|]; split; reflexivity).
Qed.
Lemma read_number s : (forall x, item_value Numbers s = Some (Number x) <-> reads_as s x) /\ (item_value Numbers s = None <-> forall x, ~ reads_as s x).
Proof.
  cbn [item_value]. split.
  - intros x. rewrite <- convert_iff. destruct (convert s) as [[y [|c r]]|]; split; intros H; try discriminate H; injection H as ->; reflexivity.
  - split; [intros H x R; apply convert_iff in R; rewrite R in H; discriminate H|]. intros N. destruct (convert s) as [[y [|c r]]|] eqn:CV; try reflexivity. exfalso. apply (N y), convert_iff, CV.
Qed.
Lemma input_number p s : pl_type p = TNum -> (forall x, field_value p s = Some (Number x) <-> reads_as s x) /\ (field_value p s = None <-> forall x, ~ reads_as s x).
Proof. intros T. unfold field_value. rewrite T. exact (read_number s). Qed.
Lemma reads_back b z t c : Z.abs z < 2 ^ 53 -> plain z t -> blanks b -> blanks c -> exists x, number_is x z /\ reads_as (b ++ t ++ c) x.
Proof. intros Z P B C. exists (fofZ z). split; [exact (fofZ_number z Z)|exact (plain_reads b z t c Z P B C)]. Qed.
