(* Statements typed at the prompt while tracing (C31). *)
From Coq Require Import Lia ZifyBool ZifyNat ZifyN.
From Verif Require Import Base BaseLemmas Num NumSpec SourceModel LineMapModel LineMapSpec LineMapProofs BcodeModel SymbolModel SymbolSpec
  VmModel VmLemmas VmSpec ControlProofs ValueSpec GrammarSpec TypeSpec StepSpec
  LexModel ParseModel StmtProofs CodeProofs CompileProofs LineSpec LineProofs RunSpec SessionModel MonitorModel MonSpec MonProofs SessionSpec PlaceProofs PromptProofs RunProofs ContProofs TypedProofs SafeProofs SafeCode SafeRun SafeSpec SafeTop SafeInv SafePrompt SafeTraced.
Local Open Scope nat_scope.
Local Open Scope sess_scope.
Local Opaque init_builtins new_symbol_table parse_source.

Lemma marker_below l m p k : filter is_source_line l = map I_SOURCE_LINE (seq 0 m) -> nth_error l p = Some (I_SOURCE_LINE k) -> k < m.
Proof.
  intros F N. assert (X : In (I_SOURCE_LINE k) (filter is_source_line l)) by (apply filter_In; split; [exact (nth_error_In _ _ N)|reflexivity]).
  rewrite F in X. apply in_map_iff in X as (j & J & X). injection J as ->. apply in_seq in X. lia.
Qed.
Lemma index_some kw src st bc st' idx n i : compiled kw src st bc st' -> bcode_index bc src = Some idx -> lookup_line_mapping idx n = Some i -> 0 < length src.
Proof.
  intros [_ (xss & st1 & P & _ & B & _)] I L. destruct src as [|l src]; [exfalso|cbn; lia].
  pose proof (program_length _ _ _ _ _ P) as LE. cbn in LE. destruct xss; [|discriminate LE]. unfold bcode_index in I. rewrite B in I.
  change (Some (insert_all 0 []) = Some idx) in I. injection I as <-. rewrite (line_map_latest 0 [] n) in L. discriminate L.
Qed.
Definition lined_up (v : vm) : Prop := Forall (line_exists v) (v_ret v) /\ Forall (fun f => line_exists v (f_cs f)) (v_for v) /\ line_exists v (fn_cs (v_fn v)).
Lemma exists_lok v c src : line_exists v c -> src = match c_source (v_stored v) with Some a => a | None => [] end -> lok (length src) c.
Proof. intros [C|(C & a & S & L)] ->; unfold lok; rewrite C; [exact Logic.I|]. rewrite S. exact L. Qed.
