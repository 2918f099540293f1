(* What the entry points of run.c do to a session. *)
From Coq Require Import Lia ZifyBool ZifyNat ZifyN.
From Verif Require Import Base BaseLemmas Num SourceModel SourceSpec LineMapModel BcodeModel SymbolModel SymbolSpec LexModel ParseModel
  GrammarSpec CompileProofs LineSpec VmModel VmSpec SessionModel LineProofs.
Local Open Scope nat_scope.
Local Opaque init_builtins new_symbol_table parse_source.

Lemma increasing_distinct src : increasing src -> distinct_lines src.
Proof.
  unfold increasing, distinct_lines. induction (map ln_num src) as [|n l IH]; intros H; [constructor|]. inversion H; subst. constructor; auto.
  intros I. rewrite Forall_forall in H3. specialize (H3 _ I). lia.
Qed.

Lemma ensure_compiles s s' src : ensure_program_compiled s = XOk true s' -> v_stored (ss_vm s) = mkCode (Some src) None None ->
  exists xss bc idx st, loaded (ss_vm s') src xss /\
    ss_vm s' = reset_control_state (set_stored (mkCode (Some src) (Some bc) (Some idx)) (set_st st (ss_vm s))) /\
    parse_source src (init_builtins new_symbol_table) (o_anywhere (v_opt (ss_vm s))) = PoOk (Some bc) None st.
Proof.
  intros H S. unfold ensure_program_compiled in H. unfold xbind at 1, get_vm at 1 in H. rewrite S in H. cbn [c_source c_bcode c_index] in H.
  unfold xbind at 1, xret at 1 in H. unfold xbind at 1, vm_clear_names, mod_vm at 1 in H.
  unfold xbind at 1, compile at 1 in H. unfold clear_symbol_table_names in H. cbn [ss_vm set_vm v_st set_st] in H.
  pose proof (compile_outcome src _ (o_anywhere (v_opt (ss_vm s))) fine_init) as C.
  destruct (parse_source src (init_builtins new_symbol_table) (o_anywhere (v_opt (ss_vm s)))) as [[bc|] e st' | | |]; try discriminate H.
  - destruct C as [-> [F (xss & st1 & P & E1 & E2 & E3)]]. cbv beta iota zeta in H. destruct (bcode_index bc src) as [idx|] eqn:Q; [|unfold xexit in H; discriminate H].
    unfold xbind, mod_vm, xret in H. injection H as <-. exists xss, bc, idx, st'. cbn [ss_vm set_vm]. split; [|split; reflexivity].
    exists (o_anywhere (v_opt (ss_vm s))), bc, idx, st1. auto.
  - destruct e as [x|]; [|exfalso; destruct C; congruence]. cbn in H. discriminate H.
Qed.
