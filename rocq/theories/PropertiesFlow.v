(** Properties C20 and C21: the first pass. *)
From Verif Require Import Base ModelNumeric ModelExpr ModelMnemonic ModelAMode ModelState ModelInstr ModelStatement ModelMap ModelModule ModelAssembler
  SpecScope SpecState SpecFlow SpecStable TermProofs FlowArriveProofs FlowKindProofs StableProofs FlowCases.
Open Scope string_scope.
Open Scope list_scope.
Open Scope Z_scope.

(** C20.  The analysis loop of every module ends: some number of iterations is enough.  (It
    need not be a module read from a file: any lines, scopes and labels.) *)
Theorem C20_terminates : forall m, exists N, forall fuel, (N <= fuel)%nat -> run_first_pass fuel m <> OutOfFuel.
Proof. exact first_pass_terminates. Qed.
(** The number does not matter: a run that ends has the same result with any larger bound. *)
Theorem C20_bound_irrelevant : forall fuel fuel' m, (fuel <= fuel')%nat -> run_first_pass fuel m <> OutOfFuel ->
  run_first_pass fuel' m = run_first_pass fuel m.
Proof. exact first_pass_more. Qed.
(** A loop whose head is analysed three times: with x known, then merged with the state after
    the body; the bound is not vacuous (too small a bound does run out). *)
Example C20_case :
  exists m m', load_asm_file [".org $8000"; ".entry m8x8"; "top: NOP"; "LDX #1"; "INX"; "BNE top"; "BRA top"] = Ok m /\
    run_first_pass 4 m = OutOfFuel /\ run_first_pass 30 m = Ok m' /\ run_first_pass 31 m = Ok m'.
Proof. eexists _, _. repeat (split; [vm_compute; reflexivity|]). vm_compute. reflexivity. Qed.
Print Assumptions C20_terminates.
Print Assumptions C20_bound_irrelevant.

(** C21.  The full claim: in every assembled program, an immediate operand has the width the
    processor takes, however execution gets to it.  It is false: when the analysis comes back
    to a statement it replaces the recorded state by the new one instead of merging the two.
    Here the first LDA is executed with an 8-bit accumulator, and assembled with a two-byte
    operand. *)
Definition looping : list string := [".org $8000"; ".entry m8x8"; "top: LDA #$12"; "REP #$20"; "BNE top"; "RTS"].
Definition native8 : cpu := Cpu (Modes false true true false) 0 0 0 0 [].
Theorem C21_refuted :
  ~ forall fuel sk files ws a n file m src o k c l i, assemble fuel sk files = (ws, Ok a) ->
      nth_error files n = Some file -> nth_error (as_mods a) n = Some m -> SpecScope.reads file src -> tracked src ->
      arrives src o k c -> nth_error (md_lines m) k = Some l -> ln_stmt l = SInstr i -> immediate_fits i (c_modes c).
Proof.
  intros H.
  destruct (assembled_ok looping 2 (Instr M_lda S_none A_imm_w (Some (ELit 18 T_byte)) None RC_default)) as (ws & a & m & l & A & M & L & S);
    [vm_compute; reflexivity|].
  assert (R : SpecScope.reads looping (source_of looping)) by (apply source_of_ok; vm_compute; reflexivity).
  assert (AR : arrives (source_of looping) native8 2 native8).
  { apply (ar_entry _ _ 1 (Directive D_entry None (RawFlags B_off B_on B_on B_unknown) RC_default [])); [vm_compute; reflexivity|reflexivity|discriminate|repeat split]. }
  assert (T : tracked (source_of looping)) by (apply tracked_ok; vm_compute; reflexivity).
  destruct (H _ _ _ _ _ 0%nat _ _ _ _ _ _ _ _ A eq_refl M R T AR L S) as [F _].
  destruct F as [_ F]; [cbn; tauto|]. discriminate (F eq_refl).
Qed.
(** What holds of all programs, loops included.  Execution only arrives at statements the
    analysis has reached, never at data and never behind the last statement. *)
Theorem C21_reached : forall fuel sk files ws a n file m src o k c, assemble fuel sk files = (ws, Ok a) ->
  nth_error files n = Some file -> nth_error (as_mods a) n = Some m -> SpecScope.reads file src -> tracked src ->
  arrives src o k c ->
  exists l, nth_error (md_lines m) k = Some l /\ ln_reached l = true /\
    forall d, ln_stmt l = SDir d -> ~ In (d_name d) [D_db; D_dw; D_dl; D_org].
Proof. exact arrivals_reached. Qed.
(** The statements reached by the analysis are those to which there is a way from some
    .entry: it forgets no branch and does not run on behind a return. *)
Theorem C21_exactly_reached : forall fuel sk files ws a n file m src k l, assemble fuel sk files = (ws, Ok a) ->
  nth_error files n = Some file -> nth_error (as_mods a) n = Some m -> SpecScope.reads file src ->
  nth_error (md_lines m) k = Some l -> (ln_reached l = true <-> path src k).
Proof. exact reached_path. Qed.
(** An immediate operand of an instruction with a size suffix has the width the processor
    takes. *)
Theorem C21_suffix : forall fuel sk files ws a n file m src o k c l i, assemble fuel sk files = (ws, Ok a) ->
  nth_error files n = Some file -> nth_error (as_mods a) n = Some m -> SpecScope.reads file src -> tracked src ->
  arrives src o k c -> nth_error (md_lines m) k = Some l -> ln_stmt l = SInstr i -> i_suffix i <> S_none ->
  immediate_fits i (c_modes c).
Proof. exact suffix_sound. Qed.
(** Without backward branches the recorded state describes the processor at every arrival, and
    immediate operands have the width it takes.  (Missing: modules with loops.) *)
Theorem C21_forward_partial : forall fuel sk files ws a n file m src o k c l, assemble fuel sk files = (ws, Ok a) ->
  nth_error files n = Some file -> nth_error (as_mods a) n = Some m -> SpecScope.reads file src -> tracked src ->
  forward src -> arrives src o k c -> nth_error (md_lines m) k = Some l ->
  describes_modes o (ln_in l) c /\ forall i, ln_stmt l = SInstr i -> immediate_fits i (c_modes c).
Proof. exact forward_exact. Qed.
(** With loops, if the module stays in one known mode.  (Missing: modules that change modes.) *)
Theorem C21_steady_partial : forall fuel sk files ws a n file m src f o k c l i, assemble fuel sk files = (ws, Ok a) ->
  nth_error files n = Some file -> nth_error (as_mods a) n = Some m -> SpecScope.reads file src -> steady f src ->
  arrives src o k c -> nth_error (md_lines m) k = Some l -> ln_stmt l = SInstr i -> immediate_fits i (c_modes c).
Proof. exact steady_fits. Qed.
(** With loops and mode changes, if one more round of the analysis would change nothing: every
    recorded state includes what the statements leading there pass on.  The analysis of the
    code does not make sure of this (C21_refuted), and replacing a recorded state is the only
    way for it to go wrong.  (Missing: modules the analysis leaves before that.) *)
Theorem C21_stable_partial : forall fuel sk files ws a n file m src o k c l, assemble fuel sk files = (ws, Ok a) ->
  nth_error files n = Some file -> nth_error (as_mods a) n = Some m -> SpecScope.reads file src -> tracked src ->
  stable src (md_lines m) -> arrives src o k c -> nth_error (md_lines m) k = Some l ->
  describes_modes o (ln_in l) c /\ forall i, ln_stmt l = SInstr i -> immediate_fits i (c_modes c).
Proof. exact stable_exact. Qed.

(** A loop with a suffix, entered with the accumulator 8 bits wide; the branch is taken. *)
Definition suffixed : list string := [".org $8000"; ".entry m8x8"; "top: LDA.b #$12"; "PHP"; "REP #$20"; "LDA.w #$12"; "PLP"; "BNE top"; "RTS"].
Definition php8 : cpu := Cpu (Modes false true true false) 0 0 0 0 [48].
Definition wide : cpu := Cpu (Modes false false true false) 0 0 0 0 [48].
Lemma suffixed_arrives : forall k c, In (k, c) [(2%nat, native8); (3%nat, native8); (4%nat, php8); (5%nat, wide); (6%nat, wide); (7%nat, native8)] ->
  arrives (source_of suffixed) native8 k c.
Proof.
  assert (A2 : arrives (source_of suffixed) native8 2 native8).
  { apply (ar_entry _ _ 1 (Directive D_entry None (RawFlags B_off B_on B_on B_unknown) RC_default [])); [vm_compute; reflexivity|reflexivity|discriminate|repeat split]. }
  assert (A3 : arrives (source_of suffixed) native8 3 native8).
  { eapply (ar_next _ _ 2 _ 18); [exact A2|vm_compute; reflexivity|intros [H|H]; [cbn in H; intuition discriminate|discriminate H]| |].
    - intros e w E M. cbn in E. injection E as <-. inversion M. reflexivity.
    - split; reflexivity. }
  assert (A4 : arrives (source_of suffixed) native8 4 php8).
  { eapply (ar_next _ _ 3 _ 0); [exact A3|vm_compute; reflexivity|intros [H|H]; [cbn in H; intuition discriminate|discriminate H]| |].
    - intros e w E M. discriminate E.
    - split; [reflexivity|]. exists 48. split; [repeat split|reflexivity]. }
  assert (A5 : arrives (source_of suffixed) native8 5 wide).
  { eapply (ar_next _ _ 4 _ 32); [exact A4|vm_compute; reflexivity|intros [H|H]; [cbn in H; intuition discriminate|discriminate H]| |].
    - intros e w E M. cbn in E. injection E as <-. inversion M. reflexivity.
    - split; reflexivity. }
  assert (A6 : arrives (source_of suffixed) native8 6 wide).
  { eapply (ar_next _ _ 5 _ 18); [exact A5|vm_compute; reflexivity|intros [H|H]; [cbn in H; intuition discriminate|discriminate H]| |].
    - intros e w E M. cbn in E. injection E as <-. inversion M. reflexivity.
    - split; reflexivity. }
  assert (A7 : arrives (source_of suffixed) native8 7 native8).
  { eapply (ar_next _ _ 6 _ 0); [exact A6|vm_compute; reflexivity|intros [H|H]; [cbn in H; intuition discriminate|discriminate H]| |].
    - intros e w E M. discriminate E.
    - exists 48. split; reflexivity. }
  intros k c H. cbn [In] in H. repeat (destruct H as [H|H]; [injection H as <- <-; assumption|]). destruct H.
Qed.
Example C21_suffix_case : tracked (source_of suffixed) /\ SpecScope.reads suffixed (source_of suffixed) /\
  arrives (source_of suffixed) native8 5 wide /\ arrives (source_of suffixed) native8 2 native8 /\
  assembled_instr suffixed 5 = Some (Instr M_lda S_w A_imm_w (Some (ELit 18 T_byte)) None RC_default) /\
  assembled_instr suffixed 2 = Some (Instr M_lda S_b A_imm_b (Some (ELit 18 T_byte)) None RC_default).
Proof.
  split; [apply tracked_ok; vm_compute; reflexivity|]. split; [apply source_of_ok; vm_compute; reflexivity|].
  split; [apply suffixed_arrives; cbn; tauto|]. split; [apply suffixed_arrives; cbn; tauto|]. split; vm_compute; reflexivity.
Qed.
(** Nothing falls into the mode switch behind the return, while the loop is entered from below. *)
Definition behind : list string := [".org $8000"; ".entry m8x8"; "top: BEQ over"; "RTS"; ".mode m16x8"; ".entry emu"; "over: JSR fun"; "BRA top"; ".entry m8x8"; "fun: RTS"].
Example C21_exactly_reached_case : SpecScope.reads behind (source_of behind) /\ reached_lines behind = Some [false; false; true; true; false; false; true; true; false; true].
Proof. split; [apply source_of_ok; vm_compute; reflexivity|vm_compute; reflexivity]. Qed.
(** A forward branch around code in another mode, and a switch to native mode. *)
Definition skipping : list string :=
  [".org $8000"; ".entry emu"; "LDA #$12"; "BEQ skip"; "LDA #$34"; "skip: CLC"; "XCE"; "REP #$20"; "LDA #$12"; "RTS"].
Example C21_forward_case : SpecScope.reads skipping (source_of skipping) /\ tracked (source_of skipping) /\ forward (source_of skipping) /\
  option_map i_mode (assembled_instr skipping 2) = Some A_imm_b /\ option_map i_mode (assembled_instr skipping 8) = Some A_imm_w.
Proof.
  assert (R : SpecScope.reads skipping (source_of skipping)) by (apply source_of_ok; vm_compute; reflexivity).
  split; [exact R|]. split; [apply tracked_ok; vm_compute; reflexivity|].
  split; [apply (forward_ok _ _ R); vm_compute; reflexivity|]. split; vm_compute; reflexivity.
Qed.
(** A loop in one mode. *)
Definition repeating : list string := [".org $8000"; ".entry m16x8"; "top: LDX #1"; "LDA #$12"; "BNE top"; "RTS"].
Example C21_steady_case : SpecScope.reads repeating (source_of repeating) /\ steady (RawFlags B_off B_off B_on B_unknown) (source_of repeating) /\
  option_map i_mode (assembled_instr repeating 2) = Some A_imm_b /\ option_map i_mode (assembled_instr repeating 3) = Some A_imm_w.
Proof.
  split; [apply source_of_ok; vm_compute; reflexivity|]. split; [apply steady_ok; vm_compute; reflexivity|]. split; vm_compute; reflexivity.
Qed.
(** A loop that changes the mode and changes it back, around a subroutine that keeps it; and the
    loop of C21_refuted does not meet the condition. *)
Definition restoring : list string :=
  [".org $8000"; ".entry m8x8"; "top: LDA #$12"; "PHP"; "REP #$30"; "LDX #$1234"; "JSR top"; "PLP"; "BNE top"; "SEP #$20"; "LDA #$34"; "BRA top"].
Example C21_stable_case : SpecScope.reads restoring (source_of restoring) /\ tracked (source_of restoring) /\
  stable (source_of restoring) (assembled_lines restoring) /\
  option_map i_mode (assembled_instr restoring 2) = Some A_imm_b /\ option_map i_mode (assembled_instr restoring 5) = Some A_imm_w /\
  option_map i_mode (assembled_instr restoring 10) = Some A_imm_b /\ stable_b looping (source_of looping) (assembled_lines looping) = false.
Proof.
  assert (R : SpecScope.reads restoring (source_of restoring)) by (apply source_of_ok; vm_compute; reflexivity).
  split; [exact R|]. split; [apply tracked_ok; vm_compute; reflexivity|].
  split; [apply (stable_ok _ _ _ R); vm_compute; reflexivity|]. repeat (split; [vm_compute; reflexivity|]). vm_compute. reflexivity.
Qed.
Print Assumptions C21_refuted.
Print Assumptions C21_reached.
Print Assumptions C21_exactly_reached.
Print Assumptions C21_suffix.
Print Assumptions C21_forward_partial.
Print Assumptions C21_steady_partial.
Print Assumptions C21_stable_partial.
