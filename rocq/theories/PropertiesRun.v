(** Property C64: the processor runs an assembled program as its source says. *)
From Verif Require Import Base ModelNumeric ModelExpr ModelMnemonic ModelAMode ModelState ModelInstr ModelStatement ModelMap ModelModule ModelAssembler
  Spec65816 SpecArith SpecInstr SpecScope SpecLayout SpecState SpecAssemble SpecFlow SpecStable SpecRun ScopeProofs FlowCases RunProofs RunCases CompleteProofs.
Open Scope string_scope.
Open Scope list_scope.
Open Scope Z_scope.

(** C64.  The bytes of an assembled program are in the memory, and the processor starts at an
    .entry in a state of which the entry's flags are true.  It does what the bytes tell it.
    Then wherever it arrives, it is at an instruction of the source (or between the CLC and
    the ADC of an ADD, or the SEC and the SBC of a SUB): the source can be executed up to there
    with the same modes and stack, the opcode in the memory is that of the statement, and the
    processor takes as many bytes as were assembled for it. *)
Theorem C64_follows : forall fuel sk files ws a n file m src o mem conv k0 d0 a0 pc c, assemble fuel sk files = (ws, Ok a) -> nth_error files n = Some file ->
  nth_error (as_mods a) n = Some m -> SpecScope.reads file src -> tracked src -> fenced src -> predictable src m -> in_memory ws mem -> modes_true src o -> calls_true src m conv ->
  stmt_at src k0 (SDir d0) -> d_name d0 = D_entry -> stands m k0 a0 -> mem_arrives mem conv a0 (d_flags d0) o pc c ->
  exists k i, begins src m mem o k i pc c \/ continues src m mem o k i pc c.
Proof. exact program_follows. Qed.

(** A loop that widens the registers, adds, and restores them. *)
Definition adding : list string :=
  [".org $8000"; ".entry m8x8"; "top: PHP"; "REP #$30"; "ADD #$0102"; "PLP"; "BNE top"; "RTS"].
Definition narrow : cpu := Cpu (Modes false true true true) 0 0 0 0 [].
Definition pushed : cpu := Cpu (Modes false true true true) 0 0 0 0 [49].
Definition wide : cpu := Cpu (Modes false false false true) 0 0 0 0 [49].
Definition wide0 : cpu := Cpu (Modes false false false false) 0 0 0 0 [49].
Definition entered : directive := Directive D_entry None (RawFlags B_off B_on B_on B_unknown) RC_default [].
Definition adding_runs (pc : Z) (c : cpu) : Prop := mem_arrives (memory_of (written_by adding)) no_conv 0x8000 (d_flags entered) narrow pc c.
Ltac no_stop := let X := fresh in intros [X|X]; [cbn in X; intuition discriminate|discriminate X].
Lemma adding_runs_ok : adding_runs 0x8004 wide0 /\ adding_runs 0x8000 narrow /\ adding_runs 0x800A narrow.
Proof.
  assert (A0 : adding_runs 0x8000 narrow) by (constructor; [discriminate|repeat split]).
  assert (A1 : adding_runs 0x8001 pushed).
  { change 0x8001 with (same_bank_plus 0x8000 (fetch_length (memory_of (written_by adding)) 0x8000 narrow)).
    apply (me_next _ _ _ _ _ _ _ _ (Instr M_php S_none A_imp None None RC_default) A0); [split; vm_compute; reflexivity|no_stop|].
    split; [reflexivity|]. exists 49. split; [repeat split|reflexivity]. }
  assert (A3 : adding_runs 0x8003 wide).
  { change 0x8003 with (same_bank_plus 0x8001 (fetch_length (memory_of (written_by adding)) 0x8001 pushed)).
    apply (me_next _ _ _ _ _ _ _ _ (Instr M_rep S_none A_imm_b None None RC_default) A1); [split; vm_compute; reflexivity|no_stop|]. split; vm_compute; reflexivity. }
  assert (A4 : adding_runs 0x8004 wide0).
  { change 0x8004 with (same_bank_plus 0x8003 (fetch_length (memory_of (written_by adding)) 0x8003 wide)).
    apply (me_next _ _ _ _ _ _ _ _ (Instr M_clc S_none A_imp None None RC_default) A3); [split; vm_compute; reflexivity|no_stop|]. split; vm_compute; reflexivity. }
  assert (A7 : adding_runs 0x8007 wide).
  { change 0x8007 with (same_bank_plus 0x8004 (fetch_length (memory_of (written_by adding)) 0x8004 wide0)).
    apply (me_next _ _ _ _ _ _ _ _ (Instr M_adc S_none A_imm_w None None RC_default) A4); [split; vm_compute; reflexivity|no_stop|]. split; [exists true; reflexivity|reflexivity]. }
  assert (A8 : adding_runs 0x8008 narrow).
  { change 0x8008 with (same_bank_plus 0x8007 (fetch_length (memory_of (written_by adding)) 0x8007 wide)).
    apply (me_next _ _ _ _ _ _ _ _ (Instr M_plp S_none A_imp None None RC_default) A7); [split; vm_compute; reflexivity|no_stop|]. exists 49. split; reflexivity. }
  split; [exact A4|]. split.
  - apply (me_branch _ _ _ _ _ _ _ _ (Instr M_bne S_none A_rel8 None None RC_default) 0x8000 A8); [split; vm_compute; reflexivity|cbn; tauto|vm_compute; reflexivity|]. repeat split.
  - change 0x800A with (same_bank_plus 0x8008 (fetch_length (memory_of (written_by adding)) 0x8008 narrow)).
    apply (me_next _ _ _ _ _ _ _ _ (Instr M_bne S_none A_rel8 None None RC_default) A8); [split; vm_compute; reflexivity|no_stop|]. split; reflexivity.
Qed.
Example C64_follows_case : exists a m, assemble 99 any [adding] = (written_by adding, Ok a) /\ nth_error (as_mods a) 0 = Some m /\
  SpecScope.reads adding (source_of adding) /\ tracked (source_of adding) /\ fenced (source_of adding) /\ predictable (source_of adding) m /\
  in_memory (written_by adding) (memory_of (written_by adding)) /\ modes_true (source_of adding) narrow /\ calls_true (source_of adding) m no_conv /\
  stmt_at (source_of adding) 1 (SDir entered) /\ stands m 1 0x8000 /\ adding_runs 0x8004 wide0 /\ adding_runs 0x8000 narrow /\ adding_runs 0x800A narrow.
Proof.
  destruct (assembled_in adding) as (a & m & A & M & L); [vm_compute; discriminate|]. exists a, m. split; [exact A|]. split; [exact M|].
  assert (R : SpecScope.reads adding (source_of adding)) by (apply source_of_ok; vm_compute; reflexivity). split; [exact R|].
  split; [apply tracked_ok; vm_compute; reflexivity|]. destruct (plain_ok (source_of adding) m narrow) as (P1 & P2 & P3); [vm_compute; reflexivity|]. split; [exact P1|].
  split; [do 3 right; rewrite L; apply (stable_ok _ _ _ R); vm_compute; reflexivity|]. split; [apply in_memory_ok; vm_compute; reflexivity|]. split; [exact P2|]. split; [exact P3|].
  split; [vm_compute; reflexivity|]. split; [|exact adding_runs_ok].
  apply (stand_ok _ _ _ _ _ A M L). vm_compute. reflexivity.
Qed.
Print Assumptions C64_follows.

(** Conversely, whatever the source can do the processor does: wherever the source can be
    executed to an instruction, the instruction has an address, and from some .entry the
    processor arrives there with the same modes and stack, and finds its opcode and as many
    bytes as it takes.  (REP and SEP have constant operands here, for which the source says
    what they do.) *)
Theorem C64_complete : forall fuel sk files ws a n file m src o mem conv k i c, assemble fuel sk files = (ws, Ok a) -> nth_error files n = Some file ->
  nth_error (as_mods a) n = Some m -> SpecScope.reads file src -> tracked src -> fenced src -> predictable src m -> in_memory ws mem -> modes_true src o -> calls_true src m conv ->
  status_known src -> only_calls mem conv -> arrives src o k c -> stmt_at src k (SInstr i) ->
  exists k0 d0 a0 pc, stmt_at src k0 (SDir d0) /\ d_name d0 = D_entry /\ stands m k0 a0 /\ mem_arrives mem conv a0 (d_flags d0) o pc c /\ begins src m mem o k i pc c.
Proof. exact source_executed. Qed.
(** The other conditions are met by [adding], see above. *)
Lemma adding_status : status_known (source_of adding) /\ only_calls (memory_of (written_by adding)) no_conv.
Proof.
  split; [|intros pc X; contradiction]. intros k i ST IN.
  do 8 (destruct k as [|k]; [vm_compute in ST; (discriminate ST || injection ST as <-); first [cbn in IN; intuition discriminate|do 2 eexists; split; [reflexivity|apply m_lit]]|]).
  destruct k; discriminate ST.
Qed.
Lemma adding_arrives : exists i, stmt_at (source_of adding) 4 (SInstr i) /\ i_mnem i = PM_add /\ arrives (source_of adding) narrow 4 wide.
Proof.
  assert (A2 : arrives (source_of adding) narrow 2 narrow) by (apply (ar_entry (source_of adding) narrow 1 entered); [vm_compute; reflexivity|reflexivity|discriminate|repeat split]).
  assert (A3 : arrives (source_of adding) narrow 3 pushed).
  { eapply (ar_next _ _ 2 _ 0); [exact A2|vm_compute; reflexivity|no_stop|intros e v X; discriminate X|]. split; [reflexivity|]. exists 49. split; [repeat split|reflexivity]. }
  eexists. split; [vm_compute; reflexivity|]. split; [reflexivity|].
  eapply (ar_next _ _ 3 _ 0x30); [exact A3|vm_compute; reflexivity|no_stop| |].
  - intros e v E ME. cbn in E. injection E as <-. inversion ME. reflexivity.
  - split; vm_compute; reflexivity.
Qed.
Example C64_complete_case : status_known (source_of adding) /\ only_calls (memory_of (written_by adding)) no_conv /\
  exists i, stmt_at (source_of adding) 4 (SInstr i) /\ i_mnem i = PM_add /\ arrives (source_of adding) narrow 4 wide.
Proof. split; [apply adding_status|]. split; [apply adding_status|exact adding_arrives]. Qed.
Print Assumptions C64_complete.

(** Without the condition on the analysis this is false: the first instruction of this loop is
    assembled with a two-byte operand, of which the processor takes one (see C21_refuted).  It
    goes on to execute the high byte, where no statement stands. *)
Definition looping : list string := [".org $8000"; ".entry m8x8"; "top: LDA #$12"; "REP #$20"; "BNE top"; "RTS"].
Theorem C64_refuted :
  ~ forall fuel sk files ws a n file m src o mem conv k0 d0 a0 pc c, assemble fuel sk files = (ws, Ok a) -> nth_error files n = Some file ->
      nth_error (as_mods a) n = Some m -> SpecScope.reads file src -> tracked src -> fenced src -> in_memory ws mem -> modes_true src o -> calls_true src m conv ->
      stmt_at src k0 (SDir d0) -> d_name d0 = D_entry -> stands m k0 a0 -> mem_arrives mem conv a0 (d_flags d0) o pc c ->
      exists k i, begins src m mem o k i pc c \/ continues src m mem o k i pc c.
Proof.
  intros H. destruct (assembled_in looping) as (a & m & A & M & L); [vm_compute; discriminate|].
  assert (R : SpecScope.reads looping (source_of looping)) by (apply source_of_ok; vm_compute; reflexivity).
  assert (T : tracked (source_of looping)) by (apply tracked_ok; vm_compute; reflexivity).
  destruct (plain_ok (source_of looping) m narrow) as (P1 & P2 & P3); [vm_compute; reflexivity|].
  assert (IM : in_memory (written_by looping) (memory_of (written_by looping))) by (apply in_memory_ok; vm_compute; reflexivity).
  assert (ST : stmt_at (source_of looping) 1 (SDir entered)) by (vm_compute; reflexivity).
  assert (SD : stands m 1 0x8000) by (apply (stand_ok _ _ _ _ _ A M L); vm_compute; reflexivity).
  assert (MA : mem_arrives (memory_of (written_by looping)) no_conv 0x8000 (d_flags entered) narrow 0x8002 narrow).
  { change 0x8002 with (same_bank_plus 0x8000 (fetch_length (memory_of (written_by looping)) 0x8000 narrow)).
    assert (A0 : mem_arrives (memory_of (written_by looping)) no_conv 0x8000 (d_flags entered) narrow 0x8000 narrow) by (apply me_start; [discriminate|repeat split]).
    apply (me_next _ _ _ _ _ _ _ _ (Instr M_lda S_none A_imm_b None None RC_default) A0); [split; vm_compute; reflexivity|no_stop|]. split; reflexivity. }
  assert (NS : forall k i, stmt_at (source_of looping) k (SInstr i) -> is_pseudo (i_mnem i) = false /\ ~ stands m k 0x8002).
  { intros k i SK. split; [apply (pseudo_free_ok (source_of looping) k); [vm_compute; reflexivity|exact SK]|]. apply (nowhere_ok _ _ _ _ _ A M L). vm_compute. reflexivity. }
  destruct (H _ _ _ _ _ 0%nat _ _ _ _ _ _ _ _ _ _ _ A eq_refl M R T P1 IM P2 P3 ST eq_refl SD MA) as (k & i & [(_ & SK & SX & _)|(adr & c0 & (_ & SK & _) & P & _)]).
  - destruct (NS _ _ SK) as [_ N]. contradiction.
  - destruct (NS _ _ SK) as [N _]. congruence.
Qed.
Print Assumptions C64_refuted.

(** A jump or call of a label leads to the statement of the label exactly if the address is
    assembled with 24 bits or the label is in the same bank: nothing checks the bank. *)
Theorem C64_jump : forall fuel sk files ws a n file m src mem k i pc nm ty t adr l i', assemble fuel sk files = (ws, Ok a) -> nth_error files n = Some file ->
  nth_error (as_mods a) n = Some m -> SpecScope.reads file src -> in_memory ws mem -> stmt_at src k (SInstr i) -> stands m k pc ->
  In (i_mnem i) [M_jmp; M_jsr; M_jsl] -> nth_error (md_lines m) k = Some l -> ln_stmt l = SInstr i' -> In (i_mode i') [A_dir_w; A_dir_l] ->
  i_arg1 i = Some (EId (FullId None nm) ty) -> denotes src (Z.of_nat k) nm t -> stands m (Z.to_nat t) adr -> addr24 adr ->
  (jump_target mem pc = Some adr <-> i_mode i' = A_dir_l \/ bank_of adr = bank_of pc).
Proof. exact jump_leads. Qed.
(** JSR into the next bank calls the JSR itself; JSL with a 24-bit address goes there, and so
    does JSR within the bank. *)
Definition calling : list string :=
  [".org $8000"; ".entry m8x8"; "top: JSR far"; "JSL @far"; "JSR near"; "RTS"; ".entry m8x8"; "near: RTL"; ".org $18000"; ".entry m8x8"; "far: RTL"].
Example C64_jump_case : exists a m, assemble 99 any [calling] = (written_by calling, Ok a) /\ nth_error (as_mods a) 0 = Some m /\
  SpecScope.reads calling (source_of calling) /\ in_memory (written_by calling) (memory_of (written_by calling)) /\
  (forall k, In k [2; 3]%nat -> denotes (source_of calling) (Z.of_nat k) "far" 10) /\ denotes (source_of calling) 4 "near" 7 /\
  stands m 2 0x8000 /\ stands m 3 0x8003 /\ stands m 4 0x8007 /\ stands m 7 0x800B /\ stands m 10 0x18000 /\
  map (fun k => option_map i_mode (assembled_instr calling k)) [2; 3; 4]%nat = [Some A_dir_w; Some A_dir_l; Some A_dir_w] /\
  map (jump_target (memory_of (written_by calling))) [0x8000; 0x8003; 0x8007] = [Some 0x8000; Some 0x18000; Some 0x800B].
Proof.
  destruct (assembled_in calling) as (a & m & A & M & L); [vm_compute; discriminate|]. exists a, m. split; [exact A|]. split; [exact M|].
  assert (R : SpecScope.reads calling (source_of calling)) by (apply source_of_ok; vm_compute; reflexivity). split; [exact R|].
  split; [apply in_memory_ok; vm_compute; reflexivity|].
  assert (D : forall k n t, denoted calling k n = Some (Some t) -> denotes (source_of calling) (Z.of_nat k) n t) by (intros k n t E; apply (denoted_ok _ _ _ _ _ R E); reflexivity).
  split; [intros k [<-|[<-|[]]]; apply D; vm_compute; reflexivity|]. split; [apply (D 4%nat); vm_compute; reflexivity|].
  do 5 (split; [apply (stand_ok _ _ _ _ _ A M L); vm_compute; reflexivity|]). split; vm_compute; reflexivity.
Qed.
Print Assumptions C64_jump.
