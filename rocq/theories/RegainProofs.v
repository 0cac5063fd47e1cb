(** quick_disassemble finds an assembled program again. *)
From Verif Require Import Base ModelNumeric ModelExpr ModelMnemonic ModelAMode ModelOpcode ModelState ModelInstr ModelToken ModelStatement
  ModelParse ModelMap ModelModule ModelAssembler ModelRom ModelDisasm ModelTools Spec65816 SpecArith SpecText SpecInstr SpecRom SpecScope SpecLayout SpecState SpecAssemble SpecSafe SpecFlow SpecStable SpecDisasm SpecTools SpecListing SpecRun SpecMeet SpecCross
  BaseProofs MapProofs ArithProofs NameProofs ModeProofs InstrProofs StateProofs ExecProofs RomProofs OrderProofs LoadProofs ScopeProofs PassProofs LayoutProofs ProgramProofs
  RunProofs CompleteProofs DisClosedProofs ToolRunProofs MeetProofs CircleProofs CrossProofs.
Open Scope string_scope.
Open Scope list_scope.
Open Scope Z_scope.
Local Opaque decode_opcode encode_opcode execute_in check_consistency is_legal_combination execute_branch.

Lemma none_told : forall pc op rest, convention [] pc op rest = RC_default.
Proof. intros pc op rest. unfold convention. destruct (direct_target pc op rest); [|reflexivity]. destruct (in_names op _); reflexivity. Qed.

Lemma begins_in : forall fuel sk files ws a n src m mem o k i pc c, assemble fuel sk files = (ws, Ok a) -> part files a n src m -> begins src m mem o k i pc c -> addr24 pc.
Proof.
  intros fuel sk files ws a n src m mem o k i pc c H (file & NF & NM & RD) (_ & ST & SD & _).
  apply (placed_at _ _ _ _ _ _ _ _ _ _ _ pc H NF NM RD ST) in SD; [eapply next_address_range; apply SD|intros dd E; discriminate E].
Qed.
Lemma here_in : forall fuel sk files ws a n src m mem o k i pc c, assemble fuel sk files = (ws, Ok a) -> part files a n src m ->
  begins src m mem o k i pc c \/ continues src m mem o k i pc c -> addr24 pc.
Proof.
  intros fuel sk files ws a n src m mem o k i pc c H P [B|(adr & c0 & B & _ & -> & _)]; [|apply same_bank_plus_24]; eapply begins_in; eassumption.
Qed.
Definition jump_form (op : Z) : bool :=
  match op_form op with
  | Abs => implb (existsb (String.eqb (op_name op)) ["jmp"; "jsr"; "jsl"]) (in_names op ["jmp"; "jsr"])
  | Lng => implb (existsb (String.eqb (op_name op)) ["jmp"; "jsr"; "jsl"]) (in_names op ["jmp"; "jsl"])
  | _ => true
  end.
Lemma jump_forms : forall op, 0 <= op < 256 -> jump_form op = true.
Proof. intros op R. assert (T : forallb jump_form (map Z.of_nat (seq 0 256)) = true) by (vm_compute; reflexivity). exact (forall_opcodes _ T op R). Qed.
Lemma jump_direct : forall mem pc t, 0 <= mem pc < 256 -> jump_target mem pc = Some t ->
  direct_target pc (mem pc) (map (fun k => mem (same_bank_plus pc (Z.of_nat k))) (seq 1 3)) = Some t.
Proof.
  intros mem pc t R J. unfold jump_target in J. cbv zeta in J. unfold direct_target. cbn [seq map]. change (Z.of_nat 1) with 1. change (Z.of_nat 2) with 2. change (Z.of_nat 3) with 3.
  pose proof (jump_forms _ R) as T. unfold jump_form in T.
  destruct (existsb (String.eqb (op_name (mem pc))) ["jmp"; "jsr"; "jsl"]); [|discriminate J].
  destruct (op_form (mem pc)); try discriminate J; cbn [implb] in T; rewrite T; exact J.
Qed.

(** What is known of the disassembler. *)
Record regained (fuel : nat) (sk : sink) (files : list (list string)) (ws : list write) (a : assembler) (mem : memory) (img : ModelRom.source) (seeds : omap flags) (d : disassembler) (a0 : Z) (o0 : cpu) : Prop := Regained {
  rg_asm : assemble fuel sk files = (ws, Ok a); rg_mem : in_memory ws mem; rg_checked : checked files a silent; rg_opens : opens files a a0 o0;
  rg_all : forall t o, enters mem silent a0 o0 t o -> (forall n src m, part files a n src m -> modes_true src o) /\ leads_well files a mem o;
  rg_pic : pictures img mem; rg_bytes : byte_source img;
  rg_runs : forall t o f pc k, program_enters img seeds t o -> rom_arrives img [] t f o pc k ->
    exists c op rest, collected d pc c /\ img pc 4 = Ok (op :: rest) /\ describes_modes o (di_cur c) k /\ mnem_to_string (i_mnem (di_instr c)) = op_name op /\
      instruction_length (i_mode (di_instr c)) = cpu_length op (p_m (c_modes k)) (p_x (c_modes k)) }.

Lemma within_routine : forall fuel sk files ws a mem img seeds d a0 o0 t o pc c, regained fuel sk files ws a mem img seeds d a0 o0 -> enters mem silent a0 o0 t o -> program_enters img seeds t o ->
  mem_arrives mem silent t blank o pc c -> rom_arrives img [] t any_flags o pc c.
Proof.
  intros fuel sk files ws a mem img seeds d a0 o0 t o pc c RG EN PE MA. induction MA as [MO FD|pc c c' i MA IH PF NS MS|pc c c' i t' MA IH PF RB BD BS].
  - apply ro_start; assumption.
  - destruct (cross_follows _ _ _ _ _ _ _ _ _ _ _ _ _ (rg_asm _ _ _ _ _ _ _ _ _ _ _ RG) (rg_mem _ _ _ _ _ _ _ _ _ _ _ RG) (rg_checked _ _ _ _ _ _ _ _ _ _ _ RG) (rg_opens _ _ _ _ _ _ _ _ _ _ _ RG) (rg_all _ _ _ _ _ _ _ _ _ _ _ RG) EN MA) as (n & src & m & k & j & P & HE).
    pose proof (here_in _ _ _ _ _ _ _ _ _ _ _ _ _ _ (rg_asm _ _ _ _ _ _ _ _ _ _ _ RG) P HE) as A24.
    destruct (rg_runs _ _ _ _ _ _ _ _ _ _ _ RG _ _ _ _ _ PE IH) as (x & op & rest & CO & IM & _).
    destruct (pictured _ _ _ c _ _ (rg_pic _ _ _ _ _ _ _ _ _ _ _ RG) A24 IM) as (EO & ER & EN' & EF). unfold fetch_length. rewrite <- EO.
    refine (ro_next _ _ _ _ _ _ _ _ _ _ i IH IM _ NS _); [split; [rewrite EO; apply PF|rewrite (proj2 PF), none_told; reflexivity]|rewrite EN'; exact MS].
  - destruct (cross_follows _ _ _ _ _ _ _ _ _ _ _ _ _ (rg_asm _ _ _ _ _ _ _ _ _ _ _ RG) (rg_mem _ _ _ _ _ _ _ _ _ _ _ RG) (rg_checked _ _ _ _ _ _ _ _ _ _ _ RG) (rg_opens _ _ _ _ _ _ _ _ _ _ _ RG) (rg_all _ _ _ _ _ _ _ _ _ _ _ RG) EN MA) as (n & src & m & k & j & P & HE).
    pose proof (here_in _ _ _ _ _ _ _ _ _ _ _ _ _ _ (rg_asm _ _ _ _ _ _ _ _ _ _ _ RG) P HE) as A24.
    destruct (rg_runs _ _ _ _ _ _ _ _ _ _ _ RG _ _ _ _ _ PE IH) as (x & op & rest & CO & IM & _).
    destruct (pictured _ _ _ c _ _ (rg_pic _ _ _ _ _ _ _ _ _ _ _ RG) A24 IM) as (EO & ER & EN' & EF).
    refine (ro_branch _ _ _ _ _ _ _ _ _ _ i t' IH IM _ RB _ BS); [split; [rewrite EO; apply PF|rewrite (proj2 PF), none_told; reflexivity]|].
    rewrite <- BD, <- EF. unfold fetch_length. rewrite <- EO. reflexivity.
Qed.
Lemma enters_rom : forall fuel sk files ws a mem img seeds d a0 o0 f0 t o, regained fuel sk files ws a mem img seeds d a0 o0 -> In (a0, f0) seeds -> modes_ok (c_modes o0) -> flags_describe (c_modes o0) f0 (c_modes o0) ->
  enters mem silent a0 o0 t o -> program_enters img seeds t o.
Proof.
  intros fuel sk files ws a mem img seeds d a0 o0 f0 t o RG IS MO0 FD EN. induction EN as [|t o pc c t' o' EN IH MA JT CM MO]; [eapply pe_seed; eassumption|].
  pose proof (within_routine _ _ _ _ _ _ _ _ _ _ _ _ _ _ _ RG EN IH MA) as RA.
  destruct (cross_follows _ _ _ _ _ _ _ _ _ _ _ _ _ (rg_asm _ _ _ _ _ _ _ _ _ _ _ RG) (rg_mem _ _ _ _ _ _ _ _ _ _ _ RG) (rg_checked _ _ _ _ _ _ _ _ _ _ _ RG) (rg_opens _ _ _ _ _ _ _ _ _ _ _ RG) (rg_all _ _ _ _ _ _ _ _ _ _ _ RG) EN MA) as (n & src & m & k & j & P & HE).
  pose proof (here_in _ _ _ _ _ _ _ _ _ _ _ _ _ _ (rg_asm _ _ _ _ _ _ _ _ _ _ _ RG) P HE) as A24.
  destruct (rg_runs _ _ _ _ _ _ _ _ _ _ _ RG _ _ _ _ _ IH RA) as (x & op & rest & CO & IM & _).
  destruct (pictured _ _ _ c _ _ (rg_pic _ _ _ _ _ _ _ _ _ _ _ RG) A24 IM) as (EO & ER & _).
  refine (pe_far _ _ _ _ _ _ _ _ _ _ IH RA IM _ CM). rewrite EO, ER. apply jump_direct; [|exact JT]. rewrite <- EO.
  pose proof (rg_bytes _ _ _ _ _ _ _ _ _ _ _ RG _ _ _ IM) as B. inversion B. assumption.
Qed.
Lemma program_regained : forall fuel sk files ws a mem img seeds n' fuel' msg d a0 f0 o0 t o pc c, assemble fuel sk files = (ws, Ok a) -> in_memory ws mem ->
  (forall n src m, part files a n src m -> tracked src /\ fenced src /\ predictable src m /\ calls_true src m silent) ->
  opens files a a0 o0 -> (forall t o, enters mem silent a0 o0 t o -> (forall n src m, part files a n src m -> modes_true src o) /\ leads_well files a mem o) ->
  pictures img mem -> byte_source img -> seeds_ok seeds -> In (a0, f0) seeds -> modes_ok (c_modes o0) -> flags_describe (c_modes o0) f0 (c_modes o0) -> n' <> O ->
  run_passes n' fuel' msg img seeds new_disassembler [] = Ok (d, [], []) -> followed d ->
  enters mem silent a0 o0 t o -> mem_arrives mem silent t blank o pc c ->
  exists n src m k i x, part files a n src m /\ collected d pc x /\ bytes_at img pc (di_instr x) (fetched mem pc c) /\
    (begins src m mem o k i pc c /\ mnem_to_string (i_mnem (di_instr x)) = mnem_to_string (opening (i_mnem i)) \/
     continues src m mem o k i pc c /\ mnem_to_string (i_mnem (di_instr x)) = mnem_to_string (hardware_mnemonic (i_mnem i))).
Proof.
  intros fuel sk files ws a mem img seeds n' fuel' msg d a0 f0 o0 t o pc c H IM CH OP ALL PI BS SO IS MO FD NZ RP FO EN MA.
  assert (RG : regained fuel sk files ws a mem img seeds d a0 o0).
  { constructor; try assumption. intros t1 o1 f pc1 k PE RA. exact (tool_covers _ _ _ _ _ _ _ _ _ _ _ BS SO NZ RP FO PE RA). }
  pose proof (enters_rom _ _ _ _ _ _ _ _ _ _ _ _ _ _ RG IS MO FD EN) as PE. pose proof (within_routine _ _ _ _ _ _ _ _ _ _ _ _ _ _ _ RG EN PE MA) as RA.
  destruct (cross_follows _ _ _ _ _ _ _ _ _ _ _ _ _ H IM CH OP ALL EN MA) as (n & src & m & k & i & P & HE). pose proof (here_in _ _ _ _ _ _ _ _ _ _ _ _ _ _ H P HE) as A24.
  destruct (rg_runs _ _ _ _ _ _ _ _ _ _ _ RG _ _ _ _ _ PE RA) as (x & op & rest & CO & II & _ & MN & LN). destruct (pictured _ _ _ c _ _ PI A24 II) as (EO & ER & _ & EF).
  exists n, src, m, k, i, x. split; [exact P|]. split; [exact CO|]. split; [exists (op :: rest); split; [exact II|]; rewrite LN, EO; symmetry; rewrite EO in EF; exact EF|].
  rewrite MN, EO. destruct HE as [B|C]; [left|right]; (split; [assumption|]).
  - apply B.
  - destruct C as (adr & c0 & _ & _ & _ & ON & _). exact ON.
Qed.
(** And the listing writes it again. *)
Lemma program_again : forall fuel sk files ws a mem img seeds n' fuel' msg d a0 f0 o0 t o pc c d' fuel2 sk2 ws2 asm, assemble fuel sk files = (ws, Ok a) -> in_memory ws mem ->
  (forall n src m, part files a n src m -> tracked src /\ fenced src /\ predictable src m /\ calls_true src m silent) ->
  opens files a a0 o0 -> (forall t o, enters mem silent a0 o0 t o -> (forall n src m, part files a n src m -> modes_true src o) /\ leads_well files a mem o) ->
  pictures img mem -> byte_source img -> seeds_ok seeds -> In (a0, f0) seeds -> modes_ok (c_modes o0) -> flags_describe (c_modes o0) f0 (c_modes o0) -> n' <> O ->
  run_passes n' fuel' msg img seeds new_disassembler [] = Ok (d, [], []) -> followed d ->
  enters mem silent a0 o0 t o -> mem_arrives mem silent t blank o pc c ->
  ds_sym d < 2 ^ 31 -> cleanup d = Ok d' -> assemble fuel2 sk2 [ModelTools.listing (ds_map d')] = (ws2, Ok asm) ->
  forall j b, nth_error (fetched mem pc c) j = Some b -> exists w l, In w ws2 /\ nth_error (snd w) l = Some b /\ same_bank_plus (fst w) (Z.of_nat l) = same_bank_plus pc (Z.of_nat j).
Proof.
  intros fuel sk files ws a mem img seeds n' fuel' msg d a0 f0 o0 t o pc c d' fuel2 sk2 ws2 asm H IM CH OP ALL PI BS SO IS MO FD NZ RP FO EN MA SY CL AS j b J.
  destruct (program_regained _ _ _ _ _ _ _ _ _ _ _ _ _ _ _ _ _ _ _ H IM CH OP ALL PI BS SO IS MO FD NZ RP FO EN MA) as (n & src & m & k & i & x & P & CO & (l & R & EB) & _).
  destruct (run_passes_spec n' fuel' msg img seeds [] new_disassembler [] d [] [] BS (or_intror (conj NZ SO)) (se_new img []) RP) as (q & os & S & _).
  assert (C0 : conventions_ok []) by (intros u r U; discriminate U). assert (RD : SpecListing.readable []) by (intros u r U; discriminate U).
  assert (LJ : (j < List.length (fetched mem pc c))%nat) by (apply nth_error_Some; congruence).
  assert (LI : Z.of_nat j < instruction_length (i_mode (di_instr x))) by (rewrite EB in LJ; pose proof (firstn_le_length (Z.to_nat (instruction_length (i_mode (di_instr x)))) l); lia).
  pose proof (collected_again _ _ _ _ _ _ _ _ _ _ _ _ PI C0 RD BS S SY CL AS CO (Z.of_nat j) ltac:(lia)) as W.
  assert (B : b = mem (same_bank_plus pc (Z.of_nat j))).
  { unfold fetched in J, LJ. rewrite map_length, seq_length in LJ. rewrite nth_error_map in J. assert (Q : nth_error (seq 0 (Z.to_nat (fetch_length mem pc c))) j = Some j) by (rewrite nth_error_nth' with (d := O); [rewrite seq_nth by exact LJ; reflexivity|rewrite seq_length; exact LJ]).
    rewrite Q in J. injection J as <-. reflexivity. }
  rewrite B. exact W.
Qed.
