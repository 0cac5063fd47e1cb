(** Property C67: quick_disassemble finds an assembled program again. *)
From Verif Require Import Base ModelNumeric ModelExpr ModelMnemonic ModelAMode ModelState ModelInstr ModelStatement ModelMap ModelModule ModelAssembler ModelRom ModelDisasm ModelTools
  Spec65816 SpecArith SpecInstr SpecRom SpecScope SpecLayout SpecState SpecAssemble SpecFlow SpecStable SpecDisasm SpecTools SpecListing SpecRun SpecMeet SpecSink
  ScopeProofs FlowCases RunProofs RunCases DisCases MainToolProofs MeetProofs CrossProofs RegainProofs ToolProofs PropertiesListing PropertiesTools PropertiesRun PropertiesMeet PropertiesCross SpecCross.
Open Scope string_scope.
Open Scope list_scope.
Open Scope Z_scope.

(** C67.  A program as in C66, without conventions at its calls, is in the memory, and
    quick_disassemble is given an image of it and the address and modes with which it starts
    (and perhaps others).  If no request fails and nothing is left to look at, then wherever the
    program comes, the disassembly has exactly the bytes that the processor takes as one
    instruction, with the mnemonic of the statement of the source that stands there (for ADD
    and SUB, the two halves). *)
Theorem C67_found : forall fuel sk files ws a mem img seeds n' fuel' msg d a0 f0 o0 t o pc c, assemble fuel sk files = (ws, Ok a) -> in_memory ws mem ->
  (forall n src m, part files a n src m -> tracked src /\ fenced src /\ predictable src m /\ calls_true src m silent) ->
  opens files a a0 o0 -> (forall t o, enters mem silent a0 o0 t o -> (forall n src m, part files a n src m -> modes_true src o) /\ leads_well files a mem o) ->
  pictures img mem -> byte_source img -> seeds_ok seeds -> In (a0, f0) seeds -> modes_ok (c_modes o0) -> flags_describe (c_modes o0) f0 (c_modes o0) -> n' <> O ->
  run_passes n' fuel' msg img seeds new_disassembler [] = Ok (d, [], []) -> followed d ->
  enters mem silent a0 o0 t o -> mem_arrives mem silent t blank o pc c ->
  exists n src m k i x, part files a n src m /\ collected d pc x /\ bytes_at img pc (di_instr x) (fetched mem pc c) /\
    (begins src m mem o k i pc c /\ mnem_to_string (i_mnem (di_instr x)) = mnem_to_string (opening (i_mnem i)) \/
     continues src m mem o k i pc c /\ mnem_to_string (i_mnem (di_instr x)) = mnem_to_string (hardware_mnemonic (i_mnem i))).
Proof. exact program_regained. Qed.
(** And if the listing is assembled, these bytes are written again where they are. *)
Theorem C67_again : forall fuel sk files ws a mem img seeds n' fuel' msg d a0 f0 o0 t o pc c d' fuel2 sk2 ws2 asm, assemble fuel sk files = (ws, Ok a) -> in_memory ws mem ->
  (forall n src m, part files a n src m -> tracked src /\ fenced src /\ predictable src m /\ calls_true src m silent) ->
  opens files a a0 o0 -> (forall t o, enters mem silent a0 o0 t o -> (forall n src m, part files a n src m -> modes_true src o) /\ leads_well files a mem o) ->
  pictures img mem -> byte_source img -> seeds_ok seeds -> In (a0, f0) seeds -> modes_ok (c_modes o0) -> flags_describe (c_modes o0) f0 (c_modes o0) -> n' <> O ->
  run_passes n' fuel' msg img seeds new_disassembler [] = Ok (d, [], []) -> followed d ->
  enters mem silent a0 o0 t o -> mem_arrives mem silent t blank o pc c ->
  ds_sym d < 2 ^ 31 -> cleanup d = Ok d' -> assemble fuel2 sk2 [ModelTools.listing (ds_map d')] = (ws2, Ok asm) ->
  forall j b, nth_error (fetched mem pc c) j = Some b -> exists w l, In w ws2 /\ nth_error (snd w) l = Some b /\ same_bank_plus (fst w) (Z.of_nat l) = same_bank_plus pc (Z.of_nat j).
Proof. exact program_again. Qed.

(** The program of C66 in a cartridge.  The tool is told its start only, and finds the routine
    for wide registers. *)
Definition crossing_code : list Z := [0xC2; 0x30; 0x20; 0x0A; 0x80; 0xE2; 0x30; 0x4C; 0x00; 0x80; 0xA9; 0x34; 0x12; 0x60].
Definition crossing_rom : rom := Rom LoRom (crossing_code ++ repeat 0xEA 64).
Definition start_only : omap flags := [(0x8000, narrow_flags)].
Definition crossing_found : disassembler := ran start_only crossing_rom.
Lemma crossing_held : enters (held crossing_rom) silent 0x8000 narrow 0x800A roomy /\ mem_arrives (held crossing_rom) silent 0x800A blank roomy 0x800D roomy.
Proof.
  assert (A0 : mem_arrives (held crossing_rom) silent 0x8000 blank narrow 0x8000 narrow) by (apply me_start; [discriminate|repeat split]).
  assert (A2 : mem_arrives (held crossing_rom) silent 0x8000 blank narrow 0x8002 roomy).
  { change 0x8002 with (same_bank_plus 0x8000 (fetch_length (held crossing_rom) 0x8000 narrow)).
    apply (me_next _ _ _ _ _ _ _ _ (Instr M_rep S_none A_imm_b None None RC_default) A0); [split; vm_compute; reflexivity|no_stop|]. split; vm_compute; reflexivity. }
  split.
  - apply (en_jump _ _ _ _ _ _ _ _ _ roomy (en_start _ _ _ _) A2); [vm_compute; reflexivity|reflexivity|discriminate].
  - assert (B0 : mem_arrives (held crossing_rom) silent 0x800A blank roomy 0x800A roomy) by (apply me_start; [discriminate|repeat split]).
    change 0x800D with (same_bank_plus 0x800A (fetch_length (held crossing_rom) 0x800A roomy)).
    apply (me_next _ _ _ _ _ _ _ _ (Instr M_lda S_none A_imm_w None None RC_default) B0); [split; vm_compute; reflexivity|no_stop|]. split; reflexivity.
Qed.
Example C67_case : exists ws a, assemble 99 (identity_sink crossing_rom) [crossing] = (ws, Ok a) /\ in_memory ws (held crossing_rom) /\
  (forall n src m, part [crossing] a n src m -> tracked src /\ fenced src /\ predictable src m /\ calls_true src m silent) /\
  opens [crossing] a 0x8000 narrow /\
  (forall t o, enters (held crossing_rom) silent 0x8000 narrow t o -> (forall n src m, part [crossing] a n src m -> modes_true src o) /\ leads_well [crossing] a (held crossing_rom) o) /\
  pictures (rom_read crossing_rom) (held crossing_rom) /\ byte_source (rom_read crossing_rom) /\ seeds_ok start_only /\ In (0x8000, narrow_flags) start_only /\
  flags_describe (c_modes narrow) narrow_flags (c_modes narrow) /\
  run_passes 100 99 no_text (rom_read crossing_rom) start_only new_disassembler [] = Ok (crossing_found, [], []) /\ followed crossing_found /\
  enters (held crossing_rom) silent 0x8000 narrow 0x800A roomy /\ mem_arrives (held crossing_rom) silent 0x800A blank roomy 0x800D roomy /\
  map fst (ds_map crossing_found) = [0x8000; 0x8002; 0x8005; 0x8007; 0x800A; 0x800D].
Proof.
  destruct C66_labels_case as (a & A & _ & CH & OP & ALL & _). exists (written_by crossing), a.
  assert (AI : assemble 99 (identity_sink crossing_rom) [crossing] = (written_by crossing, Ok a)).
  { assert (X : is_ok (snd (assemble 99 (identity_sink crossing_rom) [crossing])) = true) by (vm_compute; reflexivity).
    destruct (assemble 99 (identity_sink crossing_rom) [crossing]) as [ws' [a'|e|u|]] eqn:Y; try discriminate X. pose proof (proj1 (proj1 (compared _ _ _ _ _) Y)) as Z.
    change (assemble 99 takes_all [crossing]) with (assemble 99 any [crossing]) in Z. rewrite A in Z. destruct (same_outcome _ _ _ _ _ _ Z) as [-> ->]. reflexivity. }
  destruct (cartridge_holds _ _ _ _ _ _ AI (held_ok crossing_rom)) as [IM PI].
  assert (B : bytes_ok (rom_data crossing_rom)) by (apply bytes_b_ok; vm_compute; reflexivity).
  split; [exact AI|]. split; [exact IM|]. split; [exact CH|]. split; [exact OP|]. split.
  { intros t o _. assert (MT : forall n src m, part [crossing] a n src m -> modes_true src o) by (intros n src m P; apply (ALL o _ _ _ P)). split; [exact MT|].
    apply (labels_lead _ _ _ _ _ _ _ _ AI IM CH MT). intros n src m P. apply (ALL o _ _ _ P). }
  split; [exact PI|]. split; [apply rom_bytes; exact B|]. split; [intros x f [E|[]]; injection E as <- <-; split; [unfold addr24; lia|apply consistent_ok; reflexivity]|].
  split; [left; reflexivity|]. split; [repeat split|]. split; [vm_compute; reflexivity|]. split; [apply followed_ok; vm_compute; reflexivity|].
  split; [apply crossing_held|]. split; [apply crossing_held|]. vm_compute. reflexivity.
Qed.
Print Assumptions C67_found.
(** Its listing is the source again, with other labels. *)
Example C67_again_case : ds_sym crossing_found < 2 ^ 31 /\ cleanup crossing_found = Ok (clean_of crossing_found) /\
  (exists asm, assemble 99 takes_all [ModelTools.listing (ds_map (clean_of crossing_found))] = (written_by crossing, Ok asm)).
Proof. split; [vm_compute; reflexivity|]. split; [apply clean_is; vm_compute; reflexivity|]. eexists. vm_compute. reflexivity. Qed.
Print Assumptions C67_again.
