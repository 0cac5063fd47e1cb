(** Properties of the programs of util/. *)
From Verif Require Import Base ModelNumeric ModelAddress ModelExpr ModelMnemonic ModelAMode ModelState ModelInstr ModelMap ModelModule ModelAssembler ModelRom ModelDisasm
  Spec65816 SpecArith SpecInstr SpecState SpecFlow SpecRom SpecDisasm SpecListing SpecText SpecAssemble SpecSink SpecTools SinkProofs DisCases PropertiesListing ListTextProofs RoundProofs ToolRunProofs ToolProofs ModelTools.
Open Scope string_scope.
Open Scope list_scope.
Open Scope Z_scope.

(** ** C45.  A sink can only end the work: up to the write that it refuses, the writes are those
    that any other sink is offered, and if it refuses none, the outcome is the same. *)
Theorem C45_sink : forall fuel sk files ws r, assemble fuel takes_all files = (ws, r) -> assemble fuel sk files = unless_ended (offer sk [] ws) r.
Proof. exact sink_only_ends. Qed.
(** Three writes; the sink refuses the second one. *)
Definition three : list string := ["  .org $8000"; "  .entry m8x8"; "  LDA #1"; "  STA $12"; "  RTS"].
Definition no_stores : sink := fun _ w => match snd w with 0x85 :: _ => Err E_sink | _ => Ok tt end.
Example C45_case : exists a, assemble 99 takes_all [three] = ([(0x8000, [0xA9; 1]); (0x8002, [0x85; 0x12]); (0x8004, [0x60])], Ok a) /\
  assemble 99 no_stores [three] = ([(0x8000, [0xA9; 1])], Err E_sink).
Proof. eexists. split; vm_compute; reflexivity. Qed.
Print Assumptions C45_sink.

(** ** C46.  If the listing of a disassembly assembles at all, then every instruction of the
    disassembly gives one write, at its own address, of the bytes that the image has there. *)
Theorem C46_reassembles : forall src rets q d d' fuel sk ws asm, conventions_ok rets -> readable rets -> byte_source src -> session src rets q d -> ds_sym d < 2 ^ 31 -> cleanup d = Ok d' ->
  assemble fuel sk [ModelTools.listing (ds_map d')] = (ws, Ok asm) ->
  Forall2 (fun kv w => fst w = fst kv /\ zlen (snd w) = instr_size (di_instr (snd kv)) /\ holds src (fst w) (snd w)) (ds_map d') ws.
Proof. exact reassembles. Qed.
Example C46_case : readable [] /\ exists asm, assemble 99 takes_all [ModelTools.listing (ds_map (clean_of summed))] =
  ([(0x8000, [0x18; 0x69; 5]); (0x8003, [0x38]); (0x8004, [0xE9; 1]); (0x8006, [0xD0; 0xFC]); (0x8008, [0x18; 0x65; 0x12]); (0x800B, [0x4C; 0; 0x80])], Ok asm).
Proof. split; [exact none_readable|]. eexists. vm_compute. reflexivity. Qed.
Print Assumptions C46_reassembles.

(** What quick_disassemble prints for an image, with its comments about failed requests, can be
    given to quick_assemble: if it assembles, the image passes the comparison. *)
Theorem C46_tool : forall r seeds fuel msg d left out, bytes_ok (rom_data r) -> seeds_ok seeds -> run_passes 100 fuel msg (rom_read r) seeds new_disassembler [] = Ok (d, left, out) -> ds_sym d < 2 ^ 31 ->
  exists d', cleanup d = Ok d' /\ quick_disassemble fuel msg (rom_read r) seeds = Ok (out ++ ModelTools.listing (ds_map d')) /\
  (forall fuel' ws asm, assemble fuel' takes_all [out ++ ModelTools.listing (ds_map d')] = (ws, Ok asm) ->
     Forall2 (fun kv w => fst w = fst kv /\ zlen (snd w) = instr_size (di_instr (snd kv)) /\ holds (rom_read r) (fst w) (snd w)) (ds_map d') ws /\
     quick_assemble fuel' msg r true [out ++ ModelTools.listing (ds_map d')] = Ok (target_lines asm)).
Proof. exact tool. Qed.
(** CLC; JSR $8006; RTS; NOP; RTS, and a seed outside the image. *)
Definition callc : list Z := [0x18; 0x20; 0x06; 0x80; 0x60; 0xEA; 0x60].
Definition call_rom : rom := Rom LoRom (callc ++ repeat 0xEA 64).
Definition call_seeds : omap flags := [(0x8000, small); (0x9000, small)].
Definition no_text : err -> string := fun _ => "".
Definition ran (seeds : omap flags) (r : rom) : disassembler :=
  match run_passes 100 99 no_text (rom_read r) seeds new_disassembler [] with Ok (d, _, _) => d | _ => new_disassembler end.
Lemma call_seeds_ok : seeds_ok call_seeds.
Proof. intros a f IN. cbn in IN. destruct IN as [E|[E|[]]]; injection E as <- <-; (split; [unfold addr24; lia|apply consistent_ok; reflexivity]). Qed.
Example C46_tool_case : bytes_ok (rom_data call_rom) /\ seeds_ok call_seeds /\ (exists left out, run_passes 100 99 no_text (rom_read call_rom) call_seeds new_disassembler [] = Ok (ran call_seeds call_rom, left, out)) /\
  ds_sym (ran call_seeds call_rom) < 2 ^ 31 /\
  quick_disassemble 99 no_text (rom_read call_rom) call_seeds = Ok
   ["; ERROR branching to $009000 with mode m8x8"; ";   "; "; Disassembled 4 instructions."; "         .org $008000"; "entry1:  .entry m8x8"; "         clc                        ; $008000 m8x8, c=0";
    "         jsr entry2                 ; $008001 m8x8"; "         rts                        ; $008004 m8x8"; "         .org $008006"; "entry2:  .entry m8x8"; "         rts                        ; $008006 m8x8"] /\
  (exists out, quick_disassemble 99 no_text (rom_read call_rom) call_seeds = Ok out /\ quick_assemble 99 no_text call_rom true [out] = Ok ["0 jump targets found"]).
Proof.
  split; [apply bytes_b_ok; vm_compute; reflexivity|]. split; [exact call_seeds_ok|]. split; [do 2 eexists; vm_compute; reflexivity|]. split; [vm_compute; reflexivity|].
  split; [vm_compute; reflexivity|]. eexists. split; [vm_compute; reflexivity|vm_compute; reflexivity].
Qed.
Print Assumptions C46_tool.

(** A listing that has a PER instruction, or an entry at which the carry is known, never
    assembles. *)
Theorem C46_per : forall src rets q d d' fuel sk ws asm a c, conventions_ok rets -> byte_source src -> session src rets q d -> ds_sym d < 2 ^ 31 -> cleanup d = Ok d' ->
  collected d' a c -> i_mnem (di_instr c) = M_per -> assemble fuel sk [ModelTools.listing (ds_map d')] <> (ws, Ok asm).
Proof. exact per_unreadable. Qed.
Lemma per_session : conventions_ok [] /\ byte_source (image per_code) /\ session (image per_code) [] [(0x8000, small)] per_seen /\ ds_sym per_seen < 2 ^ 31 /\ cleanup per_seen = Ok (clean_of per_seen).
Proof.
  split; [exact no_conventions|]. split; [apply image_bytes; vm_compute; reflexivity|]. split; [apply after_ok; vm_compute; reflexivity|]. split; [vm_compute; reflexivity|]. apply clean_is. vm_compute. reflexivity.
Qed.
Example C46_per_case : conventions_ok [] /\ byte_source (image per_code) /\ session (image per_code) [] [(0x8000, small)] per_seen /\ ds_sym per_seen < 2 ^ 31 /\ cleanup per_seen = Ok (clean_of per_seen) /\
  exists c, collected (clean_of per_seen) 0x8000 c /\ i_mnem (di_instr c) = M_per.
Proof. destruct per_session as (A & B & C & D & E). do 5 (split; [assumption|]). eexists. split; [vm_compute; reflexivity|reflexivity]. Qed.
Print Assumptions C46_per.
Theorem C46_carry : forall src rets q d d' fuel sk ws asm a c, conventions_ok rets -> byte_source src -> session src rets q d -> ds_sym d < 2 ^ 31 -> cleanup d = Ok d' ->
  collected d' a c -> di_entry c = true -> bit_known (fl_c (es_flags (di_cur c))) = true -> assemble fuel sk [ModelTools.listing (ds_map d')] <> (ws, Ok asm).
Proof. exact unreadable. Qed.
(** CLC; LDA #5; BRA -4, to the LDA.  Disassembled from the CLC, and then asked for the LDA with
    a mode in which its length is not known. *)
Definition loopc : list Z := [0x18; 0xA9; 0x05; 0x80; 0xFC].
Definition loop_seeds : omap flags := [(0x8000, small); (0x8001, RawFlags B_off B_unknown B_unknown B_unknown)].
Definition loop_rom : rom := Rom LoRom (loopc ++ repeat 0xEA 64).
Definition loop_seen : disassembler := ran loop_seeds loop_rom.
Lemma loop_session : exists q, session (rom_read loop_rom) [] q loop_seen.
Proof.
  assert (NZ : 100%nat <> O) by discriminate. assert (BS : byte_source (rom_read loop_rom)) by (apply rom_bytes, bytes_b_ok; vm_compute; reflexivity).
  assert (SO : seeds_ok loop_seeds) by (intros a f IN; cbn in IN; destruct IN as [E|[E|[]]]; injection E as <- <-; (split; [unfold addr24; lia|apply consistent_ok; reflexivity])).
  assert (R : exists left out, run_passes 100 99 no_text (rom_read loop_rom) loop_seeds new_disassembler [] = Ok (loop_seen, left, out)) by (do 2 eexists; vm_compute; reflexivity).
  destruct R as (left & out & R). destruct (run_passes_spec 100 99 no_text (rom_read loop_rom) loop_seeds [] new_disassembler [] _ _ _ BS (or_intror (conj NZ SO)) (se_new (rom_read loop_rom) []) R) as (q & _ & S & _).
  exists q. exact S.
Qed.
Example C46_carry_case : conventions_ok [] /\ byte_source (rom_read loop_rom) /\ (exists q, session (rom_read loop_rom) [] q loop_seen) /\ ds_sym loop_seen < 2 ^ 31 /\ cleanup loop_seen = Ok (clean_of loop_seen) /\
  exists c, collected (clean_of loop_seen) 0x8001 c /\ di_entry c = true /\ bit_known (fl_c (es_flags (di_cur c))) = true.
Proof.
  split; [exact no_conventions|]. split; [apply rom_bytes, bytes_b_ok; vm_compute; reflexivity|]. split; [exact loop_session|]. split; [vm_compute; reflexivity|].
  split; [apply clean_is; vm_compute; reflexivity|]. eexists. split; [vm_compute; reflexivity|split; reflexivity].
Qed.
Print Assumptions C46_carry.
(** So it is false that every listing assembles. *)
Theorem C46_refuted : ~ forall src q d d', byte_source src -> session src [] q d -> ds_sym d < 2 ^ 31 -> cleanup d = Ok d' ->
  exists fuel ws asm, assemble fuel takes_all [ModelTools.listing (ds_map d')] = (ws, Ok asm).
Proof.
  intros H. destruct per_session as (A & B & C & D & E). destruct (H _ _ _ _ B C D E) as (fuel & ws & asm & X).
  destruct C46_per_case as (_ & _ & _ & _ & _ & c & K & M). exact (per_unreadable _ _ _ _ _ _ _ _ _ _ _ A B C D E K M X).
Qed.
Print Assumptions C46_refuted.

(** ** C47.  When no request failed and the last pass left nothing to look at, quick_disassemble
    has collected every instruction that the program executes, from any of the seeds, also in
    the routines that it jumps to or calls, with the length with which the processor reads it. *)
Theorem C47_covers : forall src seeds n fuel msg d a o f pc k, byte_source src -> seeds_ok seeds -> n <> O -> run_passes n fuel msg src seeds new_disassembler [] = Ok (d, [], []) -> followed d ->
  program_enters src seeds a o -> rom_arrives src [] a f o pc k ->
  exists c op rest, collected d pc c /\ src pc 4 = Ok (op :: rest) /\ describes_modes o (di_cur c) k /\
    mnem_to_string (i_mnem (di_instr c)) = op_name op /\ instruction_length (i_mode (di_instr c)) = cpu_length op (p_m (c_modes k)) (p_x (c_modes k)).
Proof. exact tool_covers. Qed.
(** The program enters the routine that it calls. *)
Definition start : cpu := Cpu (Modes false true true true) 0 0 0 0 [].
Definition called_cpu : cpu := Cpu (Modes false true true false) 0 0 0 0 [].
Definition one_seed : omap flags := [(0x8000, small)].
Example C47_case : byte_source (image callc) /\ seeds_ok one_seed /\ run_passes 100 99 no_text (image callc) one_seed new_disassembler [] = Ok (ran one_seed call_rom, [], []) /\ followed (ran one_seed call_rom) /\
  program_enters (image callc) one_seed 0x8006 called_cpu /\ rom_arrives (image callc) [] 0x8006 any_flags called_cpu 0x8006 called_cpu.
Proof.
  split; [apply image_bytes; vm_compute; reflexivity|]. split; [intros a f [E|[]]; injection E as <- <-; split; [unfold addr24; lia|apply consistent_ok; reflexivity]|].
  split; [vm_compute; reflexivity|]. split; [apply followed_ok; vm_compute; reflexivity|]. split; [|constructor; [discriminate|repeat split]].
  assert (S1 : rom_arrives (image callc) [] 0x8000 any_flags start 0x8000 start) by (constructor; [discriminate|repeat split]).
  assert (S2 : rom_arrives (image callc) [] 0x8000 any_flags start 0x8001 called_cpu).
  { eapply (ro_next _ _ _ _ _ 0x8000 start called_cpu 0x18 [0x20; 0x06; 0x80] (Instr M_clc S_none A_imp None None RC_default) S1); [vm_compute; reflexivity|split; reflexivity| |split; reflexivity].
    intros [X|X]; cbn in X; [repeat destruct X as [X|X]; try discriminate X; exact X|discriminate X]. }
  eapply (pe_far _ _ 0x8000 start 0x8001 called_cpu 0x20 [0x06; 0x80; 0x60]); [|exact S2|vm_compute; reflexivity|vm_compute; reflexivity|reflexivity].
  apply (pe_seed _ _ 0x8000 small); [left; reflexivity|discriminate|repeat split].
Qed.
Print Assumptions C47_covers.

(** ** C48.  disassemble_more should show a disassembly of the jump targets that its sources
    leave open.  It never does: when there are none there is nothing to show, and otherwise it
    reads the image through a null pointer. *)
Theorem C48_more : forall fuel msg r files ws a, assemble (S fuel) (identity_sink r) files = (ws, Ok a) ->
  disassemble_more (S fuel) msg r files = match jump_targets a with [] => Ok ["; Disassembled no instructions."] | _ => UB UB_null end.
Proof. exact more_does_nothing. Qed.
(** The first three instructions of the image, which call the last one. *)
Definition part : list string := ["  .org $8000"; "  .entry m8x8"; "  CLC"; "  JSR $8006"; "  RTS"].
Example C48_case : exists ws a, assemble 99 (identity_sink call_rom) [part] = (ws, Ok a) /\ jump_targets a = [(0x8006, RawFlags B_off B_on B_on B_off)].
Proof. do 2 eexists. split; [vm_compute; reflexivity|vm_compute; reflexivity]. Qed.
Print Assumptions C48_more.
Theorem C48_refuted : ~ forall fuel msg r files ws a t f, bytes_ok (rom_data r) -> assemble (S fuel) (identity_sink r) files = (ws, Ok a) -> In (t, f) (jump_targets a) ->
  exists out, disassemble_more (S fuel) msg r files = Ok out.
Proof.
  intros H. destruct C48_case as (ws & a & A & J). destruct (H 98%nat no_text call_rom [part] ws a 0x8006 (RawFlags B_off B_on B_on B_off)) as (out & X); [apply bytes_b_ok; vm_compute; reflexivity|exact A|rewrite J; left; reflexivity|].
  rewrite (more_does_nothing 98%nat no_text call_rom [part] ws a A), J in X. discriminate X.
Qed.
Print Assumptions C48_refuted.
