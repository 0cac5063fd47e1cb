(** Undefined behaviour of the disassembler (nsasm/disassemble.cc, nsasm/execution_state.cc, util/quick_disassemble.cc). *)
From Verif Require Import Base ModelNumeric ModelAddress ModelExpr ModelMnemonic ModelAMode ModelState ModelInstr ModelMap ModelRom ModelDisasm ModelTools
  Spec65816 SpecArith SpecInstr SpecState SpecFlow SpecDisasm SpecTools SpecDisSafe DisCases DisRequestProofs SafeProofs DisSafeProofs DisSafeToolProofs PropertiesDisasm PropertiesListing PropertiesTools.
Open Scope list_scope.
Open Scope Z_scope.

Definition outcome_of {A} (r : res A) : option ub := match r with UB u => Some u | _ => None end.
(** ** C63.  If a request executes undefined behaviour then control leads, from its start, to an
    instruction that pulls a register, and this request or an earlier one left the width of that
    register open; an element of an empty vector is then read, or an assertion fails. *)
Theorem C63_causes : forall src rets q d fuel a f d' u, conventions_ok rets -> (forall t g, om_find t rets = Some (RC_yields g) -> written_flags g) ->
  byte_source src -> (forall b v, addr24 b -> src b 4 <> UB v) -> session src rets q d -> addr24 a -> consistent f ->
  disassemble fuel src a f d = (d', UB u) ->
  (u = UB_oob \/ u = UB_assert) /\ exists pc, leads_to src a pc /\ pulls_open src ((a, f) :: q) pc.
Proof.
  intros src rets q d fuel a f d' u CO PR BS CS S A C H. destruct (causes _ _ _ _ _ _ _ _ _ CO PR BS CS S A C H) as (U & pc & op & rest & LT & RD & OP).
  split; [exact U|]. exists pc. split; [exact LT|]. exists op, rest. split; [exact RD|exact OP].
Qed.
(** NOP and PLA with a request that leaves the width open; and PHA and PLA, where the value on the
    stack is asked for its byte. *)
Definition nop_pla : list Z := [0xEA; 0x68; 0x60].
Definition pha_pla : list Z := [0x48; 0x68; 0x60].
Example C63_causes_case : conventions_ok [] /\ (forall t g, om_find t (@nil (Z * retconv)) = Some (RC_yields g) -> written_flags g) /\
  byte_source (image nop_pla) /\ (forall b v, addr24 b -> image nop_pla b 4 <> UB v) /\
  session (image nop_pla) [] [] (add_target_return_conventions [] new_disassembler) /\ addr24 0x8000 /\ consistent native /\
  outcome_of (snd (disassemble 9 (image nop_pla) 0x8000 native new_disassembler)) = Some UB_oob /\
  outcome_of (snd (disassemble 9 (image pha_pla) 0x8000 native new_disassembler)) = Some UB_assert /\
  outcome_of (snd (disassemble 9 (image nop_pla) 0x8000 small new_disassembler)) = None.
Proof.
  split; [exact no_conventions|]. split; [intros t g F; discriminate F|]. split; [apply image_bytes; vm_compute; reflexivity|]. split; [exact (rom_calm _)|].
  split; [constructor|]. split; [unfold addr24; lia|]. split; [apply consistent_ok; reflexivity|]. split; [|split]; vm_compute; reflexivity.
Qed.
Print Assumptions C63_causes.

(** So nothing is undefined as long as every request says how wide the registers are. *)
Theorem C63_defined : forall src rets q d fuel a f d' u, conventions_ok rets -> (forall t g, om_find t rets = Some (RC_yields g) -> written_flags g) ->
  byte_source src -> (forall b v, addr24 b -> src b 4 <> UB v) -> session src rets q d -> addr24 a -> consistent f ->
  (forall b g, In (b, g) ((a, f) :: q) -> states_m g /\ states_x g) -> disassemble fuel src a f d <> (d', UB u).
Proof.
  intros src rets q d fuel a f d' u CO PR BS CS S A C ST H. destruct (C63_causes _ _ _ _ _ _ _ _ _ CO PR BS CS S A C H) as (_ & pc & _ & op & rest & _ & [[_ (b & g & IN & N)]|[_ (b & g & IN & N)]]);
  destruct (ST b g IN); contradiction.
Qed.
(** PLP; PLA; PLX; PLY: the widths are not known when the registers are pulled. *)
Definition plp_pulls : list Z := [0x28; 0x68; 0xFA; 0x7A; 0x60].
Example C63_defined_case : byte_source (image plp_pulls) /\ states_m small /\ states_x small /\ consistent small /\
  option_map (fun c => es_flags (di_cur c)) (om_find 0x8001 (ds_map (fst (disassemble 9 (image plp_pulls) 0x8000 small new_disassembler)))) = Some (RawFlags B_off B_unknown B_unknown B_unknown) /\
  is_ok (snd (disassemble 9 (image plp_pulls) 0x8000 small new_disassembler)) = true.
Proof.
  split; [apply image_bytes; vm_compute; reflexivity|]. split; [exists true; reflexivity|]. split; [exists true; reflexivity|]. split; [apply consistent_ok; reflexivity|]. split; vm_compute; reflexivity.
Qed.
Print Assumptions C63_defined.

(** ** The images of the tools are read without undefined behaviour. *)
Theorem C63_rom : forall r a u, addr24 a -> rom_read r a 4 <> UB u.
Proof. exact rom_calm. Qed.
Example C63_rom_case : addr24 0xFFFF /\ rom_read (Rom LoRom (repeat 0xEA 64)) 0xFFFF 4 = Err E_rom_address /\ rom_read (Rom LoRom (repeat 0xEA 64)) 0x803C 4 = Ok [0xEA; 0xEA; 0xEA; 0xEA].
Proof. split; [unfold addr24; lia|]. split; vm_compute; reflexivity. Qed.
Print Assumptions C63_rom.

(** ** quick_disassemble executes undefined behaviour only if control leads from the seeds to an
    instruction that pulls a register, or if two thousand million labels were made. *)
Theorem C63_tool : forall fuel msg r seeds u, bytes_ok (rom_data r) -> seeds_ok seeds -> quick_disassemble fuel msg (rom_read r) seeds = UB u ->
  ((u = UB_oob \/ u = UB_assert) /\ exists pc, flows_to (rom_read r) seeds pc /\ pulls (rom_read r) pc) \/
  exists d left out, run_passes 100 fuel msg (rom_read r) seeds new_disassembler [] = Ok (d, left, out) /\ 2 ^ 31 <= ds_sym d.
Proof. intros fuel msg r seeds u B SO H. exact (quick_cause _ _ _ _ _ (rom_bytes _ B) (rom_calm r) SO H). Qed.
(** PLP; JSR 8005; RTS and, at 8005, PLA; RTS.  The widths are given on the command line, but they
    are not known any more where the routine is called, so that it is entered with open ones. *)
Definition plp_call : rom := Rom LoRom ([0x28; 0x20; 0x05; 0x80; 0x60; 0x68; 0x60] ++ repeat 0xEA 64).
Example C63_tool_case : bytes_ok (rom_data plp_call) /\ seeds_ok [(0x8000, small)] /\ quick_disassemble 99 no_text (rom_read plp_call) [(0x8000, small)] = UB UB_oob.
Proof.
  split; [apply bytes_b_ok; vm_compute; reflexivity|]. split; [intros a f [E|[]]; injection E as <- <-; split; [unfold addr24; lia|apply consistent_ok; reflexivity]|]. vm_compute; reflexivity.
Qed.
Print Assumptions C63_tool.

(** Giving the widths on the command line is therefore not enough. *)
Theorem C63_widths_refuted : ~ forall fuel msg r seeds u, bytes_ok (rom_data r) -> seeds_ok seeds -> (forall a f, In (a, f) seeds -> states_m f /\ states_x f) ->
  quick_disassemble fuel msg (rom_read r) seeds <> UB u.
Proof.
  intros H. destruct C63_tool_case as (B & SO & Q). refine (H 99%nat no_text plp_call [(0x8000, small)] UB_oob B SO _ Q).
  intros a f [E|[]]. injection E as <- <-. split; exists true; reflexivity.
Qed.
Print Assumptions C63_widths_refuted.
