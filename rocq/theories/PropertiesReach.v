(** Nothing but reachable code is disassembled (nsasm/disassemble.cc, util/quick_disassemble.cc). *)
From Verif Require Import Base ModelNumeric ModelAddress ModelExpr ModelMnemonic ModelAMode ModelState ModelInstr ModelMap ModelRom ModelDisasm ModelTools
  Spec65816 SpecArith SpecInstr SpecState SpecFlow SpecDisasm SpecTools DisCases ReachProofs PropertiesDisasm PropertiesTools.
Open Scope list_scope.
Open Scope Z_scope.

(** ** C61.  Control leads to every collected instruction, from a request that succeeded, through
    collected instructions: a request that fails, or a byte that is only stepped over, contributes
    nothing. *)
Theorem C61_reached : forall src rets q d a c, conventions_ok rets -> byte_source src -> session src rets q d -> collected d a c -> control src d q a.
Proof. exact reached_control. Qed.
(** The BNE is collected, and the loop it closes; the JSR at 8007 is followed, not entered. *)
Example C61_reached_case : conventions_ok [] /\ byte_source (image countdown) /\ session (image countdown) [] [(0x8000, native)] counted /\
  map fst (ds_map counted) = [0x8000; 0x8002; 0x8004; 0x8005; 0x8007; 0x800A] /\ image countdown 0x8020 4 = Ok [0xEA; 0xEA; 0xEA; 0xEA].
Proof.
  split; [exact no_conventions|]. split; [apply image_bytes; vm_compute; reflexivity|]. split; [apply after_ok; vm_compute; reflexivity|]. split; vm_compute; reflexivity.
Qed.
Print Assumptions C61_reached.

(** What quick_disassemble collects is led to from the seeds on the command line, where jumps and
    calls with a direct target lead on as well. *)
Theorem C61_tool : forall n fuel msg src seeds d left out a c, byte_source src -> seeds_ok seeds ->
  run_passes n fuel msg src seeds new_disassembler [] = Ok (d, left, out) -> collected d a c -> program_control src d seeds a.
Proof. exact found. Qed.
Example C61_tool_case : byte_source (image callc) /\ seeds_ok one_seed /\ run_passes 100 99 no_text (image callc) one_seed new_disassembler [] = Ok (ran one_seed call_rom, [], []) /\
  map fst (ds_map (ran one_seed call_rom)) = [0x8000; 0x8001; 0x8004; 0x8006].
Proof.
  split; [apply image_bytes; vm_compute; reflexivity|]. split; [intros a f [E|[]]; injection E as <- <-; split; [unfold addr24; lia|apply consistent_ok; reflexivity]|].
  split; vm_compute; reflexivity.
Qed.
Print Assumptions C61_tool.
