(** Which listings assemble. *)
From Verif Require ApartProofs.
From Verif Require Import Base ModelNumeric ModelAddress ModelExpr ModelMnemonic ModelAMode ModelState ModelInstr ModelMap ModelModule ModelAssembler ModelRom ModelDisasm
  Spec65816 SpecArith SpecInstr SpecState SpecFlow SpecRom SpecDisasm SpecListing SpecText SpecAssemble SpecSink SpecTools SpecRelist SinkProofs DisCases PropertiesListing ListTextProofs RoundProofs ToolRunProofs ToolProofs ModelTools
  PropertiesTools CleanFlowProofs ListCheckProofs.
Open Scope string_scope.
Open Scope list_scope.
Open Scope Z_scope.

(** ** C62.  The listing of a disassembly assembles, and the bytes are those of the image, if the
    modes at every declared entry can be written, no PER is in it, width suffixes and pulled
    widths are known, and no instruction overlaps another or runs over the end of its bank. *)
Theorem C62_assembles : forall src rets q d d', conventions_ok rets -> byte_source src -> session src rets q d -> ds_sym d < 2 ^ 31 -> cleanup d = Ok d' -> listable rets d' ->
  exists N, forall fuel, (N <= fuel)%nat -> forall sk, (forall ws w, sk ws w = Ok tt) -> exists ws asm, assemble fuel sk [ModelTools.listing (ds_map d')] = (ws, Ok asm) /\
    Forall2 (fun kv w => fst w = fst kv /\ zlen (snd w) = instr_size (di_instr (snd kv)) /\ holds src (fst w) (snd w)) (ds_map d') ws.
Proof. intros src rets q d d'. exact (listing_assembles src rets q d d' [] (Forall_nil _)). Qed.
Example C62_case : conventions_ok [] /\ byte_source (image sums) /\ session (image sums) [] [(0x8000, small)] summed /\ ds_sym summed < 2 ^ 31 /\ cleanup summed = Ok (clean_of summed) /\
  listable [] (clean_of summed).
Proof.
  destruct C37_case as (A & B & C & D & E & F & _). do 5 (split; [assumption|]). apply listable_ok; vm_compute; reflexivity.
Qed.
Print Assumptions C62_assembles.

(** The whole way: what quick_disassemble prints for an image passes quick_assemble, with the
    comparison against that image. *)
Theorem C62_tool : forall r seeds fuel msg d left out d', bytes_ok (rom_data r) -> seeds_ok seeds -> run_passes 100 fuel msg (rom_read r) seeds new_disassembler [] = Ok (d, left, out) -> ds_sym d < 2 ^ 31 ->
  cleanup d = Ok d' -> listable [] d' ->
  exists text N, quick_disassemble fuel msg (rom_read r) seeds = Ok text /\ forall fuel', (N <= fuel')%nat -> exists asm, quick_assemble fuel' msg r true [text] = Ok (target_lines asm).
Proof. exact round_trip. Qed.
Example C62_tool_case : bytes_ok (rom_data call_rom) /\ seeds_ok call_seeds /\ (exists left out, run_passes 100 99 no_text (rom_read call_rom) call_seeds new_disassembler [] = Ok (ran call_seeds call_rom, left, out)) /\
  ds_sym (ran call_seeds call_rom) < 2 ^ 31 /\ cleanup (ran call_seeds call_rom) = Ok (clean_of (ran call_seeds call_rom)) /\ listable [] (clean_of (ran call_seeds call_rom)).
Proof.
  destruct C46_tool_case as (A & B & C & D & _). do 4 (split; [assumption|]). split; [apply clean_is; vm_compute; reflexivity|]. apply listable_ok; vm_compute; reflexivity.
Qed.
Print Assumptions C62_tool.

(** Each condition is needed.  (PER and a known carry at an entry: C46_per and C46_carry.) *)
Definition native : flags := RawFlags B_off B_unknown B_unknown B_unknown.
(** PLA; RTS; and PLP; BRA to the PLA.  The PLA is disassembled with an unknown width and a
    stack that is no longer followed.  Then it is requested in native mode, and the listing has
    `.entry native' there.  Assembling it pulls from an empty stack, which is undefined. *)
Definition pullc : list Z := [0x68; 0x60; 0x28; 0x80; 0xFB].
Definition pulled : disassembler := fst (after (image pullc) [] [(0x8000, native); (0x8002, small)]).
Theorem C62_pull : session (image pullc) [] [(0x8000, native); (0x8002, small)] pulled /\ cleanup pulled = Ok (clean_of pulled) /\ listable_but_pulls (clean_of pulled) = true /\
  assemble 99 takes_all [ModelTools.listing (ds_map (clean_of pulled))] = ([], UB UB_oob).
Proof. split; [apply after_ok; vm_compute; reflexivity|]. split; [apply clean_is; vm_compute; reflexivity|]. split; vm_compute; reflexivity. Qed.
Print Assumptions C62_pull.
(** LDA #$EA; RTS; and a request for the operand of the LDA, which is a NOP. *)
Definition overc : list Z := [0xA9; 0xEA; 0x60].
Definition overlapped : disassembler := fst (after (image overc) [] [(0x8001, small); (0x8000, small)]).
Theorem C62_overlap : session (image overc) [] [(0x8001, small); (0x8000, small)] overlapped /\ cleanup overlapped = Ok (clean_of overlapped) /\ pulls_all (clean_of overlapped) = true /\
  exists ws e, assemble 99 takes_all [ModelTools.listing (ds_map (clean_of overlapped))] = (ws, Err e).
Proof. split; [apply after_ok; vm_compute; reflexivity|]. split; [apply clean_is; vm_compute; reflexivity|]. split; [vm_compute; reflexivity|]. do 2 eexists. vm_compute. reflexivity. Qed.
Print Assumptions C62_overlap.
(** In general a listing in which two instructions share an address is never accepted. *)
Theorem C62_apart : forall src rets q d d' fuel sk ws asm, conventions_ok rets -> readable rets -> byte_source src -> session src rets q d -> ds_sym d < 2 ^ 31 -> cleanup d = Ok d' ->
  assemble fuel sk [ModelTools.listing (ds_map d')] = (ws, Ok asm) ->
  forall a c b x k l, collected d' a c -> collected d' b x -> 0 <= k < instr_size (di_instr c) -> 0 <= l < instr_size (di_instr x) -> same_bank_plus a k = same_bank_plus b l -> a = b.
Proof. exact ApartProofs.listing_apart. Qed.
Example C62_apart_case : exists asm, assemble 99 takes_all [ModelTools.listing (ds_map (clean_of summed))] =
  ([(0x8000, [0x18; 0x69; 5]); (0x8003, [0x38]); (0x8004, [0xE9; 1]); (0x8006, [0xD0; 0xFC]); (0x8008, [0x18; 0x65; 0x12]); (0x800B, [0x4C; 0; 0x80])], Ok asm).
Proof. eexists. vm_compute. reflexivity. Qed.
Print Assumptions C62_apart.
(** PHA; RTS, seen with an 8-bit accumulator; then BRA to the PHA with a 16-bit one.  The listing
    keeps `pha.b', which the assembler refuses. *)
Definition stalec : list Z := [0x48; 0x60; 0x80; 0xFC].
Definition wide : flags := RawFlags B_off B_off B_on B_unknown.
Definition stale : disassembler := fst (after (image stalec) [] [(0x8002, wide); (0x8000, small)]).
Theorem C62_suffix : session (image stalec) [] [(0x8002, wide); (0x8000, small)] stale /\ cleanup stale = Ok (clean_of stale) /\ pulls_all (clean_of stale) = true /\
  exists ws, assemble 99 takes_all [ModelTools.listing (ds_map (clean_of stale))] = (ws, Err E_flag_mismatch).
Proof. split; [apply after_ok; vm_compute; reflexivity|]. split; [apply clean_is; vm_compute; reflexivity|]. split; [vm_compute; reflexivity|]. eexists. vm_compute. reflexivity. Qed.
Print Assumptions C62_suffix.
