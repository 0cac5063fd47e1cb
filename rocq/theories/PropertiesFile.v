(** Properties of nsasm/file.cc, and of the printed text as a file. *)
From Verif Require Import Base ModelState ModelModule ModelAssembler ModelRom ModelDisasm SpecArith SpecInstr SpecRom SpecDisasm SpecListing SpecText SpecSink SpecTools SpecDump SpecFile
  DisCases FileProofs FileTextProofs PropertiesTools PropertiesDump ModelFile ModelTools.
Open Scope string_scope.
Open Scope list_scope.
Open Scope Z_scope.

(** ** C51.  A file is read as the lines that it has: no line has a newline, and the lines
    written out are the text, up to a newline missing at its end. *)
Theorem C51_lines : forall t ls, read_lines t = ls <-> has_lines t ls.
Proof. exact lines_exact. Qed.
(** With and without the last newline; an empty line counts, the empty rest does not. *)
Definition two_lines : string := written_out ["top: nop"; ""; "rts"].
Example C51_lines_case : has_lines two_lines ["top: nop"; ""; "rts"] /\ read_lines two_lines = ["top: nop"; ""; "rts"] /\
  read_lines (written_out ["top: nop"; ""] ++ "rts")%string = ["top: nop"; ""; "rts"] /\ read_lines "" = [] /\ read_lines (written_out [""]) = [""].
Proof. split; [apply C51_lines; reflexivity|repeat split; reflexivity]. Qed.
Print Assumptions C51_lines.

(** Space around the lines does not matter. *)
Theorem C51_space : forall f g, Forall2 same_line f g -> load_asm_file f = load_asm_file g.
Proof. exact same_file. Qed.
Example C51_space_case : Forall2 same_line ["  top: nop "; "rts"] ["top: nop"; " rts"] /\ exists m, load_asm_file ["  top: nop "; "rts"] = Ok m.
Proof.
  split; [|eexists; vm_compute; reflexivity].
  constructor; [exists "  ", " ", "", "", "top: nop"|constructor; [exists "", "", " ", "", "rts"|constructor]];
    repeat (split; [apply all_spaces; reflexivity|]); split; reflexivity.
Qed.
Print Assumptions C51_space.

(** The files that the tests make of a text assemble as the file with that text does. *)
Theorem C51_fake : forall ts fuel sk, assemble fuel sk (map fake_file ts) = assemble fuel sk (map read_lines ts).
Proof. exact (assemble_cong fake_file read_lines fake_loads). Qed.
Example C51_fake_case : fake_file (written_out ["  .org $8000  "; " .db 1"]) = [".org $8000"; ".db 1"; ""] /\
  fst (assemble 9 takes_all (map fake_file [written_out ["  .org $8000  "; " .db 1"]])) = [(0x8000, [1])].
Proof. split; vm_compute; reflexivity. Qed.
Print Assumptions C51_fake.

(** Neither do carriage returns at the ends of lines. *)
Theorem C51_returns : forall ts fuel sk, assemble fuel sk (map (fun t => read_lines (with_returns t)) ts) = assemble fuel sk (map read_lines ts).
Proof. exact (assemble_cong (fun t => read_lines (with_returns t)) read_lines returns_load). Qed.
Example C51_returns_case : read_lines (with_returns (written_out [".org $8000"; ".db 1"])) = [(".org $8000" ++ String "013" "")%string; (".db 1" ++ String "013" "")%string] /\
  fst (assemble 9 takes_all (map (fun t => read_lines (with_returns t)) [written_out [".org $8000"; ".db 1"]])) = [(0x8000, [1])].
Proof. split; vm_compute; reflexivity. Qed.
Print Assumptions C51_returns.

(** The text that quick_dump prints, as a file, passes the comparison with the image. *)
Theorem C51_dump : forall r start count stride per_line lines fuel msg, addr24 start -> bytes_ok (rom_data r) -> dump_size count stride <= 2 ^ 16 ->
  quick_dump (rom_read r) start count stride per_line = Ok lines ->
  quick_assemble fuel msg r true [read_lines (written_out lines)] = Ok ["0 jump targets found"] /\
  quick_assemble fuel msg r true [read_lines (with_returns (written_out lines))] = Ok ["0 jump targets found"].
Proof. exact dump_text. Qed.
Example C51_dump_case : addr24 0xc00000 /\ bytes_ok (rom_data seven) /\ dump_size 3 2 <= 2 ^ 16 /\
  exists lines, quick_dump (rom_read seven) 0xc00000 3 2 2 = Ok lines /\ String.length (written_out lines) = 42%nat.
Proof. split; [apply C49_dump_case|]. split; [apply C49_dump_case|]. split; [vm_compute; discriminate|]. eexists. split; [apply C49_dump_case|reflexivity]. Qed.
Print Assumptions C51_dump.

(** So does the text that quick_disassemble prints, if it assembles; provided that no error
    has a text of several lines. *)
Theorem C51_listing : forall r seeds fuel msg d left out, (forall e, one_line (msg e)) -> bytes_ok (rom_data r) -> seeds_ok seeds ->
  run_passes 100 fuel msg (rom_read r) seeds new_disassembler [] = Ok (d, left, out) -> ds_sym d < 2 ^ 31 ->
  exists lines, quick_disassemble fuel msg (rom_read r) seeds = Ok lines /\ read_lines (written_out lines) = lines /\
  (forall fuel' ws asm, assemble fuel' takes_all [read_lines (written_out lines)] = (ws, Ok asm) ->
     quick_assemble fuel' msg r true [read_lines (written_out lines)] = Ok (target_lines asm) /\
     quick_assemble fuel' msg r true [read_lines (with_returns (written_out lines))] = Ok (target_lines asm)).
Proof. exact tool_text. Qed.
Example C51_listing_case : (forall e, one_line (no_text e)) /\ bytes_ok (rom_data call_rom) /\ seeds_ok call_seeds /\
  (exists left out, run_passes 100 99 no_text (rom_read call_rom) call_seeds new_disassembler [] = Ok (ran call_seeds call_rom, left, out)) /\
  ds_sym (ran call_seeds call_rom) < 2 ^ 31.
Proof. split; [intros e; apply no_char_nil|]. destruct C46_tool_case as (A & B & C & D & _). auto. Qed.
Print Assumptions C51_listing.
