(** Properties of the differences from an image that the assembler reports. *)
From Verif Require Import BaseProofs ModelNumeric ModelAddress ModelMnemonic ModelExpr ModelAMode
  ModelOpcode ModelState ModelInstr ModelToken ModelStatement ModelParse ModelMap ModelRanges
  ModelModule ModelAssembler ModelRom ModelTools ModelLocation ModelRomText
  SpecArith SpecInstr SpecScope SpecLayout SpecAssemble SpecSink SpecLocation SpecRom SpecRomText RomTextProofs MismatchProofs.
Open Scope string_scope.
Open Scope list_scope.
Open Scope Z_scope.

(** C74.  If a program that assembles is compared with an image and the comparison fails, what is printed is the path and the
    line of a statement of the program whose bytes, at the address it has, the image refuses, and the reason. *)
Theorem C74_program : forall fuel image r files ws e l all a,
  Forall (fun f => fst f <> "") files -> assemble fuel takes_all (map snd files) = (all, Ok a) ->
  lassemble fuel (image_sink image r) files = (ws, LErr e l) -> In e [E_rom_address; E_rom_range; E_mismatch] ->
  exists path file src n before labels s after s' w c er,
    In (path, file) files /\ reads file src /\ src = before ++ (labels, s) :: after /\ stands file (Z.of_nat (List.length before)) n /\
    widened s s' /\ stmt_bytes (fst w) c s' = Ok (Some (snd w)) /\ t_identity_write image r (fst w) (snd w) = TErr er /\ re_kind er = e /\
    error_to_string l (re_text er) = (path ++ ":" ++ dec_string n ++ ": " ++ re_text er)%string.
Proof. exact difference_blamed. Qed.
(* the program agrees with the first image and its fourth byte not with the second; the third image ends early; the last program is in RAM *)
Example C74_program_case :
  let program start : list string := [".org " ++ start; ".entry m8x8"; "main: lda #1"; ""; "  ; a comment"; "  sta $10"; "  rts"]%string in
  let said image file := match snd (lassemble 9 (image_sink "game.sfc" (Rom HiRom image)) [("main.asm", file)]) with LErr e l => Some (e, error_to_string l "") | _ => None end in
  [said [0xa9; 1; 0x85; 0x10; 0x60] (program "0xc00000"); said [0xa9; 1; 0x85; 0x11; 0x60] (program "0xc00000"); said [0xa9; 1; 0x85] (program "0xc00000");
   said [] (program "0x7e0000")]
  = [None; Some (E_mismatch, "main.asm:6: "); Some (E_rom_range, "main.asm:6: "); Some (E_rom_address, "main.asm:3: ")] /\
  (match snd (assemble 9 takes_all [program "0xc00000"]) with Ok _ => true | _ => false end) = true.
Proof. vm_compute. split; reflexivity. Qed.
Print Assumptions C74_program.
