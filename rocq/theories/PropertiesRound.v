(** Property C62, continued: the whole way through the two programs. *)
From Verif Require Import Base ModelNumeric ModelAddress ModelExpr ModelMnemonic ModelAMode ModelState ModelInstr ModelMap ModelModule ModelAssembler ModelRom ModelDisasm ModelTools ModelFile ModelMain
  Spec65816 SpecArith SpecInstr SpecState SpecFlow SpecRom SpecDisasm SpecListing SpecText SpecAssemble SpecSink SpecTools SpecRelist SpecFile SpecMain ListCheckProofs PropertiesListing RoundMainProofs PropertiesMain.
Open Scope string_scope.
Open Scope list_scope.
Open Scope Z_scope.

(** C62.  quick_disassemble is run on a file; if what it collected is listable, its output, saved
    in another file, is accepted by quick_assemble with the same ROM to compare against ("-"):
    no byte differs.  The paths, the arguments and the loading of the image are those of the
    main functions. *)
Theorem C62_main : forall fuel disk msg no_file prog path s mode args r rs seeds d left lines d',
  image_at disk path r -> requests r (s :: mode :: args) rs -> (forall a f, In (a, f) rs -> addr24 a) -> holds_requests seeds rs -> (forall e, one_line (msg e)) ->
  run_passes 100 fuel msg (rom_read r) seeds new_disassembler [] = Ok (d, left, lines) -> ds_sym d < 2 ^ 31 -> cleanup d = Ok d' -> listable [] d' ->
  exists out N, quick_disassemble_main fuel disk msg no_file prog (path :: s :: mode :: args) = Ok (out, 0) /\
    forall file fuel', file <> path -> (N <= fuel')%nat -> exists asm,
      quick_assemble_main fuel' (saved file (written_out out) disk) msg no_file prog [path; "-"; file] = Ok (target_lines asm, 0).
Proof. exact round_main. Qed.
Definition cart_seeds : omap flags := [(0x8000, RawFlags B_off B_on B_on B_unknown); (0x8012, RawFlags B_off B_unknown B_unknown B_unknown)].
Definition cart_run : res (disassembler * omap flags * list string) := run_passes 100 99 no_text (rom_read cart_rom) cart_seeds new_disassembler [].
Definition cart_dis : disassembler := match cart_run with Ok (d, _, _) => d | _ => new_disassembler end.
Example C62_main_case : image_at cart_disk "game.sfc" cart_rom /\ requests cart_rom cart_args cart_asked /\ holds_requests cart_seeds cart_asked /\ (forall e, one_line (no_text e)) /\
  (exists left lines, cart_run = Ok (cart_dis, left, lines)) /\ ds_sym cart_dis < 2 ^ 31 /\ cleanup cart_dis = Ok (clean_of cart_dis) /\ listable [] (clean_of cart_dis) /\ List.length (ds_map cart_dis) = 3%nat.
Proof.
  destruct C57_requests_case as (A & B & C). split; [exact A|]. split; [exact B|]. split; [exact C|]. split; [intros e a b; do 6 (destruct a as [|? a]; [discriminate|]); destruct a; discriminate|].
  split; [do 2 eexists; vm_compute; reflexivity|]. split; [vm_compute; reflexivity|]. split; [apply clean_is; vm_compute; reflexivity|].
  split; [|vm_compute; reflexivity]. apply listable_ok; vm_compute; reflexivity.
Qed.
Print Assumptions C62_main.
