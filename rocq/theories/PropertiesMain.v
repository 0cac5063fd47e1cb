(** Properties of the programs of util as they are called (C56-C60). *)
From Verif Require Import Base ModelNumeric ModelAddress ModelExpr ModelState ModelMap ModelToken ModelStatement ModelParse ModelAssembler ModelRom ModelDisasm ModelTools ModelDumb ModelFile ModelInteractive ModelMain
  SpecArith SpecText SpecState SpecRom SpecTools SpecSink SpecListing SpecDump SpecFile SpecShow SpecMain ScanProofs MainProofs MainToolProofs.
Open Scope string_scope.
Open Scope list_scope.
Open Scope Z_scope.

(** ** C56.  A hexadecimal argument: a variable is set to the number at the start of the text if
    it fits; the text does not match if no number is there, and if there is nothing but space the
    variable is not set, which the programs do not notice. *)
Theorem C56_hexadecimal : forall s,
  (forall v, scan_hex s = Ok (Scanned v) <-> number 16 s v /\ 0 <= v < 2 ^ 32) /\
  (scan_hex s = Ok Ended <-> spaces s) /\
  (scan_hex s = Ok Mismatch <-> ~ spaces s /\ forall v, ~ number 16 s v) /\
  (scan_hex s = UB UB_overflow <-> exists v, number 16 s v /\ ~ 0 <= v < 2 ^ 32).
Proof. exact hex_limits. Qed.
Example C56_hexadecimal_case : scan_hex " 0x8000" = Ok (Scanned 0x8000) /\ scan_hex "+c0ffeEgg" = Ok (Scanned 0xc0ffee) /\ scan_hex "0xg" = Ok Mismatch /\
  scan_hex " " = Ok Ended /\ scan_hex "-1" = UB UB_overflow /\ number 16 "00ffff" 0xffff.
Proof. repeat (split; [vm_compute; reflexivity|]). apply (printed_number 0xffff). unfold addr24. lia. Qed.
Print Assumptions C56_hexadecimal.

Theorem C56_decimal : forall s,
  (forall v, scan_dec s = Ok (Scanned v) <-> number 10 s v /\ - 2 ^ 31 <= v < 2 ^ 31) /\
  (scan_dec s = Ok Ended <-> spaces s) /\
  (scan_dec s = Ok Mismatch <-> ~ spaces s /\ forall v, ~ number 10 s v) /\
  (scan_dec s = UB UB_overflow <-> exists v, number 10 s v /\ ~ - 2 ^ 31 <= v < 2 ^ 31).
Proof. exact dec_limits. Qed.
Example C56_decimal_case : scan_dec "-12" = Ok (Scanned (-12)) /\ scan_dec "0x10" = Ok (Scanned 0) /\ scan_dec "ten" = Ok Mismatch /\ scan_dec "2147483648" = UB UB_overflow.
Proof. repeat split; vm_compute; reflexivity. Qed.
Print Assumptions C56_decimal.

(** The digits that the programs print for an address are read as that address; with the dollar
    sign in front, as it is printed, it is not a number. *)
Theorem C56_digits : forall a, addr24 a -> number 16 (hex_fixed 6 a) a.
Proof. exact printed_number. Qed.
Theorem C56_printed_refuted : forall a, scan_hex (address_to_string a) = Ok Mismatch.
Proof. exact dollar_mismatch. Qed.
Example C56_printed_refuted_case : address_to_string 0x8000 = "$008000" /\ hex_fixed 6 0x8000 = "008000".
Proof. split; vm_compute; reflexivity. Qed.
Print Assumptions C56_digits.
Print Assumptions C56_printed_refuted.

(** ** C57.  quick_disassemble disassembles from the addresses given to it, each in the mode named
    behind it; the first request for an address counts. *)
Theorem C57_requests : forall fuel disk msg no_file prog path s mode args r rs seeds,
  image_at disk path r -> requests r (s :: mode :: args) rs -> holds_requests seeds rs ->
  forall out c, quick_disassemble_main fuel disk msg no_file prog (path :: s :: mode :: args) = Ok (out, c) <->
    exists d left lines, run_passes 100 fuel msg (rom_read r) seeds new_disassembler [] = Ok (d, left, lines) /\
      ((exists d', cleanup d = Ok d' /\ out = lines ++ listing (ds_map d') /\ c = 0) \/
       (exists e, cleanup d = Err e /\ out = lines ++ [msg e] /\ c = 1)).
Proof. exact main_runs. Qed.
(** Every list of requests has its map. *)
Theorem C57_map : forall rs, exists seeds, holds_requests seeds rs /\ forall m, holds_requests m rs -> m = seeds.
Proof. exact requests_map. Qed.
(** Requests that are turned down end with status 1. *)
Theorem C57_turned_down : forall fuel disk msg no_file prog path s mode args r out,
  image_at disk path r -> turned_down msg (disassemble_usage prog) r (s :: mode :: args) out ->
  quick_disassemble_main fuel disk msg no_file prog (path :: s :: mode :: args) = Ok (out, 1).
Proof. exact main_turned_down. Qed.
(** An address that is blank or too large is undefined behaviour. *)
Theorem C57_undefined : forall fuel disk msg no_file prog path s mode args r,
  image_at disk path r -> undefined_requests r (s :: mode :: args) ->
  exists u, quick_disassemble_main fuel disk msg no_file prog (path :: s :: mode :: args) = UB u.
Proof. exact main_undefined. Qed.
(** There are no other cases. *)
Theorem C57_cases : forall msg prog disk path r args, image_at disk path r ->
  (exists rs, requests r args rs) \/ (exists out, turned_down msg (disassemble_usage prog) r args out) \/ undefined_requests r args.
Proof. exact requests_cases. Qed.
(** Without an image, or with too few arguments. *)
Theorem C57_no_image : forall fuel disk msg no_file prog path s mode args, disk path = None ->
  quick_disassemble_main fuel disk msg no_file prog (path :: s :: mode :: args) = Ok ([no_file path], 1).
Proof. exact main_no_image. Qed.
Theorem C57_usage : forall fuel disk msg no_file prog args, (List.length args < 3)%nat ->
  quick_disassemble_main fuel disk msg no_file prog args = Ok (disassemble_usage prog, 0).
Proof. exact main_usage. Qed.
(** A file with a LoROM image: JSR $8010; RTS; and at $8010 the words $8006 and $EAEA. *)
Definition cart : string := fold_right (fun b s => String (ascii_of_N (Z.to_N b)) s) ""
  ([0x20; 0x12; 0x80; 0x60; 0xEA; 0xEA; 0x18; 0x60] ++ repeat 0xEA 8 ++ [0x06; 0x80; 0x60] ++ repeat 0xEA (Z.to_nat 0x7fc9) ++ [0x34; 0x12; 0xcb; 0xed] ++ repeat 0 (Z.to_nat 0x8020)).
Definition cart_disk : string -> option string := fun p => if String.eqb p "game.sfc" then Some cart else None.
Definition no_text : err -> string := fun _ => "error".
Definition no_file_text : string -> string := fun p => String.append "no " p.
Definition run_cart (args : list string) : res (list string * Z) := quick_disassemble_main 99 cart_disk no_text no_file_text "tool" ("game.sfc" :: args).
Definition cart_rom : rom := match disk_image cart_disk "game.sfc" with Some r => r | None => Rom LoRom [] end.
Example C57_case :
  run_cart ["8000"; "m8x8"; "@0x8010!"; "M16"; "08006"; "native"; "left"] = Ok
   (["; Disassembled 5 instructions."; "         .org $008000"; "entry1:  .entry m8x8"; "         jsr entry3                 ; $008000 m8x8"; "         rts                        ; $008003 m8x8";
     "         .org $008006"; "entry2:  .entry m16"; "         clc                        ; $008006 m16, c=0"; "         rts                        ; $008007 m16, c=0";
     "         .org $008012"; "entry3:  .entry m8x8"; "         rts                        ; $008012 m8x8"], 0) /\
  run_cart ["8000"; "m9"] = Ok (["m9 does not name a processor mode"], 1) /\ run_cart ["$8000"; "m8"] = Ok (disassemble_usage "tool", 1) /\
  run_cart ["@7e0000"; "m8"] = Ok (["error"], 1) /\ run_cart [""; "m8"] = UB UB_uninit /\ run_cart ["@"; "m8"] = UB UB_uninit /\ run_cart ["1000001"; "m8"] = UB UB_assert /\
  run_cart ["8000"] = Ok (disassemble_usage "tool", 0).
Proof. vm_compute. repeat split; reflexivity. Qed.
Definition cart_args : list string := ["8000"; "m8x8"; "0x8000"; "M16"; "8012"; "native"; "left"].
Definition cart_asked : list (Z * flags) := [(0x8000, RawFlags B_off B_on B_on B_unknown); (0x8000, RawFlags B_off B_off B_unknown B_unknown); (0x8012, RawFlags B_off B_unknown B_unknown B_unknown)].
Example C57_requests_case : image_at cart_disk "game.sfc" cart_rom /\ requests cart_rom cart_args cart_asked /\
  holds_requests [(0x8000, RawFlags B_off B_on B_on B_unknown); (0x8012, RawFlags B_off B_unknown B_unknown B_unknown)] cart_asked.
Proof.
  split.
  { apply disk_image_at. unfold cart_rom. assert (X : match disk_image cart_disk "game.sfc" with Some _ => true | None => false end = true) by (vm_compute; reflexivity).
    revert X. generalize (disk_image cart_disk "game.sfc"). intros [r|] X; [reflexivity|discriminate X]. }
  split; [|apply holds_iff; reflexivity].
  repeat (apply rq_pair; [apply asked_plain; [vm_compute; reflexivity|lia|reflexivity]|apply mode_is; vm_compute; reflexivity|]). apply rq_left.
Qed.
Print Assumptions C57_requests.
Print Assumptions C57_map.
Print Assumptions C57_turned_down.
Print Assumptions C57_undefined.
Print Assumptions C57_cases.
Print Assumptions C57_no_image.
Print Assumptions C57_usage.

(** dumb_disassemble prints what it prints from the address and the mode given (see C50). *)
Theorem C57_dumb : forall fuel disk msg no_file prog path s mode args r v f, image_at disk path r -> number 16 s v -> 0 <= v < 2 ^ 32 -> mode_named mode f ->
  forall out c, dumb_main fuel disk msg no_file prog (path :: s :: mode :: args) = Ok (out, c) <-> dumb_disassemble fuel msg (rom_read r) v f = (out, Ok c).
Proof. exact dumb_runs. Qed.
(** When the address is no number, the usage is printed with the address as name of the program. *)
Theorem C57_misnamed_refuted : forall fuel disk msg no_file prog path s mode args r, image_at disk path r -> ~ spaces s -> (forall v, ~ number 16 s v) ->
  dumb_main fuel disk msg no_file prog (path :: s :: mode :: args) = Ok (dumb_usage s, 1).
Proof. exact dumb_misnamed. Qed.
Example C57_dumb_case :
  dumb_main 99 cart_disk no_text no_file_text "tool" ["game.sfc"; "8000"; "m8x8"] =
   Ok (["$008000 -                      jsr $8012 ; m8x8"; "$008003 -                            rts ; m8x8"; "End of subroutine."], 0) /\
  dumb_main 99 cart_disk no_text no_file_text "tool" ["game.sfc"; "$8000"; "m8x8"] = Ok (dumb_usage "$8000", 1).
Proof. vm_compute. repeat split; reflexivity. Qed.
Print Assumptions C57_dumb.
Print Assumptions C57_misnamed_refuted.

(** ** C58.  quick_assemble with the output "-" ends with status 0 if and only if the image and all
    files can be opened, the files assemble, and every byte assembled is in the image. *)
Theorem C58_compares : forall fuel disk msg no_file prog path p ps out,
  quick_assemble_main fuel disk msg no_file prog (path :: "-" :: p :: ps) = Ok (out, 0) <->
  exists r files ws a, image_at disk path r /\ files_at disk (p :: ps) files /\ assemble fuel takes_all files = (ws, Ok a) /\
    (forall w k b, In w ws -> nth_byte (snd w) k = Some b -> in_rom r (same_bank_plus (fst w) k) b) /\ out = target_lines a.
Proof. exact main_agrees. Qed.
Definition cart_source : string := written_out [" .org $8000"; " .entry m8x8"; " jsr sub1"; " rts"; " .org $8012"; "sub1: .entry m8x8"; " rts"].
Definition cart_wrong : string := written_out [" .org $8000"; " .entry m8x8"; " jsr $8013"; " rts"].
Definition work_disk : string -> option string := saved "good.asm" cart_source (saved "bad.asm" cart_wrong cart_disk).
Example C58_compares_case :
  quick_assemble_main 99 work_disk no_text no_file_text "tool" ["game.sfc"; "-"; "good.asm"] = Ok (["0 jump targets found"], 0) /\
  quick_assemble_main 99 work_disk no_text no_file_text "tool" ["game.sfc"; "-"; "bad.asm"] = Ok (["Error assembling: error"], 1) /\
  quick_assemble_main 99 work_disk no_text no_file_text "tool" ["game.sfc"; "-"; "good.asm"; "none.asm"] = Ok (["Error loading file: no none.asm"], 1) /\
  quick_assemble_main 99 work_disk no_text no_file_text "tool" ["none.sfc"; "-"; "good.asm"] = Ok (["Error loading ROM: no none.sfc"], 1) /\
  quick_assemble_main 99 work_disk no_text no_file_text "tool" ["game.sfc"; "good.asm"; "bad.asm"] = Ok (["Error: good.asm given as output path"], 1) /\
  quick_assemble_main 99 work_disk no_text no_file_text "tool" ["game.sfc"; "new.sfc"; "good.asm"] = UB UB_null.
Proof. vm_compute. repeat split; reflexivity. Qed.
Print Assumptions C58_compares.

(** The status is 0 or 1; but status 0 does not mean that anything was compared: it is also that
    of a call with too few arguments. *)
Theorem C58_status : forall fuel disk msg no_file prog args out c, quick_assemble_main fuel disk msg no_file prog args = Ok (out, c) -> c = 0 \/ c = 1.
Proof. exact assemble_main_status. Qed.
Theorem C58_usage_refuted : forall fuel disk msg no_file prog args, (List.length args < 3)%nat -> quick_assemble_main fuel disk msg no_file prog args = Ok (assemble_usage prog, 0).
Proof. exact assemble_usage_exit. Qed.
(** No image is ever overwritten. *)
Theorem C58_overwrites_refuted : forall fuel disk msg no_file prog path output p ps r, image_at disk path r -> output <> "-"%string -> (forall s, output <> (s ++ ".asm")%string) ->
  exists u, quick_assemble_main fuel disk msg no_file prog (path :: output :: p :: ps) = UB u.
Proof. exact overwriting_fails. Qed.
Print Assumptions C58_status.
Print Assumptions C58_usage_refuted.
Print Assumptions C58_overwrites_refuted.

(** A source is not overwritten by mistake: a name that ends like one is refused as output. *)
Theorem C58_spares : forall fuel disk msg no_file prog path s p ps r, image_at disk path r ->
  quick_assemble_main fuel disk msg no_file prog (path :: (s ++ ".asm")%string :: p :: ps) = Ok ([("Error: " ++ (s ++ ".asm") ++ " given as output path")%string], 1).
Proof. exact source_spared. Qed.
Lemma work_image : image_at work_disk "game.sfc" cart_rom.
Proof.
  apply disk_image_at. assert (E : disk_image work_disk "game.sfc" = disk_image cart_disk "game.sfc").
  { unfold disk_image. assert (W : work_disk "game.sfc" = cart_disk "game.sfc") by (unfold work_disk; cbn [String.eqb Ascii.eqb Bool.eqb]; reflexivity). rewrite W. reflexivity. }
  rewrite E. unfold cart_rom. clear E.
  assert (X : match disk_image cart_disk "game.sfc" with Some _ => true | None => false end = true) by (vm_compute; reflexivity).
  destruct (disk_image cart_disk "game.sfc"); [reflexivity|discriminate X].
Qed.
Example C58_spares_case : image_at work_disk "game.sfc" cart_rom /\
  quick_assemble_main 99 work_disk no_text no_file_text "tool" ["game.sfc"; "good.asm"; "bad.asm"] = Ok (["Error: good.asm given as output path"], 1).
Proof. split; [exact work_image|vm_compute; reflexivity]. Qed.
Print Assumptions C58_spares.
(** What is missing or wrong is reported: the image, the first of the sources that is not there,
    or why they could not be assembled. *)
Theorem C58_reports : forall fuel disk msg no_file prog path p ps,
  (disk path = None -> quick_assemble_main fuel disk msg no_file prog (path :: "-" :: p :: ps) = Ok ([("Error loading ROM: " ++ no_file path)%string], 1)) /\
  (forall r q, image_at disk path r -> missing_file disk (p :: ps) q ->
     quick_assemble_main fuel disk msg no_file prog (path :: "-" :: p :: ps) = Ok ([("Error loading file: " ++ no_file q)%string], 1)) /\
  (forall r files ws e, image_at disk path r -> files_at disk (p :: ps) files -> assemble fuel (identity_sink r) files = (ws, Err e) ->
     quick_assemble_main fuel disk msg no_file prog (path :: "-" :: p :: ps) = Ok ([("Error assembling: " ++ msg e)%string], 1)).
Proof. exact compare_reports. Qed.
Example C58_reports_case : work_disk "none.sfc" = None /\ missing_file work_disk ["good.asm"; "none.asm"; "other.asm"] "none.asm" /\
  image_at work_disk "game.sfc" cart_rom /\ files_at work_disk ["bad.asm"] [read_lines cart_wrong] /\
  match snd (assemble 99 (identity_sink cart_rom) [read_lines cart_wrong]) with Err _ => True | _ => False end.
Proof.
  split; [reflexivity|]. split; [exists ["good.asm"], ["other.asm"]; split; [reflexivity|split; [intros x [<-|[]]; discriminate|reflexivity]]|].
  split; [exact work_image|]. split; [repeat constructor; exists cart_wrong; split; reflexivity|]. vm_compute. exact Logic.I.
Qed.
Print Assumptions C58_reports.

(** ** C48, as a program: disassemble_more ends with status 0 only if its sources agree with the
    image and leave no jump target open, and then has nothing to show. *)
Theorem C48_main : forall fuel disk msg no_file prog path p ps out,
  disassemble_more_main (S fuel) disk msg no_file prog (path :: p :: ps) = Ok (out, 0) <->
  exists r files ws a, image_at disk path r /\ files_at disk (p :: ps) files /\ assemble (S fuel) takes_all files = (ws, Ok a) /\
    (forall w k b, In w ws -> nth_byte (snd w) k = Some b -> in_rom r (same_bank_plus (fst w) k) b) /\
    jump_targets a = [] /\ out = ["; Disassembled no instructions."].
Proof. exact more_main_exact. Qed.
(** If they leave a jump target open it reads through a null pointer. *)
Theorem C48_crashes : forall fuel disk msg no_file prog path p ps r files ws a, image_at disk path r -> files_at disk (p :: ps) files ->
  assemble (S fuel) takes_all files = (ws, Ok a) -> (forall w k b, In w ws -> nth_byte (snd w) k = Some b -> in_rom r (same_bank_plus (fst w) k) b) ->
  jump_targets a <> [] -> disassemble_more_main (S fuel) disk msg no_file prog (path :: p :: ps) = UB UB_null.
Proof.
  intros fuel disk msg no_file prog path p ps r files ws a IM F A AG J. rewrite (more_ends fuel disk msg no_file prog path p ps r files ws a IM F A AG).
  destruct (jump_targets a); [contradiction|reflexivity].
Qed.
Theorem C48_reports : forall fuel disk msg no_file prog path p ps,
  (disk path = None -> disassemble_more_main fuel disk msg no_file prog (path :: p :: ps) = Ok ([("Error loading ROM: " ++ no_file path)%string], 1)) /\
  (forall r q, image_at disk path r -> missing_file disk (p :: ps) q ->
     disassemble_more_main fuel disk msg no_file prog (path :: p :: ps) = Ok ([("Error loading file: " ++ no_file q)%string], 1)) /\
  (forall r files ws e, image_at disk path r -> files_at disk (p :: ps) files -> assemble fuel (identity_sink r) files = (ws, Err e) ->
     disassemble_more_main fuel disk msg no_file prog (path :: p :: ps) = Ok ([("Error assembling: " ++ msg e)%string], 1)).
Proof. exact more_reports. Qed.
Definition cart_call : string := written_out [" .org $8000"; " .entry m8x8"; " jsr $8012"; " rts"].
Definition more_disk : string -> option string := saved "call.asm" cart_call work_disk.
Example C48_main_case :
  disassemble_more_main 99 more_disk no_text no_file_text "tool" ["game.sfc"; "good.asm"] = Ok (["; Disassembled no instructions."], 0) /\
  disassemble_more_main 99 more_disk no_text no_file_text "tool" ["game.sfc"; "call.asm"] = UB UB_null /\
  disassemble_more_main 99 more_disk no_text no_file_text "tool" ["game.sfc"; "bad.asm"] = Ok (["Error assembling: error"], 1) /\
  disassemble_more_main 99 more_disk no_text no_file_text "tool" ["game.sfc"; "good.asm"; "none.asm"; "neither.asm"] = Ok (["Error loading file: no none.asm"], 1) /\
  disassemble_more_main 99 more_disk no_text no_file_text "tool" ["none.sfc"; "good.asm"] = Ok (["Error loading ROM: no none.sfc"], 1) /\
  disassemble_more_main 99 more_disk no_text no_file_text "tool" ["game.sfc"] = Ok (more_usage "tool", 0).
Proof. vm_compute. repeat split; reflexivity. Qed.
Print Assumptions C48_main.
Print Assumptions C48_crashes.
Print Assumptions C48_reports.

(** ** C59.  A session of interactive_parse answers every line of its input by itself, each behind
    a prompt, and ends with one more prompt. *)
Theorem C59_session : forall msg t ls out, has_lines t ls ->
  (interactive_parse msg t = Ok out <-> exists answers, Forall2 (fun l a => answer msg l = Ok a) ls answers /\ out = session_text answers).
Proof. exact session_exact. Qed.
(** It ends so for every input, unless a constant operand on some line overflows. *)
Theorem C59_safe : forall msg t ls, has_lines t ls ->
  (exists out, interactive_parse msg t = Ok out) \/
  (interactive_parse msg t = UB UB_overflow /\ exists l ts, In l ls /\ tokenize l = Ok ts /\ overflowing_operand ts).
Proof. exact session_safe. Qed.
(** What was printed for a line is repeated when it is given as input. *)
Theorem C59_again : forall msg line l, read_as line l -> Forall plain_parsed l ->
  interactive_parse msg (written_out (map entity_line l)) = Ok (session_text (map (fun p => [entity_line p]) l)).
Proof. exact session_again. Qed.
Example C59_case : interactive_parse no_text (written_out ["top: LDA #1 : rts"; "`"; ""] ++ "nop") = Ok
  ("> " ++ written_out ["top:"; "    lda #1"; "    rts"] ++ "> " ++ written_out ["error"] ++ "> > " ++ written_out ["    nop"] ++ "> ")%string /\
  interactive_parse no_text (written_out ["top:"; "    lda #1"; "    rts"]) = Ok (session_text [["top:"]; ["    lda #1"]; ["    rts"]]) /\
  interactive_parse no_text "REP #2147483647 + 1" = UB UB_overflow.
Proof. repeat split; vm_compute; reflexivity. Qed.
Print Assumptions C59_session.
Print Assumptions C59_safe.
Print Assumptions C59_again.

(** ** C60.  The output of quick_dump, saved as a file, is accepted by quick_assemble with the same
    image. *)
Theorem C60_dump : forall disk msg no_file prog path s c more out r start count stride per_line file fuel, image_at disk path r ->
  number 16 s start -> addr24 start -> number 10 c count -> optional 1 (nth_error more 0) stride -> optional 8 (nth_error more 1) per_line ->
  dump_size count stride <= 2 ^ 16 -> file <> path ->
  quick_dump_main disk msg no_file prog (path :: s :: c :: more) = Ok (out, 0) ->
  quick_assemble_main fuel (saved file (written_out out) disk) msg no_file prog [path; "-"; file] = Ok (["0 jump targets found"], 0).
Proof. exact dump_again. Qed.
Example C60_dump_case : exists out, quick_dump_main cart_disk no_text no_file_text "tool" ["game.sfc"; "8000"; "4"; "2"; ""] = Ok (out, 0) /\
  out = [".org $008000"; ".dw  $1220, $6080, $eaea, $6018"] /\
  quick_assemble_main 9 (saved "dump.asm" (written_out out) cart_disk) no_text no_file_text "tool" ["game.sfc"; "-"; "dump.asm"] = Ok (["0 jump targets found"], 0).
Proof. eexists. split; [vm_compute; reflexivity|]. split; [reflexivity|]. vm_compute. reflexivity. Qed.
(** When quick_dump ends with status 0: exactly as its arguments say. *)
Theorem C60_arguments : forall disk msg no_file prog path s c more out,
  quick_dump_main disk msg no_file prog (path :: s :: c :: more) = Ok (out, 0) <->
  exists r start count stride per_line, image_at disk path r /\ number 16 s start /\ 0 <= start < 2 ^ 32 /\ number 10 c count /\ - 2 ^ 31 <= count < 2 ^ 31 /\
    optional 1 (nth_error more 0) stride /\ optional 8 (nth_error more 1) per_line /\ quick_dump (rom_read r) start count stride per_line = Ok out.
Proof. exact dump_main_exact. Qed.
Print Assumptions C60_dump.
Print Assumptions C60_arguments.

(** So is the output of quick_disassemble, if it assembles at all. *)
Theorem C60_listing : forall fuel disk msg no_file prog path s mode args out c r rs seeds d left lines,
  image_at disk path r -> requests r (s :: mode :: args) rs -> (forall a f, In (a, f) rs -> addr24 a) -> holds_requests seeds rs -> (forall e, one_line (msg e)) ->
  run_passes 100 fuel msg (rom_read r) seeds new_disassembler [] = Ok (d, left, lines) -> ds_sym d < 2 ^ 31 ->
  quick_disassemble_main fuel disk msg no_file prog (path :: s :: mode :: args) = Ok (out, c) ->
  c = 0 /\ forall file fuel' ws asm, file <> path -> assemble fuel' takes_all [read_lines (written_out out)] = (ws, Ok asm) ->
    quick_assemble_main fuel' (saved file (written_out out) disk) msg no_file prog [path; "-"; file] = Ok (target_lines asm, 0).
Proof. exact listing_again. Qed.
Example C60_listing_case : exists out, run_cart cart_args = Ok (out, 0) /\
  (exists d left lines, run_passes 100 99 no_text (rom_read cart_rom) [(0x8000, RawFlags B_off B_on B_on B_unknown); (0x8012, RawFlags B_off B_unknown B_unknown B_unknown)] new_disassembler [] = Ok (d, left, lines) /\ ds_sym d = 2) /\
  quick_assemble_main 99 (saved "list.asm" (written_out out) cart_disk) no_text no_file_text "tool" ["game.sfc"; "-"; "list.asm"] = Ok (["0 jump targets found"], 0).
Proof. eexists. split; [vm_compute; reflexivity|]. split; [do 3 eexists; split; [vm_compute; reflexivity|reflexivity]|]. vm_compute. reflexivity. Qed.
Print Assumptions C60_listing.
