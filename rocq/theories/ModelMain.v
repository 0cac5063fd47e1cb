(** The programs in util: from the command line and the files named on it to the lines printed
    and the exit status.  The disk is a function from paths to contents; what is opened can be
    read completely.  The texts of errors are parameters: [msg] for an error of the library,
    [no_file] for a path that cannot be opened.  [prog] is argv[0] and [args] the rest. *)
From Verif Require Import Base ModelNumeric ModelAddress ModelExpr ModelMnemonic ModelAMode ModelState ModelInstr
  ModelToken ModelStatement ModelParse ModelMap ModelRanges ModelModule ModelAssembler ModelRom ModelDisasm ModelTools ModelDumb ModelFile ModelInteractive.
Open Scope string_scope.
Open Scope Z_scope.

(** What sscanf does with one conversion: the variable is set (the result is 1), the text does
    not match (0), or the text ends before there is anything to match (EOF, which is not 0). *)
Inductive scan := Scanned (v : Z) | Mismatch | Ended.

(** The sign allowed by the conversions %x and %d. *)
Definition take_sign (s : string) : bool * string :=
  match s with
  | String "-" s' => (true, s')
  | String "+" s' => (false, s')
  | _ => (false, s)
  end.
(** The digits of [s], given sign and range; a number outside the range of the variable is
    undefined (C17 7.21.6.2p10). *)
Definition scan_digits (base : Z) (digit : ascii -> bool) (neg : bool) (lo hi : Z) (s : string) : res scan :=
  let (ds, _) := span digit s in
  match ds with
  | EmptyString => Ok Mismatch
  | _ =>
      let v := if neg then - digits_value base 0 ds else digits_value base 0 ds in
      if (lo <=? v) && (v <=? hi) then Ok (Scanned v) else UB UB_overflow
  end.
(** sscanf(s, "%x", &v) for an unsigned v, by C17 7.21.6.2: space is skipped; a sign and a prefix
    0x are optional; what follows the digits is ignored.  (Some libraries read "0x" without
    digits as 0; by the standard it does not match.) *)
Definition scan_hex (s : string) : res scan :=
  match strip_leading s with
  | EmptyString => Ok Ended
  | t =>
      let (neg, t) := take_sign t in
      let t := match t with String "0" (String ("x" | "X") t') => t' | _ => t end in
      scan_digits 16 is_hex_digit neg 0 0xffffffff t
  end.
(** sscanf(s, "%d", &v) for an int v. *)
Definition scan_dec (s : string) : res scan :=
  match strip_leading s with
  | EmptyString => Ok Ended
  | t => let (neg, t) := take_sign t in scan_digits 10 is_decimal_digit neg int_min int_max t
  end.
(** The idiom if (!sscanf(...)) { usage; return 1; } followed by a use of the variable: EOF is
    not 0, so that the variable is used without having been set. *)
Definition scanned (r : res scan) : res (option Z) :=
  let* x := r in
  match x with
  | Scanned v => Ok (Some v)
  | Mismatch => Ok None
  | Ended => UB UB_uninit
  end.

(** Lines printed and exit status, or how to go on. *)
Inductive step A := Go (a : A) | Exit (out : list string) (status : Z).
Arguments Go {A}. Arguments Exit {A}.

(** The bytes of a file. *)
Fixpoint bytes_of (t : string) : list Z :=
  match t with EmptyString => [] | String c t' => code c :: bytes_of t' end.
(** nsasm/rom.cc:88-149, util/quick_disassemble.cc:41-45 and the like; [intro] is put before the
    text of the error. *)
Definition open_rom (disk : string -> option string) (msg : err -> string) (no_file : string -> string)
           (intro path : string) : res (step rom) :=
  match disk path with
  | None => Ok (Exit [intro ++ no_file path] 1)
  | Some t =>
      match load_rom (bytes_of t) with
      | Ok r => Ok (Go r)
      | Err e => Ok (Exit [intro ++ msg e] 1)
      | UB u => UB u
      | OutOfFuel => OutOfFuel
      end
  end.
(** util/quick_assemble.cc:43-51, util/disassemble_more.cc:41-49: the files are opened in order. *)
Fixpoint open_files (disk : string -> option string) (no_file : string -> string) (paths : list string)
  : step (list (list string)) :=
  match paths with
  | [] => Go []
  | p :: paths' =>
      match disk p with
      | None => Exit ["Error loading file: " ++ no_file p] 1
      | Some t =>
          match open_files disk no_file paths' with
          | Go fs => Go (read_lines t :: fs)
          | Exit out c => Exit out c
          end
      end
  end.

(** util/quick_disassemble.cc:13-20. *)
Definition disassemble_usage (prog : string) : list string :=
  ["Usage: " ++ prog ++ " <path-to-rom> ([@]<snes-hex-address> <mode name>)+"; "";
   "Disassembles some code starting at the named offset.";
   "If the offset begins with @, dereference the 16-bit address at this location."].
(** util/quick_disassemble.cc:47-71: pairs of an address and a mode; an address that is left over
    is ignored, and so is an address that was already given (map::emplace). *)
Fixpoint read_seeds (msg : err -> string) (prog : string) (src : source) (args : list string)
         (seeds : omap flags) : res (step (omap flags)) :=
  match args with
  | address :: mode :: args' =>
      match flags_from_name mode with
      | None => Ok (Exit [mode ++ " does not name a processor mode"] 1)
      | Some f =>
          let (indirect, text) := match address with String "@" t => (true, t) | _ => (false, address) end in
          let* v := scanned (scan_hex text) in
          match v with
          | None => Ok (Exit (disassemble_usage prog) 1)
          | Some v =>
              if (indirect : bool) then
                let* p := mk_address v in
                match read_word src p with
                | Ok w => let* a := mk_address w in read_seeds msg prog src args' (om_insert a f seeds)
                | Err e => Ok (Exit [msg e] 1)
                | UB u => UB u
                | OutOfFuel => OutOfFuel
                end
              else let* a := mk_address v in read_seeds msg prog src args' (om_insert a f seeds)
          end
      end
  | _ => Ok (Go seeds)
  end.
(** util/quick_disassemble.cc:90-94: the exit status after the passes. *)
Definition disassemble_status (fuel : nat) (msg : err -> string) (src : source) (seeds : omap flags) : res Z :=
  let* (d, _, _) := run_passes 100 fuel msg src seeds new_disassembler [] in
  match cleanup d with
  | Ok _ => Ok 0
  | Err _ => Ok 1
  | UB u => UB u
  | OutOfFuel => OutOfFuel
  end.
(** util/quick_disassemble.cc:35-125. *)
Definition quick_disassemble_main (fuel : nat) (disk : string -> option string) (msg : err -> string)
           (no_file : string -> string) (prog : string) (args : list string) : res (list string * Z) :=
  match args with
  | path :: ((_ :: _ :: _) as rest) =>
      let* r := open_rom disk msg no_file "" path in
      match r with
      | Exit out c => Ok (out, c)
      | Go r =>
          let* seeds := read_seeds msg prog (rom_read r) rest [] in
          match seeds with
          | Exit out c => Ok (out, c)
          | Go seeds =>
              let* out := quick_disassemble fuel msg (rom_read r) seeds in
              let* c := disassemble_status fuel msg (rom_read r) seeds in
              Ok (out, c)
          end
      end
  | _ => Ok (disassemble_usage prog, 0)
  end.

(** absl::EndsWith. *)
Definition ends_with (suffix s : string) : bool :=
  let n := (String.length s - String.length suffix)%nat in
  String.eqb (substring n (String.length suffix) s) suffix.
(** util/quick_assemble.cc:8-16.  (There is no newline after the last line.) *)
Definition assemble_usage (prog : string) : list string :=
  ["Usage: " ++ prog ++ " <path-to-rom-file> <path-to-output> {<path-to-asm-file> ...}"; "";
   "Assembles one or more ASM files, or returns an error message.";
   "If path-to-output is `-`, instead check that the asm files make no ";
   "changes to the ROM being overwritten."].
(** util/quick_assemble.cc:53-57: the exit status of an assembly with the sink of a comparison. *)
Definition assemble_status (fuel : nat) (r : rom) (files : list (list string)) : res Z :=
  match snd (assemble fuel (identity_sink r) files) with
  | Ok _ => Ok 0
  | Err _ => Ok 1
  | UB u => UB u
  | OutOfFuel => OutOfFuel
  end.
(** util/quick_assemble.cc:18-74.  The sink of an overwriting run is created before the files are
    opened. *)
Definition quick_assemble_main (fuel : nat) (disk : string -> option string) (msg : err -> string)
           (no_file : string -> string) (prog : string) (args : list string) : res (list string * Z) :=
  match args with
  | path :: output :: ((_ :: _) as rest) =>
      let* r := open_rom disk msg no_file "Error loading ROM: " path in
      match r with
      | Exit out c => Ok (out, c)
      | Go r =>
          if ends_with ".asm" output then Ok (["Error: " ++ output ++ " given as output path"], 1)
          else if String.eqb output "-" then
            match open_files disk no_file rest with
            | Exit out c => Ok (out, c)
            | Go files =>
                let* out := quick_assemble fuel msg r true files in
                let* c := assemble_status fuel r files in
                Ok (out, c)
            end
          else
            let* out := quick_assemble fuel msg r false [] in
            Ok (out, 0)
      end
  | _ => Ok (assemble_usage prog, 0)
  end.

(** util/disassemble_more.cc:6-14. *)
Definition more_usage (prog : string) : list string :=
  ["Usage: " ++ prog ++ " <path-to-rom-file> {<path-to-asm-file> ...}"; "";
   "Assemble the provided .asm files, and validate that their output";
   "matches the contents of hte provided ROM."; "";
   "On success, start disassembling at all remote jump targets found";
   "in the provided .asm file."].
(** util/disassemble_more.cc:51-55, 84-88: the exit status. *)
Definition more_status (fuel : nat) (msg : err -> string) (r : rom) (files : list (list string)) : res Z :=
  match snd (assemble fuel (identity_sink r) files) with
  | Ok a =>
      let d := add_target_return_conventions (jump_target_return_conventions a) new_disassembler in
      let* (d, _, _) := more_passes 100 fuel msg moved_source a (jump_targets a) d [] in
      match cleanup d with
      | Ok _ => Ok 0
      | Err _ => Ok 1
      | UB u => UB u
      | OutOfFuel => OutOfFuel
      end
  | Err _ => Ok 1
  | UB u => UB u
  | OutOfFuel => OutOfFuel
  end.
(** util/disassemble_more.cc:29-121.  (The line about a file that cannot be opened has no newline.) *)
Definition disassemble_more_main (fuel : nat) (disk : string -> option string) (msg : err -> string)
           (no_file : string -> string) (prog : string) (args : list string) : res (list string * Z) :=
  match args with
  | path :: ((_ :: _) as rest) =>
      let* r := open_rom disk msg no_file "Error loading ROM: " path in
      match r with
      | Exit out c => Ok (out, c)
      | Go r =>
          match open_files disk no_file rest with
          | Exit out c => Ok (out, c)
          | Go files =>
              let* out := disassemble_more fuel msg r files in
              let* c := more_status fuel msg r files in
              Ok (out, c)
          end
      end
  | _ => Ok (more_usage prog, 0)
  end.

(** util/dumb_disassemble.cc:8-16. *)
Definition dumb_usage (prog : string) : list string :=
  ["Usage: " ++ prog ++ " <path-to-rom> <address> <mode name>"; "";
   "Dumbly disassemble instructions starting at the given address, but does";
   "not follow branches or create labels.  Halts when either an error";
   "occurs, or an exit instruction is reached."].
(** util/dumb_disassemble.cc:18-106.  On an address that does not match, the address is printed as
    the name of the program (line 32). *)
Definition dumb_main (fuel : nat) (disk : string -> option string) (msg : err -> string)
           (no_file : string -> string) (prog : string) (args : list string) : res (list string * Z) :=
  match args with
  | path :: address :: mode :: _ =>
      let* r := open_rom disk msg no_file "" path in
      match r with
      | Exit out c => Ok (out, c)
      | Go r =>
          let* v := scanned (scan_hex address) in
          match v with
          | None => Ok (dumb_usage address, 1)
          | Some v =>
              match flags_from_name mode with
              | None => Ok ([mode ++ " does not name a processor mode"], 1)
              | Some f =>
                  let (out, c) := dumb_disassemble fuel msg (rom_read r) v f in
                  let* c := c in Ok (out, c)
              end
          end
      end
  | _ => Ok (dumb_usage prog, 0)
  end.

(** util/quick_dump.cc:5-13. *)
Definition dump_usage (prog : string) : list string :=
  ["Usage: " ++ prog ++ " <path-to-rom> <snes-hex-address> <count> [stride] [per-line]"; "";
   "Emits a literal dump of the memory at the given ROM location.";
   "Makes the given number of entries.  Stride may be 1, 2, or 3, to ";
   "select .db, .dw, or .dl."].
(** util/quick_dump.cc:40-47: an optional argument; the variable has a value before it is read, which
    stays when the text ends before there is anything to match. *)
Definition optional_arg (deflt : Z) (arg : option string) : res (option Z) :=
  match arg with
  | None => Ok (Some deflt)
  | Some s =>
      let* x := scan_dec s in
      Ok (match x with Scanned v => Some v | Mismatch => None | Ended => Some deflt end)
  end.
(** util/quick_dump.cc:15-109. *)
Definition quick_dump_main (disk : string -> option string) (msg : err -> string)
           (no_file : string -> string) (prog : string) (args : list string) : res (list string * Z) :=
  match args with
  | path :: start :: count :: more =>
      let* r := open_rom disk msg no_file "" path in
      match r with
      | Exit out c => Ok (out, c)
      | Go r =>
          let* start := scanned (scan_hex start) in
          match start with
          | None => Ok (dump_usage prog, 1)
          | Some start =>
              let* count := scanned (scan_dec count) in
              match count with
              | None => Ok (dump_usage prog, 1)
              | Some count =>
                  let* stride := optional_arg 1 (nth_error more 0) in
                  match stride with
                  | None => Ok (dump_usage prog, 1)
                  | Some stride =>
                      let* per_line := optional_arg 8 (nth_error more 1) in
                      match per_line with
                      | None => Ok (dump_usage prog, 1)
                      | Some per_line =>
                          let* out := quick_dump (rom_read r) start count stride per_line in
                          Ok (out, 0)
                      end
                  end
              end
          end
      end
  | _ => Ok (dump_usage prog, 0)
  end.

(** util/interactive_parse.cc:14-48: the text printed for the text of the standard input.  After the
    last line there is one more prompt, for the attempt to read that fails; it leaves the
    line empty. *)
Fixpoint print_lines (ls : list string) : string :=
  match ls with [] => "" | l :: ls' => l ++ String newline (print_lines ls') end.
Fixpoint prompts (msg : err -> string) (ls : list string) : res string :=
  match ls with
  | [] => Ok ""
  | l :: ls' =>
      let* a := answer msg l in
      let* rest := prompts msg ls' in
      Ok ("> " ++ print_lines a ++ rest)
  end.
Definition interactive_parse (msg : err -> string) (input : string) : res string :=
  prompts msg (read_lines input ++ [""])%list.
