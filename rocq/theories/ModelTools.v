(** Programs of util/.  Transcribes the parts of util/quick_disassemble.cc,
    util/disassemble_more.cc, util/quick_assemble.cc and util/quick_dump.cc that follow the
    reading of the arguments and files.  Output is a list of lines; [msg] is the text of an
    error, which also depends on its location. *)
From Verif Require Import Base ModelNumeric ModelAddress ModelMnemonic ModelExpr ModelAMode
  ModelOpcode ModelState ModelInstr ModelMap ModelStatement ModelModule ModelAssembler ModelRom
  ModelDisasm.
Open Scope string_scope.
Open Scope Z_scope.

(** The conversion "%-<n>s" of absl::StrFormat. *)
Fixpoint spaces (n : nat) : string := match n with O => "" | S n' => String " " (spaces n') end.
Definition pad_right (n : nat) (s : string) : string :=
  String.append s (spaces (n - String.length s)).

(** nsasm/address.h:32. *)
Definition address_to_string (a : Z) : string := String "$" (hex_fixed 6 a).

(** util/quick_disassemble.cc:101, 104. *)
Definition org_line (a : Z) : string := String.append "         .org " (address_to_string a).

(** util/quick_disassemble.cc:107-121. *)
Definition entry_lines (pc : Z) (d : dinstr) : list string :=
  let label := if String.eqb (di_label d) "" then "" else String.append (di_label d) ":" in
  let entry := String.append (pad_right 8 label)
                 (String.append " .entry " (flags_to_string (es_flags (di_cur d)))) in
  let text (label : string) : string :=
    String.append (pad_right 8 label) (String.append " " (instr_to_string (di_instr d))) in
  let shown (text : string) : string :=
    String.append (pad_right 35 text)
      (String.append " ; " (String.append (address_to_string pc)
        (String.append " " (flags_to_string (es_flags (di_next d)))))) in
  if di_entry d then [entry; shown (text "")] else [shown (text label)].

(** util/quick_disassemble.cc:102-124: from the address [pc] on. *)
Fixpoint listing_lines (pc : Z) (m : omap dinstr) : list string :=
  match m with
  | [] => []
  | (a, d) :: m' =>
      ((if a =? pc then [] else [org_line a]) ++ entry_lines a d ++
       listing_lines (add_wrapped a (instr_size (di_instr d))) m')%list
  end.

(** util/quick_disassemble.cc:95-125. *)
Definition listing (m : omap dinstr) : list string :=
  match m with
  | [] => ["; Disassembled no instructions."]
  | (a, _) :: _ =>
      String.append "; Disassembled " (String.append (dec_string (zlen m)) " instructions.")
      :: org_line a :: listing_lines a m
  end.

(** util/quick_disassemble.cc:22-33. *)
Definition combine_states (targets new : omap flags) : omap flags :=
  fold_left (fun t kv => om_merge flags_merge (fst kv) (snd kv) t) new targets.

(** util/quick_disassemble.cc:77-86: one pass.  [msg] is the text of an error (which also
    depends on its location; it only appears in comments). *)
Fixpoint run_seeds (fuel : nat) (msg : err -> string) (src : source) (seeds : omap flags)
         (d : disassembler) (new : omap flags) (out : list string)
  : res (disassembler * omap flags * list string) :=
  match seeds with
  | [] => Ok (d, new, out)
  | (a, f) :: seeds' =>
      match disassemble fuel src a f d with
      | (d', Ok far) => run_seeds fuel msg src seeds' d' (combine_states new far) out
      | (d', Err e) =>
          run_seeds fuel msg src seeds' d' new
            (out ++ [String.append "; ERROR branching to " (String.append (address_to_string a)
                       (String.append " with mode " (flags_to_string f)));
                     String.append ";   " (msg e)])%list
      | (_, UB u) => UB u
      | (_, OutOfFuel) => OutOfFuel
      end
  end.

(** util/quick_disassemble.cc:75-88: [n] passes. *)
Fixpoint run_passes (n : nat) (fuel : nat) (msg : err -> string) (src : source)
         (seeds : omap flags) (d : disassembler) (out : list string)
  : res (disassembler * omap flags * list string) :=
  match n with
  | O => Ok (d, seeds, out)
  | S n' =>
      let* (d, seeds, out) := run_seeds fuel msg src seeds d [] out in
      run_passes n' fuel msg src seeds d out
  end.

(** util/quick_disassemble.cc:73-125: the output. *)
Definition quick_disassemble (fuel : nat) (msg : err -> string) (src : source)
           (seeds : omap flags) : res (list string) :=
  let* (d, _, out) := run_passes 100 fuel msg src seeds new_disassembler [] in
  match cleanup d with
  | Ok d' => Ok (out ++ listing (ds_map d'))%list
  | Err e => Ok (out ++ [msg e])%list
  | UB u => UB u
  | OutOfFuel => OutOfFuel
  end.

(** util/quick_assemble.cc:36-41, util/disassemble_more.cc:39: RomIdentityTest as a sink. *)
Definition identity_sink (r : rom) : sink := fun _ w => identity_write r (fst w) (snd w).
(** util/quick_assemble.cc:62-66: the jump targets that were not assembled. *)
Definition target_lines (a : assembler) : list string :=
  let targets := jump_targets a in
  String.append (dec_string (zlen targets)) " jump targets found"
  :: map (fun kv => String.append "  " (String.append (address_to_string (fst kv))
                      (String.append " " (flags_to_string (snd kv))))) targets.
(** util/quick_assemble.cc:36-74: the output, when the image is only compared ([identity], the
    output path is "-") or overwritten.  The constructor of RomOverwriter fails (see
    overwriter_create), so what follows it is not modelled. *)
Definition quick_assemble (fuel : nat) (msg : err -> string) (r : rom) (identity : bool)
           (files : list (list string)) : res (list string) :=
  if identity then
    match snd (assemble fuel (identity_sink r) files) with
    | Ok a => Ok (target_lines a)
    | Err e => Ok [String.append "Error assembling: " (msg e)]
    | UB u => UB u
    | OutOfFuel => OutOfFuel
    end
  else let* _ := overwriter_create r in Ok [].

(** util/disassemble_more.cc:39, 61: the image is moved into the sink first, so the pointer
    that is then moved into the disassembler is null; reading from it is undefined. *)
Definition moved_source : source := fun _ _ => UB UB_null.
(** util/disassemble_more.cc:64-82: one pass. *)
Fixpoint more_seeds (fuel : nat) (msg : err -> string) (src : source) (a : assembler)
         (seeds : omap flags) (d : disassembler) (new : omap flags) (out : list string)
  : res (disassembler * omap flags * list string) :=
  match seeds with
  | [] => Ok (d, new, out)
  | (t, f) :: seeds' =>
      if assembler_contains a t then more_seeds fuel msg src a seeds' d new out
      else
        match disassemble fuel src t f d with
        | (d', Ok far) => more_seeds fuel msg src a seeds' d' (combine_states new far) out
        | (d', Err e) =>
            more_seeds fuel msg src a seeds' d' new
              (out ++ [String.append "; ERROR branching to " (String.append (address_to_string t)
                         (String.append " with mode " (flags_to_string f)));
                       String.append ";   " (msg e)])%list
        | (_, UB u) => UB u
        | (_, OutOfFuel) => OutOfFuel
        end
  end.
Fixpoint more_passes (n : nat) (fuel : nat) (msg : err -> string) (src : source) (a : assembler)
         (seeds : omap flags) (d : disassembler) (out : list string)
  : res (disassembler * omap flags * list string) :=
  match n with
  | O => Ok (d, seeds, out)
  | S n' =>
      let* (d, seeds, out) := more_seeds fuel msg src a seeds d [] out in
      more_passes n' fuel msg src a seeds d out
  end.
(** util/disassemble_more.cc:61-121: the output, with the image that the disassembler has. *)
Definition more_listing (fuel : nat) (msg : err -> string) (src : source) (a : assembler)
  : res (list string) :=
  let d := add_target_return_conventions (jump_target_return_conventions a) new_disassembler in
  let* (d, _, out) := more_passes 100 fuel msg src a (jump_targets a) d [] in
  match cleanup d with
  | Ok d' => Ok (out ++ listing (ds_map d'))%list
  | Err e => Ok (out ++ [msg e])%list
  | UB u => UB u
  | OutOfFuel => OutOfFuel
  end.
(** util/disassemble_more.cc:39-121. *)
Definition disassemble_more (fuel : nat) (msg : err -> string) (r : rom)
           (files : list (list string)) : res (list string) :=
  match snd (assemble fuel (identity_sink r) files) with
  | Ok a => more_listing fuel msg moved_source a
  | Err e => Ok [String.append "Error assembling: " (msg e)]
  | UB u => UB u
  | OutOfFuel => OutOfFuel
  end.

(** util/quick_dump.cc:61-89: the text of the value at [a]. *)
Definition dump_value (src : source) (stride a : Z) : res string :=
  if stride =? 2 then let* v := read_word src a in Ok (String "$" (hex_fixed 4 v))
  else if stride =? 3 then let* v := read_long src a in Ok (String "$" (hex_fixed 6 v))
  else let* v := read_byte src a in Ok (String "$" (hex_fixed 2 v)).

(** util/quick_dump.cc:58-90.  When a value can not be read, line 75 calls error() on the
    result of loading the image, which is not an error: absl::get throws, and the program
    is terminated. *)
Fixpoint dump_values (n : nat) (src : source) (stride a : Z) : res (list string) :=
  match n with
  | O => Ok []
  | S n' =>
      match dump_value src stride a with
      | Ok s => let* l := dump_values n' src stride (add_wrapped a stride) in Ok (s :: l)
      | Err _ => UB UB_assert
      | UB u => UB u
      | OutOfFuel => OutOfFuel
      end
  end.

(** absl::StrJoin(values, ", "). *)
Fixpoint join (l : list string) : string :=
  match l with
  | [] => ""
  | [s] => s
  | s :: l' => String.append s (String.append ", " (join l'))
  end.

(** util/quick_dump.cc:100-108.  [fuel] is at least the number of values. *)
Fixpoint dump_lines (fuel : nat) (directive : string) (per_line : nat) (values : list string)
  : list string :=
  match fuel with
  | O => []
  | S f =>
      if (per_line <? List.length values)%nat then
        String.append directive (String.append " " (join (firstn per_line values)))
        :: dump_lines f directive per_line (skipn per_line values)
      else match values with
           | [] => []
           | _ => [String.append directive (String.append " " (join values))]
           end
  end.

(** util/quick_dump.cc:48-108: the output; [start], [count], [stride] and [per_line] as read
    from the arguments. *)
Definition quick_dump (src : source) (start count stride per_line : Z) : res (list string) :=
  let stride := if (3 <? stride) || (stride <? 2) then 1 else stride in
  let count := if count <? 1 then 1 else count in
  let per_line := if per_line <? 1 then 1 else per_line in
  let* a := mk_address start in
  let* values := dump_values (Z.to_nat count) src stride a in
  let directive := if stride =? 2 then ".dw " else if stride =? 3 then ".dl " else ".db " in
  Ok (String.append ".org $" (hex_fixed 6 start)
      :: dump_lines (List.length values) directive (Z.to_nat per_line) values).
