(** The debugging output of the assembler.  Transcribes Module::DebugPrint and
    Assembler::DebugPrint.  Output is a list of lines. *)
From Verif Require Import Base ModelNumeric ModelAddress ModelExpr ModelStatement ModelModule ModelAssembler.
Open Scope string_scope.
Open Scope Z_scope.

(** nsasm/module.cc:404-415: one line of the module.  plus_minus_labels (line 407) is always
    empty, see [ModelModule.line]. *)
Definition debug_line (l : line) : list string :=
  (map (fun n => String.append "       " (String.append n ":")) (ln_labels l) ++
   [match ln_value l with
    | Some v => String.append (hex_fixed 6 (label_to_number T_long v)) (String.append "     " (stmt_to_string (ln_stmt l)))
    | None => String.append "           " (stmt_to_string (ln_stmt l))
    end])%list.

(** nsasm/module.cc:402-417. *)
Definition module_debug (m : module) : list string := flat_map debug_line (md_lines m).

(** nsasm/assembler.cc:156-161.  The paths of the modules, which the model of a module leaves
    out, are given beside them. *)
Definition debug_print (paths : list string) (a : assembler) : list string :=
  flat_map (fun pm => String.append "  === debug info for " (fst pm) :: module_debug (snd pm))
    (combine paths (as_mods a)).
