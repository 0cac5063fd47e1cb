(** Properties of the messages about names defined in two files. *)
From Verif Require Import BaseProofs ModelNumeric ModelAddress ModelMnemonic ModelExpr ModelAMode ModelOpcode
  ModelState ModelInstr ModelToken ModelStatement ModelParse ModelMap ModelModule ModelAssembler ModelLocation ModelRomText ModelParseText ModelOrderText
  SpecScope SpecLayout SpecAssemble SpecLocation SpecOrderText OrderTextProofs.
Open Scope string_scope.
Open Scope list_scope.
Open Scope Z_scope.

(** C78.  Ordering with messages is the ordering of the other properties, and when it fails nothing is written and its error is that of the program. *)
Theorem C78_same : forall ms, untold (t_find_assembly_order ms) = lfind_assembly_order ms /\
  forall fuel sk files er, lload_files files = LOk ms -> t_find_assembly_order ms = PErr er -> lassemble fuel sk files = ([], LErr (re_kind er) (re_loc er)).
Proof.
  intros ms. assert (P : untold (t_find_assembly_order ms) = lfind_assembly_order ms) by apply plain_loop. split; [exact P|].
  intros fuel sk files er L H. rewrite H in P. unfold lassemble. rewrite L. cbn [lwbind]. rewrite <- P. reflexivity.
Qed.
Definition case_files : list (string * list string) :=
  [("one.asm", [" .module lib"; "size: .equ 4"]); ("two.asm", [" .module other"; "size: .equ 5"]); ("three.asm", [""; " .module lib"; "width: .equ 1"; "size: .equ 6"])].
Definition case_order (files : list (string * list string)) : option rerror :=
  match lload_files files with LOk ms => match t_find_assembly_order ms with PErr er => Some er | _ => None end | _ => None end.
Example C78_same_case : lassemble 9 (fun _ _ => LOk tt) case_files = ([], LErr E_duplicate (line_of "one.asm" 1)) /\ option_map re_loc (case_order case_files) = Some (line_of "one.asm" 1).
Proof. vm_compute. split; reflexivity. Qed.
Print Assumptions C78_same.

(** C78.  What is printed when the modules cannot be put in an order: that there is a cycle, or the module and the name of a name that two files
    define, with both files; the numbers are those of the statements in the files, counted from 0. *)
Theorem C78_duplicate : forall (files : list (string * list string)) ms er, Forall (fun f => fst f <> "") files ->
  lload_files files = LOk ms -> t_find_assembly_order ms = PErr er ->
  er = RError E_cycle "Cyclic dependency in .equ definitions" no_location \/
  exists i j path path' file file' src src' mn n k k', nth_error files i = Some (path, file) /\ nth_error files j = Some (path', file') /\ i <> j /\
    reads file src /\ reads file' src' /\ module_named src mn /\ module_named src' mn /\ defined src None n k /\ defined src' None n k' /\ re_kind er = E_duplicate /\
    error_to_string (re_loc er) (re_text er) =
      (path ++ ":" ++ dec_string k ++ ": Duplicate defintion of `" ++ mn ++ "::" ++ n ++ "` (conflicting definition at " ++ path' ++ ":" ++ dec_string k' ++ ")")%string.
Proof. exact order_told. Qed.
Example C78_duplicate_case : let said files := option_map (fun er => error_to_string (re_loc er) (re_text er)) (case_order files) in
  map said [case_files; [("one.asm", [" .module lib"; "size: .equ other::size"]); ("two.asm", [" .module other"; "size: .equ lib::size"])]; []]
  = [Some "one.asm:1: Duplicate defintion of `lib::size` (conflicting definition at three.asm:2)"; Some "Cyclic dependency in .equ definitions"; None].
Proof. vm_compute. reflexivity. Qed.
Print Assumptions C78_duplicate.
