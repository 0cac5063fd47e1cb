(** C70: the debugging output of the assembler. *)
From Verif Require Import Base ModelNumeric ModelMnemonic ModelStatement ModelMap ModelModule ModelAssembler ModelDebug SpecScope SpecLayout SpecAssemble SpecText SpecDebug DebugProofs.
Open Scope string_scope.
Open Scope list_scope.
Open Scope Z_scope.

(** ** C70.  For every file of an assembled program there is a heading with its path; below it
    are the labels and statements of the file, all of them and in the order of the file, each
    statement with its value as six digits (its address, by C22, or for .equ its constant, by
    C44), or with none. *)
Theorem C70_print : forall fuel sk files paths ws a, assemble fuel sk files = (ws, Ok a) -> List.length paths = List.length files ->
  exists parts, debug_print paths a = concat parts /\ List.length parts = List.length files /\
    forall i path file m part, nth_error paths i = Some path -> nth_error files i = Some file -> nth_error (as_mods a) i = Some m ->
      nth_error parts i = Some part -> file_block path file m part.
Proof. exact debug_program. Qed.
(** Every write of the program is on a line that has its address and the statement it comes
    from. *)
Theorem C70_writes : forall fuel sk files paths ws a w, assemble fuel sk files = (ws, Ok a) -> List.length paths = List.length files -> In w ws ->
  exists m l d, In m (as_mods a) /\ In l (md_lines m) /\ writes_line a m l w /\ numeral 16 d 6 (fst w) /\
    In (d ++ "     " ++ stmt_to_string (ln_stmt l))%string (debug_print paths a).
Proof. exact debug_writes. Qed.
Example C70_case :
  let one := [".module one"; "five: .equ 5"; ".org $8000"; ".entry m8x8"; "start: begin: LDA #five"; "BRA start"] in
  let two := [".org $018000"; ".dw one::start, -1"] in
  (let* a := snd (assemble 99 (fun _ _ => Ok tt) [one; two]) in Ok (debug_print ["one.asm"; "two.asm"] a)) =
    Ok ["  === debug info for one.asm"; "           .MODULE one"; "       five:"; "000005     .EQU 5"; "008000     .ORG $8000"; "008000     .ENTRY m8x8";
       "       start:"; "       begin:"; "008000     lda #five"; "008002     bra start";
       "  === debug info for two.asm"; "018000     .ORG $018000"; "018000     .DW one::start, op-(1)"].
Proof. vm_compute. reflexivity. Qed.
Print Assumptions C70_print.
Print Assumptions C70_writes.

(** A .equ whose value is not a 24-bit number is shown modulo 2^24: -1 looks like
    $ffffff. *)
Definition debugged (files : list (list string)) : res (list (option Z) * list string) :=
  let* a := snd (assemble 9 (fun _ _ => Ok tt) files) in
  Ok (map ln_value (flat_map md_lines (as_mods a)), debug_print ["p"] a).
Theorem C70_value_refuted : exists one two,
  debugged [one] = Ok ([None; Some (-1); None],
    ["  === debug info for p"; "           .BEGIN"; "       n:"; "ffffff     .EQU op-(1)"; "           .END"]) /\
  debugged [two] = Ok ([None; Some (2 ^ 25 - 1); None],
    ["  === debug info for p"; "           .BEGIN"; "       n:"; "ffffff     .EQU 33554431"; "           .END"]).
Proof. exists ["{ n: .equ -1 : }"], ["{ n: .equ 33554431 : }"]. split; vm_compute; reflexivity. Qed.
Print Assumptions C70_value_refuted.
