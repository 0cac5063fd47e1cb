(** Properties C22, C28, C43 and C44: addresses, constants and output of a program. *)
From Coq Require Import Permutation.
From Verif Require Import Base ModelNumeric ModelExpr ModelMnemonic ModelAMode ModelState ModelInstr ModelStatement
  ModelMap ModelModule ModelAssembler SpecArith SpecScope SpecLayout SpecAssemble LayoutProofs AssembleProofs ProgramProofs.
Open Scope string_scope.
Open Scope list_scope.
Open Scope Z_scope.

(** C22.  After the first pass a statement has a value exactly when it has a place (or, for
    .equ, none yet), and the value is its address: consecutive from the last .org, wrapping
    in the bank.  A statement with bytes always has one, so before any .org it is rejected. *)
Theorem C22_layout : forall file fuel m m', load_asm_file file = Ok m -> run_first_pass fuel m = Ok m' ->
  forall k l, nth_error (md_lines m') k = Some l ->
  (forall v, ln_value l = Some v <-> located (map ln_stmt (md_lines m')) k v) /\
  (0 < stmt_size (ln_stmt l) -> exists v, ln_value l = Some v).
Proof. exact layout_located. Qed.
Example C22_layout_case :
  (exists m m', load_asm_file [".org $01fffe"; ".entry m8x8"; "top: LDA #1"; "JMP $123456"; "c: .equ 5"; ".org $8000"; "top2: .db 1"] = Ok m /\
     run_first_pass 50 m = Ok m' /\
     map ln_value (md_lines m') = [Some 131070; Some 131070; Some 131070; Some 65536; None; Some 32768; Some 32768]) /\
  (exists m e, load_asm_file [".entry m8x8"; "RTS"] = Ok m /\ run_first_pass 50 m = Err e) /\
  (exists m m', load_asm_file ["none: .begin"; ".org $8000"; ".entry m8x8"; "RTS"; ".end"] = Ok m /\ run_first_pass 50 m = Ok m' /\
     map ln_value (md_lines m') = [None; Some 32768; Some 32768; Some 32768; Some 32769]).
Proof.
  split; [|split]; eexists _, _; repeat (split; [vm_compute; reflexivity|]); vm_compute; reflexivity.
Qed.
Print Assumptions C22_layout.

(** The same for every module of an assembled program; what is written at these addresses is
    the subject of C43. *)
Theorem C22_program : forall fuel sk files ws a, assemble fuel sk files = (ws, Ok a) ->
  forall m, In m (as_mods a) -> addresses_hold m.
Proof. exact program_located. Qed.

(** C28.  The bytes written have distinct addresses, and the addresses owned by a module are
    those written. *)
Theorem C28_no_overlap : forall fuel sk files ws a, assemble fuel sk files = (ws, Ok a) ->
  NoDup (flat_map touched ws) /\
  forall x, assembler_contains a x = true <-> In x (flat_map touched ws).
Proof.
  intros fuel sk files ws a H. destruct (program_spec _ _ _ _ _ H) as (ms0 & ms1 & order & wss & _ & _ & _ & _ & _ & _ & _ & N & C).
  exact (conj N C).
Qed.

(** C43.  The modules are those of the files, with the immediate operands widened as the
    recorded flags say.  They are visited in some order, each once; the output consists of
    one write for each statement with bytes, in order, namely its encoding at its address,
    where names have their final values. *)
Theorem C43_output : forall fuel sk files ws a, assemble fuel sk files = (ws, Ok a) ->
  Forall2 holds_file files (as_mods a) /\
  exists order wss, NoDup order /\ (forall i, In i order <-> 0 <= i < zlen (as_mods a)) /\
    Forall2 (fun i rs => exists m, nth_error (as_mods a) (Z.to_nat i) = Some m /\ writes_module a m rs) order wss /\
    ws = concat wss.
Proof. exact program_output. Qed.

(** C44.  Every .equ constant has the value of its expression, with the final values of all
    names. *)
Theorem C44_constants : forall fuel sk files ws a, assemble fuel sk files = (ws, Ok a) ->
  forall m, In m (as_mods a) -> constants_hold a m.
Proof.
  intros fuel sk files ws a H. destruct (program_spec _ _ _ _ _ H) as (ms0 & ms1 & order & wss & _ & _ & _ & _ & _ & _ & C & _).
  exact C.
Qed.

Example C22_C28_C43_C44_case :
  let any : sink := fun _ _ => Ok tt in
  let one := [".module one"; ".org $8000"; ".entry m8x8"; "start: LDA #two::size"; "JSL @two::tab"; "BRA start";
              "here: .equ start + two::size"; ".db here, 7"] in
  let two := [".module two"; "size: .equ 3"; ".org $01ffff"; "tab: .entry m16x8"; "LDA #size"; "RTL"] in
  exists a, assemble 99 any [one; two] =
    ([(131071, [169; 3; 0]); (65538, [107]); (32768, [169; 3]); (32770, [34; 255; 255; 1]); (32774, [128; 248]);
      (32776, [3; 7])], Ok a) /\
    assembler_contains a 65537 = true /\ assembler_contains a 65539 = false /\
    (exists ws e, assemble 99 any [one; [".org $8001"; ".db 1"]] = (ws, Err e)).
Proof. eexists. repeat (split; [vm_compute; reflexivity|]). eexists _, _. vm_compute. reflexivity. Qed.
Print Assumptions C22_program.
Print Assumptions C28_no_overlap.
Print Assumptions C43_output.
Print Assumptions C44_constants.
