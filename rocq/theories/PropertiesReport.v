(** C71: what an assembled program tells the disassembler. *)
From Verif Require Import Base ModelNumeric ModelAddress ModelExpr ModelMnemonic ModelState ModelStatement ModelMap ModelModule ModelAssembler SpecArith SpecState SpecScope SpecAssemble MapProofs SpecReport ReportProofs.
Open Scope string_scope.
Open Scope list_scope.
Open Scope Z_scope.

(** ** C71.  The jump targets are exactly the addresses without a byte of the program that some
    line tells of, each with the modes of all lines that tell of it taken together; they are in
    increasing order, each once. *)
Theorem C71_targets : forall fuel sk files ws a, assemble fuel sk files = (ws, Ok a) ->
  sorted_keys (jump_targets a) /\
  forall t g, In (t, g) (jump_targets a) <->
    ~ In t (flat_map touched ws) /\ (exists m l f, In m (as_mods a) /\ In l (md_lines m) /\ tells_target a m l t f) /\
    together (fun f => exists m l, In m (as_mods a) /\ In l (md_lines m) /\ tells_target a m l t f) g.
Proof. exact targets_told. Qed.
(** The return convention told for an address is that of the first file that tells one, and in
    it of the last line that does. *)
Theorem C71_returns : forall fuel sk files ws a, assemble fuel sk files = (ws, Ok a) ->
  sorted_keys (jump_target_return_conventions a) /\
  forall t r, In (t, r) (jump_target_return_conventions a) <->
    exists i m, nth_error (as_mods a) i = Some m /\ module_returns a m t r /\
      forall j m' r', (j < i)%nat -> nth_error (as_mods a) j = Some m' -> ~ module_returns a m' t r'.
Proof. exact returns_told. Qed.
(** The name told for an address is one that the first file with a module name and a name for
    this address defines for the whole module; there is none only if no such file has one. *)
Theorem C71_names : forall fuel sk files ws a x, assemble fuel sk files = (ws, Ok a) ->
  (forall id, assembler_name_for_address (as_mods a) x = Some id ->
     exists i file m n, nth_error files i = Some file /\ nth_error (as_mods a) i = Some m /\ md_name m <> "" /\ id = FullId (Some (md_name m)) n /\ names_place file m n x /\
       forall j file' m' n', (j < i)%nat -> nth_error files j = Some file' -> nth_error (as_mods a) j = Some m' -> md_name m' <> "" -> ~ names_place file' m' n' x) /\
  (assembler_name_for_address (as_mods a) x = None ->
     forall i file m n, nth_error files i = Some file -> nth_error (as_mods a) i = Some m -> md_name m <> "" -> ~ names_place file m n x).
Proof. exact names_told. Qed.

Definition told (files : list (list string)) (xs : list Z) : res (list (Z * flags) * list (Z * retconv) * list (option fullid)) :=
  let* a := snd (assemble 99 (fun _ _ => Ok tt) files) in
  Ok (jump_targets a, jump_target_return_conventions a, map (assembler_name_for_address (as_mods a)) xs).
(** Two jumps to one place in different modes, one to the bank of the instruction, one inside,
    and directives; the second file has no module name. *)
Example C71_case :
  let one := [".module one"; "far: .equ $038000"; ".org $018000"; ".entry m8x8"; "start: begin: JSL $028000"; "JMP $9000"; ".entry m16x16 yields m8x8"; "second: JSL $028000"; "JMP $8000";
              ".remote @far+3 m8x16 noreturn"] in
  let two := [".org $048000"; ".entry m8x16"; "nameless: RTS"; ".remote $038003 m8x8"] in
  told [one; two] [98304; 98311; 229376; 294912; 5] =
    Ok ([(102400, RawFlags B_off B_on B_on B_unknown); (163840, RawFlags B_off B_unknown B_unknown B_original); (229379, RawFlags B_off B_on B_unknown B_unknown)],
        [(98311, RC_yields (RawFlags B_off B_on B_on B_unknown)); (229379, RC_noreturn)],
        [Some (FullId (Some "one") "start"); Some (FullId (Some "one") "second"); Some (FullId (Some "one") "far"); None; None]).
Proof. vm_compute. reflexivity. Qed.
Print Assumptions C71_targets.
Print Assumptions C71_returns.
Print Assumptions C71_names.

(** A jump out of the program is not told of when its operand is a name, though the name has
    the value of an operand that would be told of. *)
Theorem C71_named_refuted : exists by_name by_number,
  told [by_number] [] = Ok ([(163840, RawFlags B_off B_on B_on B_original)], [], []) /\
  told [by_name] [] = Ok ([], [], []) /\
  (let* a := snd (assemble 99 (fun _ _ => Ok tt) [by_name]) in Ok (map ln_value (flat_map md_lines (as_mods a)))) = Ok [Some 163840; Some 98304; Some 98304; Some 98304] /\
  fst (assemble 99 (fun _ _ => Ok tt) [by_name]) = fst (assemble 99 (fun _ _ => Ok tt) [by_number]).
Proof.
  exists ["f: .equ $028000"; ".org $018000"; ".entry m8x8"; "JMP @f"], ["f: .equ $028000"; ".org $018000"; ".entry m8x8"; "JMP $028000"].
  repeat split; vm_compute; reflexivity.
Qed.
Print Assumptions C71_named_refuted.
