(** Property C30: the order of the files. *)
From Coq Require Import Permutation.
From Verif Require Import Base ModelNumeric ModelAddress ModelExpr ModelMnemonic ModelAMode ModelState ModelInstr ModelStatement
  ModelMap ModelRanges ModelModule ModelAssembler ModelRom ModelTools PermuteProofs OrderFreeProofs.
Open Scope string_scope.
Open Scope list_scope.
Open Scope Z_scope.

(** C30.  A program that can be assembled can be assembled with its files in any order.  The same writes reach the output (in
    another order; they do not overlap, by C28), the same addresses are assembled, and the same far jump targets are found, in
    the same modes.  This holds for every output that judges each write by itself. *)
Theorem C30_output : forall fuel (sk : sink) files files' ws a, (forall ws1 ws2 w, sk ws1 w = sk ws2 w) -> Permutation files files' ->
  assemble fuel sk files = (ws, Ok a) ->
  exists ws' a', assemble fuel sk files' = (ws', Ok a') /\ Permutation ws ws' /\ Permutation (as_mods a) (as_mods a') /\
    (forall x, assembler_contains a' x = assembler_contains a x) /\ jump_targets a' = jump_targets a.
Proof. exact file_order. Qed.
(** The same addresses have names and conventions, and the same ones unless two modules tell different ones for one address. *)
Theorem C30_told : forall fuel (sk : sink) files files' ws a ws' a', (forall ws1 ws2 w, sk ws1 w = sk ws2 w) -> Permutation files files' ->
  assemble fuel sk files = (ws, Ok a) -> assemble fuel sk files' = (ws', Ok a') ->
  (forall x, assembler_name_for_address (as_mods a') x = None <-> assembler_name_for_address (as_mods a) x = None) /\
  (forall x, om_find x (jump_target_return_conventions a') = None <-> om_find x (jump_target_return_conventions a) = None) /\
  ((forall m1 m2 x n1 n2, In m1 (as_mods a) -> In m2 (as_mods a) -> name_for_address m1 x = Some n1 -> name_for_address m2 x = Some n2 -> n1 = n2) ->
   forall x, assembler_name_for_address (as_mods a') x = assembler_name_for_address (as_mods a) x) /\
  ((forall m1 m2 x r1 r2, In m1 (as_mods a) -> In m2 (as_mods a) -> om_find x (md_rets m1) = Some r1 -> om_find x (md_rets m2) = Some r2 -> r1 = r2) ->
   jump_target_return_conventions a' = jump_target_return_conventions a).
Proof.
  intros fuel sk files files' ws a ws' a' J P A B. destruct (file_order _ _ _ _ _ _ J P A) as (ws2 & a2 & H & _ & M & _).
  rewrite B in H. injection H as _ <-. exact (told_order a a' M).
Qed.
(** So what the assembly tool prints for a program that matches an image does not depend on the order either. *)
Theorem C30_tool : forall fuel msg r files files' ws a, Permutation files files' -> assemble fuel (identity_sink r) files = (ws, Ok a) ->
  quick_assemble fuel msg r true files' = quick_assemble fuel msg r true files.
Proof.
  intros fuel msg r files files' ws a P H. unfold quick_assemble. destruct (file_order fuel (identity_sink r) _ _ _ _ (fun _ _ _ => eq_refl) P H) as (ws' & a' & H' & _ & _ & _ & J).
  rewrite H, H'. cbn [snd]. unfold target_lines. rewrite J. reflexivity.
Qed.
(** The order does decide which of several conventions told for one address is kept, and which of several names. *)
Theorem C30_conventions_refuted : ~ (forall fuel (sk : sink) files files' ws a ws' a', (forall ws1 ws2 w, sk ws1 w = sk ws2 w) -> Permutation files files' ->
  assemble fuel sk files = (ws, Ok a) -> assemble fuel sk files' = (ws', Ok a') ->
  jump_target_return_conventions a' = jump_target_return_conventions a).
Proof.
  intros H. pose (any := (fun _ _ => Ok tt) : sink). pose (one := [".remote $8000 m8x8 yields m8x8"]). pose (two := [".remote $8000 m8x8 yields m16x8"]).
  assert (X : exists ws a ws' a', assemble 9 any [one; two] = (ws, Ok a) /\ assemble 9 any [two; one] = (ws', Ok a') /\
    jump_target_return_conventions a' <> jump_target_return_conventions a).
  { eexists _, _, _, _. split; [vm_compute; reflexivity|]. split; [vm_compute; reflexivity|]. vm_compute. discriminate. }
  destruct X as (ws & a & ws' & a' & A & B & N). apply N. refine (H 9%nat any [one; two] [two; one] ws a ws' a' _ _ A B); [reflexivity|apply perm_swap].
Qed.
Theorem C30_names_refuted : ~ (forall fuel (sk : sink) files files' ws a ws' a' x, (forall ws1 ws2 w, sk ws1 w = sk ws2 w) -> Permutation files files' ->
  assemble fuel sk files = (ws, Ok a) -> assemble fuel sk files' = (ws', Ok a') ->
  assembler_name_for_address (as_mods a') x = assembler_name_for_address (as_mods a) x).
Proof.
  intros H. pose (any := (fun _ _ => Ok tt) : sink). pose (one := [".module one"; "first: .equ $8000"]). pose (two := [".module two"; "second: .equ $8000"]).
  assert (X : exists ws a ws' a', assemble 9 any [one; two] = (ws, Ok a) /\ assemble 9 any [two; one] = (ws', Ok a') /\
    assembler_name_for_address (as_mods a') 32768 <> assembler_name_for_address (as_mods a) 32768).
  { eexists _, _, _, _. split; [vm_compute; reflexivity|]. split; [vm_compute; reflexivity|]. vm_compute. discriminate. }
  destruct X as (ws & a & ws' & a' & A & B & N). apply N. refine (H 9%nat any [one; two] [two; one] ws a ws' a' 32768 _ _ A B); [reflexivity|apply perm_swap].
Qed.
Example C30_output_case :
  let any : sink := fun _ _ => Ok tt in
  let one := [".module one"; ".org $8000"; ".entry m8x8"; "start: LDA #two::size"; "JSL $123456"; "JSL @two::tab"; "BRA start"] in
  let two := [".module two"; "size: .equ three::k + 1"; ".org $9000"; "tab: .entry m16x8"; "JSL $123456"; "RTL"] in
  let three := [".module three"; "k: .equ 2"; ".remote $123456 m8x16"] in
  exists a a' w1 w2 w3 w4 w5 w6,
    assemble 99 any [one; two; three] = ([w1; w2; w3; w4; w5; w6], Ok a) /\ assemble 99 any [three; one; two] = ([w1; w2; w3; w4; w5; w6], Ok a') /\
    map md_name (as_mods a) = ["one"; "two"; "three"] /\ map md_name (as_mods a') = ["three"; "one"; "two"] /\
    jump_targets a = [(1193046, RawFlags B_off B_unknown B_unknown B_unknown)] /\ jump_targets a' = jump_targets a /\ assembler_contains a 36864 = true.
Proof. eexists _, _, _, _, _, _, _, _. repeat (split; [vm_compute; reflexivity|]). vm_compute. reflexivity. Qed.
(** Independent files are written in the order given. *)
Example C30_order_case :
  let any : sink := fun _ _ => Ok tt in
  exists a a', assemble 9 any [[".org $8000"; ".db 1"]; [".org $9000"; ".db 2"]] = ([(32768, [1]); (36864, [2])], Ok a) /\
    assemble 9 any [[".org $9000"; ".db 2"]; [".org $8000"; ".db 1"]] = ([(36864, [2]); (32768, [1])], Ok a').
Proof. eexists _, _. split; vm_compute; reflexivity. Qed.
Print Assumptions C30_output.
Print Assumptions C30_told.
Print Assumptions C30_tool.
Print Assumptions C30_conventions_refuted.
Print Assumptions C30_names_refuted.
