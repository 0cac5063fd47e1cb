(** C72: the names a program uses and the way it is laid out do not matter. *)
From Verif Require Import Base ModelNumeric ModelMnemonic ModelExpr ModelState ModelInstr ModelToken ModelStatement ModelParse ModelMap ModelRanges ModelModule ModelAssembler
  SpecScope SpecRename SpecSink RenameProofs FlowCases.
Open Scope string_scope.
Open Scope list_scope.
Open Scope Z_scope.

(** ** C72.  Two programs whose files contain the same labels and statements, with the names
    changed consistently, write the same bytes in the same order, fail with the same error if
    they fail, and tell the disassembler the same (with the new names).  How the lines are
    divided, spaced and commented does not matter.  (Where several exported labels have one
    address, which of them the code reports depends on the order of a hash map, and so may
    change with the names; the model keeps the first, see [name_addresses].) *)
Theorem C72_names : forall f fuel sk files files', naming f -> Forall2 (renamed f) files files' ->
  same_results f (assemble fuel sk files) (assemble fuel sk files').
Proof. exact names_free. Qed.

(** The same for the text, line by line, where files may also fail to be read: the parser
    looks at names only where it expects the name of a processor mode. *)
Theorem C72_text : forall f fuel sk files files', naming f -> keeps_modes f -> Forall2 (rewritten f) files files' ->
  same_results f (assemble fuel sk files) (assemble fuel sk files').
Proof. exact text_free. Qed.

(** With the same names even the final state of the assembler is the same. *)
Theorem C72_layout : forall fuel sk files files', Forall2 (fun x y => exists src, reads x src /\ reads y src) files files' ->
  assemble fuel sk files = assemble fuel sk files'.
Proof. exact layout_free. Qed.

(** Names of processor modes cannot be changed (an .entry would lose its meaning), and
    different names must stay different. *)
Theorem C72_modes_refuted : ~ forall f fuel sk files files', naming f -> Forall2 (rewritten f) files files' ->
  same_results f (assemble fuel sk files) (assemble fuel sk files').
Proof.
  intros H. specialize (H (swap "m8x8" "m16x16") 9%nat takes_all [[".org $8000"; ".entry m8x8"; "lda #1"; "rts"]] [[".org $8000"; ".entry m16x16"; "lda #1"; "rts"]]).
  destruct H as [H _].
  - apply swap_naming; discriminate.
  - constructor; [|constructor]. unfold rewritten. repeat (apply Forall2_cons; [apply line_rewritten; vm_compute; reflexivity|]). apply Forall2_nil.
  - vm_compute in H. discriminate H.
Qed.
Theorem C72_merged_refuted : ~ forall f fuel sk files files', f "" = "" -> Forall2 (renamed f) files files' ->
  same_results f (assemble fuel sk files) (assemble fuel sk files').
Proof.
  intros H. specialize (H (fun s => if String.eqb s "y1" then "x1" else s) 9%nat takes_all [[".org $8000"; "x1: .db 1"; "y1: .db 2"]] [[".org $8000"; "x1: .db 1"; "x1: .db 2"]]).
  destruct H as [H _].
  - reflexivity.
  - constructor; [|constructor]. exists (source_of [".org $8000"; "x1: .db 1"; "y1: .db 2"]). split; [apply source_of_ok; vm_compute; reflexivity|].
    replace (rename_source _ _) with (source_of [".org $8000"; "x1: .db 1"; "x1: .db 2"]) by (vm_compute; reflexivity). apply source_of_ok. vm_compute. reflexivity.
  - vm_compute in H. discriminate H.
Qed.

(** A routine in a module of its own and its caller; the names of the routine and of a label are
    exchanged, and the caller is written on fewer lines. *)
Definition lib : list string := [".module lib"; ".org $8100"; "export work: .entry m8x8"; "again: DEX"; "BNE again"; "RTL"].
Definition lib' : list string := [".MODULE lib ; a library"; ""; ".org $8100"; "export again:"; "  .entry m8x8"; "work: dex : bne work"; "rtl"].
Definition caller : list string := [".org $8000"; ".entry m8x8"; "LDX #$03"; "JSL @lib::work"; "RTS"].
Definition caller' : list string := [".org $8000"; ".entry m8x8 : ldx #$03 : jsl @lib::again : rts"].
Example C72_case : naming (swap "work" "again") /\ Forall2 (renamed (swap "work" "again")) [lib; caller] [lib'; caller'] /\
  fst (assemble 40 takes_all [lib'; caller']) = fst (assemble 40 takes_all [lib; caller]) /\
  fst (assemble 40 takes_all [lib; caller]) = [(0x8100, [0xca]); (0x8101, [0xd0; 0xfd]); (0x8103, [0x6b]); (0x8000, [0xa2; 3]); (0x8002, [0x22; 0; 0x81; 0]); (0x8006, [0x60])] /\
  (let* a := snd (assemble 40 takes_all [lib; caller]) in Ok (assembler_name_for_address (as_mods a) 0x8100)) = Ok (Some (FullId (Some "lib") "work")) /\
  (let* a := snd (assemble 40 takes_all [lib'; caller']) in Ok (assembler_name_for_address (as_mods a) 0x8100)) = Ok (Some (FullId (Some "lib") "again")).
Proof.
  split; [apply swap_naming; discriminate|]. split; [|repeat split; vm_compute; reflexivity].
  assert (X : forall f g g', readable g = true -> readable g' = true -> source_of g' = rename_source f (source_of g) -> renamed f g g').
  { intros f g g' R R' E. exists (source_of g). split; [apply source_of_ok; exact R|]. rewrite <- E. apply source_of_ok. exact R'. }
  repeat constructor; apply X; vm_compute; reflexivity.
Qed.
Example C72_text_case : keeps_modes (swap "work" "again") /\
  rewritten (swap "work" "again") lib [".module lib"; ".org $8100"; "export again: .entry m8x8 ; starts here"; "work: dex"; "bne work"; "rtl"].
Proof.
  split; [apply swap_modes; reflexivity|]. unfold rewritten, lib. repeat (apply Forall2_cons; [apply line_rewritten; vm_compute; reflexivity|]). apply Forall2_nil.
Qed.
Print Assumptions C72_names.
Print Assumptions C72_text.
Print Assumptions C72_layout.
Print Assumptions C72_modes_refuted.
Print Assumptions C72_merged_refuted.
