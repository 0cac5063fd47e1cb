(** An assembled program and its disassembly. *)
From Verif Require Import Base ModelNumeric ModelMnemonic ModelAMode ModelState ModelInstr ModelMap ModelRom ModelDisasm
  Spec65816 SpecArith SpecInstr SpecRom SpecState SpecDisasm SpecRun.
Open Scope string_scope.
Open Scope list_scope.
Open Scope Z_scope.

(** The image shows what is in the memory, where it shows anything. *)
Definition pictures (img : ModelRom.source) (mem : memory) : Prop :=
  forall a l, addr24 a -> img a 4 = Ok l -> l = map (fun k => mem (same_bank_plus a (Z.of_nat k))) (seq 0 4).
(** The memory of a machine with the cartridge [r]; what else there is does not matter. *)
Definition cartridge (r : rom) (mem : memory) : Prop := forall a b, addr24 a -> in_rom r a b -> mem a = b.
(** The convention of the routine that is called at [pc], by what is told of its address. *)
Definition told (rets : omap retconv) (mem : memory) (pc : Z) : retconv :=
  convention rets pc (mem pc) (map (fun k => mem (same_bank_plus pc (Z.of_nat k))) (seq 1 3)).

(** The instructions of the processor that a mnemonic stands for. *)
Definition machine_names (m : mnemonic) : list string :=
  match m with PM_add => ["clc"; "adc"] | PM_sub => ["sec"; "sbc"] | _ => [mnem_to_string m] end.
(** From [pc] on, the disassembly has instructions with these names, and these are their bytes. *)
Inductive listed (img : ModelRom.source) (d : disassembler) : Z -> list string -> list Z -> Prop :=
| li_end : forall pc, listed img d pc [] []
| li_next : forall pc x n ns b bs, collected d pc x -> mnem_to_string (i_mnem (di_instr x)) = n -> bytes_at img pc (di_instr x) b ->
    listed img d (same_bank_plus pc (Z.of_nat (List.length b))) ns bs -> listed img d pc (n :: ns) (b ++ bs).
