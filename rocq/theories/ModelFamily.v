(** Tables that the code offers and its tests use, though nothing else does.  Transcribes the
    family column of nsasm/opcode_map.cc.  (Arg1Type is in ModelOpcodeMap.v.) *)
From Verif Require Import Base.
Open Scope string_scope.
Open Scope Z_scope.

(** nsasm/opcode_map.h:14-18. *)
Inductive family := F_6502 | F_65C02 | F_65816.

(** nsasm/opcode_map.cc:20-277: the third column, sixteen opcodes a line. *)
Definition family_map : list family :=
  [F_6502; F_6502; F_65816; F_65816; F_65C02; F_6502; F_6502; F_65816; F_6502; F_6502; F_6502; F_65816; F_65C02; F_6502; F_6502; F_65816;
   F_6502; F_6502; F_65C02; F_65816; F_65C02; F_6502; F_6502; F_65816; F_6502; F_6502; F_65C02; F_65816; F_65C02; F_6502; F_6502; F_65816;
   F_6502; F_6502; F_65816; F_65816; F_6502; F_6502; F_6502; F_65816; F_6502; F_6502; F_6502; F_65816; F_6502; F_6502; F_6502; F_65816;
   F_6502; F_6502; F_65C02; F_65816; F_65C02; F_6502; F_6502; F_65816; F_6502; F_6502; F_65C02; F_65816; F_65C02; F_6502; F_6502; F_65816;
   F_6502; F_6502; F_65816; F_65816; F_65816; F_6502; F_6502; F_65816; F_6502; F_6502; F_6502; F_65816; F_6502; F_6502; F_6502; F_65816;
   F_6502; F_6502; F_65C02; F_65816; F_65816; F_6502; F_6502; F_65816; F_6502; F_6502; F_65C02; F_65816; F_65816; F_6502; F_6502; F_65816;
   F_6502; F_6502; F_65816; F_65816; F_65C02; F_6502; F_6502; F_65816; F_6502; F_6502; F_6502; F_65816; F_6502; F_6502; F_6502; F_65816;
   F_6502; F_6502; F_65C02; F_65816; F_65C02; F_6502; F_6502; F_65816; F_6502; F_6502; F_65C02; F_65816; F_65C02; F_6502; F_6502; F_65816;
   F_65C02; F_6502; F_65816; F_65816; F_6502; F_6502; F_6502; F_65816; F_6502; F_65C02; F_6502; F_65816; F_6502; F_6502; F_6502; F_65816;
   F_6502; F_6502; F_65C02; F_65816; F_6502; F_6502; F_6502; F_65816; F_6502; F_6502; F_6502; F_65816; F_65C02; F_6502; F_65C02; F_65816;
   F_6502; F_6502; F_6502; F_65816; F_6502; F_6502; F_6502; F_65816; F_6502; F_6502; F_6502; F_65816; F_6502; F_6502; F_6502; F_65816;
   F_6502; F_6502; F_65C02; F_65816; F_6502; F_6502; F_6502; F_65816; F_6502; F_6502; F_6502; F_65816; F_6502; F_6502; F_6502; F_65816;
   F_6502; F_6502; F_65816; F_65816; F_6502; F_6502; F_6502; F_65816; F_6502; F_6502; F_6502; F_65816; F_6502; F_6502; F_6502; F_65816;
   F_6502; F_6502; F_65C02; F_65816; F_65816; F_6502; F_6502; F_65816; F_6502; F_6502; F_65C02; F_65816; F_65816; F_6502; F_6502; F_65816;
   F_6502; F_6502; F_65816; F_65816; F_6502; F_6502; F_6502; F_65816; F_6502; F_6502; F_6502; F_65816; F_6502; F_6502; F_6502; F_65816;
   F_6502; F_6502; F_65C02; F_65816; F_65816; F_6502; F_6502; F_65816; F_6502; F_6502; F_65C02; F_65816; F_65816; F_6502; F_6502; F_65816].

(** nsasm/opcode_map.cc:320; the index is a uint8_t. *)
Definition family_for_opcode (op : Z) : family := nth (Z.to_nat op) family_map F_6502.

(** nsasm/opcode_map.cc:303-314. *)
Definition family_to_string (f : family) : string :=
  match f with F_6502 => "6502" | F_65C02 => "65C02" | F_65816 => "65816" end.

