(** How a line of the opcode table reads: the opcode in hexadecimal, the processor's name for
    the instruction, a mark on operands whose width depends on the status register, and the
    usual notation of the operand for the addresses 0x654321 and 0x43. *)
From Verif Require Import Base Spec65816.
Open Scope string_scope.
Open Scope Z_scope.

Definition hex_letters : list string :=
  ["0"; "1"; "2"; "3"; "4"; "5"; "6"; "7"; "8"; "9"; "A"; "B"; "C"; "D"; "E"; "F"].
Definition opcode_text (op : Z) : string :=
  nth (Z.to_nat (op / 16)) hex_letters "" ++ nth (Z.to_nat (op mod 16)) hex_letters "".
Definition notation (fm : form) : string :=
  match fm with
  | Imp | Acc => ""
  | Imm8 | Imm16 => " #6636321"
  | ImmM | ImmX => ".b #6636321"
  | Dp | Abs | Lng | Rel8 | Rel16 => " 6636321"
  | DpX | AbsX | LngX => " 6636321, X"
  | DpY | AbsY => " 6636321, Y"
  | IDp | IAbs => " (6636321)"
  | IDpX | IAbsX => " (6636321, X)"
  | IDpY => " (6636321), Y"
  | ILDp | ILAbs => " [6636321]"
  | ILDpY => " [6636321], Y"
  | Sr => " 6636321, S"
  | SrY => " (6636321, S), Y"
  | Blk => " #6636321, #67"
  end.

(** The operand of an instruction of form [fm] is the value [v], cut to the size that the form
    has, or the name. *)
Definition form_bits (fm : form) : option Z :=
  match fm with
  | Imm8 | Dp | DpX | DpY | IDp | IDpX | IDpY | ILDp | ILDpY | Sr | SrY | Blk => Some 8
  | Imm16 | Abs | AbsX | AbsY | IAbs | IAbsX | ILAbs => Some 16
  | Lng | LngX => Some 24
  | _ => None
  end.
