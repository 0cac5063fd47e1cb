(** Which processor introduced an opcode, from the processors' manuals. *)
From Verif Require Import Base ModelNumeric.
Open Scope list_scope.
Open Scope Z_scope.

(** The 151 opcodes of the 6502. *)
Definition of_6502 : list Z :=
  [0x00; 0x01; 0x05; 0x06; 0x08; 0x09; 0x0A; 0x0D; 0x0E;
   0x10; 0x11; 0x15; 0x16; 0x18; 0x19; 0x1D; 0x1E;
   0x20; 0x21; 0x24; 0x25; 0x26; 0x28; 0x29; 0x2A; 0x2C; 0x2D; 0x2E;
   0x30; 0x31; 0x35; 0x36; 0x38; 0x39; 0x3D; 0x3E;
   0x40; 0x41; 0x45; 0x46; 0x48; 0x49; 0x4A; 0x4C; 0x4D; 0x4E;
   0x50; 0x51; 0x55; 0x56; 0x58; 0x59; 0x5D; 0x5E;
   0x60; 0x61; 0x65; 0x66; 0x68; 0x69; 0x6A; 0x6C; 0x6D; 0x6E;
   0x70; 0x71; 0x75; 0x76; 0x78; 0x79; 0x7D; 0x7E;
   0x81; 0x84; 0x85; 0x86; 0x88; 0x8A; 0x8C; 0x8D; 0x8E;
   0x90; 0x91; 0x94; 0x95; 0x96; 0x98; 0x99; 0x9A; 0x9D;
   0xA0; 0xA1; 0xA2; 0xA4; 0xA5; 0xA6; 0xA8; 0xA9; 0xAA; 0xAC; 0xAD; 0xAE;
   0xB0; 0xB1; 0xB4; 0xB5; 0xB6; 0xB8; 0xB9; 0xBA; 0xBC; 0xBD; 0xBE;
   0xC0; 0xC1; 0xC4; 0xC5; 0xC6; 0xC8; 0xC9; 0xCA; 0xCC; 0xCD; 0xCE;
   0xD0; 0xD1; 0xD5; 0xD6; 0xD8; 0xD9; 0xDD; 0xDE;
   0xE0; 0xE1; 0xE4; 0xE5; 0xE6; 0xE8; 0xE9; 0xEA; 0xEC; 0xED; 0xEE;
   0xF0; 0xF1; 0xF5; 0xF6; 0xF8; 0xF9; 0xFD; 0xFE].
(** The 27 opcodes added by the 65C02 (without the bit instructions of some makers, and
    without WAI and STP). *)
Definition of_65c02 : list Z :=
  [0x04; 0x0C; 0x12; 0x14; 0x1A; 0x1C; 0x32; 0x34; 0x3A; 0x3C; 0x52; 0x5A; 0x64; 0x72; 0x74; 0x7A; 0x7C; 0x80; 0x89; 0x92; 0x9C; 0x9E;
   0xB2; 0xD2; 0xDA; 0xF2; 0xFA].
(** How many bytes a number of a type takes; none if the type is not known. *)
Definition width (t : ntype) : Z :=
  match t with
  | T_unknown => 0
  | T_byte | T_signed_byte => 1
  | T_word | T_signed_word => 2
  | T_long | T_signed_long => 3
  end.
Definition signed_type (t : ntype) : ntype := match t with T_byte => T_signed_byte | T_word => T_signed_word | T_long => T_signed_long | t => t end.
