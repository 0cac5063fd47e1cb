(** The table printed by print_opcode_map.  Transcribes util/print_opcode_map.cc. *)
From Verif Require Import Base ModelNumeric ModelMnemonic ModelExpr ModelAMode ModelOpcode.
Open Scope string_scope.
Open Scope Z_scope.

(** absl::StrFormat("%02X", i) for a byte. *)
Definition hex_upper (d : Z) : ascii :=
  ascii_of_N (Z.to_N (if d <? 10 then 48 + d else 55 + d)).
Definition byte_upper (i : Z) : string :=
  String (hex_upper (i / 16)) (String (hex_upper (i mod 16)) "").

(** util/print_opcode_map.cc:8-20; the type of the two literals is left to its default,
    T_unknown (nsasm/expression.h:222). *)
Definition opcode_line (i : Z) : string :=
  let (m, a) := decode_opcode i in
  let (suffix, a) := match a with A_imm_fm | A_imm_fx => (".b", A_imm_b) | a => ("", a) end in
  byte_upper i ++ "  " ++ mnem_to_string m ++ suffix ++
    args_to_string a (Some (mk_lit 6636321 T_unknown)) (Some (mk_lit 67 T_unknown)).

(** util/print_opcode_map.cc:6-22: the lines printed. *)
Definition opcode_map : list string := map (fun i => opcode_line (Z.of_nat i)) (seq 0 256).

(** nsasm/addressing_mode.cc:509-526, used by the tests only. *)
Definition arg1_type (a : amode) : ntype :=
  match a with
  | A_imm_b | A_dir_b | A_dir_bx | A_dir_by | A_ind_b | A_ind_bx | A_ind_by | A_lng_b | A_lng_by
  | A_stk | A_stk_y | A_mov | A_rel8 => T_byte
  | A_imm_w | A_dir_w | A_dir_wx | A_dir_wy | A_ind_w | A_ind_wx | A_lng_w | A_rel16 => T_word
  | A_dir_l | A_dir_lx => T_long
  | A_imp | A_acc | A_imm_fm | A_imm_fx => T_unknown
  end.

(** The operands that the test Parse.round_trip gives to an instruction, and the line it makes
    of them, nsasm/parse_test.cc:13-29; there the values are 0 and the name is `label`.
    IdentifierExpression without type has T_word (nsasm/expression.h). *)
Definition test_arg1 (a : amode) (v : Z) (name : string) : option expr :=
  match a with
  | A_rel8 | A_rel16 => Some (EId (FullId None name) T_word)
  | A_imp | A_acc => None
  | _ => Some (mk_lit v (arg1_type a))
  end.
Definition test_arg2 (a : amode) (w : Z) : option expr :=
  match a with A_mov => Some (mk_lit w T_byte) | _ => None end.
Definition test_line (op v w : Z) (name : string) : string :=
  let (m, a) := decode_opcode op in
  mnem_to_string m ++ args_to_string a (test_arg1 a v name) (test_arg2 a w).
