(** C69: the tables that only the project's tests use. *)
From Verif Require Import Base ModelNumeric ModelMnemonic ModelExpr ModelAMode ModelOpcode ModelState ModelInstr ModelOpcodeMap ModelFamily SpecInstr SpecFamily InstrProofs.
Open Scope list_scope.
Open Scope Z_scope.
Local Opaque decode_opcode.

(** The family recorded for an opcode is the first processor that has it: the 6502, the 65C02,
    or, for all other opcodes, the 65816. *)
Definition family_right (op : Z) : bool :=
  match family_for_opcode op with
  | F_6502 => existsb (Z.eqb op) of_6502 && negb (existsb (Z.eqb op) of_65c02)
  | F_65C02 => existsb (Z.eqb op) of_65c02 && negb (existsb (Z.eqb op) of_6502)
  | F_65816 => negb (existsb (Z.eqb op) of_6502) && negb (existsb (Z.eqb op) of_65c02)
  end.
Lemma family_all : forallb family_right all_opcodes = true.
Proof. vm_compute. reflexivity. Qed.
Lemma exists_in : forall op l, existsb (Z.eqb op) l = true <-> In op l.
Proof.
  intros op l. rewrite existsb_exists. split; [intros (x & I & E); apply Z.eqb_eq in E; subst x; exact I|].
  intros I. exists op. split; [exact I|apply Z.eqb_refl].
Qed.
Theorem C69_family : forall op, 0 <= op < 256 ->
  (family_for_opcode op = F_6502 <-> In op of_6502) /\
  (family_for_opcode op = F_65C02 <-> In op of_65c02) /\
  (family_for_opcode op = F_65816 <-> ~ In op of_6502 /\ ~ In op of_65c02).
Proof.
  intros op R. pose proof (forall_opcodes _ family_all op R) as E. unfold family_right in E.
  rewrite <- !exists_in.
  destruct (family_for_opcode op); apply andb_prop in E; destruct E as [E F]; try apply negb_true_iff in E; apply negb_true_iff in F; rewrite E, F;
    repeat split; intros; try discriminate; try reflexivity; try tauto.
Qed.
Example C69_family_case : List.length of_6502 = 151%nat /\ List.length of_65c02 = 27%nat /\
  family_for_opcode 0xA9 = F_6502 /\ family_for_opcode 0x1A = F_65C02 /\ family_for_opcode 0xFB = F_65816.
Proof. vm_compute. repeat split. Qed.
Print Assumptions C69_family.

(** The operand type recorded for an addressing mode is the one that the disassembler gives to
    operands, except that offsets are signed; and an instruction is as long as its opcode and its
    operands. *)
Theorem C69_operand : forall op rest f i, 0 <= op < 256 -> decode (op :: rest) f = Ok i ->
  let t := arg1_type (i_mode i) in
  instr_size i = 1 + width t + match i_arg2 i with Some _ => 1 | None => 0 end /\
  match i_arg1 i with
  | None => t = T_unknown
  | Some e => width t > 0 /\ expr_type e = if (match i_mode i with A_rel8 | A_rel16 => true | _ => false end) then signed_type t else t
  end.
Proof.
  intros op rest f i R H. destruct (decode_ok_inv _ _ _ _ R H) as (a & x & y & -> & D & N1 & N2 & _ & _). cbv zeta.
  rewrite (proj1 (decoded_size op S_none a x y RC_default R)). cbn [i_mode i_arg1 i_arg2].
  clear H R. destruct a; cbn [decode_operands] in D; try (destruct N1; reflexivity); try (destruct N2; reflexivity);
    try (destruct rest as [|b0 rest]; [discriminate D|]); try (destruct rest as [|b1 rest]; [discriminate D|]); try (destruct rest as [|b2 rest]; [discriminate D|]);
    cbv zeta in D; injection D as <- <-; cbn; split; try reflexivity; try (split; [lia|reflexivity]).
Qed.
Example C69_operand_case : exists i j k, decode [0xAF; 1; 2; 3] default_flags = Ok i /\ arg1_type (i_mode i) = T_long /\ instr_size i = 4 /\
  decode [0x54; 1; 2] default_flags = Ok j /\ arg1_type (i_mode j) = T_byte /\ instr_size j = 3 /\
  decode [0x82; 0xFF; 0xFF] default_flags = Ok k /\ i_arg1 k = Some (ELit (-1) T_signed_word).
Proof. do 3 eexists. repeat split. Qed.
Print Assumptions C69_operand.
