(** Specifications for decoding, encoding and branching. *)
From Verif Require Import Base ModelNumeric ModelMnemonic ModelExpr ModelAMode ModelState ModelInstr
  Spec65816 SpecArith.

Open Scope string_scope.
Open Scope Z_scope.

Definition bytes_ok (l : list Z) : Prop := Forall (fun b => 0 <= b < 256) l.

(** A tracked status bit that is known: true = set. *)
Definition known_bit (b : bitstate) : option bool :=
  match b with B_on => Some true | B_off => Some false | _ => None end.

(** A concrete value of a status bit is allowed by what is tracked about it. *)
Definition bit_allows (b : bitstate) (v : bool) : Prop :=
  match b with B_on => v = true | B_off => v = false | _ => True end.

(** Length of the instruction with opcode [op] when the flag state determines it. *)
Definition known_length (f : flags) (op : Z) : option Z :=
  match op_form op with
  | ImmM => match known_bit (fl_m f) with Some m => Some (cpu_length op m m) | None => None end
  | ImmX => match known_bit (fl_x f) with Some x => Some (cpu_length op x x) | None => None end
  | _ => Some (cpu_length op false false)
  end.

(** The instruction's operand is a displacement from the following instruction. *)
Definition is_relative (op : Z) : bool :=
  match op_form op with Rel8 | Rel16 => true | _ => false end.

(** A byte or word as a two's complement number. *)
Definition signed8 (b : Z) : Z := if b <? 2 ^ 7 then b else b - 2 ^ 8.
Definition signed16 (w : Z) : Z := if w <? 2 ^ 15 then w else w - 2 ^ 16.

(** Where the processor goes when it takes the branch encoded at [a] by [bytes] (for PER:
    the address it pushes). *)
Definition branch_destination (a : Z) (bytes : list Z) : option Z :=
  match bytes with
  | [op; d] =>
      match op_form op with Rel8 => Some (same_bank_plus a (2 + signed8 d)) | _ => None end
  | [op; lo; hi] =>
      match op_form op with
      | Rel16 => Some (same_bank_plus a (3 + signed16 (lo + 256 * hi)))
      | _ => None
      end
  | _ => None
  end.

(** The instruction with its first operand replaced by a known address. *)
Definition with_target (t : Z) (i : instr) : instr :=
  Instr (i_mnem i) (i_suffix i) (i_mode i) (Some (ELit t T_long)) (i_arg2 i) (i_ret i).

(** The opcode a resolved instruction has on the processor: ADD and SUB stand for ADC and SBC
    preceded by one byte. *)
Definition hardware_mnemonic (m : mnemonic) : mnemonic :=
  match m with PM_add => M_adc | PM_sub => M_sbc | m => m end.
Definition is_pseudo (m : mnemonic) : bool := match m with PM_add | PM_sub => true | _ => false end.

(** The syntactic shape each addressing mode is written with. *)
Definition written_as (a : amode) : list samode :=
  match a with
  | A_imp => [SA_imp] | A_acc => [SA_imp; SA_acc]
  | A_imm_b | A_imm_w | A_imm_fm | A_imm_fx => [SA_imm]
  | A_dir_b | A_dir_w | A_dir_l | A_rel8 | A_rel16 => [SA_dir]
  | A_dir_bx | A_dir_wx | A_dir_lx => [SA_dir_x]
  | A_dir_by | A_dir_wy => [SA_dir_y]
  | A_ind_b | A_ind_w => [SA_ind] | A_ind_bx | A_ind_wx => [SA_ind_x] | A_ind_by => [SA_ind_y]
  | A_lng_b | A_lng_w => [SA_lng] | A_lng_by => [SA_lng_y]
  | A_stk => [SA_stk] | A_stk_y => [SA_stk_y] | A_mov => [SA_mov]
  end.
(** Address operands of a mode, in bits (0: the operand is not an address). *)
Definition address_bits (a : amode) : Z :=
  match a with
  | A_dir_b | A_dir_bx | A_dir_by | A_ind_b | A_ind_bx | A_ind_by | A_lng_b | A_lng_by => 8
  | A_dir_w | A_dir_wx | A_dir_wy | A_ind_w | A_ind_wx | A_lng_w => 16
  | A_dir_l | A_dir_lx => 24
  | _ => 0
  end.

(** The processor's operand form corresponding to each addressing mode. *)
Definition form_of (a : amode) : form :=
  match a with
  | A_imp => Imp | A_acc => Acc | A_imm_b => Imm8 | A_imm_w => Imm16 | A_dir_b => Dp
  | A_dir_w => Abs | A_dir_l => Lng | A_dir_bx => DpX | A_dir_by => DpY | A_dir_wx => AbsX
  | A_dir_wy => AbsY | A_dir_lx => LngX | A_ind_b => IDp | A_ind_w => IAbs | A_ind_bx => IDpX
  | A_ind_by => IDpY | A_ind_wx => IAbsX | A_lng_b => ILDp | A_lng_w => ILAbs
  | A_lng_by => ILDpY | A_stk => Sr | A_stk_y => SrY | A_mov => Blk | A_rel8 => Rel8
  | A_rel16 => Rel16 | A_imm_fm => ImmM | A_imm_fx => ImmX
  end.
(** Modes in which an opcode may appear: its own, or a settled immediate width. *)
Definition fits (fm : form) (a : amode) : Prop :=
  fm = form_of a \/ ((fm = ImmM \/ fm = ImmX) /\ (a = A_imm_b \/ a = A_imm_w)).

(** Operands acceptable for a mode. *)
Definition fits_or_typed (bits : Z) (arg : option expr) : Prop :=
  (type_bits (type_opt arg) = bits \/
   type_opt arg = T_unknown /\
   exists v, eval_opt null_ctx arg = Ok v /\ - 2 ^ (bits - 1) <= v < 2 ^ bits).
Definition operand_ok (a : amode) (arg1 arg2 : option expr) : Prop :=
  match a with
  | A_rel8 | A_rel16 => exists n t, arg1 = Some (EId (FullId None n) t)
  | A_imm_b | A_stk | A_stk_y => fits_or_typed 8 arg1
  | A_imm_w => fits_or_typed 16 arg1
  | A_mov => fits_or_typed 8 arg1 /\ fits_or_typed 8 arg2
  | A_imp | A_acc | A_imm_fm | A_imm_fx => True
  | _ => type_bits (type_opt arg1) = address_bits a
  end.

(** Instructions whose data width is set by the m flag, and by the x flag. *)
Definition m_sized : list string :=
  ["adc"; "and"; "asl"; "bit"; "cmp"; "dec"; "eor"; "inc"; "lda"; "lsr"; "ora"; "pha"; "pla";
   "rol"; "ror"; "sbc"; "sta"; "stz"; "trb"; "tsb"; "txa"; "tya"].
Definition x_sized : list string :=
  ["cpx"; "cpy"; "dex"; "dey"; "inx"; "iny"; "ldx"; "ldy"; "phx"; "phy"; "plx"; "ply"; "stx";
   "sty"; "tax"; "tay"; "tsx"; "txy"; "tyx"].

(** Branches with one-byte and two-byte displacements. *)
Definition short_branches : list mnemonic :=
  [M_bcc; M_bcs; M_beq; M_bmi; M_bne; M_bpl; M_bra; M_bvc; M_bvs].
Definition long_branches : list mnemonic := [M_brl; M_per].
(** The branch [i] assembled by its length and displacement range: [n] bytes, displacements
    of [k] bits. *)
Definition branch_kind (i : instr) (n k : Z) : Prop :=
  (In (i_mnem i) short_branches /\ i_mode i = A_rel8 /\ n = 2 /\ k = 8) \/
  (In (i_mnem i) long_branches /\ i_mode i = A_rel16 /\ n = 3 /\ k = 16).

(** A width suffix agrees with what is known about the flag that sets the data width. *)
Definition suffix_agrees (i : instr) (f : flags) : Prop :=
  let sized := mnem_to_string (hardware_mnemonic (i_mnem i)) in
  match i_suffix i with
  | S_none => True
  | S_b => (In sized m_sized /\ fl_m f <> B_off) \/ (In sized x_sized /\ fl_x f <> B_off)
  | S_w => (In sized m_sized /\ fl_m f <> B_on) \/ (In sized x_sized /\ fl_x f <> B_on)
  end.
(** An immediate operand of flag-dependent width is as wide as the flag says, or its width is
    still open but the flag is known. *)
Definition width_agrees (op : Z) (i : instr) (f : flags) : Prop :=
  let agrees (b : bitstate) :=
    match i_mode i with A_imm_b => b = B_on | A_imm_w => b = B_off | _ => known_bit b <> None end in
  match op_form op with ImmM => agrees (fl_m f) | ImmX => agrees (fl_x f) | _ => True end.
