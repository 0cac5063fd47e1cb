(** Addressing modes.  Transcribes nsasm/addressing_mode.{h,cc}. *)
From Verif Require Import Base ModelNumeric ModelMnemonic ModelExpr.
Open Scope string_scope.
Open Scope Z_scope.

(** nsasm/addressing_mode.h:13-43. *)
Inductive amode :=
| A_imp | A_acc | A_imm_b | A_imm_w | A_dir_b | A_dir_w | A_dir_l | A_dir_bx | A_dir_by
| A_dir_wx | A_dir_wy | A_dir_lx | A_ind_b | A_ind_w | A_ind_bx | A_ind_by | A_ind_wx
| A_lng_b | A_lng_w | A_lng_by | A_stk | A_stk_y | A_mov | A_rel8 | A_rel16
| A_imm_fm | A_imm_fx.

(** Enumerator values, nsasm/addressing_mode.h:13-43. *)
Definition amode_index (a : amode) : Z :=
  match a with
  | A_imp => 0 | A_acc => 1 | A_imm_b => 2 | A_imm_w => 3 | A_dir_b => 4 | A_dir_w => 5
  | A_dir_l => 6 | A_dir_bx => 7 | A_dir_by => 8 | A_dir_wx => 9 | A_dir_wy => 10
  | A_dir_lx => 11 | A_ind_b => 12 | A_ind_w => 13 | A_ind_bx => 14 | A_ind_by => 15
  | A_ind_wx => 16 | A_lng_b => 17 | A_lng_w => 18 | A_lng_by => 19 | A_stk => 20
  | A_stk_y => 21 | A_mov => 22 | A_rel8 => 23 | A_rel16 => 24 | A_imm_fm => 25
  | A_imm_fx => 26
  end.

(** Enumerator comparison. *)
Definition amode_eqb (a b : amode) : bool := amode_index a =? amode_index b.

(** nsasm/addressing_mode.h:47-62. *)
Inductive samode :=
| SA_imp | SA_acc | SA_imm | SA_dir | SA_dir_x | SA_dir_y | SA_ind | SA_ind_x | SA_ind_y
| SA_lng | SA_lng_y | SA_stk | SA_stk_y | SA_mov.

(** nsasm/addressing_mode.cc:7-87. *)
Definition args_to_string (a : amode) (arg1 arg2 : option expr) : string :=
  let s1 := expr_opt_to_string arg1 in
  let s2 := expr_opt_to_string arg2 in
  match a with
  | A_imp | A_acc => ""
  | A_imm_b | A_imm_w => " #" ++ s1
  | A_dir_b | A_dir_w | A_dir_l => " " ++ s1
  | A_dir_bx => " " ++ s1 ++ ", X"
  | A_dir_by => " " ++ s1 ++ ", Y"
  | A_dir_wx => " " ++ s1 ++ ", X"
  | A_dir_wy => " " ++ s1 ++ ", Y"
  | A_dir_lx => " " ++ s1 ++ ", X"
  | A_ind_b | A_ind_w => " (" ++ s1 ++ ")"
  | A_ind_bx => " (" ++ s1 ++ ", X)"
  | A_ind_by => " (" ++ s1 ++ "), Y"
  | A_ind_wx => " (" ++ s1 ++ ", X)"
  | A_lng_b | A_lng_w => " [" ++ s1 ++ "]"
  | A_lng_by => " [" ++ s1 ++ "], Y"
  | A_stk => " " ++ s1 ++ ", S"
  | A_stk_y => " (" ++ s1 ++ ", S), Y"
  | A_mov => " #" ++ s1 ++ ", #" ++ s2
  | A_rel8 | A_rel16 => " " ++ s1
  | A_imm_fm | A_imm_fx => " #" ++ s1
  end%string.

(** nsasm/addressing_mode.cc:91-103. *)
Definition switch_byte_word_long (arg : option expr) (b w l : amode) : res amode :=
  match t_unsigned (type_opt arg) with
  | T_byte => Ok b | T_word => Ok w | T_long => Ok l | _ => Err E_no_mode
  end.
(** nsasm/addressing_mode.cc:105-114. *)
Definition switch_byte_word (arg : option expr) (b w : amode) : res amode :=
  match t_unsigned (type_opt arg) with
  | T_byte => Ok b | T_word => Ok w | _ => Err E_no_mode
  end.
(** nsasm/addressing_mode.cc:116-125. *)
Definition switch_word_long (arg : option expr) (w l : amode) : res amode :=
  match t_unsigned (type_opt arg) with
  | T_word => Ok w | T_long => Ok l | _ => Err E_no_mode
  end.
(** nsasm/addressing_mode.cc:127-134. *)
Definition force_byte (arg : option expr) (b : amode) : res amode :=
  match t_unsigned (type_opt arg) with T_byte => Ok b | _ => Err E_no_mode end.
(** nsasm/addressing_mode.cc:136-150.  Evaluating the argument may overflow. *)
Definition coerce_byte (arg : option expr) (b : amode) : res amode :=
  match t_unsigned (type_opt arg) with
  | T_byte => Ok b
  | T_unknown =>
      match eval_opt null_ctx arg with
      | Ok v => if (v <? 0x100) && (-0x80 <=? v) then Ok b else Err E_no_mode
      | Err _ => Err E_no_mode
      | UB u => UB u
      | OutOfFuel => OutOfFuel
      end
  | _ => Err E_no_mode
  end.
(** nsasm/addressing_mode.cc:152-163: both arguments are examined before deciding. *)
Definition coerce_bytes (arg1 arg2 : option expr) (b : amode) : res amode :=
  match coerce_byte arg1 b, coerce_byte arg2 b with
  | UB u, _ => UB u
  | _, UB u => UB u
  | Ok _, Ok _ => Ok b
  | _, _ => Err E_no_mode
  end.
(** nsasm/addressing_mode.cc:165-172. *)
Definition force_word (arg : option expr) (w : amode) : res amode :=
  match t_unsigned (type_opt arg) with T_word => Ok w | _ => Err E_no_mode end.
(** nsasm/addressing_mode.cc:174-188. *)
Definition coerce_word (arg : option expr) (w : amode) : res amode :=
  match t_unsigned (type_opt arg) with
  | T_word => Ok w
  | T_unknown =>
      match eval_opt null_ctx arg with
      | Ok v => if (v <? 0x10000) && (-0x8000 <=? v) then Ok w else Err E_no_mode
      | Err _ => Err E_no_mode
      | UB u => UB u
      | OutOfFuel => OutOfFuel
      end
  | _ => Err E_no_mode
  end.
(** nsasm/addressing_mode.cc:190-197. *)
Definition force_long (arg : option expr) (l : amode) : res amode :=
  match t_unsigned (type_opt arg) with T_long => Ok l | _ => Err E_no_mode end.

(** nsasm/addressing_mode.cc:205-207. *)
Definition is_branch_mnemonic (m : mnemonic) : bool :=
  match m with
  | M_bcc | M_bcs | M_beq | M_bmi | M_bne | M_bpl | M_bra | M_brl | M_bvc | M_bvs | M_per =>
      true
  | _ => false
  end.

(** The ten mnemonics tested repeatedly in DeduceMode, e.g.
    nsasm/addressing_mode.cc:281-282. *)
Definition is_alu_mnemonic (m : mnemonic) : bool :=
  match m with
  | M_adc | PM_add | M_and | M_cmp | M_eor | M_lda | M_ora | M_sbc | M_sta | PM_sub => true
  | _ => false
  end.

(** nsasm/addressing_mode.cc:219-221. *)
Definition argument_is_address (s : samode) : bool :=
  match s with
  | SA_imp | SA_acc | SA_imm | SA_stk | SA_stk_y | SA_mov => false
  | _ => true
  end.

(** nsasm/addressing_mode.cc:201-423. *)
Definition deduce_mode (m : mnemonic) (s : samode) (arg1 arg2 : option expr) : res amode :=
  if is_branch_mnemonic m then
    match s, simple_identifier_opt arg1 with
    | SA_dir, Some _ => Ok (match m with M_brl | M_per => A_rel16 | _ => A_rel8 end)
    | _, _ => Err E_no_mode
    end
  else if argument_is_address s && ntype_eqb (type_opt arg1) T_unknown then Err E_no_mode
  else
  match s with
  | SA_imp =>
      match m with
      | M_dec | M_inc | M_asl | M_lsr | M_rol | M_ror => Ok A_acc
      | M_clc | M_cld | M_cli | M_clv | M_dex | M_dey | M_inx | M_iny | M_nop | M_pha
      | M_phb | M_phd | M_phk | M_php | M_phx | M_phy | M_pla | M_plb | M_pld | M_plp
      | M_plx | M_ply | M_rti | M_rtl | M_rts | M_sec | M_sed | M_sei | M_stp | M_tax
      | M_tay | M_tcd | M_tcs | M_tdc | M_tsc | M_tsx | M_txa | M_txs | M_txy | M_tya
      | M_tyx | M_wai | M_xba | M_xce => Ok A_imp
      | _ => Err E_no_mode
      end
  | SA_acc =>
      match m with
      | M_dec | M_inc | M_asl | M_lsr | M_rol | M_ror => Ok A_acc
      | _ => Err E_no_mode
      end
  | SA_imm =>
      match m with
      | M_adc | PM_add | M_and | M_bit | M_cmp | M_eor | M_lda | M_ora | M_sbc | PM_sub =>
          Ok A_imm_fm
      | M_cpx | M_cpy | M_ldx | M_ldy => Ok A_imm_fx
      | M_cop | M_rep | M_sep | M_brk | M_wdm => coerce_byte arg1 A_imm_b
      | M_pea => coerce_word arg1 A_imm_w
      | _ => Err E_no_mode
      end
  | SA_dir =>
      if is_alu_mnemonic m then switch_byte_word_long arg1 A_dir_b A_dir_w A_dir_l
      else match m with
      | M_asl | M_bit | M_cpx | M_cpy | M_dec | M_inc | M_ldx | M_ldy | M_lsr | M_rol
      | M_ror | M_stx | M_sty | M_stz | M_trb | M_tsb => switch_byte_word arg1 A_dir_b A_dir_w
      | M_jmp => switch_word_long arg1 A_dir_w A_dir_l
      | M_pei => force_byte arg1 A_dir_b
      | M_jsr => force_word arg1 A_dir_w
      | M_jsl => force_long arg1 A_dir_l
      | _ => Err E_no_mode
      end
  | SA_dir_x =>
      if is_alu_mnemonic m then switch_byte_word_long arg1 A_dir_bx A_dir_wx A_dir_lx
      else match m with
      | M_asl | M_bit | M_dec | M_inc | M_ldy | M_lsr | M_rol | M_ror | M_stz =>
          switch_byte_word arg1 A_dir_bx A_dir_wx
      | M_sty => force_byte arg1 A_dir_bx
      | _ => Err E_no_mode
      end
  | SA_dir_y =>
      match m with
      | M_ldx => switch_byte_word arg1 A_dir_by A_dir_wy
      | M_stx => force_byte arg1 A_dir_by
      | _ => if is_alu_mnemonic m then force_word arg1 A_dir_wy else Err E_no_mode
      end
  | SA_ind =>
      if is_alu_mnemonic m then force_byte arg1 A_ind_b
      else match m with M_jmp => force_word arg1 A_ind_w | _ => Err E_no_mode end
  | SA_ind_x =>
      if is_alu_mnemonic m then force_byte arg1 A_ind_bx
      else match m with M_jmp | M_jsr => force_word arg1 A_ind_wx | _ => Err E_no_mode end
  | SA_ind_y => if is_alu_mnemonic m then force_byte arg1 A_ind_by else Err E_no_mode
  | SA_lng =>
      if is_alu_mnemonic m then force_byte arg1 A_lng_b
      else match m with M_jmp => force_word arg1 A_lng_w | _ => Err E_no_mode end
  | SA_lng_y => if is_alu_mnemonic m then force_byte arg1 A_lng_by else Err E_no_mode
  | SA_stk => if is_alu_mnemonic m then coerce_byte arg1 A_stk else Err E_no_mode
  | SA_stk_y => if is_alu_mnemonic m then coerce_byte arg1 A_stk_y else Err E_no_mode
  | SA_mov => match m with M_mvn | M_mvp => coerce_bytes arg1 arg2 A_mov | _ => Err E_no_mode end
  end.

(** nsasm/addressing_mode.cc:425-443. *)
Definition instruction_length (a : amode) : Z :=
  match a with
  | A_imp | A_acc => 1
  | A_imm_b | A_dir_b | A_dir_bx | A_dir_by | A_ind_b | A_ind_bx | A_ind_by | A_lng_b
  | A_lng_by | A_stk | A_stk_y | A_rel8 => 2
  | A_imm_w | A_dir_w | A_dir_wx | A_dir_wy | A_ind_w | A_ind_wx | A_lng_w | A_mov
  | A_rel16 => 3
  | A_dir_l | A_dir_lx => 4
  | A_imm_fm | A_imm_fx => 0
  end.
