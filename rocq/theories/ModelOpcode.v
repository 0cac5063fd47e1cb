(** Opcode tables.  Transcribes nsasm/opcode_map.{h,cc}.  The table was extracted
    mechanically from the source. *)
From Verif Require Import Base ModelMnemonic ModelAMode ModelExpr.

(** nsasm/opcode_map.cc:20-277 (the family column is not used by the code modelled
    and is omitted). *)
Definition decode_map : list (mnemonic * amode) :=
  [(M_brk, A_imm_b); (M_ora, A_ind_bx); (M_cop, A_imm_b); (M_ora, A_stk);
  (M_tsb, A_dir_b); (M_ora, A_dir_b); (M_asl, A_dir_b); (M_ora, A_lng_b); (M_php, A_imp);
  (M_ora, A_imm_fm); (M_asl, A_acc); (M_phd, A_imp); (M_tsb, A_dir_w); (M_ora, A_dir_w);
  (M_asl, A_dir_w); (M_ora, A_dir_l); (M_bpl, A_rel8); (M_ora, A_ind_by);
  (M_ora, A_ind_b); (M_ora, A_stk_y); (M_trb, A_dir_b); (M_ora, A_dir_bx);
  (M_asl, A_dir_bx); (M_ora, A_lng_by); (M_clc, A_imp); (M_ora, A_dir_wy);
  (M_inc, A_acc); (M_tcs, A_imp); (M_trb, A_dir_w); (M_ora, A_dir_wx); (M_asl, A_dir_wx);
  (M_ora, A_dir_lx); (M_jsr, A_dir_w); (M_and, A_ind_bx); (M_jsl, A_dir_l);
  (M_and, A_stk); (M_bit, A_dir_b); (M_and, A_dir_b); (M_rol, A_dir_b); (M_and, A_lng_b);
  (M_plp, A_imp); (M_and, A_imm_fm); (M_rol, A_acc); (M_pld, A_imp); (M_bit, A_dir_w);
  (M_and, A_dir_w); (M_rol, A_dir_w); (M_and, A_dir_l); (M_bmi, A_rel8);
  (M_and, A_ind_by); (M_and, A_ind_b); (M_and, A_stk_y); (M_bit, A_dir_bx);
  (M_and, A_dir_bx); (M_rol, A_dir_bx); (M_and, A_lng_by); (M_sec, A_imp);
  (M_and, A_dir_wy); (M_dec, A_acc); (M_tsc, A_imp); (M_bit, A_dir_wx);
  (M_and, A_dir_wx); (M_rol, A_dir_wx); (M_and, A_dir_lx); (M_rti, A_imp);
  (M_eor, A_ind_bx); (M_wdm, A_imm_b); (M_eor, A_stk); (M_mvp, A_mov); (M_eor, A_dir_b);
  (M_lsr, A_dir_b); (M_eor, A_lng_b); (M_pha, A_imp); (M_eor, A_imm_fm); (M_lsr, A_acc);
  (M_phk, A_imp); (M_jmp, A_dir_w); (M_eor, A_dir_w); (M_lsr, A_dir_w); (M_eor, A_dir_l);
  (M_bvc, A_rel8); (M_eor, A_ind_by); (M_eor, A_ind_b); (M_eor, A_stk_y); (M_mvn, A_mov);
  (M_eor, A_dir_bx); (M_lsr, A_dir_bx); (M_eor, A_lng_by); (M_cli, A_imp);
  (M_eor, A_dir_wy); (M_phy, A_imp); (M_tcd, A_imp); (M_jmp, A_dir_l); (M_eor, A_dir_wx);
  (M_lsr, A_dir_wx); (M_eor, A_dir_lx); (M_rts, A_imp); (M_adc, A_ind_bx);
  (M_per, A_rel16); (M_adc, A_stk); (M_stz, A_dir_b); (M_adc, A_dir_b); (M_ror, A_dir_b);
  (M_adc, A_lng_b); (M_pla, A_imp); (M_adc, A_imm_fm); (M_ror, A_acc); (M_rtl, A_imp);
  (M_jmp, A_ind_w); (M_adc, A_dir_w); (M_ror, A_dir_w); (M_adc, A_dir_l);
  (M_bvs, A_rel8); (M_adc, A_ind_by); (M_adc, A_ind_b); (M_adc, A_stk_y);
  (M_stz, A_dir_bx); (M_adc, A_dir_bx); (M_ror, A_dir_bx); (M_adc, A_lng_by);
  (M_sei, A_imp); (M_adc, A_dir_wy); (M_ply, A_imp); (M_tdc, A_imp); (M_jmp, A_ind_wx);
  (M_adc, A_dir_wx); (M_ror, A_dir_wx); (M_adc, A_dir_lx); (M_bra, A_rel8);
  (M_sta, A_ind_bx); (M_brl, A_rel16); (M_sta, A_stk); (M_sty, A_dir_b);
  (M_sta, A_dir_b); (M_stx, A_dir_b); (M_sta, A_lng_b); (M_dey, A_imp);
  (M_bit, A_imm_fm); (M_txa, A_imp); (M_phb, A_imp); (M_sty, A_dir_w); (M_sta, A_dir_w);
  (M_stx, A_dir_w); (M_sta, A_dir_l); (M_bcc, A_rel8); (M_sta, A_ind_by);
  (M_sta, A_ind_b); (M_sta, A_stk_y); (M_sty, A_dir_bx); (M_sta, A_dir_bx);
  (M_stx, A_dir_by); (M_sta, A_lng_by); (M_tya, A_imp); (M_sta, A_dir_wy);
  (M_txs, A_imp); (M_txy, A_imp); (M_stz, A_dir_w); (M_sta, A_dir_wx); (M_stz, A_dir_wx);
  (M_sta, A_dir_lx); (M_ldy, A_imm_fx); (M_lda, A_ind_bx); (M_ldx, A_imm_fx);
  (M_lda, A_stk); (M_ldy, A_dir_b); (M_lda, A_dir_b); (M_ldx, A_dir_b); (M_lda, A_lng_b);
  (M_tay, A_imp); (M_lda, A_imm_fm); (M_tax, A_imp); (M_plb, A_imp); (M_ldy, A_dir_w);
  (M_lda, A_dir_w); (M_ldx, A_dir_w); (M_lda, A_dir_l); (M_bcs, A_rel8);
  (M_lda, A_ind_by); (M_lda, A_ind_b); (M_lda, A_stk_y); (M_ldy, A_dir_bx);
  (M_lda, A_dir_bx); (M_ldx, A_dir_by); (M_lda, A_lng_by); (M_clv, A_imp);
  (M_lda, A_dir_wy); (M_tsx, A_imp); (M_tyx, A_imp); (M_ldy, A_dir_wx);
  (M_lda, A_dir_wx); (M_ldx, A_dir_wy); (M_lda, A_dir_lx); (M_cpy, A_imm_fx);
  (M_cmp, A_ind_bx); (M_rep, A_imm_b); (M_cmp, A_stk); (M_cpy, A_dir_b);
  (M_cmp, A_dir_b); (M_dec, A_dir_b); (M_cmp, A_lng_b); (M_iny, A_imp);
  (M_cmp, A_imm_fm); (M_dex, A_imp); (M_wai, A_imp); (M_cpy, A_dir_w); (M_cmp, A_dir_w);
  (M_dec, A_dir_w); (M_cmp, A_dir_l); (M_bne, A_rel8); (M_cmp, A_ind_by);
  (M_cmp, A_ind_b); (M_cmp, A_stk_y); (M_pei, A_dir_b); (M_cmp, A_dir_bx);
  (M_dec, A_dir_bx); (M_cmp, A_lng_by); (M_cld, A_imp); (M_cmp, A_dir_wy);
  (M_phx, A_imp); (M_stp, A_imp); (M_jmp, A_lng_w); (M_cmp, A_dir_wx); (M_dec, A_dir_wx);
  (M_cmp, A_dir_lx); (M_cpx, A_imm_fx); (M_sbc, A_ind_bx); (M_sep, A_imm_b);
  (M_sbc, A_stk); (M_cpx, A_dir_b); (M_sbc, A_dir_b); (M_inc, A_dir_b); (M_sbc, A_lng_b);
  (M_inx, A_imp); (M_sbc, A_imm_fm); (M_nop, A_imp); (M_xba, A_imp); (M_cpx, A_dir_w);
  (M_sbc, A_dir_w); (M_inc, A_dir_w); (M_sbc, A_dir_l); (M_beq, A_rel8);
  (M_sbc, A_ind_by); (M_sbc, A_ind_b); (M_sbc, A_stk_y); (M_pea, A_imm_w);
  (M_sbc, A_dir_bx); (M_inc, A_dir_bx); (M_sbc, A_lng_by); (M_sed, A_imp);
  (M_sbc, A_dir_wy); (M_plx, A_imp); (M_xce, A_imp); (M_jsr, A_ind_wx);
  (M_sbc, A_dir_wx); (M_inc, A_dir_wx); (M_sbc, A_dir_lx)].

(** nsasm/opcode_map.cc:316-318.  The argument is a uint8_t, 0..255. *)
Definition decode_opcode (op : Z) : mnemonic * amode :=
  nth (Z.to_nat op) decode_map (M_brk, A_imm_b).

(** nsasm/opcode_map.cc:279-293.  Entries are inserted in opcode order, a later insertion
    for the same key replaces the earlier: the list is built so that the latest insertion
    comes first. *)
Fixpoint make_reverse (i : Z) (l : list (mnemonic * amode))
         (acc : list ((mnemonic * amode) * Z)) : list ((mnemonic * amode) * Z) :=
  match l with
  | [] => acc
  | (m, a) :: l' =>
      let acc := ((m, a), i) :: acc in
      let acc := match a with
                 | A_imm_fm | A_imm_fx => ((m, A_imm_w), i) :: ((m, A_imm_b), i) :: acc
                 | _ => acc
                 end in
      make_reverse (i + 1) l' acc
  end.
Definition reverse_opcode_map : list ((mnemonic * amode) * Z) := make_reverse 0 decode_map [].

(** Hash map lookup with the pair (mnemonic, mode) as key. *)
Fixpoint find_op (m : mnemonic) (a : amode) (l : list ((mnemonic * amode) * Z)) : option Z :=
  match l with
  | [] => None
  | ((m', a'), op) :: l' =>
      if mnem_eqb m m' && amode_eqb a a' then Some op else find_op m a l'
  end.

(** nsasm/opcode_map.cc:322-329. *)
Definition encode_opcode (m : mnemonic) (a : amode) : option Z :=
  find_op m a reverse_opcode_map.

Definition reverse_contains (m : mnemonic) (a : amode) : bool :=
  match encode_opcode m a with Some _ => true | None => false end.

(** nsasm/opcode_map.cc:331-334. *)
Definition imm_uses_m (m : mnemonic) : bool :=
  reverse_contains m A_imm_fm || mnem_eqb m PM_add || mnem_eqb m PM_sub.
(** nsasm/opcode_map.cc:336-339. *)
Definition imm_uses_x (m : mnemonic) : bool := reverse_contains m A_imm_fx.
(** nsasm/opcode_map.cc:341-345. *)
Definition takes_offset (m : mnemonic) : bool :=
  reverse_contains m A_rel8 || reverse_contains m A_rel16.
(** nsasm/opcode_map.cc:347-350. *)
Definition takes_long_offset (m : mnemonic) : bool := reverse_contains m A_rel16.
(** nsasm/opcode_map.cc:352-355. *)
Definition is_legal_combination (m : mnemonic) (a : amode) : bool := reverse_contains m a.

(** nsasm/opcode_map.h:34-38. *)
Inductive flag_used := UsesM | UsesX | NotVariable.

(** nsasm/opcode_map.cc:357-374. *)
Definition flag_controlling_size (m : mnemonic) : flag_used :=
  match m with
  | M_adc | PM_add | M_and | M_asl | M_bit | M_cmp | M_dec | M_eor | M_inc | M_lda | M_lsr
  | M_ora | M_pha | M_pla | M_rol | M_ror | M_sbc | M_sta | M_stz | PM_sub | M_trb | M_tsb
  | M_txa | M_tya => UsesM
  | M_cpx | M_cpy | M_dex | M_dey | M_inx | M_iny | M_ldx | M_ldy | M_phx | M_phy | M_plx
  | M_ply | M_stx | M_sty | M_tax | M_tay | M_tsx | M_txy | M_tyx => UsesX
  | _ => NotVariable
  end.
