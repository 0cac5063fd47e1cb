(** Instructions.  Transcribes nsasm/instruction.{h,cc} and nsasm/decode.cc. *)
From Verif Require Import Base ModelNumeric ModelAddress ModelMnemonic ModelExpr ModelAMode
  ModelOpcode ModelState.
Open Scope string_scope.
Open Scope Z_scope.

(** nsasm/instruction.h:13-20 (location is not modelled). *)
Record instr := Instr {
  i_mnem : mnemonic; i_suffix : suffix; i_mode : amode;
  i_arg1 : option expr; i_arg2 : option expr; i_ret : retconv }.

(** nsasm/instruction.cc:8-13. *)
Definition instr_to_string (i : instr) : string :=
  (mnem_to_string (i_mnem i) ++ suffix_to_string (i_suffix i)
   ++ args_to_string (i_mode i) (i_arg1 i) (i_arg2 i) ++ rc_to_suffix (i_ret i))%string.

(** nsasm/instruction.h:77-81. *)
Definition is_exit_instruction (i : instr) : bool :=
  match i_mnem i with
  | M_jmp | M_rtl | M_rts | M_rti | M_stp | M_bra | M_brl => true
  | _ => false
  end || rc_is_exit (i_ret i).

(** nsasm/instruction.h:83-86. *)
Definition is_local_branch (i : instr) : bool :=
  match i_mode i with A_rel8 | A_rel16 => true | _ => false end
  && negb (mnem_eqb (i_mnem i) M_per).

(** nsasm/instruction.cc:15-110. *)
Definition check_consistency (i : instr) (f : flags) : res unit :=
  let m := i_mnem i in
  let a := i_mode i in
  let effective := match m with PM_add | PM_sub => M_adc | m => m end in
  if negb (is_legal_combination effective a) then Err E_logic
  else
    let* _ :=
      if suffix_eqb (i_suffix i) S_none then Ok tt
      else
        match flag_controlling_size effective with
        | NotVariable => Err E_logic
        | u =>
            let state := match u with UsesM => fl_m f | _ => fl_x f end in
            if bit_eqb state B_on && suffix_eqb (i_suffix i) S_w then Err E_flag_mismatch
            else if bit_eqb state B_off && suffix_eqb (i_suffix i) S_b then Err E_flag_mismatch
            else Ok tt
        end in
    match a with
    | A_imm_fm => if bit_known (fl_m f) then Ok tt else Err E_unknown_size
    | A_imm_fx => if bit_known (fl_x f) then Ok tt else Err E_unknown_size
    | A_imm_b | A_imm_w =>
        let needed := match a with A_imm_b => B_on | _ => B_off end in
        let check (actual : bitstate) :=
          if bit_eqb actual B_unknown || bit_eqb actual B_original then Err E_unknown_size
          else if bit_eqb actual B_on && bit_eqb needed B_off then Err E_flag_mismatch
          else if bit_eqb actual B_off && bit_eqb needed B_on then Err E_flag_mismatch
          else Ok tt in
        if imm_uses_m m then check (fl_m f)
        else if imm_uses_x m then check (fl_x f)
        else Ok tt
    | _ => Ok tt
    end.

Definition with_mode (a : amode) (i : instr) : instr :=
  Instr (i_mnem i) (i_suffix i) a (i_arg1 i) (i_arg2 i) (i_ret i).

(** nsasm/instruction.cc:112-137. *)
Definition fix_addressing_mode (i : instr) (f : flags) : res instr :=
  let resolve (bs : bitstate) :=
    match bs with
    | B_on => Ok (with_mode A_imm_b i)
    | B_off => Ok (with_mode A_imm_w i)
    | _ => Err E_unknown_size
    end in
  match i_mode i with
  | A_imm_fm => resolve (fl_m f)
  | A_imm_fx => resolve (fl_x f)
  | _ => Ok i
  end.

(** nsasm/instruction.cc:144-164: evaluation failure becomes nullopt (undefined behaviour
    during evaluation remains). *)
Definition maybe_arg (c : lookup_ctx) (e : option expr) : res (option Z) :=
  match eval_opt c e with
  | Ok v => Ok (Some v)
  | Err _ => Ok None
  | UB u => UB u
  | OutOfFuel => OutOfFuel
  end.

Definition upd_flags (g : flags -> flags) (s : estate) : estate :=
  with_flags (g (es_flags s)) s.

(** Bit test of an int argument, nsasm/instruction.cc:206-214. *)
Definition has_bit (v mask : Z) : bool := negb (Z.land v mask =? 0).

(** nsasm/instruction.cc:139-390.  The pc and needs_reeval parameters do not influence the
    state and are omitted. *)
Definition execute_in (c : lookup_ctx) (i : instr) (s : estate) : res estate :=
  let* _ := check_consistency i (es_flags s) in
  let m := i_mnem i in
  match m with
  | M_sec | M_bcc => Ok (upd_flags (set_c B_on) s)
  | M_clc | M_bcs => Ok (upd_flags (set_c B_off) s)
  | M_rep | M_sep =>
      let target := match m with M_rep => B_off | _ => B_on end in
      let* arg := maybe_arg c (i_arg1 i) in
      match arg with
      | None =>
          let s := if bit_eqb (fl_c (es_flags s)) target then s
                   else upd_flags (set_c B_unknown) s in
          let s := if bit_eqb (fl_x (es_flags s)) target then s
                   else upd_flags (set_x B_unknown) s in
          let s := if bit_eqb (fl_m (es_flags s)) target then s
                   else upd_flags (set_m B_unknown) s in
          Ok s
      | Some v =>
          let s := if has_bit v 0x01 then upd_flags (set_c target) s else s in
          let s := if has_bit v 0x10 then upd_flags (set_x target) s else s in
          let s := if has_bit v 0x20 then upd_flags (set_m target) s else s in
          Ok s
      end
  | M_adc | M_sbc | PM_add | PM_sub | M_asl | M_lsr | M_rol | M_ror =>
      Ok (wipe_carry (wipe_a s))
  | M_cmp | M_cpx | M_cpy => Ok (wipe_carry s)
  | M_and | M_eor | M_ora => Ok (wipe_a s)
  | M_inc | M_dec | M_inx | M_dex | M_iny | M_dey =>
      match i_mode i with
      | A_acc | A_imp =>
          let off := match m with M_dec | M_dex | M_dey => -1 | _ => 1 end in
          let mask (b : bitstate) := if bit_eqb b B_on then 0xff else 0xffff in
          match m with
          | M_inc | M_dec =>
              let* r := rv_add off (mask (fl_m (es_flags s))) (es_a s) in Ok (with_a r s)
          | M_inx | M_dex =>
              let* r := rv_add off (mask (fl_x (es_flags s))) (es_xr s) in Ok (with_x r s)
          | _ =>
              let* r := rv_add off (mask (fl_x (es_flags s))) (es_yr s) in Ok (with_y r s)
          end
      | _ => Ok s
      end
  | M_lda | M_ldx | M_ldy =>
      match i_mode i with
      | A_imm_b | A_imm_fx | A_imm_fm | A_imm_w =>
          let* arg := maybe_arg c (i_arg1 i) in
          let r := match arg with None => RV_unknown | Some v => rv_of_int v end in
          Ok (match m with
              | M_lda => with_a r s
              | M_ldx => with_x r s
              | _ => with_y r s
              end)
      | _ => Ok s
      end
  | M_mvn | M_mvp =>
      let* initial_a := maybe_arg c (i_arg1 i) in
      let s := match fl_m (es_flags s) with
               | B_on => with_a (rv_of_int 0xff) s
               | B_off => with_a (rv_of_int 0xffff) s
               | _ => wipe_a s
               end in
      let* s :=
        match initial_a with
        | None => Ok (with_y RV_unknown (with_x RV_unknown s))
        | Some v =>
            let mask := if bit_eqb (fl_x (es_flags s)) B_on then 0xff else 0xffff in
            let* off := int_result (match m with M_mvn => 1 + v | _ => -1 - v end) in
            let* rx := rv_add off mask (es_xr s) in
            let* ry := rv_add off mask (es_yr s) in
            Ok (with_y ry (with_x rx s))
        end in
      let* dbr := maybe_arg c (i_arg2 i) in
      Ok (with_dbr (match dbr with Some v => rv_of_int v | None => RV_unknown end) s)
  | M_pea =>
      let* arg := maybe_arg c (i_arg1 i) in
      Ok (with_stack (push_word_opt arg (es_stack s)) s)
  | M_pei | M_per => Ok (with_stack (push_unknown_word (es_stack s)) s)
  | M_pha => Ok (push_a s)
  | M_phx => Ok (push_x s)
  | M_phy => Ok (push_y s)
  | M_pla => pull_a s
  | M_plx => pull_x s
  | M_ply => pull_y s
  | M_php => Ok (push_flags s)
  | M_plp => Ok (pull_flags s)
  | M_xce => Ok (upd_flags exchange_ce s)
  | M_jmp | M_jsl | M_jsr | M_brk | M_cop =>
      let s := match yield_flags (i_ret i) with Some f => with_flags f s | None => s end in
      Ok (upd_flags (set_c B_unknown) s)
  | _ => Ok s
  end.

(** Default context argument, nsasm/instruction.h:52-55. *)
Definition execute (i : instr) (s : estate) : res estate := execute_in null_ctx i s.

(** nsasm/instruction.cc:392-400. *)
Definition execute_branch (i : instr) (s : estate) : res estate :=
  let* s := execute i s in
  Ok (match i_mnem i with
      | M_bcc => upd_flags (set_c B_off) s
      | M_bcs => upd_flags (set_c B_on) s
      | _ => s
      end).

(** nsasm/instruction.cc:402-408. *)
Definition instr_size (i : instr) : Z :=
  instruction_length (i_mode i) + match i_mnem i with PM_add | PM_sub => 1 | _ => 0 end.

(** nsasm/instruction.cc:410-508.  The bytes handed to sink->Write in a single call at
    [address]; the call itself is in [ModelStatement].  (uint8_t stores mask with 0xff.) *)
Definition instr_bytes (address : Z) (c : lookup_ctx) (i : instr) : res (list Z) :=
  let '(prefix, true_mnem) :=
    match i_mnem i with
    | PM_add => ([0x18], M_adc)
    | PM_sub => ([0x38], M_sbc)
    | m => ([], m)
    end in
  match encode_opcode true_mnem (i_mode i) with
  | None => Err E_logic
  | Some opcode =>
      let out (l : list Z) : res (list Z) := Ok ((prefix ++ opcode :: l)%list) in
      match i_mode i with
      | A_imm_fm | A_imm_fx => Err E_logic
      | A_imp | A_acc => out []
      | A_imm_b | A_dir_b | A_dir_bx | A_dir_by | A_ind_b | A_ind_bx | A_ind_by | A_lng_b
      | A_lng_by | A_stk | A_stk_y =>
          let* v := eval_opt c (i_arg1 i) in
          out [Z.land v 0xff]
      | A_imm_w | A_dir_w | A_dir_wx | A_dir_wy | A_ind_w | A_ind_wx | A_lng_w =>
          let* v := eval_opt c (i_arg1 i) in
          out [Z.land v 0xff; Z.land (Z.shiftr v 8) 0xff]
      | A_dir_l | A_dir_lx =>
          let* v := eval_opt c (i_arg1 i) in
          out [Z.land v 0xff; Z.land (Z.shiftr v 8) 0xff; Z.land (Z.shiftr v 16) 0xff]
      | A_mov =>
          let* v1 := eval_opt c (i_arg1 i) in
          let* v2 := eval_opt c (i_arg2 i) in
          out [Z.land v2 0xff; Z.land v1 0xff]
      | A_rel8 =>
          let* v1 := eval_opt c (i_arg1 i) in
          let* target := mk_address v1 in
          let* offset := subtract_wrapped target (add_wrapped address 2) in
          if (127 <? offset) || (offset <? -128) then Err E_branch_range
          else out [Z.land offset 0xff]
      | A_rel16 =>
          let* v1 := eval_opt c (i_arg1 i) in
          let* target := mk_address v1 in
          let* offset := subtract_wrapped target (add_wrapped address 3) in
          let w := Z.land offset 0xffff in
          out [Z.land w 0xff; to_uint8 (Z.shiftr w 8)]
      end
  end.

(** nsasm/instruction.cc:510-529. *)
Definition far_branch_target (i : instr) (source : Z) : res (option Z) :=
  let target (k : Z -> res Z) : res (option Z) :=
    match eval_opt null_ctx (i_arg1 i) with
    | Ok v => let* a := k v in Ok (Some a)
    | Err _ => Ok None
    | UB u => UB u
    | OutOfFuel => OutOfFuel
    end in
  match i_mode i, i_mnem i with
  | A_dir_l, (M_jmp | M_jsl) => target mk_address
  | A_dir_w, (M_jmp | M_jsr) => target (fun v => Ok (mk_address2 (addr_bank source) v))
  | _, _ => Ok None
  end.

(** Operand shapes read by Decode, nsasm/decode.cc:38-107. *)
Definition decode_operands (a : amode) (bytes : list Z) : res (option expr * option expr) :=
  match a with
  | A_dir_l | A_dir_lx =>
      match bytes with
      | b0 :: b1 :: b2 :: _ => Ok (Some (mk_lit (b0 + b1 * 256 + b2 * 256 * 256) T_long), None)
      | _ => Err E_not_enough_bytes
      end
  | A_imm_w | A_dir_w | A_dir_wx | A_dir_wy | A_ind_w | A_ind_wx | A_lng_w =>
      match bytes with
      | b0 :: b1 :: _ => Ok (Some (mk_lit (b0 + b1 * 256) T_word), None)
      | _ => Err E_not_enough_bytes
      end
  | A_imm_b | A_dir_b | A_dir_bx | A_dir_by | A_ind_b | A_ind_bx | A_ind_by | A_lng_b
  | A_lng_by | A_stk | A_stk_y =>
      match bytes with
      | b0 :: _ => Ok (Some (mk_lit b0 T_byte), None)
      | _ => Err E_not_enough_bytes
      end
  | A_mov =>
      match bytes with
      | b0 :: b1 :: _ => Ok (Some (mk_lit b1 T_byte), Some (mk_lit b0 T_byte))
      | _ => Err E_not_enough_bytes
      end
  | A_rel8 =>
      match bytes with
      | b0 :: _ =>
          let value := if 128 <=? b0 then b0 - 256 else b0 in
          Ok (Some (mk_lit value T_signed_byte), None)
      | _ => Err E_not_enough_bytes
      end
  | A_rel16 =>
      match bytes with
      | b0 :: b1 :: _ =>
          let value := b0 + b1 * 256 in
          let value := if 32768 <=? value then value - 65536 else value in
          Ok (Some (mk_lit value T_signed_word), None)
      | _ => Err E_not_enough_bytes
      end
  | A_imp | A_acc | A_imm_fm | A_imm_fx => Ok (None, None)
  end.

(** nsasm/decode.cc:9-109. *)
Definition decode (bytes : list Z) (f : flags) : res instr :=
  match bytes with
  | [] => Err E_not_enough_bytes
  | opcode :: rest =>
      let (m, a0) := decode_opcode opcode in
      let* a :=
        match a0 with
        | A_imm_fm | A_imm_fx =>
            match (match a0 with A_imm_fm => fl_m f | _ => fl_x f end) with
            | B_on => Ok A_imm_b
            | B_off => Ok A_imm_w
            | _ => Err E_unknown_size
            end
        | a => Ok a
        end in
      let* (arg1, arg2) := decode_operands a rest in
      Ok (Instr m S_none a arg1 arg2 RC_default)
  end.
