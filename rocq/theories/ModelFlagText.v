(** Messages about instructions that do not agree with the status flags. *)
From Verif Require Import Base ModelMnemonic ModelExpr ModelAMode ModelOpcode ModelState ModelInstr ModelLocation ModelRomText ModelParseText.
Open Scope string_scope.
Open Scope list_scope.

(** nsasm/addressing_mode.cc:460-489. *)
Definition amode_to_string (a : amode) : string :=
  match a with
  | A_imp => "implied" | A_acc => "accumulator" | A_imm_b => "immediate byte" | A_imm_w => "immediate word"
  | A_dir_b => "direct byte" | A_dir_w => "direct word" | A_dir_l => "direct long"
  | A_dir_bx => "direct X indexed byte" | A_dir_by => "direct Y indexed byte" | A_dir_wx => "direct X indexed word"
  | A_dir_wy => "direct Y indexed word" | A_dir_lx => "direct X indexed long"
  | A_ind_b => "indirect byte" | A_ind_w => "indirect word" | A_ind_bx => "indexed indirect X byte"
  | A_ind_by => "indirect indexed Y byte" | A_ind_wx => "indexed indirect X word"
  | A_lng_b => "long indirect byte" | A_lng_w => "long indirect word" | A_lng_by => "long indirect indexed Y byte"
  | A_stk => "stack relative" | A_stk_y => "stack relative indirect indexed Y" | A_mov => "source destination"
  | A_rel8 => "relative 8" | A_rel16 => "relative 16"
  | A_imm_fm => "immediate adaptive m bit" | A_imm_fx => "immediate adaptive x bit"
  end.

(** An Error without location. *)
Definition err_here {A} (kind : err) (text : string) : pres A := PErr (RError kind text no_location).
(** nsasm/instruction.cc:63-66, 71-74, 93-96, 130-133. *)
Definition unknown_flag (m : mnemonic) (c : string) : string :=
  "instruction " ++ mnem_to_string m ++ " with immediate argument depends on `" ++ c ++ "` flag state, which is unknown here".
(** nsasm/instruction.cc:15-110, as [check_consistency]. *)
Definition t_check_consistency (i : instr) (f : flags) : pres unit :=
  let m := i_mnem i in
  let a := i_mode i in
  let effective := match m with PM_add | PM_sub => M_adc | m => m end in
  if negb (is_legal_combination effective a)
  then err_here E_logic ("logic error: instruction " ++ mnem_to_string m ++ " with addressing mode " ++ amode_to_string a ++ " is inconsistent")
  else
    let^ _ :=
      if suffix_eqb (i_suffix i) S_none then POk tt
      else
        match flag_controlling_size effective with
        | NotVariable => err_here E_logic ("logic error: parser should not have accepted a suffix on instruction " ++ mnem_to_string m)
        | u =>
            let state := match u with UsesM => fl_m f | _ => fl_x f end in
            let c := match u with UsesM => "m" | _ => "x" end in
            if bit_eqb state B_on && suffix_eqb (i_suffix i) S_w
            then err_here E_flag_mismatch ("Instruction " ++ mnem_to_string m ++ ".w uses the `w` suffix, but the `" ++ c ++ "` flag is set here, which causes an 8-bit access.")
            else if bit_eqb state B_off && suffix_eqb (i_suffix i) S_b
            then err_here E_flag_mismatch ("Instruction " ++ mnem_to_string m ++ ".b uses the `b` suffix, but the `" ++ c ++ "` flag is unset here, which causes a 16-bit access.")
            else POk tt
        end in
    match a with
    | A_imm_fm => if bit_known (fl_m f) then POk tt else err_here E_unknown_size (unknown_flag m "m")
    | A_imm_fx => if bit_known (fl_x f) then POk tt else err_here E_unknown_size (unknown_flag m "x")
    | A_imm_b | A_imm_w =>
        let needed := match a with A_imm_b => B_on | _ => B_off end in
        let check (c : string) (actual : bitstate) :=
          if bit_eqb actual B_unknown || bit_eqb actual B_original then err_here E_unknown_size (unknown_flag m c)
          else if bit_eqb actual B_on && bit_eqb needed B_off
          then err_here E_flag_mismatch ("instruction " ++ mnem_to_string m ++ " has 16-bit immediate argument, but `" ++ c ++ "` status flag is on here (so an 8-bit argument is required)")
          else if bit_eqb actual B_off && bit_eqb needed B_on
          then err_here E_flag_mismatch ("instruction " ++ mnem_to_string m ++ " has 8-bit immediate argument, but `" ++ c ++ "` status flag is off here (so a 16-bit argument is required)")
          else POk tt in
        if imm_uses_m m then check "m" (fl_m f)
        else if imm_uses_x m then check "x" (fl_x f)
        else POk tt
    | _ => POk tt
    end.
(** nsasm/instruction.cc:112-137, as [fix_addressing_mode]. *)
Definition t_fix_addressing_mode (i : instr) (f : flags) : pres instr :=
  let resolve (c : string) (bs : bitstate) :=
    match bs with
    | B_on => POk (with_mode A_imm_b i)
    | B_off => POk (with_mode A_imm_w i)
    | _ => err_here E_unknown_size (unknown_flag (i_mnem i) c)
    end in
  match i_mode i with
  | A_imm_fm => resolve "m" (fl_m f)
  | A_imm_fx => resolve "x" (fl_x f)
  | _ => POk i
  end.
