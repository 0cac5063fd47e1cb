(** Instruction properties: decoding, encoding, branches, operand widths, addressing modes. *)
From Verif Require Import Base ModelNumeric ModelAddress ModelMnemonic ModelExpr ModelAMode
  ModelOpcode ModelState ModelInstr ModelStatement ModelMap ModelModule SpecArith Spec65816 SpecInstr
  InstrProofs ModeProofs.
Open Scope string_scope.
Open Scope Z_scope.

(** C01.  Whatever Decode accepts assembles back to the bytes it consumed. *)
Theorem C01_decode_assemble : forall op rest f i, bytes_ok (op :: rest) ->
  decode (op :: rest) f = Ok i -> is_relative op = false ->
  forall adr c, instr_bytes adr c i = Ok (firstn (Z.to_nat (instr_size i)) (op :: rest)).
Proof. exact decode_assemble_plain. Qed.
Example C01_decode_assemble_case :
  exists i, decode [0xA9; 0x34; 0x12; 0x60] (RawFlags B_off B_off B_off B_unknown) = Ok i /\
            is_relative 0xA9 = false /\ instr_size i = 3.
Proof. eexists. repeat split. Qed.
Print Assumptions C01_decode_assemble.

Theorem C01_decode_assemble_relative : forall op rest f i, bytes_ok (op :: rest) ->
  decode (op :: rest) f = Ok i -> is_relative op = true ->
  forall adr, addr24 adr ->
  exists t, addr24 t /\
    branch_destination adr (firstn (Z.to_nat (instr_size i)) (op :: rest)) = Some t /\
    forall c, instr_bytes adr c (with_target t i) =
              Ok (firstn (Z.to_nat (instr_size i)) (op :: rest)).
Proof. exact decode_assemble_relative'. Qed.
Example C01_decode_assemble_relative_case :
  exists i, decode [0xD0; 0xFE; 0] (RawFlags B_off B_off B_off B_unknown) = Ok i /\
    branch_destination 0x18000 (firstn (Z.to_nat (instr_size i)) [0xD0; 0xFE; 0]) = Some 0x18000.
Proof. eexists. split; reflexivity. Qed.
Print Assumptions C01_decode_assemble_relative.

(** C02.  When Decode succeeds, what it reads, and the size it announces. *)
Theorem C02_decode_length : forall bytes f, bytes_ok bytes ->
  ((exists i, decode bytes f = Ok i) <->
   exists op rest n, bytes = op :: rest /\ known_length f op = Some n /\ n <= zlen bytes) /\
  (forall i, decode bytes f = Ok i ->
     exists op rest, bytes = op :: rest /\ known_length f op = Some (instr_size i) /\
       mnem_to_string (i_mnem i) = op_name op /\
       forall bytes', firstn (Z.to_nat (instr_size i)) bytes' =
                      firstn (Z.to_nat (instr_size i)) bytes -> decode bytes' f = Ok i) /\
  ((exists i, decode bytes f = Ok i) \/ exists e, decode bytes f = Err e).
Proof. exact decode_exact. Qed.
Example C02_decode_length_case :
  known_length (RawFlags B_off B_on B_off B_unknown) 0xA9 = Some 2 /\
  known_length (RawFlags B_off B_unknown B_off B_unknown) 0xA9 = None.
Proof. split; reflexivity. Qed.
Print Assumptions C02_decode_length.

(** C03.  One write of exactly the announced size, or nothing at all. *)
Theorem C03_size_written : forall sk ws a c s ws' r, stmt_assemble sk ws a c s = (ws', r) ->
  match r with
  | Ok _ =>
      (exists b, ws' = (ws ++ [(a, b)])%list /\ sk ws (a, b) = Ok tt /\
                 zlen b = stmt_size s /\ bytes_ok b) \/
      (ws' = ws /\ stmt_size s = 0 /\
       exists d, s = SDir d /\ d_name d <> D_db /\ d_name d <> D_dw /\ d_name d <> D_dl)
  | _ => ws' = ws
  end.
Proof. exact stmt_assemble_exact. Qed.
Example C03_size_written_case :
  stmt_assemble (fun _ _ => Ok tt) [] 0x8000 null_ctx
    (SInstr (Instr PM_add S_none A_imm_w (Some (ELit 0x1234 T_word)) None RC_default))
  = ([(0x8000, [0x18; 0x69; 0x34; 0x12])], Ok tt).
Proof. reflexivity. Qed.
Print Assumptions C03_size_written.

(** C04.  A branch reaches its target, or is rejected.  (A target that is no address at all,
    below zero or above 2^24, trips the assertion of the Address constructor.) *)
Theorem C04_branch_target : forall a c i n k, branch_kind i n k -> addr24 a ->
  forall t, eval_opt c (i_arg1 i) = Ok t -> int32 t ->
  ((exists d, - 2 ^ (k - 1) <= d < 2 ^ (k - 1) /\ t = same_bank_plus a (n + d)) ->
     exists b, instr_bytes a c i = Ok b /\ zlen b = n /\
       op_name (hd 0 b) = mnem_to_string (i_mnem i) /\ branch_destination a b = Some t) /\
  (0 <= t <= 2 ^ 24 ->
     ~ (exists d, - 2 ^ (k - 1) <= d < 2 ^ (k - 1) /\ t = same_bank_plus a (n + d)) ->
     exists e, instr_bytes a c i = Err e) /\
  (~ 0 <= t <= 2 ^ 24 -> instr_bytes a c i = UB UB_assert).
Proof. exact branch_exact. Qed.
Example C04_branch_target_case :
  let i := Instr M_bne S_none A_rel8 (Some (ELit 0x1FFF0 T_long)) None RC_default in
  branch_kind i 2 8 /\ eval_opt null_ctx (i_arg1 i) = Ok 0x1FFF0 /\
  0x1FFF0 = same_bank_plus 0x10005 (2 + -23).
Proof. split; [left; repeat split; cbn; tauto|]. split; reflexivity. Qed.
Print Assumptions C04_branch_target.

Theorem C04_long_branch_reaches_bank : forall a t, addr24 a -> addr24 t -> bank_of t = bank_of a ->
  exists d, - 2 ^ 15 <= d < 2 ^ 15 /\ t = same_bank_plus a (3 + d).
Proof. exact long_reach. Qed.
Example C04_long_branch_reaches_bank_case : bank_of 0x12FFFE = bank_of 0x120001.
Proof. reflexivity. Qed.
Print Assumptions C04_long_branch_reaches_bank.

(** C06.  Operand width follows the flags. *)
Theorem C06_resolved_width : forall i f,
  (i_mode i = A_imm_fm ->
     (fl_m f = B_on -> fix_addressing_mode i f = Ok (with_mode A_imm_b i)) /\
     (fl_m f = B_off -> fix_addressing_mode i f = Ok (with_mode A_imm_w i)) /\
     (known_bit (fl_m f) = None -> exists e, fix_addressing_mode i f = Err e)) /\
  (i_mode i = A_imm_fx ->
     (fl_x f = B_on -> fix_addressing_mode i f = Ok (with_mode A_imm_b i)) /\
     (fl_x f = B_off -> fix_addressing_mode i f = Ok (with_mode A_imm_w i)) /\
     (known_bit (fl_x f) = None -> exists e, fix_addressing_mode i f = Err e)) /\
  (i_mode i <> A_imm_fm -> i_mode i <> A_imm_fx -> fix_addressing_mode i f = Ok i).
Proof. exact fix_mode_exact. Qed.
Example C06_resolved_width_case :
  fix_addressing_mode (Instr M_lda S_none A_imm_fm (Some (ELit 1 T_byte)) None RC_default)
    (RawFlags B_off B_off B_on B_unknown)
  = Ok (Instr M_lda S_none A_imm_w (Some (ELit 1 T_byte)) None RC_default).
Proof. reflexivity. Qed.
Print Assumptions C06_resolved_width.

Theorem C06_processor_agrees : forall i f a c b m x,
  check_consistency i f = Ok tt -> instr_bytes a c i = Ok b ->
  bit_allows (fl_m f) m -> bit_allows (fl_x f) x ->
  exists op l, b = ((if is_pseudo (i_mnem i)
                     then [if mnem_eqb (i_mnem i) PM_add then 0x18 else 0x38] else [])
                    ++ op :: l)%list /\
    op_name op = mnem_to_string (hardware_mnemonic (i_mnem i)) /\
    zlen (op :: l) = cpu_length op m x.
Proof. exact accepted_length. Qed.
Example C06_processor_agrees_case :
  let i := Instr M_ldx S_w A_imm_w (Some (ELit 1 T_byte)) None RC_default in
  let f := RawFlags B_off B_unknown B_off B_unknown in
  check_consistency i f = Ok tt /\ instr_bytes 0 null_ctx i = Ok [0xA2; 1; 0].
Proof. split; reflexivity. Qed.
Print Assumptions C06_processor_agrees.

Theorem C06_consistency_exact : forall i f op,
  0 <= op < 256 -> op_name op = mnem_to_string (hardware_mnemonic (i_mnem i)) ->
  fits (op_form op) (i_mode i) ->
  (check_consistency i f = Ok tt <-> suffix_agrees i f /\ width_agrees op i f) /\
  (check_consistency i f = Ok tt \/ exists e, check_consistency i f = Err e).
Proof. exact consistency_exact. Qed.
Example C06_consistency_exact_case :
  op_name 0xE9 = mnem_to_string (hardware_mnemonic PM_sub) /\ fits (op_form 0xE9) A_imm_fm.
Proof. split; [reflexivity|left; reflexivity]. Qed.
Print Assumptions C06_consistency_exact.

(** C07.  Exactly the processor's operand forms can be written, each with the operand sizes
    that select it. *)
Theorem C07_deduce_exact : forall m s a1 a2 am,
  deduce_mode m s a1 a2 = Ok am <->
  (exists op, 0 <= op < 256 /\ op_name op = mnem_to_string (hardware_mnemonic m) /\
              op_form op = form_of am) /\
  In s (written_as am) /\ operand_ok am a1 a2.
Proof. exact deduce_exact. Qed.
Example C07_deduce_exact_case :
  deduce_mode M_lda SA_dir_x (Some (ELit 0x123456 T_long)) None = Ok A_dir_lx /\
  op_name 0xBF = "lda" /\ op_form 0xBF = form_of A_dir_lx.
Proof. repeat split. Qed.
Print Assumptions C07_deduce_exact.

Theorem C07_every_opcode : forall op, 0 <= op < 256 ->
  exists m s a1 a2 am, mnem_to_string m = op_name op /\ form_of am = op_form op /\
    deduce_mode m s a1 a2 = Ok am.
Proof. exact every_opcode_written. Qed.
Example C07_every_opcode_case : op_name 0x42 = "wdm" /\ op_form 0x42 = Imm8.
Proof. split; reflexivity. Qed.
Print Assumptions C07_every_opcode.

(** C41.  The opcode tables are the processor's. *)
Theorem C41_opcode_table : forall op, 0 <= op < 256 ->
  mnem_to_string (fst (decode_opcode op)) = op_name op /\
  form_of (snd (decode_opcode op)) = op_form op.
Proof. exact decode_table. Qed.
Example C41_opcode_table_case : op_name 0xFC = "jsr" /\ op_form 0xFC = IAbsX.
Proof. split; reflexivity. Qed.
Print Assumptions C41_opcode_table.

Theorem C41_encode_exact : forall m a op,
  encode_opcode m a = Some op <->
  0 <= op < 256 /\ op_name op = mnem_to_string m /\ fits (op_form op) a.
Proof. exact encode_opcode_iff. Qed.
Example C41_encode_exact_case :
  encode_opcode M_jmp A_lng_w = Some 0xDC /\ encode_opcode M_sta A_imm_b = None.
Proof. split; vm_compute; reflexivity. Qed.
Print Assumptions C41_encode_exact.
