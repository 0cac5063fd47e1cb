(** C54: the printed opcode table is the processor's. *)
From Verif Require Import Base ModelNumeric ModelMnemonic ModelExpr ModelAMode ModelState ModelInstr ModelToken ModelStatement ModelParse ModelOpcodeMap
  SpecText Spec65816 SpecInstr SpecSafe SpecShow SpecOpcodeMap InstrProofs TableProofs.
Open Scope string_scope.
Open Scope Z_scope.

(** Line [op] of the table, for each of the 256 opcodes, and no line more. *)
Theorem C54_opcode_table : List.length opcode_map = 256%nat /\ forall op, 0 <= op < 256 ->
  nth_error opcode_map (Z.to_nat op) = Some (opcode_text op ++ "  " ++ op_name op ++ notation (op_form op)).
Proof.
  split; [reflexivity|]. intros op R.
  assert (T : forallb (fun op => match nth_error opcode_map (Z.to_nat op) with
    | Some s => String.eqb s (opcode_text op ++ "  " ++ op_name op ++ notation (op_form op)) | None => false end) all_opcodes = true)
    by (vm_compute; reflexivity).
  pose proof (forall_opcodes _ T op R) as H. cbv beta in H. destruct (nth_error opcode_map (Z.to_nat op)) as [s|]; [|discriminate H].
  apply String.eqb_eq in H. rewrite H. reflexivity.
Qed.
Example C54_case : nth 0 opcode_map "" = "00  brk #6636321" /\ nth 169 opcode_map "" = "A9  lda.b #6636321" /\
  nth 84 opcode_map "" = "54  mvn #6636321, #67" /\ nth 98 opcode_map "" = "62  per 6636321" /\ nth 255 opcode_map "" = "FF  sbc 6636321, X".
Proof. repeat split. Qed.
Print Assumptions C54_opcode_table.

(** ** C55.  The test Parse.round_trip, for all operands instead of 0 and `label`: the line made
    from an opcode is read as one instruction, with the name and the form of that opcode and
    with the operands it was made from, cut to the size of the form. *)
Theorem C55_round_trip : forall op v w name, 0 <= op < 256 -> int_min < v <= int_max -> tokenize name = Ok [TIdent name; TEol] ->
  exists i, read_as (test_line op v w name) [PStmt (SInstr i)] /\
    mnem_to_string (i_mnem i) = op_name op /\ form_of (i_mode i) = op_form op /\ i_suffix i = S_none /\ i_ret i = RC_default /\
    match op_form op with
    | Imp | Acc => i_arg1 i = None
    | Rel8 | Rel16 => i_arg1 i = Some (EId (FullId None name) T_word)
    | fm => forall ctx, eval_opt ctx (i_arg1 i) = Ok (match form_bits fm with Some b => v mod 2 ^ b | None => v end)
    end /\
    (op_form op = Blk -> forall ctx, eval_opt ctx (i_arg2 i) = Ok (w mod 2 ^ 8)).
Proof. exact table_reads. Qed.
Example C55_case : tokenize "there" = Ok [TIdent "there"; TEol] /\ test_line 0xA9 (-5) 0 "there" = "lda #-5" /\ test_line 0x54 0x1234 0x43 "there" = "mvn #$34, #$43" /\
  test_line 0xD0 0 0 "there" = "bne there" /\ test_line 0xBF (-1) 0 "there" = "lda $ffffff, X" /\ test_line 0x0A 9 9 "there" = "asl".
Proof. vm_compute. repeat split. Qed.
Print Assumptions C55_round_trip.
(** The least int is printed as a number that is read as the least int with a minus before it;
    negating it overflows. *)
Theorem C55_least_refuted : exists i, read_as (test_line 0xA9 int_min 0 "x") [PStmt (SInstr i)] /\ eval_opt null_ctx (i_arg1 i) = UB UB_overflow.
Proof. eexists. split; [eexists; split; [vm_compute; reflexivity|]; vm_compute; reflexivity|vm_compute; reflexivity]. Qed.
Print Assumptions C55_least_refuted.
