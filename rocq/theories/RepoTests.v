(** The project's unit tests, nsasm/..._test.cc, run on the model.  These are tests of the
    transcription, not proofs of properties: each value expected by the project's authors is what
    the model gives.  (The whole-program tests of test/ are in PropertiesHarness.v.) *)
From Verif Require Import Base ModelNumeric ModelAddress ModelMap ModelMnemonic ModelExpr ModelAMode ModelOpcode ModelState ModelInstr
  ModelStatement ModelRanges ModelToken ModelParse ModelOpcodeMap ModelFamily.
Open Scope string_scope.
Open Scope list_scope.
Open Scope Z_scope.

Definition is_ok {A} (r : res A) : bool := match r with Ok _ => true | _ => false end.
Definition is_err {A} (r : res A) : bool := match r with Err _ => true | _ => false end.
Definition both (l : list bool) : bool := forallb (fun b => b) l.
Definition every_opcode : list Z := map Z.of_nat (seq 0 256).

(** ** nsasm/addressing_mode_test.cc *)
(** Lines 20-78 and 80-89: rendering. *)
Definition renderings : list (amode * Z * Z * string) :=
  [(A_imp, 0, 0, ""); (A_acc, 0, 0, ""); (A_imm_b, 0, 0, " #$00"); (A_imm_b, 0x12, 0, " #$12");
   (A_imm_w, 0, 0, " #$0000"); (A_imm_w, 0x12, 0, " #$0012"); (A_imm_w, 0x1234, 0, " #$1234"); (A_dir_b, 0, 0, " $00");
   (A_dir_b, 0x12, 0, " $12"); (A_dir_w, 0, 0, " $0000"); (A_dir_w, 0x12, 0, " $0012"); (A_dir_w, 0x1234, 0, " $1234");
   (A_dir_l, 0, 0, " $000000"); (A_dir_l, 0x12, 0, " $000012"); (A_dir_l, 0x123456, 0, " $123456"); (A_dir_bx, 0, 0, " $00, X");
   (A_dir_bx, 0x12, 0, " $12, X"); (A_dir_by, 0, 0, " $00, Y"); (A_dir_by, 0x12, 0, " $12, Y"); (A_dir_wx, 0, 0, " $0000, X");
   (A_dir_wx, 0x12, 0, " $0012, X"); (A_dir_wx, 0x1234, 0, " $1234, X"); (A_dir_wy, 0, 0, " $0000, Y"); (A_dir_wy, 0x12, 0, " $0012, Y");
   (A_dir_wy, 0x1234, 0, " $1234, Y"); (A_ind_b, 0, 0, " ($00)"); (A_ind_b, 0x12, 0, " ($12)"); (A_ind_w, 0, 0, " ($0000)");
   (A_ind_w, 0x12, 0, " ($0012)"); (A_ind_w, 0x1234, 0, " ($1234)"); (A_ind_bx, 0, 0, " ($00, X)"); (A_ind_bx, 0x12, 0, " ($12, X)");
   (A_ind_by, 0, 0, " ($00), Y"); (A_ind_by, 0x12, 0, " ($12), Y"); (A_ind_wx, 0, 0, " ($0000, X)"); (A_ind_wx, 0x12, 0, " ($0012, X)");
   (A_ind_wx, 0x1234, 0, " ($1234, X)"); (A_lng_b, 0, 0, " [$00]"); (A_lng_b, 0x12, 0, " [$12]"); (A_lng_w, 0, 0, " [$0000]");
   (A_lng_w, 0x12, 0, " [$0012]"); (A_lng_w, 0x1234, 0, " [$1234]"); (A_lng_by, 0, 0, " [$00], Y"); (A_lng_by, 0x12, 0, " [$12], Y");
   (A_stk, 0, 0, " $00, S"); (A_stk, 0x12, 0, " $12, S"); (A_stk_y, 0, 0, " ($00, S), Y"); (A_stk_y, 0x12, 0, " ($12, S), Y");
   (A_mov, 0, 0, " #$00, #$00"); (A_mov, 0x12, 0x34, " #$12, #$34")].
Example addressing_mode_rendering :
  forallb (fun '(a, v, w, s) => String.eqb (args_to_string a (Some (mk_lit v (arg1_type a))) (Some (mk_lit w T_byte))) s) renderings = true.
Proof. vm_compute. reflexivity. Qed.
(** Lines 91-119: instruction_size. *)
Example addressing_mode_size : forallb (fun '(a, n) => instruction_length a =? n)
  [(A_imp, 1); (A_acc, 1); (A_imm_b, 2); (A_imm_w, 3); (A_dir_b, 2); (A_dir_w, 3); (A_dir_l, 4); (A_dir_bx, 2);
   (A_dir_by, 2); (A_dir_wx, 3); (A_dir_wy, 3); (A_dir_lx, 4); (A_ind_b, 2); (A_ind_w, 3); (A_ind_bx, 2); (A_ind_by, 2);
   (A_ind_wx, 3); (A_lng_b, 2); (A_lng_w, 3); (A_lng_by, 2); (A_stk, 2); (A_stk_y, 2); (A_mov, 3); (A_rel8, 2);
   (A_rel16, 3); (A_imm_fm, 0); (A_imm_fx, 0)] = true.
Proof. vm_compute. reflexivity. Qed.
(** Lines 121-149: arg_1_type. *)
Example addressing_mode_type : Forall (fun '(a, t) => arg1_type a = t)
  [(A_imp, T_unknown); (A_acc, T_unknown); (A_imm_b, T_byte); (A_imm_w, T_word); (A_dir_b, T_byte); (A_dir_w, T_word);
   (A_dir_l, T_long); (A_dir_bx, T_byte); (A_dir_by, T_byte); (A_dir_wx, T_word); (A_dir_wy, T_word); (A_dir_lx, T_long);
   (A_ind_b, T_byte); (A_ind_w, T_word); (A_ind_bx, T_byte); (A_ind_by, T_byte); (A_ind_wx, T_word); (A_lng_b, T_byte);
   (A_lng_w, T_word); (A_lng_by, T_byte); (A_stk, T_byte); (A_stk_y, T_byte); (A_mov, T_byte); (A_rel8, T_byte);
   (A_rel16, T_word); (A_imm_fm, T_unknown); (A_imm_fx, T_unknown)].
Proof. repeat constructor. Qed.
(** Lines 156-237: simple_deduce_mode.  A_imp is the sentinel. *)
Definition deductions : list (samode * list amode) :=
  [(SA_imm, [A_imm_b; A_imm_w; A_imp]); (SA_dir, [A_dir_b; A_dir_w; A_dir_l]); (SA_dir_x, [A_dir_bx; A_dir_wx; A_dir_lx]);
   (SA_dir_y, [A_dir_by; A_dir_wy; A_imp]); (SA_ind, [A_ind_b; A_ind_w; A_imp]); (SA_ind_x, [A_ind_bx; A_ind_wx; A_imp]);
   (SA_ind_y, [A_ind_by; A_imp; A_imp]); (SA_lng, [A_lng_b; A_lng_w; A_imp]); (SA_lng_y, [A_lng_by; A_imp; A_imp]);
   (SA_stk, [A_stk; A_imp; A_imp]); (SA_stk_y, [A_stk_y; A_imp; A_imp])].
Definition deduces (m : mnemonic) (s : samode) (t : ntype) (a : amode) : bool :=
  let arg1 := mk_lit 0 t in
  let i := Instr m S_none a (Some arg1) None RC_default in
  match deduce_mode m s (Some arg1) None with
  | Ok b => amode_eqb a b && is_ok (check_consistency i default_flags)
  | _ => amode_eqb a A_imp || negb (is_ok (check_consistency i default_flags))
  end.
Example addressing_mode_deduce :
  forallb (fun m => forallb (fun '(s, modes) =>
    match s with SA_imm => imm_uses_m m || imm_uses_x m | _ => false end ||
    forallb (fun '(t, a) => deduces m s t a) (combine [T_byte; T_word; T_long] modes)) deductions) all_mnemonics = true.
Proof. vm_compute. reflexivity. Qed.
(** Lines 239-272: deduce_no_arg_mode. *)
Definition mode_is (r : res amode) (a : amode) : bool := match r with Ok b => amode_eqb a b | _ => false end.
Example addressing_mode_no_arg :
  forallb (fun m =>
    let acc := deduce_mode m SA_acc None None in
    let imp := deduce_mode m SA_imp None None in
    if is_ok (check_consistency (Instr m S_none A_acc None None RC_default) default_flags) then mode_is acc A_acc && mode_is imp A_acc
    else if is_ok (check_consistency (Instr m S_none A_imp None None RC_default) default_flags) then negb (is_ok acc) && mode_is imp A_imp
    else negb (is_ok acc) && negb (is_ok imp)) all_mnemonics = true.
Proof. vm_compute. reflexivity. Qed.
(** Lines 274-311: deduce_immediate_mode. *)
Example addressing_mode_immediate :
  forallb (fun m =>
    let arg1 := Some (mk_lit 0 T_word) in
    (negb (imm_uses_m m) || is_ok (check_consistency (Instr m S_none A_imm_fm arg1 None RC_default) (mk_flags B_off B_off B_original B_unknown))
      && mode_is (deduce_mode m SA_imm arg1 None) A_imm_fm) &&
    (negb (imm_uses_x m) || is_ok (check_consistency (Instr m S_none A_imm_fx arg1 None RC_default) (mk_flags B_off B_original B_off B_unknown))
      && mode_is (deduce_mode m SA_imm arg1 None) A_imm_fx)) all_mnemonics = true.
Proof. vm_compute. reflexivity. Qed.

(** ** nsasm/decode_test.cc *)
Definition decodes (r : res instr) (m : mnemonic) (a : amode) (size : Z) (v w : option Z) : bool :=
  match r with
  | Ok i => mnem_eqb (i_mnem i) m && amode_eqb (i_mode i) a && (instr_size i =? size) &&
      match v, i_arg1 i with
      | None, None => true
      | Some v, Some e => match eval null_ctx e with Ok x => x =? v | _ => false end
      | _, _ => false
      end &&
      match w, i_arg2 i with
      | None, None => true
      | Some w, Some e => match eval null_ctx e with Ok x => x =? w | _ => false end
      | _, _ => false
      end
  | _ => false
  end.
(** Lines 11-58: mode_dependent_instructions. *)
Definition dependent (op : Z) : bool :=
  let '(m, a) := decode_opcode op in
  match a with
  | A_imm_fm | A_imm_fx =>
      let set b := match a with A_imm_fm => set_m b | _ => set_x b end (mk_flags B_off B_unknown B_unknown B_unknown) in
      is_err (decode [op] default_flags) && is_err (decode [op] (set B_on)) && is_err (decode [op] (set B_off)) &&
      is_err (decode [op; 0x21; 0x43; 0x65] default_flags) &&
      decodes (decode [op; 0x21; 0x43; 0x65] (set B_on)) m A_imm_b 2 (Some 0x21) None &&
      decodes (decode [op; 0x21; 0x43; 0x65] (set B_off)) m A_imm_w 3 (Some 0x4321) None
  | _ => true
  end.
Example decode_dependent : forallb dependent every_opcode = true.
Proof. vm_compute. reflexivity. Qed.
(** Lines 60-122: mode_independent_instructions. *)
Definition independent (op : Z) : bool :=
  let '(m, a) := decode_opcode op in
  let data := [op; 0x21; 0x43; 0x65; 0x87] in
  let n := instruction_length a in
  match a with
  | A_imm_fm | A_imm_fx => true
  | _ =>
      is_err (decode (firstn (Z.to_nat (n - 1)) data) default_flags) && is_ok (decode (firstn (Z.to_nat n) data) default_flags) &&
      match a with
      | A_imp | A_acc => decodes (decode data default_flags) m a n None None
      | A_imm_b | A_dir_b | A_dir_bx | A_dir_by | A_ind_b | A_ind_bx | A_ind_by | A_lng_b | A_lng_by | A_stk | A_stk_y | A_rel8 =>
          decodes (decode data default_flags) m a n (Some 0x21) None
      | A_imm_w | A_dir_w | A_dir_wx | A_dir_wy | A_ind_w | A_ind_wx | A_lng_w | A_rel16 =>
          decodes (decode data default_flags) m a n (Some 0x4321) None
      | A_dir_l | A_dir_lx => decodes (decode data default_flags) m a n (Some 0x654321) None
      | A_mov => decodes (decode data default_flags) m a n (Some 0x43) (Some 0x21)
      | _ => false
      end
  end.
Example decode_independent : forallb independent every_opcode = true.
Proof. vm_compute. reflexivity. Qed.

(** ** nsasm/directive_test.cc:10-59 *)
Example directive_types : Forall (fun '(d, t) => directive_type_by_name d = t)
  [(D_begin, DT_no_arg); (D_end, DT_no_arg); (D_halt, DT_no_arg); (D_equ, DT_single_arg); (D_org, DT_constant_arg); (D_mode, DT_flag_arg);
   (D_entry, DT_calling_convention_arg); (D_db, DT_list_arg); (D_dl, DT_list_arg); (D_dw, DT_list_arg); (D_module, DT_name_arg);
   (D_remote, DT_remote_arg)].
Proof. repeat constructor. Qed.

(** ** nsasm/expression_test.cc *)
Definition shown (s : string) : option string := match parse_expression s with Ok e => Some (expr_to_string e) | _ => None end.
Definition value (s : string) : option Z := match parse_expression s with Ok e => match eval null_ctx e with Ok v => Some v | _ => None end | _ => None end.
Definition typed (s : string) : option ntype := match parse_expression s with Ok e => Some (expr_type e) | _ => None end.
Example expression_shown : Forall (fun '(s, t) => shown s = Some t)
  [("1+2*3", "op+(1, op*(2, 3))"); ("1+(2*3)", "op+(1, op*(2, 3))"); ("(1+2)*3", "op*(op+(1, 2), 3)"); ("1*2+3", "op+(op*(1, 2), 3)");
   ("5-2-1", "op-(op-(5, 2), 1)"); ("-1-2", "op-(op-(1), 2)"); ("-(1-2)", "op-(op-(1, 2))"); ("1 - -2", "op-(1, op-(2))");
   ("foo+bar", "op+(foo, bar)"); ("<$123456", "op<($123456)"); (">$123456", "op>($123456)"); ("^$123456", "op^($123456)");
   ("foo", "foo"); ("::foo", "::foo"); ("foo::bar", "foo::bar"); ("@foo", "@foo");
   ("@::foo", "@::foo"); ("@foo::bar", "@foo::bar")].
Proof. repeat (constructor; [vm_compute; reflexivity|]). constructor. Qed.
Example expression_value : Forall (fun '(s, v) => value s = Some v)
  [("1+2*3", 7); ("1+(2*3)", 7); ("(1+2)*3", 9); ("1*2+3", 5); ("5-2-1", 2); ("-1-2", -3);
   ("-(1-2)", 1); ("1 - -2", 3); ("<$123456", 0x56); (">$123456", 0x34); ("^$123456", 0x12)].
Proof. repeat (constructor; [vm_compute; reflexivity|]). constructor. Qed.
Example expression_typed : Forall (fun '(s, t) => typed s = Some t)
  [("0", T_unknown); ("00000000", T_unknown); ("$00", T_byte); ("$0000", T_word); ("$000000", T_long);
   ("foo", T_word); ("::foo", T_word); ("foo::bar", T_word); ("@foo", T_long); ("@::foo", T_long);
   ("@foo::bar", T_long); ("foo + 1", T_word); ("::foo + 1", T_word); ("foo::bar + 1", T_word); ("@foo + 1", T_long);
   ("@::foo + 1", T_long); ("@foo::bar + 1", T_long)].
Proof. repeat (constructor; [vm_compute; reflexivity|]). constructor. Qed.
(** Lines 94-117. *)
Definition test_local (i : fullid) : bool :=
  fullid_eqb i (FullId (Some "foo") "local") || fullid_eqb i (FullId None "local") || fullid_eqb i (FullId None "scoped_local").
Definition externals (s : string) : option (list fullid) := match parse_expression s with Ok e => Some (external_names test_local e) | _ => None end.
Example expression_namespaces :
  externals "foo::bar + foo::local + bar::local + foo::scoped_local" =
    Some [FullId (Some "foo") "bar"; FullId (Some "bar") "local"; FullId (Some "foo") "scoped_local"] /\
  externals "bar + local + scoped_local" = Some [FullId (Some "") "bar"].
Proof. vm_compute. auto. Qed.

(** ** nsasm/mnemonic_test.cc *)
Definition names_mnemonic (m : mnemonic) (s : string) : bool :=
  String.eqb (mnem_to_string m) s && match to_mnemonic s with Some k => mnem_eqb k m | None => false end &&
  match to_mnemonic (str_upper s) with Some k => mnem_eqb k m | None => false end.
Example mnemonic_names : forallb (fun '(m, s) => names_mnemonic m s)
  [(M_adc, "adc"); (M_and, "and"); (M_asl, "asl"); (M_bcc, "bcc"); (M_bcs, "bcs"); (M_beq, "beq"); (M_bit, "bit"); (M_bmi, "bmi");
   (M_bne, "bne"); (M_bpl, "bpl"); (M_bra, "bra"); (M_brk, "brk"); (M_brl, "brl"); (M_bvc, "bvc"); (M_bvs, "bvs"); (M_clc, "clc");
   (M_cld, "cld"); (M_cli, "cli"); (M_clv, "clv"); (M_cmp, "cmp"); (M_cop, "cop"); (M_cpx, "cpx"); (M_cpy, "cpy"); (M_dec, "dec");
   (M_dex, "dex"); (M_dey, "dey"); (M_eor, "eor"); (M_inc, "inc"); (M_inx, "inx"); (M_iny, "iny"); (M_jmp, "jmp"); (M_jsl, "jsl");
   (M_jsr, "jsr"); (M_lda, "lda"); (M_ldx, "ldx"); (M_ldy, "ldy"); (M_lsr, "lsr"); (M_mvn, "mvn"); (M_mvp, "mvp"); (M_nop, "nop");
   (M_ora, "ora"); (M_pea, "pea"); (M_pei, "pei"); (M_per, "per"); (M_pha, "pha"); (M_phb, "phb"); (M_phd, "phd"); (M_phk, "phk");
   (M_php, "php"); (M_phx, "phx"); (M_phy, "phy"); (M_pla, "pla"); (M_plb, "plb"); (M_pld, "pld"); (M_plp, "plp"); (M_plx, "plx");
   (M_ply, "ply"); (M_rep, "rep"); (M_rol, "rol"); (M_ror, "ror"); (M_rti, "rti"); (M_rtl, "rtl"); (M_rts, "rts"); (M_sbc, "sbc");
   (M_sec, "sec"); (M_sed, "sed"); (M_sei, "sei"); (M_sep, "sep"); (M_sta, "sta"); (M_stp, "stp"); (M_stx, "stx"); (M_sty, "sty");
   (M_stz, "stz"); (M_tax, "tax"); (M_tay, "tay"); (M_tcd, "tcd"); (M_tcs, "tcs"); (M_tdc, "tdc"); (M_trb, "trb"); (M_tsb, "tsb");
   (M_tsc, "tsc"); (M_tsx, "tsx"); (M_txa, "txa"); (M_txs, "txs"); (M_txy, "txy"); (M_tya, "tya"); (M_tyx, "tyx"); (M_wai, "wai");
   (M_wdm, "wdm"); (M_xba, "xba"); (M_xce, "xce");
   (PM_add, "add"); (PM_sub, "sub")] = true.
Proof. vm_compute. reflexivity. Qed.
Definition names_suffix (m : suffix) (s : string) : bool :=
  String.eqb (suffix_to_string m) s && match to_suffix s with Some k => suffix_eqb k m | None => false end &&
  match to_suffix (str_upper s) with Some k => suffix_eqb k m | None => false end.
Definition names_directive (d : directive_name) (s : string) : bool :=
  String.eqb (dir_to_string d) (str_upper s) && match to_directive_name (str_upper s) with Some k => dir_eqb k d | None => false end &&
  match to_directive_name s with Some k => dir_eqb k d | None => false end.
Example mnemonic_other_names : both [names_suffix S_b ".b"; names_suffix S_w ".w";
  names_directive D_begin ".begin"; names_directive D_db ".db"; names_directive D_dw ".dw"; names_directive D_dl ".dl"; names_directive D_end ".end"; names_directive D_entry ".entry"; names_directive D_equ ".equ"; names_directive D_mode ".mode"; names_directive D_module ".module"; names_directive D_org ".org"] = true /\
  to_mnemonic "" = None /\ to_mnemonic "hcf" = None /\ to_directive_name "" = None /\ to_directive_name ".HCF" = None /\ suffix_to_string S_none = "".
Proof. vm_compute. repeat split. Qed.

(** ** nsasm/opcode_map_test.cc *)
(** Lines 14-244: MakeInstructionMap, the rules applied. *)
Definition instruction_map : list (mnemonic * amode * Z) :=
  [(M_ora, A_ind_bx, 0x01); (M_ora, A_stk, 0x03); (M_ora, A_dir_b, 0x05); (M_ora, A_lng_b, 0x07); (M_ora, A_imm_fm, 0x09);
   (M_ora, A_dir_w, 0x0d); (M_ora, A_dir_l, 0x0f); (M_ora, A_ind_by, 0x11); (M_ora, A_ind_b, 0x12); (M_ora, A_stk_y, 0x13);
   (M_ora, A_dir_bx, 0x15); (M_ora, A_lng_by, 0x17); (M_ora, A_dir_wy, 0x19); (M_ora, A_dir_wx, 0x1d); (M_ora, A_dir_lx, 0x1f);
   (M_and, A_ind_bx, 0x21); (M_and, A_stk, 0x23); (M_and, A_dir_b, 0x25); (M_and, A_lng_b, 0x27); (M_and, A_imm_fm, 0x29);
   (M_and, A_dir_w, 0x2d); (M_and, A_dir_l, 0x2f); (M_and, A_ind_by, 0x31); (M_and, A_ind_b, 0x32); (M_and, A_stk_y, 0x33);
   (M_and, A_dir_bx, 0x35); (M_and, A_lng_by, 0x37); (M_and, A_dir_wy, 0x39); (M_and, A_dir_wx, 0x3d); (M_and, A_dir_lx, 0x3f);
   (M_eor, A_ind_bx, 0x41); (M_eor, A_stk, 0x43); (M_eor, A_dir_b, 0x45); (M_eor, A_lng_b, 0x47); (M_eor, A_imm_fm, 0x49);
   (M_eor, A_dir_w, 0x4d); (M_eor, A_dir_l, 0x4f); (M_eor, A_ind_by, 0x51); (M_eor, A_ind_b, 0x52); (M_eor, A_stk_y, 0x53);
   (M_eor, A_dir_bx, 0x55); (M_eor, A_lng_by, 0x57); (M_eor, A_dir_wy, 0x59); (M_eor, A_dir_wx, 0x5d); (M_eor, A_dir_lx, 0x5f);
   (M_adc, A_ind_bx, 0x61); (M_adc, A_stk, 0x63); (M_adc, A_dir_b, 0x65); (M_adc, A_lng_b, 0x67); (M_adc, A_imm_fm, 0x69);
   (M_adc, A_dir_w, 0x6d); (M_adc, A_dir_l, 0x6f); (M_adc, A_ind_by, 0x71); (M_adc, A_ind_b, 0x72); (M_adc, A_stk_y, 0x73);
   (M_adc, A_dir_bx, 0x75); (M_adc, A_lng_by, 0x77); (M_adc, A_dir_wy, 0x79); (M_adc, A_dir_wx, 0x7d); (M_adc, A_dir_lx, 0x7f);
   (M_lda, A_ind_bx, 0xa1); (M_lda, A_stk, 0xa3); (M_lda, A_dir_b, 0xa5); (M_lda, A_lng_b, 0xa7); (M_lda, A_imm_fm, 0xa9);
   (M_lda, A_dir_w, 0xad); (M_lda, A_dir_l, 0xaf); (M_lda, A_ind_by, 0xb1); (M_lda, A_ind_b, 0xb2); (M_lda, A_stk_y, 0xb3);
   (M_lda, A_dir_bx, 0xb5); (M_lda, A_lng_by, 0xb7); (M_lda, A_dir_wy, 0xb9); (M_lda, A_dir_wx, 0xbd); (M_lda, A_dir_lx, 0xbf);
   (M_cmp, A_ind_bx, 0xc1); (M_cmp, A_stk, 0xc3); (M_cmp, A_dir_b, 0xc5); (M_cmp, A_lng_b, 0xc7); (M_cmp, A_imm_fm, 0xc9);
   (M_cmp, A_dir_w, 0xcd); (M_cmp, A_dir_l, 0xcf); (M_cmp, A_ind_by, 0xd1); (M_cmp, A_ind_b, 0xd2); (M_cmp, A_stk_y, 0xd3);
   (M_cmp, A_dir_bx, 0xd5); (M_cmp, A_lng_by, 0xd7); (M_cmp, A_dir_wy, 0xd9); (M_cmp, A_dir_wx, 0xdd); (M_cmp, A_dir_lx, 0xdf);
   (M_sbc, A_ind_bx, 0xe1); (M_sbc, A_stk, 0xe3); (M_sbc, A_dir_b, 0xe5); (M_sbc, A_lng_b, 0xe7); (M_sbc, A_imm_fm, 0xe9);
   (M_sbc, A_dir_w, 0xed); (M_sbc, A_dir_l, 0xef); (M_sbc, A_ind_by, 0xf1); (M_sbc, A_ind_b, 0xf2); (M_sbc, A_stk_y, 0xf3);
   (M_sbc, A_dir_bx, 0xf5); (M_sbc, A_lng_by, 0xf7); (M_sbc, A_dir_wy, 0xf9); (M_sbc, A_dir_wx, 0xfd); (M_sbc, A_dir_lx, 0xff);
   (M_sta, A_ind_bx, 0x81); (M_sta, A_stk, 0x83); (M_sta, A_dir_b, 0x85); (M_sta, A_lng_b, 0x87); (M_sta, A_dir_w, 0x8d);
   (M_sta, A_dir_l, 0x8f); (M_sta, A_ind_by, 0x91); (M_sta, A_ind_b, 0x92); (M_sta, A_stk_y, 0x93); (M_sta, A_dir_bx, 0x95);
   (M_sta, A_lng_by, 0x97); (M_sta, A_dir_wy, 0x99); (M_sta, A_dir_wx, 0x9d); (M_sta, A_dir_lx, 0x9f); (M_asl, A_dir_b, 0x06);
   (M_asl, A_acc, 0x0a); (M_asl, A_dir_w, 0x0e); (M_asl, A_dir_bx, 0x16); (M_asl, A_dir_wx, 0x1e); (M_rol, A_dir_b, 0x26);
   (M_rol, A_acc, 0x2a); (M_rol, A_dir_w, 0x2e); (M_rol, A_dir_bx, 0x36); (M_rol, A_dir_wx, 0x3e); (M_lsr, A_dir_b, 0x46);
   (M_lsr, A_acc, 0x4a); (M_lsr, A_dir_w, 0x4e); (M_lsr, A_dir_bx, 0x56); (M_lsr, A_dir_wx, 0x5e); (M_ror, A_dir_b, 0x66);
   (M_ror, A_acc, 0x6a); (M_ror, A_dir_w, 0x6e); (M_ror, A_dir_bx, 0x76); (M_ror, A_dir_wx, 0x7e); (M_tsb, A_dir_b, 0x04);
   (M_tsb, A_dir_w, 0x0c); (M_trb, A_dir_b, 0x14); (M_trb, A_dir_w, 0x1c); (M_inc, A_acc, 0x1a); (M_inc, A_dir_b, 0xe6);
   (M_inc, A_dir_w, 0xee); (M_inc, A_dir_bx, 0xf6); (M_inc, A_dir_wx, 0xfe); (M_dec, A_acc, 0x3a); (M_dec, A_dir_b, 0xc6);
   (M_dec, A_dir_w, 0xce); (M_dec, A_dir_bx, 0xd6); (M_dec, A_dir_wx, 0xde); (M_ldx, A_imm_fx, 0xa2); (M_ldx, A_dir_b, 0xa6);
   (M_ldx, A_dir_w, 0xae); (M_ldx, A_dir_by, 0xb6); (M_ldx, A_dir_wy, 0xbe); (M_ldy, A_imm_fx, 0xa0); (M_ldy, A_dir_b, 0xa4);
   (M_ldy, A_dir_w, 0xac); (M_ldy, A_dir_bx, 0xb4); (M_ldy, A_dir_wx, 0xbc); (M_stx, A_dir_b, 0x86); (M_stx, A_dir_w, 0x8e);
   (M_stx, A_dir_by, 0x96); (M_sty, A_dir_b, 0x84); (M_sty, A_dir_w, 0x8c); (M_sty, A_dir_bx, 0x94); (M_cpx, A_imm_fx, 0xe0);
   (M_cpx, A_dir_b, 0xe4); (M_cpx, A_dir_w, 0xec); (M_cpy, A_imm_fx, 0xc0); (M_cpy, A_dir_b, 0xc4); (M_cpy, A_dir_w, 0xcc);
   (M_bcc, A_rel8, 0x90); (M_bcs, A_rel8, 0xb0); (M_beq, A_rel8, 0xf0); (M_bmi, A_rel8, 0x30); (M_bne, A_rel8, 0xd0);
   (M_bpl, A_rel8, 0x10); (M_bra, A_rel8, 0x80); (M_bvc, A_rel8, 0x50); (M_bvs, A_rel8, 0x70); (M_brl, A_rel16, 0x82);
   (M_jmp, A_dir_w, 0x4c); (M_jmp, A_dir_l, 0x5c); (M_jmp, A_ind_w, 0x6c); (M_jmp, A_ind_wx, 0x7c); (M_jmp, A_lng_w, 0xdc);
   (M_jsl, A_dir_l, 0x22); (M_jsr, A_dir_w, 0x20); (M_jsr, A_ind_wx, 0xfc); (M_pea, A_imm_w, 0xf4); (M_pei, A_dir_b, 0xd4);
   (M_per, A_rel16, 0x62); (M_bit, A_dir_b, 0x24); (M_bit, A_dir_w, 0x2c); (M_bit, A_dir_bx, 0x34); (M_bit, A_dir_wx, 0x3c);
   (M_bit, A_imm_fm, 0x89); (M_stz, A_dir_b, 0x64); (M_stz, A_dir_bx, 0x74); (M_stz, A_dir_w, 0x9c); (M_stz, A_dir_wx, 0x9e);
   (M_dex, A_imp, 0xca); (M_dey, A_imp, 0x88); (M_inx, A_imp, 0xe8); (M_iny, A_imp, 0xc8); (M_rtl, A_imp, 0x6b);
   (M_rts, A_imp, 0x60); (M_rti, A_imp, 0x40); (M_clc, A_imp, 0x18); (M_cld, A_imp, 0xd8); (M_cli, A_imp, 0x58);
   (M_clv, A_imp, 0xb8); (M_sec, A_imp, 0x38); (M_sed, A_imp, 0xf8); (M_sei, A_imp, 0x78); (M_nop, A_imp, 0xea);
   (M_pha, A_imp, 0x48); (M_phx, A_imp, 0xda); (M_phy, A_imp, 0x5a); (M_pla, A_imp, 0x68); (M_plx, A_imp, 0xfa);
   (M_ply, A_imp, 0x7a); (M_phb, A_imp, 0x8b); (M_phd, A_imp, 0x0b); (M_phk, A_imp, 0x4b); (M_php, A_imp, 0x08);
   (M_plb, A_imp, 0xab); (M_pld, A_imp, 0x2b); (M_plp, A_imp, 0x28); (M_stp, A_imp, 0xdb); (M_wai, A_imp, 0xcb);
   (M_tax, A_imp, 0xaa); (M_tay, A_imp, 0xa8); (M_tsx, A_imp, 0xba); (M_txa, A_imp, 0x8a); (M_txs, A_imp, 0x9a);
   (M_txy, A_imp, 0x9b); (M_tya, A_imp, 0x98); (M_tyx, A_imp, 0xbb); (M_tcd, A_imp, 0x5b); (M_tcs, A_imp, 0x1b);
   (M_tdc, A_imp, 0x7b); (M_tsc, A_imp, 0x3b); (M_xba, A_imp, 0xeb); (M_xce, A_imp, 0xfb); (M_mvn, A_mov, 0x54);
   (M_mvp, A_mov, 0x44); (M_rep, A_imm_b, 0xc2); (M_sep, A_imm_b, 0xe2); (M_wdm, A_imm_b, 0x42); (M_cop, A_imm_b, 0x02);
   (M_brk, A_imm_b, 0x00)].
Definition map_find (m : mnemonic) (a : amode) : option Z :=
  match find (fun '(n, b, _) => mnem_eqb m n && amode_eqb a b) instruction_map with Some (_, _, op) => Some op | None => None end.
(** Lines 308-332: decode. *)
Example opcode_map_decode :
  forallb (fun '(m, a, op) => let '(n, b) := decode_opcode op in mnem_eqb m n && amode_eqb a b) instruction_map &&
  forallb (fun op => existsb (fun '(_, _, p) => p =? op) instruction_map) every_opcode = true.
Proof. vm_compute. reflexivity. Qed.
(** Lines 334-377: encode. *)
Definition every_mode : list amode :=
  [A_imp; A_acc; A_imm_b; A_imm_w; A_dir_b; A_dir_w; A_dir_l; A_dir_bx; A_dir_by; A_dir_wx; A_dir_wy; A_dir_lx; A_ind_b; A_ind_w; A_ind_bx; A_ind_by; A_ind_wx; A_lng_b; A_lng_w; A_lng_by; A_stk; A_stk_y; A_mov; A_rel8; A_rel16; A_imm_fm; A_imm_fx].
Definition opt_eqb (a b : option Z) : bool := match a, b with Some x, Some y => x =? y | None, None => true | _, _ => false end.
Definition encodes (m : mnemonic) (a : amode) : bool :=
  match m with
  | PM_add | PM_sub => opt_eqb (encode_opcode m a) None
  | _ =>
      let it := match a with
                | A_imm_b | A_imm_w => if imm_uses_m m then map_find m A_imm_fm else if imm_uses_x m then map_find m A_imm_fx else map_find m a
                | _ => map_find m a
                end in
      opt_eqb (encode_opcode m a) it
  end.
Example opcode_map_encode : forallb (fun m => forallb (encodes m) every_mode) all_mnemonics = true.
Proof. vm_compute. reflexivity. Qed.
(** Lines 379-391: controlling_flag. *)
Example opcode_map_flag : forallb (fun op => let '(m, a) := decode_opcode op in
  match a, flag_controlling_size m with
  | A_imm_fx, UsesX => true | A_imm_fm, UsesM => true | A_imm_fx, _ => false | A_imm_fm, _ => false | _, _ => true
  end) every_opcode = true.
Proof. vm_compute. reflexivity. Qed.
(** Lines 246-304 and 393-405: processor_family. *)
Definition expected_family (m : mnemonic) (a : amode) : family :=
  match a with
  | A_dir_l | A_dir_lx | A_lng_b | A_lng_by | A_lng_w | A_stk | A_stk_y | A_rel16 | A_mov => F_65816
  | _ =>
      match m with
      | M_brl | M_cop | M_jsl | M_mvn | M_mvp | M_pea | M_pei | M_per | M_phb | M_phd | M_plb | M_phk | M_pld | M_rep | M_rtl | M_sep
      | M_stp | M_tcd | M_tcs | M_tdc | M_tsc | M_txy | M_tyx | M_wai | M_wdm | M_xba | M_xce => F_65816
      | _ =>
          match m, a with
          | M_jsr, A_ind_wx => F_65816
          | _, A_ind_b | _, A_ind_wx => F_65C02
          | M_bra, _ | M_phx, _ | M_phy, _ | M_plx, _ | M_ply, _ | M_stz, _ | M_trb, _ | M_tsb, _ => F_65C02
          | M_inc, A_acc | M_dec, A_acc => F_65C02
          | M_bit, A_dir_bx | M_bit, A_dir_wx | M_bit, A_imm_fm => F_65C02
          | _, _ => F_6502
          end
      end
  end.
Definition fam_eqb (f g : family) : bool := match f, g with F_6502, F_6502 | F_65C02, F_65C02 | F_65816, F_65816 => true | _, _ => false end.
Example opcode_map_family : forallb (fun op => let '(m, a) := decode_opcode op in fam_eqb (expected_family m a) (family_for_opcode op)) every_opcode = true.
Proof. vm_compute. reflexivity. Qed.

(** ** nsasm/parse_test.cc:12-50 *)
Definition round_trips (op : Z) : bool :=
  let '(m, a) := decode_opcode op in
  let arg1 := match a with
              | A_rel8 | A_rel16 => Some (EId (FullId None "label") T_word)
              | A_imp | A_acc => None
              | _ => Some (mk_lit 0 (arg1_type a))
              end in
  let arg2 := match a with A_mov => Some (mk_lit 0 T_byte) | _ => None end in
  let same x y := match eval_opt null_ctx x, eval_opt null_ctx y with Ok v, Ok w => v =? w | Err _, Err _ => true | _, _ => false end in
  match tokenize (String.append (mnem_to_string m) (args_to_string a arg1 arg2)) with
  | Ok ts =>
      match parse ts with
      | Ok [PStmt (SInstr i)] => mnem_eqb m (i_mnem i) && amode_eqb a (i_mode i) && same arg1 (i_arg1 i) && same arg2 (i_arg2 i)
      | _ => false
      end
  | _ => false
  end.
Example parse_round_trip : forallb round_trips every_opcode = true.
Proof. vm_compute. reflexivity. Qed.

(** ** nsasm/ranges_test.cc *)
(** Claims in turn: the answers, and the chunks in the end. *)
Fixpoint claims (r : list chunk) (l : list (Z * Z)) : list bool * list chunk :=
  match l with
  | [] => ([], r)
  | (a, n) :: l' => match claim_bytes r a n with Ok (b, r') => let (bs, r'') := claims r' l' in (b :: bs, r'') | _ => ([], []) end
  end.
(** Lines 19-35. *)
Example ranges_contains :
  let r := snd (claims [] [(20, 10); (40, 10); (60, 10)]) in
  fst (claims [] [(20, 10); (40, 10); (60, 10)]) = [true; true; true] /\
  forallb (fun k => let i := Z.of_nat k in let digit := i / 10 in
    Bool.eqb (range_contains r i) ((digit =? 2) || (digit =? 4) || (digit =? 6)) && negb (range_contains [] i)) (seq 0 80) = true.
Proof. vm_compute. auto. Qed.
(** Lines 37-81, each in all six orders. *)
Definition six {A} (x y z : A) : list (list A) := [[x; y; z]; [x; z; y]; [y; x; z]; [y; z; x]; [z; x; y]; [z; y; x]].
Example ranges_neighbors :
  map (fun l => claims [] (map (fun a => (a, 10)) l)) (six 20 30 40) = repeat ([true; true; true], [(20, 50)]) 6 /\
  map (fun l => claims [] (map (fun a => (a, 10)) l)) (six 20 40 60) = repeat ([true; true; true], [(20, 30); (40, 50); (60, 70)]) 6 /\
  map (fun l => claims [] (map (fun a => (a, 12)) l)) (six 20 30 40) =
    map (fun l => ([true; nth 2 l 0 =? 30; false], [(20, 52)])) (six 20 30 40).
Proof. vm_compute. auto. Qed.
(** Lines 83-229. *)
Example ranges_complex :
  forallb (fun '(a, n, b, r) => let '(bs, r') := claims [] [(10, 10); (30, 10); (50, 10); (a, n)] in
    both (map (fun '(x, y) => Bool.eqb x y) (combine bs [true; true; true; b])) && Nat.eqb (List.length r) (List.length r') &&
    forallb (fun '((x, y), (z, w)) => (x =? z) && (y =? w)) (combine r r'))
  [(20, 10, true, [(10, 40); (50, 60)]); (15, 15, false, [(10, 40); (50, 60)]); (20, 15, false, [(10, 40); (50, 60)]); (15, 20, false, [(10, 40); (50, 60)]);
   (30, 5, false, [(10, 20); (30, 40); (50, 60)]); (32, 5, false, [(10, 20); (30, 40); (50, 60)]); (35, 5, false, [(10, 20); (30, 40); (50, 60)]); (25, 15, false, [(10, 20); (25, 40); (50, 60)]);
   (30, 15, false, [(10, 20); (30, 45); (50, 60)]); (25, 20, false, [(10, 20); (25, 45); (50, 60)]); (20, 30, false, [(10, 60)]); (15, 40, false, [(10, 60)]);
   (10, 50, false, [(10, 60)]); (10, 60, false, [(10, 70)]); (0, 60, false, [(0, 60)])] = true.
Proof. vm_compute. reflexivity. Qed.
(** Lines 231-263. *)
Example ranges_wrapping :
  claims [] [(0x5fff0, 0x20)] = ([true], [(0x50000, 0x50010); (0x5fff0, 0x60000)]) /\
  claims [] [(0x5fff0, 0x10)] = ([true], [(0x5fff0, 0x60000)]) /\
  claims [] [(0x50000, 0x10)] = ([true], [(0x50000, 0x50010)]) /\
  claims [] [(0x5ffd0, 0x20); (0x5fff0, 0x20); (0x50010, 0x20)] = ([true; true; true], [(0x50000, 0x50030); (0x5ffd0, 0x60000)]).
Proof. vm_compute. auto. Qed.
(** Lines 265-292. *)
Example ranges_map :
  let first := snd (claims [] [(10, 10); (50, 10)]) in
  let second := snd (claims [] [(30, 10); (70, 10)]) in
  let '(ok1, m1) := rm_insert (RangeMap [] []) first 1 in
  let '(ok2, m2) := rm_insert m1 second 2 in
  ok1 && ok2 && forallb (fun k => let i := Z.of_nat k in
    let within a b := (a <=? i) && (i <? b) in
    let expected := if within 10 20 || within 50 60 then Some 1 else if within 30 40 || within 70 80 then Some 2 else None in
    opt_eqb (rm_lookup m2 i) expected && Bool.eqb (rm_contains m2 i) (match expected with Some _ => true | None => false end)) (seq 0 100) = true.
Proof. vm_compute. reflexivity. Qed.

(** ** nsasm/token_test.cc.  Registers and punctuation are their characters; literals are
    compared by value in the tests, here with the type that the value is read with. *)
Definition ch (c : Ascii.ascii) : token := TPunct (code c).
Example token_names :
  tokenize "a b c x y z" = Ok [ch "A"; TIdent "b"; TIdent "c"; ch "X"; ch "Y"; TIdent "z"; TEol] /\
  tokenize "add mul sbc div" = Ok [TMnem PM_add; TIdent "mul"; TMnem M_sbc; TIdent "div"; TEol] /\
  tokenize "import/export yiELds IMPORT/EXPORT" =
    Ok [TIdent "import"; ch "/"; TPunct P_export; TPunct P_yields; TIdent "IMPORT"; ch "/"; TPunct P_export; TEol] /\
  tokenize "$12 $0012 $000012 0x12 0x0012 0x000012 %01100101 %0000000001100101 %000000000000000001100101 12 000012 " =
    Ok [TLit 0x12 T_byte; TLit 0x12 T_word; TLit 0x12 T_long; TLit 0x12 T_byte; TLit 0x12 T_word; TLit 0x12 T_long;
        TLit 101 T_byte; TLit 101 T_word; TLit 101 T_long; TLit 12 T_unknown; TLit 12 T_unknown; TEol] /\
  tokenize "label1 ADC.w ($1234,X)" =
    Ok [TIdent "label1"; TMnem M_adc; TSuffix S_w; ch "("; TLit 0x1234 T_word; ch ","; ch "X"; ch ")"; TEol] /\
  tokenize "label1 JSL @module::func" = Ok [TIdent "label1"; TMnem M_jsl; ch "@"; TIdent "module"; TPunct P_scope; TIdent "func"; TEol] /\
  tokenize "label1 .DB $12, $34, foo" =
    Ok [TIdent "label1"; TDir D_db; TLit 0x12 T_byte; ch ","; TLit 0x34 T_byte; ch ","; TIdent "foo"; TEol] /\
  tokenize "++: BRA -- : --- BRA +++" =
    Ok [TPunct P_plusplus; ch ":"; TMnem M_bra; TPunct P_minusminus; ch ":"; TPunct P_minusminusminus; TMnem M_bra; TPunct P_plusplusplus; TEol].
Proof. vm_compute. repeat split. Qed.
