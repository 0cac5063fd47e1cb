(** Properties of the messages about status flags. *)
From Verif Require Import BaseProofs ModelNumeric ModelAddress ModelMnemonic ModelExpr ModelAMode ModelOpcode
  ModelState ModelInstr ModelToken ModelStatement ModelParse ModelMap ModelModule ModelAssembler ModelRom ModelTools ModelLocation ModelRomText ModelParseText ModelFlagText
  SpecScope SpecInstr SpecLayout SpecAssemble SpecLocation SpecParseText SpecFlagText FlagTextProofs RemedyProofs FlagProgramProofs.
Open Scope string_scope.
Open Scope list_scope.
Open Scope Z_scope.

(** C76.  The checks with messages are the checks of the other properties. *)
Theorem C76_same : forall i f, SpecParseText.bare (t_check_consistency i f) = check_consistency i f /\ SpecParseText.bare (t_fix_addressing_mode i f) = fix_addressing_mode i f.
Proof. exact (fun i f => conj (bare_check i f) (bare_fix i f)). Qed.
Example C76_same_case : let i := Instr M_lda S_none A_imm_fm (Some (ELit 1 T_unknown)) None RC_default in
  check_consistency i (RawFlags B_off B_unknown B_on B_off) = Err E_unknown_size /\ fix_addressing_mode i (RawFlags B_off B_off B_on B_off) = Ok (with_mode A_imm_w i).
Proof. vm_compute. split; reflexivity. Qed.
Print Assumptions C76_same.

(** C76.  A message about the flags names the instruction, says something of a flag, and whatever it says is so. *)
Theorem C76_truth : forall i f e, t_check_consistency i f = PErr e \/ t_fix_addressing_mode i f = PErr e -> re_kind e <> E_logic ->
  mentions (re_text e) (mnem_to_string (i_mnem i)) /\ true_of (re_text e) f.
Proof. exact said_truly. Qed.
Example C76_truth_case : let said i f := match t_check_consistency i f with PErr e => re_text e | _ => "" end in
  let i s a := Instr M_ldx s a (Some (ELit 1 T_unknown)) None RC_default in
  let fl x := RawFlags B_off B_on x B_off in
  map (fun c => said (i (fst (fst c)) (snd (fst c))) (fl (snd c))) [(S_w, A_dir_b, B_on); (S_b, A_dir_b, B_off); (S_none, A_imm_w, B_on); (S_none, A_imm_b, B_off); (S_none, A_imm_fx, B_original); (S_w, A_dir_b, B_off)]
  = ["Instruction ldx.w uses the `w` suffix, but the `x` flag is set here, which causes an 8-bit access.";
     "Instruction ldx.b uses the `b` suffix, but the `x` flag is unset here, which causes a 16-bit access.";
     "instruction ldx has 16-bit immediate argument, but `x` status flag is on here (so an 8-bit argument is required)";
     "instruction ldx has 8-bit immediate argument, but `x` status flag is off here (so a 16-bit argument is required)";
     "instruction ldx with immediate argument depends on `x` flag state, which is unknown here"; ""].
Proof. vm_compute. reflexivity. Qed.
Print Assumptions C76_truth.

(** C76.  What such a message says is required is enough: an argument of the width that it asks for, a suffix for the access that it
    describes (other arguments than immediate ones), or a known state of the flag that it names, whatever the other flags are. *)
Theorem C76_remedy : forall i f e, t_check_consistency i f = PErr e -> re_kind e <> E_logic ->
  (ends (re_text e) "(so an 8-bit argument is required)" -> t_check_consistency (with_mode A_imm_b i) f = POk tt) /\
  (ends (re_text e) "(so a 16-bit argument is required)" -> t_check_consistency (with_mode A_imm_w i) f = POk tt) /\
  (ends (re_text e) "which causes an 8-bit access." -> ~ immediate (i_mode i) -> t_check_consistency (with_suffix S_b i) f = POk tt) /\
  (ends (re_text e) "which causes a 16-bit access." -> ~ immediate (i_mode i) -> t_check_consistency (with_suffix S_w i) f = POk tt) /\
  (forall c state, In (c, state) width_flags -> ends (re_text e) ("`" ++ c ++ "` flag state, which is unknown here") ->
     forall f' e', bit_known (state f') = true -> t_check_consistency i f' = PErr e' -> re_kind e' <> E_unknown_size).
Proof. exact remedied. Qed.
Example C76_remedy_case : let i s a := Instr M_cmp s a (Some (ELit 1 T_unknown)) None RC_default in let fl m := RawFlags B_off m B_unknown B_off in
  map (fun c => SpecParseText.bare (t_check_consistency (i (fst (fst c)) (snd (fst c))) (fl (snd c))))
    [(S_none, A_imm_w, B_on); (S_none, A_imm_b, B_on); (S_w, A_dir_l, B_on); (S_b, A_dir_l, B_on); (S_none, A_imm_fm, B_unknown); (S_none, A_imm_fm, B_on)]
  = [Err E_flag_mismatch; Ok tt; Err E_flag_mismatch; Ok tt; Err E_unknown_size; Ok tt].
Proof. vm_compute. reflexivity. Qed.
Print Assumptions C76_remedy.

(** C76.  A program rejected for the state of a flag: there is an instruction on a line of a file, and flags, such that the message
    is that of the instruction (perhaps with the width of its argument settled) with those flags, so that C76_truth applies, and what is
    printed is the name of the file, the number of the line and the message. *)
Theorem C76_program : forall fuel sk files ws e l, Forall (fun f => fst f <> "") files ->
  (forall ws w k p, sk ws w = LErr k p -> ~ In k [E_flag_mismatch; E_unknown_size]) ->
  lassemble fuel sk files = (ws, LErr e l) -> In e [E_flag_mismatch; E_unknown_size] ->
  exists path file src n before labels i after i' f er, In (path, file) files /\ reads file src /\ src = before ++ (labels, SInstr i) :: after /\
    stands file (Z.of_nat (List.length before)) n /\ widened (SInstr i) (SInstr i') /\
    (t_check_consistency i' f = PErr er \/ t_fix_addressing_mode i' f = PErr er) /\ re_kind er = e /\
    error_to_string l (re_text er) = (path ++ ":" ++ dec_string n ++ ": " ++ re_text er)%string.
Proof.
  intros fuel sk files ws e l NE SK H I. apply (flags_blamed fuel sk files ws e l NE); [|exact H|].
  - intros ws0 w k p X. apply SK in X. destruct k; try reflexivity; destruct X; cbn; tauto.
  - destruct I as [<-|[<-|[]]]; reflexivity.
Qed.
Example C76_program_case :
  let said file := match lassemble 9 (fun _ _ => LOk tt) [("main.asm", file)] with (_, LErr e l) => Some (e, error_to_string l "") | _ => None end in
  map said [[" .org 0x8000"; "start: .entry m8x8"; " lda.w 0x10"; " rts"]; [" .org 0x8000"; "start: .entry m8x8"; " plp"; " lda #1"; " rts"]; [" .org 0x8000"; "start: .entry m8x8"; " lda.b 0x10"; " rts"]]
  = [Some (E_flag_mismatch, "main.asm:3: "); Some (E_unknown_size, "main.asm:4: "); None].
Proof. vm_compute. reflexivity. Qed.
Print Assumptions C76_program.
