(** Properties of the messages about branches to nowhere, and lines that are not reached or have no address. *)
From Verif Require Import BaseProofs ModelNumeric ModelAddress ModelMnemonic ModelExpr ModelAMode ModelOpcode
  ModelState ModelInstr ModelToken ModelStatement ModelParse ModelMap ModelModule ModelAssembler ModelLocation ModelRomText ModelParseText ModelFlowText
  Spec65816 SpecScope SpecInstr SpecLayout SpecAssemble SpecState SpecLocation FlowTextProofs.
Open Scope string_scope.
Open Scope list_scope.
Open Scope Z_scope.

(** C81.  A program rejected for a branch to nowhere, or a line that is not reached or has no address: what is printed is the file and the line of a statement, and
    what is said of it is so.  The target that the message names is the operand of the branch, and no line is denoted by it there; the line that is not reached has an
    instruction; the line without an address has bytes, and no .org is on it or before it. *)
Theorem C81_program : forall fuel sk files ws e l, Forall (fun f => fst f <> "") files ->
  (forall ws w k p, sk ws w = LErr k p -> ~ In k [E_no_target; E_unreached; E_no_address]) ->
  lassemble fuel sk files = (ws, LErr e l) -> In e [E_no_target; E_unreached; E_no_address] ->
  exists path file src n before labels s after s', In (path, file) files /\ reads file src /\ src = before ++ (labels, s) :: after /\
    stands file (Z.of_nat (List.length before)) n /\ widened s s' /\
    ((e = E_no_target /\ exists i x ty, s = SInstr i /\ relative_branch (i_mnem i) /\ i_arg1 i = Some (EId (FullId None x) ty) /\
        (forall t, ~ denotes src (Z.of_nat (List.length before)) x t) /\ flow_text e s = ("Target for `" ++ mnem_to_string (i_mnem i) ++ " " ++ x ++ "` not found")%string) \/
     (e = E_unreached /\ (exists i, s = SInstr i) /\ flow_text e s = "Line not reached during execution") \/
     (e = E_no_address /\ 0 < stmt_size s' /\ (forall y, In y (map snd before ++ [s]) -> ~ is_dir D_org y) /\ flow_text e s = "No address given for assembly")) /\
    error_to_string l (flow_text e s) = (path ++ ":" ++ dec_string n ++ ": " ++ flow_text e s)%string.
Proof.
  intros fuel sk files ws e l NE SK H I. apply (flow_blamed fuel sk files ws e l NE); [|exact H|].
  - intros ws0 w k p X. apply SK in X. destruct k; try reflexivity; destruct X; cbn; tauto.
  - destruct I as [<-|[<-|[<-|[]]]]; reflexivity.
Qed.
Example C81_program_case :
  let said file := match lassemble 9 (fun _ _ => LOk tt) [("main.asm", file)] with (_, LErr e l) => Some (e, error_to_string l "") | _ => None end in
  map said [[" .org 0x8000"; "start: .entry m8x8"; " bne foo"; " rts"]; [" .org 0x8000"; "start: .entry m8x8"; " rts"; " nop"]; ["start: .entry m8x8"; " rts"; " .org 0x8000"]; [" .org 0x8000"; "start: .entry m8x8"; " bne start"; " rts"]]
  = [Some (E_no_target, "main.asm:3: "); Some (E_unreached, "main.asm:4: "); Some (E_no_address, "main.asm:2: "); None] /\
  flow_text E_no_target (SInstr (Instr M_bne S_none A_rel8 (Some (EId (FullId None "foo") T_word)) None RC_default)) = "Target for `bne foo` not found".
Proof. vm_compute. split; reflexivity. Qed.
Print Assumptions C81_program.
