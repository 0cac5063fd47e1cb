(** Properties of util/dumb_disassemble.cc. *)
From Verif Require Import Base ModelNumeric ModelExpr ModelMnemonic ModelAMode ModelState ModelInstr ModelMap ModelRom SpecArith SpecInstr SpecState SpecFlow SpecRom Spec65816 SpecDisasm
  DisCases ModelTools ModelDumb SpecDumb DumbProofs DumbRomProofs.
Open Scope string_scope.
Open Scope list_scope.
Open Scope Z_scope.

(** ** C50.  What is printed: the instructions that follow one another from the start address,
    each with the state handed on to it (behind an instruction that stops, with the state of
    the last branch that leads there); then how the printing ends. *)
Theorem C50_output : forall fuel msg src a f out r, byte_source src -> answers src -> addr24 a ->
  dumb_disassemble fuel msg src a f = (out, r) ->
  exists es pc s lines, listed src a f es pc s /\ prints src es lines /\ finishes msg src a f es pc s lines fuel out r.
Proof. exact dumb_output. Qed.
(** REP #$30; BCC +4; LDA #$1234; RTS; LDX #1; BPL -5; RTS. *)
Definition sample : list Z := [0xC2; 0x30; 0x90; 0x04; 0xA9; 0x34; 0x12; 0x60; 0xA2; 0x01; 0x00; 0x10; 0xFB; 0x60].
Definition open_modes : flags := mk_flags B_off B_unknown B_unknown B_unknown.
Example C50_output_case : byte_source (image sample) /\ answers (image sample) /\
  dumb_disassemble 20 (fun _ => "bad") (image sample) 0x8000 open_modes =
  (["$008000 -                       rep #$30 ; m16x16";
    "$008002 -                          bcc 4 ; m16x16, c=1 to $008008 (new)";
    "$008004 -                     lda #$1234 ; m16x16, c=1";
    "$008007 -                            rts ; m16x16, c=1";
    "$008008 -                     ldx #$0001 ; m16x16, c=1";
    "$00800b -                         bpl -5 ; m16x16, c=1 to $008008 (was m16x16, c=1)";
    "$00800d -                            rts ; m16x16, c=1";
    "End of subroutine.";
    "Earliest branch target $008008 (m16x16, c=1)."], Ok 0) /\
  dumb_disassemble 20 (fun _ => "bad") (image [0x90; 0x02; 0x60]) 0x8000 (mk_flags B_off B_on B_on B_unknown) =
  (["$008000 -                          bcc 2 ; m8x8, c=1 to $008004 (new)";
    "$008002 -                            rts ; m8x8, c=1";
    "Gap found here.  Nearest local jump target is $008004 (m8x8, c=1).";
    "Earliest branch target $008004 (m8x8, c=1)."], Ok 0) /\
  dumb_disassemble 20 (fun _ => "bad") (image [0xA9; 0x02; 0x60]) 0x8000 open_modes = (["$008000 - ERROR: bad"], Ok 1).
Proof. split; [apply image_bytes; vm_compute; reflexivity|]. split; [apply rom_answers|]. split; [vm_compute; reflexivity|]. split; vm_compute; reflexivity. Qed.
Print Assumptions C50_output.

(** A processor that takes no branch executes what is printed up to the first instruction that
    stops, and is in the state that is printed. *)
Theorem C50_straight : forall src a f es pc s o n pc' c, byte_source src -> addr24 a -> listed src a f es pc s ->
  (forall e, In e es -> ~ stops (pr_instr e) /\ tractable e) -> falls src a f o n pc' c ->
  ((n < List.length es)%nat -> exists e, nth_error es n = Some e /\ pr_pc e = pc' /\ describes_modes o (pr_before e) c) /\
  (n = List.length es -> pc = pc' /\ describes_modes o s c).
Proof. exact straight. Qed.
(** The REP of the sample. *)
Definition rep_both : instr := Instr M_rep S_none A_imm_b (Some (mk_lit 0x30 ModelNumeric.T_byte)) None RC_default.
Definition tiny_cpu : cpu := Cpu (Modes false true true true) 0 0 0 0 [].
Definition huge_cpu : cpu := Cpu (Modes false false false true) 0 0 0 0 [].
Definition cleared : estate := upd_flags (fun f => set_x B_off (set_m B_off f)) (estate_of_flags open_modes).
Definition first_rep : printed := Printed 0x8000 rep_both (estate_of_flags open_modes) cleared.
Lemma first_from : from_image (image sample) first_rep 2.
Proof. exists 0xC2, [0x30; 0x90; 0x04]. split; [vm_compute; reflexivity|]. split; [vm_compute; reflexivity|]. split; vm_compute; reflexivity. Qed.
Example C50_straight_case : listed (image sample) 0x8000 open_modes [first_rep] 0x8002 cleared /\
  (forall e, In e [first_rep] -> ~ stops (pr_instr e) /\ tractable e) /\
  falls (image sample) 0x8000 open_modes tiny_cpu 1 0x8002 huge_cpu /\ describes_modes tiny_cpu cleared huge_cpu.
Proof.
  assert (N : ~ stops rep_both) by (intros [X|X]; [cbn in X; repeat destruct X as [X|X]; try discriminate X; exact X|discriminate X]).
  split; [change [first_rep] with ([] ++ [first_rep]); change 0x8002 with (same_bank_plus 0x8000 2); eapply li_next; [constructor|exact first_from|exact N]|].
  split; [intros e [<-|[]]; split; [exact N|split; [reflexivity|discriminate]]|]. split; [|split; [repeat split|constructor]].
  change 0x8002 with (same_bank_plus 0x8000 (cpu_length 0xC2 (p_m (c_modes tiny_cpu)) (p_x (c_modes tiny_cpu)))).
  apply fa_next with (c := tiny_cpu) (rest := [0x30; 0x90; 0x04]) (i := rep_both); [constructor; [discriminate|repeat split]|vm_compute; reflexivity|split; reflexivity|exact N|].
  split; reflexivity.
Qed.
Print Assumptions C50_straight.

(** It ends if somewhere in the bank nothing can be read at four addresses in a row; so it does
    for every LoROM image. *)
Theorem C50_halts : forall fuel msg src a f h, byte_source src -> answers src -> addr24 a -> addr24 h -> bank_of h = bank_of a -> hole src h ->
  2 ^ 16 <= Z.of_nat fuel -> snd (dumb_disassemble fuel msg src a f) <> OutOfFuel.
Proof. exact dumb_halts. Qed.
Theorem C50_halts_lorom : forall fuel msg data a f, bytes_ok data -> addr24 a -> 2 ^ 16 <= Z.of_nat fuel ->
  snd (dumb_disassemble fuel msg (rom_read (Rom LoRom data)) a f) <> OutOfFuel.
Proof. exact lorom_halts. Qed.
Example C50_halts_case : hole (rom_read (Rom LoRom (repeat 0xEA 64))) 0x800000 /\ bank_of 0x800000 = bank_of 0x808000 /\
  snd (dumb_disassemble 10 (fun _ => "") (rom_read (Rom LoRom (repeat 0xEA 64))) 0x808000 open_modes) = OutOfFuel /\
  snd (dumb_disassemble 64 (fun _ => "") (rom_read (Rom LoRom (repeat 0xEA 64))) 0x808000 open_modes) = Ok 1.
Proof. split; [apply (lorom_hole (repeat 0xEA 64) 0x800000); unfold addr24; lia|]. split; [reflexivity|]. split; vm_compute; reflexivity. Qed.
Print Assumptions C50_halts.
Print Assumptions C50_halts_lorom.

(** A HiROM bank of NOPs is printed over and over. *)
Theorem C50_endless_refuted : ~ forall msg src a f, byte_source src -> answers src -> addr24 a ->
  exists fuel, snd (dumb_disassemble fuel msg src a f) <> OutOfFuel.
Proof.
  intros H. destruct (H (fun _ => "") (rom_read nops) 0xC00000 open_modes) as [fuel N]; [apply rom_bytes, nops_bytes|apply rom_answers|unfold addr24; lia|].
  apply N, nops_endless.
Qed.
Print Assumptions C50_endless_refuted.

(** Behind an instruction that stops, the state can be wrong: the carry of a BCC that is not
    taken is carried over to its target. *)
Definition carry_code : list Z := [0x90; 0x01; 0x60; 0xFB].
Definition small_modes : flags := mk_flags B_off B_on B_on B_unknown.
Definition bcc_one : instr := Instr M_bcc S_none A_rel8 (Some (mk_lit 1 ModelNumeric.T_signed_byte)) None RC_default.
Definition rts_plain : instr := Instr M_rts S_none A_imp None None RC_default.
Definition carried : estate := upd_flags (set_c B_on) (estate_of_flags small_modes).
Definition carry_listing : list printed :=
  [Printed 0x8000 bcc_one (estate_of_flags small_modes) carried; Printed 0x8002 rts_plain carried carried].
Theorem C50_resumed_refuted : ~ forall src a f es pc s o c, byte_source src -> addr24 a -> listed src a f es pc s ->
  (forall e, In e es -> tractable e) -> rom_arrives src [] a f o pc c -> describes_modes o s c.
Proof.
  intros H. set (src := image carry_code). set (k := Cpu (Modes false true true false) 0 0 0 0 []).
  assert (BS : byte_source src) by (apply image_bytes; vm_compute; reflexivity).
  assert (F1 : from_image src (Printed 0x8000 bcc_one (estate_of_flags small_modes) carried) 2) by (exists 0x90, [0x01; 0x60; 0xFB]; repeat split; vm_compute; reflexivity).
  assert (F2 : from_image src (Printed 0x8002 rts_plain carried carried) 1) by (exists 0x60, [0xFB; 0xEA; 0xEA]; repeat split; vm_compute; reflexivity).
  assert (N : ~ stops bcc_one) by (intros [X|X]; [cbn in X; repeat destruct X as [X|X]; try discriminate X; exact X|discriminate X]).
  assert (LT : leads_to src (Printed 0x8000 bcc_one (estate_of_flags small_modes) carried) 0x8003).
  { split; [cbn; tauto|]. exists [0x90; 0x01; 0x60; 0xFB]. split; vm_compute; reflexivity. }
  assert (L2 : listed src 0x8000 small_modes carry_listing 0x8003 carried).
  { change carry_listing with (([] ++ [Printed 0x8000 bcc_one (estate_of_flags small_modes) carried]) ++ [Printed 0x8002 rts_plain carried carried]).
    change 0x8003 with (same_bank_plus 0x8002 1). eapply li_resume; [change 0x8002 with (same_bank_plus 0x8000 2); eapply li_next; [constructor|exact F1|exact N]|exact F2|left; cbn; tauto|].
    exists [], (Printed 0x8000 bcc_one (estate_of_flags small_modes) carried), [Printed 0x8002 rts_plain carried carried]. split; [reflexivity|]. split; [exact LT|]. split; [reflexivity|].
    intros x [<-|[]] [RB _]. cbn in RB. repeat destruct RB as [RB|RB]; try discriminate RB; exact RB. }
  assert (D : describes_modes k carried k).
  { apply (H src 0x8000 small_modes carry_listing 0x8003 carried k k BS ltac:(unfold addr24; lia) L2).
    - intros e [<-|[<-|[]]]; (split; [reflexivity|discriminate]).
    - apply ro_branch with (pc := 0x8000) (c := k) (op := 0x90) (rest := [0x01; 0x60; 0xFB]) (i := bcc_one);
        [constructor; [discriminate|repeat split]|vm_compute; reflexivity|split; reflexivity|cbn; tauto|vm_compute; reflexivity|repeat split]. }
  destruct D as [(_ & _ & _ & C) _]. discriminate C.
Qed.
Print Assumptions C50_resumed_refuted.
