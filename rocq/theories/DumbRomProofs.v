(** The printing of util/dumb_disassemble.cc for cartridge images: where it ends, and where it
    does not. *)
From Verif Require Import TermProofs Base ModelNumeric ModelAddress ModelExpr ModelMnemonic ModelAMode ModelOpcode ModelState ModelInstr ModelMap ModelRom ModelDisasm
  Spec65816 SpecArith SpecInstr SpecState SpecFlow SpecDisasm SpecRom BaseProofs ArithProofs StateProofs RomProofs RomLongProofs DisCases ToolProofs ModelTools ModelDumb SpecDumb DumbProofs.
Open Scope list_scope.
Open Scope Z_scope.

Lemma rom_answers : forall r, answers (rom_read r).
Proof. intros r a A. apply (rom_read_exact r a 4 A). lia. Qed.

(** The lower half of a bank is not part of a LoROM. *)
Lemma lorom_hole : forall data a, addr24 a -> hole (rom_read (Rom LoRom data)) (bank_of a * 2 ^ 16).
Proof.
  intros data a A k K. set (p := same_bank_plus (bank_of a * 2 ^ 16) k).
  assert (AB : addr24 (bank_of a * 2 ^ 16)) by (unfold addr24, bank_of in *; change (2 ^ 16) with 65536; change (2 ^ 24) with 16777216 in *; pose proof (Z.div_pos a 65536); pose proof (Z.div_lt_upper_bound a 65536 256); lia).
  assert (AP : addr24 p) by (apply same_bank_plus_24; exact AB).
  destruct (rom_read_exact (Rom LoRom data) p 4 AP ltac:(lia)) as [EQ [[l H]|E]]; [|exact E]. exfalso.
  pose proof (proj1 (rom_read_succeeds (Rom LoRom data) p 4 AP ltac:(lia)) (ex_intro _ l H) 0 ltac:(lia)) as (b & off & SR & _). cbn [rom_mapping] in SR.
  assert (PO : offset_of (same_bank_plus p 0) = k).
  { unfold p. rewrite bank_steps. unfold same_bank_plus, bank_of, offset_of. change (2 ^ 16) with 65536. rewrite Z.mod_mul, Z.div_mul by lia.
    rewrite Z.add_0_l, Z.add_0_r, (Z.mod_small k) by lia. rewrite Z.add_comm, Z.mod_add by lia. apply Z.mod_small. lia. }
  apply (proj1 (mapping_full LoRom (same_bank_plus p 0) ltac:(apply same_bank_plus_24; exact AP) ltac:(discriminate))) in SR. inversion SR as [x CA LO E1 E2| |]. rewrite PO in LO. lia.
Qed.
Lemma lorom_halts : forall fuel msg data a f, bytes_ok data -> addr24 a -> 2 ^ 16 <= Z.of_nat fuel ->
  snd (dumb_disassemble fuel msg (rom_read (Rom LoRom data)) a f) <> OutOfFuel.
Proof.
  intros fuel msg data a f B A L. apply dumb_halts with (h := bank_of a * 2 ^ 16); [apply rom_bytes; exact B|apply rom_answers|exact A| | |apply lorom_hole; exact A|exact L].
  - unfold addr24, bank_of in *. change (2 ^ 16) with 65536; change (2 ^ 24) with 16777216 in *; pose proof (Z.div_pos a 65536); pose proof (Z.div_lt_upper_bound a 65536 256); lia.
  - unfold bank_of. change (2 ^ 16) with 65536. rewrite Z.div_mul by lia. reflexivity.
Qed.

(** A HiROM of 64 KiB of NOP. *)
Definition nops : rom := Rom HiRom (repeat 0xEA (Z.to_nat 65536)).
Lemma nops_read : forall a, addr24 a -> bank_of a = 0xC0 -> rom_read nops a 4 = Ok [0xEA; 0xEA; 0xEA; 0xEA].
Proof.
  intros a A BK. apply (rom_read_exact nops a 4 A ltac:(lia)). split; [reflexivity|]. intros k b NB.
  assert (b = 0xEA) as ->. { unfold nth_byte in NB. destruct (_ && _) eqn:R; [|discriminate NB]. injection NB as <-. apply andb_true_iff in R. cbn [List.length] in R.
    assert (K : k = 0 \/ k = 1 \/ k = 2 \/ k = 3) by lia. destruct K as [->|[->|[->| ->]]]; reflexivity. }
  set (p := same_bank_plus a k). assert (AP : addr24 p) by (apply same_bank_plus_24; exact A).
  assert (BP : bank_of p = 0xC0). { unfold p, same_bank_plus. rewrite BK. unfold bank_of, offset_of. change (2 ^ 16) with 65536. pose proof (Z.mod_pos_bound (a mod 65536 + k) 65536 ltac:(lia)).
    rewrite Z.add_comm, Z.div_add, Z.div_small by lia. reflexivity. }
  exists (offset_of p). cbn [rom_mapping rom_data nops]. split.
  - apply (proj1 (mapping_full HiRom p AP ltac:(discriminate))).
    replace (offset_of p) with ((bank_of p mod 0x40) * 2 ^ 16 + offset_of p) by (rewrite BP; reflexivity). constructor. split; [lia|]. split; [lia|]. right. right. lia.
  - unfold nth_byte. rewrite repeat_length, Z2Nat.id by lia. assert (O : 0 <= offset_of p < 65536) by (unfold offset_of; apply Z.mod_pos_bound; lia).
    destruct (Z.leb_spec 0 (offset_of p)); [|lia]. destruct (Z.ltb_spec (offset_of p) 65536); [|lia]. cbn [andb]. f_equal.
    apply repeat_spec with (n := Z.to_nat 65536), nth_In. rewrite repeat_length. apply Z2Nat.inj_lt; lia.
Qed.

Lemma nops_loop : forall fuel msg a s, addr24 a -> bank_of a = 0xC0 -> snd (dumb_loop fuel msg (rom_read nops) (Dumb a s [])) = OutOfFuel.
Proof.
  induction fuel as [|fuel IH]; intros msg a s A BK; [reflexivity|]. cbn [dumb_loop]. unfold dumb_step. cbn [du_pc du_state du_jumps]. rewrite (nops_read a A BK). cbn [bind].
  assert (D : decode [0xEA; 0xEA; 0xEA; 0xEA] (es_flags s) = Ok (Instr M_nop S_none A_imp None None RC_default)) by reflexivity. rewrite D. cbn [bind].
  assert (X : execute (Instr M_nop S_none A_imp None None RC_default) s = Ok s) by (destruct s; reflexivity). rewrite X. cbn [bind]. cbv zeta.
  change (is_local_branch _) with false. cbv iota. unfold dumb_next. change (is_exit_instruction _) with false. cbv iota.
  change (instruction_length _) with 1. specialize (IH msg (add_wrapped a 1) s). destruct (dumb_loop fuel msg (rom_read nops) (Dumb (add_wrapped a 1) s [])) as [more r]. cbn [snd] in *. apply IH.
  - rewrite add_wrapped_spec by exact A. apply same_bank_plus_24. exact A.
  - rewrite add_wrapped_spec by exact A. unfold same_bank_plus. rewrite BK. unfold bank_of, offset_of. change (2 ^ 16) with 65536. pose proof (Z.mod_pos_bound (a mod 65536 + 1) 65536 ltac:(lia)).
    rewrite Z.add_comm, Z.div_add, Z.div_small by lia. reflexivity.
Qed.
Lemma nops_endless : forall fuel msg f, snd (dumb_disassemble fuel msg (rom_read nops) 0xC00000 f) = OutOfFuel.
Proof. intros fuel msg f. unfold dumb_disassemble. change (mk_address 0xC00000) with (Ok 0xC00000). apply nops_loop; [unfold addr24; lia|reflexivity]. Qed.
Lemma nops_bytes : bytes_ok (rom_data nops).
Proof. apply Forall_forall. intros b IN. cbn [nops rom_data] in IN. apply repeat_spec in IN. subst b. lia. Qed.
