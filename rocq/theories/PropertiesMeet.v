(** Property C65: disassembling what was assembled finds the instructions of the source. *)
From Verif Require Import Base ModelNumeric ModelExpr ModelMnemonic ModelAMode ModelState ModelInstr ModelStatement ModelMap ModelModule ModelAssembler ModelRom ModelDisasm ModelTools
  Spec65816 SpecArith SpecInstr SpecRom SpecScope SpecLayout SpecState SpecAssemble SpecFlow SpecStable SpecDisasm SpecListing SpecRun SpecSink SpecMeet
  ScopeProofs FlowCases RunProofs RunCases DisCases MainToolProofs MeetProofs CircleProofs ToolProofs PropertiesListing PropertiesRun.
Open Scope string_scope.
Open Scope list_scope.
Open Scope Z_scope.

(** C65.  A program was assembled, its bytes are in the memory of which the disassembler is
    given an image, and the disassembler was asked for every .entry, with the flags written
    there and with the conventions that the source writes at its calls.  Then for every
    instruction of the source that can be reached, the bytes that were assembled for it are in
    the disassembly as one instruction with its mnemonic (for ADD and SUB: as CLC and ADC, or
    SEC and SBC). *)
Theorem C65_found : forall fuel sk files ws a n file m src o mem img rets q d k i c, assemble fuel sk files = (ws, Ok a) -> nth_error files n = Some file ->
  nth_error (as_mods a) n = Some m -> SpecScope.reads file src -> tracked src -> fenced src -> predictable src m -> in_memory ws mem -> modes_true src o -> status_known src ->
  pictures img mem -> byte_source img -> conventions_ok rets -> session img rets q d -> followed d -> calls_true src m (told rets mem) ->
  (forall k0 d0 a0, stmt_at src k0 (SDir d0) -> d_name d0 = D_entry -> stands m k0 a0 -> In (a0, d_flags d0) q) ->
  arrives src o k c -> stmt_at src k (SInstr i) ->
  exists pc b, stands m k pc /\ In (pc, b) ws /\ listed img d pc (machine_names (i_mnem i)) b.
Proof. exact source_found. Qed.
(** The same for a source that quick_assemble finds to agree with an image, and the
    disassembly of the same image. *)
Theorem C65_rom : forall fuel r files ws a n file m src o mem rets q d k i c, assemble fuel (identity_sink r) files = (ws, Ok a) -> nth_error files n = Some file ->
  nth_error (as_mods a) n = Some m -> SpecScope.reads file src -> tracked src -> fenced src -> predictable src m -> bytes_ok (rom_data r) -> cartridge r mem -> modes_true src o -> status_known src ->
  conventions_ok rets -> session (rom_read r) rets q d -> followed d -> calls_true src m (told rets mem) ->
  (forall k0 d0 a0, stmt_at src k0 (SDir d0) -> d_name d0 = D_entry -> stands m k0 a0 -> In (a0, d_flags d0) q) ->
  arrives src o k c -> stmt_at src k (SInstr i) ->
  exists pc b, stands m k pc /\ In (pc, b) ws /\ listed (rom_read r) d pc (machine_names (i_mnem i)) b.
Proof. exact rom_found. Qed.

(** The loop of C64 in a cartridge. *)
Definition adding_code : list Z := [0x08; 0xC2; 0x30; 0x18; 0x69; 0x02; 0x01; 0x28; 0xD0; 0xF6; 0x60].
Definition adding_rom : rom := Rom LoRom (adding_code ++ repeat 0xEA 64).
Definition held (r : rom) : memory := fun a =>
  match snes_to_rom a (rom_mapping r) with Ok off => match nth_byte (rom_data r) off with Some b => b | None => 0 end | _ => 0 end.
Lemma held_ok : forall r, cartridge r (held r).
Proof. intros r a b _ (off & O & B). unfold held. rewrite O, B. reflexivity. Qed.
Lemma told_nothing : forall mem pc, told [] mem pc = RC_default.
Proof. intros mem pc. unfold told, convention. destruct (direct_target _ _ _); [|reflexivity]. destruct (in_names _ _); reflexivity. Qed.
Lemma same_outcome : forall A B (x y : A) (a b : B), (x, Ok a) = (y, Ok b) -> x = y /\ a = b.
Proof. intros A B x y a b H. injection H as -> ->. auto. Qed.
Definition adding_listed : disassembler := fst (after (image adding_code) [] [(0x8000, d_flags entered)]).
Example C65_case : exists ws a m i, assemble 99 (identity_sink adding_rom) [adding] = (ws, Ok a) /\ nth_error (as_mods a) 0 = Some m /\
  SpecScope.reads adding (source_of adding) /\ tracked (source_of adding) /\ fenced (source_of adding) /\ predictable (source_of adding) m /\ bytes_ok (rom_data adding_rom) /\
  cartridge adding_rom (held adding_rom) /\ modes_true (source_of adding) narrow /\ status_known (source_of adding) /\
  in_memory ws (held adding_rom) /\ pictures (rom_read adding_rom) (held adding_rom) /\ byte_source (rom_read adding_rom) /\
  conventions_ok [] /\ session (rom_read adding_rom) [] [(0x8000, d_flags entered)] adding_listed /\ followed adding_listed /\ calls_true (source_of adding) m (told [] (held adding_rom)) /\
  (forall k0 d0 a0, stmt_at (source_of adding) k0 (SDir d0) -> d_name d0 = D_entry -> stands m k0 a0 -> In (a0, d_flags d0) [(0x8000, d_flags entered)]) /\
  arrives (source_of adding) narrow 4 wide /\ stmt_at (source_of adding) 4 (SInstr i) /\ i_mnem i = PM_add /\
  map fst (ds_map adding_listed) = [0x8000; 0x8001; 0x8003; 0x8004; 0x8007; 0x8008; 0x800A].
Proof.
  destruct (assembled_in adding) as (a & m & A & M & L); [vm_compute; discriminate|]. destruct adding_arrives as (i & SI & MI & AI). exists (written_by adding), a, m, i.
  assert (AI' : assemble 99 (identity_sink adding_rom) [adding] = (written_by adding, Ok a)).
  { assert (X : is_ok (snd (assemble 99 (identity_sink adding_rom) [adding])) = true) by (vm_compute; reflexivity).
    destruct (assemble 99 (identity_sink adding_rom) [adding]) as [ws' [a'|e|u|]] eqn:Y; try discriminate X. pose proof (proj1 (proj1 (compared _ _ _ _ _) Y)) as Z.
    change (assemble 99 takes_all [adding]) with (assemble 99 any [adding]) in Z. rewrite A in Z. destruct (same_outcome _ _ _ _ _ _ Z) as [-> ->]. reflexivity. }
  split; [exact AI'|]. split; [exact M|].
  assert (R : SpecScope.reads adding (source_of adding)) by (apply source_of_ok; vm_compute; reflexivity). split; [exact R|].
  split; [apply tracked_ok; vm_compute; reflexivity|]. destruct (plain_ok (source_of adding) m narrow) as (P1 & P2 & P3); [vm_compute; reflexivity|]. split; [exact P1|].
  split; [do 3 right; rewrite L; apply (stable_ok _ _ _ R); vm_compute; reflexivity|].
  assert (B : bytes_ok (rom_data adding_rom)) by (apply bytes_b_ok; vm_compute; reflexivity). split; [exact B|]. split; [apply held_ok|]. split; [exact P2|]. split; [apply adding_status|].
  destruct (cartridge_holds _ _ _ _ _ _ AI' (held_ok adding_rom)) as [IM PI]. split; [exact IM|]. split; [exact PI|]. split; [apply rom_bytes; exact B|].
  split; [exact no_conventions|]. split; [apply after_ok; vm_compute; reflexivity|]. split; [apply followed_ok; vm_compute; reflexivity|].
  split; [intros k j pc SK ST; rewrite told_nothing; exact (P3 k j pc SK ST)|]. split.
  - intros k0 d0 a0 ST DN SD. left. assert (K : k0 = 1%nat /\ d0 = entered).
    { do 8 (destruct k0 as [|k0]; [vm_compute in ST; (discriminate ST || injection ST as <-); first [discriminate DN|split; reflexivity]|]). destruct k0; discriminate ST. }
    destruct K as [-> ->]. assert (SX : stands m 1 0x8000) by (apply (stand_ok _ _ _ _ _ A M L); vm_compute; reflexivity).
    destruct (stands_line _ _ _ SX) as [l LX].
    assert (NE : forall d, ln_stmt l = SDir d -> d_name d <> D_equ) by (intros d DE; rewrite L in LX; vm_compute in LX; injection LX as <-; injection DE as <-; discriminate).
    apply (stands_at _ _ _ _ _ _ A M LX NE) in SX, SD. congruence.
  - split; [exact AI|]. split; [exact SI|]. split; [exact MI|]. vm_compute. reflexivity.
Qed.
Print Assumptions C65_found.
Print Assumptions C65_rom.

(** All the way round: if the listing of that disassembly is assembled, it writes every byte
    again that was assembled for an instruction that can be reached. *)
Theorem C65_circle : forall fuel sk files ws a n file m src o mem img rets q d k i c d' fuel' sk' ws' asm, assemble fuel sk files = (ws, Ok a) -> nth_error files n = Some file ->
  nth_error (as_mods a) n = Some m -> SpecScope.reads file src -> tracked src -> fenced src -> predictable src m -> in_memory ws mem -> modes_true src o -> status_known src ->
  pictures img mem -> byte_source img -> conventions_ok rets -> session img rets q d -> followed d -> calls_true src m (told rets mem) ->
  (forall k0 d0 a0, stmt_at src k0 (SDir d0) -> d_name d0 = D_entry -> stands m k0 a0 -> In (a0, d_flags d0) q) ->
  arrives src o k c -> stmt_at src k (SInstr i) ->
  SpecListing.readable rets -> ds_sym d < 2 ^ 31 -> cleanup d = Ok d' -> assemble fuel' sk' [ModelTools.listing (ds_map d')] = (ws', Ok asm) ->
  exists pc b, stands m k pc /\ In (pc, b) ws /\
    forall j x, nth_error b j = Some x -> exists w l, In w ws' /\ nth_error (snd w) l = Some x /\ same_bank_plus (fst w) (Z.of_nat l) = same_bank_plus pc (Z.of_nat j).
Proof. exact source_again. Qed.
(** Here the listing is the source again, with another label and with the suffixes written out. *)
Example C65_circle_case : SpecListing.readable [] /\ ds_sym adding_listed < 2 ^ 31 /\ cleanup adding_listed = Ok (clean_of adding_listed) /\
  exists asm, assemble 99 takes_all [ModelTools.listing (ds_map (clean_of adding_listed))] = (written_by adding, Ok asm).
Proof. split; [exact none_readable|]. split; [vm_compute; reflexivity|]. split; [apply clean_is; vm_compute; reflexivity|]. eexists. vm_compute. reflexivity. Qed.
Print Assumptions C65_circle.
