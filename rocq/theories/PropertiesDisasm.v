(** Properties of the disassembler (nsasm/disassemble.cc). *)
From Verif Require Import Base ModelNumeric ModelAddress ModelExpr ModelMnemonic ModelAMode ModelState ModelInstr ModelMap ModelRom ModelDisasm
  Spec65816 SpecArith SpecInstr SpecState SpecFlow SpecDisasm DisTermProofs DisClosedProofs DisCases.
Open Scope list_scope.
Open Scope Z_scope.

(** ** Images for the cases. *)
Definition native : flags := RawFlags B_off B_unknown B_unknown B_unknown.
Definition narrow : flags := RawFlags B_off B_on B_on B_unknown.
(** SEP #$30; LDA #5; DEC A; BNE -3; JSR $8020; RTS *)
Definition countdown : list Z := [0xE2; 0x30; 0xA9; 0x05; 0x3A; 0xD0; 0xFD; 0x20; 0x20; 0x80; 0x60].
Definition counted : disassembler := fst (after (image countdown) [] [(0x8000, native)]).
Definition far_of (d : disassembler * res (omap flags)) : omap flags := match snd d with Ok m => m | _ => [] end.

(** ** C34.  The disassembler terminates, from every address of every image and in every state
    of the disassembler. *)
Theorem C34_terminates : forall src start f d, (forall a n, src a n <> OutOfFuel) -> 0 <= start <= 2 ^ 24 ->
  exists N, forall fuel, (N <= fuel)%nat -> snd (disassemble fuel src start f d) <> OutOfFuel.
Proof. exact disassemble_terminates. Qed.
Example C34_terminates_case : (forall a n, image countdown a n <> OutOfFuel) /\ snd (disassemble 6 (image countdown) 0x8000 native new_disassembler) = OutOfFuel /\
  is_ok (snd (disassemble 20 (image countdown) 0x8000 native new_disassembler)) = true.
Proof. split; [apply rom_fuel|]. split; vm_compute; reflexivity. Qed.
Print Assumptions C34_terminates.

(** ** C35.  A request that fails leaves the instructions, with their labels, and the
    conventions as they were. *)
Theorem C35_failed : forall src fuel a f d d' r, disassemble fuel src a f d = (d', r) -> (forall far, r <> Ok far) ->
  ds_map d' = ds_map d /\ ds_rets d' = ds_rets d.
Proof. exact failed_request. Qed.
(** A byte further on, the image ends. *)
Example C35_failed_case : exists d', disassemble 1000 (image countdown) 0x8048 narrow counted = (d', Err E_rom_range) /\ List.length (ds_map counted) = 6%nat /\ d' <> counted.
Proof. eexists. split; [vm_compute; reflexivity|]. split; [vm_compute; reflexivity|]. vm_compute. discriminate. Qed.
Print Assumptions C35_failed.

(** ** C36.  Every collected instruction is what its bytes decode to in the recorded state; the
    instruction that follows it is collected, in a state that covers the one it leaves; so is
    the target of a relative branch, which is labelled, and whose state covers that of the
    branch when it is taken. *)
Theorem C36_closed : forall src rets q d pc c, conventions_ok rets -> byte_source src -> session src rets q d -> collected d pc c ->
  exists op rest j n, src pc 4 = Ok (op :: rest) /\ decode (op :: rest) (es_flags (di_cur c)) = Ok j /\
    known_length (es_flags (di_cur c)) op = Some n /\
    (~ stops (di_instr c) -> exists x, collected d (same_bank_plus pc n) x /\ covers (di_cur x) (di_next c)) /\
    (relative_branch (i_mnem j) -> exists t x, branch_destination pc (firstn (Z.to_nat n) (op :: rest)) = Some t /\ collected d t x /\
       di_label x <> ""%string /\ shows (di_label x) (di_instr c) j /\
       forall o k, modes_ok (c_modes k) -> describes o (di_cur c) k -> may_take (i_mnem j) (c_modes k) -> describes o (di_cur x) k) /\
    (~ relative_branch (i_mnem j) -> shows ""%string (di_instr c) j).
Proof. exact closed. Qed.
Example C36_closed_case : conventions_ok [] /\ byte_source (image countdown) /\ session (image countdown) [] [(0x8000, native)] counted /\
  map fst (ds_map counted) = [0x8000; 0x8002; 0x8004; 0x8005; 0x8007; 0x800A].
Proof.
  split; [exact no_conventions|]. split; [apply image_bytes; vm_compute; reflexivity|]. split; [apply after_ok; vm_compute; reflexivity|]. vm_compute. reflexivity.
Qed.
Print Assumptions C36_closed.

(** Whatever the processor does when it enters the image at a requested address in a state of
    which the request is true: wherever it arrives, the instruction is collected, in a state
    that is true of the processor, and with the length with which the processor reads it. *)
Theorem C36_runs : forall src rets q d a f o pc k, conventions_ok rets -> byte_source src -> session src rets q d -> followed d -> In (a, f) q ->
  rom_arrives src rets a f o pc k ->
  exists c op rest, collected d pc c /\ src pc 4 = Ok (op :: rest) /\ describes_modes o (di_cur c) k /\ mnem_to_string (i_mnem (di_instr c)) = op_name op /\
    instruction_length (i_mode (di_instr c)) = cpu_length op (p_m (c_modes k)) (p_x (c_modes k)).
Proof. exact runs. Qed.
(** A processor with wide registers arrives at the loop with narrow ones. *)
Definition wide_cpu : cpu := Cpu (Modes false false false true) 0 0 0 0 [].
Definition narrow_cpu : cpu := Cpu (Modes false true true true) 0 0 0 0 [].
Example C36_runs_case : followed counted /\ rom_arrives (image countdown) [] 0x8000 native wide_cpu 0x8004 narrow_cpu.
Proof.
  split; [apply followed_ok; vm_compute; reflexivity|].
  assert (S1 : rom_arrives (image countdown) [] 0x8000 native wide_cpu 0x8000 wide_cpu) by (constructor; [discriminate|repeat split]).
  assert (S2 : rom_arrives (image countdown) [] 0x8000 native wide_cpu 0x8002 narrow_cpu).
  { eapply (ro_next _ _ _ _ _ 0x8000 wide_cpu narrow_cpu 0xE2 [0x30; 0xA9; 0x05] (Instr M_sep S_none A_imm_b None None RC_default) S1); [vm_compute; reflexivity|split; reflexivity| |split; reflexivity].
    intros [X|X]; cbn in X; [repeat destruct X as [X|X]; try discriminate X; exact X|discriminate X]. }
  eapply (ro_next _ _ _ _ _ 0x8002 narrow_cpu narrow_cpu 0xA9 [0x05; 0x3A; 0xD0] (Instr M_lda S_none A_imm_b None None RC_default) S2); [vm_compute; reflexivity|split; reflexivity| |split; reflexivity].
  intros [X|X]; cbn in X; [repeat destruct X as [X|X]; try discriminate X; exact X|discriminate X].
Qed.
Print Assumptions C36_runs.

(** Requested addresses are collected and labelled, and no label stands at two addresses, as
    long as the counter of generated symbols has not passed an int. *)
Theorem C36_labels : forall src rets q d, conventions_ok rets -> session src rets q d ->
  (forall a f, In (a, f) q -> exists c, collected d a c /\ di_label c <> ""%string) /\
  (ds_sym d < 2 ^ 31 -> forall a b c x, collected d a c -> collected d b x -> di_label c <> ""%string -> di_label c = di_label x -> a = b).
Proof. exact labels. Qed.
Example C36_labels_case : session (image countdown) [] [(0x8000, native)] counted /\ ds_sym counted < 2 ^ 31 /\
  map (fun kv => di_label (snd kv)) (ds_map counted) = ["gensym1"; ""; "gensym2"; ""; ""; ""]%string.
Proof. split; [apply after_ok; vm_compute; reflexivity|]. split; vm_compute; reflexivity. Qed.
Print Assumptions C36_labels.

(** The targets of jumps and calls are not collected, but returned to be requested: if the
    request added the instruction or changed its state, the result has the target, with flags
    that are true of every processor at the instruction.  (The carry, which calls are taken to
    leave unknown, is unknown.) *)
Theorem C36_far : forall src rets q d fuel a f d' far pc c op rest t, conventions_ok rets -> byte_source src -> session src rets q d -> addr24 a -> consistent f ->
  disassemble fuel src a f d = (d', Ok far) -> collected d' pc c -> (forall c0, collected d pc c0 -> di_cur c0 <> di_cur c) ->
  src pc 4 = Ok (op :: rest) -> direct_target pc op rest = Some t -> (forall g, convention rets pc op rest <> RC_yields g) ->
  exists g, om_find t far = Some g /\
    forall o k, modes_ok (c_modes k) -> describes_modes o (di_cur c) k -> flags_describe (c_modes o) g (c_modes k).
Proof. exact far_told_describes. Qed.
Example C36_far_case : exists c, disassemble 1000 (image countdown) 0x8000 native new_disassembler = (counted, Ok [(0x8020, RawFlags B_off B_on B_on B_unknown)]) /\
  collected counted 0x8007 c /\ image countdown 0x8007 4 = Ok [0x20; 0x20; 0x80; 0x60] /\ direct_target 0x8007 0x20 [0x20; 0x80; 0x60] = Some 0x8020.
Proof. eexists. split; [vm_compute; reflexivity|]. split; [vm_compute; reflexivity|]. split; vm_compute; reflexivity. Qed.
Print Assumptions C36_far.

(** So the part of C36 about direct jump targets does not hold as it stands: JMP $8010. *)
Theorem C36_jump_refuted : ~ forall src rets q d pc c op rest t, conventions_ok rets -> byte_source src -> session src rets q d -> collected d pc c ->
  src pc 4 = Ok (op :: rest) -> i_mnem (di_instr c) = M_jmp -> direct_target pc op rest = Some t -> exists x, collected d t x.
Proof.
  intros H. set (src := image [0x4C; 0x10; 0x80]). set (d := fst (after src [] [(0x8000, native)])).
  assert (S : session src [] [(0x8000, native)] d) by (apply after_ok; vm_compute; reflexivity).
  destruct (at_ok d 0x8000 M_jmp S_none (RawFlags B_off B_original B_original B_original) (Live [])) as (c & C & M & _); [vm_compute; reflexivity|].
  destruct (H src [] [(0x8000, native)] d 0x8000 c 0x4C [0x10; 0x80; 0xEA] 0x8010) as (x & X);
    [exact no_conventions|apply image_bytes; vm_compute; reflexivity|exact S|exact C|vm_compute; reflexivity|exact M|vm_compute; reflexivity|].
  vm_compute in X. discriminate X.
Qed.
Print Assumptions C36_jump_refuted.

(** JSR $9000; REP #$20; BRA -7, where the routine at 9000 returns with narrow registers: when
    the call is visited for the second time, now with a wide accumulator too, the flags of the
    target are taken from the state after the call. *)
Definition looping : list Z := [0x20; 0x00; 0x90; 0xC2; 0x20; 0x80; 0xF9].
Definition yielding : omap retconv := [(0x9000, RC_yields narrow)].
Definition mixed_cpu : cpu := Cpu (Modes false false true true) 0 0 0 0 [].
Theorem C36_far_refuted : ~ forall src rets q d fuel a f d' far pc c op rest t, conventions_ok rets -> byte_source src -> session src rets q d -> addr24 a -> consistent f ->
  disassemble fuel src a f d = (d', Ok far) -> collected d' pc c -> (forall c0, collected d pc c0 -> di_cur c0 <> di_cur c) ->
  src pc 4 = Ok (op :: rest) -> direct_target pc op rest = Some t ->
  exists g, om_find t far = Some g /\
    forall o k, modes_ok (c_modes k) -> describes_modes o (di_cur c) k -> flags_describe (c_modes o) g (c_modes k).
Proof.
  intros H. set (src := image looping). set (d0 := add_target_return_conventions yielding new_disassembler).
  set (d := fst (after src yielding [(0x8000, narrow)])). set (far := far_of (after src yielding [(0x8000, narrow)])).
  destruct (at_ok d 0x8000 M_jsr S_none (RawFlags B_off B_unknown B_on B_unknown) (Live [])) as (c & C & _ & _ & F & K); [vm_compute; reflexivity|].
  destruct (H src yielding [] d0 1000%nat 0x8000 narrow d far 0x8000 c 0x20 [0x00; 0x90; 0xC2] 0x9000) as (g & G & X); [| | | | |apply (far_ok src yielding []); vm_compute; reflexivity|exact C| |vm_compute; reflexivity|vm_compute; reflexivity|].
  - apply conv_ok; vm_compute; reflexivity.
  - apply image_bytes; vm_compute; reflexivity.
  - constructor.
  - unfold addr24; lia.
  - apply consistent_ok; vm_compute; reflexivity.
  - intros c0 C0. vm_compute in C0. discriminate C0.
  - assert (E : g = RawFlags B_off B_on B_on B_unknown) by (vm_compute in G; injection G as <-; reflexivity). subst g.
    destruct (X mixed_cpu mixed_cpu) as (_ & Y & _); [discriminate| |discriminate Y]. split; [rewrite F; repeat split|rewrite K; constructor].
Qed.
(** The processor does arrive at the call with a wide accumulator. *)
Example C36_far_refuted_case : rom_arrives (image looping) yielding 0x8000 narrow narrow_cpu 0x8000 mixed_cpu.
Proof.
  assert (S1 : rom_arrives (image looping) yielding 0x8000 narrow narrow_cpu 0x8000 narrow_cpu) by (constructor; [discriminate|repeat split]).
  assert (S2 : rom_arrives (image looping) yielding 0x8000 narrow narrow_cpu 0x8003 narrow_cpu).
  { eapply (ro_next _ _ _ _ _ 0x8000 narrow_cpu narrow_cpu 0x20 [0x00; 0x90; 0xC2] (Instr M_jsr S_none A_dir_w None None (RC_yields narrow)) S1); [vm_compute; reflexivity|split; vm_compute; reflexivity| |repeat split; try discriminate].
    intros [X|X]; cbn in X; [repeat destruct X as [X|X]; try discriminate X; exact X|discriminate X]. }
  assert (S3 : rom_arrives (image looping) yielding 0x8000 narrow narrow_cpu 0x8005 mixed_cpu).
  { eapply (ro_next _ _ _ _ _ 0x8003 narrow_cpu mixed_cpu 0xC2 [0x20; 0x80; 0xF9] (Instr M_rep S_none A_imm_b None None RC_default) S2); [vm_compute; reflexivity|split; vm_compute; reflexivity| |repeat split].
    intros [X|X]; cbn in X; [repeat destruct X as [X|X]; try discriminate X; exact X|discriminate X]. }
  eapply (ro_branch _ _ _ _ _ 0x8005 mixed_cpu mixed_cpu 0x80 [0xF9; 0xEA; 0xEA] (Instr M_bra S_none A_rel8 None None RC_default) _ S3); [vm_compute; reflexivity|split; vm_compute; reflexivity|cbn; tauto|vm_compute; reflexivity|repeat split].
Qed.
Print Assumptions C36_far_refuted.

(** STA $12; RTS, requested first with a narrow and then with a wide accumulator: the suffix of
    the first request stays, although the processor now stores two bytes as well. *)
Theorem C36_suffix_refuted : ~ forall src rets q d pc c o k, conventions_ok rets -> byte_source src -> session src rets q d -> collected d pc c ->
  modes_ok (c_modes k) -> describes_modes o (di_cur c) k -> i_mnem (di_instr c) = M_sta -> i_suffix (di_instr c) = S_b -> p_m (c_modes k) = true.
Proof.
  intros H. set (src := image [0x85; 0x12; 0x60]). set (q := [(0x8000, RawFlags B_off B_off B_on B_unknown); (0x8000, narrow)]). set (d := fst (after src [] q)).
  assert (S : session src [] q d) by (apply after_ok; vm_compute; reflexivity).
  destruct (at_ok d 0x8000 M_sta S_b (RawFlags B_off B_unknown B_on B_original) (Live [])) as (c & C & M & X & F & K); [vm_compute; reflexivity|].
  assert (Y : p_m (c_modes mixed_cpu) = true); [|discriminate Y].
  apply (H src [] q d 0x8000 c mixed_cpu mixed_cpu); [exact no_conventions|apply image_bytes; vm_compute; reflexivity|exact S|exact C|discriminate| |exact M|exact X].
  split; [rewrite F; repeat split|rewrite K; constructor].
Qed.
Print Assumptions C36_suffix_refuted.
