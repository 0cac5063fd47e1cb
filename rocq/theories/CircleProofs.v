(** Assembling, disassembling and assembling again. *)
From Verif Require Import Base ModelNumeric ModelExpr ModelMnemonic ModelAMode ModelOpcode ModelState ModelInstr ModelStatement ModelMap ModelModule ModelAssembler ModelRom ModelDisasm ModelTools
  Spec65816 SpecArith SpecText SpecInstr SpecRom SpecScope SpecLayout SpecState SpecAssemble SpecFlow SpecStable SpecDisasm SpecListing SpecRun SpecMeet
  BaseProofs MapProofs ArithProofs InstrProofs AssembleProofs ProgramProofs DisInvProofs DisRequestProofs DisClosedProofs CleanProofs ReassembleProofs RoundProofs CleanFlowProofs RunProofs MeetProofs.
Open Scope string_scope.
Open Scope list_scope.
Open Scope Z_scope.
Local Opaque decode_opcode encode_opcode execute_in check_consistency is_legal_combination execute_branch.

(** Bytes that the image holds are those of the memory. *)
Lemma holds_mem : forall img mem pc l, pictures img mem -> holds img pc l -> addr24 pc ->
  forall j x, nth_error l j = Some x -> x = mem (same_bank_plus pc (Z.of_nat j)).
Proof.
  intros img mem pc l PI H. induction H as [pc l r R|pc b l H1 IH1 H2 IH2]; intros A24 j x J.
  - pose proof (PI _ _ A24 R) as E. assert (J' : nth_error (l ++ r) j = Some x) by (rewrite nth_error_app1; [exact J|apply nth_error_Some; congruence]). rewrite E in J'.
    do 4 (destruct j as [|j]; [injection J' as <-; reflexivity|]). destruct j; discriminate J'.
  - destruct j as [|j]; [injection J as ->; apply (IH1 A24 0%nat x eq_refl)|]. cbn [nth_error] in J.
    rewrite (IH2 (same_bank_plus_24 _ _ A24) j x J), plus_steps. do 2 f_equal. lia.
Qed.

(** The byte at the address [x] is written again as [b]. *)
Definition rewritten (ws : list write) (x b : Z) : Prop := exists w l, In w ws /\ nth_error (snd w) l = Some b /\ same_bank_plus (fst w) (Z.of_nat l) = x.

Lemma within_of : forall src rets q d d' fuel sk ws asm, conventions_ok rets -> readable rets -> byte_source src -> session src rets q d -> ds_sym d < 2 ^ 31 -> cleanup d = Ok d' ->
  assemble fuel sk [ModelTools.listing (ds_map d')] = (ws, Ok asm) -> within_banks d'.
Proof.
  intros src rets q d d' fuel sk ws asm CO RB BS S SY CL A. pose proof (reassembles _ _ _ _ _ _ _ _ _ CO RB BS S SY CL A) as F.
  assert (NP : forall a c, collected d' a c -> i_mnem (di_instr c) <> M_per) by (intros a c K P; exact (per_unreadable _ _ _ _ _ _ _ _ _ _ _ CO BS S SY CL K P A)).
  pose proof (listing_length _ _ _ _ _ CO RB BS S SY CL NP) as LN.
  assert (SO : forall a c, In (a, c) (ds_map d') -> collected d' a c) by (intros a c IN; apply (cleaned_label _ _ _ _ _ _ _ CO BS S SY CL IN)).
  apply (accepted_within _ _ _ _ _ ws CO BS S SY CL); [destruct (program_spec _ _ _ _ _ A) as (? & ? & ? & ? & _ & _ & _ & _ & _ & _ & _ & N & _); exact N|].
  assert (P : forall kv, In kv (ds_map d') -> 0 < instruction_length (i_mode (di_instr (snd kv)))) by (intros [a c] IN; exact (LN a c (SO a c IN))).
  clear - F P. induction F as [|kv w m ws (E1 & E2 & _) F IH]; constructor; [split; [exact E1|split; [exact E2|apply P; left; reflexivity]]|]. apply IH. intros kv' IN. apply P. right. exact IN.
Qed.
(** Every byte of a collected instruction is. *)
Lemma collected_again : forall src mem rets q d d' fuel sk ws asm pc c, pictures src mem -> conventions_ok rets -> readable rets -> byte_source src -> session src rets q d -> ds_sym d < 2 ^ 31 -> cleanup d = Ok d' ->
  assemble fuel sk [ModelTools.listing (ds_map d')] = (ws, Ok asm) -> collected d pc c ->
  forall j, 0 <= j < instruction_length (i_mode (di_instr c)) -> rewritten ws (same_bank_plus pc j) (mem (same_bank_plus pc j)).
Proof.
  intros src mem rets q d d' fuel sk ws asm pc c PI CO RB BS S SY CL A K j J. pose proof (reassembles _ _ _ _ _ _ _ _ _ CO RB BS S SY CL A) as F.
  pose proof (within_of _ _ _ _ _ _ _ _ _ CO RB BS S SY CL A) as WB. destruct (folds _ _ _ _ _ CO BS S SY WB CL) as [F1 F2].
  assert (W : forall p c' l, collected d' p c' -> 0 <= l < instr_size (di_instr c') -> rewritten ws (same_bank_plus p l) (mem (same_bank_plus p l))).
  { intros p c' l K' L. pose proof (om_find_in _ _ _ _ K') as IN. destruct (cleaned_label _ _ _ _ _ _ _ CO BS S SY CL IN) as (A24 & _).
    destruct (In_nth_error _ _ IN) as (i & I). destruct (forall2_at _ _ _ _ _ F _ _ I) as (w & WI & W1 & W2 & W3). cbn [fst snd] in *. unfold zlen in W2.
    assert (X : nth_error (snd w) (Z.to_nat l) <> None) by (apply nth_error_Some; lia). destruct (nth_error (snd w) (Z.to_nat l)) as [x|] eqn:N; [clear X|contradiction].
    exists w, (Z.to_nat l). split; [eapply nth_error_In; exact WI|]. rewrite W1 in W3. pose proof (holds_mem _ _ _ _ PI W3 A24 _ _ N) as E. rewrite Z2Nat.id in * by lia. rewrite <- E, W1. auto. }
  destruct (F2 _ _ K) as [(c' & K' & _)|(p & c0 & c' & EP & K0 & K' & PO & _)].
  - apply (W pc c' j K'). unfold instr_size. destruct (F1 _ _ K') as [(c1 & K1 & M & MD & _)|(c1 & x & K1 & KX & _ & PO & MD & _)]; assert (c1 = c) as -> by (unfold collected in *; congruence).
    + rewrite MD. destruct (i_mnem (di_instr c')); lia.
    + assert (MC : i_mnem (di_instr c) = M_clc \/ i_mnem (di_instr c) = M_sec) by (destruct PO as [(X & _)|(X & _)]; auto).
      destruct (carry_plain _ _ _ _ _ _ CO BS S K1 MC) as [L1 _]. rewrite L1 in J.
      assert (0 <= instruction_length (i_mode (di_instr c'))) by (destruct (i_mode (di_instr c')); cbn; lia). destruct PO as [(_ & _ & ->)|(_ & _ & ->)]; lia.
  - rewrite <- EP, plus_steps. apply (W p c' (1 + j) K'). unfold instr_size.
    destruct (F1 _ _ K') as [(c1 & K1 & M & MD & _)|(c1 & x & K1 & KX & _ & PO' & MD & _)].
    + assert (c1 = c0) as -> by (unfold collected in *; congruence). destruct PO as [(X & _ & Y)|(X & _ & Y)]; congruence.
    + rewrite EP in KX. assert (x = c) as -> by (unfold collected in *; congruence). rewrite MD. destruct PO as [(_ & _ & ->)|(_ & _ & ->)]; lia.
Qed.
Lemma listed_again : forall src mem rets q d d' fuel sk ws asm pc ns b, pictures src mem -> conventions_ok rets -> readable rets -> byte_source src -> session src rets q d -> ds_sym d < 2 ^ 31 -> cleanup d = Ok d' ->
  assemble fuel sk [ModelTools.listing (ds_map d')] = (ws, Ok asm) -> listed src d pc ns b ->
  forall j, 0 <= j < Z.of_nat (List.length b) -> rewritten ws (same_bank_plus pc j) (mem (same_bank_plus pc j)).
Proof.
  intros src mem rets q d d' fuel sk ws asm pc ns b PI CO RB BS S SY CL A H. induction H as [pc|pc x n ns b bs K N (l & R & EB) H IH]; intros j J; [cbn in J; lia|].
  rewrite app_length in J. destruct (Z.lt_ge_cases j (Z.of_nat (List.length b))) as [L|G].
  - apply (collected_again _ _ _ _ _ _ _ _ _ _ _ _ PI CO RB BS S SY CL A K). split; [lia|]. rewrite EB in L. pose proof (firstn_le_length (Z.to_nat (instruction_length (i_mode (di_instr x)))) l). lia.
  - specialize (IH (j - Z.of_nat (List.length b)) ltac:(lia)). rewrite plus_steps in IH. replace (Z.of_nat (List.length b) + (j - Z.of_nat (List.length b))) with j in IH by lia. exact IH.
Qed.
Lemma source_again : forall fuel sk files ws a n file m src o mem img rets q d k i c d' fuel' sk' ws' asm, assemble fuel sk files = (ws, Ok a) -> nth_error files n = Some file ->
  nth_error (as_mods a) n = Some m -> SpecScope.reads file src -> tracked src -> fenced src -> predictable src m -> in_memory ws mem -> modes_true src o -> status_known src ->
  pictures img mem -> byte_source img -> conventions_ok rets -> session img rets q d -> followed d -> calls_true src m (told rets mem) ->
  (forall k0 d0 a0, stmt_at src k0 (SDir d0) -> d_name d0 = D_entry -> stands m k0 a0 -> In (a0, d_flags d0) q) ->
  arrives src o k c -> stmt_at src k (SInstr i) ->
  readable rets -> ds_sym d < 2 ^ 31 -> cleanup d = Ok d' -> assemble fuel' sk' [ModelTools.listing (ds_map d')] = (ws', Ok asm) ->
  exists pc b, stands m k pc /\ In (pc, b) ws /\
    forall j x, nth_error b j = Some x -> exists w l, In w ws' /\ nth_error (snd w) l = Some x /\ same_bank_plus (fst w) (Z.of_nat l) = same_bank_plus pc (Z.of_nat j).
Proof.
  intros fuel sk files ws a n file m src o mem img rets q d k i c d' fuel' sk' ws' asm H NF NM RD TR FE PR IM MT SK PI BS CO SE FO CT EN AR ST RB SY CL A.
  destruct (source_found _ _ _ _ _ _ _ _ _ _ _ _ _ _ _ _ _ _ H NF NM RD TR FE PR IM MT SK PI BS CO SE FO CT EN AR ST) as (pc & b & PL & IW & LI). exists pc, b. split; [exact PL|]. split; [exact IW|].
  intros j x J. assert (JL : (j < List.length b)%nat) by (apply nth_error_Some; congruence).
  pose proof (listed_again _ _ _ _ _ _ _ _ _ _ _ _ _ PI CO RB BS SE SY CL A LI (Z.of_nat j) ltac:(lia)) as R. rewrite (IM (pc, b) j x IW J : mem (same_bank_plus pc (Z.of_nat j)) = x) in R. exact R.
Qed.
