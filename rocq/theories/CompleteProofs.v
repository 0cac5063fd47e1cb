(** What the source can do, the processor does with the assembled bytes. *)
From Verif Require Import Base ModelNumeric ModelExpr ModelMnemonic ModelAMode ModelOpcode ModelState ModelInstr ModelToken ModelStatement
  ModelParse ModelMap ModelModule ModelAssembler Spec65816 SpecArith SpecText SpecInstr SpecScope SpecLayout SpecState SpecAssemble SpecSafe SpecFlow SpecStable SpecRun
  BaseProofs MapProofs ArithProofs NameProofs ModeProofs InstrProofs StateProofs ExecProofs OrderProofs LoadProofs ScopeProofs PassProofs LayoutProofs ProgramProofs TermProofs
  SafeProofs SafeRunProofs FlowProofs FlowRunProofs FlowArriveProofs FlowKindProofs StableProofs RunProofs.
Open Scope string_scope.
Open Scope list_scope.
Open Scope Z_scope.
Local Opaque decode_opcode encode_opcode execute_in check_consistency is_legal_combination execute_branch.

(** ** Every statement that is reached has an address. *)
Lemma later_inv : forall ss s pc, next_address (ss ++ [s]) (Some pc) -> ~ is_dir D_org s -> exists a, next_address ss (Some a) /\ pc = same_bank_plus a (stmt_size s).
Proof.
  intros ss s pc H NO. remember (ss ++ [s]) as l eqn:EL. remember (Some pc) as p eqn:EP. destruct H as [|ss' s' a O|ss' s' a N NO'|ss' s' N NO'].
  - discriminate EP.
  - apply app_inj_tail in EL. destruct EL as [-> ->]. exfalso. apply NO. destruct O as (d & e & v & D & DN & _). exists d. auto.
  - apply app_inj_tail in EL. destruct EL as [-> ->]. injection EP as <-. exists a. auto.
  - discriminate EP.
Qed.
Lemma flat_directive : forall dd pc, ~ In (d_name dd) [D_db; D_dw; D_dl; D_org] -> addr24 pc -> same_bank_plus pc (stmt_size (SDir dd)) = pc.
Proof.
  intros dd pc ND A24. cbn [stmt_size]. unfold directive_size. cbn [In] in ND. destruct (d_name dd); try (apply zero_plus; exact A24); exfalso; apply ND; tauto.
Qed.
Lemma addressed : forall fuel sk files ws a n file m src o mem conv, setting fuel sk files ws a n file m src o mem conv ->
  forall d k c, (List.length (md_lines m) - k <= d)%nat -> arrives src o k c -> exists pc, next_address (firstn k (stmts m)) (Some pc).
Proof.
  intros fuel sk files ws a n file m src o mem conv SE. induction d as [|d IH]; intros k c D AR;
    destruct (arrivals_reached _ _ _ _ _ _ _ _ _ _ _ _ (se_ok _ _ _ _ _ _ _ _ _ _ _ _ SE) (se_file _ _ _ _ _ _ _ _ _ _ _ _ SE) (se_mod _ _ _ _ _ _ _ _ _ _ _ _ SE) (se_reads _ _ _ _ _ _ _ _ _ _ _ _ SE) (se_tracked _ _ _ _ _ _ _ _ _ _ _ _ SE) AR) as (l & L & R & ND).
  { assert (X : nth_error (md_lines m) k <> None) by congruence. apply nth_error_Some in X. lia. }
  destruct (resolved_at _ _ _ _ _ _ _ _ _ _ _ (se_ok _ _ _ _ _ _ _ _ _ _ _ _ SE) (se_file _ _ _ _ _ _ _ _ _ _ _ _ SE) (se_mod _ _ _ _ _ _ _ _ _ _ _ _ SE) (se_reads _ _ _ _ _ _ _ _ _ _ _ _ SE) L) as (m0 & LD & SS & s & ST & RS).
  destruct s as [i|dd]; cbn [resolved] in RS.
  - destruct RS as (_ & m' & SM & SL). pose proof (not_dir D_org (with_mode m' i)) as NO. pose proof (not_dir D_equ (with_mode m' i)) as NE. rewrite <- SL in NO, NE.
    assert (PS : 0 < stmt_size (ln_stmt l)).
    { rewrite SL. cbn [stmt_size]. rewrite instr_size_eq. cbn [i_mode with_mode].
      assert (instruction_length m' > 0) by (unfold settled in SM; destruct (i_mode i); try (rewrite SM; cbn; lia); destruct SM as [[_ ->]|[_ ->]]; cbn; lia). destruct (is_pseudo _); lia. }
    destruct (program_written _ _ _ _ _ _ _ _ _ (se_ok _ _ _ _ _ _ _ _ _ _ _ _ SE) (se_mod _ _ _ _ _ _ _ _ _ _ _ _ SE) L PS) as ([adr b] & IW & VA & A24 & SB & LE). cbn [fst snd] in *.
    assert (IM : In m (as_mods a)) by (eapply nth_error_In; exact (se_mod _ _ _ _ _ _ _ _ _ _ _ _ SE)).
    pose proof (proj1 (program_located _ _ _ _ _ (se_ok _ _ _ _ _ _ _ _ _ _ _ _ SE) m IM k l adr L NE) VA) as PL. exists adr. apply (placed_iff _ _ _ adr L NO NE). exact PL.
  - specialize (ND _ RS). assert (NH : d_name dd <> D_halt) by (eapply (proj1 (se_fenced _ _ _ _ _ _ _ _ _ _ _ _ SE)); [eapply arrives_path; exact AR|exact ST]).
    assert (LT : (k < List.length (md_lines m))%nat) by (apply nth_error_Some; congruence).
    destruct (IH (S k) c) as (pc & NA); [lia| |].
    + eapply ar_directive; [exact AR|exact ST|exact NH|]. intros DM. eapply (se_modes _ _ _ _ _ _ _ _ _ _ _ _ SE); eassumption.
    + rewrite (firstn_snoc _ _ _ _ (stmts_nth _ _ _ L)), RS in NA. destruct (later_inv _ _ _ NA) as (p & P & _); [|exists p; exact P].
      intros (d' & E & N). injection E as <-. apply ND. rewrite N. cbn. tauto.
Qed.

(** ** Where a branch of the source leads. *)
Lemma branch_lands : forall fuel sk files ws a n file m src o mem conv k i pc c c' nm ty t0, setting fuel sk files ws a n file m src o mem conv ->
  ready src m o k pc c -> stmt_at src k (SInstr i) -> relative_branch (i_mnem i) -> i_arg1 i = Some (EId (FullId None nm) ty) -> denotes src (Z.of_nat k) nm t0 ->
  arrives src o (Z.to_nat t0) c' ->
  exists v, next_address (firstn (Z.to_nat t0) (stmts m)) (Some v) /\ branch_destination pc (fetched mem pc c) = Some v.
Proof.
  intros fuel sk files ws a n file m src o mem conv k i pc c c' nm ty t0 SE RY ST RB AE DE AR'. pose proof (ready_begins _ _ _ _ _ _ _ _ _ _ _ _ _ _ _ _ SE RY ST) as B.
  pose proof B as (AR & _ & PL & ON & lx & LX & SX).
  destruct (ready_encoded _ _ _ _ _ _ _ _ _ _ _ _ _ _ _ _ SE RY ST) as (l & i' & op & rest & L & SL & MN & AG & A24 & _ & OL & IB & EO & SZ & ME & LN).
  assert (lx = l) as -> by congruence. destruct (branch_pseudo _ RB) as (P & PP & HM). rewrite P in SX. rewrite PP in *. cbn [app] in *.
  destruct (arrivals_reached _ _ _ _ _ _ _ _ _ _ _ _ (se_ok _ _ _ _ _ _ _ _ _ _ _ _ SE) (se_file _ _ _ _ _ _ _ _ _ _ _ _ SE) (se_mod _ _ _ _ _ _ _ _ _ _ _ _ SE) (se_reads _ _ _ _ _ _ _ _ _ _ _ _ SE) (se_tracked _ _ _ _ _ _ _ _ _ _ _ _ SE) AR') as (l3 & L3 & R3 & ND).
  destruct (resolved_at _ _ _ _ _ _ _ _ _ _ _ (se_ok _ _ _ _ _ _ _ _ _ _ _ _ SE) (se_file _ _ _ _ _ _ _ _ _ _ _ _ SE) (se_mod _ _ _ _ _ _ _ _ _ _ _ _ SE) (se_reads _ _ _ _ _ _ _ _ _ _ _ _ SE) L3) as (m0 & LD & SS & s3 & ST3 & RS3).
  destruct (values_denote _ _ _ _ _ _ nm (assembler_ctx (as_mods a) (as_names a)) LD (se_reads _ _ _ _ _ _ _ _ _ _ _ _ SE) SS L) as [VD _]. destruct (VD _ DE) as (l4 & L4 & EV). assert (l4 = l3) as -> by congruence.
  assert (NO : ~ is_dir D_org (ln_stmt l3)) by (intros (d & E & N); apply (ND _ E); rewrite N; cbn; tauto).
  assert (NE : ~ is_dir D_equ (ln_stmt l3)).
  { intros (d & E & N). destruct s3 as [i3|d3]; cbn [resolved] in RS3; [destruct RS3 as (_ & mm & _ & RS3); congruence|].
    apply (proj2 (se_fenced _ _ _ _ _ _ _ _ _ _ _ _ SE) k i nm ty t0 d3 (arrives_path _ _ _ _ AR) ST RB AE DE ST3). congruence. }
  fold (context a m l) in EV.
  assert (VX : exists v, ln_value l3 = Some v /\ eval_opt (context a m l) (i_arg1 i') = Ok v).
  { rewrite AG, AE. cbn [eval_opt eval]. rewrite EV. destruct (ln_value l3) as [v|] eqn:V; [eauto|]. exfalso. rewrite HM in EO. destruct (branch_mode _ _ _ RB EO) as [[_ A]|[_ A]];
      rewrite A, AE in OL; cbn [operand_list eval_opt eval] in OL; rewrite EV in OL; discriminate OL. }
  destruct VX as (v & V & EVV). assert (IM : In m (as_mods a)) by (eapply nth_error_In; exact (se_mod _ _ _ _ _ _ _ _ _ _ _ _ SE)).
  pose proof (proj1 (program_located _ _ _ _ _ (se_ok _ _ _ _ _ _ _ _ _ _ _ _ SE) m IM _ l3 v L3 NE) V) as PV. fold (stands m (Z.to_nat t0) v) in PV.
  apply (placed_iff _ _ _ v L3 NO NE) in PV. assert (V24 : addr24 v) by (eapply next_address_range; exact PV).
  rewrite <- MN in RB. pose proof (branch_reaches _ _ _ _ _ RB A24 EVV V24 IB) as BR.
  exists v. split; [exact PV|]. rewrite (fetched_bytes mem pc c (op :: rest) ME); [exact BR|]. rewrite <- SZ. exact SX.
Qed.

(** ** One step of the source is one or two of the processor. *)
Lemma step_low : forall o i v c c', mode_step o i v c c' -> mode_step o i (v mod 256) c c'.
Proof.
  intros o i v c c' H. assert (B : forall k, 0 <= k < 8 -> Z.testbit (v mod 256) k = Z.testbit v k) by (intros k K; change 256 with (2 ^ 8); apply Z.mod_pow2_bits_low; lia).
  unfold mode_step, modes_step in *. cbv zeta in *. destruct (i_mnem i); try exact H; rewrite !B by lia; exact H.
Qed.
Lemma step_any : forall o i v w c c', ~ In (i_mnem i) [M_rep; M_sep] -> mode_step o i v c c' -> mode_step o i w c c'.
Proof. intros o i v w c c' N H. unfold mode_step, modes_step in *. cbv zeta in *. destruct (i_mnem i); try exact H; destruct N; cbn; tauto. Qed.
Definition half (i : instr) (m : mnemonic) (r : retconv) : instr := Instr m S_none (i_mode i) None None r.
Lemma pseudo_halves : forall o i v c c', is_pseudo (i_mnem i) = true -> ~ stops i -> mode_step o i v c c' -> forall r1 r2 v1 v2, r1 <> RC_noreturn -> r2 <> RC_noreturn -> exists c1,
  ~ stops (half i (opening (i_mnem i)) r1) /\ mode_step o (half i (opening (i_mnem i)) r1) v1 c c1 /\ p_m (c_modes c1) = p_m (c_modes c) /\ p_x (c_modes c1) = p_x (c_modes c) /\
  ~ stops (half i (hardware_mnemonic (i_mnem i)) r2) /\ mode_step o (half i (hardware_mnemonic (i_mnem i)) r2) v2 c1 c'.
Proof.
  intros o i v c c' P NS MS r1 r2 v1 v2 N1 N2.
  exists (Cpu (Modes (p_e (c_modes c)) (p_m (c_modes c)) (p_x (c_modes c)) (mnem_eqb (i_mnem i) PM_sub)) (c_a c) (c_xr c) (c_yr c) (c_dbr c) (c_stack c)).
  assert (D : i_mnem i = PM_add \/ i_mnem i = PM_sub) by (destruct (i_mnem i); try discriminate P; [left|right]; reflexivity).
  clear P NS. destruct i as [mn sf am a1 a2 rt]. cbn [i_mnem] in D. unfold half, stops, mode_step, modes_step in *. cbn [i_mnem i_ret i_mode] in *.
  destruct D as [-> | ->]; cbn -[In] in *; destruct MS as [[b M1] M2];
    (split; [intros [X|X]; [cbn in X; intuition discriminate|contradiction]|]); (split; [split; reflexivity|]); (split; [reflexivity|]); (split; [reflexivity|]); (split; [intros [X|X]; [cbn in X; intuition discriminate|contradiction]|]);
    (split; [exists b; exact M1|exact M2]).
Qed.
Lemma hardware_calls : forall m, is_pseudo m = true -> ~ In (mnem_to_string (hardware_mnemonic m)) ["jsr"; "jsl"].
Proof. intros m P. destruct m; try discriminate P; cbn; intuition discriminate. Qed.
Lemma pc_of_next : forall m k l pc, nth_error (md_lines m) k = Some l -> next_address (firstn k (stmts m)) (Some pc) -> ~ is_dir D_org (ln_stmt l) ->
  next_address (firstn (S k) (stmts m)) (Some (same_bank_plus pc (stmt_size (ln_stmt l)))).
Proof. intros m k l pc L NA NO. rewrite (firstn_snoc _ _ _ _ (stmts_nth _ _ _ L)). apply na_later; assumption. Qed.

Definition started (src : source) (m : module) (mem : memory) (conv : Z -> retconv) (o : cpu) (pc : Z) (c : cpu) : Prop :=
  exists k0 d0 a0, stmt_at src k0 (SDir d0) /\ d_name d0 = D_entry /\ stands m k0 a0 /\ mem_arrives mem conv a0 (d_flags d0) o pc c.
Lemma source_done : forall fuel sk files ws a n file m src o mem conv k c, setting fuel sk files ws a n file m src o mem conv -> status_known src -> only_calls mem conv ->
  arrives src o k c -> exists pc, next_address (firstn k (stmts m)) (Some pc) /\ started src m mem conv o pc c.
Proof.
  intros fuel sk files ws a n file m src o mem conv k c SE SK OC AR. induction AR as [k d ST DN MO FD|k i v c c' AR IH ST NS OV MS|k d c AR IH ST NH DM|k i nm ty t c c' AR IH ST RB AE DE BS].
  - assert (AR : arrives src o (S k) o) by (eapply ar_entry; eassumption). destruct (addressed _ _ _ _ _ _ _ _ _ _ _ _ SE _ _ _ (le_n _) AR) as (pc & NA). exists pc. split; [exact NA|].
    destruct (arrivals_reached _ _ _ _ _ _ _ _ _ _ _ _ (se_ok _ _ _ _ _ _ _ _ _ _ _ _ SE) (se_file _ _ _ _ _ _ _ _ _ _ _ _ SE) (se_mod _ _ _ _ _ _ _ _ _ _ _ _ SE) (se_reads _ _ _ _ _ _ _ _ _ _ _ _ SE) (se_tracked _ _ _ _ _ _ _ _ _ _ _ _ SE) AR) as (l' & L' & _).
    assert (X : nth_error (md_lines m) k <> None) by (assert (Y : nth_error (md_lines m) (S k) <> None) by congruence; apply nth_error_Some in Y; apply nth_error_Some; lia).
    destruct (nth_error (md_lines m) k) as [l|] eqn:L; [clear X|contradiction].
    destruct (resolved_at _ _ _ _ _ _ _ _ _ _ _ (se_ok _ _ _ _ _ _ _ _ _ _ _ _ SE) (se_file _ _ _ _ _ _ _ _ _ _ _ _ SE) (se_mod _ _ _ _ _ _ _ _ _ _ _ _ SE) (se_reads _ _ _ _ _ _ _ _ _ _ _ _ SE) L) as (m0 & LD & SS & s & ST' & RS).
    assert (s = SDir d) as -> by (unfold stmt_at in *; congruence). cbn [resolved] in RS.
    assert (NO : forall x, x <> D_entry -> ~ is_dir x (ln_stmt l)) by (intros x NX (d' & E & N); apply NX; congruence).
    rewrite (firstn_snoc _ _ _ _ (stmts_nth _ _ _ L)) in NA. destruct (later_inv _ _ _ NA (NO D_org ltac:(discriminate))) as (p & NP & EP).
    rewrite RS, flat_directive in EP; [|rewrite DN; cbn; intuition discriminate|eapply next_address_range; exact NP]. subst p.
    exists k, d, pc. split; [exact ST|]. split; [exact DN|]. split; [|apply me_start; assumption]. apply (placed_iff _ _ _ pc L (NO D_org ltac:(discriminate)) (NO D_equ ltac:(discriminate))). exact NP.
  - destruct IH as (pc & NA & k0 & d0 & a0 & ST0 & DN0 & PL0 & MA). assert (RY : ready src m o k pc c) by (split; assumption).
    pose proof (ready_begins _ _ _ _ _ _ _ _ _ _ _ _ _ _ _ _ SE RY ST) as (_ & _ & PL & ON & lx & LX & SX).
    destruct (ready_encoded _ _ _ _ _ _ _ _ _ _ _ _ _ _ _ _ SE RY ST) as (l & i' & op & rest & L & SL & MN & AG & A24 & _ & OL & IB & EO & SZ & ME & LN).
    assert (lx = l) as -> by congruence. assert (RI : conv pc = i_ret i) by (eapply (se_calls _ _ _ _ _ _ _ _ _ _ _ _ SE); eassumption).
    assert (NO : ~ is_dir D_org (ln_stmt l)) by (rewrite SL; apply not_dir). pose proof (pc_of_next _ _ _ _ L NA NO) as NA'.
    destruct (pseudo_cases (i_mnem i)) as [(P & PP & OP & HM)|(P & b & PP & OP & _ & CL)]; rewrite P, PP in *; cbn [app] in *.
    + rewrite SX in NA'. eexists. split; [exact NA'|]. exists k0, d0, a0. split; [exact ST0|]. split; [exact DN0|]. split; [exact PL0|].
      refine (me_next _ _ _ _ _ _ _ _ i MA _ NS _); [split; [rewrite ON, OP; reflexivity|symmetry; exact RI]|].
      assert (DEC : In (i_mnem i) [M_rep; M_sep] \/ ~ In (i_mnem i) [M_rep; M_sep]) by (destruct (i_mnem i); cbn; try (left; tauto); right; intuition discriminate).
      destruct DEC as [IN|NI]; [|eapply step_any; eassumption]. destruct (SK _ _ ST IN) as (e & w & AE & ME'). rewrite HM in EO. destruct (status_operand _ _ _ _ _ _ _ IN EO OL) as (w' & W & ER).
      rewrite (operand_stated _ _ _ _ _ _ _ _ OL AE ME') in W. injection W as <-. rewrite (OV _ _ AE ME') in MS. rewrite ER in ME. specialize (ME 1%nat _ eq_refl). change (Z.of_nat 1) with 1 in ME. rewrite ME. apply step_low. exact MS.
    + assert (RN : i_ret i <> RC_noreturn) by (intros X; apply NS; right; exact X).
      pose proof (first_byte _ _ _ A24 ME _ _ eq_refl) as F. specialize (ME 1%nat op eq_refl). change (Z.of_nat 1) with 1 in ME.
      apply encode_opcode_iff in EO. destruct EO as (_ & N & _).
      assert (RN2 : conv (same_bank_plus pc 1) <> RC_noreturn).
      { intros X. specialize (OC (same_bank_plus pc 1)). rewrite X, ME, N in OC. exact (hardware_calls _ P (OC ltac:(discriminate))). }
      destruct (pseudo_halves _ _ _ _ _ P NS MS (conv pc) (conv (same_bank_plus pc 1)) (mem (same_bank_plus pc 1)) (mem (same_bank_plus (same_bank_plus pc 1) 1)) ltac:(congruence) RN2) as (c1 & S1 & M1 & E1 & E2 & S2 & M2).
      assert (MA1 : mem_arrives mem conv a0 (d_flags d0) o (same_bank_plus pc 1) c1).
      { assert (FL : fetch_length mem pc c = 1) by (unfold fetch_length; rewrite F; apply CL). rewrite <- FL.
        refine (me_next _ _ _ _ _ _ _ _ (half i (opening (i_mnem i)) (conv pc)) MA _ S1 M1). split; [symmetry; exact ON|reflexivity]. }
      rewrite SX, <- plus_steps in NA'. eexists. split; [exact NA'|]. exists k0, d0, a0. split; [exact ST0|]. split; [exact DN0|]. split; [exact PL0|].
      assert (FL : fetch_length mem (same_bank_plus pc 1) c = fetch_length mem (same_bank_plus pc 1) c1) by (unfold fetch_length; rewrite E1, E2; reflexivity). rewrite FL.
      refine (me_next _ _ _ _ _ _ _ _ (half i (hardware_mnemonic (i_mnem i)) (conv (same_bank_plus pc 1))) MA1 _ S2 M2). split; [cbn [half i_mnem]; rewrite ME, N; reflexivity|reflexivity].
  - destruct IH as (pc & NA & ST1). exists pc. split; [|exact ST1].
    destruct (arrivals_reached _ _ _ _ _ _ _ _ _ _ _ _ (se_ok _ _ _ _ _ _ _ _ _ _ _ _ SE) (se_file _ _ _ _ _ _ _ _ _ _ _ _ SE) (se_mod _ _ _ _ _ _ _ _ _ _ _ _ SE) (se_reads _ _ _ _ _ _ _ _ _ _ _ _ SE) (se_tracked _ _ _ _ _ _ _ _ _ _ _ _ SE) AR) as (l & L & R & ND).
    destruct (resolved_at _ _ _ _ _ _ _ _ _ _ _ (se_ok _ _ _ _ _ _ _ _ _ _ _ _ SE) (se_file _ _ _ _ _ _ _ _ _ _ _ _ SE) (se_mod _ _ _ _ _ _ _ _ _ _ _ _ SE) (se_reads _ _ _ _ _ _ _ _ _ _ _ _ SE) L) as (m0 & LD & SS & s & ST' & RS).
    assert (s = SDir d) as -> by (unfold stmt_at in *; congruence). cbn [resolved] in RS. specialize (ND _ RS).
    assert (NO : ~ is_dir D_org (ln_stmt l)) by (rewrite RS; intros (d' & E & N); injection E as <-; apply ND; rewrite N; cbn; tauto).
    pose proof (pc_of_next _ _ _ _ L NA NO) as NA'. rewrite RS, flat_directive in NA'; [exact NA'|exact ND|eapply next_address_range; exact NA].
  - destruct IH as (pc & NA & k0 & d0 & a0 & ST0 & DN0 & PL0 & MA). assert (RY : ready src m o k pc c) by (split; assumption).
    pose proof (ready_begins _ _ _ _ _ _ _ _ _ _ _ _ _ _ _ _ SE RY ST) as (_ & _ & PL & ON & _).
    assert (AR' : arrives src o (Z.to_nat t) c') by (eapply ar_branch; eassumption).
    destruct (branch_lands _ _ _ _ _ _ _ _ _ _ _ _ _ _ _ _ _ _ _ _ SE RY ST RB AE DE AR') as (w & NW & BD). exists w. split; [exact NW|]. exists k0, d0, a0. split; [exact ST0|]. split; [exact DN0|]. split; [exact PL0|].
    refine (me_branch _ _ _ _ _ _ _ _ i w MA _ RB BD BS). split; [|symmetry; eapply (se_calls _ _ _ _ _ _ _ _ _ _ _ _ SE); eassumption].
    rewrite ON. f_equal. unfold relative_branch in RB. cbn [In] in RB. destruct (i_mnem i); try reflexivity; repeat destruct RB as [RB|RB]; try discriminate RB; contradiction.
Qed.
Lemma source_executed : forall fuel sk files ws a n file m src o mem conv k i c, assemble fuel sk files = (ws, Ok a) -> nth_error files n = Some file ->
  nth_error (as_mods a) n = Some m -> SpecScope.reads file src -> tracked src -> fenced src -> predictable src m -> in_memory ws mem -> modes_true src o -> calls_true src m conv ->
  status_known src -> only_calls mem conv -> arrives src o k c -> stmt_at src k (SInstr i) ->
  exists k0 d0 a0 pc, stmt_at src k0 (SDir d0) /\ d_name d0 = D_entry /\ stands m k0 a0 /\ mem_arrives mem conv a0 (d_flags d0) o pc c /\ begins src m mem o k i pc c.
Proof.
  intros fuel sk files ws a n file m src o mem conv k i c H NF NM RD TR FE PR IM MT CT SK OC AR ST.
  assert (SE : setting fuel sk files ws a n file m src o mem conv) by (constructor; try assumption; eapply predictable_fits; eassumption).
  destruct (source_done _ _ _ _ _ _ _ _ _ _ _ _ _ _ SE SK OC AR) as (pc & NA & k0 & d0 & a0 & ST0 & DN0 & PL0 & MA). exists k0, d0, a0, pc. do 4 (split; [assumption|]).
  exact (ready_begins _ _ _ _ _ _ _ _ _ _ _ _ _ _ _ _ SE (conj AR NA) ST).
Qed.
