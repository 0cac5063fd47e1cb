(** The processor in a memory that holds an assembled program follows the source. *)
From Verif Require Import Base ModelNumeric ModelExpr ModelMnemonic ModelAMode ModelOpcode ModelState ModelInstr ModelToken ModelStatement
  ModelParse ModelMap ModelModule ModelAssembler Spec65816 SpecArith SpecText SpecInstr SpecScope SpecLayout SpecState SpecAssemble SpecSafe SpecFlow SpecStable SpecRun
  BaseProofs MapProofs ArithProofs NameProofs ModeProofs InstrProofs StateProofs ExecProofs OrderProofs LoadProofs ScopeProofs PassProofs LayoutProofs ProgramProofs TermProofs
  SafeProofs SafeRunProofs FlowProofs FlowRunProofs FlowArriveProofs FlowKindProofs StableProofs.
Open Scope list_scope.
Open Scope Z_scope.
Local Opaque decode_opcode encode_opcode execute_in check_consistency is_legal_combination execute_branch.

Lemma arrives_path : forall src o k c, arrives src o k c -> path src k.
Proof. intros src o k c A. induction A; [eapply pa_entry|eapply pa_next|eapply pa_directive|eapply pa_branch]; eassumption. Qed.

(** ** Branches that were analysed have a target. *)
Definition aimed (m : module) (ls : list line) : Prop :=
  forall k l i, znth ls k = Some l -> ln_reached l = true -> ln_stmt l = SInstr i -> relative_branch (i_mnem i) ->
  exists n t, simple_identifier_opt (i_arg1 i) = Some n /\ local_index m n (ln_scopes l) = Ok t.
Lemma aimed_set : forall m ls k l s, znth ls k = Some l -> aimed m ls ->
  (forall i, ln_stmt l = SInstr i -> relative_branch (i_mnem i) -> exists n t, simple_identifier_opt (i_arg1 i) = Some n /\ local_index m n (ln_scopes l) = Ok t) ->
  aimed m (zset k (ln_visit s l) ls).
Proof.
  intros m ls k l s L A H j l' i J R S B. destruct (Z.eq_dec k j) as [<-|N].
  - rewrite znth_zset_same in J by (eapply znth_some; exact L). injection J as <-. cbn in S. cbn [ln_scopes ln_visit]. apply H; assumption.
  - rewrite znth_zset_other in J by assumption. eapply A; eassumption.
Qed.
Lemma step_aimed : forall m ls st ls' st', first_pass_step m ls st = Ok (ls', st') -> aimed m ls -> aimed m ls' /\ map core2 ls' = map core2 ls.
Proof.
  intros m ls st ls' st' H A. unfold first_pass_step in H. destruct st as [|[k cur] rest]; [injection H as <- _; auto|].
  destruct (k =? zlen ls); [discriminate H|]. destruct (znth ls k) as [l|] eqn:L; [|discriminate H].
  destruct (ln_reached l && es_eqb (ln_in l) cur)%bool; [injection H as <- _; auto|]. cbv zeta in H. bok H as nx NX.
  assert (P : (forall i, ln_stmt l = SInstr i -> relative_branch (i_mnem i) -> exists n t, simple_identifier_opt (i_arg1 i) = Some n /\ local_index m n (ln_scopes l) = Ok t) ->
    ls' = zset k (ln_visit cur l) ls -> aimed m ls' /\ map core2 ls' = map core2 ls).
  { intros T ->. split; [apply aimed_set; assumption|apply zset_core2; exact L]. }
  destruct (ln_stmt l) as [i|d] eqn:SL.
  - assert (BL : relative_branch (i_mnem i) -> is_local_branch i = true).
    { intros R. cbn [stmt_execute] in NX. destruct (executed_checked _ _ _ _ NX) as [u U]. eapply branch_local; eassumption. }
    destruct (is_local_branch i) eqn:B.
    + destruct (simple_identifier_opt (i_arg1 i)) as [n|] eqn:SI; [|discriminate H].
      destruct (local_index m n (ln_scopes l)) as [t| | |] eqn:LI; [|discriminate H..]. bok H as nb NB. injection H as E _. apply P; [|symmetry; exact E].
      intros i' E' _. injection E' as <-. exists n, t. auto.
    + injection H as E _. apply P; [|symmetry; exact E]. intros i' E' R. injection E' as <-. discriminate (BL R).
  - injection H as E _. apply P; [|symmetry; exact E]. intros i' E'. discriminate E'.
Qed.
Lemma loop_aimed : forall fuel m ls st ls', first_pass_loop fuel m ls st = Ok ls' -> aimed m ls -> aimed m ls' /\ map core2 ls' = map core2 ls.
Proof.
  induction fuel as [|fuel IH]; intros m ls st ls' H A; destruct st as [|x st]; try (cbn in H; injection H as <-; auto; fail); [discriminate H|].
  change (first_pass_loop (S fuel) m ls (x :: st)) with (bind (first_pass_step m ls (x :: st)) (fun '(l1, s1) => first_pass_loop fuel m l1 s1)) in H.
  bok H as [l1 s1] E. destruct (step_aimed _ _ _ _ _ E A) as [A1 C1]. destruct (IH _ _ _ _ H A1) as [A2 C2]. split; [exact A2|congruence].
Qed.

Lemma program_aimed : forall fuel sk files ws a n file m src k i l, assemble fuel sk files = (ws, Ok a) ->
  nth_error files n = Some file -> nth_error (as_mods a) n = Some m -> SpecScope.reads file src -> nth_error (md_lines m) k = Some l -> ln_reached l = true ->
  stmt_at src k (SInstr i) -> relative_branch (i_mnem i) ->
  exists nm ty t, i_arg1 i = Some (EId (FullId None nm) ty) /\ denotes src (Z.of_nat k) nm t.
Proof.
  intros fuel sk files ws a n file m src k i l H NF NM RD L R ST RB.
  destruct (program_analysed _ _ _ _ _ _ _ _ _ H NF NM RD) as (m0 & name & ls & LD & EM & LP & EA).
  destruct (loop_aimed _ _ _ _ _ LP) as [A C].
  { intros j l0 i0 J R0. exfalso. apply znth_in in J. rewrite EM in J. apply fresh_lines in J. congruence. }
  assert (X : exists l0, znth ls (Z.of_nat k) = Some l0 /\ ends_as l0 l).
  { rewrite <- nat_znth. clear - EA L. revert k L. induction EA as [|x y ls0 ls' R F IH]; intros k L; [destruct k; discriminate L|].
    destruct k as [|k]; cbn in *; [injection L as <-; eauto|eauto]. }
  destruct X as (l0 & L0 & EI & ER & ES). rewrite ER in R. destruct (core_nth _ _ _ _ C L0) as (l1 & L1 & C1).
  pose proof L1 as L1'. rewrite EM in L1'. destruct (line_stmt _ _ _ _ L1') as [_ ST1]. rewrite Nat2Z.id in ST1. unfold core2 in C1. injection C1 as S1 SC1.
  assert (SE : ln_stmt l0 = SInstr i) by (unfold stmt_at in ST, ST1; congruence).
  destruct (A _ _ _ L0 R SE RB) as (nm & t & SI & LI). rewrite SC1 in LI. rewrite <- nat_znth in L1.
  pose proof (proj1 (lookup_denotes _ _ _ _ _ _ nm t LD RD (same_scopes_refl m0) L1) LI) as DE.
  unfold simple_identifier_opt in SI. destruct (i_arg1 i) as [e|]; [|discriminate SI].
  unfold simple_identifier in SI. destruct e as [|[mo nm'] ty| | |]; try discriminate SI. destruct mo as [mo|]; [discriminate SI|]. cbn in SI. injection SI as ->. eauto 6.
Qed.

(** ** What stands in the memory. *)
Lemma Forall2_in_l : forall A B (P : A -> B -> Prop) l l' x, Forall2 P l l' -> In x l -> exists y, In y l' /\ P x y.
Proof.
  intros A B P l l' x F. induction F as [|a b l l' H F IH]; intros I; [destruct I|].
  destruct I as [<-|I]; [exists b; split; [left; reflexivity|exact H]|]. destruct (IH I) as (y & Y & PY). exists y. split; [right; exact Y|exact PY].
Qed.
Lemma program_written : forall fuel sk files ws a n m k l, assemble fuel sk files = (ws, Ok a) -> nth_error (as_mods a) n = Some m ->
  nth_error (md_lines m) k = Some l -> 0 < stmt_size (ln_stmt l) -> exists w, In w ws /\ writes_line a m l w.
Proof.
  intros fuel sk files ws a n m k l H NM L P. destruct (program_output _ _ _ _ _ H) as (_ & order & wss & _ & IN & F & ->).
  assert (I : In (Z.of_nat n) order).
  { apply IN. assert (X : nth_error (as_mods a) n <> None) by congruence. apply nth_error_Some in X. unfold zlen. lia. }
  destruct (Forall2_in_l _ _ _ _ _ _ F I) as (rs & R & m' & NM' & W). rewrite Nat2Z.id in NM'. rewrite NM in NM'. injection NM' as <-.
  assert (J : In l (filter has_bytes (md_lines m))) by (apply filter_In; split; [eapply nth_error_In; exact L|unfold has_bytes; apply Z.ltb_lt; exact P]).
  destruct (Forall2_in_l _ _ _ _ _ _ W J) as (w & IW & WL). exists w. split; [apply in_concat; eauto|exact WL].
Qed.

Definition acc_names : list mnemonic := [M_adc; M_and; M_bit; M_cmp; M_eor; M_lda; M_ora; M_sbc].
Definition idx_names : list mnemonic := [M_cpx; M_cpy; M_ldx; M_ldy].
Definition named_in (l : list mnemonic) (op : Z) : bool := existsb (fun m => String.eqb (op_name op) (mnem_to_string m)) l.
Lemma acc_forms : forallb (fun op => match op_form op with ImmM => named_in acc_names op | ImmX => named_in idx_names op | _ => true end) all_opcodes = true.
Proof. vm_compute. reflexivity. Qed.
Lemma named : forall l op m, named_in l op = true -> op_name op = mnem_to_string m -> In m l.
Proof.
  intros l op m H N. apply existsb_exists in H. destruct H as (x & X & E). apply String.eqb_eq in E. rewrite N in E. apply mnem_name_inj in E. subst x. exact X.
Qed.
Lemma hardware_acc : forall m, In (hardware_mnemonic m) acc_names -> accumulator_immediate m.
Proof. intros m H. unfold accumulator_immediate. unfold acc_names in H. cbn [In] in *. destruct m; cbn in H; repeat destruct H as [H|H]; try discriminate H; try contradiction; tauto. Qed.
Lemma hardware_idx : forall m, In (hardware_mnemonic m) idx_names -> index_immediate m.
Proof. intros m H. unfold index_immediate. unfold idx_names in H. cbn [In] in *. destruct m; cbn in H; repeat destruct H as [H|H]; try discriminate H; try contradiction; tauto. Qed.
Lemma encoded_length : forall i op p, encode_opcode (hardware_mnemonic (i_mnem i)) (i_mode i) = Some op -> i_mode i <> A_imm_fm -> i_mode i <> A_imm_fx -> immediate_fits i p ->
  instruction_length (i_mode i) = cpu_length op (p_m p) (p_x p).
Proof.
  intros i op p E N1 N2 [F1 F2]. apply encode_opcode_iff in E. destruct E as (R & N & F). unfold cpu_length.
  destruct F as [F|[F A]].
  - rewrite F. destruct (i_mode i); try reflexivity; congruence.
  - pose proof (forall_opcodes _ acc_forms op R) as T. cbv beta in T. destruct F as [F|F]; rewrite F in *.
    + specialize (F1 (hardware_acc _ (named _ _ _ T N))). destruct F1 as [B W]. destruct A as [A|A]; rewrite A in *; cbn; [rewrite B|rewrite W]; reflexivity.
    + specialize (F2 (hardware_idx _ (named _ _ _ T N))). destruct F2 as [B W]. destruct A as [A|A]; rewrite A in *; cbn; [rewrite B|rewrite W]; reflexivity.
Qed.

(** ** Steps of the processor depend on the mnemonic, the convention and, for REP and SEP, the operand. *)
Lemma step_same : forall o i j v c c', i_mnem i = i_mnem j -> i_ret i = i_ret j -> mode_step o i v c c' -> mode_step o j v c c'.
Proof. intros o i j v c c' M R H. unfold mode_step, modes_step in *. cbv zeta in *. rewrite M, R in H. exact H. Qed.
Lemma stops_same : forall i j, i_mnem i = i_mnem j -> i_ret i = i_ret j -> stops j -> stops i.
Proof. intros i j M R H. unfold stops in *. rewrite M, R. exact H. Qed.
Lemma step_value : forall o i v w c c', (In (i_mnem i) [M_rep; M_sep] -> v = w mod 256) -> mode_step o i v c c' -> mode_step o i w c c'.
Proof.
  intros o i v w c c' V H. assert (B : forall k, 0 <= k < 8 -> Z.testbit (w mod 256) k = Z.testbit w k) by (intros k K; change 256 with (2 ^ 8); apply Z.mod_pow2_bits_low; lia).
  unfold mode_step, modes_step in *. cbv zeta in *. destruct (i_mnem i); try exact H; rewrite V in H by (cbn; tauto); rewrite !B in H by lia; exact H.
Qed.

(** ** The simulation. *)
Record setting fuel sk files (ws : list write) a n file m src o (mem : memory) conv : Prop := {
  se_ok : assemble fuel sk files = (ws, Ok a);
  se_file : nth_error files n = Some file;
  se_mod : nth_error (as_mods a) n = Some m;
  se_reads : SpecScope.reads file src;
  se_tracked : tracked src;
  se_fenced : fenced src;
  se_modes : modes_true src o;
  se_calls : calls_true src m conv;
  se_loaded : in_memory ws mem;
  se_fits : forall k c l i, arrives src o k c -> nth_error (md_lines m) k = Some l -> ln_stmt l = SInstr i -> immediate_fits i (c_modes c) }.
Definition stmts (m : module) : list statement := map ln_stmt (md_lines m).
(** The statement [k] is to be executed and would stand at [pc]. *)
Definition ready (src : source) (m : module) (o : cpu) (k : nat) (pc : Z) (c : cpu) : Prop :=
  arrives src o k c /\ next_address (firstn k (stmts m)) (Some pc).

Lemma firstn_snoc : forall A (l : list A) k x, nth_error l k = Some x -> firstn (S k) l = firstn k l ++ [x].
Proof. induction l as [|y l IH]; intros k x H; [destruct k; discriminate H|]. destruct k as [|k]; cbn in *; [injection H as <-; reflexivity|]. rewrite (IH _ _ H). reflexivity. Qed.
Lemma stmts_nth : forall m k l, nth_error (md_lines m) k = Some l -> nth_error (stmts m) k = Some (ln_stmt l).
Proof. intros m k l H. unfold stmts. rewrite nth_error_map, H. reflexivity. Qed.
Lemma placed_iff : forall m k l pc, nth_error (md_lines m) k = Some l -> ~ is_dir D_org (ln_stmt l) -> ~ is_dir D_equ (ln_stmt l) ->
  (stands m k pc <-> next_address (firstn k (stmts m)) (Some pc)).
Proof.
  intros m k l pc L NO NE. pose proof (stmts_nth _ _ _ L) as N. unfold stands, located. fold (stmts m). split.
  - intros (before & s & after & E & LN & H). assert (X : firstn k (stmts m) = before) by (rewrite E, firstn_app, LN, Nat.sub_diag, firstn_O, app_nil_r, <- LN; apply firstn_all).
    rewrite X. assert (s = ln_stmt l) as -> by (rewrite E, nth_error_app2, LN, Nat.sub_diag in N by lia; cbn in N; congruence).
    destruct H as [(d & e & v & D & DN & _)|(_ & _ & H)]; [|exact H]. exfalso. apply NO. rewrite D. unfold is_dir. exists d. auto.
  - intros H. destruct (nth_error_split _ _ N) as (before & after & E & LN). exists before, (ln_stmt l), after. split; [exact E|]. split; [exact LN|].
    right. split; [exact NO|]. split; [exact NE|]. rewrite E, firstn_app, LN, Nat.sub_diag, firstn_O, app_nil_r, <- LN, firstn_all in H. exact H.
Qed.
Lemma not_dir : forall n i, ~ is_dir n (SInstr i).
Proof. intros n i (d & D & _). discriminate D. Qed.
Lemma zero_plus : forall a, addr24 a -> same_bank_plus a 0 = a.
Proof. intros a A. unfold addr24, same_bank_plus, bank_of, offset_of in *. lia. Qed.
Lemma plus_steps : forall a i j, same_bank_plus (same_bank_plus a i) j = same_bank_plus a (i + j).
Proof. intros a i j. unfold same_bank_plus, bank_of, offset_of. lia. Qed.
Lemma resolved_at : forall fuel sk files ws a n file m src k l, assemble fuel sk files = (ws, Ok a) -> nth_error files n = Some file -> nth_error (as_mods a) n = Some m ->
  SpecScope.reads file src -> nth_error (md_lines m) k = Some l -> exists m0, load_asm_file file = Ok m0 /\ same_scopes m0 m /\ exists s, stmt_at src k s /\ resolved s l.
Proof.
  intros fuel sk files ws a n file m src k l H NF NM RD L. pose proof (program_holds _ _ _ _ _ H) as F.
  assert (X : holds_file file m).
  { clear - F NF NM. revert n NF NM. induction F as [|f x fs xs P F IH]; intros n NF NM; [destruct n; discriminate NF|]. destruct n as [|n]; cbn in *; [congruence|eauto]. }
  destruct X as (src' & m0 & RD' & LD & SS & FR). assert (src' = src) as -> by (eapply reads_det; [exact RD'|exact RD]).
  exists m0. split; [exact LD|]. split; [exact SS|]. clear - FR L. unfold stmt_at. revert k L. induction FR as [|s x ss ls P F IH]; intros k L; [destruct k; discriminate L|].
  destruct k as [|k]; cbn in *; [injection L as <-; eauto|eauto].
Qed.

(** What was assembled for an instruction that is to be executed. *)
Lemma ready_encoded : forall fuel sk files ws a n file m src o mem conv k i pc c, setting fuel sk files ws a n file m src o mem conv ->
  ready src m o k pc c -> stmt_at src k (SInstr i) ->
  exists l i' op rest, nth_error (md_lines m) k = Some l /\ ln_stmt l = SInstr i' /\ i_mnem i' = i_mnem i /\ i_arg1 i' = i_arg1 i /\ addr24 pc /\ stands m k pc /\
    operand_list pc (context a m l) (i_mode i') (i_arg1 i) (i_arg2 i') = Ok rest /\
    instr_bytes pc (context a m l) i' = Ok (pseudo_prefix (i_mnem i) ++ op :: rest) /\
    encode_opcode (hardware_mnemonic (i_mnem i)) (i_mode i') = Some op /\
    stmt_size (ln_stmt l) = zlen (pseudo_prefix (i_mnem i) ++ op :: rest) /\
    (forall j b, nth_error (pseudo_prefix (i_mnem i) ++ op :: rest) j = Some b -> mem (same_bank_plus pc (Z.of_nat j)) = b) /\
    1 + zlen rest = cpu_length op (p_m (c_modes c)) (p_x (c_modes c)).
Proof.
  intros fuel sk files ws a n file m src o mem conv k i pc c SE [AR NA] ST.
  destruct (arrivals_reached _ _ _ _ _ _ _ _ _ _ _ _ (se_ok _ _ _ _ _ _ _ _ _ _ _ _ SE) (se_file _ _ _ _ _ _ _ _ _ _ _ _ SE) (se_mod _ _ _ _ _ _ _ _ _ _ _ _ SE) (se_reads _ _ _ _ _ _ _ _ _ _ _ _ SE) (se_tracked _ _ _ _ _ _ _ _ _ _ _ _ SE) AR) as (l & L & R & _).
  destruct (resolved_at _ _ _ _ _ _ _ _ _ _ _ (se_ok _ _ _ _ _ _ _ _ _ _ _ _ SE) (se_file _ _ _ _ _ _ _ _ _ _ _ _ SE) (se_mod _ _ _ _ _ _ _ _ _ _ _ _ SE) (se_reads _ _ _ _ _ _ _ _ _ _ _ _ SE) L) as (m0 & LD & SS & s & ST' & RS).
  assert (s = SInstr i) as -> by (unfold stmt_at in *; congruence). cbn [resolved] in RS. destruct RS as (_ & m' & SM & SL).
  exists l, (with_mode m' i). pose proof (not_dir D_org (with_mode m' i)) as NO. pose proof (not_dir D_equ (with_mode m' i)) as NE. rewrite <- SL in NO, NE.
  pose proof (proj2 (placed_iff _ _ _ pc L NO NE) NA) as PL.
  assert (PS : 0 < stmt_size (ln_stmt l)).
  { rewrite SL. cbn [stmt_size]. rewrite instr_size_eq. cbn [i_mode with_mode].
    assert (instruction_length m' > 0) by (unfold settled in SM; destruct (i_mode i); try (rewrite SM; cbn; lia); destruct SM as [[_ ->]|[_ ->]]; cbn; lia). destruct (is_pseudo _); lia. }
  destruct (program_written _ _ _ _ _ _ _ _ _ (se_ok _ _ _ _ _ _ _ _ _ _ _ _ SE) (se_mod _ _ _ _ _ _ _ _ _ _ _ _ SE) L PS) as ([adr b] & IW & VA & A24 & SB & LE). cbn [fst snd] in *.
  assert (IM : In m (as_mods a)) by (eapply nth_error_In; exact (se_mod _ _ _ _ _ _ _ _ _ _ _ _ SE)).
  pose proof (proj2 (program_located _ _ _ _ _ (se_ok _ _ _ _ _ _ _ _ _ _ _ _ SE) m IM k l pc L NE) PL) as VP. assert (adr = pc) as -> by congruence.
  rewrite SL in SB. cbn [stmt_bytes] in SB. bok SB as b' IB. injection SB as ->.
  pose proof (instr_bytes_ok _ _ _ _ IB) as (op & rest & EO & OL & EB & _ & _). cbn [i_mode i_mnem i_arg1 i_arg2 with_mode] in EO, OL, EB.
  exists op, rest. split; [exact L|]. split; [exact SL|]. split; [reflexivity|]. split; [reflexivity|]. split; [exact A24|]. split; [exact PL|].
  split; [exact OL|]. split; [rewrite <- EB; exact IB|]. split; [exact EO|]. split; [rewrite <- EB; symmetry; exact LE|].
  split.
  - intros j x J. rewrite <- EB in J. exact (se_loaded _ _ _ _ _ _ _ _ _ _ _ _ SE (pc, b) j x IW J).
  - destruct (operand_list_ok _ _ _ _ _ _ OL) as [LN _]. rewrite LN.
    refine (encoded_length (with_mode m' i) op (c_modes c) EO _ _ (se_fits _ _ _ _ _ _ _ _ _ _ _ _ SE k c l _ AR L SL)); cbn [i_mode with_mode];
      intros X; rewrite X in OL; discriminate OL.
Qed.
Lemma first_byte : forall (mem : memory) pc l, addr24 pc -> (forall j b, nth_error l j = Some b -> mem (same_bank_plus pc (Z.of_nat j)) = b) -> forall b r, l = b :: r -> mem pc = b.
Proof. intros mem pc l A H b r ->. specialize (H 0%nat b eq_refl). cbn in H. rewrite zero_plus in H by exact A. exact H. Qed.
Lemma pseudo_cases : forall m, is_pseudo m = false /\ pseudo_prefix m = [] /\ opening m = m /\ hardware_mnemonic m = m \/
  is_pseudo m = true /\ exists b, pseudo_prefix m = [b] /\ op_name b = mnem_to_string (opening m) /\ cpu_length b true true = 1 /\ forall x y, cpu_length b x y = 1.
Proof. intros m. destruct m; try (left; auto; fail); right; (split; [reflexivity|]); [exists 0x18|exists 0x38]; repeat split. Qed.
Lemma ready_begins : forall fuel sk files ws a n file m src o mem conv k i pc c, setting fuel sk files ws a n file m src o mem conv ->
  ready src m o k pc c -> stmt_at src k (SInstr i) -> begins src m mem o k i pc c.
Proof.
  intros fuel sk files ws a n file m src o mem conv k i pc c SE RY ST.
  destruct (ready_encoded _ _ _ _ _ _ _ _ _ _ _ _ _ _ _ _ SE RY ST) as (l & i' & op & rest & L & SL & MN & AG & A24 & PL & OL & IB & EO & SZ & ME & LN).
  destruct RY as [AR NA]. split; [exact AR|]. split; [exact ST|]. split; [exact PL|].
  apply encode_opcode_iff in EO. destruct EO as (R & N & _).
  destruct (pseudo_cases (i_mnem i)) as [(P & PP & OP & HM)|(P & b & PP & OP & _ & _)]; rewrite P, PP in *; cbn [app] in *.
  - pose proof (first_byte _ _ _ A24 ME _ _ eq_refl) as F. split; [rewrite F, OP, N, HM; reflexivity|]. exists l. split; [exact L|].
    rewrite SZ. unfold fetch_length. rewrite F, <- LN. unfold zlen. cbn [List.length]. lia.
  - pose proof (first_byte _ _ _ A24 ME _ _ eq_refl) as F. split; [rewrite F; exact OP|]. exists l. split; [exact L|].
    specialize (ME 1%nat op eq_refl). change (Z.of_nat 1) with 1 in ME. unfold fetch_length. rewrite ME, SZ, <- LN. unfold zlen. cbn [List.length]. lia.
Qed.

(** From a place in the source, past the directives, to the next instruction. *)
Lemma settle : forall fuel sk files ws a n file m src o mem conv, setting fuel sk files ws a n file m src o mem conv ->
  forall d k pc c, (List.length (md_lines m) - k <= d)%nat -> ready src m o k pc c -> exists k' i, begins src m mem o k' i pc c.
Proof.
  intros fuel sk files ws a n file m src o mem conv SE. induction d as [|d IH]; intros k pc c D RY; pose proof RY as [AR NA];
    destruct (arrivals_reached _ _ _ _ _ _ _ _ _ _ _ _ (se_ok _ _ _ _ _ _ _ _ _ _ _ _ SE) (se_file _ _ _ _ _ _ _ _ _ _ _ _ SE) (se_mod _ _ _ _ _ _ _ _ _ _ _ _ SE) (se_reads _ _ _ _ _ _ _ _ _ _ _ _ SE) (se_tracked _ _ _ _ _ _ _ _ _ _ _ _ SE) AR) as (l & L & R & ND).
  { assert (X : nth_error (md_lines m) k <> None) by congruence. apply nth_error_Some in X. lia. }
  destruct (resolved_at _ _ _ _ _ _ _ _ _ _ _ (se_ok _ _ _ _ _ _ _ _ _ _ _ _ SE) (se_file _ _ _ _ _ _ _ _ _ _ _ _ SE) (se_mod _ _ _ _ _ _ _ _ _ _ _ _ SE) (se_reads _ _ _ _ _ _ _ _ _ _ _ _ SE) L) as (m0 & LD & SS & s & ST & RS).
  destruct s as [i|dd]; [exists k, i; eapply ready_begins; eassumption|]. cbn [resolved] in RS.
  assert (NH : d_name dd <> D_halt) by (eapply (proj1 (se_fenced _ _ _ _ _ _ _ _ _ _ _ _ SE)); [eapply arrives_path; exact AR|exact ST]).
  specialize (ND _ RS). assert (LT : (k < List.length (md_lines m))%nat) by (apply nth_error_Some; congruence).
  apply (IH (S k)); [lia|]. split.
  - eapply ar_directive; [exact AR|exact ST|exact NH|]. intros DM. eapply (se_modes _ _ _ _ _ _ _ _ _ _ _ _ SE); eassumption.
  - rewrite (firstn_snoc _ _ _ _ (stmts_nth _ _ _ L)), RS. assert (A24 : addr24 pc) by (eapply next_address_range; exact NA).
    replace pc with (same_bank_plus pc (stmt_size (SDir dd))).
    + apply na_later; [exact NA|]. intros (d' & E & N). injection E as <-. apply ND. rewrite N. cbn. tauto.
    + cbn [stmt_size]. unfold directive_size. cbn [In] in ND. destruct (d_name dd); try (apply zero_plus; exact A24); exfalso; apply ND; tauto.
Qed.
Lemma begins_ready : forall src m mem o k i pc c, begins src m mem o k i pc c -> (forall l, nth_error (md_lines m) k = Some l -> exists i', ln_stmt l = SInstr i') -> ready src m o k pc c.
Proof.
  intros src m mem o k i pc c (AR & ST & PL & _ & l & L & _) H. split; [exact AR|]. destruct (H _ L) as [i' E].
  apply (placed_iff _ _ _ pc L) in PL; [exact PL| |]; rewrite E; apply not_dir.
Qed.
Lemma begins_encoded : forall fuel sk files ws a n file m src o mem conv k i pc c, setting fuel sk files ws a n file m src o mem conv ->
  begins src m mem o k i pc c -> ready src m o k pc c.
Proof.
  intros fuel sk files ws a n file m src o mem conv k i pc c SE B. eapply begins_ready; [exact B|]. intros l L. destruct B as (_ & ST & _).
  destruct (resolved_at _ _ _ _ _ _ _ _ _ _ _ (se_ok _ _ _ _ _ _ _ _ _ _ _ _ SE) (se_file _ _ _ _ _ _ _ _ _ _ _ _ SE) (se_mod _ _ _ _ _ _ _ _ _ _ _ _ SE) (se_reads _ _ _ _ _ _ _ _ _ _ _ _ SE) L) as (m0 & LD & SS & s & ST' & RS).
  assert (s = SInstr i) as -> by (unfold stmt_at in *; congruence). destruct RS as (_ & m' & _ & E). eauto.
Qed.
(** The operand that the source states. *)
Lemma operand_stated : forall pc cx a x y rest w e, operand_list pc cx a x y = Ok rest -> x = Some e -> means (fun _ => None) e w -> eval_opt cx x = Ok w.
Proof.
  intros pc cx a x y rest w e _ -> M. cbn [eval_opt]. apply means_eval. eapply means_mono; [|exact M]. intros i v H. discriminate H.
Qed.
Lemma status_operand : forall i op pc cx a y rest, In (i_mnem i) [M_rep; M_sep] -> encode_opcode (i_mnem i) a = Some op -> operand_list pc cx a (i_arg1 i) y = Ok rest ->
  exists w, eval_opt cx (i_arg1 i) = Ok w /\ rest = [w mod 256].
Proof.
  intros i op pc cx a y rest IN E O. assert (A : a = A_imm_b).
  { apply encode_opcode_iff in E. destruct E as (R & N & F). cbn [In] in IN.
    assert (T : forallb (fun op => implb (named_in [M_rep; M_sep] op) (match op_form op with Imm8 => true | _ => false end)) all_opcodes = true) by (vm_compute; reflexivity).
    pose proof (forall_opcodes _ T op R) as X. cbv beta in X.
    assert (Y : named_in [M_rep; M_sep] op = true) by (unfold named_in; apply existsb_exists; destruct IN as [IN|[IN|[]]]; rewrite <- IN in N; rewrite N; eexists; (split; [|apply String.eqb_refl]); cbn; tauto).
    rewrite Y in X. cbn [implb] in X. destruct (op_form op) eqn:FO; try discriminate X. destruct F as [F|[[F|F] _]]; try discriminate F. apply (form_of_inj a A_imm_b). symmetry. exact F. }
  rewrite A in O. cbn [operand_list] in O. bok O as w W. injection O as <-. exists w. auto.
Qed.

(** ** One step. *)
Lemma next_ready : forall fuel sk files ws a n file m src o mem conv k i v pc c c', setting fuel sk files ws a n file m src o mem conv ->
  ready src m o k pc c -> stmt_at src k (SInstr i) -> ~ stops i -> operand_value i v -> mode_step o i v c c' ->
  forall l, nth_error (md_lines m) k = Some l -> ready src m o (S k) (same_bank_plus pc (stmt_size (ln_stmt l))) c'.
Proof.
  intros fuel sk files ws a n file m src o mem conv k i v pc c c' SE RY ST NS OV MS l L.
  destruct (ready_encoded _ _ _ _ _ _ _ _ _ _ _ _ _ _ _ _ SE RY ST) as (l' & i' & op & rest & L' & SL & _). assert (l' = l) as -> by congruence. destruct RY as [AR NA].
  split; [eapply ar_next; eassumption|]. rewrite (firstn_snoc _ _ _ _ (stmts_nth _ _ _ L)). apply na_later; [exact NA|]. rewrite SL. apply not_dir.
Qed.
Lemma performs_is : forall mem conv pc j m, performs mem conv pc j -> op_name (mem pc) = mnem_to_string m -> i_mnem j = m.
Proof. intros mem conv pc j m [P _] E. rewrite E in P. apply mnem_name_inj. exact P. Qed.
Definition stated_value (cx : lookup_ctx) (x : option expr) : Z := match eval_opt cx x with Ok w => w | _ => 0 end.
Lemma stated_operand : forall pc cx a i y rest, operand_list pc cx a (i_arg1 i) y = Ok rest -> operand_value i (stated_value cx (i_arg1 i)).
Proof. intros pc cx a i y rest O e w E M. unfold stated_value. rewrite (operand_stated _ _ _ _ _ _ _ _ O E M). reflexivity. Qed.
Lemma begins_next : forall fuel sk files ws a n file m src o mem conv k i pc c c' j, setting fuel sk files ws a n file m src o mem conv ->
  begins src m mem o k i pc c -> performs mem conv pc j -> ~ stops j -> mode_step o j (mem (same_bank_plus pc 1)) c c' ->
  exists k' i', begins src m mem o k' i' (same_bank_plus pc (fetch_length mem pc c)) c' \/ continues src m mem o k' i' (same_bank_plus pc (fetch_length mem pc c)) c' /\ ~ stops i'.
Proof.
  intros fuel sk files ws a n file m src o mem conv k i pc c c' j SE B PF NS MS. pose proof (begins_encoded _ _ _ _ _ _ _ _ _ _ _ _ _ _ _ _ SE B) as RY.
  pose proof B as (AR & ST & PL & ON & lx & LX & SX).
  destruct (ready_encoded _ _ _ _ _ _ _ _ _ _ _ _ _ _ _ _ SE RY ST) as (l & i' & op & rest & L & SL & MN & AG & A24 & _ & OL & IB & EO & SZ & ME & LN).
  assert (lx = l) as -> by congruence. pose proof (performs_is _ _ _ _ _ PF ON) as MJ. destruct PF as [_ RJ].
  assert (RI : i_ret j = i_ret i) by (rewrite RJ; eapply (se_calls _ _ _ _ _ _ _ _ _ _ _ _ SE); eassumption).
  destruct (pseudo_cases (i_mnem i)) as [(P & PP & OP & HM)|(P & b & PP & OP & _ & CL)]; rewrite P, PP in *; cbn [app] in *.
  - rewrite OP in MJ. assert (NI : ~ stops i) by (intros X; apply NS; eapply stops_same; [exact MJ|exact RI|exact X]).
    assert (MI : mode_step o i (stated_value (context a m l) (i_arg1 i)) c c').
    { apply (step_same _ _ i _ _ _ MJ RI) in MS. revert MS. apply step_value. intros IN. rewrite HM in EO.
      destruct (status_operand _ _ _ _ _ _ _ IN EO OL) as (w & W & ->). specialize (ME 1%nat _ eq_refl). change (Z.of_nat 1) with 1 in ME. rewrite ME.
      unfold stated_value. rewrite W. reflexivity. }
    pose proof (next_ready _ _ _ _ _ _ _ _ _ _ _ _ _ _ _ _ _ _ SE RY ST NI (stated_operand _ _ _ _ _ _ OL) MI l L) as NR. rewrite SX in NR.
    destruct (settle _ _ _ _ _ _ _ _ _ _ _ _ SE _ _ _ _ (le_n _) NR) as (k' & i2 & B'). exists k', i2. left. exact B'.
  - exists k, i. right.
    assert (NI : ~ stops i).
    { intros [X|X]; [|apply NS; right; congruence]. cbn [In] in X. destruct (i_mnem i); try discriminate P; repeat destruct X as [X|X]; try discriminate X; exact X. }
    split; [|exact NI]. pose proof (first_byte _ _ _ A24 ME _ _ eq_refl) as F.
    assert (FL : fetch_length mem pc c = 1) by (unfold fetch_length; rewrite F; apply CL). rewrite FL. exists pc, c. split; [exact B|]. split; [exact P|]. split; [reflexivity|].
    specialize (ME 1%nat op eq_refl). change (Z.of_nat 1) with 1 in ME. apply encode_opcode_iff in EO. destruct EO as (_ & N & _). split; [rewrite ME; exact N|].
    unfold mode_step, modes_step in MS. cbv zeta in MS. rewrite MJ in MS. destruct (i_mnem i); try discriminate P; cbn in MS; destruct MS as [M1 M2]; (split; [rewrite M1; reflexivity|exact M2]).
Qed.
Lemma continues_next : forall fuel sk files ws a n file m src o mem conv k i pc c c' j, setting fuel sk files ws a n file m src o mem conv ->
  continues src m mem o k i pc c -> ~ stops i -> performs mem conv pc j -> mode_step o j (mem (same_bank_plus pc 1)) c c' ->
  exists k' i', begins src m mem o k' i' (same_bank_plus pc (fetch_length mem pc c)) c'.
Proof.
  intros fuel sk files ws a n file m src o mem conv k i pc c c' j SE (adr & c0 & B & P & EP & ON & CM & CS) NI PF MS.
  pose proof (begins_encoded _ _ _ _ _ _ _ _ _ _ _ _ _ _ _ _ SE B) as RY. pose proof B as (AR & ST & PL & _ & lx & LX & SX).
  destruct (ready_encoded _ _ _ _ _ _ _ _ _ _ _ _ _ _ _ _ SE RY ST) as (l & i' & op & rest & L & SL & MN & AG & A24 & _ & OL & IB & EO & SZ & ME & LN).
  assert (lx = l) as -> by congruence. pose proof (performs_is _ _ _ _ _ PF ON) as MJ. rewrite P in SX.
  assert (MI : mode_step o i (stated_value (context a m l) (i_arg1 i)) c0 c').
  { unfold mode_step, modes_step, carry_changed in *. cbv zeta in *. rewrite MJ in MS. destruct (i_mnem i); try discriminate P; cbn in *; destruct MS as [M1 M2]; rewrite CM in M1; cbn in M1;
      (split; [exact M1|congruence]). }
  pose proof (next_ready _ _ _ _ _ _ _ _ _ _ _ _ _ _ _ _ _ _ SE RY ST NI (stated_operand _ _ _ _ _ _ OL) MI l L) as NR. rewrite SX in NR.
  replace (same_bank_plus pc (fetch_length mem pc c)) with (same_bank_plus adr (1 + fetch_length mem (same_bank_plus adr 1) c0)); [exact (settle _ _ _ _ _ _ _ _ _ _ _ _ SE _ _ _ _ (le_n _) NR)|].
  rewrite EP, plus_steps. unfold fetch_length. rewrite CM. reflexivity.
Qed.
Lemma branch_pseudo : forall i, relative_branch (i_mnem i) -> is_pseudo (i_mnem i) = false /\ pseudo_prefix (i_mnem i) = [] /\ hardware_mnemonic (i_mnem i) = i_mnem i.
Proof. intros i H. unfold relative_branch in H. cbn [In] in H. destruct (i_mnem i); auto; repeat destruct H as [H|H]; try discriminate H; contradiction. Qed.
Lemma branch_forms : forallb (fun op => implb (named_in short_branches op) (match op_form op with Rel8 => true | _ => false end) &&
  implb (named_in [M_brl] op) (match op_form op with Rel16 => true | _ => false end))%bool all_opcodes = true.
Proof. vm_compute. reflexivity. Qed.
Lemma in_named : forall l op m, In m l -> op_name op = mnem_to_string m -> named_in l op = true.
Proof. intros l op m I E. unfold named_in. apply existsb_exists. exists m. split; [exact I|]. rewrite E. apply String.eqb_refl. Qed.
Lemma branch_mode : forall m a op, relative_branch m -> encode_opcode m a = Some op -> In m short_branches /\ a = A_rel8 \/ m = M_brl /\ a = A_rel16.
Proof.
  intros m a op RB E. apply encode_opcode_iff in E. destruct E as (R & N & F). pose proof (forall_opcodes _ branch_forms op R) as X. cbv beta in X. apply andb_true_iff in X. destruct X as [X1 X2].
  assert (C : In m short_branches \/ m = M_brl) by (unfold relative_branch in RB; unfold short_branches; cbn [In] in *; intuition auto).
  destruct C as [C|C].
  - left. split; [exact C|]. rewrite (in_named _ _ _ C N) in X1. cbn [implb] in X1. destruct (op_form op); try discriminate X1. destruct F as [F|[[F|F] _]]; try discriminate F.
    apply (form_of_inj a A_rel8). symmetry. exact F.
  - right. split; [exact C|]. rewrite (in_named [M_brl] op m) in X2; [|left; symmetry; exact C|exact N]. cbn [implb] in X2. destruct (op_form op); try discriminate X2. destruct F as [F|[[F|F] _]]; try discriminate F.
    apply (form_of_inj a A_rel16). symmetry. exact F.
Qed.
(** The bytes of an assembled branch lead to the value of its operand. *)
Lemma branch_reaches : forall pc cx i b t, relative_branch (i_mnem i) -> addr24 pc -> eval_opt cx (i_arg1 i) = Ok t -> addr24 t ->
  instr_bytes pc cx i = Ok b -> branch_destination pc b = Some t.
Proof.
  intros pc cx i b t RB A24 EV T24 IB. pose proof (instr_bytes_ok _ _ _ _ IB) as (op & rest & EO & OL & EB & _ & _).
  destruct (branch_pseudo _ RB) as (_ & PP & HM). rewrite HM in EO.
  assert (T32 : int32 t) by (unfold addr24, int32 in *; lia). assert (T0 : 0 <= t <= 2 ^ 24) by (unfold addr24 in *; lia).
  destruct (branch_mode _ _ _ RB EO) as [[M A]|[M A]]; rewrite A in OL; cbn [operand_list] in OL; rewrite EV in OL; cbn [bind] in OL; rewrite mk_address_range in OL by exact T0; cbn [bind] in OL.
  - assert (K : branch_kind i 2 8) by (left; auto). destruct (branch_exact pc cx i 2 8 K A24 t EV T32) as [D _].
    destruct (displacement pc t 2 A24 T0) as [DE [(d & R & S)|[S _]]]; rewrite S in OL; cbn [bind] in OL; [|discriminate OL].
    destruct ((127 <? d) || (d <? -128))%bool eqn:X; [discriminate OL|]. destruct D as (b' & IB' & _ & _ & BD).
    + exists d. split; [change (2 ^ (8 - 1)) with 128; lia|]. apply (proj1 (DE d R)). exact S.
    + rewrite IB in IB'. injection IB' as <-. exact BD.
  - assert (K : branch_kind i 3 16) by (right; cbn; auto). destruct (branch_exact pc cx i 3 16 K A24 t EV T32) as [D _].
    destruct (displacement pc t 3 A24 T0) as [DE [(d & R & S)|[S _]]]; rewrite S in OL; cbn [bind] in OL; [|discriminate OL].
    destruct D as (b' & IB' & _ & _ & BD).
    + exists d. split; [change (2 ^ (16 - 1)) with (2 ^ 15); exact R|]. apply (proj1 (DE d R)). exact S.
    + rewrite IB in IB'. injection IB' as <-. exact BD.
Qed.
Lemma map_seq : forall (f : nat -> Z) b s, (forall j x, nth_error b j = Some x -> f (s + j)%nat = x) -> map f (seq s (List.length b)) = b.
Proof.
  intros f. induction b as [|y b IH]; intros s H; [reflexivity|]. cbn [List.length seq map]. f_equal.
  - rewrite <- (H 0%nat y eq_refl). f_equal. lia.
  - apply IH. intros j x J. rewrite <- (H (S j) x J). f_equal. lia.
Qed.
Lemma fetched_bytes : forall mem pc c b, (forall j x, nth_error b j = Some x -> mem (same_bank_plus pc (Z.of_nat j)) = x) -> zlen b = fetch_length mem pc c -> fetched mem pc c = b.
Proof. intros mem pc c b H L. unfold fetched. rewrite <- L. unfold zlen. rewrite Nat2Z.id. apply map_seq. exact H. Qed.
Lemma begins_branch : forall fuel sk files ws a n file m src o mem conv k i pc c c' j t, setting fuel sk files ws a n file m src o mem conv ->
  begins src m mem o k i pc c -> performs mem conv pc j -> relative_branch (i_mnem j) -> branch_destination pc (fetched mem pc c) = Some t -> branch_step j c c' ->
  exists k' i', begins src m mem o k' i' t c'.
Proof.
  intros fuel sk files ws a n file m src o mem conv k i pc c c' j t SE B PF RB BD BS. pose proof (begins_encoded _ _ _ _ _ _ _ _ _ _ _ _ _ _ _ _ SE B) as RY.
  pose proof B as (AR & ST & PL & ON & lx & LX & SX).
  destruct (ready_encoded _ _ _ _ _ _ _ _ _ _ _ _ _ _ _ _ SE RY ST) as (l & i' & op & rest & L & SL & MN & AG & A24 & _ & OL & IB & EO & SZ & ME & LN).
  assert (lx = l) as -> by congruence. pose proof (performs_is _ _ _ _ _ PF ON) as MJ.
  assert (MI : i_mnem j = i_mnem i).
  { rewrite MJ. rewrite MJ in RB. unfold relative_branch in RB. cbn [In] in RB. destruct (i_mnem i); try reflexivity; repeat destruct RB as [RB|RB]; try discriminate RB; contradiction. }
  rewrite MI in RB. destruct (branch_pseudo _ RB) as (P & PP & HM). rewrite P in SX. rewrite PP in *. cbn [app] in *.
  destruct (arrivals_reached _ _ _ _ _ _ _ _ _ _ _ _ (se_ok _ _ _ _ _ _ _ _ _ _ _ _ SE) (se_file _ _ _ _ _ _ _ _ _ _ _ _ SE) (se_mod _ _ _ _ _ _ _ _ _ _ _ _ SE) (se_reads _ _ _ _ _ _ _ _ _ _ _ _ SE) (se_tracked _ _ _ _ _ _ _ _ _ _ _ _ SE) AR) as (l2 & L2 & R2 & _).
  destruct (program_aimed _ _ _ _ _ _ _ _ _ _ _ _ (se_ok _ _ _ _ _ _ _ _ _ _ _ _ SE) (se_file _ _ _ _ _ _ _ _ _ _ _ _ SE) (se_mod _ _ _ _ _ _ _ _ _ _ _ _ SE) (se_reads _ _ _ _ _ _ _ _ _ _ _ _ SE) L2 R2 ST RB) as (nm & ty & t0 & AE & DE).
  assert (AR' : arrives src o (Z.to_nat t0) c').
  { eapply ar_branch; [exact AR|exact ST|exact RB|exact AE|exact DE|]. unfold branch_step in *. rewrite <- MI. exact BS. }
  destruct (arrivals_reached _ _ _ _ _ _ _ _ _ _ _ _ (se_ok _ _ _ _ _ _ _ _ _ _ _ _ SE) (se_file _ _ _ _ _ _ _ _ _ _ _ _ SE) (se_mod _ _ _ _ _ _ _ _ _ _ _ _ SE) (se_reads _ _ _ _ _ _ _ _ _ _ _ _ SE) (se_tracked _ _ _ _ _ _ _ _ _ _ _ _ SE) AR') as (l3 & L3 & R3 & ND).
  destruct (resolved_at _ _ _ _ _ _ _ _ _ _ _ (se_ok _ _ _ _ _ _ _ _ _ _ _ _ SE) (se_file _ _ _ _ _ _ _ _ _ _ _ _ SE) (se_mod _ _ _ _ _ _ _ _ _ _ _ _ SE) (se_reads _ _ _ _ _ _ _ _ _ _ _ _ SE) L3) as (m0 & LD & SS & s3 & ST3 & RS3).
  destruct (values_denote _ _ _ _ _ _ nm (assembler_ctx (as_mods a) (as_names a)) LD (se_reads _ _ _ _ _ _ _ _ _ _ _ _ SE) SS L) as [VD _]. destruct (VD _ DE) as (l4 & L4 & EV). assert (l4 = l3) as -> by congruence.
  assert (NO : ~ is_dir D_org (ln_stmt l3)) by (intros (d & E & N); apply (ND _ E); rewrite N; cbn; tauto).
  assert (NE : ~ is_dir D_equ (ln_stmt l3)).
  { intros (d & E & N). destruct s3 as [i3|d3]; cbn [resolved] in RS3; [destruct RS3 as (_ & mm & _ & RS3); congruence|].
    apply (proj2 (se_fenced _ _ _ _ _ _ _ _ _ _ _ _ SE) k i nm ty t0 d3 (arrives_path _ _ _ _ AR) ST RB AE DE ST3). congruence. }
  fold (context a m l) in EV.
  assert (VX : exists v, ln_value l3 = Some v /\ eval_opt (context a m l) (i_arg1 i') = Ok v).
  { rewrite AG, AE. cbn [eval_opt eval]. rewrite EV. destruct (ln_value l3) as [v|] eqn:V; [eauto|]. exfalso. rewrite HM in EO. destruct (branch_mode _ _ _ RB EO) as [[_ A]|[_ A]];
      rewrite A, AE in OL; cbn [operand_list eval_opt eval] in OL; rewrite EV in OL; discriminate OL. }
  destruct VX as (v & V & EVV). assert (IM : In m (as_mods a)) by (eapply nth_error_In; exact (se_mod _ _ _ _ _ _ _ _ _ _ _ _ SE)).
  pose proof (proj1 (program_located _ _ _ _ _ (se_ok _ _ _ _ _ _ _ _ _ _ _ _ SE) m IM _ l3 v L3 NE) V) as PV. fold (stands m (Z.to_nat t0) v) in PV.
  apply (placed_iff _ _ _ v L3 NO NE) in PV. assert (V24 : addr24 v) by (eapply next_address_range; exact PV).
  rewrite <- MN in RB. pose proof (branch_reaches _ _ _ _ _ RB A24 EVV V24 IB) as BR.
  rewrite (fetched_bytes mem pc c (op :: rest) ME) in BD; [|rewrite <- SZ; exact SX]. rewrite BR in BD. injection BD as <-.
  exact (settle _ _ _ _ _ _ _ _ _ _ _ _ SE _ _ _ _ (le_n _) (conj AR' PV)).
Qed.

Lemma follows_source : forall fuel sk files ws a n file m src o mem conv k0 d0 a0 pc c, setting fuel sk files ws a n file m src o mem conv ->
  stmt_at src k0 (SDir d0) -> d_name d0 = D_entry -> stands m k0 a0 -> mem_arrives mem conv a0 (d_flags d0) o pc c ->
  exists k i, begins src m mem o k i pc c \/ continues src m mem o k i pc c /\ ~ stops i.
Proof.
  intros fuel sk files ws a n file m src o mem conv k0 d0 a0 pc c SE ST DN PL MA. induction MA as [MO FD|pc c c' j MA IH PF NS MS|pc c c' j t MA IH PF RB BD BS].
  - assert (AR : arrives src o (S k0) o) by (eapply ar_entry; eassumption).
    assert (X : exists l, nth_error (md_lines m) k0 = Some l).
    { destruct PL as (bf & s & af & E & LN & _). assert (Y : nth_error (stmts m) k0 = Some s) by (unfold stmts; rewrite E, nth_error_app2, LN, Nat.sub_diag by lia; reflexivity).
      unfold stmts in Y. rewrite nth_error_map in Y. destruct (nth_error (md_lines m) k0) as [l|]; [eauto|discriminate Y]. }
    destruct X as [l L].
    destruct (resolved_at _ _ _ _ _ _ _ _ _ _ _ (se_ok _ _ _ _ _ _ _ _ _ _ _ _ SE) (se_file _ _ _ _ _ _ _ _ _ _ _ _ SE) (se_mod _ _ _ _ _ _ _ _ _ _ _ _ SE) (se_reads _ _ _ _ _ _ _ _ _ _ _ _ SE) L) as (m0 & LD & SS & s & ST' & RS).
    assert (s = SDir d0) as -> by (unfold stmt_at in *; congruence). cbn [resolved] in RS.
    assert (NO : forall x, x <> D_entry -> ~ is_dir x (ln_stmt l)) by (intros x NX (d & E & N); apply NX; congruence).
    apply (placed_iff _ _ _ a0 L (NO D_org ltac:(discriminate)) (NO D_equ ltac:(discriminate))) in PL. assert (A24 : addr24 a0) by (eapply next_address_range; exact PL).
    assert (NA : next_address (firstn (S k0) (stmts m)) (Some a0)).
    { rewrite (firstn_snoc _ _ _ _ (stmts_nth _ _ _ L)). replace a0 with (same_bank_plus a0 (stmt_size (ln_stmt l))); [apply na_later; [exact PL|apply NO; discriminate]|].
      rewrite RS. cbn [stmt_size]. unfold directive_size. rewrite DN. apply zero_plus. exact A24. }
    destruct (settle _ _ _ _ _ _ _ _ _ _ _ _ SE _ _ _ _ (le_n _) (conj AR NA)) as (k & i & B). exists k, i. left. exact B.
  - destruct IH as (k & i & [B|[C NI]]); [eapply begins_next; eassumption|]. destruct (continues_next _ _ _ _ _ _ _ _ _ _ _ _ _ _ _ _ _ _ SE C NI PF MS) as (k' & i' & B). exists k', i'. left. exact B.
  - destruct IH as (k & i & [B|[C NI]]).
    + destruct (begins_branch _ _ _ _ _ _ _ _ _ _ _ _ _ _ _ _ _ _ _ SE B PF RB BD BS) as (k' & i' & B'). exists k', i'. left. exact B'.
    + exfalso. destruct C as (adr & c0 & _ & P & _ & ON & _). rewrite (performs_is _ _ _ _ _ PF ON) in RB. unfold relative_branch in RB. cbn [In] in RB.
      destruct (i_mnem i); try discriminate P; cbn in RB; repeat destruct RB as [RB|RB]; try discriminate RB; contradiction.
Qed.

(** ** What the analysis guarantees. *)
Lemma predictable_fits : forall fuel sk files ws a n file m src o, assemble fuel sk files = (ws, Ok a) -> nth_error files n = Some file -> nth_error (as_mods a) n = Some m ->
  SpecScope.reads file src -> tracked src -> predictable src m ->
  forall k c l i, arrives src o k c -> nth_error (md_lines m) k = Some l -> ln_stmt l = SInstr i -> immediate_fits i (c_modes c).
Proof.
  intros fuel sk files ws a n file m src o H NF NM RD TR P k c l i AR L SL. destruct P as [P|[[f P]|[P|P]]].
  - destruct (forward_exact _ _ _ _ _ _ _ _ _ _ _ _ _ H NF NM RD TR P AR L) as [_ F]. apply F. exact SL.
  - exact (steady_fits _ _ _ _ _ _ _ _ _ _ _ _ _ _ _ H NF NM RD P AR L SL).
  - destruct (resolved_at _ _ _ _ _ _ _ _ _ _ _ H NF NM RD L) as (m0 & _ & _ & s & ST & RS).
    destruct s as [i0|d]; cbn [resolved] in RS; [|congruence]. destruct RS as (_ & m' & SM & E). rewrite SL in E. injection E as E.
    assert (DE : In m' [A_imm_b; A_imm_w] \/ ~ In m' [A_imm_b; A_imm_w]) by (clear; destruct m'; cbn; try (left; tauto); right; intuition discriminate).
    destruct DE as [IN|NI].
    2: { split; intros _; split; intros X; exfalso; apply NI; rewrite E in X; cbn [with_mode i_mode] in X; rewrite X; cbn; tauto. }
    destruct (stmt_at_in _ _ _ ST) as [labels SI].
    assert (MI : In (i_mode i0) [A_imm_fm; A_imm_fx; A_imm_b; A_imm_w]).
    { unfold settled in SM. cbn [In] in *. destruct (i_mode i0); try tauto; rewrite SM in IN; destruct IN as [IN|[IN|[]]]; discriminate IN. }
    assert (SS : accumulator_immediate (i_mnem i) \/ index_immediate (i_mnem i) -> i_suffix i <> S_none).
    { intros X. rewrite E in *. cbn [with_mode i_mnem i_suffix] in *. eapply P; eassumption. }
    split; intros X; refine ((fun F => _) (suffix_sound _ _ _ _ _ _ _ _ _ _ _ _ _ _ H NF NM RD TR AR L SL (SS _))); auto; destruct F as [F1 F2]; auto.
  - destruct (stable_exact _ _ _ _ _ _ _ _ _ _ _ _ _ H NF NM RD TR P AR L) as [_ F]. apply F. exact SL.
Qed.
Lemma program_follows : forall fuel sk files ws a n file m src o mem conv k0 d0 a0 pc c, assemble fuel sk files = (ws, Ok a) -> nth_error files n = Some file ->
  nth_error (as_mods a) n = Some m -> SpecScope.reads file src -> tracked src -> fenced src -> predictable src m -> in_memory ws mem -> modes_true src o -> calls_true src m conv ->
  stmt_at src k0 (SDir d0) -> d_name d0 = D_entry -> stands m k0 a0 -> mem_arrives mem conv a0 (d_flags d0) o pc c ->
  exists k i, begins src m mem o k i pc c \/ continues src m mem o k i pc c.
Proof.
  intros fuel sk files ws a n file m src o mem conv k0 d0 a0 pc c H NF NM RD TR FE PR IM MT CT ST DN SD MA.
  assert (SE : setting fuel sk files ws a n file m src o mem conv).
  { constructor; try assumption. eapply predictable_fits; eassumption. }
  destruct (follows_source _ _ _ _ _ _ _ _ _ _ _ _ _ _ _ _ _ SE ST DN SD MA) as (k & i & [B|[C _]]); exists k, i; auto.
Qed.

(** ** Jumps and calls. *)
Lemma jump_bytes : forall fuel sk files ws a n file m src mem k i pc nm ty t adr l i', assemble fuel sk files = (ws, Ok a) -> nth_error files n = Some file ->
  nth_error (as_mods a) n = Some m -> SpecScope.reads file src -> in_memory ws mem -> stmt_at src k (SInstr i) -> stands m k pc ->
  In (i_mnem i) [M_jmp; M_jsr; M_jsl] -> nth_error (md_lines m) k = Some l -> ln_stmt l = SInstr i' -> In (i_mode i') [A_dir_w; A_dir_l] ->
  i_arg1 i = Some (EId (FullId None nm) ty) -> denotes src (Z.of_nat k) nm t -> stands m (Z.to_nat t) adr ->
  jump_target mem pc = Some (match i_mode i' with A_dir_l => adr mod 2 ^ 24 | _ => bank_of pc * 2 ^ 16 + offset_of adr end).
Proof.
  intros fuel sk files ws a n file m src mem k i pc nm ty t adr l i' H NF NM RD IM ST SD JM L SL MO AE DE TD.
  destruct (resolved_at _ _ _ _ _ _ _ _ _ _ _ H NF NM RD L) as (m0 & LD & SS & s & ST' & RS).
  assert (s = SInstr i) as -> by (unfold stmt_at in *; congruence). cbn [resolved] in RS. destruct RS as (_ & m' & SM & SL'). rewrite SL in SL'. injection SL' as EI.
  assert (NE : ~ is_dir D_equ (ln_stmt l)) by (rewrite SL; apply not_dir).
  assert (PS : 0 < stmt_size (ln_stmt l)).
  { rewrite SL. cbn [stmt_size]. rewrite instr_size_eq. cbn [In] in MO. destruct MO as [MO|[MO|[]]]; rewrite <- MO; cbn [instruction_length]; destruct (is_pseudo _); lia. }
  destruct (program_written _ _ _ _ _ _ _ _ _ H NM L PS) as ([x b] & IW & VA & A24 & SB & LE). cbn [fst snd] in *.
  assert (IA : In m (as_mods a)) by (eapply nth_error_In; exact NM).
  pose proof (proj2 (program_located _ _ _ _ _ H m IA k l pc L NE) SD) as VP. assert (x = pc) as -> by congruence.
  rewrite SL in SB. cbn [stmt_bytes] in SB. bok SB as b' IB. injection SB as ->.
  pose proof (instr_bytes_ok _ _ _ _ IB) as (op & rest & EO & OL & EB & _ & _).
  assert (AG : i_arg1 i' = i_arg1 i) by (rewrite EI; reflexivity). assert (MN : i_mnem i' = i_mnem i) by (rewrite EI; reflexivity).
  assert (HM : pseudo_prefix (i_mnem i') = [] /\ hardware_mnemonic (i_mnem i') = i_mnem i) by (rewrite MN; cbn [In] in JM; repeat (destruct JM as [<-|JM]; [split; reflexivity|]); destruct JM).
  destruct HM as [PP HM]. rewrite PP in EB. rewrite HM in EO. cbn [app] in EB.
  destruct (values_denote _ _ _ _ _ _ nm (assembler_ctx (as_mods a) (as_names a)) LD RD SS L) as [VD _]. destruct (VD _ DE) as (l4 & L4 & EV). fold (context a m l) in EV.
  assert (V4 : ln_value l4 = Some adr).
  { apply (program_located _ _ _ _ _ H m IA _ l4 adr L4); [|exact TD]. intros (d & E & N). destruct TD as (bf & s & af & E2 & LN & TD).
    assert (s = ln_stmt l4).
    { pose proof (stmts_nth _ _ _ L4) as Y. unfold stmts in Y. rewrite E2, nth_error_app2, LN, Nat.sub_diag in Y by lia. cbn in Y. congruence. }
    subst s. destruct TD as [(d' & e & v & D & DN & _)|(_ & NQ & _)]; [congruence|]. apply NQ. exists d. auto. }
  rewrite V4 in EV. assert (EVV : eval_opt (context a m l) (i_arg1 i') = Ok adr) by (rewrite AG, AE; exact EV).
  assert (ME : forall j y, nth_error b j = Some y -> mem (same_bank_plus pc (Z.of_nat j)) = y) by (intros j y J; exact (IM (pc, b) j y IW J)). rewrite EB in ME.
  pose proof (first_byte _ _ _ A24 ME _ _ eq_refl) as F. apply encode_opcode_iff in EO. destruct EO as (R & N & FI).
  unfold jump_target. rewrite F. assert (NJ : existsb (String.eqb (op_name op)) ["jmp"; "jsr"; "jsl"]%string = true).
  { rewrite N. cbn [In] in JM. repeat (destruct JM as [<-|JM]; [reflexivity|]). destruct JM. }
  rewrite NJ. pose proof (ME 1%nat) as M1. pose proof (ME 2%nat) as M2. pose proof (ME 3%nat) as M3. change (Z.of_nat 1) with 1 in M1. change (Z.of_nat 2) with 2 in M2. change (Z.of_nat 3) with 3 in M3.
  cbn [In] in MO. destruct MO as [MO|[MO|[]]]; rewrite <- MO in *; cbn [operand_list] in OL; rewrite EVV in OL; cbn [bind] in OL; injection OL as <-; cbn [nth_error] in M1, M2, M3; unfold fits in FI;
    (destruct FI as [FI|[_ [FI|FI]]]; [|discriminate FI|discriminate FI]); rewrite FI; cbn [form_of]; rewrite (M1 _ eq_refl), (M2 _ eq_refl), ?(M3 _ eq_refl); f_equal; unfold offset_of;
    change (2 ^ 16) with 65536; change (2 ^ 8) with 256; change (2 ^ 24) with 16777216; lia.
Qed.
Lemma jump_leads : forall fuel sk files ws a n file m src mem k i pc nm ty t adr l i', assemble fuel sk files = (ws, Ok a) -> nth_error files n = Some file ->
  nth_error (as_mods a) n = Some m -> SpecScope.reads file src -> in_memory ws mem -> stmt_at src k (SInstr i) -> stands m k pc ->
  In (i_mnem i) [M_jmp; M_jsr; M_jsl] -> nth_error (md_lines m) k = Some l -> ln_stmt l = SInstr i' -> In (i_mode i') [A_dir_w; A_dir_l] ->
  i_arg1 i = Some (EId (FullId None nm) ty) -> denotes src (Z.of_nat k) nm t -> stands m (Z.to_nat t) adr -> addr24 adr ->
  (jump_target mem pc = Some adr <-> i_mode i' = A_dir_l \/ bank_of adr = bank_of pc).
Proof.
  intros fuel sk files ws a n file m src mem k i pc nm ty t adr l i' H NF NM RD IM ST SD JM L SL MO AE DE TD A24.
  rewrite (jump_bytes _ _ _ _ _ _ _ _ _ _ _ _ _ _ _ _ _ _ _ H NF NM RD IM ST SD JM L SL MO AE DE TD). cbn [In] in MO. unfold addr24, bank_of, offset_of in *.
  change (2 ^ 16) with 65536 in *. change (2 ^ 24) with 16777216 in *.
  destruct MO as [MO|[MO|[]]]; rewrite <- MO; (split; [intros E; injection E as E|intros E; f_equal]).
  - right. lia.
  - destruct E as [E|E]; [discriminate E|]. lia.
  - left. reflexivity.
  - lia.
Qed.
