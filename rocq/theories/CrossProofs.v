(** Whole programs stay on their statements. *)
From Verif Require Import Base ModelNumeric ModelExpr ModelMnemonic ModelAMode ModelOpcode ModelState ModelInstr ModelToken ModelStatement
  ModelParse ModelMap ModelModule ModelAssembler Spec65816 SpecArith SpecText SpecInstr SpecScope SpecLayout SpecState SpecAssemble SpecSafe SpecFlow SpecStable SpecRun SpecCross
  BaseProofs MapProofs ArithProofs NameProofs ModeProofs InstrProofs StateProofs ExecProofs OrderProofs LoadProofs ScopeProofs PassProofs LayoutProofs ProgramProofs TermProofs
  SafeProofs SafeRunProofs FlowProofs FlowRunProofs FlowArriveProofs FlowKindProofs StableProofs RunProofs CompleteProofs.
Open Scope string_scope.
Open Scope list_scope.
Open Scope Z_scope.
Local Opaque decode_opcode encode_opcode execute_in check_consistency is_legal_combination execute_branch.

Lemma start_anywhere : forall mem conv a f g o pc c, mem_arrives mem conv a f o pc c -> flags_describe (c_modes o) g (c_modes o) -> mem_arrives mem conv a g o pc c.
Proof.
  intros mem conv a f g o pc c H G. induction H as [MO FD|pc c c' i MA IH PF NS MS|pc c c' i t MA IH PF RB BD BS].
  - apply me_start; assumption.
  - eapply me_next; eassumption.
  - eapply me_branch; eassumption.
Qed.
Definition checked (files : list (list string)) (a : assembler) (conv : Z -> retconv) : Prop :=
  forall n src m, part files a n src m -> tracked src /\ fenced src /\ predictable src m /\ calls_true src m conv.
(** Within one routine. *)
Lemma routine_follows : forall fuel sk files ws a mem conv t o pc c, assemble fuel sk files = (ws, Ok a) -> in_memory ws mem -> checked files a conv ->
  (forall n src m, part files a n src m -> modes_true src o) -> opens files a t o -> mem_arrives mem conv t blank o pc c ->
  exists n src m k i, part files a n src m /\ (begins src m mem o k i pc c \/ continues src m mem o k i pc c).
Proof.
  intros fuel sk files ws a mem conv t o pc c H IM CH MT (n & src & m & k & d & P & ST & DN & SD & FD) MA. pose proof P as (file & NF & NM & RD).
  destruct (CH _ _ _ P) as (TR & FE & PR & CT). pose proof (start_anywhere _ _ _ _ _ _ _ _ MA FD) as MA'.
  destruct (program_follows _ _ _ _ _ _ _ _ _ _ _ _ _ _ _ _ _ H NF NM RD TR FE PR IM (MT _ _ _ P) CT ST DN SD MA') as (k' & i & B). exists n, src, m, k', i. split; [exact P|exact B].
Qed.
Lemma cross_opens : forall fuel sk files ws a mem conv a0 o0 t o, assemble fuel sk files = (ws, Ok a) -> in_memory ws mem -> checked files a conv ->
  opens files a a0 o0 -> (forall t o, enters mem conv a0 o0 t o -> (forall n src m, part files a n src m -> modes_true src o) /\ leads_well files a mem o) ->
  enters mem conv a0 o0 t o -> opens files a t o.
Proof.
  intros fuel sk files ws a mem conv a0 o0 t o H IM CH OP ALL EN. induction EN as [|t o pc c t' o' EN IH MA JT CM MO]; [exact OP|].
  destruct (ALL _ _ EN) as [MT LW]. destruct (routine_follows _ _ _ _ _ _ _ _ _ _ _ H IM CH MT IH MA) as (n & src & m & k & i & P & [B|C]).
  - destruct B as (AR & ST & SD & _). exact (LW _ _ _ _ _ _ _ _ _ P AR ST SD JT CM).
  - exfalso. destruct C as (adr & c0 & _ & PS & _ & ON & _). unfold jump_target in JT. rewrite ON in JT. destruct (i_mnem i); try discriminate PS; discriminate JT.
Qed.
Lemma cross_follows : forall fuel sk files ws a mem conv a0 o0 t o pc c, assemble fuel sk files = (ws, Ok a) -> in_memory ws mem ->
  (forall n src m, part files a n src m -> tracked src /\ fenced src /\ predictable src m /\ calls_true src m conv) ->
  opens files a a0 o0 -> (forall t o, enters mem conv a0 o0 t o -> (forall n src m, part files a n src m -> modes_true src o) /\ leads_well files a mem o) ->
  enters mem conv a0 o0 t o -> mem_arrives mem conv t blank o pc c ->
  exists n src m k i, part files a n src m /\ (begins src m mem o k i pc c \/ continues src m mem o k i pc c).
Proof.
  intros fuel sk files ws a mem conv a0 o0 t o pc c H IM CH OP ALL EN MA. pose proof (cross_opens _ _ _ _ _ _ _ _ _ _ _ H IM CH OP ALL EN) as OT.
  exact (routine_follows _ _ _ _ _ _ _ _ _ _ _ H IM CH (proj1 (ALL _ _ EN)) OT MA).
Qed.

(** ** Jumps to labels. *)
Lemma describe_self : forall p q f, p = q -> flags_describe p f p -> flags_describe q f q.
Proof. intros p q f -> H. exact H. Qed.
Lemma placed_at : forall fuel sk files ws a n file m src k s adr, assemble fuel sk files = (ws, Ok a) -> nth_error files n = Some file -> nth_error (as_mods a) n = Some m -> SpecScope.reads file src ->
  stmt_at src k s -> (forall d, s = SDir d -> ~ In (d_name d) [D_org; D_equ]) -> (stands m k adr <-> (k < List.length (md_lines m))%nat /\ next_address (firstn k (stmts m)) (Some adr)).
Proof.
  intros fuel sk files ws a n file m src k s adr H NF NM RD ST ND.
  assert (X : forall l, nth_error (md_lines m) k = Some l -> forall x, In x [D_org; D_equ] -> ~ is_dir x (ln_stmt l)).
  { intros l L x IX (d & E & N). destruct (resolved_at _ _ _ _ _ _ _ _ _ _ _ H NF NM RD L) as (m0 & LD & SS & s' & ST' & RS). assert (s' = s) as -> by (unfold stmt_at in *; congruence).
    destruct s as [i|dd]; cbn [resolved] in RS; [destruct RS as (_ & m' & _ & RS); congruence|]. apply (ND dd eq_refl). assert (dd = d) as -> by congruence. rewrite N. exact IX. }
  split.
  - intros SD. pose proof SD as (bf & s' & af & E & LN & _).
    assert (LT : (k < List.length (md_lines m))%nat) by (apply (f_equal (@List.length statement)) in E; rewrite map_length, app_length in E; cbn [List.length] in E; lia).
    split; [exact LT|]. destruct (nth_error (md_lines m) k) as [l|] eqn:L; [|apply nth_error_None in L; lia].
    apply (placed_iff _ _ _ adr L (X _ eq_refl D_org ltac:(cbn; tauto)) (X _ eq_refl D_equ ltac:(cbn; tauto))). exact SD.
  - intros [LT NA]. destruct (nth_error (md_lines m) k) as [l|] eqn:L; [|apply nth_error_None in L; lia].
    apply (placed_iff _ _ _ adr L (X _ eq_refl D_org ltac:(cbn; tauto)) (X _ eq_refl D_equ ltac:(cbn; tauto))). exact NA.
Qed.
Lemma entry_before : forall fuel sk files ws a n file m src e d j adr, assemble fuel sk files = (ws, Ok a) -> nth_error files n = Some file -> nth_error (as_mods a) n = Some m -> SpecScope.reads file src ->
  stmt_at src e (SDir d) -> d_name d = D_entry -> stmt_at src (S e) (SInstr j) -> stands m (S e) adr -> stands m e adr.
Proof.
  intros fuel sk files ws a n file m src e d j adr H NF NM RD ST DN SJ SD.
  apply (placed_at _ _ _ _ _ _ _ _ _ _ _ adr H NF NM RD SJ) in SD; [|intros dd E; discriminate E]. destruct SD as [LT SD].
  apply (placed_at _ _ _ _ _ _ _ _ _ _ _ adr H NF NM RD ST); [intros dd E; injection E as <-; rewrite DN; cbn; intuition discriminate|]. split; [lia|].
  destruct (nth_error (md_lines m) e) as [l0|] eqn:L0; [|apply nth_error_None in L0; lia].
  destruct (resolved_at _ _ _ _ _ _ _ _ _ _ _ H NF NM RD L0) as (m0 & LD & SS & s & ST' & RS). assert (s = SDir d) as -> by (unfold stmt_at in *; congruence). cbn [resolved] in RS.
  assert (N : ~ is_dir D_org (ln_stmt l0)) by (intros (d' & E & N); congruence).
  rewrite (firstn_snoc _ _ _ _ (stmts_nth _ _ _ L0)) in SD. destruct (later_inv _ _ _ SD N) as (p & NP & EP).
  rewrite RS, flat_directive in EP; [|rewrite DN; cbn; intuition discriminate|eapply next_address_range; exact NP]. subst p. exact NP.
Qed.
Lemma jump_shape : forall mem pc op m am, mem pc = op -> encode_opcode m am = Some op -> forall t, jump_target mem pc = Some t -> In m [M_jmp; M_jsr; M_jsl] /\ In am [A_dir_w; A_dir_l].
Proof.
  intros mem pc op m am E EO t J. apply encode_opcode_iff in EO. destruct EO as (_ & N & F). unfold jump_target in J. rewrite E in J. cbv zeta in J.
  destruct (existsb (String.eqb (op_name op)) ["jmp"; "jsr"; "jsl"]) eqn:X; [|discriminate J]. split.
  - apply existsb_exists in X. destruct X as (nm & IN & EQ). apply String.eqb_eq in EQ. rewrite N in EQ. subst nm. cbn [In] in IN |- *.
    destruct IN as [IN|[IN|[IN|[]]]]; [left|right; left|right; right; left]; apply mnem_name_inj; exact IN.
  - destruct F as [F|([F|F] & _)]; [|rewrite F in J; discriminate J..]. rewrite F in J. destruct am; cbn in J; try discriminate J; cbn; tauto.
Qed.
Lemma labels_lead : forall fuel sk files ws a mem conv o, assemble fuel sk files = (ws, Ok a) -> in_memory ws mem -> checked files a conv ->
  (forall n src m, part files a n src m -> modes_true src o) -> (forall n src m, part files a n src m -> jumps_to_entries src m o) -> leads_well files a mem o.
Proof.
  intros fuel sk files ws a mem conv o H IM CH MT JE n src m k i pc c t o' P AR ST SD JT CM. pose proof P as (file & NF & NM & RD). destruct (CH _ _ _ P) as (TR & FE & PR & CT).
  pose proof (MT _ _ _ P) as MD. assert (SE : setting fuel sk files ws a n file m src o mem conv) by (constructor; try assumption; eapply predictable_fits; eassumption).
  assert (RY : ready src m o k pc c) by (split; [exact AR|]; apply (placed_at _ _ _ _ _ _ _ _ _ _ _ pc H NF NM RD ST) in SD; [apply SD|intros dd E; discriminate E]).
  pose proof (ready_begins _ _ _ _ _ _ _ _ _ _ _ _ _ _ _ _ SE RY ST) as (_ & _ & _ & ON & _).
  destruct (ready_encoded _ _ _ _ _ _ _ _ _ _ _ _ _ _ _ _ SE RY ST) as (l & i' & op & rest & L & SL & MN & AG & A24 & _ & OL & IB & EO & SZ & MB & LN).
  destruct (pseudo_cases (i_mnem i)) as [(PS & PP & OP & HM)|(PS & b & PP & OP & _ & CL)].
  2:{ exfalso. unfold jump_target in JT. rewrite ON in JT. destruct (i_mnem i); try discriminate PS; discriminate JT. }
  rewrite PP in MB. cbn [app] in MB. pose proof (first_byte _ _ _ A24 MB _ _ eq_refl) as F. rewrite HM in EO. destruct (jump_shape _ _ _ _ _ F EO _ JT) as [JM JD].
  destruct (JE _ _ _ P _ _ _ _ _ _ AR ST JM L SL JD SD) as (nm & ty & t0 & d & adr & AE & DE & SA & BK & (e & SE1 & DN & EE) & FD).
  assert (SX : stands m e adr /\ addr24 adr).
  { destruct EE as [EE|[EE (j & SJ)]]; rewrite EE in SA.
    - split; [exact SA|]. apply (placed_at _ _ _ _ _ _ _ _ _ _ _ adr H NF NM RD SE1) in SA; [eapply next_address_range; apply SA|intros dd E; injection E as <-; rewrite DN; cbn; intuition discriminate].
    - split; [eapply entry_before; eassumption|]. apply (placed_at _ _ _ _ _ _ _ _ _ _ _ adr H NF NM RD SJ) in SA; [eapply next_address_range; apply SA|intros dd E; discriminate E]. }
  destruct SX as [SX V24]. pose proof (proj2 (jump_leads _ _ _ _ _ _ _ _ _ _ _ _ _ _ _ _ _ _ _ H NF NM RD IM ST SD JM L SL JD AE DE SA V24) BK) as JA. rewrite JT in JA. injection JA as <-.
  exists n, src, m, e, d. split; [exact P|]. split; [exact SE1|]. split; [exact DN|]. split; [exact SX|]. rewrite CM. exact FD.
Qed.
Lemma cross_labels : forall fuel sk files ws a mem conv a0 o0 t o pc c, assemble fuel sk files = (ws, Ok a) -> in_memory ws mem ->
  (forall n src m, part files a n src m -> tracked src /\ fenced src /\ predictable src m /\ calls_true src m conv) ->
  opens files a a0 o0 -> (forall o n src m, part files a n src m -> modes_true src o /\ jumps_to_entries src m o) ->
  enters mem conv a0 o0 t o -> mem_arrives mem conv t blank o pc c ->
  exists n src m k i, part files a n src m /\ (begins src m mem o k i pc c \/ continues src m mem o k i pc c).
Proof.
  intros fuel sk files ws a mem conv a0 o0 t o pc c H IM CH OP ALL EN MA. refine (cross_follows _ _ _ _ _ _ _ _ _ _ _ _ _ H IM CH OP _ EN MA).
  intros t1 o1 _. assert (MT : forall n src m, part files a n src m -> modes_true src o1) by (intros n src m P; apply (ALL o1 _ _ _ P)). split; [exact MT|].
  apply (labels_lead _ _ _ _ _ _ _ _ H IM CH MT). intros n src m P. apply (ALL o1 _ _ _ P).
Qed.
