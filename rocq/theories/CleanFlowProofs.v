(** Proofs about how control flows through a cleaned disassembly. *)
From Verif Require Import Base ModelNumeric ModelAddress ModelMnemonic ModelExpr ModelAMode ModelOpcode ModelState ModelInstr ModelToken ModelStatement ModelParse ModelMap ModelModule ModelAssembler ModelRom ModelDisasm
  SpecArith SpecNames SpecInstr SpecText SpecState SpecLayout SpecAssemble SpecFlow SpecDisasm SpecListing SpecRelist Spec65816 BaseProofs MapProofs ArithProofs NameProofs InstrProofs ModeProofs StateProofs TokenProofs ScopeProofs ProgramProofs SafeProofs FlowArriveProofs
  DisStateProofs DisStepProofs DisInvProofs DisRunProofs DisRequestProofs DisClosedProofs CleanProofs PrintProofs ReadProofs ListTextProofs ReassembleProofs ModelTools ToolTextProofs PerProofs RelistProofs RoundProofs
  ShadeProofs AcceptProofs ListAcceptProofs ReachProofs.
Open Scope string_scope.
Open Scope list_scope.
Open Scope Z_scope.
Local Opaque decode_opcode check_consistency parse tokenize instr_to_string encode_opcode execute_in execute_branch decode.

(** ** Names of modes. *)
Lemma named_read : forall f, named f -> flags_from_name (flags_to_name f) = Some f.
Proof. intros [e m x c] [C H]. cbn in C, H. subst c. destruct e; try contradiction; destruct H as [A B]; try (subst m x; reflexivity). destruct m, x; try congruence; reflexivity. Qed.
Lemma named_plain : forall f, named f -> plain_flags f.
Proof. intros [e m x c] [C H]. unfold plain_flags. cbn in C, H |- *. destruct e; try contradiction; destruct H as [A B]; try subst m; try subst x; repeat split; congruence. Qed.
Lemma ret_read : forall r, (forall f, r = RC_yields f -> named f) -> rc_read r = r.
Proof. intros [|f|] H; try reflexivity. cbn. rewrite (named_read f (H f eq_refl)). reflexivity. Qed.
Lemma declared_entry : forall s, es_consistent s -> declared s -> shade (estate_of_flags (entry_flags (es_flags s))) s /\ SafeProofs.good True True (estate_of_flags (entry_flags (es_flags s))) /\
  es_consistent (estate_of_flags (entry_flags (es_flags s))).
Proof.
  intros [a b x y f k] [[CM CX] _] (C & E & K). cbn [es_flags es_stack] in *. split; [|split].
  - split; cbn [es_flags es_stack estate_of_flags].
    + destruct f as [fe fm fx fc]. cbn in *. destruct fc; try discriminate C; destruct fe, fm, fx; cbn in CM, CX; try (destruct (E eq_refl); discriminate); try discriminate; try (destruct CM; discriminate); try (destruct CX; discriminate);
        vm_compute; repeat split; auto.
    + destruct K as [->| ->]; [exact Logic.I|]. exists []. split; [reflexivity|constructor].
  - repeat split; try exact Logic.I. constructor.
  - split; [|intros v []]. cbn [es_flags estate_of_flags]. apply produced_iff, pr_in, produced_iff. clear. destruct f as [fe fm fx fc]. destruct fe, fm, fx, fc; split; cbn; auto; congruence.
Qed.

(** ** What an instruction of the disassembly does. *)
Lemma check_ret : forall i r f, check_consistency (i_with_ret r i) f = check_consistency i f.
Proof. Local Transparent check_consistency. intros [] r f. reflexivity. Local Opaque check_consistency. Qed.
Lemma exec_called : forall j r s s', execute j s = Ok s' -> i_ret j = RC_default -> i_mnem j = M_jsl \/ i_mnem j = M_jsr -> (forall f, r = RC_yields f -> named f) ->
  execute (i_with_ret r j) s = Ok (rc_apply r s').
Proof.
  Local Transparent execute_in. intros j r s s' H D M N. unfold execute, execute_in in *. rewrite check_ret. bok H as u U. rewrite U. cbn [bind]. clear U. cbv zeta in *.
  assert (MJ : i_mnem (i_with_ret r j) = i_mnem j) by (destruct j; reflexivity). assert (RJ : i_ret (i_with_ret r j) = r) by (destruct j; reflexivity). rewrite MJ, RJ. rewrite D in H.
  destruct M as [M|M]; rewrite M in *; injection H as <-; f_equal; (destruct r as [|f|]; [reflexivity| |reflexivity]); destruct (N f eq_refl) as [C _]; destruct f as [e m x c]; cbn in C; subst c; reflexivity. Local Opaque execute_in.
Qed.
Lemma exec_step : forall src rets q d a c, conventions_ok rets -> (forall t f, om_find t rets = Some (RC_yields f) -> named f) -> session src rets q d -> collected d a c ->
  (forall f, i_ret (di_instr c) = RC_yields f -> named f) /\
  exists j, execute j (di_cur c) = Ok (di_next c) /\ i_mnem j = i_mnem (di_instr c) /\ i_ret j = i_ret (di_instr c) /\ forall ctx, eval_opt ctx (i_arg1 j) = eval_opt ctx (i_arg1 (di_instr c)).
Proof.
  intros src rets q d a c CO NM S K. pose proof (session_good _ _ _ _ CO S) as G. destruct (good_entry _ _ _ _ G _ _ K) as [A EN]. destruct EN as (l & j & far & v & RD & DE & FA & RE & LO & SC & C1 & C2 & SX & EX).
  destruct (decode_ret _ _ _ DE) as [DR _].
  assert (NR : forall f, i_ret (di_instr c) = RC_yields f -> named f).
  { intros f E. rewrite RE in E. unfold called in E. destruct far as [t|]; [|congruence].
    destruct (i_mnem j); try congruence; (destruct (om_find t rets) as [r|] eqn:F; [|congruence]); rewrite E in F; exact (NM _ _ F). }
  split; [exact NR|]. destruct EX as [(sfx & EX)|(nx0 & EX & NX)].
  - exists (i_with_suffix sfx (di_instr c)). split; [exact EX|]. destruct (di_instr c). auto.
  - exists (i_with_ret (i_ret (di_instr c)) j). split.
    + rewrite NX. destruct far as [t|]; cbn [after_call].
      * assert (M : i_ret (di_instr c) = RC_default \/ i_mnem j = M_jsl \/ i_mnem j = M_jsr) by (rewrite RE; unfold called; destruct (i_mnem j); auto).
        destruct M as [M|M]; [rewrite M; cbn [rc_apply]; rewrite <- EX; rewrite <- DR; destruct j; reflexivity|]. apply exec_called; assumption.
      * assert (M : i_ret (di_instr c) = RC_default) by (rewrite RE; exact DR). rewrite M, <- EX, <- DR. destruct j; reflexivity.
    + pose proof (fun ctx => same_eval ctx _ _ _ SC) as SE. destruct SC as (M & _). destruct j; cbn in *. split; [auto|]. split; [auto|]. intros ctx. symmetry. apply SE.
Qed.

(** ** Where the instructions of a cleaned disassembly come from. *)
Lemma rename_entries : forall entries m nl ne rw rw' m', rename_labels entries nl ne rw m = (rw', m') -> forall a c', In (a, c') m' -> di_label c' <> "" -> di_entry c' = om_mem a entries.
Proof.
  intros entries. induction m as [|[a c] m IH]; intros nl ne rw rw' m' H b x IN L; cbn [rename_labels] in H; [injection H as <- <-; destruct IN|].
  destruct (String.eqb_spec (di_label c) "") as [E|E].
  - destruct (rename_labels entries nl ne rw m) as [rw1 r] eqn:R. injection H as <- <-. destruct IN as [X|IN]; [injection X as <- <-; contradiction|]. eapply IH; eassumption.
  - cbv zeta in H. destruct (rename_labels entries _ _ _ m) as [rw1 r] eqn:R. injection H as <- <-. destruct IN as [X|IN]; [injection X as <- <-; reflexivity|]. eapply IH; eassumption.
Qed.
Lemma cleanup_full : forall src rets q d d', conventions_ok rets -> byte_source src -> session src rets q d -> ds_sym d < 2 ^ 31 -> cleanup d = Ok d' ->
  exists m3, ds_map d' = fold_pseudo m3 /\ map fst m3 = map fst (ds_map d) /\ unique_labels m3 /\ (forall a c3, In (a, c3) m3 -> di_label c3 <> ""%string -> numbered 0 0 (zlen (ds_map d)) (di_label c3)) /\
    (forall a c3, In (a, c3) m3 -> exists c, In (a, c) (ds_map d) /\ polished (ds_map d) m3 a c c3) /\ (forall a c3, In (a, c3) m3 -> di_label c3 <> "" -> di_entry c3 = om_mem a (ds_entries d)).
Proof.
  intros src rets q d d' CO BS S SY H. destruct (session_maps _ _ _ _ CO BS S SY) as (SO & UL & LN & REL & _). unfold cleanup in H.
  destruct (rename_labels (ds_entries d) 0 0 [] (ds_map d)) as [rw m1] eqn:RN. bok H as m3 NF. injection H as <-. exists m3. split; [reflexivity|].
  destruct (polish _ _ _ _ _ LN SO UL REL RN NF) as (P1 & P2 & P3 & P4). repeat (split; [assumption|]).
  intros a c3 IN L. destruct (name_fars_spec _ _ _ _ NF) as (_ & _ & Q). destruct (Q _ _ IN) as (c2 & IN2 & NT). apply in_map_iff in IN2. destruct IN2 as ([b c1] & E & IN1). injection E as -> <-. cbn [snd] in NT.
  assert (E1 : di_label c3 = di_label c1 /\ di_entry c3 = di_entry c1).
  { assert (RA : di_label (rewrite_arg rw c1) = di_label c1 /\ di_entry (rewrite_arg rw c1) = di_entry c1) by (unfold rewrite_arg, di_with_instr; destruct (is_label (i_arg1 (di_instr c1))); auto).
    destruct RA as [<- <-]. revert NT. generalize (rewrite_arg rw c1). intros x NT. unfold name_far_target in NT. bok NT as t T. injection NT as <-. unfold di_with_instr.
    destruct t as [t|]; [|auto]. destruct (ds_name_for_address _ _ _); [|auto]. destruct (i_mode (di_instr x)); auto. }
  destruct E1 as [L1 ->]. rewrite L1 in L. eapply rename_entries; eassumption.
Qed.
(** The instruction [c] at [a] of the cleaned disassembly stands for [c0], or for [c0] and
    [x0] after it. *)
Definition stems (d : disassembler) (a : Z) (c c0 : dinstr) (b : Z) (x0 : dinstr) : Prop :=
  collected d a c0 /\ collected d b x0 /\ di_cur c = di_cur c0 /\ di_next c = di_next x0 /\ i_mode (di_instr c) = i_mode (di_instr x0) /\ i_ret (di_instr c) = i_ret (di_instr x0) /\
  (di_label c = "" <-> di_label c0 = "") /\
  (b = a /\ x0 = c0 /\ i_mnem (di_instr c) = i_mnem (di_instr c0) \/ b = a + 1 /\ pair_of (i_mnem (di_instr c0)) (i_mnem (di_instr x0)) (i_mnem (di_instr c))).
(** How it reads back. *)
Definition reading (c x0 : dinstr) (i : instr) : Prop :=
  reads_line (instr_to_string (di_instr c)) [PStmt (SInstr i)] /\ i_mnem i = i_mnem (di_instr c) /\ i_ret i = rc_read (i_ret (di_instr c)) /\ tame (i_arg1 i) /\ tame (i_arg2 i) /\
  (i_mnem i = M_rep \/ i_mnem i = M_sep -> eval_opt null_ctx (i_arg1 i) = eval_opt null_ctx (i_arg1 (di_instr x0))) /\
  (forall l h, i_arg1 (di_instr c) = Some (ELabel l h) -> exists t, i_arg1 i = Some (EId (FullId None l) t)) /\
  (forall pc, addr24 pc -> exists t, far_branch_target (with_mode (i_mode (di_instr c)) i) pc = Ok t) /\
  forall g, (forall bytes j, decode bytes (es_flags (di_cur x0)) = Ok j -> decode bytes g = Ok j) ->
    fix_addressing_mode i g = Ok (with_mode (i_mode (di_instr c)) i) /\ (suffix_agrees (di_instr c) g -> check_consistency i g = Ok tt).
Lemma rep_operand : forall src rets q d b x0 x3 m3, conventions_ok rets -> byte_source src -> session src rets q d -> ds_sym d < 2 ^ 31 -> collected d b x0 -> polished (ds_map d) m3 b x0 x3 ->
  i_mnem (di_instr x0) = M_rep \/ i_mnem (di_instr x0) = M_sep -> i_arg1 (di_instr x3) = i_arg1 (di_instr x0) /\ is_label (i_arg1 (di_instr x0)) = false.
Proof.
  intros src rets q d b x0 x3 m3 CO BS S SY K PO M. destruct (session_maps _ _ _ _ CO BS S SY) as (_ & _ & _ & REL & _). destruct PO as (P1 & P2 & P3 & P4 & P5 & P6 & P7 & P8 & PL & PN).
  destruct (good_entry _ _ _ _ (session_good _ _ _ _ CO S) _ _ K) as [A EN]. destruct (entry_open _ _ _ _ _ BS A EN) as (op & rest & j & v & RD & B & R & DE & _ & _ & _ & SC & _).
  assert (IL : is_label (i_arg1 (di_instr x0)) = false).
  { destruct (is_label (i_arg1 (di_instr x0))) eqn:IL; [|reflexivity]. exfalso. pose proof (REL _ _ (om_find_in _ _ _ _ K) IL) as MD.
    assert (LB : is_local_branch (di_instr x0) = true) by (unfold is_local_branch; destruct M as [M|M]; rewrite M; destruct MD as [MD|MD]; rewrite MD; reflexivity).
    rewrite (same_local _ _ _ SC) in LB. apply (decode_local op rest _ j R DE) in LB. destruct SC as (SM & _). rewrite <- SM in LB. unfold relative_branch in LB. cbn [In] in LB.
    destruct M as [M|M]; rewrite M in LB; repeat destruct LB as [LB|LB]; try discriminate LB; contradiction. }
  split; [|exact IL]. destruct (PN IL) as [E|(t & y3 & ty & F & _)]; [exact E|]. exfalso. unfold far_branch_target in F. destruct M as [M|M]; rewrite M in F; destruct (i_mode (di_instr x0)); discriminate F.
Qed.
Lemma tame_lit : forall w t, Z.abs w <= 2 ^ 24 -> tame (Some (ELit w t)).
Proof. intros w t H. exists (Some w). split; [reflexivity|]. intros z E. injection E as <-. exact H. Qed.
Lemma tame_none : tame None.
Proof. exists None. split; [reflexivity|discriminate]. Qed.
Lemma tame_name : forall n t, tame (Some (EId (FullId None n) t)).
Proof. intros n t. exists None. split; [reflexivity|discriminate]. Qed.
Lemma parse_same : forall s i j, reads_line s [PStmt (SInstr i)] -> reads_line s [PStmt (SInstr j)] -> i = j.
Proof. intros s i j (ts & T & P) (ts' & T' & P'). rewrite T in T'. injection T' as <-. rewrite P in P'. injection P' as <-. reflexivity. Qed.
Lemma line_reading : forall src rets q d b x0 m3 x3 c, conventions_ok rets -> readable rets -> byte_source src -> session src rets q d -> ds_sym d < 2 ^ 31 ->
  (forall a c3, In (a, c3) m3 -> di_label c3 <> ""%string -> numbered 0 0 (zlen (ds_map d)) (di_label c3)) ->
  (forall a c3, In (a, c3) m3 -> exists c, In (a, c) (ds_map d) /\ polished (ds_map d) m3 a c c3) ->
  In (b, x3) m3 -> collected d b x0 -> polished (ds_map d) m3 b x0 x3 -> i_mnem (di_instr x3) <> M_per -> variant (di_instr x3) (di_instr c) -> exists i, reading c x0 i.
Proof.
  intros src rets q d b x0 m3 x3 c CO RDB BS S SY NB P IN K PO NP V. pose proof PO as (P1 & P2 & P3 & P4 & P5 & P6 & P7 & P8 & _). destruct (variant_same _ _ V) as (V1 & V2 & V3 & V4 & V5 & V6 & V7 & V8).
  pose proof (fun g => line_text src rets q d b x3 m3 (di_instr c) g CO RDB BS S SY NB P IN NP V) as LT. rewrite P1 in LT.
  destruct (LT (es_flags (di_cur x0)) ltac:(auto)) as (ts & i & i' & T & PA & FX & CC & SA & IM & IMD & IS & EI & IR & AR & EV). exists i. subst i'. cbn [with_mode i_mnem i_mode i_arg1 i_arg2] in IM, EV.
  assert (RL : reads_line (instr_to_string (di_instr c)) [PStmt (SInstr i)]) by (exists ts; auto).
  destruct (good_entry _ _ _ _ (session_good _ _ _ _ CO S) _ _ K) as [A EN]. destruct (entry_open _ _ _ _ _ BS A EN) as (op & rest & j & v & RD & B & R & DE & _ & _ & _ & SC & _).
  destruct (decode_mode_of op rest _ j R DE) as (_ & OP & _). destruct (small_operands _ _ _ _ OP) as [_ S2]. destruct (decoded_literal _ _ _ _ R DE) as [_ L2].
  split; [exact RL|]. split; [exact IM|]. split; [exact IR|]. split; [|split; [|split; [|split; [|split]]]].
  - destruct AR as [[_ ->]|[(w & t & _ & -> & W)|(n & t & -> & _)]]; [apply tame_none|apply tame_lit; exact W|apply tame_name].
  - destruct (EV null_ctx) as [_ ->]. rewrite V4, P6. destruct SC as (_ & _ & -> & _). destruct L2 as [->|(w & t & E)]; [apply tame_none|rewrite E; apply tame_lit; exact (S2 _ _ E)].
  - intros M. assert (M3 : i_mnem (di_instr x0) = M_rep \/ i_mnem (di_instr x0) = M_sep).
    { rewrite <- P4. destruct V as [V|(pm & V & X)]; [rewrite V in IM; rewrite <- IM; exact M|]. exfalso. rewrite V in IM. assert (Y : i_mnem i = pm) by (rewrite IM; destruct (di_instr x3); reflexivity). rewrite Y in M. destruct X as [[_ ->]|[_ ->]]; destruct M; discriminate. }
    destruct (rep_operand _ _ _ _ _ _ _ _ CO BS S SY K PO M3) as [E IL]. destruct (EV null_ctx) as [-> _]. unfold as_read. cbn [i_arg1]. rewrite V3, E. destruct (i_arg1 (di_instr x0)) as [[]|]; try reflexivity; discriminate IL.
  - intros l h E. rewrite E in AR. destruct AR as [[X _]|[(w & t & X & _)|(n & t & X & [(h' & Y)|Y])]]; try discriminate X; try discriminate Y. injection Y as <- _. exists t. exact X.
  - intros pc AP. unfold far_branch_target. cbn [with_mode i_mnem i_mode i_arg1]. rewrite V2, P5.
    destruct AR as [[_ ->]|[(w & t & E & -> & W)|(n & t & -> & _)]]; cbn [eval_opt eval]; try (destruct (i_mode (di_instr x0)); destruct (i_mnem i); eexists; reflexivity).
    destruct (session_maps _ _ _ _ CO BS S SY) as (_ & _ & _ & REL & FAR). destruct (FAR b x0 (om_find_in _ _ _ _ K)) as (t0 & F).
    destruct (i_mode (di_instr x0)) eqn:MD; try (eexists; reflexivity); try (destruct (i_mnem i); eexists; reflexivity).
    assert (IL : is_label (i_arg1 (di_instr x0)) = false) by (destruct (is_label (i_arg1 (di_instr x0))) eqn:IL; [|reflexivity]; destruct (REL _ _ (om_find_in _ _ _ _ K) IL); congruence).
    assert (E0 : i_arg1 (di_instr x0) = Some (ELit w t)) by (destruct PO as (_ & _ & _ & _ & _ & _ & _ & _ & _ & PN); destruct (PN IL) as [X|(t1 & y & ty & _ & _ & _ & X & _)]; congruence).
    assert (MM : i_mnem i = i_mnem (di_instr x0) \/ i_mnem i = PM_add \/ i_mnem i = PM_sub).
    { rewrite <- P4. destruct V as [V|(pm & V & X)]; [rewrite V in IM; auto|]. right. rewrite IM, V. destruct X as [[_ ->]|[_ ->]]; destruct (di_instr x3); auto. }
    unfold far_branch_target in F. rewrite MD, E0 in F. cbn [eval_opt eval] in F.
    destruct MM as [MM|[MM|MM]]; rewrite MM; [|eexists; reflexivity|eexists; reflexivity]. eexists. exact F.
  - intros g BG. destruct (LT g BG) as (ts2 & i2 & i2' & T2 & PA2 & FX2 & CC2 & _ & _ & _ & _ & EI2 & _). assert (i2 = i) as -> by (apply (parse_same (instr_to_string (di_instr c))); [exists ts2; auto|exact RL]). subst i2'. auto.
Qed.

(** No CLC or SEC is the last byte of a bank. *)
Definition carry_within (d : disassembler) : Prop :=
  forall pc c, collected d pc c -> i_mnem (di_instr c) = M_clc \/ i_mnem (di_instr c) = M_sec -> offset_of pc <> 2 ^ 16 - 1.
Lemma clean_flow : forall src rets q d d', conventions_ok rets -> readable rets -> byte_source src -> session src rets q d -> ds_sym d < 2 ^ 31 -> carry_within d -> cleanup d = Ok d' ->
  (forall a c, collected d' a c -> i_mnem (di_instr c) <> M_per) ->
  (forall a c, collected d' a c -> exists c0 b x0 i, stems d a c c0 b x0 /\ reading c x0 i /\
     (forall t y0 h, i_arg1 (di_instr x0) = Some (ELabel (di_label y0) h) -> collected d t y0 -> di_label y0 <> "" ->
        exists y, collected d' t y /\ di_label y <> "" /\ di_cur y = di_cur y0 /\ i_arg1 (di_instr c) = Some (ELabel (di_label y) h))) /\
  (forall t y0, collected d t y0 ->
     (exists y, collected d' t y /\ di_cur y = di_cur y0 /\ (di_label y = "" <-> di_label y0 = "") /\ (di_label y0 <> "" -> di_entry y = om_mem t (ds_entries d))) \/
     di_label y0 = "" /\ exists f c0, collected d' (t - 1) f /\ stems d (t - 1) f c0 t y0 /\ (i_mnem (di_instr f) = PM_add \/ i_mnem (di_instr f) = PM_sub)).
Proof.
  intros src rets q d d' CO RDB BS S SY WB CL NP. destruct (cleanup_full _ _ _ _ _ CO BS S SY CL) as (m3 & E & K & U & NB & P & EN). destruct (session_maps _ _ _ _ CO BS S SY) as (SO & UL & _).
  pose proof (keys_sorted _ _ _ _ K SO) as SO3. destruct (fold_spec (List.length m3) m3 ltac:(lia) SO3) as (F1 & F2 & F3).
  assert (COL : forall a c, collected d' a c <-> In (a, c) (fold_pseudo m3)).
  { intros a c. unfold collected. rewrite E. split; [apply om_find_in|apply om_in_find; exact F1]. }
  assert (FIND : forall a c, In (a, c) (ds_map d) -> collected d a c) by (intros a c IN; apply om_in_find; assumption).
  assert (ADJ : forall a c b x pm, adjacent m3 a c b x -> fused_mnemonic (i_mnem (di_instr c)) (i_mnem (di_instr x)) = Some pm -> b = a + 1).
  { intros a c b x pm AD FM. assert (INa : In (a, c) m3) by (destruct AD as (l1 & l2 & ->); apply in_or_app; right; left; reflexivity).
    destruct (P _ _ INa) as (c0 & IN0 & PO). apply FIND in IN0. destruct PO as (_ & _ & _ & PM & _). apply fused_pair in FM.
    assert (MM : i_mnem (di_instr c0) = M_clc \/ i_mnem (di_instr c0) = M_sec) by (rewrite <- PM; destruct FM as [(X & _)|(X & _)]; auto).
    destruct (carry_next _ _ _ _ _ _ CO BS S IN0 MM) as (x' & _ & KX & _). pose proof (WB _ _ IN0 MM) as NO.
    destruct (good_entry _ _ _ _ (session_good _ _ _ _ CO S) _ _ IN0) as [A _]. rewrite (next_byte a A NO) in *.
    apply om_find_in in KX. destruct (key_in _ _ m3 _ _ _ K KX) as (y & Y). exact (sorted_between m3 a c b x SO3 AD y Y). }
  assert (SAME : forall a c c', In (a, c) m3 -> In (a, c') m3 -> c = c') by (intros a c c' I1 I2; apply (om_in_find _ _ _ _ SO3) in I1, I2; congruence).
  assert (SAME0 : forall a c c', In (a, c) (ds_map d) -> collected d a c' -> c = c') by (intros a c c' I1 I2; apply FIND in I1; unfold collected in *; congruence).
  assert (AIN : forall a c b x, adjacent m3 a c b x -> In (a, c) m3 /\ In (b, x) m3).
  { intros a c b x (l1 & l2 & ->). split; apply in_or_app; right; [left|right; left]; reflexivity. }
  assert (STEM : forall a c3 b x3 pm, adjacent m3 a c3 b x3 -> fused_mnemonic (i_mnem (di_instr c3)) (i_mnem (di_instr x3)) = Some pm -> forall c0 x0, collected d a c0 -> collected d b x0 -> polished (ds_map d) m3 a c0 c3 -> polished (ds_map d) m3 b x0 x3 ->
    stems d a (fuse c3 x3 pm) c0 b x0).
  { intros a c3 b x3 pm AD FM c0 x0 K0 KX PC PX. pose proof (ADJ _ _ _ _ _ AD FM) as EB. destruct PC as (C1 & C2 & C3 & C4 & _). destruct PX as (X1 & X2 & X3 & X4 & X5 & X6 & X7 & _).
    apply fused_pair in FM. rewrite C4, X4 in FM. unfold stems, fuse. cbn [di_cur di_next di_instr di_label]. destruct (di_instr x3). cbn in *. repeat (split; [assumption|]). right. auto. }
  assert (UPL : forall t y3, In (t, y3) m3 -> di_label y3 <> "" -> exists y, collected d' t y /\ di_label y = di_label y3 /\ di_cur y = di_cur y3 /\ di_entry y = di_entry y3).
  { intros t y3 I3 L. destruct (F3 _ _ I3) as [(y & IY & LY)|(p & c0 & pm & _ & _ & L0 & _)]; [|contradiction]. exists y. split; [apply COL; exact IY|]. split; [exact LY|].
    destruct (F2 _ _ IY) as [IY3|(c3 & b & x3 & pm & AD & _ & _ & -> & _)]; [rewrite (SAME _ _ _ IY3 I3); auto|]. destruct (AIN _ _ _ _ AD) as [IA _]. rewrite (SAME _ _ _ IA I3). auto. }
  assert (OPS : forall b x0 x3 c, collected d b x0 -> polished (ds_map d) m3 b x0 x3 -> i_arg1 (di_instr c) = i_arg1 (di_instr x3) -> forall t y0 h, i_arg1 (di_instr x0) = Some (ELabel (di_label y0) h) -> collected d t y0 -> di_label y0 <> "" ->
        exists y, collected d' t y /\ di_label y <> "" /\ di_cur y = di_cur y0 /\ i_arg1 (di_instr c) = Some (ELabel (di_label y) h)).
  { intros b x0 x3 c KX PX EA t y0 h AE KY LY. destruct PX as (_ & _ & _ & _ & _ & _ & _ & _ & PL & _). destruct (PL _ _ _ _ AE (om_find_in _ _ _ _ KY) eq_refl LY) as (y3 & I3 & L3 & A3).
    destruct (UPL _ _ I3 L3) as (y & KY' & LY' & CY & _). exists y. split; [exact KY'|]. split; [congruence|]. split; [|congruence]. rewrite CY. destruct (P _ _ I3) as (y1 & IY1 & (C1 & _)). rewrite (SAME0 _ _ _ IY1 KY) in C1. exact C1. }
  split.
  - intros a c KC. pose proof (NP _ _ KC) as NC. apply COL in KC. destruct (F2 _ _ KC) as [IN|(c3 & b & x3 & pm & AD & FM & LX & EC & NI)].
    + destruct (P _ _ IN) as (c0 & I0 & PO). apply FIND in I0. destruct (line_reading _ _ _ _ _ _ _ _ c CO RDB BS S SY NB P IN I0 PO NC (or_introl eq_refl)) as (i & RD).
      exists c0, a, c0, i. split; [|split; [exact RD|eapply OPS; [exact I0|exact PO|reflexivity]]]. destruct PO as (P1 & P2 & P3 & P4 & P5 & P6 & P7 & _). repeat (split; [assumption|]). left. auto.
    + destruct (AIN _ _ _ _ AD) as [IA IB]. destruct (P _ _ IA) as (c0 & I0 & PO). destruct (P _ _ IB) as (x0 & IX & PX). apply FIND in I0, IX.
      pose proof (STEM _ _ _ _ _ AD FM _ _ I0 IX PO PX) as ST. apply fused_pair in FM.
      assert (V : variant (di_instr x3) (di_instr c)) by (right; exists pm; rewrite EC; split; [reflexivity|]; destruct FM as [(_ & X & Y)|(_ & X & Y)]; auto).
      assert (N3 : i_mnem (di_instr x3) <> M_per) by (destruct FM as [(_ & X & _)|(_ & X & _)]; rewrite X; discriminate).
      destruct (line_reading _ _ _ _ _ _ _ _ c CO RDB BS S SY NB P IB IX PX N3 V) as (i & RD). exists c0, b, x0, i. split; [rewrite EC; exact ST|]. split; [exact RD|].
      eapply OPS; [exact IX|exact PX|]. apply (variant_same _ _ V).
  - intros t y0 KY. pose proof KY as KY'. apply om_find_in in KY'. destruct (key_in _ _ m3 _ _ _ K KY') as (y3 & I3). destruct (P _ _ I3) as (y1 & I1 & PO). rewrite (SAME0 _ _ _ I1 KY) in *. clear y1 I1.
    pose proof PO as (C1 & C2 & C3 & _). destruct (F3 _ _ I3) as [(y & IY & LY)|(p & c3 & pm & AD & FM & L0 & IP)].
    + left. exists y. split; [apply COL; exact IY|].
      assert (X : di_cur y = di_cur y3 /\ di_entry y = di_entry y3).
      { destruct (F2 _ _ IY) as [IY3|(c3 & b & x3 & pm & AD & _ & _ & -> & _)]; [rewrite (SAME _ _ _ IY3 I3); auto|]. destruct (AIN _ _ _ _ AD) as [IA _]. rewrite (SAME _ _ _ IA I3). auto. }
      destruct X as [X1 X2]. split; [congruence|]. rewrite LY, X2. split; [exact C3|]. intros N. apply EN; [exact I3|tauto].
    + right. split; [tauto|]. pose proof (ADJ _ _ _ _ _ AD FM) as EB. destruct (AIN _ _ _ _ AD) as [IA _]. destruct (P _ _ IA) as (c0 & I0 & PO0). apply FIND in I0.
      pose proof (STEM _ _ _ _ _ AD FM _ _ I0 KY PO0 PO) as ST. replace (t - 1) with p by lia. exists (fuse c3 y3 pm), c0. split; [apply COL; exact IP|]. split; [exact ST|].
      apply fused_pair in FM. unfold fuse. cbn [di_instr]. destruct (di_instr y3). cbn. destruct FM as [(_ & _ & ->)|(_ & _ & ->)]; auto.
Qed.

(** ** Steps. *)
Lemma collected_con : forall src rets q d a c, conventions_ok rets -> session src rets q d -> collected d a c -> addr24 a /\ es_consistent (di_cur c) /\ es_consistent (di_next c).
Proof.
  intros src rets q d a c CO S K. destruct (good_entry _ _ _ _ (session_good _ _ _ _ CO S) _ _ K) as [A (l & j & far & v & _ & _ & _ & _ & _ & _ & C1 & C2 & _)]. auto.
Qed.
Lemma fall_step : forall src rets q d a c, conventions_ok rets -> session src rets q d -> collected d a c -> is_exit_instruction (di_instr c) = false ->
  exists y, collected d (add_wrapped a (instruction_length (i_mode (di_instr c)))) y /\ shade (di_next c) (di_cur y).
Proof.
  intros src rets q d a c CO S K X. pose proof (session_good _ _ _ _ CO S) as G. destruct (good_leads _ _ _ _ G a c _ _ K (or_introl (conj X (conj eq_refl eq_refl)))) as (y & F & BL).
  exists y. split; [exact F|]. apply below_shade; [apply (collected_con _ _ _ _ _ _ CO S K)|apply (collected_con _ _ _ _ _ _ CO S F)|exact BL].
Qed.
Lemma branch_step : forall src rets q d a c, conventions_ok rets -> byte_source src -> session src rets q d -> collected d a c -> is_local_branch (di_instr c) = true ->
  relative_branch (i_mnem (di_instr c)) /\ exists v y h, branch_offset (di_instr c) = Ok v /\ collected d (target a (di_instr c) v) y /\ di_label y <> "" /\ i_arg1 (di_instr c) = Some (ELabel (di_label y) h) /\
    shade (taken (i_mnem (di_instr c)) (di_cur c)) (di_cur y).
Proof.
  intros src rets q d a c CO BS S K L. pose proof (session_good _ _ _ _ CO S) as G. destruct (good_entry _ _ _ _ G _ _ K) as [A EN].
  destruct (entry_open _ _ _ _ _ BS A EN) as (op & rest & j & v & RD & B & R & DE & FA & RE & LO & SC & C1 & C2 & EX). pose proof (same_shows _ _ _ _ _ _ R DE SC) as SH.
  pose proof L as LJ. rewrite (same_local _ _ _ SC) in LJ. destruct (LO LJ) as [BO LN]. pose proof (proj1 (decode_local op rest _ j R DE) LJ) as RB.
  assert (BC : branch_offset (di_instr c) = Ok v) by (rewrite (same_offset _ _ _ SC); exact BO). assert (TG : target a (di_instr c) v = target a j v) by (apply (same_target _ _ _ _ _ SC)).
  pose proof SC as (SM & _). split; [rewrite SM; exact RB|].
  destruct (good_leads _ _ _ _ G a c (target a (di_instr c) v) (taken (i_mnem (di_instr c)) (di_cur c)) K) as (y & F & BL); [right; split; [exact L|]; split; [reflexivity|]; exists v; auto|].
  assert (LX : old_label (ds_map d) (target a j v) = di_label y) by (unfold old_label; rewrite <- TG, F; reflexivity). rewrite LX in LN, SH. destruct SH as (_ & _ & _ & SH & _). destruct (SH RB) as (e & _ & AE).
  exists v, y, e. split; [exact BC|]. split; [exact F|]. split; [exact LN|]. split; [exact AE|]. apply below_shade; [apply taken_consistent; exact C1|apply (collected_con _ _ _ _ _ _ CO S F)|exact BL].
Qed.
Lemma carry_plain : forall src rets q d a c, conventions_ok rets -> byte_source src -> session src rets q d -> collected d a c -> i_mnem (di_instr c) = M_clc \/ i_mnem (di_instr c) = M_sec ->
  instruction_length (i_mode (di_instr c)) = 1 /\ is_exit_instruction (di_instr c) = false.
Proof.
  intros src rets q d pc c CO BS S K M. pose proof (session_good _ _ _ _ CO S) as G.
  destruct (good_entry _ _ _ _ G _ _ K) as [A EN]. destruct (entry_open _ _ _ _ _ BS A EN) as (op & rest & j & v & RD & B & R & DE & FA & RE & LO & SC & _).
  destruct (decode_mode_of op rest _ j R DE) as (MJ & _ & _ & _ & KL). destruct SC as (MM & MD & _). destruct (plain_ops op R) as (P1 & P2 & _). rewrite <- MJ, <- MM in P1, P2.
  assert (RET : i_ret (di_instr c) = RC_default).
  { rewrite RE. unfold convention. destruct (direct_target pc op rest) as [t|] eqn:DT; [|reflexivity]. pose proof (far_kind _ _ _ FA) as FK. rewrite <- MM in FK. cbn [In] in FK.
    destruct M as [M|M]; rewrite M in FK; repeat destruct FK as [FK|FK]; try discriminate FK; contradiction. }
  split; [|unfold is_exit_instruction; rewrite RET; destruct M as [M|M]; rewrite M; reflexivity]. rewrite MD.
  revert KL. generalize (instruction_length (i_mode j)). intros n KL. destruct M as [M|M]; [rewrite (P1 M) in KL|rewrite (P2 M) in KL]; vm_compute in KL; injection KL as <-; reflexivity.
Qed.
Lemma decode_ble : forall bytes f g i, ble (fl_m f) (fl_m g) -> ble (fl_x f) (fl_x g) -> decode bytes g = Ok i -> decode bytes f = Ok i.
Proof.
  intros [|op rest] f g i BM BX H; [discriminate H|]. rewrite decode_eq in *.
  assert (E : forall a, decode_mode g (snd (decode_opcode op)) = Some a -> decode_mode f (snd (decode_opcode op)) = Some a).
  { intros a. destruct (snd (decode_opcode op)); cbn [decode_mode]; auto.
    - intros X. destruct BM as [->|BM]; [exact X|rewrite BM in X; discriminate X].
    - intros X. destruct BX as [->|BX]; [exact X|rewrite BX in X; discriminate X]. }
  destruct (decode_mode g (snd (decode_opcode op))) as [a|]; [|discriminate H]. rewrite (E a eq_refl). exact H.
Qed.
Lemma known_agrees : forall i f g, fle f g -> suffix_known i g -> suffix_agrees i f.
Proof.
  intros i f g (_ & M & X & _) H. unfold suffix_known, suffix_agrees in *. 
  assert (K : forall a b v, ble a b -> known_bit b = Some v -> a = if v then B_on else B_off) by (intros a b v [->| ->] E; [destruct b; try discriminate E; injection E as <-; reflexivity|discriminate E]).
  destruct (i_suffix i); [exact Logic.I| |]; destruct H as [[I1 H]|[I1 H]]; [left|right|left|right]; (split; [exact I1|]); first [rewrite (K _ _ _ M H)|rewrite (K _ _ _ X H)]; discriminate.
Qed.
Lemma known_pullable : forall m s, pulls_known m s -> pullable m s.
Proof.
  intros m s [A B]. assert (K : forall b k, pull_known b k -> pull_fine b k) by (intros b k [N|H]; [left; destruct b; try reflexivity; destruct N; reflexivity|right; exact H]).
  destruct m; cbn; try exact Logic.I; apply K; auto.
Qed.
Lemma named_con : forall f, named f -> consistent f.
Proof. intros [e m x c] [C H]. cbn in C, H. destruct e; try contradiction; destruct H as [A B]; split; cbn in *; subst; auto; congruence. Qed.
Lemma set_c_back : forall v s, wipe_carry (wipe_a (upd_flags (set_c v) s)) = wipe_carry (wipe_a s).
Proof. intros v [a1 a2 a3 a4 [e f x c] k]. reflexivity. Qed.

(** The states in which an instruction of the listing is assembled. *)
Definition fitting (c : dinstr) (s : estate) : Prop := es_consistent (di_cur c) /\ shade s (di_cur c) /\ es_consistent s /\ SafeProofs.good True True s.
Lemma exit_same : forall src rets q d a c c0 b x0 i, conventions_ok rets -> byte_source src -> session src rets q d -> stems d a c c0 b x0 -> i_mnem i = i_mnem (di_instr c) -> i_ret i = i_ret (di_instr c) -> is_exit_instruction i = is_exit_instruction (di_instr x0).
Proof.
  intros src rets q d a c c0 b x0 i CO BS S (K0 & KX & C1 & C2 & C3 & C4 & C5 & C6) M R. unfold is_exit_instruction. rewrite M, R, C4. destruct C6 as [(_ & -> & ->)|(_ & P)]; [reflexivity|].
  destruct P as [(_ & -> & ->)|(_ & -> & ->)]; reflexivity.
Qed.
Lemma item_runs : forall src rets q d a c c0 b x0 i, conventions_ok rets -> (forall t f, om_find t rets = Some (RC_yields f) -> named f) -> byte_source src -> session src rets q d -> carry_within d ->
  stems d a c c0 b x0 -> reading c x0 i -> suffix_known (di_instr c) (es_flags (di_cur c)) -> pulls_known (i_mnem (di_instr c)) (di_cur c) ->
  i_ret i = i_ret (di_instr c) /\ forall s, fitting c s -> fix_addressing_mode i (es_flags s) = Ok (with_mode (i_mode (di_instr c)) i) /\
    exists s', execute i s = Ok s' /\ shade s' (di_next c) /\ es_consistent s' /\ SafeProofs.good True True s'.
Proof.
  intros src rets q d a c c0 b x0 i CO NM BS S WB ST RG SK PK. pose proof ST as (K0 & KX & C1 & C2 & C3 & C4 & C5 & C6). destruct RG as (_ & IM & IR & T1 & T2 & REP & _ & _ & FIX).
  destruct (exec_step _ _ _ _ _ _ CO NM S KX) as (NX & j & EX & JM & JR & JE).
  assert (RT : i_ret i = i_ret (di_instr c)) by (rewrite IR, C4; apply ret_read; exact NX). split; [exact RT|].
  intros s (_ & SH & CS & GS). pose proof SH as [FL UN]. rewrite C1 in SH, FL, UN.
  assert (SX : b = a + 1 -> pair_of (i_mnem (di_instr c0)) (i_mnem (di_instr x0)) (i_mnem (di_instr c)) -> shade (wipe_carry (wipe_a s)) (wipe_carry (wipe_a (di_cur x0))) /\ ble (fl_m (es_flags s)) (fl_m (es_flags (di_cur x0))) /\ ble (fl_x (es_flags s)) (fl_x (es_flags (di_cur x0)))).
  { intros EB PR. assert (MC : i_mnem (di_instr c0) = M_clc \/ i_mnem (di_instr c0) = M_sec) by (destruct PR as [(X & _)|(X & _)]; auto).
    destruct (carry_plain _ _ _ _ _ _ CO BS S K0 MC) as [L1 NE]. destruct (fall_step _ _ _ _ _ _ CO S K0 NE) as (y & KY & SY). rewrite L1 in KY.
    destruct (collected_con _ _ _ _ _ _ CO S K0) as (A & _). rewrite add_wrapped_spec, (next_byte a A (WB _ _ K0 MC)), <- EB in KY by exact A. assert (y = x0) as -> by (unfold collected in *; congruence).
    destruct (exec_step _ _ _ _ _ _ CO NM S K0) as (_ & j0 & EX0 & JM0 & _). rewrite <- JM0 in MC. pose proof (carry_flags _ _ _ MC EX0) as [EM EXX].
    assert (N0 : exists v, di_next c0 = upd_flags (set_c v) (di_cur c0)).
    { Local Transparent execute_in. clear -MC EX0. unfold execute, execute_in in EX0. bok EX0 as u U. clear U. cbv zeta in EX0. destruct MC as [M|M]; rewrite M in EX0; injection EX0 as <-; eauto. Local Opaque execute_in. }
    destruct N0 as (v & N0). destruct FL as (FE & FM & FX & FC). pose proof SY as [(_ & SM & SX & _) _]. rewrite EM in SM. rewrite EXX in SX. split; [|split; eapply ble_trans; eassumption].
    assert (W : shade s (upd_flags (set_c B_unknown) (di_cur x0))).
    { apply shade_trans with (b := upd_flags (set_c B_unknown) (di_cur c0)); [apply shade_c_any; exact SH|]. replace (upd_flags (set_c B_unknown) (di_cur c0)) with (upd_flags (set_c B_unknown) (di_next c0)) by (rewrite N0; destruct (di_cur c0) as [a1 a2 a3 a4 [e f x cc] k]; reflexivity).
      apply shade_c; [apply ble_refl|exact SY]. }
    exact (shade_c B_unknown B_unknown _ _ (ble_refl _) W). }
  assert (BG : forall bytes k, decode bytes (es_flags (di_cur x0)) = Ok k -> decode bytes (es_flags s) = Ok k).
  { destruct C6 as [(EB & EX0 & _)|(EB & PR)]; [|destruct (SX EB PR) as (_ & BM & BX); intros bytes k; apply decode_ble; assumption].
    subst x0. destruct FL as (_ & FM & FX & _). intros bytes k. apply decode_ble; assumption. }
  destruct (FIX _ BG) as [FX CC]. split; [exact FX|]. rewrite C1 in SK. specialize (CC (known_agrees _ _ _ FL SK)).
  assert (E : exists s', execute i s = Ok s' /\ shade s' (di_next c)).
  { rewrite C2. destruct C6 as [(EB & EX0 & MM)|(EB & PR)].
    - subst x0. rewrite C1, MM, <- JM in PK. apply (mono_exec i j s (di_cur c0)); [exact EX|exact SH|exact GS|exact CS|congruence|congruence| |exact T1|exact T2|exact CC|apply known_pullable; exact PK].
      intros M. unfold maybe_arg. rewrite (JE null_ctx), REP; [reflexivity|]. rewrite IM, MM, <- JM. exact M.
    - destruct (SX EB PR) as (W & _). Local Transparent execute_in. unfold execute, execute_in in *. rewrite CC. cbn [bind]. cbv zeta in *. bok EX as u U. rewrite JM in EX. rewrite IM.
      destruct PR as [(_ & MX & MC)|(_ & MX & MC)]; rewrite MX in EX; rewrite MC; injection EX as <-; (eexists; split; [reflexivity|exact W]). Local Opaque execute_in. }
  destruct E as (s' & E & W). exists s'. split; [exact E|]. split; [exact W|]. split.
  - apply (execute_consistent _ _ _ _ E); [|exact CS]. rewrite RT, C4. unfold rc_consistent. destruct (i_ret (di_instr x0)) as [|f|]; try exact Logic.I. apply named_con. apply NX. reflexivity.
  - apply (good_execute _ _ _ _ _ _ E); [|exact GS]. cbn. rewrite RT, C4. destruct (i_ret (di_instr x0)) as [|f|]; try exact Logic.I. apply named_plain. apply NX. reflexivity.
Qed.

Lemma local_same : forall c x0 i, reading c x0 i -> is_local_branch i = true -> is_local_branch (di_instr c) = true.
Proof.
  intros c x0 i (_ & IM & _ & _ & _ & _ & _ & _ & FIX) L. destruct (FIX (es_flags (di_cur x0)) ltac:(auto)) as [FX _]. unfold is_local_branch in *. rewrite IM in L.
  apply andb_true_iff in L. destruct L as [L1 L2]. rewrite L2. unfold fix_addressing_mode in FX.
  assert (X : Ok i = Ok (with_mode (i_mode (di_instr c)) i)) by (rewrite <- FX; destruct (i_mode i); try discriminate L1; reflexivity).
  assert (Y : i_mode i = i_mode (with_mode (i_mode (di_instr c)) i)) by congruence. cbn [with_mode i_mode] in Y. rewrite <- Y, L1. reflexivity.
Qed.
Lemma local_back : forall c x0 i, reading c x0 i -> is_local_branch (di_instr c) = true -> is_local_branch i = true.
Proof.
  intros c x0 i (_ & IM & _ & _ & _ & _ & _ & _ & FIX) L. destruct (FIX (es_flags (di_cur x0)) ltac:(auto)) as [FX _]. unfold is_local_branch in *. rewrite IM.
  apply andb_true_iff in L. destruct L as [L1 L2]. rewrite L2. unfold fix_addressing_mode in FX.
  assert (X : i_mode i = i_mode (di_instr c) \/ i_mode (di_instr c) = A_imm_b \/ i_mode (di_instr c) = A_imm_w).
  { assert (Y : forall k, Ok k = Ok (with_mode (i_mode (di_instr c)) i) -> i_mode k = i_mode (di_instr c)) by (intros k H; assert (H' : k = with_mode (i_mode (di_instr c)) i) by congruence; rewrite H'; reflexivity).
    destruct (i_mode i) eqn:MI; try (left; apply Y in FX; rewrite <- FX; congruence); right.
    - destruct (fl_m (es_flags (di_cur x0))); try discriminate FX; apply Y in FX; rewrite <- FX; auto.
    - destruct (fl_x (es_flags (di_cur x0))); try discriminate FX; apply Y in FX; rewrite <- FX; auto. }
  destruct X as [X|[X|X]]; rewrite X in *; [rewrite L1; reflexivity|discriminate L1|discriminate L1].
Qed.
Lemma entries_asked : forall src rets q d, session src rets q d -> sorted_keys (ds_entries d) /\ forall a f, In (a, f) q -> om_mem a (ds_entries d) = true.
Proof.
  intros src rets q d S. induction S as [|q d fuel a f d' r S [SO IH] A C H]; [split; [exact Logic.I|intros a f []]|].
  assert (E : ds_entries d' = om_insert a tt (ds_entries d)).
  { unfold disassemble in H. cbv zeta in H. destruct (get_label _ _ _) as [lab w]. destruct (disasm_loop _ _ _ _ _) as [w' [w2|e|u|]]; try (injection H as <- <-; reflexivity). destruct (apply_labels _ _); injection H as <- <-; reflexivity. }
  rewrite E. split; [apply om_insert_sorted; exact SO|]. intros b g IN. unfold om_mem. rewrite om_find_insert by exact SO.
  assert (X : In (b, g) ((a, f) :: q)) by (destruct r; [exact IN|right; exact IN|right; exact IN|right; exact IN]). destruct X as [X|X].
  - injection X as -> ->. rewrite Z.eqb_refl. destruct (om_find b (ds_entries d)); reflexivity.
  - specialize (IH _ _ X). unfold om_mem in IH. destruct (Z.eqb_spec a b) as [->|N]; [|exact IH]. destruct (om_find b (ds_entries d)); reflexivity.
Qed.
Lemma not_stops : forall i, is_exit_instruction i = false -> ~ stops i.
Proof.
  intros i H [M|R]; unfold is_exit_instruction in H; apply orb_false_iff in H; destruct H as [H1 H2]; [|rewrite R in H2; discriminate H2].
  cbn [In] in M. repeat destruct M as [M|M]; try contradiction; rewrite <- M in H1; discriminate H1.
Qed.
Lemma fitting_taken : forall m s c, shade (taken m s) c -> es_consistent s -> SafeProofs.good True True s -> shade (taken m s) c /\ es_consistent (taken m s) /\ SafeProofs.good True True (taken m s).
Proof. intros m s c H C G. split; [exact H|]. split; [apply taken_consistent; exact C|]. destruct G as (A & X & Y & F & K). destruct m; repeat split; try assumption; exact Logic.I || tauto. Qed.
Lemma shade_taken : forall m s t, shade s t -> shade (taken m s) (taken m t).
Proof. intros m s t H. destruct m; try exact H; (apply shade_c; [apply ble_refl|exact H]). Qed.
Lemma decoded_real : forall src rets q d a c, conventions_ok rets -> byte_source src -> session src rets q d -> collected d a c -> i_mnem (di_instr c) <> PM_add /\ i_mnem (di_instr c) <> PM_sub.
Proof.
  intros src rets q d a c CO BS S K. destruct (good_entry _ _ _ _ (session_good _ _ _ _ CO S) _ _ K) as [A EN].
  destruct (entry_open _ _ _ _ _ BS A EN) as (op & rest & j & v & RD & B & R & DE & _ & _ & _ & SC & _). destruct (decode_mode_of op rest _ j R DE) as (MJ & _). destruct SC as (SM & _).
  pose proof (proj1 (decoded_size op S_none A_imp None None RC_default R)) as H. rewrite <- MJ, <- SM in H. split; intros E; rewrite E in H; discriminate H.
Qed.
Lemma pair_size : forall src rets q d a c c0 b x0, conventions_ok rets -> byte_source src -> session src rets q d -> stems d a c c0 b x0 -> instr_size (di_instr c) = b - a + instruction_length (i_mode (di_instr x0)).
Proof.
  intros src rets q d a c c0 b x0 CO BS S (K0 & KX & C1 & C2 & C3 & C4 & C5 & C6). unfold instr_size. rewrite C3. destruct C6 as [(-> & -> & MM)|(-> & PR)].
  - rewrite MM. destruct (decoded_real _ _ _ _ _ _ CO BS S K0) as [N1 N2]. destruct (i_mnem (di_instr c0)); try contradiction; lia.
  - destruct PR as [(_ & _ & ->)|(_ & _ & ->)]; lia.
Qed.

Lemma length_pos : forall src rets q d a c, conventions_ok rets -> session src rets q d -> collected d a c -> 0 < instruction_length (i_mode (di_instr c)).
Proof.
  intros src rets q d a c CO S K. destruct (good_entry _ _ _ _ (session_good _ _ _ _ CO S) _ _ K) as [A (l & j & far & v & _ & DE & _ & _ & _ & (_ & -> & _) & _)].
  destruct l as [|op rest]; [discriminate DE|]. rewrite decode_eq in DE. destruct (decode_mode _ (snd (decode_opcode op))) as [m|] eqn:DM; [|discriminate DE]. bok DE as p E. destruct p. injection DE as <-. cbn [i_mode].
  destruct (snd (decode_opcode op)); cbn [decode_mode] in DM; try (injection DM as <-; reflexivity); (destruct (known_bit _) as [[]|]; [injection DM as <-; reflexivity|injection DM as <-; reflexivity|discriminate DM]).
Qed.
Lemma forall2_item : forall (Q : Z * dinstr -> instr -> Prop) m is, Forall2 Q m is -> (forall a c i, item m is a c i -> Q (a, c) i) /\ (forall a c, In (a, c) m -> exists i, item m is a c i).
Proof.
  intros Q m is F. unfold item. induction F as [|kv i m is H F [IH1 IH2]]; [split; [intros a c i []|intros a c []]|]. split.
  - intros a c j [E|IN]; [injection E as -> ->; exact H|apply IH1; exact IN].
  - intros a c [E|IN]; [exists i; left; rewrite E; reflexivity|]. destruct (IH2 _ _ IN) as (j & J). exists j. right. exact J.
Qed.
Definition line_of (src : source) (d d' : disassembler) (kv : Z * dinstr) (i : instr) : Prop :=
  shows kv i /\ 0 < instr_size (di_instr (snd kv)) /\ (forall ctx, SpecListing.knows ctx d' -> exists l, instr_bytes (fst kv) ctx (with_mode (i_mode (di_instr (snd kv))) i) = Ok l) /\
  exists c0 b x0, stems d (fst kv) (snd kv) c0 b x0 /\ reading (snd kv) x0 i /\
     (forall t y0 h, i_arg1 (di_instr x0) = Some (ELabel (di_label y0) h) -> collected d t y0 -> di_label y0 <> "" ->
        exists y, collected d' t y /\ di_label y <> "" /\ di_cur y = di_cur y0 /\ i_arg1 (di_instr (snd kv)) = Some (ELabel (di_label y) h)).
Lemma listing_length : forall src rets q d d', conventions_ok rets -> readable rets -> byte_source src -> session src rets q d -> ds_sym d < 2 ^ 31 -> cleanup d = Ok d' ->
  (forall a c, collected d' a c -> i_mnem (di_instr c) <> M_per) -> forall a c, collected d' a c -> 0 < instruction_length (i_mode (di_instr c)).
Proof. intros src rets q d d' CO RDB BS S SY CL NP a c KC. destruct (listing_line _ _ _ _ _ _ _ CO RDB BS S SY CL KC (NP _ _ KC)) as (ts & i & _ & _ & _ & SZ & _). exact SZ. Qed.
Lemma apart_within : forall d', apart d' -> (forall a c, collected d' a c -> 0 < instruction_length (i_mode (di_instr c))) -> within_banks d'.
Proof.
  intros d' (_ & AP & _) LN pc c KC M OF. specialize (LN _ _ KC). specialize (AP _ _ KC). unfold instr_size in AP. rewrite OF in AP. destruct M as [M|M]; rewrite M in AP; lia.
Qed.
Lemma apart_carry : forall src rets q d d', conventions_ok rets -> readable rets -> byte_source src -> session src rets q d -> ds_sym d < 2 ^ 31 -> cleanup d = Ok d' -> listable rets d' -> carry_within d.
Proof.
  intros src rets q d d' CO RDB BS S SY CL LI pc c KC M OF. pose proof (listing_length _ _ _ _ _ CO RDB BS S SY CL (li_per _ _ LI)) as LN.
  destruct (cleanup_open _ _ _ _ _ CO BS S SY CL) as (m3 & E & K & U & NB & P). destruct (session_maps _ _ _ _ CO BS S SY) as (SO & UL & _).
  pose proof (keys_sorted _ _ _ _ K SO) as SO3. destruct (fold_spec (List.length m3) m3 ltac:(lia) SO3) as (F1 & F2 & F3).
  destruct (key_in _ _ m3 _ _ _ K (om_find_in _ _ _ _ KC)) as (c3 & IN3). destruct (P _ _ IN3) as (c1 & IN1 & (_ & _ & _ & P4 & P5 & _ & P7 & _)).
  assert (c1 = c) by (apply (om_in_find _ _ _ _ SO) in IN1; unfold collected in KC; congruence). subst c1.
  assert (COL : forall a x, In (a, x) (fold_pseudo m3) -> collected d' a x) by (intros a x IN; unfold collected; rewrite E; apply om_in_find; assumption).
  destruct (li_apart _ _ LI) as (_ & AP2 & AP3). destruct (carry_plain _ _ _ _ _ _ CO BS S KC M) as [LE NX].
  destruct (F3 _ _ IN3) as [(c' & IN' & _)|(p & c0 & pm & AD & FM & _)].
  - pose proof (LN _ _ (COL _ _ IN')) as L1. pose proof (AP2 _ _ (COL _ _ IN')) as A2. destruct (F2 _ _ IN') as [I3|(c4 & b & x & pm & AD & FM & _ & EC & _)].
    + assert (c' = c3) by (apply (om_in_find _ _ _ _ SO3) in I3, IN3; congruence). subst c'. assert (NS : ~ stops (di_instr c3)).
      { intros X. assert (Y : stops (di_instr c)) by (unfold stops in *; rewrite <- P4, <- P7; exact X). exact (not_stops _ NX Y). }
      specialize (AP3 _ _ (COL _ _ IN') NS). unfold instr_size in AP3. rewrite OF in AP3. destruct (i_mnem (di_instr c3)); lia.
    + apply fused_pair in FM. rewrite OF in A2. subst c'. unfold instr_size in A2. assert (X : i_mnem (di_instr (fuse c4 x pm)) = pm) by reflexivity. rewrite X in A2. destruct FM as [(_ & _ & ->)|(_ & _ & ->)]; lia.
  - apply fused_pair in FM. rewrite P4 in FM. destruct M as [M|M]; rewrite M in FM; destruct FM as [(_ & X & _)|(_ & X & _)]; discriminate X.
Qed.
Lemma listing_lines_of : forall src rets q d d', conventions_ok rets -> readable rets -> byte_source src -> session src rets q d -> ds_sym d < 2 ^ 31 -> carry_within d -> cleanup d = Ok d' -> listable rets d' ->
  exists is, Forall2 (line_of src d d') (ds_map d') is.
Proof.
  intros src rets q d d' CO RDB BS S SY WB CL LI. destruct (clean_flow _ _ _ _ _ CO RDB BS S SY WB CL (li_per _ _ LI)) as [CF _].
  assert (G : forall m, (forall a c, In (a, c) m -> In (a, c) (ds_map d')) -> exists is, Forall2 (line_of src d d') m is); [|apply G; auto].
  induction m as [|[a c] m IH]; intros SUB; [exists []; constructor|]. destruct IH as (is & F); [intros b x IN; apply SUB; right; exact IN|].
  assert (IN : In (a, c) (ds_map d')) by (apply SUB; left; reflexivity). destruct (cleaned_label _ _ _ _ _ _ _ CO BS S SY CL IN) as (A & KC & ID).
  destruct (listing_line _ _ _ _ _ _ _ CO RDB BS S SY CL KC (li_per _ _ LI _ _ KC)) as (ts & i & T & PA & IM & SZ & PIN & BY). specialize (BY (apart_within _ (li_apart _ _ LI) (listing_length _ _ _ _ _ CO RDB BS S SY CL (li_per _ _ LI)))).
  destruct (CF _ _ KC) as (c0 & b & x0 & i' & ST & RG & OPS). assert (i' = i) as -> by (apply (parse_same (instr_to_string (di_instr c))); [apply RG|exists ts; auto]).
  exists (i :: is). constructor; [|exact F]. split; [|split; [unfold instr_size; cbn [snd]; destruct (i_mnem (di_instr c)); lia|split]].
  - split; [exact A|]. split; [exact ID|]. split; [|exists ts; auto]. cbn [snd]. intros DE. destruct (li_entry _ _ LI _ _ KC DE) as (C & _). destruct (fl_c (es_flags (di_cur c))); try discriminate C; reflexivity.
  - cbn [fst snd]. intros ctx KN. destruct (BY ctx KN) as (l & H & _). eauto.
  - exists c0, b, x0. auto.
Qed.

Lemma listing_plan : forall src rets q d d', conventions_ok rets -> byte_source src -> session src rets q d -> ds_sym d < 2 ^ 31 -> carry_within d -> cleanup d = Ok d' -> listable rets d' ->
  exists is, plan fitting (ds_map d') is.
Proof.
  intros src rets q d d' CO BS S SY WB CL LI.
  assert (RDB : readable rets) by (intros t [|f|] F; try exact Logic.I; cbn; destruct (li_named _ _ LI _ _ F) as [C _]; rewrite C; reflexivity).
  destruct (listing_lines_of _ _ _ _ _ CO RDB BS S SY WB CL LI) as (is & FL). exists is. destruct (clean_flow _ _ _ _ _ CO RDB BS S SY WB CL (li_per _ _ LI)) as [_ UP].
  destruct (cleanup_open _ _ _ _ _ CO BS S SY CL) as (m3 & E & K & U & _). destruct (session_maps _ _ _ _ CO BS S SY) as (SO & _). pose proof (keys_sorted _ _ _ _ K SO) as SO3.
  destruct (fold_spec (List.length m3) m3 ltac:(lia) SO3) as (F1 & F2 & F3). assert (SD : sorted_keys (ds_map d')) by (rewrite E; exact F1).
  destruct (forall2_item _ _ _ FL) as [IT1 IT2]. unfold line_of in IT1. cbn [fst snd] in IT1. destruct (li_apart _ _ LI) as (AP1 & AP2 & AP3). change (2 ^ 16) with 65536 in *.
  assert (COL : forall a c i, item (ds_map d') is a c i -> collected d' a c) by (intros a c i IT; apply om_in_find; [exact SD|apply (item_in _ _ _ _ _ IT)]).
  assert (ITM : forall a c, collected d' a c -> exists i, item (ds_map d') is a c i) by (intros a c KC; apply IT2; apply (om_find_in _ _ _ _ KC)).
  assert (CON : forall a c, collected d' a c -> es_consistent (di_cur c)).
  { intros a c KC. destruct (ITM _ _ KC) as (i & IT). destruct (IT1 _ _ _ IT) as (_ & _ & _ & c0 & b & x0 & (K0 & _ & C1 & _) & _). rewrite C1. apply (collected_con _ _ _ _ _ _ CO S K0). }
  assert (NOMID : forall a c t f c1 y0, collected d' a c -> 0 < instr_size (di_instr c) -> a + instr_size (di_instr c) = t -> collected d' (t - 1) f -> stems d (t - 1) f c1 t y0 -> False).
  { intros a c t f c1 y0 KC SZ ET KF STF. pose proof STF as (_ & KY & _). pose proof (pair_size _ _ _ _ _ _ _ _ _ CO BS S STF) as SF. pose proof (length_pos _ _ _ _ _ _ CO S KY) as LP.
    destruct (Z.lt_trichotomy a (t - 1)) as [L|[L|L]]; [pose proof (AP1 _ _ _ _ KC KF L); lia| |pose proof (AP1 _ _ _ _ KF KC L); lia].
    subst a. assert (f = c) as -> by (unfold collected in *; congruence). lia. }
  assert (LAND : forall a c t y0, collected d' a c -> 0 < instr_size (di_instr c) -> a + instr_size (di_instr c) = t -> collected d t y0 -> exists y, collected d' t y /\ di_cur y = di_cur y0).
  { intros a c t y0 KC SZ ET KY. destruct (UP _ _ KY) as [(y & KY' & CY & _)|(_ & f & c1 & KF & STF & _)]; [eauto|]. exfalso. exact (NOMID _ _ _ _ _ _ KC SZ ET KF STF). }
  (* falling through *)
  assert (FALL : forall a c i c0 b x0, item (ds_map d') is a c i -> stems d a c c0 b x0 -> is_exit_instruction (di_instr x0) = false ->
    add_wrapped b (instruction_length (i_mode (di_instr x0))) = a + instr_size (di_instr c) /\ offset_of a + instr_size (di_instr c) < 65536 /\
    exists x j, item (ds_map d') is (a + instr_size (di_instr c)) x j /\ shade (di_next c) (di_cur x)).
  { intros a c i c0 b x0 IT ST NE. pose proof (COL _ _ _ IT) as KC. destruct (IT1 _ _ _ IT) as (_ & SZ & _).
    pose proof (pair_size _ _ _ _ _ _ _ _ _ CO BS S ST) as PZ. pose proof ST as (K0 & KX & C1 & C2 & _ & _ & _ & C6). pose proof (length_pos _ _ _ _ _ _ CO S KX) as LP.
    assert (OF : offset_of a + instr_size (di_instr c) < 65536).
    { apply AP3; [exact KC|]. apply not_stops. rewrite (exit_same _ _ _ _ _ _ _ _ _ (di_instr c) CO BS S ST eq_refl eq_refl). exact NE. }
    destruct (collected_con _ _ _ _ _ _ CO S K0) as (A & _). destruct (collected_con _ _ _ _ _ _ CO S KX) as (AB & _).
    assert (BA : b = a \/ b = a + 1) by (destruct C6 as [(-> & _)|(-> & _)]; auto).
    assert (AW : add_wrapped b (instruction_length (i_mode (di_instr x0))) = a + instr_size (di_instr c)).
    { rewrite no_wrap; [lia|exact AB|lia|]. unfold offset_of in *. change (2 ^ 16) with 65536 in *. clear - OF PZ BA LP. Z.div_mod_to_equations. lia. }
    split; [exact AW|]. split; [exact OF|]. destruct (fall_step _ _ _ _ _ _ CO S KX NE) as (y & KY & SHY). rewrite AW in KY.
    destruct (LAND a c _ y KC SZ eq_refl KY) as (x & KX' & CX). destruct (ITM _ _ KX') as (j & IJ). exists x, j. split; [exact IJ|]. rewrite C2, CX. exact SHY. }
  assert (RUN : forall a c i, item (ds_map d') is a c i -> i_ret i = i_ret (di_instr c) /\ forall s, fitting c s -> fix_addressing_mode i (es_flags s) = Ok (with_mode (i_mode (di_instr c)) i) /\
    exists s', execute i s = Ok s' /\ shade s' (di_next c) /\ es_consistent s' /\ SafeProofs.good True True s').
  { intros a c i IT. pose proof (COL _ _ _ IT) as KC. destruct (IT1 _ _ _ IT) as (_ & _ & _ & c0 & b & x0 & ST & RG & _).
    apply (item_runs src rets q d a c c0 b x0 i CO (li_named _ _ LI) BS S WB ST RG (li_suffix _ _ LI _ _ KC) (li_pull _ _ LI _ _ KC)). }
  assert (BRANCH : forall a c i, item (ds_map d') is a c i -> is_local_branch i = true -> exists t x j v, item (ds_map d') is t x j /\ di_label x <> "" /\ simple_identifier_opt (i_arg1 i) = Some (di_label x) /\
     relative_branch (i_mnem i) /\ shade (taken (i_mnem i) (di_cur c)) (di_cur x) /\ exists c0, collected d a c0 /\ branch_offset (di_instr c0) = Ok v /\ t = target a (di_instr c0) v).
  { intros a c i IT LB. pose proof (COL _ _ _ IT) as KC. destruct (IT1 _ _ _ IT) as (_ & _ & _ & c0 & b & x0 & ST & RG & OPS).
    pose proof (local_same _ _ _ RG LB) as LC. pose proof ST as (K0 & KX & C1 & C2 & C3 & C4 & C5 & C6).
    destruct C6 as [(-> & -> & MM)|(_ & PR)].
    - assert (L0 : is_local_branch (di_instr c0) = true) by (unfold is_local_branch in *; rewrite <- C3, <- MM; exact LC).
      destruct (branch_step _ _ _ _ _ _ CO BS S K0 L0) as (RB & v & y0 & h & BO & KY & LY & AE & SH). destruct (OPS _ _ _ AE KY LY) as (y & KY' & LY' & CY & AC).
      destruct (ITM _ _ KY') as (j & IJ). destruct RG as (_ & IM & _ & _ & _ & _ & LAB & _). destruct (LAB _ _ AC) as (ty & AI).
      exists (target a (di_instr c0) v), y, j, v. split; [exact IJ|]. split; [exact LY'|]. split; [rewrite AI; reflexivity|]. rewrite IM, MM, C1, CY. split; [exact RB|]. split; [exact SH|].
      exists c0. auto.
    - exfalso. assert (L0 : is_local_branch (di_instr x0) = true) by (unfold is_local_branch in *; rewrite <- C3; destruct PR as [(_ & -> & X)|(_ & -> & X)]; rewrite X in LC; exact LC).
      destruct (branch_step _ _ _ _ _ _ CO BS S KX L0) as (RB & _). unfold relative_branch in RB. cbn [In] in RB. destruct PR as [(_ & X & _)|(_ & X & _)]; rewrite X in RB; repeat destruct RB as [RB|RB]; try discriminate RB; contradiction. }
  constructor.
  - clear - FL. induction FL as [|? ? ? ? (X & _)]; constructor; auto.
  - exact SD.
  - assert (BACK : forall a c, In (a, c) (ds_map d') -> exists c3, In (a, c3) m3 /\ di_label c = di_label c3).
    { intros a c IN. rewrite E in IN. destruct (F2 _ _ IN) as [I3|(c3 & b & x3 & pm & AD & _ & _ & -> & _)]; [eauto|]. exists c3. split; [destruct AD as (l1 & l2 & ->); apply in_or_app; right; left; reflexivity|reflexivity]. }
    intros a b c x IA IB NE EQ. destruct (BACK _ _ IA) as (c3 & IA3 & LA). destruct (BACK _ _ IB) as (x3 & IB3 & LB). apply (U a b c3 x3 IA3 IB3); congruence.
  - intros c s t (C0 & A1 & A2 & A3) (_ & B1 & B2 & B3). split; [exact C0|]. split; [apply merge_shade; assumption|]. split; [apply es_merge_consistent|apply good_merge; exact A3].
  - intros a c i IT DE. pose proof (COL _ _ _ IT) as KC. destruct (declared_entry _ (CON _ _ KC) (li_entry _ _ LI _ _ KC DE)) as (X & Y & Z). split; [exact (CON _ _ KC)|]. split; [exact X|]. split; assumption.
  - intros a c i s IT FT. destruct (RUN _ _ _ IT) as [RT RN]. destruct (RN s FT) as (_ & s' & EX & SH & CS & GS). exists s'. split; [exact EX|]. intros NE.
    destruct (IT1 _ _ _ IT) as (_ & _ & _ & c0 & b & x0 & ST & RG & _). pose proof RG as (_ & IM & _).
    destruct (FALL _ _ _ _ _ _ IT ST ltac:(rewrite <- (exit_same _ _ _ _ _ _ _ _ _ i CO BS S ST IM RT); exact NE)) as (_ & OF & x & j & IX & SX). exists x, j. split; [exact IX|]. split; [exact OF|]. split; [exact (CON _ _ (COL _ _ _ IX))|]. split; [eapply shade_trans; eassumption|auto].
  - intros a c i IT LB. destruct (BRANCH _ _ _ IT LB) as (t & x & j & v & IX & LX & SI & RB & SX & _). exists t, x, j. split; [exact IX|]. split; [exact LX|]. split; [exact SI|]. intros s FT.
    destruct (RUN _ _ _ IT) as [_ RN]. destruct (RN s FT) as (_ & s1 & EX & _). Local Transparent execute_branch.
    assert (EB : exists s', execute_branch i s = Ok s') by (unfold execute_branch; rewrite EX; cbn [bind]; eexists; reflexivity). Local Opaque execute_branch. destruct EB as (s' & EB). exists s'. split; [exact EB|].
    pose proof (branch_taken _ _ _ RB EB) as ->. destruct FT as (_ & A1 & A2 & A3). split; [exact (CON _ _ (COL _ _ _ IX))|]. apply fitting_taken; [|exact A2|exact A3]. eapply shade_trans; [apply shade_taken; exact A1|exact SX].
  - intros a c i s IT FT. destruct (RUN _ _ _ IT) as [_ RN]. apply (RN s FT).
  - intros a c i IT. destruct (IT1 _ _ _ IT) as (_ & SZ & _ & c0 & b & x0 & ST & RG & _). split; [apply RG|exact SZ].
  - intros a c i ctx IT KN. destruct (IT1 _ _ _ IT) as (_ & _ & BY & _). apply BY. intros b x KX LX. apply (KN b x); [apply (om_find_in _ _ _ _ KX)|exact LX].
  - intros a c i IT. destruct (IT1 _ _ _ IT) as (SH & _ & _ & c0 & b & x0 & ST & RG & _). apply RG. apply SH.
  - intros a c b x IA IB LT. apply (AP1 a c b x); [apply om_in_find; assumption|apply om_in_find; assumption|exact LT].
  - intros a c IA. apply AP2. apply om_in_find; assumption.
  - intros a c i IT. pose proof (COL _ _ _ IT) as KC.
    assert (V : forall t, reach false (fun a => om_find a (ds_map d)) (fun a => exists f, In (a, f) q) t ->
      (forall y, collected d' t y -> visited (ds_map d') is t) /\
      (forall f c0 y0, collected d' (t - 1) f -> stems d (t - 1) f c0 t y0 -> di_label y0 = "" -> visited (ds_map d') is (t - 1))).
    { intros t R. induction R as [t (f & IQ)|a1 c1 t R [IH1 IH2] KA GO].
      - destruct (good_req _ _ _ _ (session_good _ _ _ _ CO S) t (estate_of_flags f)) as (_ & _ & LN); [exists f; auto|]. unfold old_label in LN.
        destruct (om_find t (ds_map d)) as [y0|] eqn:KY; [|contradiction]. destruct (entries_asked _ _ _ _ S) as [_ EQ]. pose proof (EQ _ _ IQ) as MEM. split.
        + intros y KY'. destruct (UP _ _ KY) as [(y1 & KY1 & _ & _ & EN)|(L0 & _)]; [|contradiction]. destruct (ITM _ _ KY1) as (j & IJ). eapply vi_entry; [exact IJ|]. rewrite (EN LN). exact MEM.
        + intros f1 c0 y1 _ (_ & KY1 & _) L1. unfold collected in KY1. rewrite KY in KY1. injection KY1 as <-. contradiction.
      - cbv beta in KA. destruct GO as [GO|[X _]]; [|discriminate X].
        destruct (UP _ _ KA) as [(y & KY & _)|(L0 & f & c0 & KF & STF & MF)].
        + pose proof (IH1 _ KY) as VA. destruct (ITM _ _ KY) as (j & IJ). destruct (IT1 _ _ _ IJ) as (_ & SZ & _ & c0 & b & x0 & ST & RG & OPS). pose proof ST as (K0 & KX & _ & _ & C3 & _ & _ & C6).
          assert (c0 = c1) by (unfold collected in K0; congruence). subst c0. destruct (RUN _ _ _ IJ) as [RT _]. pose proof RG as (_ & IM & _).
          destruct GO as [(NE & ET)|(LB & v & BO & ET)].
          * destruct C6 as [(EB & EX & _)|(EB & PR)].
            -- subst b x0. destruct (FALL _ _ _ _ _ _ IJ ST NE) as (AW & OF & _). rewrite AW in ET. subst t. split; [|intros f c0 y0 KF STF _; exfalso; exact (NOMID _ _ _ _ _ _ KY SZ eq_refl KF STF)].
               intros y1 KY1. eapply vi_next; [exact VA|exact IJ| |exact OF]. rewrite (exit_same _ _ _ _ _ _ _ _ _ j CO BS S ST IM RT). exact NE.
            -- assert (MC : i_mnem (di_instr c1) = M_clc \/ i_mnem (di_instr c1) = M_sec) by (destruct PR as [(X & _)|(X & _)]; auto).
               destruct (carry_plain _ _ _ _ _ _ CO BS S K0 MC) as [L1 _]. destruct (collected_con _ _ _ _ _ _ CO S K0) as (A & _). rewrite L1, add_wrapped_spec, (next_byte a1 A (WB _ _ K0 MC)) in ET by exact A. subst t.
               pose proof (pair_size _ _ _ _ _ _ _ _ _ CO BS S ST) as PZ. pose proof (length_pos _ _ _ _ _ _ CO S KX) as LP. split.
               ++ intros y1 KY1. pose proof (AP1 _ _ _ _ KY KY1 ltac:(lia)). lia.
               ++ intros f c0 y0 _ _ _. replace (a1 + 1 - 1) with a1 by lia. exact VA.
          * destruct (branch_step _ _ _ _ _ _ CO BS S K0 LB) as (RB & v' & y0 & h & BO' & KT & LT & _). rewrite BO in BO'. injection BO' as <-. rewrite <- ET in KT.
            split; [|intros f c0 y1 _ (_ & KY1 & _) L1; assert (y1 = y0) by (unfold collected in *; congruence); subst y1; contradiction].
            intros y1 KY1. destruct C6 as [(EB & EX & MM)|(_ & PR)].
            -- subst x0. assert (LC : is_local_branch (di_instr y) = true) by (unfold is_local_branch in *; rewrite C3, MM; exact LB).
               destruct (BRANCH _ _ _ IJ (local_back _ _ _ RG LC)) as (t' & x & j' & v' & IX & LX & SI & _ & _ & c2 & K2 & BO2 & ET2).
               assert (c2 = c1) by (unfold collected in *; congruence). subst c2. assert (E' : t' = t) by congruence. rewrite <- E'. exact (vi_branch _ _ _ _ _ _ _ _ VA IJ (local_back _ _ _ RG LC) IX LX SI).
            -- exfalso. unfold relative_branch in RB. cbn [In] in RB. destruct PR as [(X & _)|(X & _)]; rewrite X in RB; repeat destruct RB as [RB|RB]; try discriminate RB; contradiction.
        + pose proof (IH2 _ _ _ KF STF L0) as VA. destruct (ITM _ _ KF) as (j & IJ). destruct (IT1 _ _ _ IJ) as (_ & SZ & _ & c0' & b & x0 & ST' & RG & _). destruct (RUN _ _ _ IJ) as [RT _]. pose proof RG as (_ & IM & _).
          pose proof STF as (K0 & KX & _ & _ & C3 & _ & _ & C6). destruct C6 as [(EB & _)|(EB & PR)]; [lia|].
          destruct GO as [(NE & ET)|(LB & v & BO & ET)].
          * destruct (FALL _ _ _ _ _ _ IJ STF NE) as (AW & OF & _). rewrite AW in ET. subst t. split; [|intros f1 c2 y0 KF1 STF1 _; exfalso; exact (NOMID _ _ _ _ _ _ KF SZ eq_refl KF1 STF1)].
            intros y1 KY1. eapply vi_next; [exact VA|exact IJ| |exact OF]. rewrite (exit_same _ _ _ _ _ _ _ _ _ j CO BS S STF IM RT). exact NE.
          * exfalso. destruct (branch_step _ _ _ _ _ _ CO BS S KX LB) as (RB & _). unfold relative_branch in RB. cbn [In] in RB. destruct PR as [(_ & X & _)|(_ & X & _)]; rewrite X in RB; repeat destruct RB as [RB|RB]; try discriminate RB; contradiction. }
    destruct (IT1 _ _ _ IT) as (_ & _ & _ & c0 & b & x0 & (K0 & _) & _). exact (proj1 (V a (session_reaches _ _ _ _ CO S _ _ K0)) c KC).
Qed.

(** ** The listing assembles. *)
Lemma listing_assembles : forall src rets q d d' out, Forall comment out -> conventions_ok rets -> byte_source src -> session src rets q d -> ds_sym d < 2 ^ 31 -> cleanup d = Ok d' -> listable rets d' ->
  exists N, forall fuel, (N <= fuel)%nat -> forall sk, (forall ws w, sk ws w = Ok tt) -> exists ws asm, assemble fuel sk [out ++ ModelTools.listing (ds_map d')] = (ws, Ok asm) /\
    Forall2 (fun kv w => fst w = fst kv /\ zlen (snd w) = instr_size (di_instr (snd kv)) /\ holds src (fst w) (snd w)) (ds_map d') ws.
Proof.
  intros src rets q d d' out CM CO BS S SY CL LI.
  assert (RDB : readable rets) by (intros t [|f|] F; try exact Logic.I; cbn; destruct (li_named _ _ LI _ _ F) as [C _]; rewrite C; reflexivity).
  destruct (listing_plan _ _ _ _ _ CO BS S SY (apart_carry _ _ _ _ _ CO RDB BS S SY CL LI) CL LI) as (is & PL). destruct (plan_assembles _ out _ _ CM PL) as (N & AS). exists N. intros fuel LE sk SK.
  destruct (AS fuel LE sk SK) as (ws & asm & A). exists ws, asm. split; [exact A|].
  exact (reassembles_after _ _ _ _ _ _ _ _ _ _ CM CO RDB BS S SY CL A).
Qed.
