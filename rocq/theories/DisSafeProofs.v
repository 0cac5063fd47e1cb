(** Undefined behaviour of the disassembler. *)
From Verif Require Import Base ModelNumeric ModelAddress ModelExpr ModelMnemonic ModelAMode ModelOpcode ModelState ModelInstr ModelStatement ModelMap ModelRom ModelDisasm
  SpecArith SpecInstr SpecState SpecDisasm SpecDisSafe BaseProofs MapProofs ArithProofs StateProofs InstrProofs SafeProofs SafeRunProofs DisStateProofs DisStepProofs
  DisInvProofs DisRunProofs DisRequestProofs DisClosedProofs DumbProofs ListTextProofs ShadeProofs.
Open Scope list_scope.
Open Scope Z_scope.
Local Opaque decode_opcode.

(** ** Executing an instruction with small operands. *)
Definition exec_cause (om ox : Prop) (m : mnemonic) (u : ub) : Prop :=
  (u = UB_oob \/ u = UB_assert) /\ (m = M_pla /\ om \/ (m = M_plx \/ m = M_ply) /\ ox).
Lemma execute_tame : forall (om ox : Prop) i s, tame (i_arg1 i) -> tame (i_arg2 i) -> SafeProofs.good om ox s -> safe (exec_cause om ox (i_mnem i)) (execute i s).
Proof.
  intros om ox i s (v1 & A1 & B1) (v2 & A2 & B2) G. unfold execute, execute_in. apply safe_bind; [apply safe_check|]. intros _ _. cbv zeta.
  set (P := exec_cause om ox (i_mnem i)).
  assert (ARG1 : safe P (maybe_arg null_ctx (i_arg1 i))) by (rewrite A1; exact Logic.I).
  assert (ARG2 : safe P (maybe_arg null_ctx (i_arg2 i))) by (rewrite A2; exact Logic.I).
  destruct G as (GA & GX & GY & [GM GIX] & GK).
  destruct (i_mnem i) eqn:MN; try exact Logic.I;
    try (destruct (i_mode i); try exact Logic.I; (apply safe_bind; [|intros; exact Logic.I]);
         first [exact ARG1|apply safe_rv_add; [assumption|cbn; lia]]);
    try (apply safe_bind; [exact ARG1|]; intros [v|] _; exact Logic.I).
  - (* mvn *) apply safe_bind; [exact ARG1|]. intros [v|] A; cbn [bind].
    + rewrite A1 in A. injection A as A. pose proof (B1 _ A) as SM. apply safe_bind.
      * apply safe_bind; [apply safe_int; intros N; exfalso; apply N; unfold int32; lia|]. intros o O.
        assert (o = 1 + v) as -> by (unfold int_result in O; destruct (in_int (1 + v)); [congruence|discriminate O]).
        apply safe_bind; [apply safe_rv_add; [|lia]; destruct (fl_m (es_flags s)); exact GX|]. intros rx _.
        apply safe_bind; [apply safe_rv_add; [|lia]; destruct (fl_m (es_flags s)); exact GY|]. intros; exact Logic.I.
      * intros s1 _. apply safe_bind; [exact ARG2|]. intros; exact Logic.I.
    + apply safe_bind; [exact ARG2|]. intros; exact Logic.I.
  - (* mvp *) apply safe_bind; [exact ARG1|]. intros [v|] A; cbn [bind].
    + rewrite A1 in A. injection A as A. pose proof (B1 _ A) as SM. apply safe_bind.
      * apply safe_bind; [apply safe_int; intros N; exfalso; apply N; unfold int32; lia|]. intros o O.
        assert (o = -1 - v) as -> by (unfold int_result in O; destruct (in_int (-1 - v)); [congruence|discriminate O]).
        apply safe_bind; [apply safe_rv_add; [|lia]; destruct (fl_m (es_flags s)); exact GX|]. intros rx _.
        apply safe_bind; [apply safe_rv_add; [|lia]; destruct (fl_m (es_flags s)); exact GY|]. intros; exact Logic.I.
      * intros s1 _. apply safe_bind; [exact ARG2|]. intros; exact Logic.I.
    + apply safe_bind; [exact ARG2|]. intros; exact Logic.I.
  - apply safe_bind; [|intros [r k] _; exact Logic.I]. apply safe_pull_reg. intros O. unfold P, exec_cause. first [apply GM in O|apply GIX in O]; repeat split; auto; try congruence; tauto.
  - apply safe_bind; [|intros [r k] _; exact Logic.I]. apply safe_pull_reg. intros O. unfold P, exec_cause. first [apply GM in O|apply GIX in O]; repeat split; auto; try congruence; tauto.
  - apply safe_bind; [|intros [r k] _; exact Logic.I]. apply safe_pull_reg. intros O. unfold P, exec_cause. first [apply GM in O|apply GIX in O]; repeat split; auto; try congruence; tauto.
Qed.
Lemma branch_tame : forall (om ox : Prop) i s, tame (i_arg1 i) -> tame (i_arg2 i) -> SafeProofs.good om ox s -> safe (exec_cause om ox (i_mnem i)) (execute_branch i s).
Proof. intros om ox i s A B G. unfold execute_branch. apply safe_bind; [exact (execute_tame _ _ _ _ A B G)|]. intros; exact Logic.I. Qed.
Lemma good_branch : forall (om ox : Prop) i s s', execute_branch i s = Ok s' -> plain_stmt (SInstr i) -> SafeProofs.good om ox s -> SafeProofs.good om ox s'.
Proof.
  intros om ox i s s' H P G. unfold execute_branch in H. bok H as t E. assert (GT : SafeProofs.good om ox t) by exact (good_execute _ _ _ _ _ _ E P G).
  destruct GT as (GA & GX & GY & GF & GK). destruct (i_mnem i); injection H as <-; repeat (split; try assumption); apply GF.
Qed.

(** ** What was decoded has small operands and a known target. *)
Lemma decode_safe : forall bytes f u, decode bytes f <> UB u.
Proof.
  intros [|op rest] f u H; [discriminate H|]. rewrite decode_eq in H. destruct (decode_mode f _) as [a|]; [|discriminate H].
  destruct (decode_operands a rest) as [[x y]|e|v|] eqn:D; try discriminate H.
  destruct a; cbn [decode_operands] in D; try discriminate D; destruct rest as [|b0 [|b1 [|b2 rest]]]; discriminate D.
Qed.
Lemma literal_operands : forall a rest x y, decode_operands a rest = Ok (x, y) ->
  (x = None \/ exists w t, x = Some (ELit w t)) /\ (y = None \/ exists w t, y = Some (ELit w t)).
Proof.
  Local Opaque cast_to. intros a rest x y D. destruct a; cbn [decode_operands] in D; destruct rest as [|b0 [|b1 [|b2 rest]]]; try discriminate D; injection D as <- <-; unfold mk_lit; split; eauto.
  Local Transparent cast_to.
Qed.
Lemma tame_lit : forall w t, Z.abs w <= 2 ^ 24 -> tame (Some (ELit w t)).
Proof. intros w t H. exists (Some w). split; [reflexivity|]. intros z E. injection E as <-. exact H. Qed.
Lemma tame_none : tame None.
Proof. exists None. split; [reflexivity|discriminate]. Qed.
Lemma decode_tame : forall op rest f j, 0 <= op < 256 -> decode (op :: rest) f = Ok j -> tame (i_arg1 j) /\ tame (i_arg2 j).
Proof.
  intros op rest f j R H. destruct (decode_mode_of op rest f j R H) as (_ & D & _). pose proof (small_operands _ _ _ _ D) as [S1 S2].
  destruct (literal_operands _ _ _ _ D) as [[E1|(w1 & t1 & E1)] [E2|(w2 & t2 & E2)]]; rewrite E1, E2; split; try apply tame_none; apply tame_lit; eauto.
Qed.
Lemma same_tame : forall l j i, same_code l j i -> tame (i_arg1 j) -> tame (i_arg2 j) -> tame (i_arg1 i) /\ tame (i_arg2 i).
Proof.
  intros l j i SC (v & A & B) T2. split; [|destruct SC as (_ & _ & -> & _); exact T2]. exists v. split; [|exact B]. unfold maybe_arg in *. rewrite (same_eval _ _ _ _ SC). exact A.
Qed.
Lemma tame_label : forall l o, tame o -> tame (apply_label l o).
Proof. intros l o (v & A & B). exists v. split; [|exact B]. unfold maybe_arg in *. rewrite eval_label. exact A. Qed.

(** ** Outcomes of a request. *)
Definition cause (om ox : Prop) (src : source) (L : Z -> Prop) (u : ub) : Prop :=
  (u = UB_oob \/ u = UB_assert) /\ exists pc op rest, L pc /\ src pc 4 = Ok (op :: rest) /\ (op = 0x68 /\ om \/ (op = 0xFA \/ op = 0x7A) /\ ox).
Lemma pull_opcodes : forall op, 0 <= op < 256 -> (fst (decode_opcode op) = M_pla -> op = 0x68) /\ (fst (decode_opcode op) = M_plx -> op = 0xFA) /\ (fst (decode_opcode op) = M_ply -> op = 0x7A).
Proof.
  Local Transparent decode_opcode. intros op R.
  assert (T : forallb (fun op => match fst (decode_opcode op) with M_pla => op =? 0x68 | M_plx => op =? 0xFA | M_ply => op =? 0x7A | _ => true end) all_opcodes = true) by (vm_compute; reflexivity).
  Local Opaque decode_opcode.
  pose proof (forall_opcodes _ T op R) as Q. cbv beta in Q. destruct (fst (decode_opcode op)); repeat split; intros E; try discriminate E; apply Z.eqb_eq; exact Q.
Qed.
Lemma exec_to_cause : forall om ox src (L : Z -> Prop) pc op rest f j u, L pc -> 0 <= op < 256 -> src pc 4 = Ok (op :: rest) -> decode (op :: rest) f = Ok j ->
  exec_cause om ox (i_mnem j) u -> cause om ox src L u.
Proof.
  intros om ox src L pc op rest f j u A R RD DE [U M]. split; [exact U|]. exists pc, op, rest. split; [exact A|]. split; [exact RD|].
  destruct (decode_mode_of op rest f j R DE) as (MN & _). destruct (pull_opcodes op R) as (P1 & P2 & P3). rewrite MN in M. destruct M as [[M O]|[[M|M] O]]; auto.
Qed.

(** Where control leads from an address that satisfies [L]. *)
Definition carries (src : source) (L : Z -> Prop) : Prop := forall pc bytes f j i lab v, addr24 pc -> L pc -> src pc 4 = Ok bytes -> decode bytes f = Ok j -> same_code lab j i ->
  (is_exit_instruction i = false -> L (add_wrapped pc (instruction_length (i_mode i)))) /\ (is_local_branch i = true -> branch_offset i = Ok v -> L (target pc i v)).
Lemma exit_names : forall op, 0 <= op < 256 -> in_names op ["jmp"; "rtl"; "rts"; "rti"; "stp"; "bra"; "brl"]%string = match fst (decode_opcode op) with M_jmp | M_rtl | M_rts | M_rti | M_stp | M_bra | M_brl => true | _ => false end /\
  in_names op ["per"]%string = match fst (decode_opcode op) with M_per => true | _ => false end.
Proof.
  Local Transparent decode_opcode. intros op R.
  assert (T : forallb (fun op => Bool.eqb (in_names op ["jmp"; "rtl"; "rts"; "rti"; "stp"; "bra"; "brl"]%string) (match fst (decode_opcode op) with M_jmp | M_rtl | M_rts | M_rti | M_stp | M_bra | M_brl => true | _ => false end) &&
    Bool.eqb (in_names op ["per"]%string) (match fst (decode_opcode op) with M_per => true | _ => false end)) all_opcodes = true) by (vm_compute; reflexivity).
  Local Opaque decode_opcode.
  pose proof (forall_opcodes _ T op R) as Q. cbv beta in Q. apply andb_true_iff in Q. destruct Q as [Q1 Q2]. split; apply Bool.eqb_prop; assumption.
Qed.
Lemma leads_carries : forall src a, byte_source src -> carries src (leads_to src a).
Proof.
  intros src a BS pc bytes f j i lab v A LT RD DE SC. pose proof (BS _ _ _ RD) as BO. destruct bytes as [|op rest]; [discriminate DE|]. assert (R : 0 <= op < 256) by (inversion BO; assumption).
  destruct (decode_mode_of op rest f j R DE) as (MN & _ & _ & _ & KL). destruct (exit_names op R) as [EN PN]. pose proof SC as (SM & MD & _). split.
  - intros X. rewrite MD, add_wrapped_spec by exact A. apply lt_next with op rest f; [exact LT|exact RD|exact KL|].
    rewrite EN, <- MN, <- SM. unfold is_exit_instruction in X. apply orb_false_iff in X. apply X.
  - intros X OF. rewrite (same_local _ _ _ SC) in X. rewrite (same_offset _ _ _ SC) in OF. rewrite (same_target _ _ _ _ _ SC).
    eapply lt_branch; [exact LT|exact RD| |exact (decode_branch _ _ _ _ _ _ BO DE X OF A)].
    rewrite PN, <- MN. apply (decode_local op rest f j R DE) in X. unfold relative_branch in X. cbn [In] in X. destruct (i_mnem j); try reflexivity. repeat destruct X as [X|X]; try discriminate X; contradiction.
Qed.
Definition tended (om ox : Prop) (L : Z -> Prop) (old : omap dinstr) (w : dwork) : Prop :=
  (forall a s, om_find a (dw_stack w) = Some s -> SafeProofs.good om ox s /\ L a) /\
  (forall a d, view old (dw_new w) a = Some d -> SafeProofs.good om ox (di_cur d)).
Definition plain_rets (rets : omap retconv) : Prop := forall t f, om_find t rets = Some (RC_yields f) -> plain_flags f.
Definition calm_source (src : source) : Prop := forall a u, addr24 a -> src a 4 <> UB u.
Definition outcome (om ox : Prop) (src : source) (L : Z -> Prop) (old : omap dinstr) (r : res dwork) : Prop :=
  match r with Ok w => tended om ox L old w | UB u => cause om ox src L u | _ => True end.
Lemma called_plain : forall rets far j i, plain_rets rets -> i_ret j = RC_default -> i_ret i = called rets far j -> plain_stmt (SInstr i).
Proof.
  intros rets far j i PR D E. unfold plain_stmt. rewrite E. unfold called. rewrite D. destruct far as [t|]; [|exact Logic.I].
  destruct (i_mnem j); try exact Logic.I; destruct (om_find t rets) as [[|f|]|] eqn:F; try exact Logic.I; exact (PR _ _ F).
Qed.
Lemma good_after : forall (om ox : Prop) rets far j s, plain_rets rets -> i_ret j = RC_default -> SafeProofs.good om ox s -> SafeProofs.good om ox (after_call far (called rets far j) s).
Proof.
  intros om ox rets far j s PR D G. destruct far as [t|]; [|exact G]. cbn [after_call]. unfold called. rewrite D.
  assert (X : forall f, plain_flags f -> SafeProofs.good om ox (with_flags f s)).
  { intros f P. destruct G as (GA & GX & GY & GF & GK). repeat (split; try assumption); apply (plain_good om ox f P). }
  destruct (i_mnem j); try exact G; destruct (om_find t rets) as [[|f|]|] eqn:F; try exact G; apply X; exact (PR _ _ F).
Qed.
Lemma tended_set : forall om ox (L : Z -> Prop) old w new pc cur nd ls ps rest far sym, sorted_keys new -> sorted_keys rest -> tended om ox L old w -> dw_stack w = (pc, cur) :: rest -> sorted_keys (dw_stack w) ->
  (forall a, view old new a = view old (dw_new w) a) -> SafeProofs.good om ox (di_cur nd) -> (forall a s, In (a, s) ps -> SafeProofs.good om ox s /\ L a) ->
  tended om ox L old (DWork (om_set pc nd new) ls (push_all ps rest) far sym).
Proof.
  intros om ox L old w new pc cur nd ls ps rest far sym SN SR [T1 T2] ST SS VE GN GP. split; cbn [dw_stack dw_new].
  - apply (push_all_all (fun k s => SafeProofs.good om ox s /\ L k)); [intros k a b [A LK] _; split; [apply good_merge; exact A|exact LK]|exact SR| |exact GP].
    intros a s F. apply (T1 a s). rewrite ST in *. cbn [om_find]. destruct (Z.eqb_spec pc a) as [<-|N]; [|exact F]. exfalso. apply om_find_in in F. apply SS in F. lia.
  - intros a d. rewrite visited by exact SN. destruct (pc =? a); [intros E; injection E as <-; exact GN|]. rewrite VE. apply T2.
Qed.

Lemma new_safe : forall om ox src (L : Z -> Prop) rets old pc cur w, plain_rets rets -> byte_source src -> calm_source src -> addr24 pc -> L pc -> SafeProofs.good om ox cur ->
  forall u, snd (visit_new src rets old pc cur w) = UB u -> cause om ox src L u.
Proof.
  intros om ox src L rets old pc cur w PR BS CS A LP G u H. unfold visit_new in H.
  destruct (src pc 4) as [bytes|e|v|] eqn:RD; cbn [bind snd] in H; [|discriminate H|exfalso; exact (CS _ _ A RD)|discriminate H].
  destruct (decode bytes (es_flags cur)) as [j|e|v|] eqn:DE; cbn [bind snd] in H; [|discriminate H|exfalso; exact (decode_safe _ _ _ DE)|discriminate H].
  pose proof (BS _ _ _ RD) as BO. destruct bytes as [|op rest]; [discriminate DE|]. assert (R : 0 <= op < 256) by (inversion BO; assumption).
  destruct (decode_tame _ _ _ _ R DE) as [T1 T2]. pose proof (execute_tame om ox j cur T1 T2 G) as EX.
  destruct (execute j cur) as [nx|e|v|] eqn:E; cbn [bind snd safe] in *; [|discriminate H|injection H as <-; exact (exec_to_cause _ _ _ _ _ _ _ _ _ _ LP R RD DE EX)|contradiction].
  clear EX. rewrite (decode_far _ _ _ _ _ BO DE A) in H. set (far := direct_target pc op rest) in *.
  assert (X : exists i0 nx0 w0, i_mnem i0 = i_mnem j /\ i_arg1 i0 = i_arg1 j /\ i_arg2 i0 = i_arg2 j /\ i_mode i0 = i_mode j /\
    match far with
    | None => (j, nx, w)
    | Some target => let w0 := dw_add_far target nx w in
        let i := match i_mnem j with M_jsr | M_jsl => match om_find target rets with Some r => i_with_ret r j | None => j end | _ => j end in
        (i, rc_apply (i_ret i) nx, w0)
    end = (i0, nx0, w0)).
  { destruct far as [t|]; [|exists j, nx, w; auto]. cbv zeta. eexists _, _, _. repeat (split; [|split; [|split; [|split; [|reflexivity]]]]);
    destruct (i_mnem j) eqn:M; try reflexivity; try exact M; destruct (om_find t rets); cbn; try reflexivity; exact M. }
  destruct X as (i0 & nx0 & w0 & M0 & A1 & A2 & MD & X). cbv zeta in X, H. rewrite X in H. clear X.
  assert (LB : is_local_branch i0 = is_local_branch j) by (unfold is_local_branch; rewrite M0, MD; reflexivity).
  destruct (is_local_branch i0) eqn:IL; [|discriminate H].
  assert (BO' : branch_offset i0 = branch_offset j) by (unfold branch_offset; rewrite A1; reflexivity).
  destruct (decode_offset _ _ _ _ BO DE (eq_sym LB)) as [v OFF]. rewrite BO', OFF in H.
  destruct (get_label old w0 _) as [lab w2] eqn:GL.
  pose proof (branch_tame om ox (i_with_arg1 (apply_label lab (i_arg1 i0)) i0) cur) as EB. cbn [i_arg1 i_arg2 i_mnem i_with_arg1] in EB.
  rewrite A1, A2, M0 in EB. specialize (EB (tame_label _ _ T1) T2 G). rewrite A1 in H.
  destruct (execute_branch _ cur) as [bs|e|v'|] eqn:EE; cbn [snd safe] in *; try discriminate H.
  injection H as <-. exact (exec_to_cause _ _ _ _ _ _ _ _ _ _ LP R RD DE EB).
Qed.
Lemma again_safe : forall om ox src (L : Z -> Prop) rets lab pc cur d w, plain_rets rets -> byte_source src -> addr24 pc -> L pc -> SafeProofs.good om ox cur ->
  entry_ok src rets lab pc d -> forall u, visit_again src pc cur d w = UB u -> cause om ox src L u.
Proof.
  intros om ox src L rets lab pc cur d w PR BS A LP G EN u H. destruct EN as (bytes & j & far & v & RD & DE & FA & RT & LB & SC & _).
  pose proof (BS _ _ _ RD) as BO. destruct bytes as [|op rest]; [discriminate DE|]. assert (R : 0 <= op < 256) by (inversion BO; assumption).
  destruct (decode_tame _ _ _ _ R DE) as [T1 T2]. destruct (same_tame _ _ _ SC T1 T2) as [U1 U2].
  assert (MN : i_mnem (di_instr d) = i_mnem j) by apply SC.
  unfold visit_again in H. cbv zeta in H. destruct (es_eqb _ _); [discriminate H|]. rewrite RD in H. cbn [bind] in H.
  destruct (decode (op :: rest) (es_flags (es_merge cur (di_cur d)))) as [j'|e|v'|] eqn:DE'; cbn [bind] in H; [|discriminate H|exfalso; exact (decode_safe _ _ _ DE')|discriminate H].
  pose proof (execute_tame om ox (di_instr d) (es_merge cur (di_cur d)) U1 U2 (good_merge _ _ _ _ G)) as EX. rewrite MN in EX.
  destruct (execute (di_instr d) (es_merge cur (di_cur d))) as [nx|e|v'|] eqn:E; cbn [bind safe] in *; [|discriminate H|injection H as <-; exact (exec_to_cause _ _ _ _ _ _ _ _ _ _ LP R RD DE EX)|contradiction].
  rewrite (same_far _ _ _ _ SC), FA in H. cbn [bind] in H.
  destruct (is_local_branch (di_instr d)) eqn:IL; [|discriminate H].
  pose proof (branch_tame om ox (di_instr d) cur U1 U2 G) as EB. rewrite MN in EB.
  destruct (execute_branch (di_instr d) cur) as [bs|e|v'|] eqn:EE; cbn [bind safe] in *; [|discriminate H|injection H as <-; exact (exec_to_cause _ _ _ _ _ _ _ _ _ _ LP R RD DE EB)|contradiction].
  assert (LJ : is_local_branch j = true) by (rewrite <- (same_local _ _ _ SC); exact IL). destruct (LB LJ) as [OF _].
  rewrite (same_offset _ _ _ SC), OF in H. discriminate H.
Qed.
Lemma step_safe : forall K R om ox src (L : Z -> Prop) rets old w, plain_rets rets -> byte_source src -> calm_source src -> carries src L -> inv K R src rets old w -> tended om ox L old w ->
  outcome om ox src L old (snd (disasm_step src rets old w)).
Proof.
  intros K R om ox src L rets old w PR BS CS CL I T. unfold disasm_step. destruct (dw_stack w) as [|[pc cur] rest] eqn:ST; [exact T|].
  cbn [dw_set_stack dw_new]. destruct (get_instruction old (dw_new w) pc) as [found new] eqn:GI.
  destruct (get_spec _ _ _ _ _ (inv_new _ _ _ _ _ _ I) GI) as (FV & SN & VE & _ & _). pose proof (inv_st _ _ _ _ _ _ I) as SS.
  assert (F0 : om_find pc (dw_stack w) = Some cur) by (rewrite ST; cbn [om_find]; rewrite Z.eqb_refl; reflexivity).
  pose proof (inv_addr _ _ _ _ _ _ I _ _ F0) as A. destruct (proj1 T _ _ F0) as [G LP]. assert (SR : sorted_keys rest) by (rewrite ST in SS; apply SS).
  destruct found as [d|].
  - symmetry in FV. destruct (inv_entry _ _ _ _ _ _ I _ _ FV) as [_ EN]. cbn [snd].
    destruct (visit_again src pc cur d _) as [w'|e|u|] eqn:V; cbn [outcome]; try exact Logic.I; [|exact (again_safe _ _ _ _ _ _ _ _ _ _ PR BS A LP G EN _ V)].
    apply visit_again_spec in V. cbv zeta in V. destruct V as [[_ ->]|(_ & bytes & i0 & nx & far & ps & RD & DE & EX & FA & PS & ->)].
    + split; cbn [dw_stack dw_new dw_set_new dw_set_stack].
      * intros a s F. apply (proj1 T a s). rewrite ST. cbn [om_find]. destruct (Z.eqb_spec pc a) as [<-|N]; [|exact F]. exfalso. rewrite ST in SS. apply om_find_in in F. apply SS in F. lia.
      * intros a d'. rewrite VE. apply (proj2 T).
    + destruct EN as (bytes' & j & far' & v & RD' & DE' & FA' & RT & LB & SC & _).
      assert (PL : plain_stmt (SInstr (di_instr d))) by exact (called_plain _ _ _ _ PR (proj1 (decode_ret _ _ _ DE')) RT).
      assert (GC : SafeProofs.good om ox (es_merge cur (di_cur d))) by (apply good_merge; exact G).
      cbn [dw_new dw_stack dw_labels dw_sym dw_set_new dw_set_stack]. eapply tended_set; [exact SN|exact SR|exact T|exact ST|exact SS|exact VE|exact GC|].
      intros a s IN. apply in_app_or in IN. destruct IN as [IN|IN].
      * unfold falls in IN. destruct (is_exit_instruction _) eqn:XI; [contradiction|]. destruct IN as [E|[]]. injection E as <- <-. split; [exact (good_execute _ _ _ _ _ _ EX PL GC)|exact (proj1 (CL _ _ _ _ _ _ 0 A LP RD' DE' SC) XI)].
      * destruct PS as [[_ ->]|(IL & v' & bs & EB & OF & ->)]; [contradiction|]. destruct IN as [E|[]]. injection E as <- <-. split; [exact (good_branch _ _ _ _ _ EB PL G)|exact (proj2 (CL _ _ _ _ _ _ v' A LP RD' DE' SC) IL OF)].
  - destruct (visit_new src rets old pc cur _) as [w1 r] eqn:V. cbn [snd]. destruct r as [w'|e|u|]; cbn [outcome]; try exact Logic.I.
    + apply visit_new_spec in V. destruct V as (bytes & i0 & nx0 & far & i & lw & ps & V). cbv zeta in V. destruct V as (RD & DE & EX & FA & LB & ->).
      assert (PL0 : plain_stmt (SInstr i0)) by (unfold plain_stmt; rewrite (proj1 (decode_ret _ _ _ DE)); exact Logic.I).
      pose proof (good_after om ox rets far i0 nx0 PR (proj1 (decode_ret _ _ _ DE)) (good_execute _ _ _ _ _ _ EX PL0 G)) as GN.
      cbn [dw_new dw_stack dw_set_new dw_set_stack]. eapply tended_set; [exact SN|exact SR|exact T|exact ST|exact SS|exact VE|exact G|].
      intros a s IN. apply in_app_or in IN. destruct IN as [IN|IN].
      * inversion LB; subst; [contradiction|]. destruct IN as [E|[]]. injection E as <- <-. split.
        -- eapply good_branch; [eassumption| |exact G]. eapply called_plain; [exact PR|exact (proj1 (decode_ret _ _ _ DE))|]. cbn [i_ret i_with_arg1 i_with_ret]. reflexivity.
        -- match goal with Y : is_local_branch _ = true, O : branch_offset _ = Ok v |- _ => rename Y into IL; rename O into OF end.
           change (is_local_branch (i_with_ret (called rets far i0) i0)) with (is_local_branch i0) in IL. change (branch_offset (i_with_ret (called rets far i0) i0)) with (branch_offset i0) in OF.
           assert (SC : same_code lab i0 (i_with_arg1 (apply_label lab (i_arg1 i0)) i0)) by (repeat (split; [reflexivity|]); rewrite IL; reflexivity).
           pose proof (proj2 (CL _ _ _ _ _ _ v A LP RD DE SC)) as X. rewrite (same_offset _ _ _ SC), (same_local _ _ _ SC), (same_target _ _ _ _ _ SC) in X. exact (X IL OF).
      * unfold falls in IN. destruct (is_exit_instruction i) eqn:XI; [contradiction|]. destruct IN as [E|[]]. injection E as <- <-. split; [exact GN|].
        assert (SC : exists lab, same_code lab i0 i).
        { inversion LB as [NB|v lab lw' bs YB OF GL EB]; subst; [exists ""%string|exists lab]; repeat (split; [reflexivity|]); cbn [i_arg1 i_with_ret i_with_arg1] in *;
          change (is_local_branch (i_with_ret (called rets far i0) i0)) with (is_local_branch i0) in *; [rewrite NB|rewrite YB]; reflexivity. }
        destruct SC as [lab SC]. pose proof (proj1 (CL _ _ _ _ _ _ 0 A LP RD DE SC) XI) as X. destruct SC as (_ & MD & _). rewrite MD in X. exact X.
    + eapply new_safe; [exact PR|exact BS|exact CS|exact A|exact LP|exact G|]. rewrite V. reflexivity.
Qed.
Lemma loop_safe : forall fuel K R om ox src (L : Z -> Prop) rets old w, rets_ok rets -> plain_rets rets -> byte_source src -> calm_source src -> carries src L -> inv K R src rets old w -> tended om ox L old w ->
  outcome om ox src L old (snd (disasm_loop fuel src rets old w)).
Proof.
  induction fuel as [|fuel IH]; intros K R om ox src L rets old w RO PR BS CS CL I T; cbn [disasm_loop]; destruct (dw_stack w) as [|p st] eqn:ST; try exact T; try exact Logic.I.
  pose proof (step_safe K R om ox src L rets old w PR BS CS CL I T) as S. pose proof (inv_step K R src rets old w) as IS.
  destruct (disasm_step src rets old w) as [w1 [w'|e|u|]]; cbn [snd outcome] in *; try exact S; try exact Logic.I.
  apply (IH K R); try assumption. apply IS; [exact RO|exact I|reflexivity].
Qed.

(** ** Sessions. *)
Definition open_m (q : list (Z * flags)) : Prop := exists b f, In (b, f) q /\ ~ states_m f.
Definition open_x (q : list (Z * flags)) : Prop := exists b f, In (b, f) q /\ ~ states_x f.
Definition kept (om ox : Prop) (m : omap dinstr) : Prop := forall a c, om_find a m = Some c -> SafeProofs.good om ox (di_cur c).
Lemma good_mono : forall (om ox om' ox' : Prop) s, (om -> om') -> (ox -> ox') -> SafeProofs.good om ox s -> SafeProofs.good om' ox' s.
Proof.
  intros om ox om' ox' s M X (GA & GX & GY & [GM GIX] & GK). repeat (split; try assumption); auto.
  destruct (es_stack s) as [|l]; [exact Logic.I|]. cbn in *. eapply Forall_impl; [|exact GK]. intros [] P; try exact P. destruct P. split; auto.
Qed.
Lemma good_request : forall q a f, SafeProofs.good (open_m ((a, f) :: q)) (open_x ((a, f) :: q)) (estate_of_flags f).
Proof.
  intros q a f. assert (N : forall b, unk_to_orig b = B_original -> forall v, known_bit b <> Some v) by (intros [] E v K; discriminate).
  split; [exact Logic.I|]. split; [exact Logic.I|]. split; [exact Logic.I|]. split; [|constructor].
  split; cbn; intros E; exists a, f; (split; [left; reflexivity|]); intros [b K]; exact (N _ E _ K).
Qed.
Lemma request_safe : forall R om ox src rets d fuel a f d' r, rets_ok rets -> plain_rets rets -> byte_source src -> calm_source src -> good R src rets d ->
  addr24 a -> consistent f -> kept om ox (ds_map d) -> SafeProofs.good om ox (estate_of_flags f) -> disassemble fuel src a f d = (d', r) ->
  match r with Ok _ => kept om ox (ds_map d') | UB u => cause om ox src (leads_to src a) u | _ => True end.
Proof.
  intros R om ox src rets d fuel start f d' r RO PR BS CS G A C KP GF H. unfold disassemble in H. rewrite (good_rets _ _ _ _ G) in H.
  destruct (get_label (ds_map d) (DWork [] [] (om_set start (estate_of_flags f) []) [] (ds_sym d)) start) as [lab w0] eqn:GL.
  destruct (inv_start _ _ _ _ _ _ _ _ G A C GL) as (I0 & ST0 & LN0 & NW0 & LL0).
  pose proof (get_label_rest _ _ _ _ _ GL) as (_ & S0' & _). cbn [dw_stack] in S0'.
  assert (T0 : tended om ox (leads_to src start) (ds_map d) w0).
  { split; [rewrite S0'|rewrite NW0].
    - intros b s F. rewrite om_find_set in F by exact Logic.I. cbn [om_find] in F. destruct (Z.eqb_spec start b) as [<-|]; [injection F as <-; split; [exact GF|apply lt_start]|discriminate F].
    - intros b c F. exact (KP b c F). }
  pose proof (loop_safe fuel _ _ om ox src _ rets (ds_map d) w0 RO PR BS CS (leads_carries src start BS) I0 T0) as LS.
  destruct (disasm_loop fuel src rets (ds_map d) w0) as [w1 r1] eqn:LP. cbn [snd] in LS.
  destruct r1 as [w|e|u|]; [|injection H as _ <-; exact LS..].
  destruct (inv_loop _ _ _ _ _ _ _ _ _ RO I0 LP) as [IV SE].
  set (V := view (ds_map d) (dw_new w)) in *.
  set (m0 := fold_left (fun m kv => om_set (fst kv) (snd kv) m) (map (fun kv => (fst kv, add_suffix (snd kv))) (dw_new w)) (ds_map d)) in *.
  pose proof (inv_new _ _ _ _ _ _ IV) as SN. pose proof (good_sorted _ _ _ _ G) as SD.
  assert (S0 : sorted_keys m0) by (apply copy_sorted; exact SD).
  assert (F0 : forall a, om_find a m0 = match om_find a (dw_new w) with Some x => Some (add_suffix x) | None => om_find a (ds_map d) end).
  { intros a. unfold m0. rewrite copy_find by (try exact SD; apply map_sorted; exact SN). rewrite find_map. destruct (om_find a (dw_new w)); reflexivity. }
  assert (DUE : forall a, due V (dw_stack w) a = option_map di_cur (V a)) by (intros a; unfold due; rewrite SE; cbn; destruct (V a); reflexivity).
  assert (LA : forall a s, om_find a (dw_labels w) = Some s -> om_find a m0 <> None).
  { intros a s F. destruct (inv_lab _ _ _ _ _ _ IV _ _ F) as [_ [u U]]. fold V in U. rewrite DUE in U. rewrite F0. unfold V, view in U. destruct (om_find a (dw_new w)); [discriminate|].
    destruct (om_find a (ds_map d)); [discriminate|discriminate U]. }
  destruct (labels_apply (dw_labels w) m0 (inv_ls _ _ _ _ _ _ IV) S0 LA) as [m AE]. rewrite AE in H. injection H as <- <-. cbn [ds_map].
  destruct (labels_applied _ _ _ (inv_ls _ _ _ _ _ _ IV) S0 AE) as [SM FM].
  intros a c F. rewrite FM, F0 in F. destruct LS as [_ T2]. specialize (T2 a). unfold V, view in T2.
  destruct (om_find a (dw_new w)) as [x|].
  - injection F as <-. assert (CU : di_cur (add_suffix x) = di_cur x) by apply add_suffix_rest. destruct (om_find a (dw_labels w)); cbn [di_with_label di_cur]; rewrite CU; apply T2; reflexivity.
  - destruct (om_find a (ds_map d)) as [x|]; [|discriminate F]. injection F as <-. destruct (om_find a (dw_labels w)); cbn [di_with_label di_cur]; apply T2; reflexivity.
Qed.
Lemma session_kept : forall src rets q d, conventions_ok rets -> plain_rets rets -> byte_source src -> calm_source src -> session src rets q d -> kept (open_m q) (open_x q) (ds_map d).
Proof.
  intros src rets q d CO PR BS CS S. induction S as [|q d fuel a f d' r S IH A C H]; [intros a c F; discriminate F|].
  assert (K2 : kept (open_m ((a, f) :: q)) (open_x ((a, f) :: q)) (ds_map d)).
  { intros b c F. eapply good_mono; [| |exact (IH b c F)]; intros (b' & f' & IN & N); exists b', f'; split; auto; right; exact IN. }
  pose proof (session_good _ _ _ _ CO S) as G.
  pose proof (request_safe _ _ _ _ _ _ _ _ _ _ _ CO PR BS CS G A C K2 (good_request q a f) H) as X.
  pose proof (request _ _ _ _ _ _ _ _ _ CO G A C H) as Y. destruct r as [far| | |]; [exact X|destruct Y as (E & _); rewrite E; exact IH..].
Qed.
Lemma causes : forall src rets q d fuel a f d' u, conventions_ok rets -> plain_rets rets -> byte_source src -> calm_source src -> session src rets q d ->
  addr24 a -> consistent f -> disassemble fuel src a f d = (d', UB u) -> cause (open_m ((a, f) :: q)) (open_x ((a, f) :: q)) src (leads_to src a) u.
Proof.
  intros src rets q d fuel a f d' u CO PR BS CS S A C H. pose proof (session_kept _ _ _ _ CO PR BS CS S) as IH.
  assert (K2 : kept (open_m ((a, f) :: q)) (open_x ((a, f) :: q)) (ds_map d)).
  { intros b c F. eapply good_mono; [| |exact (IH b c F)]; intros (b' & f' & IN & N); exists b', f'; split; auto; right; exact IN. }
  exact (request_safe _ _ _ _ _ _ _ _ _ _ _ CO PR BS CS (session_good _ _ _ _ CO S) A C K2 (good_request q a f) H).
Qed.
