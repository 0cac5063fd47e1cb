(** Disassemblies are closed, and describe the execution of the image. *)
From Verif Require Import Base ModelNumeric ModelAddress ModelExpr ModelMnemonic ModelAMode ModelOpcode ModelState ModelInstr ModelMap ModelRom ModelDisasm
  Spec65816 SpecArith SpecInstr SpecState SpecFlow SpecDisasm BaseProofs MapProofs ArithProofs StateProofs ExecProofs InstrProofs FlowArriveProofs FlowKindProofs
  NameProofs DisStateProofs DisStepProofs DisInvProofs DisRunProofs DisRequestProofs.
Open Scope list_scope.
Open Scope Z_scope.
Local Opaque check_consistency execute_in execute_branch decode_opcode.

(** ** Sessions. *)
Lemma good_weaken : forall (R R' : Z -> estate -> Prop) src rets d, (forall a s, R' a s -> R a s) -> good R src rets d -> good R' src rets d.
Proof. intros R R' src rets d W [G1 G2 G3 G4 G5 G6]. constructor; auto. Qed.
Definition asked (q : list (Z * flags)) (a : Z) (s : estate) : Prop := exists f, In (a, f) q /\ s = estate_of_flags f.
Lemma session_good : forall src rets q d, conventions_ok rets -> session src rets q d -> good (asked q) src rets d.
Proof.
  intros src rets q d CO S. induction S as [|q d fuel a f d' r S IH A C H].
  - constructor; cbn; try (intros; discriminate); try exact I; [reflexivity| |].
    + split; [lia|]. split; [intros a N; destruct N; reflexivity|intros _ a b N; destruct N; reflexivity].
    + intros a s (f & [] & _).
  - pose proof (request _ _ _ _ _ _ _ _ _ CO IH A C H) as X. destruct r as [far| | |]; [|apply X..].
    destruct X as [X _]. eapply good_weaken; [|exact X]. intros b s (g & [E|IN] & ->); [injection E as <- <-; right; auto|left; exists g; auto].
Qed.

(** ** Decoded instructions. *)
Lemma decode_mode_of : forall op rest f j, 0 <= op < 256 -> decode (op :: rest) f = Ok j ->
  i_mnem j = fst (decode_opcode op) /\ decode_operands (i_mode j) rest = Ok (i_arg1 j, i_arg2 j) /\
  (forall am, snd (decode_opcode op) = am -> am <> A_imm_fm -> am <> A_imm_fx -> i_mode j = am) /\
  (form_of (i_mode j) = op_form op \/ (op_form op = ImmM \/ op_form op = ImmX) /\ (i_mode j = A_imm_b \/ i_mode j = A_imm_w)) /\
  known_length f op = Some (instruction_length (i_mode j)).
Proof.
  intros op rest f j R H. rewrite decode_eq in H. pose proof (decode_mode_length f op R) as D. destruct (decode_table op R) as [_ F].
  destruct (decode_mode f (snd (decode_opcode op))) as [a|] eqn:M; [|discriminate H]. bok H as p E. destruct p as [x y]. injection H as <-. cbn [i_mnem i_mode i_arg1 i_arg2].
  split; [reflexivity|]. split; [exact E|]. split; [|split; [|apply D]].
  - intros am A N1 N2. rewrite A in M. destruct am; try contradiction; cbn in M; congruence.
  - rewrite <- F. destruct (snd (decode_opcode op)); cbn in M; try (injection M as <-; left; reflexivity); right;
      [destruct (known_bit (fl_m f)) as [[]|]|destruct (known_bit (fl_x f)) as [[]|]]; try discriminate M; injection M as <-; auto.
Qed.
Lemma decode_branch : forall op rest f j pc v, bytes_ok (op :: rest) -> decode (op :: rest) f = Ok j -> is_local_branch j = true -> branch_offset j = Ok v -> addr24 pc ->
  branch_destination pc (firstn (Z.to_nat (instruction_length (i_mode j))) (op :: rest)) = Some (target pc j v).
Proof.
  intros op rest f j pc v B H L BO A. inversion B as [|? ? R Br]; subst. destruct (decode_mode_of op rest f j R H) as (_ & D & _ & FO & _).
  unfold is_local_branch in L. apply andb_true_iff in L. destruct L as [L _]. unfold branch_offset in BO. unfold target. rewrite add_wrapped_add by exact A. rewrite add_wrapped_spec by exact A.
  destruct (i_mode j) eqn:MD; try discriminate L.
  - assert (FF : op_form op = Rel8) by (destruct FO as [FO|(_ & [X|X])]; [exact (eq_sym FO)|discriminate X..]).
    cbn [decode_operands] in D. destruct rest as [|b0 rest]; [discriminate D|]. injection D as D _. rewrite <- D in BO. inversion Br as [|? ? R0 _]; subst.
    cbn [eval_opt] in BO. cbv zeta in BO. assert (V : v = signed8 b0).
    { rewrite eval_mk_lit in BO; [injection BO as <-|]; unfold signed8, in_type; change (2 ^ 7) with 128 in *; change (2 ^ 8) with 256; destruct (Z.leb_spec 128 b0), (Z.ltb_spec b0 128); lia. }
    change (Z.to_nat (instruction_length A_rel8)) with 2%nat. cbn [firstn branch_destination]. rewrite FF, V. reflexivity.
  - assert (FF : op_form op = Rel16) by (destruct FO as [FO|(_ & [X|X])]; [exact (eq_sym FO)|discriminate X..]).
    cbn [decode_operands] in D. destruct rest as [|b0 [|b1 rest]]; try discriminate D. injection D as D _. rewrite <- D in BO. inversion Br as [|? ? R0 Br']; subst. inversion Br' as [|? ? R1 _]; subst.
    cbn [eval_opt] in BO. cbv zeta in BO. assert (V : v = signed16 (b0 + 256 * b1)).
    { rewrite eval_mk_lit in BO; [injection BO as <-|]; unfold signed16, in_type; change (2 ^ 15) with 32768 in *; change (2 ^ 16) with 65536;
        match goal with |- context [if ?c <=? ?d then _ else _] => destruct (Z.leb_spec c d) end; try (match goal with |- context [if ?c <? ?d then _ else _] => destruct (Z.ltb_spec c d) end); lia. }
    change (Z.to_nat (instruction_length A_rel16)) with 3%nat. cbn [firstn branch_destination]. rewrite FF, V. reflexivity.
Qed.
Lemma decode_local : forall op rest f j, 0 <= op < 256 -> decode (op :: rest) f = Ok j -> (is_local_branch j = true <-> relative_branch (i_mnem j)).
Proof.
  Local Transparent decode_opcode. intros op rest f j R H. destruct (decode_mode_of op rest f j R H) as (M & _ & A & FO & _).
  assert (T : forallb (fun op => Bool.eqb (match snd (decode_opcode op) with A_rel8 | A_rel16 => negb (mnem_eqb (fst (decode_opcode op)) M_per) | _ => false end)
    (existsb (mnem_eqb (fst (decode_opcode op))) [M_bcc; M_bcs; M_beq; M_bmi; M_bne; M_bpl; M_bra; M_brl; M_bvc; M_bvs])) all_opcodes = true) by (vm_compute; reflexivity).
  Local Opaque decode_opcode.
  pose proof (forall_opcodes _ T op R) as Q. cbv beta in Q. apply Bool.eqb_prop in Q. rewrite <- M in Q.
  assert (L : is_local_branch j = match snd (decode_opcode op) with A_rel8 | A_rel16 => negb (mnem_eqb (i_mnem j) M_per) | _ => false end).
  { clear Q T. destruct (decode_table op R) as [_ F]. unfold is_local_branch. destruct (snd (decode_opcode op)) eqn:SM;
      [rewrite (A _ eq_refl ltac:(discriminate) ltac:(discriminate)); reflexivity..| |]; rewrite <- F in FO; cbn [form_of] in FO; clear - FO;
      (destruct FO as [FO|(_ & [-> | ->])]; [|reflexivity..]); destruct (i_mode j); cbn [form_of] in FO; try discriminate FO; reflexivity. }
  rewrite L, Q. unfold relative_branch. rewrite existsb_exists. split.
  - intros (x & IN & E). apply mnem_eqb_eq in E. rewrite E. exact IN.
  - intros IN. exists (i_mnem j). split; [exact IN|apply mnem_eqb_eq; reflexivity].
Qed.

Definition jump_kind (op : Z) : option bool :=
  match snd (decode_opcode op), fst (decode_opcode op) with
  | A_dir_l, (M_jmp | M_jsl) => Some true
  | A_dir_w, (M_jmp | M_jsr) => Some false
  | _, _ => None
  end.
Definition jump_kind' (op : Z) : option bool :=
  match op_form op with
  | Abs => if in_names op ["jmp"; "jsr"] then Some false else None
  | Lng => if in_names op ["jmp"; "jsl"] then Some true else None
  | _ => None
  end%string.
Lemma jump_kinds : forall op, 0 <= op < 256 -> jump_kind op = jump_kind' op /\ (in_names op ["jsr"; "jsl"]%string = match fst (decode_opcode op) with M_jsr | M_jsl => true | _ => false end).
Proof.
  Local Transparent decode_opcode. intros op R.
  assert (T : forallb (fun op => match jump_kind op, jump_kind' op with Some a, Some b => Bool.eqb a b | None, None => true | _, _ => false end &&
    Bool.eqb (in_names op ["jsr"; "jsl"]%string) (match fst (decode_opcode op) with M_jsr | M_jsl => true | _ => false end)) all_opcodes = true) by (vm_compute; reflexivity).
  Local Opaque decode_opcode.
  pose proof (forall_opcodes _ T op R) as Q. cbv beta in Q. apply andb_true_iff in Q. destruct Q as [Q1 Q2]. split; [|apply Bool.eqb_prop; exact Q2].
  destruct (jump_kind op) as [[]|], (jump_kind' op) as [[]|]; try discriminate Q1; reflexivity.
Qed.
Local Opaque op_form in_names op_name.
Lemma direct_none : forall pc op rest, jump_kind' op = None -> direct_target pc op rest = None.
Proof.
  intros pc op rest. unfold jump_kind', direct_target. destruct (op_form op); try reflexivity; destruct rest as [|a [|b [|c r]]]; try reflexivity; intros E; destruct (in_names op _); try discriminate E; reflexivity.
Qed.
Lemma far_none : forall j pc, (i_mode j = A_dir_l -> i_mnem j <> M_jmp /\ i_mnem j <> M_jsl) -> (i_mode j = A_dir_w -> i_mnem j <> M_jmp /\ i_mnem j <> M_jsr) -> far_branch_target j pc = Ok None.
Proof.
  intros j pc L W. unfold far_branch_target. cbv zeta. destruct (i_mode j); try reflexivity; [destruct (W eq_refl) as [X Y]|destruct (L eq_refl) as [X Y]]; destruct (i_mnem j); try reflexivity; contradiction.
Qed.
Lemma decode_far : forall op rest f j pc, bytes_ok (op :: rest) -> decode (op :: rest) f = Ok j -> addr24 pc -> far_branch_target j pc = Ok (direct_target pc op rest).
Proof.
  intros op rest f j pc B H A. inversion B as [|? ? R Br]; subst. destruct (decode_mode_of op rest f j R H) as (M & D & MO & F4 & _). clear H.
  destruct (jump_kinds op R) as [JK _]. destruct (decode_table op R) as [_ FO].
  destruct (jump_kind' op) as [[]|] eqn:K.
  - assert (X : snd (decode_opcode op) = A_dir_l /\ (i_mnem j = M_jmp \/ i_mnem j = M_jsl)).
    { rewrite M. unfold jump_kind in JK. destruct (snd (decode_opcode op)); try discriminate JK; destruct (fst (decode_opcode op)); try discriminate JK; auto. }
    destruct X as [X MN]. rewrite X in FO. cbn [form_of] in FO. pose proof (MO _ X ltac:(discriminate) ltac:(discriminate)) as MD. rewrite MD in D. cbn [decode_operands] in D.
    destruct rest as [|b0 [|b1 [|b2 r]]]; try discriminate D. injection D as D _.
    inversion Br as [|? ? R0 Br']; subst. inversion Br' as [|? ? R1 Br'']; subst. inversion Br'' as [|? ? R2 _]; subst.
    unfold jump_kind' in K. rewrite <- FO in K. unfold direct_target. rewrite <- FO. destruct (in_names op ["jmp"; "jsl"]%string); [|discriminate K].
    unfold far_branch_target. rewrite MD, <- D. cbv zeta. cbn [eval_opt]. rewrite eval_mk_lit by (cbn [in_type]; lia).
    assert (E : mk_address (b0 + b1 * 256 + b2 * 256 * 256) = Ok (b2 * 2 ^ 16 + b1 * 2 ^ 8 + b0)).
    { unfold mk_address, to_uint32. rewrite Z.mod_small by lia. destruct (Z.leb_spec (b0 + b1 * 256 + b2 * 256 * 256) 0x1000000); [f_equal; lia|lia]. }
    rewrite E. destruct MN as [-> | ->]; reflexivity.
  - assert (X : snd (decode_opcode op) = A_dir_w /\ (i_mnem j = M_jmp \/ i_mnem j = M_jsr)).
    { rewrite M. unfold jump_kind in JK. destruct (snd (decode_opcode op)); try discriminate JK; destruct (fst (decode_opcode op)); try discriminate JK; auto. }
    destruct X as [X MN]. rewrite X in FO. cbn [form_of] in FO. pose proof (MO _ X ltac:(discriminate) ltac:(discriminate)) as MD. rewrite MD in D. cbn [decode_operands] in D.
    destruct rest as [|b0 [|b1 r]]; try discriminate D. injection D as D _.
    inversion Br as [|? ? R0 Br']; subst. inversion Br' as [|? ? R1 _]; subst.
    unfold jump_kind' in K. rewrite <- FO in K. unfold direct_target. rewrite <- FO. destruct (in_names op ["jmp"; "jsr"]%string); [|discriminate K].
    unfold far_branch_target. rewrite MD, <- D. cbv zeta. cbn [eval_opt]. rewrite eval_mk_lit by (cbn [in_type]; lia).
    assert (E : mk_address2 (addr_bank pc) (b0 + b1 * 256) = bank_of pc * 2 ^ 16 + b1 * 2 ^ 8 + b0).
    { unfold mk_address2, addr_bank, bank_of, to_uint8, to_uint16. unfold addr24 in A. rewrite Z.shiftr_div_pow2 by lia.
      assert (0 <= pc / 2 ^ 16 < 256) by (change (2 ^ 16) with 65536; Z.div_mod_to_equations; lia).
      rewrite !Z.mod_small by lia. rewrite Z.shiftl_mul_pow2 by lia. rewrite (lor_disjoint 16) by lia. lia. }
    rewrite E. destruct MN as [-> | ->]; reflexivity.
  - rewrite direct_none by exact K. unfold jump_kind in JK. rewrite <- M in JK. apply far_none; intros MD.
    + assert (SM : snd (decode_opcode op) = A_dir_l).
      { destruct (snd (decode_opcode op)) eqn:SM; try reflexivity;
          try (rewrite (MO _ eq_refl ltac:(discriminate) ltac:(discriminate)) in MD; discriminate MD); rewrite MD, <- FO in F4; destruct F4 as [F4|(_ & [F4|F4])]; discriminate F4. }
      rewrite SM in JK. split; intros E; rewrite E in JK; discriminate JK.
    + assert (SM : snd (decode_opcode op) = A_dir_w).
      { destruct (snd (decode_opcode op)) eqn:SM; try reflexivity;
          try (rewrite (MO _ eq_refl ltac:(discriminate) ltac:(discriminate)) in MD; discriminate MD); rewrite MD, <- FO in F4; destruct F4 as [F4|(_ & [F4|F4])]; discriminate F4. }
      rewrite SM in JK. split; intros E; rewrite E in JK; discriminate JK.
Qed.

(** ** What is recorded of an instruction. *)
Lemma called_convention : forall rets op rest f j pc, bytes_ok (op :: rest) -> decode (op :: rest) f = Ok j -> addr24 pc ->
  called rets (direct_target pc op rest) j = convention rets pc op rest.
Proof.
  intros rets op rest f j pc B H A. inversion B as [|? ? R Br]; subst. destruct (decode_mode_of op rest f j R H) as (M & _). destruct (jump_kinds op R) as [_ JN]. destruct (decode_ret _ _ _ H) as [RD _].
  unfold called, convention. rewrite JN, <- M, RD. destruct (direct_target pc op rest) as [t|]; [|reflexivity]. destruct (i_mnem j); try reflexivity; destruct (om_find t rets); reflexivity.
Qed.
Lemma op_mnem : forall op rest f j, 0 <= op < 256 -> decode (op :: rest) f = Ok j -> mnem_to_string (i_mnem j) = op_name op.
Proof. intros op rest f j R H. destruct (decode_mode_of op rest f j R H) as (M & _). rewrite M. apply decode_table. exact R. Qed.
Lemma entry_open : forall src rets lab pc c, byte_source src -> addr24 pc -> entry_ok src rets lab pc c -> exists op rest j v,
  src pc 4 = Ok (op :: rest) /\ bytes_ok (op :: rest) /\ 0 <= op < 256 /\ decode (op :: rest) (es_flags (di_cur c)) = Ok j /\
  far_branch_target j pc = Ok (direct_target pc op rest) /\ i_ret (di_instr c) = convention rets pc op rest /\
  (is_local_branch j = true -> branch_offset j = Ok v /\ lab (target pc j v) <> ""%string) /\ same_code (lab (target pc j v)) j (di_instr c) /\
  es_consistent (di_cur c) /\ es_consistent (di_next c) /\
  ((exists sfx, execute (i_with_suffix sfx (di_instr c)) (di_cur c) = Ok (di_next c)) \/
   exists nx0, execute j (di_cur c) = Ok nx0 /\ di_next c = after_call (direct_target pc op rest) (i_ret (di_instr c)) nx0).
Proof.
  intros src rets lab pc c BS A (l & j & far & v & RD & DE & FA & RE & LO & SC & C1 & C2 & _ & EX).
  pose proof (BS _ _ _ RD) as B. destruct l as [|op rest]; [discriminate DE|]. inversion B as [|? ? R Br]; subst.
  pose proof (decode_far op rest _ j pc B DE A) as F. rewrite F in FA. injection FA as <-.
  exists op, rest, j, v. rewrite (called_convention _ _ _ _ _ _ B DE A) in RE. repeat (split; [assumption|]). exact EX.
Qed.
Lemma same_shows : forall l j i op rest f, 0 <= op < 256 -> decode (op :: rest) f = Ok j -> same_code l j i -> shows l i j.
Proof.
  intros l j i op rest f R H (M & A & A2 & A1). split; [exact M|]. split; [exact A|]. split; [exact A2|]. rewrite <- (decode_local op rest f j R H).
  destruct (is_local_branch j) eqn:L; [|split; [discriminate|auto]]. split; [|intros N; destruct N; reflexivity]. intros _.
  destruct (decode_mode_of op rest f j R H) as (_ & D & _). unfold is_local_branch in L. apply andb_true_iff in L. destruct L as [L _].
  assert (X : exists w t, i_arg1 j = Some (ELit w t)).
  { destruct (i_mode j); try discriminate L; cbn [decode_operands] in D; destruct rest as [|b0 [|b1 r]]; try discriminate D; injection D as D _; rewrite <- D; unfold mk_lit; eauto. }
  destruct X as (w & t & E). rewrite E in *. exists (ELit w t). auto.
Qed.

(** ** Closure. *)
Lemma taken_describes : forall o m s c, describes o s c -> may_take m (c_modes c) -> describes o (taken m s) c.
Proof.
  intros o m s c (F & R) T. destruct F as (F1 & F2 & F3 & F4).
  destruct m; try (split; [repeat split; assumption|exact R]); split; try exact R; cbn in *; repeat split; try assumption.
Qed.
Lemma closed : forall src rets q d pc c, conventions_ok rets -> byte_source src -> session src rets q d -> collected d pc c ->
  exists op rest j n, src pc 4 = Ok (op :: rest) /\ decode (op :: rest) (es_flags (di_cur c)) = Ok j /\
    known_length (es_flags (di_cur c)) op = Some n /\
    (~ stops (di_instr c) -> exists x, collected d (same_bank_plus pc n) x /\ covers (di_cur x) (di_next c)) /\
    (relative_branch (i_mnem j) -> exists t x, branch_destination pc (firstn (Z.to_nat n) (op :: rest)) = Some t /\ collected d t x /\
       di_label x <> ""%string /\ shows (di_label x) (di_instr c) j /\
       forall o k, modes_ok (c_modes k) -> describes o (di_cur c) k -> may_take (i_mnem j) (c_modes k) -> describes o (di_cur x) k) /\
    (~ relative_branch (i_mnem j) -> shows ""%string (di_instr c) j).
Proof.
  intros src rets q d pc c CO BS S K. pose proof (session_good _ _ _ _ CO S) as G.
  destruct (good_entry _ _ _ _ G _ _ K) as [A EN]. destruct (entry_open _ _ _ _ _ BS A EN) as (op & rest & j & v & RD & B & R & DE & FA & RE & LO & SC & C1 & C2 & EX).
  pose proof (same_shows _ _ _ _ _ _ R DE SC) as SH. destruct (decode_mode_of op rest _ j R DE) as (_ & _ & _ & _ & KL). pose proof (decode_local op rest _ j R DE) as DL.
  exists op, rest, j, (instruction_length (i_mode j)). split; [exact RD|]. split; [exact DE|]. split; [exact KL|]. destruct SC as (M & MD & SC2). split; [|split].
  - intros NS. destruct (good_leads _ _ _ _ G pc c _ _ K (or_introl (conj (next_falls _ NS) (conj eq_refl eq_refl)))) as (x & F & BL).
    rewrite MD, add_wrapped_spec in F by exact A. exists x. split; [exact F|]. intros o k MO D. eapply below_describes; eassumption.
  - intros RB. apply DL in RB. destruct (LO RB) as [BO LN].
    assert (SL : is_local_branch (di_instr c) = true) by (unfold is_local_branch; rewrite M, MD; exact RB).
    destruct (good_leads _ _ _ _ G pc c (target pc j v) (taken (i_mnem j) (di_cur c)) K) as (x & F & BL).
    { right. split; [exact SL|]. split; [rewrite M; reflexivity|]. exists v. split; [|unfold target; rewrite MD; reflexivity].
      rewrite (same_offset (old_label (ds_map d) (target pc j v)) j); [exact BO|]. split; [exact M|]. split; [exact MD|exact SC2]. }
    assert (LX : old_label (ds_map d) (target pc j v) = di_label x) by (unfold old_label; rewrite F; reflexivity). rewrite LX in LN, SH.
    exists (target pc j v), x. split; [eapply decode_branch; eassumption|]. split; [exact F|]. split; [exact LN|]. split; [exact SH|].
    intros o k MO D T. eapply below_describes; [exact BL|exact MO|]. apply taken_describes; assumption.
  - intros NR. destruct SH as (S1 & S2 & S3 & S4 & S5). split; [exact S1|]. split; [exact S2|]. split; [exact S3|]. split; [intros X; destruct (NR X)|exact S5].
Qed.

(** ** Execution. *)
Lemma actual_length : forall f op n o p, known_length f op = Some n -> flags_describe o f p -> cpu_length op (p_m p) (p_x p) = n.
Proof.
  intros f op n o p K (_ & M & X & _). unfold known_length, cpu_length in *. destruct (op_form op); try (injection K as <-; reflexivity).
  - destruct (fl_m f); try discriminate K; cbn in M; rewrite M; injection K as <-; reflexivity.
  - destruct (fl_x f); try discriminate K; cbn in X; rewrite X; injection K as <-; reflexivity.
Qed.
Lemma step_other : forall o i v w c c', i_mnem i <> M_rep -> i_mnem i <> M_sep -> mode_step o i v c c' -> mode_step o i w c c'.
Proof.
  intros o i v w c c' N1 N2 H. unfold mode_step in *. destruct (i_mnem i) eqn:M; try exact H; unfold modes_step in *; rewrite M in *; try exact H; contradiction.
Qed.
Lemma step_same : forall o i j v c c', i_mnem i = i_mnem j -> i_ret i = i_ret j -> mode_step o i v c c' -> mode_step o j v c c'.
Proof. intros o i j v c c' M R H. unfold mode_step, modes_step in *. rewrite <- M, <- R. exact H. Qed.
Lemma rep_operand : forall op rest f j w, bytes_ok (op :: rest) -> decode (op :: rest) f = Ok j -> i_mnem j = M_rep \/ i_mnem j = M_sep -> eval_opt null_ctx (i_arg1 j) = Ok w -> nth 0 rest 0 = w.
Proof.
  Local Transparent decode_opcode. intros op rest f j w B H MN EV. inversion B as [|? ? R Br]; subst. destruct (decode_mode_of op rest f j R H) as (M & D & A & _ & _).
  assert (T : forallb (fun op => match fst (decode_opcode op), snd (decode_opcode op) with (M_rep | M_sep), A_imm_b => true | (M_rep | M_sep), _ => false | _, _ => true end) all_opcodes = true) by (vm_compute; reflexivity).
  Local Opaque decode_opcode. pose proof (forall_opcodes _ T op R) as Q. cbv beta in Q. clear T. rewrite <- M in Q.
  assert (SM : snd (decode_opcode op) = A_imm_b) by (destruct MN as [X|X]; rewrite X in Q; destruct (snd (decode_opcode op)); try discriminate Q; reflexivity).
  rewrite (A _ SM ltac:(discriminate) ltac:(discriminate)) in D. cbn [decode_operands] in D. destruct rest as [|b0 r]; [discriminate D|]. injection D as D _. rewrite <- D in EV.
  inversion Br as [|? ? R0 _]; subst. cbn [eval_opt] in EV. rewrite eval_mk_lit in EV by (cbn [in_type]; lia). injection EV as <-. reflexivity.
Qed.
Lemma call_stack : forall i s nx, In (i_mnem i) [M_jmp; M_jsr; M_jsl] -> execute i s = Ok nx -> es_stack nx = es_stack s.
Proof.
  Local Transparent execute_in. intros i s nx K H. unfold execute, execute_in in H. bok H as u U. cbv zeta in H. clear U.
  cbn [In] in K. repeat destruct K as [K|K]; try contradiction; rewrite <- K in H; injection H as <-; destruct (i_ret i); reflexivity.
  Local Opaque execute_in.
Qed.
Lemma fall_modes : forall src rets lab pc c op rest j v o k k', bytes_ok (op :: rest) -> src pc 4 = Ok (op :: rest) -> decode (op :: rest) (es_flags (di_cur c)) = Ok j ->
  far_branch_target j pc = Ok (direct_target pc op rest) -> i_ret (di_instr c) = convention rets pc op rest -> same_code (lab (target pc j v)) j (di_instr c) ->
  ((exists sfx, execute (i_with_suffix sfx (di_instr c)) (di_cur c) = Ok (di_next c)) \/
   exists nx0, execute j (di_cur c) = Ok nx0 /\ di_next c = after_call (direct_target pc op rest) (i_ret (di_instr c)) nx0) ->
  stack_untracked (i_mnem (di_instr c)) = false ->
  (i_mnem (di_instr c) = M_xce -> fl_e (es_flags (di_cur c)) <> B_original /\ fl_c (es_flags (di_cur c)) <> B_original) ->
  modes_ok (c_modes o) -> modes_ok (c_modes k) -> describes_modes o (di_cur c) k -> mode_step o (di_instr c) (nth 0 rest 0) k k' ->
  describes_modes o (di_next c) k' /\ modes_ok (c_modes k').
Proof.
  intros src rets lab pc c op rest j v o k k' B RD DE FA RE SC EX SU XC MO MK D ST. pose proof SC as SC0. destruct SC as (M & MD & _ & A1).
  assert (OP : exists w, mode_step o (di_instr c) w k k' /\ (forall x, eval_opt null_ctx (i_arg1 (di_instr c)) = Ok x -> w = x)).
  { destruct (mnem_eqb (i_mnem j) M_rep || mnem_eqb (i_mnem j) M_sep) eqn:RS.
    - exists (nth 0 rest 0). split; [exact ST|]. intros x E. rewrite (same_eval _ _ _ _ SC0) in E. eapply rep_operand; try eassumption.
      apply orb_true_iff in RS. destruct RS as [RS|RS]; apply mnem_eqb_eq in RS; auto.
    - apply orb_false_iff in RS. destruct RS as [R1 R2].
      assert (N1 : i_mnem (di_instr c) <> M_rep) by (intros X; rewrite M in X; rewrite X in R1; discriminate R1).
      assert (N2 : i_mnem (di_instr c) <> M_sep) by (intros X; rewrite M in X; rewrite X in R2; discriminate R2).
      destruct (eval_opt null_ctx (i_arg1 (di_instr c))) as [x| | |] eqn:EV;
        [exists x; split; [eapply step_other; eassumption|intros y E; injection E as <-; reflexivity]|exists 0; split; [eapply step_other; eassumption|intros y E; discriminate E]..]. }
  destruct OP as (w & ST' & EV). destruct EX as [(sfx & EX)|(nx0 & EX & NX)].
  - eapply execute_modes with (i := i_with_suffix sfx (di_instr c)) (v := w); try eassumption.
  - destruct (i_ret (di_instr c)) as [|f|] eqn:RC.
    + assert (NX' : di_next c = nx0) by (rewrite NX; destruct (direct_target pc op rest); reflexivity). rewrite NX'. destruct (decode_ret _ _ _ DE) as [RJ _].
      eapply execute_modes with (i := j) (v := w); try eassumption.
      * intros x E. apply EV. rewrite (same_eval _ _ _ _ SC0). exact E.
      * rewrite <- M. exact SU.
      * rewrite <- M. exact XC.
      * eapply step_same; [exact M| |exact ST']. rewrite RC, RJ. reflexivity.
    + destruct (direct_target pc op rest) as [t|] eqn:DT.
      2: { exfalso. unfold convention in RE. rewrite DT in RE. discriminate RE. }
      cbn [after_call rc_apply] in NX. pose proof (far_kind _ _ _ FA) as FK. pose proof (call_stack _ _ _ FK EX) as CS. rewrite <- M in FK.
      assert (KS : c_stack k' = c_stack k /\ modes_ok (c_modes k') /\ flags_describe (c_modes o) f (c_modes k')).
      { unfold mode_step, modes_step in ST'. cbn [In] in FK. rewrite RC in ST'. repeat destruct FK as [FK|FK]; try contradiction; rewrite <- FK in ST'; destruct ST' as [[X Y] Z0]; auto. }
      destruct KS as (K1 & K2 & K3). split; [|exact K2]. rewrite NX. split; [exact K3|]. cbn. rewrite CS, K1. apply D.
    + exfalso. assert (DT : exists t, direct_target pc op rest = Some t) by (unfold convention in RE; destruct (direct_target pc op rest); [eauto|discriminate RE]).
      destruct DT as (t & DT). rewrite DT in FA. pose proof (far_kind _ _ _ FA) as FK. rewrite <- M in FK. unfold mode_step, modes_step in ST. cbn [In] in FK. rewrite RC in ST.
      repeat destruct FK as [FK|FK]; try contradiction; rewrite <- FK in ST; destruct ST as [[] _].
Qed.
Lemma taken_modes : forall o m s c, describes_modes o s c -> may_take m (c_modes c) -> describes_modes o (taken m s) c.
Proof.
  intros o m s c (F & R) T. destruct F as (F1 & F2 & F3 & F4).
  destruct m; try (split; [repeat split; assumption|exact R]); split; try exact R; cbn in *; repeat split; try assumption.
Qed.
Lemma runs_modes : forall src rets q d a f o pc k, conventions_ok rets -> byte_source src -> session src rets q d -> followed d -> In (a, f) q -> rom_arrives src rets a f o pc k ->
  modes_ok (c_modes k) /\ exists c op rest, collected d pc c /\ src pc 4 = Ok (op :: rest) /\ describes_modes o (di_cur c) k /\ mnem_to_string (i_mnem (di_instr c)) = op_name op /\
    instruction_length (i_mode (di_instr c)) = cpu_length op (p_m (c_modes k)) (p_x (c_modes k)).
Proof.
  intros src rets q d a f o pc k CO BS S FO IN RA. pose proof (session_good _ _ _ _ CO S) as G.
  assert (MAIN : modes_ok (c_modes o) /\ modes_ok (c_modes k) /\ exists c, collected d pc c /\ describes_modes o (di_cur c) k).
  { induction RA as [MO FD|pc k k' op rest i RA IH RD EX NS ST|pc k k' op rest i t RA IH RD EX RB BD ST].
    - split; [exact MO|]. split; [exact MO|]. destruct (good_req _ _ _ _ G a (estate_of_flags f)) as (_ & (c & F & BL) & _); [exists f; auto|].
      exists c. split; [exact F|]. eapply below_modes; [exact BL|exact MO|]. apply entry_describes. exact FD.
    - destruct IH as (MO & MK & c & K & D). destruct (good_entry _ _ _ _ G _ _ K) as [A EN].
      destruct (entry_open _ _ _ _ _ BS A EN) as (op' & rest' & j & v & RD' & B & R & DE & FA & RE & LO & SC & C1 & C2 & EX').
      rewrite RD in RD'. injection RD' as <- <-. destruct (FO _ _ K) as [SU XC]. destruct EX as [E1 E2].
      assert (SM : i_mnem i = i_mnem (di_instr c)) by (apply mnem_name_inj; rewrite E1; destruct SC as (-> & _); symmetry; eapply op_mnem; eassumption).
      assert (SR : i_ret i = i_ret (di_instr c)) by (rewrite E2, RE; reflexivity).
      pose proof (step_same _ _ _ _ _ _ SM SR ST) as ST'.
      destruct (fall_modes _ _ _ _ _ _ _ _ _ _ _ _ B RD DE FA RE SC EX' SU XC MO MK D ST') as [D' MK'].
      assert (NS' : ~ stops (di_instr c)) by (intros [X|X]; apply NS; [left; rewrite SM; exact X|right; rewrite SR; exact X]).
      destruct (good_leads _ _ _ _ G pc c _ _ K (or_introl (conj (next_falls _ NS') (conj eq_refl eq_refl)))) as (x & F & BL).
      destruct SC as (_ & MD & _). rewrite MD, add_wrapped_spec in F by exact A. destruct (decode_mode_of op rest _ j R DE) as (_ & _ & _ & _ & KL).
      rewrite (actual_length _ _ _ _ _ KL (proj1 D)). split; [exact MO|]. split; [exact MK'|]. exists x. split; [exact F|]. eapply below_modes; eassumption.
    - destruct IH as (MO & MK & c & K & D). destruct (good_entry _ _ _ _ G _ _ K) as [A EN].
      destruct (entry_open _ _ _ _ _ BS A EN) as (op' & rest' & j & v & RD' & B & R & DE & FA & RE & LO & SC & C1 & C2 & EX').
      rewrite RD in RD'. injection RD' as <- <-. destruct EX as [E1 E2].
      assert (SM : i_mnem i = i_mnem (di_instr c)) by (apply mnem_name_inj; rewrite E1; destruct SC as (-> & _); symmetry; eapply op_mnem; eassumption).
      destruct SC as (M & MD & SC2). rewrite SM, M in RB. apply (decode_local op rest _ j R DE) in RB. destruct (LO RB) as [BO LN].
      destruct (decode_mode_of op rest _ j R DE) as (_ & _ & _ & _ & KL). rewrite (actual_length _ _ _ _ _ KL (proj1 D)) in BD.
      rewrite (decode_branch op rest _ j pc v B DE RB BO A) in BD. injection BD as <-.
      destruct (good_leads _ _ _ _ G pc c (target pc j v) (taken (i_mnem j) (di_cur c)) K) as (x & F & BL).
      { right. split; [unfold is_local_branch; rewrite M, MD; exact RB|]. split; [rewrite M; reflexivity|]. exists v. split; [|unfold target; rewrite MD; reflexivity].
        rewrite (same_offset (old_label (ds_map d) (target pc j v)) j); [exact BO|]. split; [exact M|]. split; [exact MD|exact SC2]. }
      destruct ST as (S1 & S2 & S3). split; [exact MO|]. split; [rewrite S1; exact MK|]. exists x. split; [exact F|]. eapply below_modes; [exact BL|rewrite S1; exact MK|].
      assert (D' : describes_modes o (taken (i_mnem j) (di_cur c)) k) by (apply taken_modes; [exact D|]; rewrite <- M, <- SM; exact S3).
      unfold describes_modes. rewrite S1, S2. exact D'. }
  destruct MAIN as (_ & MK & c & K & D). split; [exact MK|]. destruct (good_entry _ _ _ _ G _ _ K) as [A EN].
  destruct (entry_open _ _ _ _ _ BS A EN) as (op & rest & j & v & RD & B & R & DE & FA & RE & LO & SC & C1 & C2 & EX).
  exists c, op, rest. split; [exact K|]. split; [exact RD|]. split; [exact D|]. destruct SC as (M & MD & _). rewrite M, MD. split; [eapply op_mnem; eassumption|].
  destruct (decode_mode_of op rest _ j R DE) as (_ & _ & _ & _ & KL). symmetry. eapply actual_length; [exact KL|apply D].
Qed.
Lemma runs : forall src rets q d a f o pc k, conventions_ok rets -> byte_source src -> session src rets q d -> followed d -> In (a, f) q -> rom_arrives src rets a f o pc k ->
  exists c op rest, collected d pc c /\ src pc 4 = Ok (op :: rest) /\ describes_modes o (di_cur c) k /\ mnem_to_string (i_mnem (di_instr c)) = op_name op /\
    instruction_length (i_mode (di_instr c)) = cpu_length op (p_m (c_modes k)) (p_x (c_modes k)).
Proof. intros src rets q d a f o pc k CO BS S FO IN RA. apply (runs_modes _ _ _ _ _ _ _ _ _ CO BS S FO IN RA). Qed.

(** ** Calls and jumps out of the routine. *)
Lemma far_told_describes : forall src rets q d fuel a f d' far pc c op rest t, conventions_ok rets -> byte_source src -> session src rets q d -> addr24 a -> consistent f ->
  disassemble fuel src a f d = (d', Ok far) -> collected d' pc c -> (forall c0, collected d pc c0 -> di_cur c0 <> di_cur c) ->
  src pc 4 = Ok (op :: rest) -> direct_target pc op rest = Some t -> (forall g, convention rets pc op rest <> RC_yields g) ->
  exists g, om_find t far = Some g /\
    forall o k, modes_ok (c_modes k) -> describes_modes o (di_cur c) k -> flags_describe (c_modes o) g (c_modes k).
Proof.
  intros src rets q d fuel a f d' far pc c op rest t CO BS S A C H K FR RD DT NY.
  destruct (request _ _ _ _ _ _ _ _ _ CO (session_good _ _ _ _ CO S) A C H) as (G & _ & FT & _).
  destruct (good_entry _ _ _ _ G _ _ K) as [AP EN]. destruct (entry_open _ _ _ _ _ BS AP EN) as (op' & rest' & j & v & RD' & B & R & DE & FA & RE & LO & SC & C1 & C2 & EX).
  rewrite RD in RD'. injection RD' as <- <-. rewrite DT in FA.
  destruct (FT _ _ K FR t) as (g & FG & FB); [rewrite (same_far _ _ _ _ SC); exact FA|intros g; rewrite RE; apply NY|].
  exists g. split; [exact FG|]. intros o k MK [D _]. unfold fbelow in FB. rewrite <- FB. apply flags_merge_describes; [exact MK|].
  destruct D as (D1 & D2 & D3 & _). unfold left_flags. split; [exact D1|]. split; [exact D2|]. split; [exact D3|exact Logic.I].
Qed.

(** ** Labels. *)
Lemma labels : forall src rets q d, conventions_ok rets -> session src rets q d ->
  (forall a f, In (a, f) q -> exists c, collected d a c /\ di_label c <> ""%string) /\
  (ds_sym d < 2 ^ 31 -> forall a b c x, collected d a c -> collected d b x -> di_label c <> ""%string -> di_label c = di_label x -> a = b).
Proof.
  intros src rets q d CO S. pose proof (session_good _ _ _ _ CO S) as G. split.
  - intros a f IN. destruct (good_req _ _ _ _ G a (estate_of_flags f)) as (_ & (c & F & _) & L); [exists f; auto|]. exists c. split; [exact F|]. unfold old_label in L. rewrite F in L. exact L.
  - intros SY a b c x K1 K2 N E. destruct (good_names _ _ _ _ G) as (_ & _ & U).
    apply (U SY a b); unfold old_label; unfold collected in *; rewrite ?K1, ?K2; auto.
Qed.

(** ** Failed requests. *)
Lemma failed_request : forall src fuel a f d d' r, disassemble fuel src a f d = (d', r) -> (forall far, r <> Ok far) ->
  ds_map d' = ds_map d /\ ds_rets d' = ds_rets d.
Proof.
  intros src fuel a f d d' r H N. unfold disassemble in H. destruct (get_label _ _ _) as [lab w]. destruct (disasm_loop _ _ _ _ _) as [w' r'].
  destruct r' as [w1|e|u|]; [|injection H as <- <-; auto..]. cbv zeta in H. destruct (apply_labels _ _) as [m|e|u|]; injection H as <- <-; try (split; reflexivity). destruct (N _ eq_refl).
Qed.
