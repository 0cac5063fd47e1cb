(** Proofs about decoding, encoding and instruction sizes. *)
From Verif Require Import BaseProofs ModelNumeric ModelAddress ModelMnemonic ModelExpr ModelAMode
  ModelOpcode ModelState ModelInstr ModelStatement ModelMap ModelRanges ModelModule SpecArith ArithProofs Spec65816 NameProofs
  SpecInstr.
Open Scope string_scope.
Open Scope Z_scope.
From Verif Require Import InstrProofs.

(** ** Deducing the addressing mode: the decision table made explicit *)
Inductive dcase :=
| DErr | DId (a : amode) | DFix (a : amode) | DBWL (b w l : amode) | DBW (b w : amode)
| DWL (w l : amode) | DForceB (b : amode) | DForceW (w : amode) | DForceL (l : amode)
| DCoB (b : amode) | DCoW (w : amode) | DCoBB (b : amode).
Definition dinterp (d : dcase) (a1 a2 : option expr) : res amode :=
  match d with
  | DErr => Err E_no_mode
  | DId a => match simple_identifier_opt a1 with Some _ => Ok a | None => Err E_no_mode end
  | DFix a => Ok a
  | DBWL b w l => switch_byte_word_long a1 b w l
  | DBW b w => switch_byte_word a1 b w
  | DWL w l => switch_word_long a1 w l
  | DForceB b => force_byte a1 b
  | DForceW w => force_word a1 w
  | DForceL l => force_long a1 l
  | DCoB b => coerce_byte a1 b
  | DCoW w => coerce_word a1 w
  | DCoBB b => coerce_bytes a1 a2 b
  end.
Definition dtable (m : mnemonic) (s : samode) : dcase :=
  if is_branch_mnemonic m then
    match s with
    | SA_dir => DId (match m with M_brl | M_per => A_rel16 | _ => A_rel8 end)
    | _ => DErr
    end
  else
  match s with
  | SA_imp =>
      match m with
      | M_dec | M_inc | M_asl | M_lsr | M_rol | M_ror => DFix A_acc
      | M_clc | M_cld | M_cli | M_clv | M_dex | M_dey | M_inx | M_iny | M_nop | M_pha
      | M_phb | M_phd | M_phk | M_php | M_phx | M_phy | M_pla | M_plb | M_pld | M_plp
      | M_plx | M_ply | M_rti | M_rtl | M_rts | M_sec | M_sed | M_sei | M_stp | M_tax
      | M_tay | M_tcd | M_tcs | M_tdc | M_tsc | M_tsx | M_txa | M_txs | M_txy | M_tya
      | M_tyx | M_wai | M_xba | M_xce => DFix A_imp
      | _ => DErr
      end
  | SA_acc => match m with M_dec | M_inc | M_asl | M_lsr | M_rol | M_ror => DFix A_acc | _ => DErr end
  | SA_imm =>
      match m with
      | M_adc | PM_add | M_and | M_bit | M_cmp | M_eor | M_lda | M_ora | M_sbc | PM_sub => DFix A_imm_fm
      | M_cpx | M_cpy | M_ldx | M_ldy => DFix A_imm_fx
      | M_cop | M_rep | M_sep | M_brk | M_wdm => DCoB A_imm_b
      | M_pea => DCoW A_imm_w
      | _ => DErr
      end
  | SA_dir =>
      if is_alu_mnemonic m then DBWL A_dir_b A_dir_w A_dir_l
      else match m with
      | M_asl | M_bit | M_cpx | M_cpy | M_dec | M_inc | M_ldx | M_ldy | M_lsr | M_rol
      | M_ror | M_stx | M_sty | M_stz | M_trb | M_tsb => DBW A_dir_b A_dir_w
      | M_jmp => DWL A_dir_w A_dir_l
      | M_pei => DForceB A_dir_b
      | M_jsr => DForceW A_dir_w
      | M_jsl => DForceL A_dir_l
      | _ => DErr
      end
  | SA_dir_x =>
      if is_alu_mnemonic m then DBWL A_dir_bx A_dir_wx A_dir_lx
      else match m with
      | M_asl | M_bit | M_dec | M_inc | M_ldy | M_lsr | M_rol | M_ror | M_stz => DBW A_dir_bx A_dir_wx
      | M_sty => DForceB A_dir_bx
      | _ => DErr
      end
  | SA_dir_y =>
      match m with
      | M_ldx => DBW A_dir_by A_dir_wy
      | M_stx => DForceB A_dir_by
      | _ => if is_alu_mnemonic m then DForceW A_dir_wy else DErr
      end
  | SA_ind =>
      if is_alu_mnemonic m then DForceB A_ind_b
      else match m with M_jmp => DForceW A_ind_w | _ => DErr end
  | SA_ind_x =>
      if is_alu_mnemonic m then DForceB A_ind_bx
      else match m with M_jmp | M_jsr => DForceW A_ind_wx | _ => DErr end
  | SA_ind_y => if is_alu_mnemonic m then DForceB A_ind_by else DErr
  | SA_lng =>
      if is_alu_mnemonic m then DForceB A_lng_b
      else match m with M_jmp => DForceW A_lng_w | _ => DErr end
  | SA_lng_y => if is_alu_mnemonic m then DForceB A_lng_by else DErr
  | SA_stk => if is_alu_mnemonic m then DCoB A_stk else DErr
  | SA_stk_y => if is_alu_mnemonic m then DCoB A_stk_y else DErr
  | SA_mov => match m with M_mvn | M_mvp => DCoBB A_mov | _ => DErr end
  end.
Lemma deduce_table : forall m s a1 a2,
  deduce_mode m s a1 a2 =
  if negb (is_branch_mnemonic m) && argument_is_address s && ntype_eqb (type_opt a1) T_unknown
  then Err E_no_mode else dinterp (dtable m s) a1 a2.
Proof.
  intros m s a1 a2. unfold deduce_mode, dtable.
  destruct (is_branch_mnemonic m) eqn:B; cbn [negb andb].
  - destruct s; reflexivity.
  - destruct (argument_is_address s && ntype_eqb (type_opt a1) T_unknown)%bool; [reflexivity|].
    clear B. destruct s; try (destruct (is_alu_mnemonic m); [reflexivity|]); try reflexivity;
      destruct m; reflexivity.
Qed.

(** Modes each entry can give. *)
Definition dmodes (d : dcase) : list amode :=
  match d with
  | DErr => []
  | DId a | DFix a | DForceB a | DForceW a | DForceL a | DCoB a | DCoW a | DCoBB a => [a]
  | DBWL b w l => [b; w; l]
  | DBW b w => [b; w]
  | DWL w l => [w; l]
  end.
Definition bits_is (n : Z) (a : amode) : bool := address_bits a =? n.
Definition dvalid (d : dcase) : bool :=
  match d with
  | DErr => true
  | DId a => match a with A_rel8 | A_rel16 => true | _ => false end
  | DFix a => match a with A_imp | A_acc | A_imm_fm | A_imm_fx => true | _ => false end
  | DBWL b w l => bits_is 8 b && bits_is 16 w && bits_is 24 l
  | DBW b w => bits_is 8 b && bits_is 16 w
  | DWL w l => bits_is 16 w && bits_is 24 l
  | DForceB b => bits_is 8 b
  | DForceW w => bits_is 16 w
  | DForceL l => bits_is 24 l
  | DCoB b => match b with A_imm_b | A_stk | A_stk_y => true | _ => false end
  | DCoW w => match w with A_imm_w => true | _ => false end
  | DCoBB b => match b with A_mov => true | _ => false end
  end.

Lemma operand_ok_addr : forall a a1 a2, address_bits a <> 0 ->
  (operand_ok a a1 a2 <-> type_bits (type_opt a1) = address_bits a).
Proof. intros a a1 a2 H. destruct a; cbn in *; try tauto; contradiction. Qed.
Lemma coerce_byte_ok : forall a x b, coerce_byte a x = Ok b <-> b = x /\ fits_or_typed 8 a.
Proof.
  intros a x b. unfold coerce_byte, fits_or_typed.
  assert (T : t_unsigned (type_opt a) = T_byte <-> type_bits (type_opt a) = 8)
    by (destruct (type_opt a); split; intros H; try reflexivity; discriminate H).
  assert (U : t_unsigned (type_opt a) = T_unknown <-> type_opt a = T_unknown)
    by (destruct (type_opt a); split; intros H; try reflexivity; discriminate H).
  rewrite <- T, <- U. change (8 - 1) with 7. pows.
  destruct (t_unsigned (type_opt a)).
  - destruct (eval_opt null_ctx a) as [v| | |].
    + destruct ((v <? 256) && (-128 <=? v))%bool eqn:E; split.
      * intros H. injection H as <-. split; [reflexivity|]. right. split; [reflexivity|].
        exists v. split; [reflexivity|lia].
      * intros [-> _]. reflexivity.
      * discriminate.
      * intros [_ [H|[_ (w & H & R)]]]; [discriminate H|]. injection H as <-. lia.
    + split; [discriminate|]. intros [_ [H|[_ (w & H & R)]]]; discriminate H.
    + split; [discriminate|]. intros [_ [H|[_ (w & H & R)]]]; discriminate H.
    + split; [discriminate|]. intros [_ [H|[_ (w & H & R)]]]; discriminate H.
  - split; [intros H; injection H as <-; auto|intros [-> _]; reflexivity].
  - split; [discriminate|]. intros [_ [H|[H _]]]; discriminate H.
  - split; [discriminate|]. intros [_ [H|[H _]]]; discriminate H.
  - split; [discriminate|]. intros [_ [H|[H _]]]; discriminate H.
  - split; [discriminate|]. intros [_ [H|[H _]]]; discriminate H.
  - split; [discriminate|]. intros [_ [H|[H _]]]; discriminate H.
Qed.
Lemma coerce_word_ok : forall a x b, coerce_word a x = Ok b <-> b = x /\ fits_or_typed 16 a.
Proof.
  intros a x b. unfold coerce_word, fits_or_typed.
  assert (T : t_unsigned (type_opt a) = T_word <-> type_bits (type_opt a) = 16)
    by (destruct (type_opt a); split; intros H; try reflexivity; discriminate H).
  assert (U : t_unsigned (type_opt a) = T_unknown <-> type_opt a = T_unknown)
    by (destruct (type_opt a); split; intros H; try reflexivity; discriminate H).
  rewrite <- T, <- U. change (16 - 1) with 15. pows.
  destruct (t_unsigned (type_opt a)).
  - destruct (eval_opt null_ctx a) as [v| | |].
    + destruct ((v <? 65536) && (-32768 <=? v))%bool eqn:E; split.
      * intros H. injection H as <-. split; [reflexivity|]. right. split; [reflexivity|].
        exists v. split; [reflexivity|lia].
      * intros [-> _]. reflexivity.
      * discriminate.
      * intros [_ [H|[_ (w & H & R)]]]; [discriminate H|]. injection H as <-. lia.
    + split; [discriminate|]. intros [_ [H|[_ (w & H & R)]]]; discriminate H.
    + split; [discriminate|]. intros [_ [H|[_ (w & H & R)]]]; discriminate H.
    + split; [discriminate|]. intros [_ [H|[_ (w & H & R)]]]; discriminate H.
  - split; [discriminate|]. intros [_ [H|[H _]]]; discriminate H.
  - split; [intros H; injection H as <-; auto|intros [-> _]; reflexivity].
  - split; [discriminate|]. intros [_ [H|[H _]]]; discriminate H.
  - split; [discriminate|]. intros [_ [H|[H _]]]; discriminate H.
  - split; [discriminate|]. intros [_ [H|[H _]]]; discriminate H.
  - split; [discriminate|]. intros [_ [H|[H _]]]; discriminate H.
Qed.
Lemma simple_id_iff : forall a, (exists n, simple_identifier_opt a = Some n) <->
  exists n t, a = Some (EId (FullId None n) t).
Proof.
  intros a. split.
  - intros (n & H). destruct a as [[v t|[[mn|] nm] t|op l r|op e|nm h]|]; try discriminate H. eauto.
  - intros (n & t & ->). cbn. eauto.
Qed.

Lemma dinterp_ok : forall d a1 a2 am, dvalid d = true ->
  (dinterp d a1 a2 = Ok am <-> In am (dmodes d) /\ operand_ok am a1 a2).
Proof.
  intros d a1 a2 am V.
  assert (AB : forall n b, bits_is n b = true -> n <> 0 ->
     (operand_ok b a1 a2 <-> type_bits (type_opt a1) = n) /\ address_bits b = n).
  { intros n b H N. unfold bits_is in H. apply Z.eqb_eq in H. split; [|assumption].
    rewrite operand_ok_addr by congruence. rewrite H. tauto. }
  destruct d; cbn [dinterp dmodes dvalid In] in *.
  - split; [discriminate|tauto].
  - assert (E : operand_ok a a1 a2 <-> exists n, simple_identifier_opt a1 = Some n).
    { rewrite simple_id_iff. destruct a; try discriminate V; reflexivity. }
    destruct (simple_identifier_opt a1) as [n|] eqn:SI.
    + split.
      * intros H. injection H as <-. split; [auto|]. apply E. eauto.
      * intros [[->|[]] _]. reflexivity.
    + split; [discriminate|]. intros [[->|[]] H]. apply E in H as (n & H). discriminate H.
  - split.
    + intros H. injection H as <-. split; [auto|]. destruct a; try discriminate V; exact I.
    + intros [[->|[]] _]. reflexivity.
  - apply andb_prop in V as [V V3]. apply andb_prop in V as [V1 V2].
    destruct (AB 8 b V1 ltac:(lia)) as [O1 _]. destruct (AB 16 w V2 ltac:(lia)) as [O2 _].
    destruct (AB 24 l V3 ltac:(lia)) as [O3 _]. clear AB.
    unfold switch_byte_word_long. split.
    + destruct (type_opt a1) eqn:T; cbn; intros H; try discriminate H; injection H as <-; split; auto;
        (apply O1 || apply O2 || apply O3); reflexivity.
    + intros [[<-|[<-|[<-|[]]]] H]; [apply O1 in H|apply O2 in H|apply O3 in H];
        destruct (type_opt a1); try discriminate H; reflexivity.
  - apply andb_prop in V as [V1 V2].
    destruct (AB 8 b V1 ltac:(lia)) as [O1 _]. destruct (AB 16 w V2 ltac:(lia)) as [O2 _].
    clear AB. unfold switch_byte_word. split.
    + destruct (type_opt a1) eqn:T; cbn; intros H; try discriminate H; injection H as <-; split; auto;
        (apply O1 || apply O2); reflexivity.
    + intros [[<-|[<-|[]]] H]; [apply O1 in H|apply O2 in H];
        destruct (type_opt a1); try discriminate H; reflexivity.
  - apply andb_prop in V as [V1 V2].
    destruct (AB 16 w V1 ltac:(lia)) as [O1 _]. destruct (AB 24 l V2 ltac:(lia)) as [O2 _].
    clear AB. unfold switch_word_long. split.
    + destruct (type_opt a1) eqn:T; cbn; intros H; try discriminate H; injection H as <-; split; auto;
        (apply O1 || apply O2); reflexivity.
    + intros [[<-|[<-|[]]] H]; [apply O1 in H|apply O2 in H];
        destruct (type_opt a1); try discriminate H; reflexivity.
  - destruct (AB 8 b V ltac:(lia)) as [O1 _]. clear AB. unfold force_byte. split.
    + destruct (type_opt a1) eqn:T; cbn; intros H; try discriminate H; injection H as <-; split; auto;
        apply O1; reflexivity.
    + intros [[<-|[]] H]; apply O1 in H; destruct (type_opt a1); try discriminate H; reflexivity.
  - destruct (AB 16 w V ltac:(lia)) as [O1 _]. clear AB. unfold force_word. split.
    + destruct (type_opt a1) eqn:T; cbn; intros H; try discriminate H; injection H as <-; split; auto;
        apply O1; reflexivity.
    + intros [[<-|[]] H]; apply O1 in H; destruct (type_opt a1); try discriminate H; reflexivity.
  - destruct (AB 24 l V ltac:(lia)) as [O1 _]. clear AB. unfold force_long. split.
    + destruct (type_opt a1) eqn:T; cbn; intros H; try discriminate H; injection H as <-; split; auto;
        apply O1; reflexivity.
    + intros [[<-|[]] H]; apply O1 in H; destruct (type_opt a1); try discriminate H; reflexivity.
  - rewrite coerce_byte_ok.
    assert (E : operand_ok b a1 a2 <-> fits_or_typed 8 a1) by (destruct b; try discriminate V; reflexivity).
    split; [intros [-> H]; rewrite E; auto|intros [[->|[]] H]; rewrite E in H; auto].
  - rewrite coerce_word_ok.
    assert (E : operand_ok w a1 a2 <-> fits_or_typed 16 a1) by (destruct w; try discriminate V; reflexivity).
    split; [intros [-> H]; rewrite E; auto|intros [[->|[]] H]; rewrite E in H; auto].
  - destruct b; try discriminate V. cbn [operand_ok].
    pose proof (coerce_byte_ok a1 A_mov) as C1. pose proof (coerce_byte_ok a2 A_mov) as C2.
    unfold coerce_bytes.
    destruct (coerce_byte a1 A_mov) as [x| | |], (coerce_byte a2 A_mov) as [y| | |];
      (split; [intros H; try discriminate H; injection H as <-|intros [[<-|[]] [H1 H2]]]);
      try reflexivity;
      try (specialize (proj2 (C1 A_mov) (conj eq_refl H1)); discriminate);
      try (specialize (proj2 (C2 A_mov) (conj eq_refl H2)); discriminate).
    split; [auto|]. split; [apply (C1 x); reflexivity|apply (C2 y); reflexivity].
Qed.

Definition all_samodes : list samode :=
  [SA_imp; SA_acc; SA_imm; SA_dir; SA_dir_x; SA_dir_y; SA_ind; SA_ind_x; SA_ind_y; SA_lng;
   SA_lng_y; SA_stk; SA_stk_y; SA_mov].
Definition all_amodes : list amode :=
  [A_imp; A_acc; A_imm_b; A_imm_w; A_dir_b; A_dir_w; A_dir_l; A_dir_bx; A_dir_by; A_dir_wx;
   A_dir_wy; A_dir_lx; A_ind_b; A_ind_w; A_ind_bx; A_ind_by; A_ind_wx; A_lng_b; A_lng_w;
   A_lng_by; A_stk; A_stk_y; A_mov; A_rel8; A_rel16; A_imm_fm; A_imm_fx].
Lemma all_samodes_complete : forall s, In s all_samodes.
Proof. destruct s; cbn; tauto. Qed.
Lemma all_amodes_complete : forall s, In s all_amodes.
Proof. destruct s; cbn; tauto. Qed.
Definition samode_eqb (a b : samode) : bool :=
  match a, b with
  | SA_imp, SA_imp | SA_acc, SA_acc | SA_imm, SA_imm | SA_dir, SA_dir | SA_dir_x, SA_dir_x
  | SA_dir_y, SA_dir_y | SA_ind, SA_ind | SA_ind_x, SA_ind_x | SA_ind_y, SA_ind_y
  | SA_lng, SA_lng | SA_lng_y, SA_lng_y | SA_stk, SA_stk | SA_stk_y, SA_stk_y
  | SA_mov, SA_mov => true
  | _, _ => false
  end.
Lemma samode_eqb_eq : forall a b, samode_eqb a b = true <-> a = b.
Proof. intros [] []; split; intros H; try reflexivity; discriminate H. Qed.

Definition own_mode (m : mnemonic) (a : amode) : bool :=
  existsb (fun p => mnem_eqb m (fst p) && amode_eqb a (snd p)) decode_map.
Lemma own_mode_iff : forall m a, own_mode m a = true <->
  exists op, 0 <= op < 256 /\ op_name op = mnem_to_string m /\ op_form op = form_of a.
Proof.
  intros m a. unfold own_mode. rewrite existsb_exists. split.
  - intros ([m' a'] & I & E). apply andb_prop in E as [E1 E2]. apply mnem_eqb_eq in E1.
    apply amode_eqb_eq in E2. cbn [fst snd] in *. subst m' a'.
    apply (In_nth _ _ (M_brk, A_imm_b)) in I as (n & Ln & E).
    change (List.length decode_map) with 256%nat in Ln.
    exists (Z.of_nat n). assert (R : 0 <= Z.of_nat n < 256) by lia. split; [assumption|].
    destruct (decode_table _ R) as [N F]. unfold decode_opcode in N, F.
    rewrite Nat2Z.id, E in N, F. cbn [fst snd] in N, F. auto.
  - intros (op & R & N & F). destruct (decode_table _ R) as [N' F'].
    exists (decode_opcode op). split.
    + unfold decode_opcode. apply nth_In. change (List.length decode_map) with 256%nat. lia.
    + rewrite <- N' in N. apply mnem_name_inj in N. rewrite <- F' in F. apply form_of_inj in F.
      rewrite N, F. apply andb_true_intro. split; [apply mnem_eqb_eq|apply amode_eqb_eq]; reflexivity.
Qed.

Definition table_agrees (m : mnemonic) (s : samode) : bool :=
  dvalid (dtable m s) &&
  forallb (fun a => Bool.eqb (existsb (amode_eqb a) (dmodes (dtable m s)))
     (existsb (samode_eqb s) (written_as a) && own_mode (hardware_mnemonic m) a)) all_amodes &&
  (if negb (is_branch_mnemonic m) && argument_is_address s
   then forallb (fun a => negb (address_bits a =? 0)) (dmodes (dtable m s)) else true).
Lemma table_agrees_all : forall m s, table_agrees m s = true.
Proof.
  assert (H : forallb (fun m => forallb (table_agrees m) all_samodes) all_mnemonics = true)
    by (vm_compute; reflexivity).
  intros m s. pose proof (forall_mnemonics _ H m) as E. cbv beta in E.
  rewrite forallb_forall in E. apply E, all_samodes_complete.
Qed.

Lemma deduce_exact : forall m s a1 a2 am,
  deduce_mode m s a1 a2 = Ok am <->
  (exists op, 0 <= op < 256 /\ op_name op = mnem_to_string (hardware_mnemonic m) /\
              op_form op = form_of am) /\
  In s (written_as am) /\ operand_ok am a1 a2.
Proof.
  intros m s a1 a2 am. rewrite deduce_table, <- own_mode_iff.
  pose proof (table_agrees_all m s) as T. unfold table_agrees in T.
  apply andb_prop in T as [T T3]. apply andb_prop in T as [T1 T2].
  assert (IN : In am (dmodes (dtable m s)) <->
               own_mode (hardware_mnemonic m) am = true /\ In s (written_as am)).
  { rewrite forallb_forall in T2. specialize (T2 am (all_amodes_complete am)).
    apply Bool.eqb_prop in T2.
    assert (A : In am (dmodes (dtable m s)) <-> existsb (amode_eqb am) (dmodes (dtable m s)) = true).
    { rewrite existsb_exists. split.
      - intros H. exists am. split; [assumption|]. apply amode_eqb_eq. reflexivity.
      - intros (x & H & E). apply amode_eqb_eq in E. congruence. }
    assert (B : In s (written_as am) <-> existsb (samode_eqb s) (written_as am) = true).
    { rewrite existsb_exists. split.
      - intros H. exists s. split; [assumption|]. apply samode_eqb_eq. reflexivity.
      - intros (x & H & E). apply samode_eqb_eq in E. congruence. }
    rewrite A, B, T2, andb_true_iff. tauto. }
  rewrite <- and_assoc, <- IN.
  destruct (negb (is_branch_mnemonic m) && argument_is_address s)%bool eqn:BA; cbn [andb].
  - destruct (ntype_eqb (type_opt a1) T_unknown) eqn:TU.
    + split; [discriminate|]. intros [I O]. exfalso.
      rewrite forallb_forall in T3. specialize (T3 am I).
      apply negb_true_iff, Z.eqb_neq in T3. apply operand_ok_addr in O; [|assumption].
      assert (type_opt a1 = T_unknown) as E by (destruct (type_opt a1); try discriminate TU; reflexivity).
      rewrite E in O. destruct am; cbn in O; try discriminate O; contradiction.
    + apply dinterp_ok. assumption.
  - apply dinterp_ok. assumption.
Qed.

(** Each opcode is deduced from its own assembly syntax. *)
Lemma every_opcode_written : forall op, 0 <= op < 256 ->
  exists m s a1 a2 am, mnem_to_string m = op_name op /\ form_of am = op_form op /\
    deduce_mode m s a1 a2 = Ok am.
Proof.
  intros op R. destruct (decode_table op R) as [N F].
  set (m := fst (decode_opcode op)) in *. set (am := snd (decode_opcode op)) in *.
  pose (a1 := match am with
              | A_rel8 | A_rel16 => Some (EId (FullId None "x") T_unknown)
              | A_imm_w => Some (ELit 0 T_word)
              | _ => Some (ELit 0 (match address_bits am with 16 => T_word | 24 => T_long | _ => T_byte end))
              end).
  exists m, (hd SA_imp (written_as am)), a1, (Some (ELit 0 T_byte)), am.
  split; [assumption|]. split; [assumption|].
  assert (HW : hardware_mnemonic m = m) by (apply (decoded_size op S_none am None None RC_default R)).
  apply deduce_exact. rewrite HW. split; [exists op; auto|].
  split; [destruct am; cbn; auto|].
  unfold a1. clearbody am. clear.
  destruct am; cbn; unfold fits_or_typed; cbn; eauto.
Qed.

Lemma decode_assemble_relative' : forall op rest f i, bytes_ok (op :: rest) ->
  decode (op :: rest) f = Ok i -> is_relative op = true ->
  forall adr, addr24 adr ->
  exists t, addr24 t /\
    branch_destination adr (firstn (Z.to_nat (instr_size i)) (op :: rest)) = Some t /\
    forall c, instr_bytes adr c (with_target t i) =
              Ok (firstn (Z.to_nat (instr_size i)) (op :: rest)).
Proof.
  intros op rest f i B H Rel adr Ha.
  cut (exists n, branch_destination adr (firstn (Z.to_nat (instr_size i)) (op :: rest))
                 = Some (same_bank_plus adr n)).
  { intros (n & E). exists (same_bank_plus adr n). split; [apply same_bank_plus_24; assumption|].
    split; [assumption|]. intros c. eapply decode_assemble_relative; eassumption. }
  destruct (decode_exact (op :: rest) f B) as (_ & D & _).
  destruct (D i H) as (op' & rest' & E & K & _). injection E as <- <-.
  assert (Le : instr_size i <= zlen (op :: rest)).
  { destruct (decode_exact (op :: rest) f B) as (D1 & _ & _).
    destruct (proj1 D1 (ex_intro _ i H)) as (o & r & n & E & K2 & L). injection E as <- <-. congruence. }
  unfold known_length, is_relative, cpu_length in *.
  destruct (op_form op) eqn:F; try discriminate Rel; injection K as K; cbn in K; rewrite <- K in *.
  - destruct rest as [|b0 rest]; [unfold zlen in Le; cbn in Le; lia|].
    change (Z.to_nat 2) with 2%nat. cbn [firstn branch_destination]. rewrite F. eauto.
  - destruct rest as [|b0 [|b1 rest]]; try (unfold zlen in Le; cbn in Le; lia).
    change (Z.to_nat 3) with 3%nat. cbn [firstn branch_destination]. rewrite F. eauto.
Qed.
