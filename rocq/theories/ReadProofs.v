(** Proofs about reading back decoded instructions. *)
From Verif Require Import Base ModelNumeric ModelAddress ModelMnemonic ModelExpr ModelAMode ModelOpcode ModelState ModelInstr ModelToken ModelStatement ModelParse
  SpecArith SpecNames SpecInstr SpecText Spec65816 BaseProofs ArithProofs NameProofs InstrProofs ModeProofs TokenProofs TextProofs ParseProofs LineProofs DisClosedProofs DisInvProofs PrintProofs.
Open Scope list_scope.
Open Scope Z_scope.
Local Opaque decode_opcode op_form op_name check_consistency parse tokenize instr_to_string encode_opcode.

(** The mode that is written for an opcode. *)
Definition same_type (x y : option expr) : Prop := type_opt x = type_opt y /\ (x = None <-> y = None).
Lemma written_same : forall f a a', decode_mode f a = Some a' -> syntax a' = syntax a /\ uses1 a' = uses1 a /\ uses2 a' = uses2 a.
Proof.
  intros f a a' H. destruct a; cbn [decode_mode] in H; try (injection H as <-; auto);
    (destruct (known_bit _) as [[|]|]; try discriminate H; injection H as <-; auto).
Qed.
Lemma syntax_written : forall a, In (syntax a) (written_as a).
Proof. destruct a; cbn; auto. Qed.
Lemma operands_fit : forall f a a' rest x y x' y', decode_mode f a = Some a' -> decode_operands a' rest = Ok (x, y) -> a <> A_rel8 -> a <> A_rel16 ->
  (uses1 a = true -> type_opt x' = type_opt x) -> (uses2 a = true -> type_opt y' = type_opt y) ->
  operand_ok a (fst (args_of a x' y')) (snd (args_of a x' y')).
Proof.
  intros f a a' rest x y x' y' M D N1 N2 T1 T2. unfold args_of. cbn [fst snd].
  destruct a; try congruence; cbn [decode_mode] in M; try exact Logic.I; injection M as <-; cbn [uses1 uses2 operand_ok address_bits] in *;
    cbn [decode_operands] in D; destruct rest as [|b0 [|b1 [|b2 rest]]]; try discriminate D; injection D as <- <-; rewrite ?T1, ?T2 by reflexivity;
    try reflexivity; unfold fits_or_typed; rewrite ?T1, ?T2 by reflexivity; try (left; reflexivity); split; left; reflexivity.
Qed.

(** An instruction that stands for a decoded one. *)
Lemma reads_as : forall op rest f j k e1 e2, 0 <= op < 256 -> decode (op :: rest) f = Ok j ->
  hardware_mnemonic (i_mnem k) = i_mnem j -> i_mode k = i_mode j -> rc_ok (i_ret k) -> (i_ret k <> RC_default -> i_mnem k = M_jsl \/ i_mnem k = M_jsr) ->
  (i_suffix k <> S_none -> flag_controlling_size (i_mnem k) <> NotVariable) ->
  (uses1 (i_mode j) = true -> read_back (i_arg1 k) e1 /\ (is_relative op = false -> type_opt (Some e1) = type_opt (i_arg1 j))) ->
  (is_relative op = true -> exists n t, e1 = EId (FullId None n) t) ->
  (uses2 (i_mode j) = true -> read_back (i_arg2 k) e2 /\ type_opt (Some e2) = type_opt (i_arg2 j)) ->
  exists ts i, tokenize (instr_to_string k) = Ok ts /\ parse ts = Ok [PStmt (SInstr i)] /\
    i_mnem i = i_mnem k /\ i_suffix i = i_suffix k /\ i_ret i = rc_read (i_ret k) /\ i_mode i = snd (decode_opcode op) /\
    (suffix_agrees k f -> check_consistency i f = Ok tt) /\ fix_addressing_mode i f = Ok (with_mode (i_mode j) i) /\
    i_arg1 i = (if uses1 (i_mode j) then Some e1 else None) /\ i_arg2 i = (if uses2 (i_mode j) then Some e2 else None).
Proof.
  intros op rest f j k e1 e2 R D HM KM RC RM SX B1 RL B2. rewrite decode_eq in D. destruct (decode_table op R) as [NM FM].
  destruct (decode_mode f (snd (decode_opcode op))) as [a'|] eqn:M; [|discriminate D]. bok D as p E. destruct p as [x y]. injection D as <-. cbn [i_mnem i_mode i_arg1 i_arg2 i_ret] in *.
  destruct (written_same _ _ _ M) as (WS & U1 & U2).
  assert (DM : deduce_mode (i_mnem k) (syntax (i_mode k)) (fst (args_of (i_mode k) (Some e1) (Some e2))) (snd (args_of (i_mode k) (Some e1) (Some e2))) = Ok (snd (decode_opcode op))).
  { apply deduce_exact. split; [exists op; rewrite HM; auto|]. rewrite KM, WS. split; [apply syntax_written|].
    replace (args_of a' (Some e1) (Some e2)) with (args_of (snd (decode_opcode op)) (Some e1) (Some e2)) by (unfold args_of; rewrite U1, U2; reflexivity).
    destruct (is_relative op) eqn:NR; rewrite is_relative_mode in NR by exact R.
    { destruct (RL eq_refl) as (n & t & ->). destruct (snd (decode_opcode op)); try discriminate NR; exists n, t; reflexivity. }
    apply (operands_fit f _ a' rest x y); [exact M|exact E|intros X; rewrite X in NR; discriminate NR|intros X; rewrite X in NR; discriminate NR| |].
    - intros U. apply B1; [congruence|reflexivity].
    - intros U. apply B2. congruence. }
  destruct (instr_read k e1 e2 (snd (decode_opcode op))) as (ts & T & P); [intros U; apply B1; congruence|intros U; apply B2; congruence|exact RC|exact RM|exact SX|exact DM|].
  exists ts. eexists. split; [exact T|]. split; [exact P|]. cbn [i_mnem i_suffix i_ret i_mode i_arg1 i_arg2]. do 4 (split; [reflexivity|]). split; [|split; [|unfold args_of; cbn [fst snd]; rewrite KM; split; reflexivity]].
  { intros SA. match goal with |- check_consistency ?i f = _ => assert (X : fits (op_form op) (i_mode i)) by (left; cbn [i_mode]; auto);
      apply (proj1 (consistency_exact i f op R ltac:(cbn [i_mnem]; rewrite HM; auto) X)); clear X end. split; [exact SA|]. unfold width_agrees. cbn [i_mode]. rewrite <- FM.
    destruct (snd (decode_opcode op)); cbn [form_of]; try exact Logic.I; cbn [decode_mode] in M; intros X; rewrite X in M; discriminate M. }
  unfold fix_addressing_mode. cbn [i_mode]. unfold with_mode. cbn [i_mnem i_suffix i_ret i_mode i_arg1 i_arg2].
  destruct (snd (decode_opcode op)); cbn [decode_mode] in M; try (injection M as <-; reflexivity).
  - destruct (fl_m f); cbn in M; try discriminate M; injection M as <-; reflexivity.
  - destruct (fl_x f); cbn in M; try discriminate M; injection M as <-; reflexivity.
Qed.

(** ** Decoded instructions. *)
Lemma decoded_back : forall a rest x y, decode_operands a rest = Ok (x, y) -> a <> A_rel8 -> a <> A_rel16 -> a <> A_imm_fm -> a <> A_imm_fx ->
  (if uses1 a then exists v t, x = Some (ELit v t) /\ read_back x (ELit v t) else x = None) /\ (if uses2 a then exists v t, y = Some (ELit v t) /\ read_back y (ELit v t) else y = None).
Proof.
  intros a rest x y D N1 N2 N3 N4. destruct a; try congruence; cbn [decode_operands] in D; try (injection D as <- <-; split; reflexivity);
    destruct rest as [|b0 [|b1 [|b2 rest]]]; try discriminate D; injection D as <- <-; cbn [uses1 uses2]; unfold mk_lit;
    (split; [eexists; eexists; (split; [reflexivity|apply back_lit; [auto|apply cast_idem]])|]); try reflexivity;
    eexists; eexists; (split; [reflexivity|apply back_lit; [auto|apply cast_idem]]).
Qed.
Lemma roundtrip : forall op rest f j, bytes_ok (op :: rest) -> decode (op :: rest) f = Ok j -> is_relative op = false ->
  exists ts i, tokenize (instr_to_string j) = Ok ts /\ parse ts = Ok [PStmt (SInstr i)] /\ check_consistency i f = Ok tt /\ fix_addressing_mode i f = Ok j /\ forall adr ctx, instr_bytes adr ctx j = Ok (firstn (Z.to_nat (instr_size j)) (op :: rest)).
Proof.
  intros op rest f j B D NR. assert (R : 0 <= op < 256) by (inversion B; assumption).
  destruct (decode_mode_of op rest f j R D) as (MN & OP & _ & _). destruct (decode_ret _ _ _ D) as (RT & SX).
  pose proof D as D0. rewrite decode_eq in D0. pose proof (decode_mode_length f op R) as L. destruct (decode_mode f (snd (decode_opcode op))) as [a|] eqn:M; [|discriminate D0].
  destruct L as (_ & L1 & L2 & L3). bok D0 as p E. destruct p as [x y]. injection D0 as J. assert (AJ : i_mode j = a) by (rewrite <- J; reflexivity).
  assert (R8 : i_mode j <> A_rel8 /\ i_mode j <> A_rel16).
  { rewrite AJ. rewrite is_relative_mode in NR by exact R. destruct (snd (decode_opcode op)); cbn [resolved_modes In] in L1; split; intros ->; repeat destruct L1 as [L1|L1]; try discriminate L1; try contradiction; discriminate NR. }
  destruct (decoded_back _ _ _ _ OP) as (B1 & B2); [tauto|tauto|congruence|congruence|].
  assert (HM : hardware_mnemonic (i_mnem j) = i_mnem j) by (rewrite MN; apply (decoded_size op S_none a None None RC_default R)).
  set (e1 := match i_arg1 j with Some e => e | None => ELit 0 T_byte end). set (e2 := match i_arg2 j with Some e => e | None => ELit 0 T_byte end).
  destruct (reads_as op rest f j j e1 e2 R D HM eq_refl) as (ts & i & T & P & IM & IS & IR & _ & CC & FX & A1 & A2).
  - rewrite RT. exact Logic.I.
  - rewrite RT. congruence.
  - rewrite SX. congruence.
  - intros U. rewrite U in B1. destruct B1 as (v & t & E1 & B1). unfold e1. rewrite E1 in *. auto.
  - congruence.
  - intros U. rewrite U in B2. destruct B2 as (v & t & E1 & B2). unfold e2. rewrite E1 in *. auto.
  - exists ts, i. do 2 (split; [assumption|]). split; [apply CC; unfold suffix_agrees; rewrite SX; exact Logic.I|].
    assert (EQ : with_mode (i_mode j) i = j).
    { unfold with_mode. rewrite IM, IS, IR, RT. cbn [rc_read].
      assert (X1 : i_arg1 i = i_arg1 j) by (rewrite A1; destruct (uses1 (i_mode j)); [destruct B1 as (v & t & E1 & _); unfold e1; rewrite E1; reflexivity|auto]).
      assert (X2 : i_arg2 i = i_arg2 j) by (rewrite A2; destruct (uses2 (i_mode j)); [destruct B2 as (v & t & E1 & _); unfold e2; rewrite E1; reflexivity|auto]).
      rewrite X1, X2. destruct j as [jm js ja jx jy jr]; cbn [i_mnem i_suffix i_mode i_arg1 i_arg2 i_ret] in *. rewrite RT. reflexivity. }
    split; [congruence|]. exact (decode_assemble_plain op rest f j B D NR).
Qed.
