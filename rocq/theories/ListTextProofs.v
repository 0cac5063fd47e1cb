(** Proofs about reading back the text of a listing. *)
From Verif Require Import Base ModelNumeric ModelAddress ModelMnemonic ModelExpr ModelAMode ModelOpcode ModelState ModelInstr ModelToken ModelStatement ModelParse ModelMap ModelRom ModelDisasm
  SpecArith SpecNames SpecInstr SpecText SpecState SpecFlow SpecDisasm SpecListing Spec65816 BaseProofs MapProofs ArithProofs NameProofs InstrProofs ModeProofs StateProofs TokenProofs FlowArriveProofs
  DisStateProofs DisStepProofs DisInvProofs DisRunProofs DisRequestProofs DisClosedProofs CleanProofs PrintProofs ReadProofs.
Open Scope list_scope.
Open Scope Z_scope.
Local Opaque decode_opcode op_form op_name in_names check_consistency parse tokenize instr_to_string encode_opcode execute_in execute_branch.

(** ** Labels are names. *)
Lemma digits_ident : forall n v, 0 <= v -> str_all is_ident_char (dec_digits n v) = true.
Proof.
  assert (D : forall d, 0 <= d < 10 -> is_ident_char (hex_digit d) = true).
  { intros d H. assert (C : In d [0;1;2;3;4;5;6;7;8;9]) by (cbn; lia). cbn [In] in C. repeat destruct C as [<-|C]; try contradiction; reflexivity. }
  assert (A : forall s t, str_all is_ident_char s = true -> str_all is_ident_char t = true -> str_all is_ident_char (String.append s t) = true).
  { induction s as [|c s IH]; intros t H T; [exact T|]. cbn [str_all String.append] in *. apply andb_true_iff in H. destruct H as [H1 H2]. rewrite H1, (IH _ H2 T). reflexivity. }
  induction n as [|n IH]; intros v V; [reflexivity|]. cbn [dec_digits]. destruct (Z.ltb_spec v 10).
  - cbn [str_all]. rewrite D by lia. reflexivity.
  - apply A; [apply IH; apply Z.div_pos; lia|]. cbn [str_all]. rewrite D by (apply Z.mod_pos_bound; lia). reflexivity.
Qed.
Local Transparent word_token.
Lemma numbered_ident : forall nl ne hi s, 0 <= nl -> 0 <= ne -> numbered nl ne hi s -> identifier s.
Proof.
  intros nl ne hi s A B (k & H).
  assert (DI : 0 <= k -> str_all is_ident_char (dec_string k) = true).
  { intros K. unfold dec_string. destruct (Z.ltb_spec k 0); [lia|]. apply digits_ident. exact K. }
  destruct H as [[R ->]|[R ->]]; generalize dependent (dec_string k); intros w DI.
  - exists "l"%char, (String.append "abel" w). split; [reflexivity|]. split; [reflexivity|]. split; [cbn [str_all String.append]; rewrite DI by lia; reflexivity|reflexivity].
  - exists "e"%char, (String.append "ntry" w). split; [reflexivity|]. split; [reflexivity|]. split; [cbn [str_all String.append]; rewrite DI by lia; reflexivity|reflexivity].
Qed.
Local Opaque word_token.

(** ** Sizes. *)
Lemma suffix_sized : forall i f, sfx_ok (i_mnem i) (i_suffix i) f -> suffix_agrees i f /\ (i_suffix i <> S_none -> flag_controlling_size (i_mnem i) <> NotVariable).
Proof.
  intros i f H. destruct (size_flag_lists (i_mnem i)) as [SM SX].
  destruct H as [H|H]; [unfold suffix_agrees; rewrite H; split; [exact I|congruence]|].
  unfold suffix_agrees. destruct (flag_controlling_size (i_mnem i)) eqn:F; [| |contradiction].
  - pose proof (proj2 SM eq_refl). split; [|discriminate]. destruct H as [[-> H]|[-> H]]; left; auto.
  - pose proof (proj2 SX eq_refl). split; [|discriminate]. destruct H as [[-> H]|[-> H]]; right; auto.
Qed.
Lemma carry_flags : forall i s s', i_mnem i = M_clc \/ i_mnem i = M_sec -> execute i s = Ok s' -> fl_m (es_flags s') = fl_m (es_flags s) /\ fl_x (es_flags s') = fl_x (es_flags s).
Proof.
  Local Transparent execute_in. intros i s s' M H. unfold execute, execute_in in H. bok H as u U. cbv zeta in H. clear U.
  destruct M as [M|M]; rewrite M in H; injection H as <-; auto. Local Opaque execute_in.
Qed.

(** ** The listing. *)
Definition variant (i k : instr) : Prop :=
  k = i \/ exists pm, k = i_with_mnem pm i /\ (i_mnem i = M_adc /\ pm = PM_add \/ i_mnem i = M_sbc /\ pm = PM_sub).
Lemma variant_same : forall i k, variant i k -> i_suffix k = i_suffix i /\ i_mode k = i_mode i /\ i_arg1 k = i_arg1 i /\ i_arg2 k = i_arg2 i /\ i_ret k = i_ret i /\
  flag_controlling_size (i_mnem k) = flag_controlling_size (i_mnem i) /\ (i_mnem i = hardware_mnemonic (i_mnem i) -> hardware_mnemonic (i_mnem k) = i_mnem i) /\
  (i_mnem i = M_jsl \/ i_mnem i = M_jsr -> i_mnem k = i_mnem i).
Proof.
  intros i k [->|(pm & -> & [[M ->]|[M ->]])]; repeat (split; [reflexivity|]).
  - split; [auto|reflexivity].
  - cbn [i_with_mnem i_mnem]. rewrite M. split; [reflexivity|]. split; [reflexivity|]. intros [X|X]; discriminate X.
  - cbn [i_with_mnem i_mnem]. rewrite M. split; [reflexivity|]. split; [reflexivity|]. intros [X|X]; discriminate X.
Qed.
Lemma small_cast : forall t v, t <> T_unknown -> Z.abs (cast_to t v) <= 2 ^ 24.
Proof.
  intros t v N. change (2 ^ 24) with 16777216.
  assert (A : 0 <= Z.land v 0xff < 256) by (change 0xff with (Z.ones 8); rewrite Z.land_ones by lia; apply Z.mod_pos_bound; lia).
  assert (B : 0 <= Z.land v 0xffff < 65536) by (change 0xffff with (Z.ones 16); rewrite Z.land_ones by lia; apply Z.mod_pos_bound; lia).
  assert (C : 0 <= Z.land v 0xffffff < 16777216) by (change 0xffffff with (Z.ones 24); rewrite Z.land_ones by lia; apply Z.mod_pos_bound; lia).
  destruct t; cbn [cast_to]; try contradiction; cbv zeta; try (match goal with |- context [if ?b then _ else _] => destruct b end); lia.
Qed.
Lemma small_operands : forall a rest x y, decode_operands a rest = Ok (x, y) ->
  (forall w t, x = Some (ELit w t) -> Z.abs w <= 2 ^ 24) /\ (forall w t, y = Some (ELit w t) -> Z.abs w <= 2 ^ 24).
Proof.
  Local Opaque cast_to. intros a rest x y D. destruct a; cbn [decode_operands] in D; destruct rest as [|b0 [|b1 [|b2 rest]]]; try discriminate D; injection D as <- <-; unfold mk_lit; split; intros w t E; try discriminate E; injection E as <- <-; apply small_cast; discriminate.
  Local Transparent cast_to.
Qed.
(** How an operand of a listing reads back: nothing, the same literal, or a name. *)
Definition arg_read (k e : option expr) : Prop :=
  k = None /\ e = None \/ (exists w t, k = Some (ELit w t) /\ e = Some (ELit w t) /\ Z.abs w <= 2 ^ 24) \/
  exists n t, e = Some (EId (FullId None n) t) /\ ((exists h, k = Some (ELabel n h)) \/ k = Some (EId (FullId None n) t)).
Lemma line_text : forall src rets q d a c3 m3 k g, conventions_ok rets -> readable rets -> byte_source src -> session src rets q d -> ds_sym d < 2 ^ 31 ->
  (forall a c3, In (a, c3) m3 -> di_label c3 <> ""%string -> numbered 0 0 (zlen (ds_map d)) (di_label c3)) ->
  (forall a c3, In (a, c3) m3 -> exists c, In (a, c) (ds_map d) /\ polished (ds_map d) m3 a c c3) ->
  In (a, c3) m3 -> i_mnem (di_instr c3) <> M_per -> variant (di_instr c3) k -> (forall bytes j, decode bytes (es_flags (di_cur c3)) = Ok j -> decode bytes g = Ok j) ->
  exists ts i i', tokenize (instr_to_string k) = Ok ts /\ parse ts = Ok [PStmt (SInstr i)] /\ fix_addressing_mode i g = Ok i' /\
    (suffix_agrees k g -> check_consistency i g = Ok tt) /\ suffix_agrees (di_instr c3) (es_flags (di_cur c3)) /\ i_mnem i' = i_mnem k /\ i_mode i' = i_mode k /\ i_suffix i = i_suffix k /\ i' = with_mode (i_mode k) i /\ i_ret i = rc_read (i_ret k) /\ arg_read (i_arg1 k) (i_arg1 i) /\
    forall ctx, eval_opt ctx (i_arg1 i') = eval_opt ctx (i_arg1 (as_read k)) /\ i_arg2 i' = i_arg2 k.
Proof.
  intros src rets q d a c3 m3 k g CO RDB BS S SY NB P IN NP V BG. destruct (P _ _ IN) as (c & INC & (P1 & P2 & P3 & P4 & P5 & P6 & P7 & PS & PL & PN)).
  destruct (session_maps _ _ _ _ CO BS S SY) as (SO & UL & _). pose proof (session_good _ _ _ _ CO S) as G.
  assert (KC : collected d a c) by (apply om_in_find; assumption).
  destruct (good_entry _ _ _ _ G _ _ KC) as [A EN]. pose proof EN as (l0 & j0 & far & v0 & RD0 & DE0 & _ & RE0 & _ & SC0 & _ & _ & SFX & _).
  destruct (entry_open _ _ _ _ _ BS A EN) as (op & rest & j & v & RD & B & R & DE & FA & RE & LO & SC & _).
  pose proof SC as (M & MD & A2 & A1). rewrite P1 in BG. pose proof (BG _ _ DE) as DG. destruct (variant_same _ _ V) as (V1 & V2 & V3 & V4 & V5 & V6 & V7 & V8).
  rewrite <- PS, <- P4 in SFX. destruct (suffix_sized _ _ SFX) as [SA SV].
  destruct (decode_mode_of op rest _ j R DE) as (MJ & OP & _ & _). destruct (decoded_literal _ _ _ _ R DE) as [L1 L2].
  destruct (plain_ops op R) as (_ & _ & PER & _). rewrite <- MJ in PER.
  assert (HM : hardware_mnemonic (i_mnem k) = i_mnem j) by (rewrite V7; [congruence|]; rewrite P4, M, MJ; symmetry; apply (decoded_size op S_none A_imp None None RC_default R)).
  assert (MK : i_mode k = i_mode j) by congruence.
  assert (RT : i_ret k <> RC_default -> i_mnem k = M_jsl \/ i_mnem k = M_jsr).
  { intros X. rewrite V5, P7, RE0 in X. destruct (decode_ret _ _ _ DE0) as [DR _]. unfold called in X. destruct SC0 as (M0 & _). destruct far as [t|]; [|congruence].
    assert (K : i_mnem j0 = M_jsl \/ i_mnem j0 = M_jsr) by (destruct (i_mnem j0); try congruence; auto).
    rewrite V8; rewrite P4, M0; exact K. }
  assert (RC : rc_ok (i_ret k)).
  { rewrite V5, P7, RE. unfold convention. destruct (direct_target a op rest) as [t|]; [|exact Logic.I]. destruct (in_names op _); [|exact Logic.I].
    destruct (om_find t rets) as [r|] eqn:F; [|exact Logic.I]. pose proof (RDB _ _ F) as X. destruct r as [|f|]; try exact Logic.I. cbn in *. destruct (fl_c f); try discriminate X; reflexivity. }
  assert (SK : i_suffix k <> S_none -> flag_controlling_size (i_mnem k) <> NotVariable) by (rewrite V1, V6; exact SV).
  assert (U2 : uses2 (i_mode j) = true -> read_back (i_arg2 k) (match i_arg2 j with Some e => e | None => ELit 0 T_byte end) /\ type_opt (Some (match i_arg2 j with Some e => e | None => ELit 0 T_byte end)) = type_opt (i_arg2 j)).
  { intros U. assert (MV : i_mode j = A_mov) by (destruct (i_mode j); try discriminate U; reflexivity).
    destruct (decoded_back _ _ _ _ OP) as [_ B2]; [rewrite MV; discriminate|rewrite MV; discriminate|rewrite MV; discriminate|rewrite MV; discriminate|]. rewrite U in B2. destruct B2 as (w & t & E2 & B2).
    rewrite V4, P6, A2. rewrite E2 in *. auto. }
  assert (ARG2 : (if uses2 (i_mode j) then Some (match i_arg2 j with Some e => e | None => ELit 0 T_byte end) else None) = i_arg2 k).
  { rewrite V4, P6, A2. destruct (uses2 (i_mode j)) eqn:U; [|destruct (i_mode j); try discriminate U; cbn [decode_operands] in OP; destruct rest as [|b0 [|b1 [|b2 r]]]; try discriminate OP; injection OP as _ OP; exact OP].
    destruct (i_mode j); try discriminate U. cbn [decode_operands] in OP. destruct rest as [|b0 [|b1 r]]; try discriminate OP. injection OP as _ OP. rewrite <- OP. reflexivity. }
  assert (FIN : forall e1, (uses1 (i_mode j) = true -> read_back (i_arg1 k) e1 /\ (is_relative op = false -> type_opt (Some e1) = type_opt (i_arg1 j))) ->
    (is_relative op = true -> exists n t, e1 = EId (FullId None n) t) ->
    (forall ctx, eval_opt ctx (if uses1 (i_mode j) then Some e1 else None) = eval_opt ctx (i_arg1 (as_read k))) ->
    arg_read (i_arg1 k) (if uses1 (i_mode j) then Some e1 else None) ->
    exists ts i i', tokenize (instr_to_string k) = Ok ts /\ parse ts = Ok [PStmt (SInstr i)] /\ fix_addressing_mode i g = Ok i' /\
    (suffix_agrees k g -> check_consistency i g = Ok tt) /\ suffix_agrees (di_instr c3) (es_flags (di_cur c3)) /\ i_mnem i' = i_mnem k /\ i_mode i' = i_mode k /\ i_suffix i = i_suffix k /\ i' = with_mode (i_mode k) i /\ i_ret i = rc_read (i_ret k) /\ arg_read (i_arg1 k) (i_arg1 i) /\
    forall ctx, eval_opt ctx (i_arg1 i') = eval_opt ctx (i_arg1 (as_read k)) /\ i_arg2 i' = i_arg2 k).
  { intros e1 B1 RL EV AR. destruct (reads_as op rest g j k e1 _ R DG HM MK RC RT SK B1 RL U2) as (ts & i & T & PA & IM & IS & IR & IMD & CC & FX & X1 & X2).
    exists ts, i, (with_mode (i_mode j) i). split; [exact T|]. split; [exact PA|]. split; [exact FX|]. split; [exact CC|]. split; [rewrite P1; exact SA|].
    unfold with_mode. cbn [i_mnem i_mode i_arg1 i_arg2]. split; [exact IM|]. split; [congruence|]. split; [exact IS|]. split; [rewrite MK; reflexivity|]. split; [exact IR|]. split; [rewrite X1; exact AR|]. intros ctx. split; [rewrite X1; apply EV|rewrite X2; exact ARG2]. }
  assert (LAB : forall b x3, In (b, x3) m3 -> di_label x3 <> ""%string -> identifier (di_label x3)) by (intros b x3 I3 L3; apply (numbered_ident 0 0 (zlen (ds_map d))); [lia|lia|]; eapply NB; eassumption).
  destruct (is_local_branch j) eqn:LB.
  - pose proof (proj1 (decode_local op rest _ j R DE) LB) as RB.
    destruct (closed _ _ _ _ _ _ CO BS S KC) as (op' & rest' & j' & n & RD' & DE' & KL & _ & CB & _). rewrite RD in RD'. injection RD' as <- <-. rewrite DE in DE'. injection DE' as <-.
    destruct (CB RB) as (t & x & BD & KX & LX & SH & _). destruct SH as (_ & _ & _ & SH & _). destruct (SH RB) as (e & _ & AE).
    apply om_find_in in KX. destruct (PL _ _ _ _ AE KX eq_refl LX) as (x3 & IX3 & LX3 & AX3).
    unfold is_local_branch in LB. apply andb_true_iff in LB. destruct LB as [LB _].
    apply (FIN (EId (FullId None (di_label x3)) T_word)).
    + intros _. rewrite V3, AX3. split; [apply back_label; eapply LAB; eassumption|]. intros RR. rewrite is_relative_mode in RR by exact R. exfalso.
      clear -LB RR DE R. rewrite decode_eq in DE. pose proof (decode_mode_length (es_flags (di_cur c)) op R) as L. destruct (decode_mode _ (snd (decode_opcode op))) as [a|]; [|discriminate DE]. bok DE as p E. destruct p. injection DE as <-. cbn [i_mode] in LB.
      destruct L as (_ & L & _). destruct (snd (decode_opcode op)); try discriminate RR; cbn [resolved_modes In] in L; repeat destruct L as [L|L]; try contradiction; subst a; discriminate LB.
    + eauto.
    + intros ctx. unfold as_read. cbn [i_arg1]. rewrite V3, AX3. destruct (i_mode j); try discriminate LB; reflexivity.
    + rewrite V3, AX3. destruct (i_mode j); try discriminate LB; right; right; do 2 eexists; (split; [reflexivity|eauto]).
  - assert (NRB : ~ relative_branch (i_mnem j)) by (intros X; apply (decode_local op rest _ j R DE) in X; congruence).
    assert (RL : is_relative op = false) by (destruct (is_relative op) eqn:X; [|reflexivity]; destruct NP; rewrite P4, M; apply PER; auto).
    assert (IL : is_label (i_arg1 (di_instr c)) = false) by (rewrite A1; destruct L1 as [X|(w & ty & X)]; rewrite X; reflexivity).
    assert (MM : i_mode j <> A_rel8 /\ i_mode j <> A_rel16 /\ i_mode j <> A_imm_fm /\ i_mode j <> A_imm_fx).
    { rewrite is_relative_mode in RL by exact R. pose proof DE as DE'. rewrite decode_eq in DE'. pose proof (decode_mode_length (es_flags (di_cur c)) op R) as L. destruct (decode_mode _ (snd (decode_opcode op))) as [b|]; [|discriminate DE'].
      bok DE' as p E. destruct p. injection DE' as <-. cbn [i_mode]. destruct L as (_ & L & L4 & L3). split; [|split; [|auto]]; intros ->;
        (destruct (snd (decode_opcode op)); try discriminate RL; cbn [resolved_modes In] in L; repeat destruct L as [L|L]; try contradiction; discriminate L). }
    destruct (PN IL) as [AE|(t & x3 & ty & FT & IX3 & LX3 & AE & TY)].
    + destruct (decoded_back _ _ _ _ OP) as [B1 _]; [tauto|tauto|tauto|tauto|].
      apply (FIN (match i_arg1 j with Some e => e | None => ELit 0 T_byte end)).
      * intros U. rewrite U in B1. destruct B1 as (w & t & E1 & B1). rewrite V3, AE, A1. rewrite E1 in *. auto.
      * congruence.
      * intros ctx. unfold as_read. cbn [i_arg1]. rewrite V3, AE, A1. destruct (uses1 (i_mode j)); [destruct B1 as (w & t & E1 & _); rewrite E1; reflexivity|rewrite B1; reflexivity].
      * rewrite V3, AE, A1. destruct (uses1 (i_mode j)); [destruct B1 as (w & t & E1 & _); rewrite E1; right; left; exists w, t; repeat (split; [reflexivity|]); rewrite E1 in OP; exact (proj1 (small_operands _ _ _ _ OP) _ _ eq_refl)|rewrite B1; left; auto].
    + apply (FIN (EId (FullId None (di_label x3)) ty)).
      * intros _. rewrite V3, AE. rewrite MD in TY. split; [apply back_name; [destruct TY as [[_ ->]|[_ ->]]; auto|eapply LAB; eassumption]|]. intros _. cbn [type_opt].
        destruct TY as [[TY ->]|[TY ->]]; rewrite TY in OP; cbn [decode_operands] in OP; destruct rest as [|b0 [|b1 [|b2 r]]]; try discriminate OP; injection OP as OP _; rewrite <- OP; reflexivity.
      * congruence.
      * intros ctx. unfold as_read. cbn [i_arg1]. rewrite V3, AE. rewrite MD in TY. destruct TY as [[TY _]|[TY _]]; rewrite TY; reflexivity.
      * rewrite V3, AE. rewrite MD in TY. destruct TY as [[TY _]|[TY _]]; rewrite TY; right; right; do 2 eexists; (split; [reflexivity|eauto]).
Qed.

Lemma decode_same : forall bytes f g, fl_m f = fl_m g -> fl_x f = fl_x g -> decode bytes f = decode bytes g.
Proof.
  intros [|op rest] f g M X; [reflexivity|]. rewrite !decode_eq. replace (decode_mode f (snd (decode_opcode op))) with (decode_mode g (snd (decode_opcode op))); [reflexivity|].
  destruct (snd (decode_opcode op)); cbn [decode_mode]; rewrite ?M, ?X; reflexivity.
Qed.
Lemma carry_below : forall src rets q d pc c, conventions_ok rets -> byte_source src -> session src rets q d -> collected d pc c ->
  i_mnem (di_instr c) = M_clc \/ i_mnem (di_instr c) = M_sec -> exists x, collected d (same_bank_plus pc 1) x /\
    forall bytes j, decode bytes (es_flags (di_cur x)) = Ok j -> decode bytes (es_flags (di_cur c)) = Ok j.
Proof.
  intros src rets q d pc c CO BS S K M. pose proof (session_good _ _ _ _ CO S) as G. destruct (carry_next _ _ _ _ _ _ CO BS S K M) as (x & _ & KX & _). exists x. split; [exact KX|].
  destruct (good_entry _ _ _ _ G _ _ K) as [A EN]. destruct (entry_open _ _ _ _ _ BS A EN) as (op & rest & j & v & RD & B & R & DE & FA & RE & LO & SC & C1 & C2 & EX).
  destruct (decode_mode_of op rest _ j R DE) as (MJ & OP & DM & _). pose proof SC as (MM & MD & _). destruct (plain_ops op R) as (P1 & P2 & _). rewrite <- MJ, <- MM in P1, P2.
  assert (RET : i_ret (di_instr c) = RC_default).
  { rewrite RE. unfold convention. destruct (direct_target pc op rest) as [t|] eqn:DT; [|reflexivity]. pose proof (far_kind _ _ _ FA) as FK. rewrite <- MM in FK. cbn [In] in FK.
    destruct M as [M|M]; rewrite M in FK; repeat destruct FK as [FK|FK]; try discriminate FK; contradiction. }
  assert (NS : ~ stops (di_instr c)).
  { intros [X|X]; [|rewrite RET in X; discriminate X]. cbn [In] in X. destruct M as [M|M]; rewrite M in X; repeat destruct X as [X|X]; try discriminate X; contradiction. }
  destruct (good_leads _ _ _ _ G pc c _ _ K (or_introl (conj (next_falls _ NS) (conj eq_refl eq_refl)))) as (y & F & BL). rewrite add_wrapped_spec in F by exact A.
  assert (N : instruction_length (i_mode (di_instr c)) = 1).
  { Local Transparent decode_opcode. assert (Y : i_mode j = A_imp) by (destruct M as [M|M]; [pose proof (P1 M) as ->|pose proof (P2 M) as ->]; apply DM; vm_compute; congruence). Local Opaque decode_opcode. rewrite MD, Y. reflexivity. }
  rewrite N in F. unfold collected in KX. rewrite KX in F. injection F as <-. apply below_flags in BL.
  assert (SAME : fl_m (es_flags (di_next c)) = fl_m (es_flags (di_cur c)) /\ fl_x (es_flags (di_next c)) = fl_x (es_flags (di_cur c))).
  { destruct EX as [(sfx & EX)|(nx & EX & ->)]; [apply (carry_flags (i_with_suffix sfx (di_instr c)) _ _ M EX)|]. rewrite RET. assert (X : after_call (direct_target pc op rest) RC_default nx = nx) by (destruct (direct_target pc op rest); reflexivity). rewrite X.
    apply (carry_flags j); [rewrite <- MM; exact M|exact EX]. }
  intros bytes i DI. rewrite <- (decode_same bytes _ _ (proj1 SAME) (proj2 SAME)). eapply decode_stronger; [|exact BL|exact DI]. apply C2.
Qed.
Lemma listing_text : forall src rets q d d' ctx pc c, conventions_ok rets -> readable rets -> byte_source src -> session src rets q d -> ds_sym d < 2 ^ 31 -> within_banks d' -> cleanup d = Ok d' ->
  SpecListing.knows ctx d' -> collected d' pc c -> i_mnem (di_instr c) <> M_per ->
  exists ts i i' l, tokenize (instr_to_string (di_instr c)) = Ok ts /\ parse ts = Ok [PStmt (SInstr i)] /\
    (i_mnem (di_instr c) <> PM_add -> i_mnem (di_instr c) <> PM_sub -> check_consistency i (es_flags (di_cur c)) = Ok tt) /\
    fix_addressing_mode i (es_flags (di_cur c)) = Ok i' /\ instr_bytes pc ctx i' = Ok l /\ holds src pc l.
Proof.
  intros src rets q d d' ctx pc c CO RDB BS S SY WB CL KN KC NP. destruct (listing _ _ _ _ _ _ _ _ CO BS S SY WB CL KN KC NP) as (l & IB & HO).
  destruct (cleanup_open _ _ _ _ _ CO BS S SY CL) as (m3 & E & K & U & NB & P). destruct (session_maps _ _ _ _ CO BS S SY) as (SO & UL & _).
  pose proof (keys_sorted _ _ _ _ K SO) as SO3. destruct (fold_spec (List.length m3) m3 ltac:(lia) SO3) as (F1 & F2 & F3). pose proof (session_good _ _ _ _ CO S) as G.
  assert (FIN : forall a c3, In (a, c3) m3 -> i_mnem (di_instr c3) <> M_per -> variant (di_instr c3) (di_instr c) ->
     (forall bytes j, decode bytes (es_flags (di_cur c3)) = Ok j -> decode bytes (es_flags (di_cur c)) = Ok j) ->
     (i_mnem (di_instr c) <> PM_add -> i_mnem (di_instr c) <> PM_sub -> c = c3) ->
     exists ts i i' l, tokenize (instr_to_string (di_instr c)) = Ok ts /\ parse ts = Ok [PStmt (SInstr i)] /\
    (i_mnem (di_instr c) <> PM_add -> i_mnem (di_instr c) <> PM_sub -> check_consistency i (es_flags (di_cur c)) = Ok tt) /\
    fix_addressing_mode i (es_flags (di_cur c)) = Ok i' /\ instr_bytes pc ctx i' = Ok l /\ holds src pc l).
  { intros a c3 IN N3 V DC EQ. destruct (line_text _ _ _ _ _ _ _ (di_instr c) (es_flags (di_cur c)) CO RDB BS S SY NB P IN N3 V DC) as (ts & i & i' & T & PA & FX & CC & SA & IM & IMD & _ & _ & _ & _ & EV).
    exists ts, i, i', l. split; [exact T|]. split; [exact PA|]. split; [intros X1 X2; apply CC; rewrite (EQ X1 X2); exact SA|]. split; [exact FX|]. split; [|exact HO].
    rewrite <- IB. destruct (EV ctx) as [E1 E2]. apply bytes_cong; [exact IM|exact IMD|exact E1|rewrite E2; reflexivity]. }
  pose proof KC as KC'. unfold collected in KC. rewrite E in KC. pose proof (om_find_in _ _ _ _ KC) as IN0. destruct (F2 _ _ IN0) as [IN|(c3 & b & x3 & pm & AD & FM & LX & EC & NI)].
  - apply (FIN pc c IN NP); [left; reflexivity|auto|auto].
  - apply fused_pair in FM. assert (IC : In (pc, c3) m3) by (destruct AD as (l1 & l2 & ->); apply in_or_app; right; left; reflexivity).
    assert (IX : In (b, x3) m3) by (destruct AD as (l1 & l2 & ->); apply in_or_app; right; right; left; reflexivity).
    destruct (P _ _ IC) as (c0 & INC & (Q1 & _ & _ & P4 & _)). assert (KC0 : collected d pc c0) by (apply om_in_find; assumption).
    assert (MM : i_mnem (di_instr c0) = M_clc \/ i_mnem (di_instr c0) = M_sec) by (rewrite <- P4; destruct FM as [(X & _)|(X & _)]; auto).
    destruct (carry_below _ _ _ _ _ _ CO BS S KC0 MM) as (y & KY & DY).
    assert (BE : b = same_bank_plus pc 1).
    { destruct (good_entry _ _ _ _ G _ _ KC0) as [A _]. rewrite (next_byte pc A (WB pc c KC' ltac:(rewrite EC; cbn [fuse di_instr i_with_mnem i_mnem]; destruct FM as [(_ & _ & X)|(_ & _ & X)]; auto))) in *. apply om_find_in in KY. destruct (key_in _ _ m3 _ _ _ K KY) as (z & Z0). exact (sorted_between m3 pc c3 b x3 SO3 AD z Z0). }
    destruct (P _ _ IX) as (x0 & INX & (R1 & _)). assert (X0 : x0 = y). { assert (Z : om_find b (ds_map d) = Some x0) by (apply om_in_find; assumption). unfold collected in KY. rewrite BE, KY in Z. congruence. }
    apply (FIN b x3 IX).
    + destruct FM as [(_ & X & _)|(_ & X & _)]; rewrite X; discriminate.
    + right. exists pm. rewrite EC. split; [reflexivity|]. destruct FM as [(_ & X & Y)|(_ & X & Y)]; auto.
    + intros bytes j DJ. rewrite EC. cbn [fuse di_cur]. rewrite Q1. apply DY. rewrite <- X0, <- R1. exact DJ.
    + rewrite EC. cbn [fuse di_instr i_with_mnem i_mnem]. destruct FM as [(_ & _ & X)|(_ & _ & X)]; rewrite X; congruence.
Qed.
