From Verif Require Import Base ModelNumeric ModelMnemonic ModelExpr ModelAMode ModelOpcode ModelState ModelInstr ModelToken ModelStatement ModelParse ModelOpcodeMap
  SpecArith SpecText Spec65816 SpecInstr SpecSafe SpecShow SpecOpcodeMap InstrProofs ModeProofs TokenProofs ParseProofs PrintProofs ShowProofs ShowExactProofs.
Open Scope list_scope.
Open Scope Z_scope.
Local Opaque decode_opcode deduce_mode.

(** Reading back the line of the test. *)
Definition read_arg1 (a : amode) (v : Z) (name : string) : expr :=
  match a with
  | A_rel8 | A_rel16 => EId (FullId None name) T_word
  | A_imm_fm | A_imm_fx => if v <? 0 then EUn Op_neg (ELit (- v) T_unknown) else ELit v T_unknown
  | _ => mk_lit v (arg1_type a)
  end.
Lemma cast_byte : forall v, cast_to T_byte v = v mod 2 ^ 8.
Proof. intros v. exact (Z.land_ones v 8 ltac:(lia)). Qed.
Lemma cast_word : forall v, cast_to T_word v = v mod 2 ^ 16.
Proof. intros v. exact (Z.land_ones v 16 ltac:(lia)). Qed.
Lemma cast_long : forall v, cast_to T_long v = v mod 2 ^ 24.
Proof. intros v. exact (Z.land_ones v 24 ltac:(lia)). Qed.
Lemma back_mk : forall v t, t = T_byte \/ t = T_word \/ t = T_long -> read_back (Some (mk_lit v t)) (mk_lit v t).
Proof. intros v t T. apply back_lit; [exact T|]. apply cast_twice. tauto. Qed.
Lemma back_negative : forall v, int_min < v < 0 -> read_back (Some (ELit v T_unknown)) (EUn Op_neg (ELit (- v) T_unknown)).
Proof.
  intros v V. exists [punct "-"; TLit (- v) T_unknown]. split; [|split; reflexivity]. cbn [expr_opt_to_string expr_to_string].
  unfold lit_to_string, dec_string. cbn [cast_to]. destruct (Z.ltb_spec v 0); [|lia].
  pose proof (lex_dec (- v)) as L. unfold lit_to_string, dec_string in L. cbn [cast_to] in L. destruct (Z.ltb_spec (- v) 0); [lia|].
  destruct (dec_head 20 (- v) ltac:(lia) ltac:(lia)) as (c & s & E & N). rewrite E in *. intros r ts EW T. cbn [String.append]. rewrite lex_minus.
  - change (String c (s ++ r)) with ((String c s) ++ r)%string. rewrite (L ltac:(unfold int_min, int_max in *; lia) r ts EW T). reflexivity.
  - cbn. destruct (Ascii.eqb_spec c "-"); [contradiction|reflexivity].
Qed.
Lemma table_reads : forall op v w name, 0 <= op < 256 -> int_min < v <= int_max -> tokenize name = Ok [TIdent name; TEol] ->
  exists i, read_as (test_line op v w name) [PStmt (SInstr i)] /\
    mnem_to_string (i_mnem i) = op_name op /\ form_of (i_mode i) = op_form op /\ i_suffix i = S_none /\ i_ret i = RC_default /\
    match op_form op with
    | Imp | Acc => i_arg1 i = None
    | Rel8 | Rel16 => i_arg1 i = Some (EId (FullId None name) T_word)
    | fm => forall ctx, eval_opt ctx (i_arg1 i) = Ok (match form_bits fm with Some b => v mod 2 ^ b | None => v end)
    end /\
    (op_form op = Blk -> forall ctx, eval_opt ctx (i_arg2 i) = Ok (w mod 2 ^ 8)).
Proof.
  intros op v w name R V I0. pose proof (tokens_ok _ _ I0) as I. apply Forall_inv in I. cbn in I. destruct (decode_table op R) as [N F]. assert (H : hardware_mnemonic (fst (decode_opcode op)) = fst (decode_opcode op)) by (apply (decoded_size op S_none A_imp None None RC_default R)).
  unfold test_line. destruct (decode_opcode op) as [m a] eqn:D. cbn [fst snd] in *.
  pose (i0 := Instr m S_none a (test_arg1 a v name) (test_arg2 a w) RC_default).
  assert (B1 : uses1 a = true -> read_back (i_arg1 i0) (read_arg1 a v name)).
  { intros U. cbn [i_arg1 i0]. destruct a; try discriminate U; cbn [test_arg1 read_arg1 arg1_type]; try (apply back_mk; tauto); try (apply back_name; auto; fail).
    all: destruct (Z.ltb_spec v 0); [apply back_negative; lia|].
    all: exists [TLit v T_unknown]; split; [apply lex_dec; lia|split; reflexivity]. }
  assert (B2 : uses2 a = true -> read_back (i_arg2 i0) (mk_lit w T_byte)).
  { intros U. cbn [i_arg2 i0]. destruct a; try discriminate U. apply back_mk. tauto. }
  pose (e := args_of a (Some (read_arg1 a v name)) (Some (mk_lit w T_byte))).
  assert (DM : deduce_mode m (syntax a) (fst e) (snd e) = Ok a).
  { apply deduce_exact. split; [exists op; rewrite H; auto|]. split; [apply syntax_in|].
    destruct a; cbn; try exact Logic.I; try reflexivity; try (left; reflexivity); try (split; left; reflexivity); eexists; eexists; reflexivity. }
  destruct (instr_read i0 _ _ a B1 B2 Logic.I ltac:(cbn; congruence) ltac:(cbn; congruence) DM) as (ts & T & P).
  exists (Instr m S_none a (fst e) (snd e) RC_default). split.
  { exists ts. split; [|exact P]. rewrite <- T. f_equal. unfold instr_to_string. cbn [i_mnem i_suffix i_mode i_arg1 i_arg2 i_ret i0 rc_to_suffix suffix_to_string]. cbn [String.append].
    f_equal. symmetry. apply TokenProofs.sapp_nil_r. }
  split; [exact N|]. split; [exact F|]. split; [reflexivity|]. split; [reflexivity|]. rewrite <- F. cbn [i_arg1 i_arg2].
  split; [|destruct a; try discriminate; intros _ ctx; cbn; rewrite <- cast_byte; reflexivity].
  destruct a; cbn [form_of form_bits]; try reflexivity; intros ctx; cbn; rewrite <- ?cast_byte, <- ?cast_word, <- ?cast_long; try reflexivity.
  all: destruct (Z.ltb_spec v 0); cbn; [|reflexivity]; unfold int_result, in_int; unfold int_min, int_max in *.
  all: replace (- - v) with v by lia; destruct (Z.leb_spec (-2147483648) v); [|lia]; destruct (Z.leb_spec v 2147483647); [reflexivity|lia].
Qed.
