(** Proofs that the line shown for a PER instruction cannot be read. *)
From Verif Require Import Base ModelNumeric ModelAddress ModelMnemonic ModelExpr ModelAMode ModelOpcode ModelState ModelInstr ModelToken ModelStatement ModelParse ModelMap ModelModule ModelAssembler ModelRom ModelDisasm
  SpecArith SpecText SpecInstr SpecState SpecLayout SpecAssemble SpecFlow SpecDisasm SpecListing BaseProofs MapProofs ArithProofs InstrProofs TokenProofs ParseProofs ScopeProofs ProgramProofs
  DisInvProofs DisStepProofs DisRunProofs DisRequestProofs DisClosedProofs CleanProofs PrintProofs ListTextProofs ReassembleProofs ModelTools ToolTextProofs.
From Verif Require SpecScope.
Open Scope string_scope.
Open Scope list_scope.
Open Scope Z_scope.

(** ** The text. *)
Definition per_text (v : Z) : string := ("per " ++ dec_string v)%string.
Definition per_fails (v : Z) : bool :=
  match tokenize (per_text v) with
  | Ok (TMnem M_per :: ts) => match parse_instruction (TMnem M_per :: ts) with Err _ => true | _ => false end
  | _ => false
  end.
Fixpoint all_from (p : Z -> bool) (n : nat) (v : Z) : bool := match n with O => true | S n => p v && all_from p n (v + 1) end.
Lemma all_from_spec : forall p n v x, all_from p n v = true -> v <= x < v + Z.of_nat n -> p x = true.
Proof.
  induction n as [|n IH]; intros v x H R; [lia|]. cbn [all_from] in H. apply andb_true_iff in H. destruct H as [H1 H2].
  destruct (Z.eq_dec x v) as [->|N]; [exact H1|]. apply (IH (v + 1)); [exact H2|lia].
Qed.
Definition per_row (h : Z) : bool := all_from (fun l => per_fails (256 * h + l)) 256 0.
Lemma per_rows : all_from per_row 256 (-128) = true.
Proof. vm_cast_no_check (eq_refl true). Qed.
Lemma per_never : forall v, - 2 ^ 15 <= v < 2 ^ 15 -> per_fails v = true.
Proof.
  intros v R.
  assert (B : -128 <= v / 256 < -128 + Z.of_nat 256) by (change (2 ^ 15) with 32768 in R; change (Z.of_nat 256) with 256; Z.div_mod_to_equations; lia).
  assert (C : 0 <= v mod 256 < 0 + Z.of_nat 256) by (change (Z.of_nat 256) with 256; Z.div_mod_to_equations; lia).
  rewrite (Z_div_mod_eq_full v 256). exact (all_from_spec _ _ _ _ (all_from_spec _ _ _ _ per_rows B) C).
Qed.
Lemma per_tokens : forall v, - 2 ^ 15 <= v < 2 ^ 15 -> exists ts e, tokenize (per_text v) = Ok (TMnem M_per :: ts) /\ parse_instruction (TMnem M_per :: ts) = Err e.
Proof.
  intros v R. pose proof (per_never v R) as H. unfold per_fails in H. destruct (tokenize (per_text v)) as [[|t ts]|e|u|]; try discriminate H.
  destruct t; try discriminate H. destruct m; try discriminate H. destruct (parse_instruction _) as [x|e|u|] eqn:E; try discriminate H. exists ts, e. auto.
Qed.
Local Opaque decode_opcode check_consistency parse_instruction parse_directive tokenize instr_to_string dec_string encode_opcode execute_in execute_branch.
Lemma per_parse : forall l ts e, parse_instruction (TMnem M_per :: ts) = Err e -> parse (label_tokens l ++ TMnem M_per :: ts) = Err e.
Proof.
  intros l ts e H.
  assert (G : forall f acc, parse_loop (S f) acc (TMnem M_per :: ts) = Err e).
  { intros f acc. rewrite parse_loop_eq. change (p_label (TMnem M_per :: ts)) with (Ok (@nil parsed, TMnem M_per :: ts, false)). cbn [bind]. unfold stmt_part. cbn [front bind tok_at_end].
    change (is_char "{" (TMnem M_per) || is_char "}" (TMnem M_per)) with false. cbn [tok_dir tok_mnem]. rewrite H. reflexivity. }
  unfold parse, label_tokens. destruct (String.eqb l ""); [apply G|]. cbn [app List.length]. rewrite parse_loop_eq. change (p_label (TIdent l :: punct ":" :: TMnem M_per :: ts)) with (Ok ([PLabel l false], TMnem M_per :: ts, true)).
  cbn [bind]. apply G.
Qed.
Definition per_line (c : dinstr) (v : Z) : Prop := instr_to_string (di_instr c) = per_text v.
Lemma per_unread : forall m a c v src, In (a, c) m -> (di_label c <> "" -> identifier (di_label c)) -> - 2 ^ 15 <= v < 2 ^ 15 -> per_line c v -> ~ SpecScope.reads (listing m) src.
Proof.
  intros m a c v src IN I R PL (ess & F & _). destruct (per_tokens v R) as (ts & e & T & P).
  set (line := fun l => (pad_right 35 (pad_right 8 (label_text l) ++ " " ++ instr_to_string (di_instr c)) ++ " ; " ++ address_to_string a ++ " " ++ flags_to_string (es_flags (di_next c)))%string).
  assert (B : forall l, (l <> "" -> identifier l) -> tokenize (line l) = Ok (label_tokens l ++ TMnem M_per :: ts)).
  { intros l IL. unfold line. rewrite shown_tokens. apply label_lex; [exact IL|]. rewrite PL. exact T. }
  assert (L : exists l, (l <> "" -> identifier l) /\ In (line l) (listing m)).
  { assert (G : forall m pc, In (a, c) m -> exists l, (l <> "" -> identifier l) /\ In (line l) (listing_lines pc m)).
    { clear - I. induction m as [|[b x] m IH]; intros pc IN; [destruct IN|]. cbn [listing_lines]. destruct IN as [X|IN].
      - injection X as -> ->. unfold entry_lines. fold (label_text (di_label c)). destruct (di_entry c).
        + exists "". split; [congruence|]. apply in_or_app. right. apply in_or_app. left. right. left. reflexivity.
        + exists (di_label c). split; [exact I|]. apply in_or_app. right. apply in_or_app. left. left. reflexivity.
      - destruct (IH (add_wrapped b (instr_size (di_instr x))) IN) as (l & IL & LI). exists l. split; [exact IL|]. apply in_or_app. right. apply in_or_app. right. exact LI. }
    destruct m as [|[b x] m]; [destruct IN|]. destruct (G _ b IN) as (l & IL & LI). exists l. split; [exact IL|]. right. right. exact LI. }
  destruct L as (l & IL & L). pose proof (B l IL) as TL. pose proof (per_parse l ts e P) as PE. clear - F L TL PE.
  induction F as [|x es file ess (ts' & T' & P') F IH]; [destruct L|]. destruct L as [->|L]; [congruence|auto].
Qed.

(** ** The instruction. *)
Local Transparent decode_opcode.
Lemma per_opcode : forall op, 0 <= op < 256 -> fst (decode_opcode op) = M_per -> snd (decode_opcode op) = A_rel16.
Proof.
  intros op R. assert (T : forallb (fun op => negb (mnem_eqb (fst (decode_opcode op)) M_per) || (match snd (decode_opcode op) with A_rel16 => true | _ => false end)) (map Z.of_nat (seq 0 256)) = true) by (vm_compute; reflexivity).
  pose proof (forall_opcodes _ T op R) as H. cbv beta in H. intros E. rewrite E in H. change (mnem_eqb M_per M_per) with true in H. revert H. generalize (snd (decode_opcode op)). intros a H. destruct a; try discriminate H. reflexivity.
Qed.
Local Opaque decode_opcode.
Local Transparent instr_to_string.
Lemma per_shown : forall src rets q d d' a c, conventions_ok rets -> byte_source src -> session src rets q d -> ds_sym d < 2 ^ 31 -> cleanup d = Ok d' ->
  In (a, c) (ds_map d') -> i_mnem (di_instr c) = M_per -> exists v, - 2 ^ 15 <= v < 2 ^ 15 /\ per_line c v.
Proof.
  intros src rets q d d' a c CO BS S SY CL IN PM. destruct (cleanup_open _ _ _ _ _ CO BS S SY CL) as (m3 & E & K & U & NB & P). destruct (session_maps _ _ _ _ CO BS S SY) as (SO & UL & _).
  pose proof (keys_sorted _ _ _ _ K SO) as SO3. destruct (fold_spec (List.length m3) m3 ltac:(lia) SO3) as (F1 & F2 & F3). pose proof (session_good _ _ _ _ CO S) as G.
  rewrite E in IN. destruct (F2 _ _ IN) as [I3|(c3 & b & x3 & pm & AD & FM & LX & EC & NI)].
  2:{ exfalso. rewrite EC in PM. unfold fuse in PM. cbn in PM. unfold fused_mnemonic in FM. destruct (i_mnem (di_instr c3)); try discriminate FM; destruct (i_mnem (di_instr x3)); try discriminate FM; injection FM as <-; discriminate PM. }
  destruct (P _ _ I3) as (c0 & I0 & (P1 & P2 & P3 & P4 & P5 & P6 & P7 & PS & PL & PN)).
  assert (KC : collected d a c0) by (apply om_in_find; assumption). destruct (good_entry _ _ _ _ G _ _ KC) as [A EN].
  destruct EN as (l & j & far & v & RD & DE & FA & RE & _ & SC & _ & _ & SFX & _). destruct SC as (M & MD & A2 & A1).
  pose proof (BS _ _ _ RD) as B. destruct l as [|op rest]; [discriminate DE|]. inversion B as [|? ? R Br]; subst.
  destruct (decode_mode_of op rest _ j R DE) as (MJ & OP & MM & _). assert (PJ : i_mnem j = M_per) by congruence.
  assert (MR : i_mode j = A_rel16) by (apply MM; [apply per_opcode; [exact R|congruence]|discriminate|discriminate]).
  assert (LB : is_local_branch j = false) by (unfold is_local_branch; rewrite MR, PJ; reflexivity). rewrite LB in A1.
  rewrite MR in OP. cbn [decode_operands] in OP. destruct rest as [|b0 [|b1 r]]; try discriminate OP. injection OP as O1 O2.
  assert (AE : i_arg1 (di_instr c) = i_arg1 j).
  { destruct PN as [X|(t & y & ty & FT & _)]; [rewrite A1, <- O1; reflexivity|congruence|]. apply far_kind in FT. rewrite <- P4, PM in FT. cbn in FT. intuition discriminate. }
  assert (SX : i_suffix (di_instr c) = S_none).
  { rewrite <- PS, <- P4 in SFX. destruct (suffix_sized _ _ SFX) as [_ SV]. destruct (i_suffix (di_instr c)); try reflexivity; (exfalso; apply SV; [discriminate|rewrite PM; reflexivity]). }
  assert (RX : i_ret (di_instr c) = RC_default).
  { rewrite P7, RE. destruct (decode_ret _ _ _ DE) as [DR _]. unfold DisStepProofs.called. destruct far as [t|]; [|exact DR]. rewrite PJ. exact DR. }
  eexists. split; cycle 1.
  - unfold per_line, instr_to_string. rewrite PM, SX, RX, P5, MD, MR, AE, <- O1. cbn [args_to_string suffix_to_string rc_to_suffix expr_opt_to_string mk_lit expr_to_string]. 
    change (mnem_to_string M_per) with "per". rewrite sapp_nil_r. cbn [String.append]. unfold per_text. cbn [String.append]. unfold lit_to_string. reflexivity.
  - match goal with |- _ <= cast_to T_signed_word ?x < _ => destruct (cast_full T_signed_word x) as [CT _]; generalize dependent (cast_to T_signed_word x); intros z CT; cbn in CT; lia end.
Qed.
