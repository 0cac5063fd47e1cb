(** Properties of the messages about a line of source. *)
From Verif Require Import BaseProofs ModelNumeric ModelMnemonic ModelExpr ModelAMode ModelOpcode
  ModelState ModelInstr ModelToken ModelStatement ModelParse ModelAddress ModelMap ModelRom ModelTools ModelLocation ModelRomText ModelInteractive
  ModelParseText SpecText SpecParseText ParseTextProofs BlameProofs AdviceProofs.
Open Scope string_scope.
Open Scope list_scope.
Open Scope Z_scope.

(** C75.  The reader with messages is the reader of the other properties: it accepts the same lines as the same, and refuses
    the same lines for the same kind of reason. *)
Theorem C75_same : forall l s ts, bare (t_tokenize l s) = tokenize s /\ bare (t_parse l ts) = parse ts.
Proof. exact (fun l s ts => conj (bare_tokenize l s) (bare_parse l ts)). Qed.
Example C75_same_case : let l := Loc "main.asm" NoOffset in
  bare (t_line l "start: lda (0x10), y") = Ok [PLabel "start" false; PStmt (SInstr (Instr M_lda S_none A_ind_by (Some (ELit 16 T_byte)) None RC_default))] /\
  bare (t_line l "lda (0x10), q") = Err E_parse.
Proof. vm_compute. split; reflexivity. Qed.
Print Assumptions C75_same.

(** C75.  A line that cannot be split into tokens: the message has the place of the line and quotes the part of the line that
    cannot be read, which is a character or a whole word after a dot. *)
Theorem C75_characters : forall l s e, t_tokenize l s = PErr e -> re_kind e = E_token /\ re_loc e = loc_update no_location l /\
  exists pre part post, s = (pre ++ part ++ post)%string /\ unreadable post part (re_text e).
Proof. exact (fun l s => tokens_says l (S (String.length s)) s). Qed.
Example C75_characters_case :
  t_answer "lda !3" = POk ["Unexpected character '!' in input"] /\ t_answer "lda.q 3" = POk ["Unrecognized dotted name '.q' in input"] /\
  t_answer "lda $g" = POk ["Unexpected character '$' in input"].
Proof. vm_compute. repeat split; reflexivity. Qed.
Print Assumptions C75_characters.

(** C75.  A line that cannot be understood: there is a token such that the message is about it or about what stands before it,
    as [about_line] says, and that the message does not depend on what stands behind it. *)
Theorem C75_line : forall l ts e, t_parse l ts = PErr e ->
  exists pre t post, ts = pre ++ t :: post /\ about_line pre t (re_kind e) (re_text e) /\
    forall post', ended (pre ++ t :: post') -> t_parse l (pre ++ t :: post') = PErr e.
Proof. exact parse_near. Qed.
(* what is printed for some lines *)
Example C75_line_case : map t_answer
    ["lda (3"; "lda (0x10)) : nop"; "foo: .db 1, 2 3"; "export nop"; "adc [3], x : nop"; "sta #1"; "clc.b"; "nop noreturn"; ".entry q8"; ".org q"; ".module 3 + 4"; "jsr 0x8000 yields m8 x"; "lda 1 + * 2";
     "foo: 17"; "rep n::nop"]
  = map (fun text => POk [text])
    ["Expected expression, found end of line"; "Expected comma or end of line, found symbol `)`"; "Expected comma or end of line, found literal 3"; "Expected label name after `export` keyword but found mnemonic nop";
     "Register X cannot be used with indirect long indexing"; "sta does not take an immediate value as an argument"; "Instruction `clc` does not support a length suffix";
     "return calling convention not supported on instruction nop"; """q8"" does not name a flag state"; ".ORG directive requires a constant value argument"; ".MODULE directive requires a simple name argument";
     "logic error: ParseInstruction() did not read to a line end"; "Expected expression, found symbol `*`"; "Expected mnemonic or directive but found literal 17"; "Expected identifier after '::', found mnemonic nop"].
Proof. vm_compute. reflexivity. Qed.
Print Assumptions C75_line.

(** That the message shows some token of the line is refuted: the name of a directive is printed as "logic error?". *)
Theorem C75_shown_refuted : ~ (forall l ts e, t_parse l ts = PErr e -> re_kind e = E_parse -> exists t, In t ts /\ mentions (re_text e) (shown t)).
Proof.
  intros H. destruct (H no_location [TMnem M_lda; TDir D_db; TEol] _ eq_refl eq_refl) as (t & I & M). apply mentions_within in M. revert M.
  destruct I as [<-|[<-|[<-|[]]]]; vm_compute; discriminate.
Qed.
Example C75_shown_refuted_case : tokenize "lda .db" = Ok [TMnem M_lda; TDir D_db; TEol] /\ t_answer "lda .db" = POk ["Expected expression, found logic error?"].
Proof. vm_compute. split; reflexivity. Qed.
Print Assumptions C75_shown_refuted.

(** C75.  What a message about an operand advises is right: an operand of the size that it asks for is taken, a branch takes a
    name, an instruction that requires arguments can be given some, and what it is said not to take it never takes. *)
Theorem C75_advice : forall l m sfx s a1 a2 e, t_create_instruction l m sfx s a1 a2 = PErr e -> re_kind e = E_no_mode ->
  (forall tail ty v, In (tail, ty) requests -> ends (re_text e) tail -> exists i, t_create_instruction l m S_none s (Some (ELit v ty)) a2 = POk i) /\
  (ends (re_text e) " must be bytes" -> forall v w, exists i, t_create_instruction l m S_none s (Some (ELit v T_byte)) (Some (ELit w T_byte)) = POk i) /\
  (ends (re_text e) " requires a named branch target." -> forall name, exists i, t_create_instruction l m S_none SA_dir (Some (EId (FullId None name) T_word)) None = POk i) /\
  (ends (re_text e) " requires arguments" -> s = SA_imp /\ exists s' b1 b2 i, s' <> SA_imp /\ t_create_instruction l m S_none s' b1 b2 = POk i) /\
  (mentions (re_text e) " does not take " -> forall sfx' b1 b2 i, t_create_instruction l m sfx' s b1 b2 <> POk i).
Proof. exact advised. Qed.
Example C75_advice_case : map t_answer ["lda (0x1234)"; "jmp 0x10"; "mvn #1, #0x1234"; "bne 0x10"; "jsr"; "sta #1"; "pei (0x10), y"]
  = map (fun text => POk [text])
    ["Indirect address argument to lda must be a byte"; "Direct address argument to jmp must be a word or long"; "Page arguments to mvn must be bytes"; "Branch instruction bne requires a named branch target.";
     "jsr requires arguments"; "sta does not take an immediate value as an argument"; "pei does not take an indirect indexed address as an argument"].
Proof. vm_compute. reflexivity. Qed.
Print Assumptions C75_advice.

(** That an operand of some size is taken when the message asks for an explicit size is refuted: NOP takes none. *)
Theorem C75_advice_refuted : ~ (forall l m sfx s a1 a2 e, t_create_instruction l m sfx s a1 a2 = PErr e -> ends (re_text e) " must have an explicit size" ->
  exists b1 i, t_create_instruction l m S_none s b1 a2 = POk i).
Proof.
  intros H. destruct (H no_location M_nop S_none SA_dir (Some (ELit 16 T_unknown)) None _ eq_refl) as (b1 & i & B).
  - exists "Address argument to nop". reflexivity.
  - unfold t_create_instruction, deduce_mode in B. cbn [is_branch_mnemonic argument_is_address andb is_alu_mnemonic] in B. destruct (ntype_eqb (type_opt b1) T_unknown); discriminate.
Qed.
Example C75_advice_refuted_case : map t_answer ["nop 16"; "nop 0x10"]
  = [POk ["Address argument to nop must have an explicit size"]; POk ["nop does not take a direct address as an argument"]].
Proof. vm_compute. reflexivity. Qed.
Print Assumptions C75_advice_refuted.
