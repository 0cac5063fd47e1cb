(** Properties of the tokenizer and the parser. *)
From Verif Require Import Base ModelNumeric ModelMnemonic ModelExpr ModelAMode ModelState ModelInstr
  ModelStatement ModelToken ModelParse.
From Verif Require Import SpecNames SpecText TokenProofs TextProofs ParseProofs LineProofs.
Local Open Scope string_scope.
Local Open Scope Z_scope.

(** C08.  A literal at the start of a text, followed by anything that does not continue the
    numeral, is read as its positional value and typed by its number of digits. *)
Theorem C08_literals : forall rest ts, tokenize rest = Ok ts ->
  (forall ds n v, numeral 16 ds n v -> 0 < n -> v <= int_max -> ends_numeral 16 rest ->
     exists t, sized_type 2 n t /\
       tokenize ("$" ++ ds ++ rest) = Ok (TLit v t :: ts) /\
       tokenize ("0x" ++ ds ++ rest) = Ok (TLit v t :: ts) /\
       tokenize ("0X" ++ ds ++ rest) = Ok (TLit v t :: ts)) /\
  (forall ds n v, numeral 2 ds n v -> 0 < n -> v <= int_max -> ends_numeral 2 rest ->
     exists t, sized_type 8 n t /\ tokenize ("%" ++ ds ++ rest) = Ok (TLit v t :: ts)) /\
  (forall ds n v, numeral 10 ds n v -> 0 < n -> v <= int_max -> ends_numeral 10 rest ->
     (forall x r, ds = "0" -> rest = String x r -> x <> "x"%char /\ x <> "X"%char) ->
     tokenize (ds ++ rest) = Ok (TLit v T_unknown :: ts)).
Proof. exact literals. Qed.
Example C08_literals_case :
  numeral 16 "7fC" 3 0x7fc /\ ends_numeral 16 ",x" /\
  tokenize ",x" = Ok [punct ","; punct "X"; TEol] /\
  tokenize "$7fC,x" = Ok [TLit 0x7fc T_word; punct ","; punct "X"; TEol] /\
  tokenize "%000000101" = Ok [TLit 5 T_word; TEol] /\ tokenize "300" = Ok [TLit 300 T_unknown; TEol].
Proof.
  split; [|repeat split; try reflexivity].
  - apply (nu_cons 16 "7" 7 "fC" 2 0xfc); [split; [lia|left; reflexivity]|].
    apply (nu_cons 16 "f" 15 "C" 1 12); [split; [lia|left; reflexivity]|].
    apply (nu_cons 16 "C" 12 "" 0 0); [split; [lia|right; reflexivity]|]. apply nu_nil.
  - intros c r d E (_ & [D|D]); injection E as <- <-; discriminate D.
Qed.
Print Assumptions C08_literals.

(** Without a bound on the value: what is read is the value modulo 2^32 as an int, and -1 for
    all values from 2^63 on. *)
Theorem C08_any : forall rest ts, tokenize rest = Ok ts ->
  (forall ds n v w, numeral 16 ds n v -> 0 < n -> wraps_to v w -> ends_numeral 16 rest ->
     exists t, sized_type 2 n t /\
       tokenize ("$" ++ ds ++ rest) = Ok (TLit w t :: ts) /\
       tokenize ("0x" ++ ds ++ rest) = Ok (TLit w t :: ts) /\
       tokenize ("0X" ++ ds ++ rest) = Ok (TLit w t :: ts)) /\
  (forall ds n v w, numeral 2 ds n v -> 0 < n -> wraps_to v w -> ends_numeral 2 rest ->
     exists t, sized_type 8 n t /\ tokenize ("%" ++ ds ++ rest) = Ok (TLit w t :: ts)) /\
  (forall ds n v w, numeral 10 ds n v -> 0 < n -> wraps_to v w -> ends_numeral 10 rest ->
     (forall x r, ds = "0" -> rest = String x r -> x <> "x"%char /\ x <> "X"%char) ->
     tokenize (ds ++ rest) = Ok (TLit w T_unknown :: ts)).
Proof. exact any_literals. Qed.
Example C08_any_case :
  wraps_to 0x123456789 0x23456789 /\ tokenize "$123456789" = Ok [TLit 0x23456789 T_long; TEol] /\
  wraps_to 0xfffffffff (-1) /\ tokenize "$fffffffff" = Ok [TLit (-1) T_long; TEol] /\
  wraps_to 9223372036854775808 (-1) /\ tokenize "9223372036854775808" = Ok [TLit (-1) T_unknown; TEol].
Proof. unfold wraps_to. repeat split; try reflexivity; try lia; intros H; discriminate H || (exfalso; apply H; reflexivity) || lia. Qed.
Print Assumptions C08_any.

(** As expressions, provided the digits fit the type. *)
Theorem C08_expressions :
  (forall ds n v, numeral 16 ds n v -> 0 < n <= 6 ->
     exists t, sized_type 2 n t /\
       parse_expression ("$" ++ ds) = Ok (ELit v t) /\ parse_expression ("0x" ++ ds) = Ok (ELit v t)) /\
  (forall ds n v, numeral 2 ds n v -> 0 < n <= 24 ->
     exists t, sized_type 8 n t /\ parse_expression ("%" ++ ds) = Ok (ELit v t)) /\
  (forall ds n v, numeral 10 ds n v -> 0 < n -> v <= int_max ->
     parse_expression ds = Ok (ELit v T_unknown)).
Proof. exact literal_expressions. Qed.
Example C08_expressions_case :
  parse_expression "$7fC" = Ok (ELit 0x7fc T_word) /\ parse_expression "00012" = Ok (ELit 12 T_unknown).
Proof. split; reflexivity. Qed.
Print Assumptions C08_expressions.

(** Longer literals do not keep their value and no error is reported: more than six hex
    digits lose the upper ones, decimals beyond int wrap around. *)
Theorem C08_long_refuted :
  parse_expression "$1000000" = Ok (ELit 0 T_long) /\
  tokenize "4294967297" = Ok [TLit 1 T_unknown; TEol] /\
  tokenize "2147483648" = Ok [TLit (-2147483648) T_unknown; TEol].
Proof. repeat split; reflexivity. Qed.
Print Assumptions C08_long_refuted.

(** C09.  The tokenizer is total: tokens ending with the only end-of-line token, or an error. *)
Theorem C09_total : forall s,
  (exists body, tokenize s = Ok (body ++ [TEol])%list /\ ~ In TEol body) \/ (exists e, tokenize s = Err e).
Proof. exact tokenize_shape. Qed.
Example C09_total_case : tokenize "`" = Err E_token /\
  tokenize "lda.b #foo" = Ok [TMnem M_lda; TSuffix S_b; punct "#"; TIdent "foo"; TEol].
Proof. split; reflexivity. Qed.
Print Assumptions C09_total.

(** Text after a semicolon does not matter. *)
Theorem C09_comment : forall s t, tokenize (s ++ String ";" t) = tokenize s.
Proof. exact tokenize_comment. Qed.
Example C09_comment_case : tokenize ("nop " ++ String ";" "` whatever") = Ok [TMnem M_nop; TEol].
Proof. reflexivity. Qed.
Print Assumptions C09_comment.

(** Whitespace: leading whitespace does not matter, nor does the amount of it anywhere, and
    whitespace separates tokens. *)
Theorem C09_whitespace : forall a w b, spaces w ->
  tokenize (w ++ b) = tokenize b /\
  (forall w', spaces w' -> w <> "" -> w' <> "" -> tokenize (a ++ w ++ b) = tokenize (a ++ w' ++ b)) /\
  (w <> "" -> no_char ";" a ->
     (forall ta tb, tokenize a = Ok (ta ++ [TEol])%list -> tokenize b = Ok tb ->
        tokenize (a ++ w ++ b) = Ok (ta ++ tb)%list) /\
     (is_ok (tokenize (a ++ w ++ b)) = true ->
        is_ok (tokenize a) = true /\ is_ok (tokenize b) = true)).
Proof. exact whitespace. Qed.
Example C09_whitespace_case : tokenize ("LDA" ++ "  " ++ "#1") = Ok [TMnem M_lda; punct "#"; TLit 1 T_unknown; TEol]
  /\ tokenize "LDA" = Ok ([TMnem M_lda] ++ [TEol])%list.
Proof. split; reflexivity. Qed.
Print Assumptions C09_whitespace.

(** Case matters only in the spelling of identifiers. *)
Theorem C09_case : forall s t, same_name s t ->
  match tokenize s, tokenize t with
  | Ok l, Ok k => Forall2 same_token l k
  | Err e, Err f => e = f
  | _, _ => False
  end.
Proof. exact case_insensitive. Qed.
Example C09_case_case : tokenize "Lda.W $Ff, x" = tokenize "LDA.w $fF, X" /\
  tokenize "foo" = Ok [TIdent "foo"; TEol] /\ tokenize "FOO" = Ok [TIdent "FOO"; TEol].
Proof. repeat split; reflexivity. Qed.
Print Assumptions C09_case.

(** C10.  The expression parser recognises exactly the grammar: unary operators bind tighter
    than * and /, these tighter than + and -, all binary operators group to the left. *)
Theorem C10_grammar : forall ts e t rest, ~ continues t ->
  (parse_expr ts = Ok (e, t :: rest) <-> exists p, ts = (p ++ t :: rest)%list /\ grammar 0 p e).
Proof. exact expression_grammar. Qed.
Example C10_grammar_case : ~ continues (punct ",") /\
  grammar 0 [TLit 1 T_unknown; punct "-"; TLit 2 T_unknown; punct "*"; punct "-"; TIdent "a"]
    (EBin Op_minus (ELit 1 T_unknown)
       (EBin Op_mul (ELit 2 T_unknown) (EUn Op_neg (EId (FullId None "a") T_word)))).
Proof.
  split; [intros H; cbn in H; intuition discriminate|].
  apply (g_sum Op_minus [TLit 1 T_unknown] _ [TLit 2 T_unknown; punct "*"; punct "-"; TIdent "a"]); [tauto| |].
  - apply g_term, g_factor, g_atom, (g_lit 1 T_unknown).
  - apply (g_product Op_mul [TLit 2 T_unknown] _ [punct "-"; TIdent "a"]); [tauto| |].
    + apply g_factor, g_atom, (g_lit 2 T_unknown).
    + apply (g_unary Op_neg), g_atom, g_name.
Qed.
Print Assumptions C10_grammar.

(** What is left after an expression does not start with a binary operator. *)
Theorem C10_rest : forall ts e rest, parse_expr ts = Ok (e, rest) ->
  (exists p, ts = (p ++ rest)%list /\ grammar 0 p e) /\
  (forall c r, rest = punct c :: r -> ~ In c ["+"; "-"; "*"; "/"]%char).
Proof. exact expression_rest. Qed.
Example C10_rest_case :
  parse_expr [TLit 1 T_unknown; punct "*"; TLit 2 T_unknown; punct ")"; punct "+"; TEol]
  = Ok (EBin Op_mul (ELit 1 T_unknown) (ELit 2 T_unknown), [punct ")"; punct "+"; TEol]).
Proof. reflexivity. Qed.
Print Assumptions C10_rest.

(** Written with the minimal parentheses, every expression parses back to itself and the
    rest of the line is left. *)
Theorem C10_roundtrip : forall e t rest, writable e -> ~ continues t ->
  parse_expr (written 0 e ++ t :: rest)%list = Ok (e, t :: rest).
Proof. exact expression_roundtrip. Qed.
Example C10_roundtrip_case :
  writable (EBin Op_mul (EBin Op_minus (ELit 1 T_unknown) (ELit 2 T_byte)) (EUn Op_neg (EId (FullId (Some "m") "a") T_long))) /\
  written 0 (EBin Op_mul (EBin Op_minus (ELit 1 T_unknown) (ELit 2 T_byte)) (EUn Op_neg (EId (FullId (Some "m") "a") T_long)))
  = [punct "("; TLit 1 T_unknown; punct "-"; TLit 2 T_byte; punct ")"; punct "*"; punct "-"; punct "@"; TIdent "m";
     TPunct P_scope; TIdent "a"] /\
  written 0 (EBin Op_minus (EBin Op_minus (ELit 1 T_unknown) (ELit 2 T_byte)) (EBin Op_minus (ELit 3 T_byte) (ELit 4 T_byte)))
  = [TLit 1 T_unknown; punct "-"; TLit 2 T_byte; punct "-"; punct "("; TLit 3 T_byte; punct "-"; TLit 4 T_byte; punct ")"].
Proof. repeat split; try reflexivity. right. reflexivity. Qed.
Print Assumptions C10_roundtrip.

(** The same from text, with the tokens spelled in any way and any whitespace between them. *)
Theorem C10_text : forall e ws line, writable e -> Forall2 spells ws (written 0 e) -> spaced ws line ->
  parse_expression line = Ok e.
Proof. exact expression_text. Qed.
Example C10_text_case :
  Forall2 spells ["<"; "Foo"; "+"; "0x12"] (written 0 (EBin Op_plus (EUn Op_lowbyte (EId (FullId None "Foo") T_word)) (ELit 0x12 T_byte))) /\
  spaced ["<"; "Foo"; "+"; "0x12"] "< Foo +  0x12" /\
  parse_expression "< Foo +  0x12" = Ok (EBin Op_plus (EUn Op_lowbyte (EId (FullId None "Foo") T_word)) (ELit 0x12 T_byte)).
Proof.
  assert (forall w, (forall k, In k (list_ascii_of_string w) -> k <> ";"%char) -> no_char ";" w) as N.
  { intros w H a b E. apply (H ";"%char); [|reflexivity]. subst w. clear. induction a; cbn; auto. }
  assert (forall n, spaces (String.concat "" (repeat " " n))) as SP.
  { intros n. induction n as [|n IH]; intros a c b E; [destruct a; discriminate E|].
    replace (String.concat "" (repeat " " (S n))) with (String " " (String.concat "" (repeat " " n))) in E
      by (destruct n; reflexivity).
    destruct a as [|x a]; injection E as E1 E2; [subst; reflexivity|]. eapply IH. exact E2. }
  split; [|split; [|reflexivity]].
  - cbn [written binding binop_sign unop_sign]. repeat constructor; apply N; intros k Hk; cbn in Hk; intuition (subst; discriminate).
  - apply (sp_more "<" " "); [apply (SP 1%nat)|discriminate|].
    apply (sp_more "Foo" " "); [apply (SP 1%nat)|discriminate|].
    apply (sp_more "+" "  "); [apply (SP 2%nat)|discriminate|]. apply sp_one.
Qed.
Print Assumptions C10_text.

(** C11.  On every line the parser terminates and stays inside the token list: it returns
    statements or an error, except that constant operands may overflow int. *)
Theorem C11_safe : forall ts, ended ts ->
  match parse ts with
  | Ok _ | Err _ => True
  | UB u => u = UB_overflow /\ overflowing_operand ts
  | OutOfFuel => False
  end.
Proof. exact parse_safe. Qed.
Example C11_safe_case : ended [TMnem M_lda; punct "("; punct ")"; TEol] /\
  parse [TMnem M_lda; punct "("; punct ")"; TEol] = Err E_parse.
Proof.
  split; [|reflexivity]. exists [TMnem M_lda; punct "("; punct ")"]. split; [reflexivity|].
  intros H; cbn in H. intuition discriminate.
Qed.
Print Assumptions C11_safe.

(** Unless a colon stands where a statement or label should, the labels, instructions and
    directives returned are exactly those on the line, in order. *)
Theorem C11_accounts_partial : forall ts l, ended ts -> ~ stray_colon ts -> parse ts = Ok l ->
  map parsed_item l = items true false ts.
Proof. exact parse_accounts. Qed.
Example C11_accounts_partial_case :
  let ts := [TPunct P_export; TIdent "a"; punct ":"; TMnem M_nop; punct ":"; TIdent "b"; punct "{"; TDir D_halt;
             punct ":"; TMnem M_jmp; TIdent "a"; TEol] in
  ended ts /\ ~ stray_colon ts /\
  items true false ts = [ILabel "a" true; IInstr M_nop; ILabel "b" false; IDir D_begin; IDir D_halt; IInstr M_jmp] /\
  is_ok (parse ts) = true.
Proof.
  cbv zeta. split; [|split; [|split; reflexivity]].
  - exists [TPunct P_export; TIdent "a"; punct ":"; TMnem M_nop; punct ":"; TIdent "b"; punct "{"; TDir D_halt;
             punct ":"; TMnem M_jmp; TIdent "a"]. split; [reflexivity|]. intros H; cbn in H. intuition discriminate.
  - intros (a & b & E & [-> |(a' & t & -> & Ht)]); [vm_compute in E; discriminate E|]. rewrite <- app_assoc in E. cbn [app] in E.
    do 11 (destruct a' as [|? a']; [injection E; intros; subst; cbn in Ht; intuition discriminate|injection E as _ E]).
    destruct a' as [|? [|? a']]; discriminate E.
Qed.
Print Assumptions C11_accounts_partial.

(** With a stray colon the rest of the line is dropped without an error; and tokens inside
    an operand can be dropped as well. *)
Theorem C11_stray_refuted :
  (exists ts, ended ts /\ items true false ts = [IInstr M_nop; IInstr M_rts] /\
     parse ts = Ok [PStmt (SInstr (Instr M_nop S_none A_imp None None RC_default))]) /\
  (exists ts, tokenize ": nop" = Ok ts /\ parse ts = Ok []) /\
  (exists ts ts', tokenize "ADC ($12 $34" = Ok ts /\ tokenize "ADC $34" = Ok ts' /\
     parse ts = parse ts' /\ is_ok (parse ts) = true).
Proof.
  split; [|split].
  - exists [TMnem M_nop; punct ":"; punct ":"; TMnem M_rts; TEol]. split; [|split; reflexivity].
    exists [TMnem M_nop; punct ":"; punct ":"; TMnem M_rts]. split; [reflexivity|]. intros H; cbn in H. intuition discriminate.
  - eexists. split; reflexivity.
  - eexists. eexists. repeat split; reflexivity.
Qed.
Print Assumptions C11_stray_refuted.

(** The overflow is reachable. *)
Theorem C11_overflow_refuted : exists ts, tokenize "REP #2147483647 + 1" = Ok ts /\ parse ts = UB UB_overflow.
Proof. eexists. split; reflexivity. Qed.
Print Assumptions C11_overflow_refuted.
