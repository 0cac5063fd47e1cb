(** Proofs about the messages of the parser. *)
From Verif Require Import BaseProofs ModelNumeric ModelMnemonic ModelExpr ModelAMode ModelOpcode
  ModelState ModelInstr ModelToken ModelStatement ModelParse ModelAddress ModelMap ModelRom ModelTools ModelLocation ModelRomText ModelInteractive
  ModelParseText SpecParseText TokenProofs ParseProofs.
Open Scope string_scope.
Open Scope list_scope.
Open Scope Z_scope.

(** ** The same results. *)
Lemma bare_bind : forall A B (r : pres A) (f : A -> pres B) r' f', bare r = r' -> (forall a, bare (f a) = f' a) -> bare (pbind r f) = bind r' f'.
Proof. intros A B r f r' f' <- F. destruct r; cbn; [apply F|reflexivity..]. Qed.
Ltac bb := repeat first [reflexivity
  |apply bare_bind; [|intros]
  |match goal with |- context [match ?x with _ => _ end] => destruct x end].
Lemma bare_dotted : forall l w, bare (t_dotted_token l w) = dotted_token w.
Proof. intros l w. unfold t_dotted_token, dotted_token. bb. Qed.
Lemma bare_front : forall ts, bare (t_front ts) = front ts.
Proof. intros [|t ts]; reflexivity. Qed.
Lemma bare_at_end : forall ts, bare (t_at_end ts) = at_end ts.
Proof. intros [|t ts]; reflexivity. Qed.
Lemma bare_at_end_or_suffix : forall ts, bare (t_at_end_or_suffix ts) = at_end_or_suffix ts.
Proof. intros [|t ts]; reflexivity. Qed.
Lemma bare_consume : forall l c m ts, bare (t_consume l c m ts) = consume c ts.
Proof. intros l c m [|t ts]; [reflexivity|]. unfold t_consume, consume. destruct (is_char c t); reflexivity. Qed.
Lemma bare_confirm : forall l m ts, bare (t_confirm_at_end l m ts) = confirm_at_end ts.
Proof. intros l m [|t ts]; [reflexivity|]. unfold t_confirm_at_end, confirm_at_end, at_end. cbn [t_front front pbind bind]. destruct (tok_at_end t); reflexivity. Qed.
Lemma bare_confirm_suffix : forall l m ts, bare (t_confirm_at_end_or_suffix l m ts) = confirm_at_end_or_suffix ts.
Proof. intros l m [|t ts]; [reflexivity|]. unfold t_confirm_at_end_or_suffix, confirm_at_end_or_suffix, at_end_or_suffix. cbn [t_front front pbind bind]. destruct (tok_at_end_or_suffix t); reflexivity. Qed.
Lemma bare_register : forall l al m ts, bare (t_confirm_legal_register l al m ts) = confirm_legal_register al ts.
Proof. intros l al m [|t ts]; [reflexivity|]. unfold t_confirm_legal_register, confirm_legal_register. cbn [t_front front pbind bind]. destruct (is_register t); [|reflexivity]. destruct (existsb _ _); reflexivity. Qed.
Lemma bare_mode : forall l ts, bare (t_mode l ts) = p_mode ts.
Proof. intros l [|[] ts]; try reflexivity. unfold t_mode, p_mode. destruct (flags_from_name s); reflexivity. Qed.
Lemma bare_ident : forall l long ts, option_map bare (t_ident l long ts) = p_ident long ts.
Proof.
  intros l long [|t ts]; [reflexivity|]. unfold t_ident, p_ident. destruct t; cbn [is_punct]; try reflexivity.
  - destruct ts as [|t1 ts]; [reflexivity|]. destruct (is_punct P_scope t1); [|reflexivity]. destruct ts as [|[] ts]; reflexivity.
  - destruct (_ =? _); [|reflexivity]. destruct ts as [|[] ts]; reflexivity.
Qed.
Lemma bare_exprs : forall l f,
  (forall ts, bare (t_expr l f ts) = p_expr f ts) /\ (forall a ts, bare (t_expr_loop l f a ts) = p_expr_loop f a ts) /\
  (forall ts, bare (t_term l f ts) = p_term f ts) /\ (forall a ts, bare (t_term_loop l f a ts) = p_term_loop f a ts) /\
  (forall ts, bare (t_factor l f ts) = p_factor f ts) /\ (forall ts, bare (t_comp l f ts) = p_comp f ts).
Proof.
  intros l. induction f as [|f (E & EL & T & TL & F & C)]; [repeat split; reflexivity|].
  split; [|split; [|split; [|split; [|split]]]].
  - intros ts. cbn [t_expr p_expr]. apply bare_bind; [apply T|]. intros [a ts1]. apply EL.
  - intros a [|t ts]; [reflexivity|]. cbn [t_expr_loop p_expr_loop]. destruct (tok_at_end t); [reflexivity|]. destruct (addop t); [|reflexivity].
    apply bare_bind; [apply T|]. intros [r ts1]. apply EL.
  - intros ts. cbn [t_term p_term]. apply bare_bind; [apply F|]. intros [a ts1]. apply TL.
  - intros a [|t ts]; [reflexivity|]. cbn [t_term_loop p_term_loop]. destruct (tok_at_end t); [reflexivity|]. destruct (mulop t); [|reflexivity].
    apply bare_bind; [apply F|]. intros [r ts1]. apply TL.
  - intros [|t ts]; [reflexivity|]. cbn [t_factor p_factor]. destruct (unaryop t); [|apply C]. apply bare_bind; [apply F|]. intros [r ts1]. reflexivity.
  - intros [|t ts]; [reflexivity|]. cbn [t_comp p_comp].
    pose proof (bare_ident l true ts) as I1. pose proof (bare_ident l false (t :: ts)) as I2.
    assert (G : bare (if is_char "@" t then match t_ident l true ts with Some r => r | None => let^ t' := t_front ts in err_at E_parse ("Expected identifier after '@', found " ++ token_to_string t') l end
       else match t_ident l false (t :: ts) with Some r => r | None => if is_char "(" t then let^ (e, ts1) := t_expr l f ts in let^ ts2 := t_consume l ")" "close parenthesis" ts1 in POk (e, ts2)
         else err_at E_parse ("Expected expression, found " ++ token_to_string t) l end)
      = if is_char "@" t then match p_ident true ts with Some r => r | None => Err E_parse end
        else match p_ident false (t :: ts) with Some r => r | None => if is_char "(" t then let* (e, ts1) := p_expr f ts in let* ts2 := consume ")" ts1 in Ok (e, ts2) else Err E_parse end).
    { destruct (is_char "@" t).
      - rewrite <- I1. destruct (t_ident l true ts) eqn:TI; [reflexivity|]. destruct ts; [discriminate TI|reflexivity].
      - rewrite <- I2. destruct (t_ident l false (t :: ts)); [reflexivity|]. cbn [option_map]. destruct (is_char "(" t); [|reflexivity].
        apply bare_bind; [apply E|]. intros [e ts1]. apply bare_bind; [apply bare_consume|]. reflexivity. }
    destruct t; try exact G. reflexivity.
Qed.
Lemma bare_parse_expr : forall l ts, bare (t_parse_expr l ts) = parse_expr ts.
Proof. intros l ts. apply bare_exprs. Qed.
Lemma bare_create : forall l m s sam a1 a2, bare (t_create_instruction l m s sam a1 a2) = create_instruction m s sam a1 a2.
Proof. intros l m s sam a1 a2. unfold t_create_instruction, create_instruction. destruct (deduce_mode m sam a1 a2); cbn [bind]; try reflexivity. destruct (_ && _); reflexivity. Qed.
Lemma bare_finish : forall l m s sam a1 a2 ts, bare (t_finish l m s sam a1 a2 ts) = let* i := create_instruction m s sam a1 a2 in Ok (i, ts).
Proof. intros l m s sam a1 a2 ts. apply bare_bind; [apply bare_create|reflexivity]. Qed.
Ltac bs1 := first [reflexivity|apply bare_finish|apply bare_confirm_suffix|apply bare_confirm|apply bare_consume|apply bare_register|apply bare_parse_expr|apply bare_mode
  |apply bare_at_end_or_suffix|apply bare_at_end|apply bare_front
  |apply bare_bind; [|intros ?]
  |match goal with |- context [match ?x with (_, _) => _ end] => destruct x end
  |match goal with |- bare (if ?x then _ else _) = _ => destruct x end
  |match goal with |- bare (match ?x with Some _ => _ | None => _ end) = _ => destruct x end].
Ltac bs := repeat bs1.
Lemma consume_front : forall c ts (B : Type) (k : list token -> res B) t, front ts = Ok t -> is_char c t = true -> bind (consume c ts) k = k (tl ts).
Proof. intros c [|t0 ts] B k t F H; [discriminate|]. injection F as <-. unfold consume. rewrite H. reflexivity. Qed.
Lemma bare_bare : forall l m sfx ts, bare (t_bare l m sfx ts) = p_bare m sfx ts.
Proof.
  intros l m sfx ts. unfold t_bare, p_bare. apply bare_bind; [bs|]. intros [a1 ts1]. apply bare_bind; [bs|]. intros []; [bs|].
  apply bare_bind; [bs|]. intros ts2. apply bare_bind; [bs|]. intros []. destruct ts2 as [|t ts2]; [reflexivity|]. cbn [t_front front pbind bind].
  destruct (is_char "X" t) eqn:X; [rewrite (consume_front "X"%char (t :: ts2) _ _ t eq_refl X); cbn [tl]; bs|].
  destruct (is_char "Y" t) eqn:Y; [rewrite (consume_front "Y"%char (t :: ts2) _ _ t eq_refl Y); cbn [tl]; bs|]. bs.
Qed.
Lemma bare_core : forall l ts, bare (t_parse_instruction_core l ts) = parse_instruction_core ts.
Proof.
  intros l [|t ts]; [reflexivity|]. destruct t; try reflexivity. cbn [t_parse_instruction_core parse_instruction_core].
  apply bare_bind; [bs|]. intros t.
  destruct t; cbn [tl]; unfold t_operand, t_immediate, t_bracket, t_paren; repeat first [apply bare_bare|progress bs1].
Qed.
Lemma bare_convention : forall l ts, bare (t_return_convention l ts) = parse_return_convention ts.
Proof. intros l ts. unfold t_return_convention, parse_return_convention. bs. Qed.
Lemma bare_instruction : forall l ts, bare (t_parse_instruction l ts) = parse_instruction ts.
Proof.
  intros l ts. unfold t_parse_instruction, parse_instruction. apply bare_bind; [apply bare_core|]. intros [i ts1].
  apply bare_bind; [apply bare_convention|]. intros [rc ts2]. destruct (_ && _); reflexivity.
Qed.
Lemma bare_list : forall l f acc ts, bare (t_list l f acc ts) = p_list f acc ts.
Proof.
  intros l. induction f as [|f IH]; intros acc ts; [reflexivity|]. cbn [t_list p_list]. apply bare_bind; [bs|]. intros [e ts1].
  apply bare_bind; [bs|]. intros []; [reflexivity|]. apply bare_bind; [bs|]. intros ts2. apply IH.
Qed.
Lemma bare_directive : forall l ts, bare (t_parse_directive l ts) = parse_directive ts.
Proof.
  intros l [|t ts]; [reflexivity|]. destruct t; try reflexivity. cbn [t_parse_directive parse_directive].
  unfold t_mode_part. destruct (directive_type_by_name d); repeat first [apply bare_convention|apply bare_list|progress bs1].
Qed.
Lemma bare_label : forall l ts, bare (t_label l ts) = p_label ts.
Proof.
  intros l ts. unfold t_label, p_label. apply bare_bind; [bs|]. intros t. apply bare_bind.
  - destruct (is_punct P_export t); [|reflexivity]. apply bare_bind; [bs|]. intros t'. destruct (tok_ident t'); reflexivity.
  - intros [ex ts1]. destruct ts1 as [|[] [|t' ts2]]; try reflexivity. destruct (is_char ":" t'); reflexivity.
Qed.
Lemma bare_loop : forall l f acc ts, bare (t_parse_loop l f acc ts) = parse_loop f acc ts.
Proof.
  intros l. induction f as [|f IH]; intros acc [|t ts]; try reflexivity. cbn [t_parse_loop parse_loop].
  apply bare_bind; [apply bare_label|]. intros [[lab ts1] []]; [apply IH|]. apply bare_bind; [bs|]. intros t1. destruct (tok_at_end t1); [reflexivity|].
  destruct (_ || _); [apply IH|]. destruct (tok_dir t1).
  - apply bare_bind; [apply bare_directive|]. intros [d0 ts2]. apply bare_bind; [bs|]. intros []; [apply IH|reflexivity].
  - destruct (tok_mnem t1); [|reflexivity]. apply bare_bind; [apply bare_instruction|]. intros [i ts2]. apply bare_bind; [bs|]. intros []; [apply IH|reflexivity].
Qed.
Lemma bare_parse : forall l ts, bare (t_parse l ts) = parse ts.
Proof. intros l ts. apply bare_loop. Qed.
Lemma bare_next : forall l s, bare (t_next_token l s) = next_token s.
Proof.
  intros l s. unfold t_next_token, next_token.
  repeat first [reflexivity|match goal with |- context [match ?x with _ => _ end] => is_var x; destruct x end].
  all: repeat first [reflexivity|apply bare_bind; [apply bare_dotted|intros; reflexivity]|match goal with |- bare (match ?x with _ => _ end) = _ => destruct x end].
Qed.
Lemma bare_tokens : forall l f s, bare (t_tokenize_fuel f l s) = tokenize_fuel f s.
Proof.
  intros l. induction f as [|f IH]; intros s; [reflexivity|]. cbn [t_tokenize_fuel tokenize_fuel]. destruct (strip_leading s); [reflexivity|].
  destruct (Ascii.eqb _ _); [reflexivity|]. apply bare_bind; [apply bare_next|]. intros [t rest]. apply bare_bind; [apply IH|]. reflexivity.
Qed.
Lemma bare_tokenize : forall l s, bare (t_tokenize l s) = tokenize s.
Proof. intros l s. apply bare_tokens. Qed.
