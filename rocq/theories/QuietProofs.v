(** Without `yields` and `noreturn`, the errors of Parse carry a location. *)
From Verif Require Import BaseProofs ModelNumeric ModelMnemonic ModelExpr ModelAMode ModelOpcode ModelState ModelInstr ModelToken
  ModelStatement ModelParse ParseProofs.
Open Scope list_scope.
Open Scope Z_scope.

Definition quiet_token (t : token) : Prop := is_punct P_yields t = false /\ is_punct P_noreturn t = false.
Definition quiet : list token -> Prop := Forall quiet_token.
Definition soft (e : err) : Prop := e <> E_logic /\ e <> E_convention.
Definition good {A} (r : res (A * list token)) : Prop :=
  match r with Ok (_, ts') => quiet ts' /\ at_end ts' = Ok true | Err e => soft e | _ => True end.
Definition mild {A} (r : res A) : Prop := match r with Err e => e = E_parse | _ => True end.

Lemma soft_parse : soft E_parse. Proof. split; discriminate. Qed.
Lemma soft_mode : soft E_no_mode. Proof. split; discriminate. Qed.
Lemma soft_suffix : soft E_suffix. Proof. split; discriminate. Qed.
Lemma mild_soft : forall A (r : res A) e, mild r -> r = Err e -> soft e.
Proof. intros A r e M ->. cbn in M. subst e. apply soft_parse. Qed.

Lemma m_bind : forall A B (r : res A) (k : A -> res B), mild r -> (forall a, mild (k a)) -> mild (bind r k).
Proof. intros A B [a|e|u|] k H K; cbn; auto. Qed.
Lemma mild_ident : forall b ts r, p_ident b ts = Some r -> mild r.
Proof.
  intros b [|t ts] r H; [injection H as <-; exact Logic.I|].
  destruct t; cbn [p_ident] in H; try (destruct (is_punct P_scope _) in H; [|discriminate H]).
  all: try (injection H as <-; destruct ts as [|[] ts]; cbn; auto; fail).
  all: injection H as <-; destruct ts as [|t' ts]; [exact Logic.I|]; destruct (is_punct P_scope t'); [|exact Logic.I]; destruct ts as [|[] ts]; cbn; auto.
Qed.
Lemma mild_all : forall f,
  (forall ts, mild (p_expr f ts)) /\ (forall a ts, mild (p_expr_loop f a ts)) /\ (forall ts, mild (p_term f ts)) /\
  (forall a ts, mild (p_term_loop f a ts)) /\ (forall ts, mild (p_factor f ts)) /\ (forall ts, mild (p_comp f ts)).
Proof.
  induction f as [|f (I1 & I2 & I3 & I4 & I5 & I6)]; [repeat split; intros; exact Logic.I|].
  repeat apply conj; intros.
  - cbn [p_expr]. apply m_bind; [apply I3|]. intros [t ts1]. apply I2.
  - cbn [p_expr_loop]. destruct ts as [|t ts]; [exact Logic.I|]. destruct (tok_at_end t); [exact Logic.I|]. destruct (addop t); [|exact Logic.I].
    apply m_bind; [apply I3|]. intros [r ts1]. apply I2.
  - cbn [p_term]. apply m_bind; [apply I5|]. intros [t ts1]. apply I4.
  - cbn [p_term_loop]. destruct ts as [|t ts]; [exact Logic.I|]. destruct (tok_at_end t); [exact Logic.I|]. destruct (mulop t); [|exact Logic.I].
    apply m_bind; [apply I5|]. intros [r ts1]. apply I4.
  - cbn [p_factor]. destruct ts as [|t ts]; [exact Logic.I|]. destruct (unaryop t); [|apply I6].
    apply m_bind; [apply I5|]. intros [r ts1]. exact Logic.I.
  - cbn [p_comp]. destruct ts as [|t ts]; [exact Logic.I|].
    assert (R : mild (if is_char "@" t then match p_ident true ts with Some r => r | None => Err E_parse end
       else match p_ident false (t :: ts) with Some r => r | None =>
         if is_char "(" t then let* (e, ts1) := p_expr f ts in let* ts2 := consume ")" ts1 in Ok (e, ts2) else Err E_parse end)).
    { destruct (is_char "@" t).
      - destruct (p_ident true ts) eqn:P; [eapply mild_ident; exact P|reflexivity].
      - destruct (p_ident false (t :: ts)) eqn:P; [eapply mild_ident; exact P|]. destruct (is_char "(" t); [|reflexivity].
        apply m_bind; [apply I1|]. intros [e ts1]. apply m_bind; [|intros; exact Logic.I]. destruct ts1 as [|t1 ts1]; cbn; [exact Logic.I|]. destruct (is_char ")" t1); cbn; auto. }
    destruct t; try exact R. exact Logic.I.
Qed.
Lemma mild_expr : forall ts, mild (parse_expr ts).
Proof. intros. apply mild_all. Qed.

Lemma quiet_tl : forall ts, quiet ts -> quiet (tl ts).
Proof. intros [|t ts] F; [exact F|]. inversion F; assumption. Qed.
Lemma g_expr : forall A ts (k : expr * list token -> res (A * list token)), quiet ts ->
  (forall e ts', quiet ts' -> good (k (e, ts'))) -> good (bind (parse_expr ts) k).
Proof.
  intros A ts k F H. destruct (parse_expr ts) as [[e r]|e|u|] eqn:E; try exact Logic.I.
  - apply H. apply expression_rest in E as [(p & -> & _) _]. apply Forall_app in F. apply F.
  - cbn. eapply mild_soft; [|exact E]. apply mild_expr.
Qed.
Lemma g_consume : forall A c ts (k : list token -> res (A * list token)), quiet ts ->
  (forall ts', quiet ts' -> good (k ts')) -> good (bind (consume c ts) k).
Proof.
  intros A c [|t ts] k F H; [exact Logic.I|]. cbn [consume]. inversion F; subst. destruct (is_char c t); [apply H; assumption|apply soft_parse].
Qed.
Lemma g_front : forall A ts (k : token -> res (A * list token)), (forall t, good (k t)) -> good (bind (front ts) k).
Proof. intros A [|t ts] k H; [exact Logic.I|apply H]. Qed.
Lemma g_register : forall A l ts (k : unit -> res (A * list token)), good (k tt) -> good (bind (confirm_legal_register l ts) k).
Proof.
  intros A l [|t ts] k H; [exact Logic.I|]. unfold confirm_legal_register. cbn [front bind].
  destruct (is_register t); [|exact H]. destruct (existsb _ l); [exact H|apply soft_parse].
Qed.
Lemma quiet_end : forall t ts, quiet (t :: ts) -> tok_at_end_or_suffix t = true -> tok_at_end t = true.
Proof.
  intros t ts F H. apply Forall_inv in F. destruct F as [Y N]. unfold tok_at_end_or_suffix in H. unfold tok_at_end.
  rewrite Y, N, !orb_false_r in H. exact H.
Qed.
Lemma g_suffix : forall A ts (k : bool -> res (A * list token)), quiet ts ->
  (at_end ts = Ok true -> good (k true)) -> good (k false) -> good (bind (at_end_or_suffix ts) k).
Proof.
  intros A [|t ts] k F T G; [exact Logic.I|]. unfold at_end_or_suffix. cbn [front bind].
  destruct (tok_at_end_or_suffix t) eqn:E; [|exact G]. apply T. unfold at_end. cbn. rewrite (quiet_end _ _ F E). reflexivity.
Qed.
Lemma g_confirm : forall A ts (k : unit -> res (A * list token)), quiet ts ->
  (at_end ts = Ok true -> good (k tt)) -> good (bind (confirm_at_end_or_suffix ts) k).
Proof.
  intros A [|t ts] k F T; [exact Logic.I|]. unfold confirm_at_end_or_suffix, at_end_or_suffix. cbn [front bind].
  destruct (tok_at_end_or_suffix t) eqn:E; [|apply soft_parse]. apply T. unfold at_end. cbn. rewrite (quiet_end _ _ F E). reflexivity.
Qed.
Lemma g_at_end : forall A ts (k : unit -> res (A * list token)),
  (at_end ts = Ok true -> good (k tt)) -> good (bind (confirm_at_end ts) k).
Proof.
  intros A [|t ts] k T; [exact Logic.I|]. unfold confirm_at_end, at_end in *. cbn [front bind] in *.
  destruct (tok_at_end t) eqn:E; [|apply soft_parse]. apply T. reflexivity.
Qed.
Lemma deduce_soft : forall m s a b e, deduce_mode m s a b = Err e -> e = E_no_mode.
Proof.
  assert (CB : forall a m e, coerce_byte a m = Err e -> e = E_no_mode).
  { intros a m e H. unfold coerce_byte in H. destruct (t_unsigned (type_opt a)); try congruence. destruct (eval_opt null_ctx a); try congruence.
    destruct (_ && _) in H; congruence. }
  assert (CW : forall a m e, coerce_word a m = Err e -> e = E_no_mode).
  { intros a m e H. unfold coerce_word in H. destruct (t_unsigned (type_opt a)); try congruence. destruct (eval_opt null_ctx a); try congruence.
    destruct (_ && _) in H; congruence. }
  assert (CC : forall a b m e, coerce_bytes a b m = Err e -> e = E_no_mode).
  { intros a b m e H. unfold coerce_bytes in H. destruct (coerce_byte a m), (coerce_byte b m); congruence. }
  assert (X1 : forall a b w l e, switch_byte_word_long a b w l = Err e -> e = E_no_mode) by (intros a b w l e H; unfold switch_byte_word_long in H; destruct (t_unsigned _); congruence).
  assert (X2 : forall a b w e, switch_byte_word a b w = Err e -> e = E_no_mode) by (intros a b w e H; unfold switch_byte_word in H; destruct (t_unsigned _); congruence).
  assert (X3 : forall a b w e, switch_word_long a b w = Err e -> e = E_no_mode) by (intros a b w e H; unfold switch_word_long in H; destruct (t_unsigned _); congruence).
  assert (X4 : forall a b e, force_byte a b = Err e -> e = E_no_mode) by (intros a b e H; unfold force_byte in H; destruct (t_unsigned _); congruence).
  assert (X5 : forall a b e, force_word a b = Err e -> e = E_no_mode) by (intros a b e H; unfold force_word in H; destruct (t_unsigned _); congruence).
  assert (X6 : forall a b e, force_long a b = Err e -> e = E_no_mode) by (intros a b e H; unfold force_long in H; destruct (t_unsigned _); congruence).
  intros m s a b e H. unfold deduce_mode in H.
  destruct (is_branch_mnemonic m). { destruct s, (simple_identifier_opt a); congruence. }
  destruct (_ && _) in H; [congruence|].
  destruct s; repeat match type of H with context [if is_alu_mnemonic ?x then _ else _] => destruct (is_alu_mnemonic x) end; eauto;
  destruct m; eauto; congruence.
Qed.
Local Opaque deduce_mode flag_controlling_size.
Lemma g_create : forall m s sam a b ts, quiet ts -> at_end ts = Ok true ->
  good (let* i := create_instruction m s sam a b in Ok (i, ts)).
Proof.
  intros m s sam a b ts F E. unfold create_instruction. destruct (deduce_mode m sam a b) eqn:D; cbn [bind]; try exact Logic.I.
  - destruct (_ && _); [apply soft_suffix|]. split; assumption.
  - apply deduce_soft in D. subst. apply soft_mode.
Qed.
Ltac qt := first [assumption|apply quiet_tl; assumption|apply quiet_tl, quiet_tl; assumption].
Ltac gd := repeat first
  [ exact Logic.I | assumption
  | match goal with
    | |- good (bind (parse_expr _) _) => apply g_expr; [qt|]; intros
    | |- good (bind (consume _ _) _) => apply g_consume; [qt|]; intros
    | |- good (bind (at_end_or_suffix _) _) => apply g_suffix; [qt|intros|]
    | |- good (bind (confirm_at_end_or_suffix _) _) => apply g_confirm; [qt|intros]
    | |- good (bind (confirm_legal_register _ _) _) => apply g_register
    | |- good (bind (front _) _) => apply g_front; intros
    | |- good (bind (create_instruction _ _ _ _ _) _) => apply g_create; [qt|assumption]
    | |- good (if ?b then _ else _) => destruct b
    end ].
Lemma bare_good : forall m sfx ts, quiet ts -> good (p_bare m sfx ts).
Proof. intros m sfx ts F. unfold p_bare. cbv zeta. gd. Qed.
Lemma core_good : forall m ts, quiet ts -> good (parse_instruction_core (TMnem m :: ts)).
Proof.
  intros m ts F. unfold parse_instruction_core. cbv zeta. apply g_front. intros t.
  assert (P : quiet (snd (match t with TSuffix s => (s, tl ts) | _ => (S_none, ts) end))).
  { destruct t; try assumption. apply quiet_tl. assumption. }
  destruct (match t with TSuffix s => (s, tl ts) | _ => (S_none, ts) end) as [sfx ts1]. cbn [snd] in P.
  gd; try (apply bare_good; assumption).
Qed.
Lemma return_quiet : forall A ts (k : retconv * list token -> res (A * list token)), quiet ts -> good (k (RC_default, ts)) ->
  good (bind (parse_return_convention ts) k).
Proof.
  intros A [|t ts] k F H; [exact Logic.I|]. unfold parse_return_convention. cbn [front bind]. apply Forall_inv in F. destruct F as [-> ->]. exact H.
Qed.
Lemma instruction_good : forall m ts, quiet ts -> good (parse_instruction (TMnem m :: ts)).
Proof.
  intros m ts F. unfold parse_instruction. pose proof (core_good m ts F) as C. destruct (parse_instruction_core (TMnem m :: ts)) as [[i ts1]|e|u|]; cbn [bind]; try exact C.
  destruct C as [C1 C2]. apply return_quiet; [exact C1|]. cbn [rc_is_default negb andb]. split; assumption.
Qed.
Lemma list_good : forall f acc ts, quiet ts -> good (p_list f acc ts).
Proof.
  induction f as [|f IH]; intros acc ts F; [exact Logic.I|]. cbn [p_list]. apply g_expr; [exact F|]. intros e ts1 F1.
  destruct ts1 as [|t1 ts1]; [exact Logic.I|]. unfold at_end at 1. cbn [front bind]. destruct (tok_at_end t1) eqn:E.
  - split; [exact F1|]. unfold at_end. cbn. rewrite E. reflexivity.
  - apply g_consume; [exact F1|]. intros ts2 F2. apply IH. exact F2.
Qed.
Lemma g_mode : forall A ts (k : flags * list token -> res (A * list token)), quiet ts ->
  (forall f ts', quiet ts' -> good (k (f, ts'))) -> good (bind (p_mode ts) k).
Proof.
  intros A [|[] ts] k F H; try exact Logic.I; try apply soft_parse. cbn [p_mode]. destruct (flags_from_name s); [|apply soft_parse]. apply H. inversion F; assumption.
Qed.
Lemma directive_good : forall d ts, quiet ts -> good (parse_directive (TDir d :: ts)).
Proof.
  intros d ts F. unfold parse_directive. cbv zeta. destruct (directive_type_by_name d) eqn:DT.
  - apply g_at_end. intros E. split; assumption.
  - apply g_expr; [exact F|]. intros e ts1 F1. apply g_at_end. intros E. split; assumption.
  - apply g_expr; [exact F|]. intros e ts1 F1. destruct (requires_lookup e); [apply soft_parse|]. apply g_at_end. intros E. split; assumption.
  - apply g_mode; [exact F|]. intros f ts1 F1. apply g_at_end. intros E. apply return_quiet; [exact F1|]. apply g_at_end. intros E1. split; assumption.
  - apply g_mode; [exact F|]. intros f ts1 F1. cbn [bind]. apply return_quiet; [exact F1|]. apply g_at_end. intros E1. split; assumption.
  - pose proof (list_good (S (List.length ts)) [] ts F) as L. destruct (p_list _ _ _) as [[l ts1]|e|u|]; exact L.
  - apply g_expr; [exact F|]. intros e ts1 F1. destruct (simple_identifier e); [|apply soft_parse]. apply g_at_end. intros E. split; assumption.
  - apply g_expr; [exact F|]. intros e ts1 F1. apply g_mode; [exact F1|]. intros f ts2 F2. cbn [bind]. apply return_quiet; [exact F2|]. apply g_at_end. intros E1. split; assumption.
Qed.
Lemma loop_quiet : forall f acc ts e, parse_loop f acc ts = Err e -> quiet ts -> soft e.
Proof.
  induction f as [|f IH]; intros acc ts e H F; [discriminate H|]. cbn [parse_loop] in H.
  destruct ts as [|t0 ts0]; [discriminate H|]. set (ts := t0 :: ts0) in *.
  assert (PL : match p_label ts with Ok (_, ts', _) => quiet ts' | Err e => soft e | _ => True end).
  { clearbody ts. clear -F. unfold p_label. destruct (front ts) as [t| | |] eqn:FT; cbn [bind]; try exact Logic.I.
    2: { destruct ts; discriminate FT. }
    assert (Q : match (if is_punct P_export t then let* t' := front (tl ts) in match tok_ident t' with None => Err E_parse | Some _ => Ok (true, tl ts) end else Ok (false, ts))
       with Ok (_, ts') => quiet ts' | Err e => soft e | _ => True end).
    { destruct (is_punct P_export t); [|exact F]. apply quiet_tl in F. destruct (tl ts) as [|t' r]; [exact Logic.I|]. cbn [front bind]. destruct (tok_ident t'); [exact F|apply soft_parse]. }
    destruct (if is_punct P_export t then _ else _) as [[ex ts1]| | |]; cbn [bind]; try exact Q.
    destruct ts1 as [|[] ts1]; try exact Q. destruct ts1 as [|t' ts2]; [constructor|]. inversion Q; subst. destruct (is_char ":" t'); [|assumption]. inversion H2; assumption. }
  clearbody ts. destruct (p_label ts) as [[[lab ts1] cont]| | |]; cbn [bind] in H; try discriminate H.
  2: { injection H as <-. exact PL. }
  destruct cont; [eapply IH; [exact H|exact PL]|]. destruct ts1 as [|t ts1]; [discriminate H|]. cbn [front bind] in H.
  destruct (tok_at_end t); [discriminate H|]. pose proof (Forall_inv_tail PL) as PT.
  destruct (is_char "{" t || is_char "}" t); [eapply IH; [exact H|exact PT]|].
  destruct (tok_dir t) as [d|] eqn:TD.
  - destruct t; try discriminate TD. injection TD as <-. pose proof (directive_good d0 ts1 PT) as G.
    destruct (parse_directive (TDir d0 :: ts1)) as [[d1 ts2]|e1|u|]; cbn [bind] in H; try discriminate H; [|injection H as <-; exact G].
    destruct G as [G1 G2]. rewrite G2 in H. cbn [bind] in H. eapply IH; [exact H|apply quiet_tl; exact G1].
  - destruct (tok_mnem t) as [m|] eqn:TM; [|injection H as <-; apply soft_parse]. destruct t; try discriminate TM. injection TM as <-. pose proof (instruction_good m0 ts1 PT) as G.
    destruct (parse_instruction (TMnem m0 :: ts1)) as [[d1 ts2]|e1|u|]; cbn [bind] in H; try discriminate H; [|injection H as <-; exact G].
    destruct G as [G1 G2]. rewrite G2 in H. cbn [bind] in H. eapply IH; [exact H|apply quiet_tl; exact G1].
Qed.
Lemma parse_loud : forall ts e, parse ts = Err e -> ~ soft e -> exists p, In (TPunct p) ts /\ In p [P_yields; P_noreturn].
Proof.
  intros ts e H N. destruct (existsb (fun t => is_punct P_yields t || is_punct P_noreturn t) ts) eqn:E.
  - apply existsb_exists in E. destruct E as (t & I & E). destruct t; try discriminate E. exists p. split; [exact I|].
    apply orb_prop in E. destruct E as [E|E]; apply Z.eqb_eq in E; subst p; cbn; auto.
  - destruct N. eapply loop_quiet; [exact H|]. apply Forall_forall. intros t I. split; apply not_true_iff_false; intros X; apply not_true_iff_false in E; apply E;
    apply existsb_exists; exists t; (split; [exact I|]); rewrite X; [reflexivity|apply orb_true_r].
Qed.
