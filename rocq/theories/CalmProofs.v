(** Proofs: source text without arithmetic is harmless. *)
From Verif Require Import Base ModelNumeric ModelExpr ModelMnemonic ModelAMode ModelState ModelInstr ModelToken ModelStatement
  ModelParse ModelMap ModelModule ModelAssembler SpecArith SpecText SpecScope SpecSafe ArithProofs ParseProofs
  SafeProofs SafeRunProofs SafeAssembleProofs BaseProofs.
Open Scope list_scope.

Fixpoint calm_expr (e : expr) : Prop :=
  match e with
  | ELit v _ => 0 <= v <= 2 ^ 24
  | EId _ _ => True
  | EUn op a => op <> Op_neg /\ calm_expr a
  | EBin _ _ _ | ELabel _ _ => False
  end.
Lemma grammar_calm : forall l ts e, grammar l ts e -> Forall calm_token ts -> calm_expr e.
Proof.
  induction 1; intros F; cbn [calm_expr]; auto.
  - inversion F; subst. assumption.
  - inversion F; subst. apply IHgrammar. rewrite Forall_app in H3. apply H3.
  - inversion F; subst. split; [|auto]. intros ->. apply H2. cbn. auto.
  - apply Forall_app in F as [_ F]. inversion F; subst. destruct H as [->| ->]; apply H4; cbn; auto.
  - apply Forall_app in F as [_ F]. inversion F; subst. destruct H as [->| ->]; apply H4; cbn; auto.
Qed.
Lemma expr_calm : forall ts e r, parse_expr ts = Ok (e, r) -> Forall calm_token ts -> calm_expr e /\ Forall calm_token r.
Proof.
  intros ts e r P F. apply expression_rest in P as [(p & -> & G) _]. apply Forall_app in F as [F1 F2]. split; [|exact F2].
  eapply grammar_calm; eassumption.
Qed.

(** What a piece of the parser returns. *)
Definition keeps {A} (Q : A -> Prop) (r : res (A * list token)) : Prop :=
  match r with Ok (a, ts') => Q a /\ Forall calm_token ts' | _ => True end.
Definition calm_opt (a : option expr) : Prop := match a with Some e => calm_expr e | None => True end.
Definition calm_stmt (s : statement) : Prop := forall e, operand s e -> calm_expr e.
Lemma k_expr : forall A Q ts (k : expr * list token -> res (A * list token)), Forall calm_token ts ->
  (forall e ts', calm_expr e -> Forall calm_token ts' -> keeps Q (k (e, ts'))) -> keeps Q (bind (parse_expr ts) k).
Proof.
  intros A Q ts k F H. destruct (parse_expr ts) as [[e r]|e|u|] eqn:E; try exact I.
  destruct (expr_calm _ _ _ E F). apply H; assumption.
Qed.
Lemma k_consume : forall A Q c ts (k : list token -> res (A * list token)), Forall calm_token ts ->
  (forall ts', Forall calm_token ts' -> keeps Q (k ts')) -> keeps Q (bind (consume c ts) k).
Proof.
  intros A Q c [|t ts] k F H; [exact I|]. cbn [consume]. inversion F; subst. destruct (is_char c t); [apply H; assumption|exact I].
Qed.
Lemma k_any : forall A B Q (r : res B) (k : B -> res (A * list token)),
  (forall b, keeps Q (k b)) -> keeps Q (bind r k).
Proof. intros A B Q [b|e|u|] k H; try exact I. apply H. Qed.
Lemma calm_tl : forall ts, Forall calm_token ts -> Forall calm_token (tl ts).
Proof. intros [|t ts] F; [exact F|]. inversion F; assumption. Qed.
Definition calm_instr (i : instr) : Prop := calm_opt (i_arg1 i) /\ calm_opt (i_arg2 i).
Lemma k_create : forall m s sam a b ts, Forall calm_token ts -> calm_opt a -> calm_opt b ->
  keeps calm_instr (let* i := create_instruction m s sam a b in Ok (i, ts)).
Proof.
  intros m s sam a b ts F A B. unfold create_instruction. destruct (deduce_mode m sam a b); try exact I. cbn [bind].
  destruct (_ && _); [exact I|]. cbn. split; [split; assumption|exact F].
Qed.
Ltac kp := repeat first
  [ exact I | assumption
  | match goal with
    | |- keeps _ (bind (parse_expr _) _) => apply k_expr; [first [assumption|apply calm_tl; assumption|apply calm_tl, calm_tl; assumption]|]; intros
    | |- keeps _ (bind (consume _ _) _) => apply k_consume; [first [assumption|apply calm_tl; assumption|apply calm_tl, calm_tl; assumption]|]; intros
    | |- keeps _ (bind (create_instruction _ _ _ _ _) _) => apply k_create; [first [assumption|apply calm_tl; assumption|apply calm_tl, calm_tl; assumption]|cbn; assumption || exact I..]
    | |- keeps _ (bind _ _) => apply k_any; intros
    | |- keeps _ (if ?b then _ else _) => destruct b
    end ].
Lemma bare_calm : forall m sfx ts, Forall calm_token ts -> keeps calm_instr (p_bare m sfx ts).
Proof. intros m sfx ts F. unfold p_bare. cbv zeta. kp. Qed.
Lemma core_calm : forall ts, Forall calm_token ts -> keeps calm_instr (parse_instruction_core ts).
Proof.
  intros [|[] ts] F; try exact I. unfold parse_instruction_core. cbv zeta. inversion F; subst. apply k_any. intros t.
  assert (P : Forall calm_token (snd (match t with TSuffix s => (s, tl ts) | _ => (S_none, ts) end))).
  { destruct t; try assumption. apply calm_tl. assumption. }
  destruct (match t with TSuffix s => (s, tl ts) | _ => (S_none, ts) end) as [sfx ts1]. cbn [snd] in P.
  kp; try (apply bare_calm; assumption).
  all: try (apply k_create; [apply calm_tl, calm_tl; assumption|assumption|exact I]).
  all: try (apply k_consume; [apply calm_tl, calm_tl; assumption|intros]; kp).
Qed.
Lemma return_calm : forall ts, Forall calm_token ts -> keeps (fun _ => True) (parse_return_convention ts).
Proof.
  intros ts F. unfold parse_return_convention. apply k_any. intros t. destruct (is_punct P_noreturn t); [split; [exact I|apply calm_tl; exact F]|].
  destruct (is_punct P_yields t); [|split; [exact I|exact F]]. apply calm_tl in F. destruct (tl ts) as [|t1 ts1]; [exact I|].
  destruct t1; try exact I. cbn [p_mode]. destruct (flags_from_name s); [|exact I]. cbn. inversion F; subst. split; [exact I|assumption].
Qed.
Lemma k_bind : forall A B (P : A -> Prop) (Q : B -> Prop) r k, keeps P r ->
  (forall a ts', P a -> Forall calm_token ts' -> keeps Q (k (a, ts'))) -> keeps Q (bind r k).
Proof. intros A B P Q [[a ts']|e|u|] k H K; try exact I. apply K; apply H. Qed.
Lemma instruction_calm : forall ts, Forall calm_token ts -> keeps (fun i => calm_stmt (SInstr i)) (parse_instruction ts).
Proof.
  intros ts F. unfold parse_instruction. eapply k_bind; [apply core_calm; exact F|]. intros i ts1 [C1 C2] F1.
  eapply k_bind; [apply return_calm; exact F1|]. intros rc ts2 _ F2. destruct (_ && _); [exact I|]. split; [|exact F2].
  intros e [E|E]; cbn in E; [rewrite E in C1; exact C1|rewrite E in C2; exact C2].
Qed.
Lemma list_calm : forall f acc ts, Forall calm_token ts -> Forall calm_expr acc -> keeps (Forall calm_expr) (p_list f acc ts).
Proof.
  induction f as [|f IH]; intros acc ts F A; [exact I|]. cbn [p_list]. apply k_expr; [exact F|]. intros e ts1 C F1.
  assert (Forall calm_expr (acc ++ [e])) by (apply Forall_app; split; [exact A|constructor; [exact C|constructor]]).
  apply k_any. intros [|]; [split; assumption|]. apply k_consume; [exact F1|]. intros ts2 F2. apply IH; assumption.
Qed.
Lemma mode_calm : forall ts, Forall calm_token ts -> keeps (fun _ => True) (p_mode ts).
Proof.
  intros [|[] ts] F; try exact I. cbn [p_mode]. destruct (flags_from_name s); [|exact I]. inversion F; subst. split; [exact I|assumption].
Qed.
Lemma directive_calm : forall ts, Forall calm_token ts -> keeps (fun d => calm_stmt (SDir d)) (parse_directive ts).
Proof.
  intros [|[] ts] F; try exact I. inversion F; subst. clear F. unfold parse_directive. cbv zeta.
  assert (K : forall dt arg ts1, calm_opt arg -> Forall calm_token ts1 -> keeps (fun d => calm_stmt (SDir d))
    (let* (f, ts) := p_mode ts1 in
     let* _ := match dt with DT_flag_arg => confirm_at_end ts | _ => Ok tt end in
     let* (rc, ts) := parse_return_convention ts in
     let* _ := confirm_at_end ts in Ok (Directive d arg f rc [], ts))).
  { intros dt arg ts1 A F. eapply k_bind; [apply mode_calm; exact F|]. intros f ts2 _ F2. apply k_any. intros _.
    eapply k_bind; [apply return_calm; exact F2|]. intros rc ts3 _ F3. apply k_any. intros _. split; [|exact F3].
    intros e [E|E]; cbn in E; [rewrite E in A; exact A|destruct E]. }
  assert (N : calm_stmt (SDir (Directive d None default_flags RC_default []))).
  { intros e [E|E]; [discriminate E|destruct E]. }
  assert (O : forall a, calm_expr a -> calm_stmt (SDir (Directive d (Some a) default_flags RC_default []))).
  { intros a A e [E|E]; [cbn in E; injection E as <-; exact A|destruct E]. }
  destruct (directive_type_by_name d).
  - apply k_any. intros _. split; assumption.
  - apply k_expr; [assumption|]. intros e ts1 C F1. cbn. apply k_any. intros _. split; [apply O; exact C|exact F1].
  - apply k_expr; [assumption|]. intros e ts1 C F1. cbn. destruct (requires_lookup e); [exact I|]. apply k_any. intros _. split; [apply O; exact C|exact F1].
  - apply (K DT_flag_arg); [exact I|assumption].
  - apply (K DT_calling_convention_arg); [exact I|assumption].
  - eapply k_bind; [apply list_calm; [assumption|constructor]|]. intros l ts1 C F1. split; [|exact F1].
    intros e [E|E]; [discriminate E|]. cbn in E. rewrite Forall_forall in C. exact (C e E).
  - apply k_expr; [assumption|]. intros e ts1 C F1. cbn. destruct (simple_identifier e); [|exact I]. apply k_any. intros _. split; [apply O; exact C|exact F1].
  - apply k_expr; [assumption|]. intros e ts1 C F1. apply (K DT_remote_arg); assumption.
Qed.
Definition calm_parsed (p : parsed) : Prop := match p with PStmt s => calm_stmt s | _ => True end.
Lemma loop_calm : forall f acc ts l, parse_loop f acc ts = Ok l -> Forall calm_token ts -> Forall calm_parsed acc -> Forall calm_parsed l.
Proof.
  induction f as [|f IH]; intros acc ts l H T F; [discriminate H|]. cbn [parse_loop] in H.
  destruct ts as [|t0 ts0]; [injection H as <-; exact F|]. set (ts := t0 :: ts0) in *. clearbody ts.
  bok H as p E. destruct p as [[lab ts1] cont].
  assert (FL : Forall calm_parsed (acc ++ lab) /\ Forall calm_token ts1).
  { unfold p_label in E. bok E as t T0. bok E as q Q. destruct q as [ex ts2].
    assert (F2 : Forall calm_token ts2).
    { destruct (is_punct P_export t).
      - bok Q as t' T'. destruct (tok_ident t'); [|discriminate Q]. injection Q as _ <-. apply calm_tl. exact T.
      - injection Q as _ <-. exact T. }
    assert (AP : forall n x, Forall calm_parsed (acc ++ [PLabel n x])) by (intros; apply Forall_app; split; [exact F|repeat constructor]).
    destruct ts2 as [|[] ts3]; try (injection E as <- <- _; rewrite app_nil_r; split; assumption).
    inversion F2; subst.
    destruct ts3 as [|t' ts4]; [injection E as <- <- _; split; [apply AP|assumption]|].
    destruct (is_char ":" t'); injection E as <- <- _; (split; [apply AP|]); [|assumption]. inversion H3; assumption. }
  destruct FL as [FL T1].
  destruct cont; [eapply IH; [exact H|exact T1|exact FL]|]. bok H as t T2. destruct (tok_at_end t); [injection H as <-; exact FL|].
  destruct (is_char "{" t || is_char "}" t).
  { eapply IH; [exact H|apply calm_tl; exact T1|]. apply Forall_app. split; [exact FL|]. constructor; [|constructor]. intros e [X|X]; [discriminate X|destruct X]. }
  destruct (tok_dir t).
  - pose proof (directive_calm ts1 T1) as K. bok H as q Q. rewrite Q in K. destruct q as [d1 ts2]. destruct K as [K1 K2].
    bok H as b B. destruct b; [|discriminate H]. eapply IH; [exact H|apply calm_tl; exact K2|].
    apply Forall_app. split; [exact FL|]. constructor; [exact K1|constructor].
  - destruct (tok_mnem t); [|discriminate H]. pose proof (instruction_calm ts1 T1) as K. bok H as q Q. rewrite Q in K.
    destruct q as [i1 ts2]. destruct K as [K1 K2]. bok H as b B. destruct b; [|discriminate H].
    eapply IH; [exact H|apply calm_tl; exact K2|]. apply Forall_app. split; [exact FL|]. constructor; [exact K1|constructor].
Qed.
Lemma source_calm : forall files s, calm files -> in_source files s -> calm_stmt s.
Proof.
  intros files s C (file & src & labels & IN & (ess & R & ->) & H).
  assert (P : Forall calm_parsed (concat ess)).
  { specialize (C file). clear H. assert (C' : forall line ts, In line file -> tokenize line = Ok ts -> Forall calm_token ts) by (intros; eapply C; eassumption).
    clear C IN. induction R as [|line es file ess (ts & T & P) R IH]; [constructor|]. cbn. apply Forall_app. split.
    - eapply loop_calm; [exact P|eapply C'; [left; reflexivity|exact T]|constructor].
    - apply IH. intros l t I. apply C'. right. exact I. }
  clear R. revert H P. generalize (concat ess) as l, (@nil (string * bool)) as pending. clear.
  induction l as [|[n x|s'] l IH]; intros pending H P; cbn in H; [destruct H| |]; inversion P; subst.
  - eapply IH; eassumption.
  - destruct H as [H|H]; [injection H as <- <-; assumption|eapply IH; eassumption].
Qed.

Lemma means_calm : forall env e v, means env e v -> calm_expr e -> (forall i w, env i = Some w -> 0 <= w <= 2 ^ 24) ->
  0 <= v <= 2 ^ 24.
Proof.
  induction 1; intros C E; cbn [calm_expr] in C; try contradiction; auto.
  - eapply E. eassumption.
  - destruct C as [C _]. contradiction.
  - pose proof (Z.mod_pos_bound a (2 ^ 8) ltac:(lia)). lia.
  - pose proof (Z.mod_pos_bound (a / 2 ^ 8) (2 ^ 8) ltac:(lia)). lia.
  - pose proof (Z.mod_pos_bound (a / 2 ^ 16) (2 ^ 8) ltac:(lia)). lia.
Qed.
Lemma overflows_calm : forall env e, overflows env e -> calm_expr e -> False.
Proof. induction 1; intros C; cbn in C; try contradiction; destruct C; auto. Qed.
Lemma eval_calm : forall e u, calm_expr e -> eval null_ctx e <> UB u.
Proof.
  induction e; intros u C; cbn in *; try discriminate; try contradiction. destruct C as [N C]. destruct (eval null_ctx e) eqn:E; cbn; try discriminate.
  - destruct op; [contradiction|discriminate..].
  - exfalso. exact (IHe u0 C eq_refl).
Qed.
Lemma possible_calm : forall files v, calm files -> possible files v -> 0 <= v <= 2 ^ 24.
Proof.
  intros files v C. induction 1 as [v H|d e env v S D A _ IH M]; [exact H|].
  eapply means_calm; [exact M| |exact IH]. apply (source_calm _ _ C S). left. exact A.
Qed.
Lemma calm_assemble : forall files sk fuel ws u, returns sk -> calm files -> ~ leaves_m files -> ~ leaves_x files ->
  assemble fuel sk files <> (ws, UB u).
Proof.
  intros files sk fuel ws u R C LM LX A. apply assemble_causes in A; [|exact R]. destruct A.
  - specialize (C _ _ _ H H0 H1). destruct H2 as (pre & suf & e & rest & -> & P & E). apply Forall_app in C as [_ C].
    destruct (expr_calm _ _ _ P C) as [C1 _]. exact (eval_calm _ _ C1 E).
  - eapply overflows_calm; [eassumption|]. eapply source_calm; eassumption.
  - assert (0 <= v <= 2 ^ 24); [|lia]. eapply means_calm; [eassumption| |intros; discriminate].
    eapply (source_calm _ _ C H). left. assumption.
  - assert (0 <= v <= 2 ^ 24).
    + eapply means_calm; [eassumption| |intros i w E; eapply possible_calm; [exact C|eauto]].
      eapply (source_calm _ _ C H). destruct s; [left; apply H0|left; apply H0].
    + rewrite Z.mod_small in H3; lia.
  - destruct H0 as [[_ L]|[_ L]]; contradiction.
Qed.
