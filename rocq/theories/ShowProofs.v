(** Proofs: printed statements read back. *)
From Verif Require Import Base ModelNumeric ModelExpr ModelMnemonic ModelAMode ModelOpcode ModelState ModelInstr ModelToken ModelStatement
  ModelParse ModelInteractive SpecArith SpecText SpecInstr SpecScope SpecSafe SpecShow BaseProofs NameProofs TokenProofs TextProofs ParseProofs ModeProofs PrintProofs ToolTextProofs.
Open Scope string_scope.
Open Scope list_scope.
Open Scope Z_scope.

(** ** What the tokenizer makes. *)
Definition tok_ok (t : token) : Prop :=
  match t with
  | TIdent n => identifier n
  | TLit v t => (t = T_byte \/ t = T_word \/ t = T_long \/ t = T_unknown) /\ int_min <= v <= int_max
  | _ => True
  end.
Lemma strtol_max : forall base s, int_min <= strtol_int base s <= int_max.
Proof.
  intros base s. unfold strtol_int, to_int32, int_max, int_min. set (m := Z.min _ _).
  pose proof (Z.mod_pos_bound m (2 ^ 32) ltac:(lia)). repeat match goal with |- context [if ?b then _ else _] => destruct b eqn:? end; lia.
Qed.
Lemma word_ok : forall c w, is_ident_first c = true -> str_all is_ident_char w = true -> tok_ok (word_token (String c w)).
Proof.
  intros c w F A. destruct (word_token (String c w)) eqn:E; try exact Logic.I.
  - assert (X : s = String c w).
    { unfold word_token in E. destruct (to_mnemonic _); [discriminate E|]. destruct (match w with EmptyString => _ | _ => _ end); [discriminate E|].
      repeat destruct (String.eqb _ _); try discriminate E. injection E as <-. reflexivity. }
    subst s. exists c, w. auto.
  - exfalso. unfold word_token in E. destruct (to_mnemonic _); [discriminate E|]. destruct (match w with EmptyString => _ | _ => _ end); [discriminate E|].
    repeat destruct (String.eqb _ _); discriminate E.
Qed.
Lemma take_ok : forall base f ty s, (forall d, ty d = T_byte \/ ty d = T_word \/ ty d = T_long \/ ty d = T_unknown) -> tok_ok (fst (take_lit base f ty s)).
Proof. intros base f ty s H. unfold take_lit. destruct (span f s). split; [apply H|apply strtol_max]. Qed.
Lemma hex_ok : forall d, hex_type d = T_byte \/ hex_type d = T_word \/ hex_type d = T_long \/ hex_type d = T_unknown.
Proof. intros d. unfold hex_type. repeat destruct (_ <=? _)%nat; auto. Qed.
Lemma bin_ok : forall d, bin_type d = T_byte \/ bin_type d = T_word \/ bin_type d = T_long \/ bin_type d = T_unknown.
Proof. intros d. unfold bin_type. repeat destruct (_ <=? _)%nat; auto. Qed.
Lemma next_ok : forall s t rest, next_token s = Ok (t, rest) -> tok_ok t.
Proof.
  intros s t rest H. rewrite next_token_eq in H. destruct s as [|c r]; [discriminate H|]. unfold next_alt in H.
  repeat match type of H with
  | (if ?b then _ else _) = _ => let B := fresh "B" in destruct b eqn:B
  | Ok (TPunct _, _) = _ => injection H as <- _; exact Logic.I
  | Ok (take_lit ?a ?b ?c ?d) = _ => let X := fresh in pose proof (take_ok a b c d) as X; destruct (take_lit a b c d); injection H as <- _; apply X; first [exact hex_ok|exact bin_ok|auto]
  | Err _ = _ => discriminate H
  end.
  - destruct (span is_ident_char r). unfold dotted_token in H. destruct (to_directive_name _); [injection H as <- _; exact Logic.I|]. destruct (to_suffix _); [injection H as <- _; exact Logic.I|discriminate H].
  - destruct (span is_ident_char r) as [w r'] eqn:S. apply span_split in S as (_ & A & _). injection H as <- _. apply word_ok; assumption.
Qed.
Lemma tokens_ok : forall s ts, tokenize s = Ok ts -> Forall tok_ok ts.
Proof.
  intros s. induction s as [s E|s r E|s c r e E Hc En|s c r t rest E Hc En Ht IH] using tokenize_ind; intros ts H; rewrite tokenize_eq, E in H.
  - injection H as <-. repeat constructor.
  - injection H as <-. repeat constructor.
  - destruct (Ascii.eqb_spec c ";"); [contradiction|]. rewrite En in H. discriminate H.
  - destruct (Ascii.eqb_spec c ";"); [contradiction|]. rewrite En in H. destruct (tokenize rest) eqn:T; try discriminate H.
    cbn in H. injection H as <-. constructor; [eapply next_ok; exact En|apply IH; reflexivity].
Qed.
(** ** What the parser makes of it. *)
Fixpoint expr_ok (e : expr) : Prop :=
  match e with
  | ELit v t => (t = T_byte \/ t = T_word \/ t = T_long \/ t = T_unknown) /\ cast_to t v = v /\ (t = T_unknown -> int_min <= v <= int_max)
  | EId id t => (t = T_word \/ t = T_long) /\ identifier (fi_name id) /\ match fi_module id with None => True | Some m => m = "" \/ identifier m end
  | EUn _ a => expr_ok a
  | EBin _ l r => expr_ok l /\ expr_ok r
  | ELabel _ _ => False
  end.
Lemma cast_twice : forall t v, t = T_byte \/ t = T_word \/ t = T_long \/ t = T_unknown -> cast_to t (cast_to t v) = cast_to t v.
Proof. intros t v [->|[->|[->| ->]]]; cbn [cast_to]; try reflexivity; rewrite <- Z.land_assoc; reflexivity. Qed.
Lemma grammar_ok : forall l ts e, grammar l ts e -> Forall tok_ok ts -> expr_ok e.
Proof.
  induction 1; intros F; cbn [expr_ok fi_name fi_module]; auto.
  - apply Forall_inv in F. destruct F as [A B]. split; [exact A|]. split; [apply cast_twice; exact A|]. intros ->. exact B.
  - inversion F; subst. auto.
  - pose proof (Forall_inv F). apply Forall_inv_tail, Forall_inv_tail, Forall_inv in F. auto.
  - apply Forall_inv_tail, Forall_inv in F. auto.
  - inversion F; subst. match goal with G : Forall tok_ok ts |- _ => destruct (IHgrammar G) as (_ & X) end. auto.
  - inversion F; subst. apply IHgrammar. rewrite Forall_app in H3. apply H3.
  - inversion F; subst. auto.
  - apply Forall_app in F as [F1 F2]. inversion F2; subst. auto.
  - apply Forall_app in F as [F1 F2]. inversion F2; subst. auto.
Qed.
Lemma expr_parsed : forall ts e r, parse_expr ts = Ok (e, r) -> Forall tok_ok ts -> expr_ok e /\ Forall tok_ok r.
Proof.
  intros ts e r P F. apply expression_rest in P as [(p & -> & G) _]. apply Forall_app in F as [F1 F2]. split; [|exact F2].
  eapply grammar_ok; eassumption.
Qed.
Definition keeps {A} (Q : A -> Prop) (r : res (A * list token)) : Prop :=
  match r with Ok (a, ts') => Q a /\ Forall tok_ok ts' | _ => True end.
Lemma k_expr : forall A Q ts (k : expr * list token -> res (A * list token)), Forall tok_ok ts ->
  (forall e ts', expr_ok e -> Forall tok_ok ts' -> keeps Q (k (e, ts'))) -> keeps Q (bind (parse_expr ts) k).
Proof.
  intros A Q ts k F H. destruct (parse_expr ts) as [[e r]|e|u|] eqn:E; try exact Logic.I.
  destruct (expr_parsed _ _ _ E F). apply H; assumption.
Qed.
Lemma k_consume : forall A Q c ts (k : list token -> res (A * list token)), Forall tok_ok ts ->
  (forall ts', Forall tok_ok ts' -> keeps Q (k ts')) -> keeps Q (bind (consume c ts) k).
Proof.
  intros A Q c [|t ts] k F H; [exact Logic.I|]. cbn [consume]. inversion F; subst. destruct (is_char c t); [apply H; assumption|exact Logic.I].
Qed.
Lemma k_any : forall A B Q (r : res B) (k : B -> res (A * list token)),
  (forall b, keeps Q (k b)) -> keeps Q (bind r k).
Proof. intros A B Q [b|e|u|] k H; try exact Logic.I. apply H. Qed.
Lemma ok_tl : forall ts, Forall tok_ok ts -> Forall tok_ok (tl ts).
Proof. intros [|t ts] F; [exact F|]. inversion F; assumption. Qed.
(** Operands as the syntax has them. *)
Definition shaped (s : samode) (a b : option expr) : Prop :=
  match s with
  | SA_imp | SA_acc => a = None /\ b = None
  | SA_mov => exists x y, a = Some x /\ b = Some y /\ expr_ok x /\ expr_ok y
  | _ => exists x, a = Some x /\ b = None /\ expr_ok x
  end.
Definition core_ok (i : instr) : Prop :=
  (exists s, deduce_mode (i_mnem i) s (i_arg1 i) (i_arg2 i) = Ok (i_mode i) /\ shaped s (i_arg1 i) (i_arg2 i)) /\
  (i_suffix i <> S_none -> flag_controlling_size (i_mnem i) <> NotVariable).
Local Opaque deduce_mode flag_controlling_size.
Lemma k_create : forall m s sam a b ts, Forall tok_ok ts -> shaped sam a b ->
  keeps core_ok (let* i := create_instruction m s sam a b in Ok (i, ts)).
Proof.
  intros m s sam a b ts F S. unfold create_instruction. destruct (deduce_mode m sam a b) eqn:D; try exact Logic.I. cbn [bind].
  destruct (_ && _) eqn:B; [exact Logic.I|]. cbn. split; [|exact F]. split; [exists sam; split; assumption|]. cbn. intros N V. rewrite V in B.
  destruct s; [contradiction N; reflexivity|discriminate B..].
Qed.
Ltac tk := first [assumption|apply ok_tl; assumption|apply ok_tl, ok_tl; assumption].
Ltac sh := cbn; first [split; reflexivity | eexists; split; [reflexivity|split; [reflexivity|assumption]] | eexists; eexists; split; [reflexivity|split; [reflexivity|split; assumption]]].
Ltac kp := repeat first
  [ exact Logic.I | assumption
  | match goal with
    | |- keeps _ (bind (parse_expr _) _) => apply k_expr; [tk|]; intros
    | |- keeps _ (bind (consume _ _) _) => apply k_consume; [tk|]; intros
    | |- keeps _ (bind (create_instruction _ _ _ _ _) _) => apply k_create; [tk|sh]
    | |- keeps _ (bind _ _) => apply k_any; intros
    | |- keeps _ (if ?b then _ else _) => destruct b
    end ].
Lemma bare_ok : forall m sfx ts, Forall tok_ok ts -> keeps core_ok (p_bare m sfx ts).
Proof. intros m sfx ts F. unfold p_bare. cbv zeta. kp. Qed.
Lemma core_parsed : forall ts, Forall tok_ok ts -> keeps core_ok (parse_instruction_core ts).
Proof.
  intros [|[] ts] F; try exact Logic.I. unfold parse_instruction_core. cbv zeta. inversion F; subst. apply k_any. intros t.
  assert (P : Forall tok_ok (snd (match t with TSuffix s => (s, tl ts) | _ => (S_none, ts) end))).
  { destruct t; try assumption. apply ok_tl. assumption. }
  destruct (match t with TSuffix s => (s, tl ts) | _ => (S_none, ts) end) as [sfx ts1]. cbn [snd] in P.
  kp; try (apply bare_ok; assumption).
Qed.
Definition ret_ok (r : retconv) : Prop := match r with RC_yields f => exists s, flags_from_name s = Some f | _ => True end.
Lemma return_parsed : forall ts, Forall tok_ok ts -> keeps ret_ok (parse_return_convention ts).
Proof.
  intros ts F. unfold parse_return_convention. apply k_any. intros t. destruct (is_punct P_noreturn t); [split; [exact Logic.I|apply ok_tl; exact F]|].
  destruct (is_punct P_yields t); [|split; [exact Logic.I|exact F]]. apply ok_tl in F. destruct (tl ts) as [|t1 ts1]; [exact Logic.I|].
  destruct t1; try exact Logic.I. cbn [p_mode]. destruct (flags_from_name s) eqn:E; [|exact Logic.I]. cbn. inversion F; subst. split; [eauto|assumption].
Qed.
Lemma k_bind : forall A B (P : A -> Prop) (Q : B -> Prop) r k, keeps P r ->
  (forall a ts', P a -> Forall tok_ok ts' -> keeps Q (k (a, ts'))) -> keeps Q (bind r k).
Proof. intros A B P Q [[a ts']|e|u|] k H K; try exact Logic.I. apply K; apply H. Qed.
Definition instr_ok (i : instr) : Prop :=
  core_ok i /\ ret_ok (i_ret i) /\ (i_ret i <> RC_default -> i_mnem i = M_jsl \/ i_mnem i = M_jsr).
Lemma instruction_parsed : forall ts, Forall tok_ok ts -> keeps instr_ok (parse_instruction ts).
Proof.
  intros ts F. unfold parse_instruction. eapply k_bind; [apply core_parsed; exact F|]. intros i ts1 C F1.
  eapply k_bind; [apply return_parsed; exact F1|]. intros rc ts2 R F2. destruct (_ && _) eqn:B; [exact Logic.I|]. split; [|exact F2].
  split; [exact C|]. split; [exact R|]. cbn [i_ret i_mnem]. intros N. destruct rc; [contradiction N; reflexivity|..]; cbn [rc_is_default negb andb] in B;
  destruct (i_mnem i); try discriminate B; auto.
Qed.
Lemma list_parsed : forall f acc ts, Forall tok_ok ts -> Forall expr_ok acc -> keeps (fun l => l <> [] /\ Forall expr_ok l) (p_list f acc ts).
Proof.
  induction f as [|f IH]; intros acc ts F A; [exact Logic.I|]. cbn [p_list]. apply k_expr; [exact F|]. intros e ts1 C F1.
  assert (Forall expr_ok (acc ++ [e])) by (apply Forall_app; split; [exact A|constructor; [exact C|constructor]]).
  apply k_any. intros [|]; [split; [split; [destruct acc; discriminate|assumption]|assumption]|]. apply k_consume; [exact F1|]. intros ts2 F2. apply IH; assumption.
Qed.
Lemma mode_parsed : forall ts, Forall tok_ok ts -> keeps (fun f => exists s, flags_from_name s = Some f) (p_mode ts).
Proof.
  intros [|[] ts] F; try exact Logic.I. cbn [p_mode]. destruct (flags_from_name s) eqn:E; [|exact Logic.I]. inversion F; subst. split; [eauto|assumption].
Qed.
Definition dir_ok (d : directive) : Prop :=
  match directive_type_by_name (d_name d) with
  | DT_no_arg => d_arg d = None /\ d_flags d = default_flags /\ d_ret d = RC_default /\ d_list d = []
  | DT_single_arg | DT_constant_arg | DT_name_arg => exists e, d_arg d = Some e /\ expr_ok e /\ d_flags d = default_flags /\ d_ret d = RC_default /\ d_list d = [] /\
      (d_name d = D_org -> requires_lookup e = false) /\ (d_name d = D_module -> simple_identifier e <> None)
  | DT_flag_arg => d_arg d = None /\ (exists s, flags_from_name s = Some (d_flags d)) /\ d_ret d = RC_default /\ d_list d = []
  | DT_calling_convention_arg => d_arg d = None /\ (exists s, flags_from_name s = Some (d_flags d)) /\ ret_ok (d_ret d) /\ d_list d = []
  | DT_list_arg => d_arg d = None /\ d_flags d = default_flags /\ d_ret d = RC_default /\ d_list d <> [] /\ Forall expr_ok (d_list d)
  | DT_remote_arg => exists e, d_arg d = Some e /\ expr_ok e
  end.
Lemma at_end_default : forall ts r ts', confirm_at_end ts = Ok tt -> parse_return_convention ts = Ok (r, ts') -> r = RC_default.
Proof.
  intros [|t ts] r ts' C P; [discriminate C|]. unfold confirm_at_end, at_end in C. unfold parse_return_convention in P. cbn [front bind] in *.
  destruct (tok_at_end t) eqn:E; [|discriminate C]. unfold tok_at_end in E. apply orb_prop in E. destruct t; try (destruct E; discriminate).
  - destruct E as [E|E]; [discriminate E|]. cbn [is_char is_punct] in *. apply Z.eqb_eq in E. subst p. injection P as <- _. reflexivity.
  - injection P as <- _. reflexivity.
Qed.
Lemma directive_parsed : forall ts, Forall tok_ok ts -> keeps dir_ok (parse_directive ts).
Proof.
  intros [|[] ts] F; try exact Logic.I. inversion F; subst. clear F. unfold parse_directive. cbv zeta. unfold dir_ok.
  destruct (directive_type_by_name d) eqn:DT.
  - apply k_any. intros _. split; [cbn [d_name]; rewrite DT; repeat split|assumption].
  - apply k_expr; [assumption|]. intros e ts1 C F1. apply k_any. intros _. split; [|exact F1]. cbn [d_name d_arg d_flags d_ret d_list]. rewrite DT. exists e.
    do 5 (split; [auto|]). split; intros ->; discriminate DT.
  - apply k_expr; [assumption|]. intros e ts1 C F1. destruct (requires_lookup e) eqn:RL; [exact Logic.I|]. apply k_any. intros _. split; [|exact F1]. cbn [d_name d_arg d_flags d_ret d_list]. rewrite DT. exists e.
    do 5 (split; [auto|]). split; [auto|intros ->; discriminate DT].
  - eapply k_bind; [apply mode_parsed; assumption|]. intros f ts2 FN F2. destruct (confirm_at_end ts2) as [[]| | |] eqn:CE; try exact Logic.I. cbn [bind].
    destruct (parse_return_convention ts2) as [[rc ts3]| | |] eqn:PR; try exact Logic.I. cbn [bind].
    pose proof (return_parsed ts2 F2) as K. rewrite PR in K. destruct K as [_ F3]. apply k_any. intros _. split; [|exact F3]. cbn [d_name d_arg d_flags d_ret d_list]. rewrite DT.
    rewrite (at_end_default _ _ _ CE PR). auto.
  - eapply k_bind; [apply mode_parsed; assumption|]. intros f ts2 FN F2. apply k_any. intros _. eapply k_bind; [apply return_parsed; exact F2|]. intros rc ts3 R F3.
    apply k_any. intros _. split; [|exact F3]. cbn [d_name d_arg d_flags d_ret d_list]. rewrite DT. auto.
  - eapply k_bind; [apply list_parsed; [assumption|constructor]|]. intros l ts1 [N C] F1. split; [|exact F1]. cbn [d_name d_arg d_flags d_ret d_list]. rewrite DT. auto.
  - apply k_expr; [assumption|]. intros e ts1 C F1. destruct (simple_identifier e) eqn:SI; [|exact Logic.I]. apply k_any. intros _. split; [|exact F1]. cbn [d_name d_arg d_flags d_ret d_list]. rewrite DT. exists e.
    do 5 (split; [auto|]). split; [intros ->; discriminate DT|intros _; rewrite SI; discriminate].
  - apply k_expr; [assumption|]. intros e ts1 C F1. eapply k_bind; [apply mode_parsed; assumption|]. intros f ts2 FN F2. apply k_any. intros _. eapply k_bind; [apply return_parsed; exact F2|]. intros rc ts3 R F3.
    apply k_any. intros _. split; [|exact F3]. cbn [d_name d_arg d_flags d_ret d_list]. rewrite DT. exists e. auto.
Qed.
Definition entity_ok (p : parsed) : Prop := match p with PStmt (SInstr i) => instr_ok i | PStmt (SDir d) => dir_ok d | PLabel n _ => identifier n end.
Lemma loop_parsed : forall f acc ts l, parse_loop f acc ts = Ok l -> Forall tok_ok ts -> Forall entity_ok acc -> Forall entity_ok l.
Proof.
  induction f as [|f IH]; intros acc ts l H T F; [discriminate H|]. cbn [parse_loop] in H.
  destruct ts as [|t0 ts0]; [injection H as <-; exact F|]. set (ts := t0 :: ts0) in *. clearbody ts.
  bok H as p E. destruct p as [[lab ts1] cont].
  assert (FL : Forall entity_ok (acc ++ lab) /\ Forall tok_ok ts1).
  { unfold p_label in E. bok E as t T0. bok E as q Q. destruct q as [ex ts2].
    assert (F2 : Forall tok_ok ts2).
    { destruct (is_punct P_export t).
      - bok Q as t' T'. destruct (tok_ident t'); [|discriminate Q]. injection Q as _ <-. apply ok_tl. exact T.
      - injection Q as _ <-. exact T. }
    assert (AP : forall n x, identifier n -> Forall entity_ok (acc ++ [PLabel n x])) by (intros; apply Forall_app; split; [exact F|repeat constructor; assumption]).
    destruct ts2 as [|[] ts3]; try (injection E as <- <- _; rewrite app_nil_r; split; assumption).
    inversion F2; subst.
    destruct ts3 as [|t' ts4]; [injection E as <- <- _; split; [apply AP; assumption|assumption]|].
    destruct (is_char ":" t'); injection E as <- <- _; (split; [apply AP; assumption|]); [|assumption]. inversion H3; assumption. }
  destruct FL as [FL T1].
  destruct cont; [eapply IH; [exact H|exact T1|exact FL]|]. bok H as t T2. destruct (tok_at_end t); [injection H as <-; exact FL|].
  destruct (is_char "{" t || is_char "}" t).
  { eapply IH; [exact H|apply ok_tl; exact T1|]. apply Forall_app. split; [exact FL|]. constructor; [|constructor]. destruct (is_char "{" t); cbn; auto. }
  destruct (tok_dir t).
  - pose proof (directive_parsed ts1 T1) as K. bok H as q Q. rewrite Q in K. destruct q as [d1 ts2]. destruct K as [K1 K2].
    bok H as b B. destruct b; [|discriminate H]. eapply IH; [exact H|apply ok_tl; exact K2|].
    apply Forall_app. split; [exact FL|]. constructor; [exact K1|constructor].
  - destruct (tok_mnem t); [|discriminate H]. pose proof (instruction_parsed ts1 T1) as K. bok H as q Q. rewrite Q in K.
    destruct q as [i1 ts2]. destruct K as [K1 K2]. bok H as b B. destruct b; [|discriminate H].
    eapply IH; [exact H|apply ok_tl; exact K2|]. apply Forall_app. split; [exact FL|]. constructor; [exact K1|constructor].
Qed.
Lemma line_parsed : forall line l, read_as line l -> Forall entity_ok l.
Proof. intros line l (ts & T & P). eapply loop_parsed; [exact P|eapply tokens_ok; exact T|constructor]. Qed.

(** ** Printed operands. *)
Lemma dec_digit : forall d, 0 <= d < 10 -> digit 10 (hex_digit d) d.
Proof.
  intros d H. assert (C : In d [0;1;2;3;4;5;6;7;8;9]) by (cbn; lia).
  cbn [In] in C. repeat destruct C as [<-|C]; try contradiction; (split; [lia|left; reflexivity]).
Qed.
Lemma dec_numeral : forall f v, 0 <= v < 10 ^ Z.of_nat f -> (0 < f)%nat -> exists n, 0 < n /\ numeral 10 (dec_digits f v) n v.
Proof.
  induction f as [|f IH]; intros v V N; [lia|]. cbn [dec_digits]. destruct (Z.ltb_spec v 10).
  - exists 1. split; [lia|]. pose proof (numeral_snoc 10 "" 0 0 (hex_digit v) v (nu_nil 10) (dec_digit v ltac:(lia)) ltac:(lia)) as X. cbn in X. exact X.
  - rewrite Nat2Z.inj_succ, Z.pow_succ_r in V by lia. assert (f <> 0%nat) by (intros ->; cbn in V; lia).
    destruct (IH (v / 10)) as (n & P & Q); [split; [apply Z.div_pos; lia|apply Z.div_lt_upper_bound; lia]|lia|].
    exists (n + 1). split; [lia|]. replace v with (v / 10 * 10 + v mod 10) at 3 by (pose proof (Z.div_mod v 10); lia).
    apply numeral_snoc; [exact Q|apply dec_digit, Z.mod_pos_bound; lia|lia].
Qed.
Lemma ends_dec : forall s, ends_word s -> ends_numeral 10 s.
Proof.
  intros s E c r d X D. apply (ends_hex s E c r d X). destruct D as [D1 D2]. split; [lia|exact D2].
Qed.
Lemma lex_dec : forall v, 0 <= v <= int_max -> lexes (lit_to_string v T_unknown) [TLit v T_unknown].
Proof.
  intros v V r ts E T. destruct (literals r ts T) as (_ & _ & L). unfold lit_to_string. cbn [cast_to]. unfold dec_string. destruct (Z.ltb_spec v 0); [lia|].
  destruct (dec_numeral 20 v) as (n & N & Q); [unfold int_max in V; lia|lia|]. apply (L _ n v Q N); [lia|apply ends_dec; exact E|].
  intros x r' _ ->. unfold ends_word in E. cbn in E. split; intros ->; discriminate E.
Qed.
Lemma lex_scope : forall r, tokenize (String ":" (String ":" r)) = tok_cons (TPunct P_scope) (tokenize r).
Proof.
  intros r. rewrite (tokenize_next ":" (String ":" r) (TPunct P_scope) r); [reflexivity|reflexivity|discriminate|].
  rewrite next_token_eq. reflexivity.
Qed.
Lemma lex_id : forall id, identifier (fi_name id) -> match fi_module id with None => True | Some m => m = "" \/ identifier m end ->
  lexes (fullid_to_string id) (match fi_module id with None => [TIdent (fi_name id)] | Some "" => [TPunct P_scope; TIdent (fi_name id)] | Some m => [TIdent m; TPunct P_scope; TIdent (fi_name id)] end).
Proof.
  intros [[m|] n] N M r ts E T; cbn [fi_name fi_module fullid_to_string] in *; [|apply lex_ident; assumption].
  assert (X : tokenize ("::" ++ n ++ r)%string = Ok (TPunct P_scope :: TIdent n :: ts)).
  { cbn [String.append]. rewrite lex_scope, (lex_ident n N r ts E T). reflexivity. }
  destruct M as [->|M]; [exact X|]. pose proof M as M'. destruct M' as (c & w & EQ & _). rewrite !sapp_assoc.
  rewrite (lex_ident m M ("::" ++ n ++ r)%string _ eq_refl X). rewrite EQ. reflexivity.
Qed.
Lemma back_plain : forall e, expr_ok e -> plain_operand e -> read_back (Some e) e.
Proof.
  intros [v t|id t|op a b|op a|n x] O P; try contradiction; cbn [plain_operand] in P.
  - destruct O as (T & C & M). destruct T as [T|[T|[T|T]]]; try (apply back_lit; auto; fail). subst t. exists [TLit v T_unknown]. split; [apply lex_dec; specialize (P eq_refl); specialize (M eq_refl); lia|split; [reflexivity|exact C]].
  - destruct O as (T & N & M). exists (written 0 (EId id t)). split; [|split; [reflexivity|exact T]].
    pose proof (lex_id id N M) as L. destruct T as [->| ->].
    + cbn [expr_opt_to_string expr_to_string ntype_eqb]. exact L.
    + intros r ts E R. specialize (L r ts E R). change ((expr_opt_to_string (Some (EId id T_long)) ++ r)%string) with (String "@" (fullid_to_string id ++ r)).
      rewrite lex_punct; [|reflexivity|cbn; intuition discriminate]. rewrite L. reflexivity.
Qed.
(** ** Instructions. *)
Lemma flags_c : forall s f, flags_from_name s = Some f -> bit_known (fl_c f) = false.
Proof.
  intros s f H. apply flags_from_name_iff in H. destruct H as (n & Hn & _). cbn in Hn.
  repeat destruct Hn as [Hn|Hn]; try contradiction; injection Hn as <- <-; reflexivity.
Qed.
Lemma ret_back : forall r, ret_ok r -> rc_ok r /\ rc_read r = r.
Proof.
  intros [|f|] H; try (split; [exact Logic.I|reflexivity]). destruct H as (s & H). split; [exact (flags_c s f H)|].
  cbn [rc_read]. rewrite (flags_name_round_trip s f H). reflexivity.
Qed.
Lemma shaped_uses : forall s am a b, In s (written_as am) -> shaped s a b ->
  (uses1 am = true -> exists x, a = Some x /\ expr_ok x) /\ (uses1 am = false -> a = None) /\
  (uses2 am = true -> exists y, b = Some y /\ expr_ok y) /\ (uses2 am = false -> b = None).
Proof.
  intros s am a b I S. destruct am; cbn [written_as In] in I; repeat destruct I as [<-|I]; try contradiction; cbn [shaped] in S;
    repeat match goal with X : exists _, _ |- _ => destruct X | X : _ /\ _ |- _ => destruct X end; cbn [uses1 uses2]; repeat split; intros; try discriminate; eauto.
Qed.
Lemma syntax_in : forall am, In (syntax am) (written_as am).
Proof. intros am. destruct am; left; reflexivity. Qed.
Lemma instr_shown : forall i, instr_ok i -> plain_statement (SInstr i) -> read_as (instr_to_string i) [PStmt (SInstr i)].
Proof.
  intros i (((s & D & SH) & SX) & R & RM) (PL & _). destruct (ret_back _ R) as [RO RR]. pose proof D as D'. apply deduce_exact in D' as (OP & IN & OK).
  destruct (shaped_uses _ _ _ _ IN SH) as (U1 & V1 & U2 & V2).
  assert (X : exists e1 e2, args_of (i_mode i) (Some e1) (Some e2) = (i_arg1 i, i_arg2 i) /\
     (uses1 (i_mode i) = true -> read_back (i_arg1 i) e1) /\ (uses2 (i_mode i) = true -> read_back (i_arg2 i) e2)).
  { assert (Y1 : exists e1, (uses1 (i_mode i) = true -> i_arg1 i = Some e1 /\ expr_ok e1)) by (destruct (uses1 (i_mode i)); [destruct (U1 eq_refl) as (x & X); exists x; auto|exists (ELit 0 T_byte); discriminate]).
    assert (Y2 : exists e2, (uses2 (i_mode i) = true -> i_arg2 i = Some e2 /\ expr_ok e2)) by (destruct (uses2 (i_mode i)); [destruct (U2 eq_refl) as (x & X); exists x; auto|exists (ELit 0 T_byte); discriminate]).
    destruct Y1 as (e1 & Y1), Y2 as (e2 & Y2). exists e1, e2. unfold args_of. split; [|split].
    - f_equal; [destruct (uses1 (i_mode i)); [symmetry; apply Y1; reflexivity|symmetry; auto]|destruct (uses2 (i_mode i)); [symmetry; apply Y2; reflexivity|symmetry; auto]].
    - intros U. destruct (Y1 U) as [E O]. rewrite E. apply back_plain; [exact O|]. apply PL. left. exact E.
    - intros U. destruct (Y2 U) as [E O]. rewrite E. apply back_plain; [exact O|]. apply PL. right. exact E. }
  destruct X as (e1 & e2 & A & B1 & B2).
  assert (DD : deduce_mode (i_mnem i) (syntax (i_mode i)) (fst (args_of (i_mode i) (Some e1) (Some e2))) (snd (args_of (i_mode i) (Some e1) (Some e2))) = Ok (i_mode i)).
  { rewrite A. cbn [fst snd]. apply deduce_exact. split; [exact OP|]. split; [apply syntax_in|exact OK]. }
  destruct (instr_read i e1 e2 (i_mode i) B1 B2 RO RM SX DD) as (ts & T & P). exists ts. split; [exact T|].
  rewrite P, A, RR. destruct i. reflexivity.
Qed.
(** ** Directives. *)
Lemma dir_word : forall d, d <> D_remote -> exists w, dir_to_string d = String "." w /\ str_all is_ident_char w = true /\ dotted_token (String "." w) = Ok (TDir d).
Proof. intros d N. destruct d; try (contradiction N; reflexivity); (eexists; split; [reflexivity|split; reflexivity]). Qed.
Lemma dir_lexes : forall d, d <> D_remote -> lexes (dir_to_string d) [TDir d].
Proof. intros d N r ts E T. destruct (dir_word d N) as (w & -> & A & D). apply (lex_dir w d r ts A D E T). Qed.
Fixpoint join_tokens (ps : list (list token)) : list token :=
  match ps with [] => [] | [p] => p | p :: ps' => p ++ punct "," :: join_tokens ps' end.
Lemma join_lexes : forall l ps, Forall2 (fun e p => lexes (expr_to_string e) p) l ps -> l <> [] -> lexes (str_join ", " (map expr_to_string l)) (join_tokens ps).
Proof.
  induction 1 as [|e p l ps L F IH]; [congruence|]. intros _. destruct F as [|e' p' l ps L' F]; [exact L|]. specialize (IH ltac:(discriminate)).
  intros r ts E T. change (str_join ", " (map expr_to_string (e :: e' :: l))) with (expr_to_string e ++ ", " ++ str_join ", " (map expr_to_string (e' :: l)))%string.
  change (join_tokens (p :: p' :: ps)) with (p ++ punct "," :: join_tokens (p' :: ps)). rewrite !sapp_assoc, <- app_assoc. apply L; [reflexivity|].
  cbn [String.append]. rewrite lex_punct; [|reflexivity|cbn; intuition discriminate]. rewrite lex_space, (IH r ts E T). reflexivity.
Qed.
Lemma join_parse : forall l ps f acc, Forall2 (fun e p => operand_tokens p e) l ps -> l <> [] -> (List.length l <= f)%nat ->
  p_list f acc (join_tokens ps ++ [TEol]) = Ok (acc ++ l, [TEol]).
Proof.
  intros l ps f acc F. revert f acc. induction F as [|e p l ps O F IH]; intros f acc N LE; [congruence|].
  destruct f as [|f]; [cbn in LE; lia|]. cbn [p_list]. destruct F as [|e' p' l ps O' F].
  - cbn [join_tokens]. rewrite (operand_parse p e TEol [] O); [reflexivity|]. intros C. cbn in C. intuition discriminate.
  - change (join_tokens (p :: p' :: ps)) with (p ++ punct "," :: join_tokens (p' :: ps)). rewrite <- app_assoc. cbn [app].
    rewrite (operand_parse p e (punct ",") _ O) by (apply punct_stops; cbn; tauto). cbn [bind at_end front].
    change (tok_at_end (punct ",")) with false. cbn [bind]. change (consume "," (punct "," :: join_tokens (p' :: ps) ++ [TEol])) with (Ok (join_tokens (p' :: ps) ++ [TEol])). cbn [bind].
    rewrite IH; [rewrite <- app_assoc; reflexivity|discriminate|cbn in *; lia].
Qed.
Lemma list_back : forall l, Forall expr_ok l -> (forall e, In e l -> plain_operand e) -> exists ps,
  Forall2 (fun e p => lexes (expr_to_string e) p) l ps /\ Forall2 (fun e p => operand_tokens p e) l ps.
Proof.
  induction 1 as [|e l O F IH]; intros P; [exists []; split; constructor|]. destruct IH as (ps & A & B); [intros; apply P; right; assumption|].
  destruct (back_plain e O (P e (or_introl eq_refl))) as (p & L & T). exists (p :: ps). split; constructor; assumption.
Qed.
Lemma operand_nonempty : forall p e, operand_tokens p e -> p <> [].
Proof.
  intros p e [-> H]. destruct e as [v t|[[[|c m]|] n] t|op a b|op a|n x]; try contradiction; cbn.
  5: destruct op; try contradiction; discriminate.
  all: destruct (ntype_eqb t T_long); discriminate.
Qed.
Lemma join_length : forall l ps, Forall2 (fun e p => operand_tokens p e) l ps -> (List.length l <= List.length (join_tokens ps))%nat.
Proof.
  induction 1 as [|e p l ps O F IH]; [cbn; lia|]. apply operand_nonempty in O. destruct F as [|e' p' l ps O' F].
  - cbn [join_tokens List.length]. destruct p; [congruence|cbn; lia].
  - change (join_tokens (p :: p' :: ps)) with (p ++ punct "," :: join_tokens (p' :: ps)). rewrite app_length. cbn [List.length] in *. lia.
Qed.
Lemma dir_loop : forall d ts, hd_error ts = Some (TDir (d_name d)) -> parse_directive ts = Ok (d, [TEol]) -> parse ts = Ok [PStmt (SDir d)].
Proof.
  intros d [|t ts] H P; [discriminate H|]. injection H as ->. unfold parse. cbn [List.length]. rewrite parse_loop_eq.
  change (p_label (TDir (d_name d) :: ts)) with (Ok (@nil parsed, TDir (d_name d) :: ts, false)). cbn [bind app front].

  unfold stmt_part. cbn [front bind tok_dir]. change (tok_at_end (TDir (d_name d))) with false. change (is_char "{" (TDir (d_name d)) || is_char "}" (TDir (d_name d)))%bool with false. rewrite P. reflexivity.
Qed.
Lemma lexes_end : forall s p, lexes s p -> tokenize s = Ok (p ++ [TEol]).
Proof. intros s p L. pose proof (L "" [TEol] eq_refl ends_eol) as X. rewrite sapp_nil_r in X. exact X. Qed.
Lemma dir_space : forall d s ts, d <> D_remote -> tokenize s = Ok ts -> tokenize (dir_to_string d ++ " " ++ s)%string = Ok (TDir d :: ts).
Proof. intros d s ts N T. apply (dir_lexes d N); [reflexivity|]. cbn [String.append]. rewrite lex_space. exact T. Qed.
Lemma dir_shown : forall d, dir_ok d -> plain_statement (SDir d) -> read_as (directive_to_string d) [PStmt (SDir d)].
Proof.
  intros [n a f r l] O (PL & NR). specialize (NR _ eq_refl). cbn [d_name] in NR. unfold dir_ok in O. unfold directive_to_string.
  cbn [d_name d_arg d_flags d_ret d_list] in *. unfold operand in PL. cbn [d_arg d_list] in PL.
  assert (ONE : forall e, expr_ok e -> a = Some e -> exists p, tokenize (dir_to_string n ++ " " ++ expr_opt_to_string (Some e))%string = Ok (TDir n :: p ++ [TEol]) /\ parse_expr (p ++ [TEol]) = Ok (e, [TEol])).
  { intros e EO EA. destruct (back_plain e EO (PL e (or_introl EA))) as (p & L & OT). exists p. split; [apply dir_space; [exact NR|apply lexes_end; exact L]|].
    apply (operand_parse p e TEol []); [exact OT|]. intros C. cbn in C. intuition discriminate. }
  assert (MODE : forall s, flags_from_name s = Some f -> ret_ok r -> tokenize (dir_to_string n ++ " " ++ flags_to_name f ++ rc_to_suffix r)%string = Ok (TDir n :: TIdent (flags_to_name f) :: rc_tokens r ++ [TEol])
     /\ p_mode (TIdent (flags_to_name f) :: rc_tokens r ++ [TEol]) = Ok (f, rc_tokens r ++ [TEol]) /\ parse_return_convention (rc_tokens r ++ [TEol]) = Ok (r, [TEol])).
  { intros s FN RO. destruct (ret_back r RO) as [RC RR]. destruct (rc_lex r RC) as [TR ER]. split; [|split].
    - apply dir_space; [exact NR|]. apply (lex_ident _ (flags_name_ident f) _ _ ER TR).
    - cbn [p_mode]. rewrite (flags_name_round_trip s f FN). reflexivity.
    - destruct r as [|g|]; [reflexivity| |reflexivity]. destruct RO as (s' & G). cbn. rewrite (flags_name_round_trip s' g G). reflexivity. }
  destruct (directive_type_by_name n) eqn:DT.
  - destruct O as (-> & -> & -> & ->). eexists. split; [apply (lexes_end _ _ (dir_lexes n NR))|]. apply dir_loop; [reflexivity|]. cbn. rewrite DT. reflexivity.
  - destruct O as (e & -> & EO & -> & -> & -> & RL & SI). destruct (ONE e EO eq_refl) as (p & T & P). eexists. split; [exact T|]. apply dir_loop; [reflexivity|].
    unfold parse_directive. rewrite DT. rewrite P. reflexivity.
  - destruct O as (e & -> & EO & -> & -> & -> & RL & SI). destruct (ONE e EO eq_refl) as (p & T & P). eexists. split; [exact T|]. apply dir_loop; [reflexivity|].
    unfold parse_directive. rewrite DT. rewrite P. cbn [bind]. rewrite RL by (destruct n; try discriminate DT; reflexivity). reflexivity.
  - destruct O as (-> & (s & FN) & -> & ->). destruct (MODE s FN Logic.I) as (T & P & R). eexists. split; [exact T|]. apply dir_loop; [reflexivity|].
    unfold parse_directive. rewrite DT. cbv zeta. rewrite P. reflexivity.
  - destruct O as (-> & (s & FN) & RO & ->). destruct (MODE s FN RO) as (T & P & R). eexists. split; [exact T|]. apply dir_loop; [reflexivity|].
    unfold parse_directive. rewrite DT. cbv zeta. rewrite P. cbn [bind]. rewrite R. reflexivity.
  - destruct O as (-> & -> & -> & N & FO). destruct (list_back l FO (fun e I => PL e (or_intror I))) as (ps & FL & FT).
    eexists. split; [apply dir_space; [exact NR|apply lexes_end, (join_lexes l ps FL N)]|]. apply dir_loop; [reflexivity|].
    unfold parse_directive. rewrite DT. cbv zeta. rewrite (join_parse l ps _ [] FT N); [reflexivity|].
    pose proof (join_length l ps FT). rewrite app_length. cbn [List.length]. lia.
  - destruct O as (e & -> & EO & -> & -> & -> & RL & SI). destruct (ONE e EO eq_refl) as (p & T & P). eexists. split; [exact T|]. apply dir_loop; [reflexivity|].
    unfold parse_directive. rewrite DT. rewrite P. cbn [bind]. destruct (simple_identifier e) eqn:E; [reflexivity|]. destruct SI; [destruct n; try discriminate DT; reflexivity|reflexivity].
  - exfalso. destruct n; try discriminate DT. apply NR. reflexivity.
Qed.
(** ** Everything. *)
Lemma label_shown : forall n x, identifier n -> read_as (label_to_string n x ++ ":")%string [PLabel n x].
Proof.
  intros n x I. assert (C : tokenize ":" = Ok [punct ":"; TEol]) by reflexivity. pose proof (lex_ident n I ":" _ eq_refl C) as L.
  destruct x; cbn [label_to_string].
  - exists [TPunct P_export; TIdent n; punct ":"; TEol]. split; [|reflexivity]. rewrite sapp_assoc.
    change ("export " ++ n ++ ":")%string with (String "e" "xport" ++ (" " ++ n ++ ":"))%string.
    rewrite (lex_word "e" "xport" (" " ++ n ++ ":")%string [TIdent n; punct ":"; TEol]); [reflexivity|reflexivity|reflexivity|reflexivity|].
    cbn [String.append]. rewrite lex_space. exact L.
  - eexists. split; [exact L|reflexivity].
Qed.
Lemma shown : forall line l p, read_as line l -> In p l -> plain_parsed p -> read_as (entity_line p) [p].
Proof.
  intros line l p R I P. pose proof (proj1 (Forall_forall _ _) (line_parsed line l R) p I) as O.
  destruct p as [n x|[i|d]]; cbn [plain_parsed entity_ok entity_line stmt_to_string] in *; [apply label_shown; exact O|..].
  - destruct (instr_shown i O P) as (ts & T & Q). exists ts. split; [|exact Q]. cbn [String.append]. rewrite !lex_space. exact T.
  - destruct (dir_shown d O P) as (ts & T & Q). exists ts. split; [|exact Q]. cbn [String.append]. rewrite !lex_space. exact T.
Qed.
Lemma answered : forall msg line l o, read_as line l -> Forall plain_parsed l -> In o (map entity_line l) -> answer msg o = Ok [o].
Proof.
  intros msg line l o R F I. apply in_map_iff in I as (p & <- & I). rewrite Forall_forall in F.
  destruct (shown line l p R I (F p I)) as (ts & T & P). unfold answer. rewrite T, P. reflexivity.
Qed.
