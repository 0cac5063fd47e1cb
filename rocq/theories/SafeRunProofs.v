(** Undefined behaviour of a program has one of the listed causes. *)
From Verif Require Import Base ModelNumeric ModelAddress ModelExpr ModelMnemonic ModelAMode ModelOpcode ModelState ModelInstr ModelToken
  ModelStatement ModelParse ModelMap ModelRanges ModelModule ModelAssembler SpecArith SpecText SpecScope SpecRanges SpecLayout SpecAssemble SpecSafe
  BaseProofs MapProofs ArithProofs RangesProofs StateProofs TokenProofs ParseProofs OrderProofs LoadProofs ScopeProofs PassProofs LayoutProofs
  AssembleProofs ProgramProofs TermProofs SafeProofs.
Open Scope list_scope.
Open Scope Z_scope.

(** ** Executing an instruction of the source. *)
Lemma safe_check : forall P i f, safe P (check_consistency i f).
Proof.
  intros P i f. unfold check_consistency. repeat match goal with
    |- context [if ?b then _ else _] => destruct b; try exact I
  | |- context [match ?b with _ => _ end] => destruct b; try exact I end.
Qed.
Lemma execute_safe : forall files i s, in_source files (SInstr i) -> good (leaves_m files) (leaves_x files) s ->
  safe (ub_cause files) (execute i s).
Proof.
  intros files i s S G. unfold execute, execute_in. apply safe_bind; [apply safe_check|]. intros _ _. cbv zeta.
  assert (ARG1 : safe (ub_cause files) (maybe_arg null_ctx (i_arg1 i))).
  { apply maybe_safe, arg1_safe; [apply believable_null|left; exact S]. }
  assert (ARG2 : safe (ub_cause files) (maybe_arg null_ctx (i_arg2 i))).
  { apply maybe_safe, arg2_safe; [apply believable_null|left; exact S]. }
  destruct G as (GA & GX & GY & [GM GIX] & GK).
  destruct (i_mnem i) eqn:MN; try exact I;
    try (destruct (i_mode i); try exact I; (apply safe_bind; [|intros; exact I]);
         first [exact ARG1|apply safe_rv_add; [assumption|cbn; lia]]);
    try (apply safe_bind; [exact ARG1|]; intros [v|] _; exact I).
  - (* mvn *) apply safe_bind; [exact ARG1|]. intros [v|] A; cbn [bind].
    + destruct (maybe_some _ _ _ A) as (e & E & M).
      assert (BIG : 2 ^ 31 - 2 ^ 16 <= Z.abs v -> ub_cause files UB_overflow).
      { intros B. eapply c_block_move; [exact S|rewrite MN; cbn; auto|exact E|exact M|exact B]. }
      apply safe_bind.
      * apply safe_bind; [apply safe_int; intros N; apply BIG; unfold int32 in N; lia|]. intros o O.
        assert (o = 1 + v) as -> by (unfold int_result in O; destruct (in_int (1 + v)); [congruence|discriminate O]).
        apply safe_bind; [apply safe_rv_add; [|intros; apply BIG; lia]; destruct (fl_m (es_flags s)); exact GX|]. intros rx _.
        apply safe_bind; [apply safe_rv_add; [|intros; apply BIG; lia]; destruct (fl_m (es_flags s)); exact GY|]. intros; exact I.
      * intros s1 _. apply safe_bind; [exact ARG2|]. intros; exact I.
    + apply safe_bind; [exact ARG2|]. intros; exact I.
  - (* mvp *) apply safe_bind; [exact ARG1|]. intros [v|] A; cbn [bind].
    + destruct (maybe_some _ _ _ A) as (e & E & M).
      assert (BIG : 2 ^ 31 - 2 ^ 16 <= Z.abs v -> ub_cause files UB_overflow).
      { intros B. eapply c_block_move; [exact S|rewrite MN; cbn; auto|exact E|exact M|exact B]. }
      apply safe_bind.
      * apply safe_bind; [apply safe_int; intros N; apply BIG; unfold int32 in N; lia|]. intros o O.
        assert (o = -1 - v) as -> by (unfold int_result in O; destruct (in_int (-1 - v)); [congruence|discriminate O]).
        apply safe_bind; [apply safe_rv_add; [|intros; apply BIG; lia]; destruct (fl_m (es_flags s)); exact GX|]. intros rx _.
        apply safe_bind; [apply safe_rv_add; [|intros; apply BIG; lia]; destruct (fl_m (es_flags s)); exact GY|]. intros; exact I.
      * intros s1 _. apply safe_bind; [exact ARG2|]. intros; exact I.
    + apply safe_bind; [exact ARG2|]. intros; exact I.
  - (* pla *) apply safe_bind; [|intros [r k] _; exact I]. apply safe_pull_reg. intros O.
    split; (eapply c_pull; [exact S|left; split; [exact MN|exact (GM O)]|auto]).
  - apply safe_bind; [|intros [r k] _; exact I]. apply safe_pull_reg. intros O.
    split; (eapply c_pull; [exact S|right; split; [rewrite MN; cbn; auto|exact (GIX O)]|auto]).
  - apply safe_bind; [|intros [r k] _; exact I]. apply safe_pull_reg. intros O.
    split; (eapply c_pull; [exact S|right; split; [rewrite MN; cbn; auto|exact (GIX O)]|auto]).
Qed.

(** ** Flags written in the source are known or unknown, never "original". *)
Lemma part_plain : forall c s b s', optional_part c s = Some (b, s') -> b <> B_original.
Proof.
  intros c s b s' H. unfold optional_part in H. destruct (consume_byte c s) as [t|]; [|injection H as <- _; discriminate].
  unfold consume_name_part in H. destruct t as [|a t]; [discriminate H|].
  destruct a as [[] [] [] [] [] [] [] []]; try discriminate H; try (injection H as <- _; discriminate).
  destruct t as [|a t]; [discriminate H|]. destruct a as [[] [] [] [] [] [] [] []]; try discriminate H. injection H as <- _. discriminate.
Qed.
Lemma mk_plain : forall e m x c, e <> B_original -> m <> B_original -> x <> B_original -> plain_flags (mk_flags e m x c).
Proof. intros e m x c E M X. split; [|split; [|exact E]]; cbn; intros H; apply constrained_original in H; contradiction. Qed.
Lemma name_plain : forall s f, flags_from_name s = Some f -> plain_flags f.
Proof.
  intros s f H. unfold flags_from_name in H.
  destruct (String.eqb (str_lower s) "unk"); [injection H as <-; apply mk_plain; discriminate|].
  destruct (String.eqb (str_lower s) "emu"); [injection H as <-; apply mk_plain; discriminate|].
  destruct (String.eqb (str_lower s) "native"); [injection H as <-; apply mk_plain; discriminate|].
  destruct (String.eqb (str_lower s) ""); [discriminate H|].
  destruct (optional_part "m" (str_lower s)) as [[m s1]|] eqn:M; [|discriminate H].
  destruct (optional_part "x" s1) as [[x s2]|] eqn:X; [|discriminate H].
  destruct (negb (String.eqb s2 "")); [discriminate H|]. injection H as <-.
  apply mk_plain; [discriminate|eapply part_plain; eassumption..].
Qed.
Lemma default_plain : plain_flags default_flags.
Proof. split; [|split]; discriminate. Qed.
Lemma mode_plain : forall ts f ts', p_mode ts = Ok (f, ts') -> plain_flags f.
Proof.
  intros [|[] ts] f ts' H; try discriminate H. unfold p_mode in H.
  match type of H with match ?x with _ => _ end = _ => destruct x eqn:N; [|discriminate H] end.
  injection H as <- _. eapply name_plain. exact N.
Qed.
Definition plain_ret (r : retconv) : Prop := match r with RC_yields f => plain_flags f | _ => True end.
Lemma return_plain : forall ts r ts', parse_return_convention ts = Ok (r, ts') -> plain_ret r.
Proof.
  intros ts r ts' H. unfold parse_return_convention in H. bok H as t T. destruct (is_punct P_noreturn t); [injection H as <- _; exact I|].
  destruct (is_punct P_yields t); [|injection H as <- _; exact I]. bok H as p E. destruct p as [f ts1]. injection H as <- _.
  eapply mode_plain. exact E.
Qed.
Lemma instruction_plain : forall ts i ts', parse_instruction ts = Ok (i, ts') -> plain_stmt (SInstr i).
Proof.
  intros ts i ts' H. unfold parse_instruction in H. bok H as p E. destruct p as [i0 ts1]. bok H as q F. destruct q as [rc ts2].
  destruct (_ && _); [discriminate H|]. injection H as <- _. cbn. apply return_plain in F. exact F.
Qed.
Lemma directive_plain : forall ts d ts', parse_directive ts = Ok (d, ts') -> plain_stmt (SDir d).
Proof.
  intros [|[id|z ty|n|sx|d0|p|] ts] dd ts' H; try discriminate H. unfold parse_directive in H. cbv zeta in H.
  assert (MP : forall dt d0 arg ts dd ts', (let* (f, ts0) := p_mode ts in
                  let* _ := match dt with DT_flag_arg => confirm_at_end ts0 | _ => Ok tt end in
                  let* (rc, ts1) := parse_return_convention ts0 in
                  let* _ := confirm_at_end ts1 in Ok (Directive d0 arg f rc [], ts1)) = Ok (dd, ts') -> plain_stmt (SDir dd)).
  { clear. intros dt d0 arg ts dd ts' H. bok H as p E. destruct p as [f ts1]. bok H as u U. bok H as q F. destruct q as [rc ts2]. bok H as w W.
    injection H as <- _. cbn. eapply mode_plain. exact E. }
  destruct (directive_type_by_name d0) eqn:DT.
  - bok H as u U. injection H as <- _. exact default_plain.
  - bok H as p E. destruct p as [e ts1]. cbn in H. bok H as u U. injection H as <- _. exact default_plain.
  - bok H as p E. destruct p as [e ts1]. destruct (requires_lookup e); [discriminate H|]. bok H as u U. injection H as <- _. exact default_plain.
  - exact (MP DT_flag_arg _ _ _ _ _ H).
  - exact (MP DT_calling_convention_arg _ _ _ _ _ H).
  - bok H as p E. destruct p as [l ts1]. injection H as <- _. exact default_plain.
  - bok H as p E. destruct p as [e ts1]. destruct (simple_identifier e); [|discriminate H]. bok H as u U. injection H as <- _. exact default_plain.
  - bok H as p E. destruct p as [e ts1]. exact (MP DT_remote_arg _ _ _ _ _ H).
Qed.
Definition plain_parsed (p : parsed) : Prop := match p with PStmt s => plain_stmt s | _ => True end.
Lemma loop_plain : forall f acc ts l, parse_loop f acc ts = Ok l -> Forall plain_parsed acc -> Forall plain_parsed l.
Proof.
  induction f as [|f IH]; intros acc ts l H F; [discriminate H|]. cbn [parse_loop] in H.
  destruct ts as [|t0 ts0]; [injection H as <-; exact F|]. set (ts := t0 :: ts0) in *. clearbody ts.
  bok H as p E. destruct p as [[lab ts1] cont].
  assert (FL : Forall plain_parsed (acc ++ lab)).
  { apply Forall_app. split; [exact F|]. unfold p_label in E. bok E as t T. bok E as q Q. destruct q as [ex ts2].
    destruct ts2 as [|[] ts3]; try (injection E as <- _ _; constructor; fail).
    destruct ts3 as [|t' ts4]; [injection E as <- _ _; constructor; [exact I|constructor]|].
    destruct (is_char ":" t'); injection E as <- _ _; (constructor; [exact I|constructor]). }
  destruct cont; [eapply IH; [exact H|exact FL]|]. bok H as t T. destruct (tok_at_end t); [injection H as <-; exact FL|].
  destruct (is_char "{" t || is_char "}" t).
  { eapply IH; [exact H|]. apply Forall_app. split; [exact FL|]. constructor; [exact default_plain|constructor]. }
  destruct (tok_dir t).
  - bok H as q Q. destruct q as [d1 ts2]. bok H as b B. destruct b; [|discriminate H]. eapply IH; [exact H|].
    apply Forall_app. split; [exact FL|]. constructor; [eapply directive_plain; exact Q|constructor].
  - destruct (tok_mnem t); [|discriminate H]. bok H as q Q. destruct q as [i1 ts2]. bok H as b B. destruct b; [|discriminate H].
    eapply IH; [exact H|]. apply Forall_app. split; [exact FL|]. constructor; [eapply instruction_plain; exact Q|constructor].
Qed.
Lemma source_plain : forall files s, in_source files s -> plain_stmt s.
Proof.
  intros files s (file & src & labels & _ & (ess & R & ->) & H).
  assert (P : Forall plain_parsed (concat ess)).
  { clear H. induction R as [|line es file ess (ts & T & P) R IH]; [constructor|]. cbn. apply Forall_app. split; [|exact IH].
    eapply loop_plain; [exact P|constructor]. }
  clear R. revert H P. generalize (concat ess) as l, (@nil (string * bool)) as pending. clear.
  induction l as [|[n x|s'] l IH]; intros pending H P; cbn in H; [destruct H| |]; inversion P; subst.
  - eapply IH; eassumption.
  - destruct H as [H|H]; [injection H as <- <-; assumption|eapply IH; eassumption].
Qed.
