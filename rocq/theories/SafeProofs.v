(** Undefined behaviour has one of the listed causes. *)
From Verif Require Import Base ModelNumeric ModelAddress ModelExpr ModelMnemonic ModelAMode ModelOpcode ModelState ModelInstr ModelToken
  ModelStatement ModelParse ModelMap ModelRanges ModelModule ModelAssembler SpecArith SpecText SpecScope SpecRanges SpecLayout SpecAssemble SpecSafe
  BaseProofs MapProofs ArithProofs RangesProofs StateProofs TokenProofs ParseProofs OrderProofs LoadProofs ScopeProofs PassProofs LayoutProofs
  AssembleProofs ProgramProofs TermProofs.
Open Scope list_scope.
Open Scope Z_scope.

(** ** Outcomes whose undefined behaviour satisfies [P]; fuel does not run out. *)
Definition safe (P : ub -> Prop) {A} (r : res A) : Prop :=
  match r with UB u => P u | OutOfFuel => False | _ => True end.
Lemma safe_bind : forall P A B (x : res A) (f : A -> res B), safe P x -> (forall a, x = Ok a -> safe P (f a)) ->
  safe P (bind x f).
Proof. intros P A B [a|e|u|] f H K; cbn; auto. Qed.
Lemma safe_weak : forall (P Q : ub -> Prop) A (r : res A), (forall u, P u -> Q u) -> safe P r -> safe Q r.
Proof. intros P Q A [a|e|u|] H K; cbn in *; auto. Qed.
Lemma safe_int : forall (P : ub -> Prop) v, (~ int32 v -> P UB_overflow) -> safe P (int_result v).
Proof. intros P v H. destruct (int_result_cases v) as [[_ ->]|[N ->]]; [exact I|exact (H N)]. Qed.

(** ** Evaluation. *)
Definition quiet (c : lookup_ctx) : Prop := forall i, safe (fun _ => False) (c i).
Lemma eval_safe : forall c e, quiet c -> safe (fun u => u = UB_overflow /\ overflows (env_of c) e) (eval c e).
Proof.
  intros c e Q. induction e as [v0 t|i t|op l IHl r IHr|op a IHa|n h IHh]; cbn [eval]; [exact I| | | |].
  - eapply safe_weak; [|apply Q]. intros u [].
  - destruct (eval c l) as [a|e1|u|] eqn:El; [| | |destruct IHl].
    + destruct (eval c r) as [b|e2|u|] eqn:Er; [|exact I| |destruct IHr].
      * pose proof (eval_means _ _ _ El) as Ml. pose proof (eval_means _ _ _ Er) as Mr.
        destruct op; cbn [apply_binop].
        -- apply safe_int. intros N. split; [reflexivity|]. eapply o_add; eauto.
        -- apply safe_int. intros N. split; [reflexivity|]. eapply o_sub; eauto.
        -- apply safe_int. intros N. split; [reflexivity|]. eapply o_mul; eauto.
        -- destruct (Z.eqb_spec b 0) as [->|Hb]; [exact I|]. apply safe_int. intros N. split; [reflexivity|].
           destruct (quot_trunc a b Hb) as (Q1 & Q2 & Q3). eapply o_div; eauto.
      * destruct IHr as [-> O]. split; [reflexivity|apply o_right; exact O].
    + destruct (eval c r) as [b|e2|u|] eqn:Er; [exact I|exact I| |destruct IHr].
      destruct IHr as [-> O]. split; [reflexivity|apply o_right; exact O].
    + destruct IHl as [-> O]. destruct (eval c r) as [b|e2|u|] eqn:Er; [| | |destruct IHr];
        cbn; (split; [try reflexivity; apply IHr|apply o_left; exact O]).
  - apply safe_bind.
    + eapply safe_weak; [|exact IHa]. intros u [-> O]. split; [reflexivity|apply o_un; exact O].
    + intros v E. pose proof (eval_means _ _ _ E) as M. destruct op; cbn [apply_unop]; try exact I.
      apply safe_int. intros N. split; [reflexivity|]. eapply o_neg; eauto.
  - eapply safe_weak; [|exact IHh]. intros u [-> O]. split; [reflexivity|apply o_label; exact O].
Qed.

(** A context that answers, and with plausible values. *)
Definition believable (files : list (list string)) (c : lookup_ctx) : Prop :=
  quiet c /\ plausible files (env_of c).
Lemma believable_null : forall files, believable files null_ctx.
Proof. intros files. split; [intros i; exact I|intros i w H; discriminate H]. Qed.

(** A statement of the source, possibly with the width of an immediate operand settled. *)
Definition from_source (files : list (list string)) (s : statement) : Prop :=
  in_source files s \/
  exists i m', in_source files (SInstr i) /\ s = SInstr (with_mode m' i) /\ (m' = A_imm_b \/ m' = A_imm_w).
Lemma from_operand : forall files s e, from_source files s -> operand s e -> exists s0, in_source files s0 /\ operand s0 e.
Proof. intros files s e [S|(i & m' & S & -> & _)] O; eauto. Qed.
Lemma from_address : forall files s e, from_source files s -> address_operand s e ->
  exists s0, in_source files s0 /\ address_operand s0 e.
Proof.
  intros files s e [S|(i & m' & S & -> & M)] O; [eauto|]. exfalso. destruct O as [_ [O|[O _]]]; cbn in O.
  - destruct M as [->| ->]; destruct O as [O|[O|[]]]; discriminate O.
  - destruct M as [->| ->]; discriminate O.
Qed.
Lemma from_mnem : forall files i, from_source files (SInstr i) ->
  exists i0, in_source files (SInstr i0) /\ i_mnem i0 = i_mnem i /\ i_arg1 i0 = i_arg1 i /\ i_ret i0 = i_ret i.
Proof.
  intros files i [S|(i0 & m' & S & E & _)]; [eauto 6|]. injection E as ->. exists i0. auto.
Qed.
Lemma from_dir : forall files d, from_source files (SDir d) -> in_source files (SDir d).
Proof. intros files d [S|(i0 & m' & S & E & _)]; [exact S|discriminate E]. Qed.

Lemma operand_safe : forall files c s e, believable files c -> from_source files s -> operand s e ->
  safe (ub_cause files) (eval c e).
Proof.
  intros files c s e [Q P] S O. destruct (from_operand _ _ _ S O) as (s0 & S0 & O0).
  eapply safe_weak; [|apply eval_safe; exact Q]. intros u [-> OV]. eapply c_expression; eassumption.
Qed.
Lemma operand_opt_safe : forall files c s o, believable files c -> from_source files s ->
  (forall e, o = Some e -> operand s e) -> safe (ub_cause files) (eval_opt c o).
Proof. intros files c s [e|] B S O; [|exact I]. eapply operand_safe; eauto. Qed.
Lemma arg1_safe : forall files c i, believable files c -> from_source files (SInstr i) ->
  safe (ub_cause files) (eval_opt c (i_arg1 i)).
Proof. intros. eapply operand_opt_safe; [eassumption..|]. intros e E. left. exact E. Qed.
Lemma arg2_safe : forall files c i, believable files c -> from_source files (SInstr i) ->
  safe (ub_cause files) (eval_opt c (i_arg2 i)).
Proof. intros. eapply operand_opt_safe; [eassumption..|]. intros e E. right. exact E. Qed.
Lemma maybe_safe : forall P c o, safe P (eval_opt c o) -> safe P (maybe_arg c o).
Proof. intros P c o H. unfold maybe_arg. destruct (eval_opt c o); exact H. Qed.
Lemma maybe_some : forall c o v, maybe_arg c o = Ok (Some v) -> exists e, o = Some e /\ means (env_of c) e v.
Proof.
  intros c [e|] v H; unfold maybe_arg in H; cbn in H; [|discriminate H].
  destruct (eval c e) as [w|x|u|] eqn:E; try discriminate H. injection H as ->. exists e. split; [reflexivity|].
  apply eval_means. exact E.
Qed.

(** Making an address. *)
Lemma address_cases : forall v, mk_address v = Ok (v mod 2 ^ 32) /\ v mod 2 ^ 32 <= 2 ^ 24 \/
  mk_address v = UB UB_assert /\ 2 ^ 24 < v mod 2 ^ 32.
Proof.
  intros v. unfold mk_address, to_uint32. change 4294967296 with (2 ^ 32). change 16777216 with (2 ^ 24).
  destruct (Z.leb_spec (v mod 2 ^ 32) (2 ^ 24)); auto.
Qed.
Lemma address_safe : forall files c s e v, believable files c -> from_source files s -> address_operand s e ->
  means (env_of c) e v -> safe (ub_cause files) (mk_address v).
Proof.
  intros files c s e v [Q P] S O M. destruct (from_address _ _ _ S O) as (s0 & S0 & O0).
  destruct (address_cases v) as [[-> _]|[-> L]]; [exact I|]. eapply c_address; eassumption.
Qed.
Lemma address_ok : forall v, 0 <= v <= 2 ^ 24 -> mk_address v = Ok v.
Proof.
  intros v R. destruct (address_cases v) as [[-> _]|[_ L]]; rewrite Z.mod_small in * by lia; [reflexivity|lia].
Qed.

(** ** Tracked states. *)
Definition good_reg (r : regval) : Prop := match r with RV_value v => 0 <= v < 2 ^ 16 | _ => True end.
Definition good_flags (om ox : Prop) (f : flags) : Prop := (fl_m f = B_original -> om) /\ (fl_x f = B_original -> ox).
Definition good_slot (om ox : Prop) (v : stackval) : Prop :=
  match v with SV_byte b => 0 <= b < 2 ^ 16 | SV_flags f => good_flags om ox f | _ => True end.
Definition good_stack (om ox : Prop) (k : ModelState.stack) : Prop :=
  match k with Abandoned => True | Live l => Forall (good_slot om ox) l end.
Definition good (om ox : Prop) (s : estate) : Prop :=
  good_reg (es_a s) /\ good_reg (es_xr s) /\ good_reg (es_yr s) /\ good_flags om ox (es_flags s) /\
  good_stack om ox (es_stack s).

Lemma constrained_original : forall b e, constrained b e = B_original -> b = B_original.
Proof. intros [] []; cbn; congruence. Qed.
Lemma merge_original : forall a b, bit_merge a b = B_original -> a = B_original.
Proof. intros [] []; cbn; congruence. Qed.
Lemma good_mk : forall (om ox : Prop) e m x c, (m = B_original -> om) -> (x = B_original -> ox) -> good_flags om ox (mk_flags e m x c).
Proof. intros om ox e m x c M X. split; cbn; intros H; apply constrained_original in H; auto. Qed.
Lemma good_flags_merge : forall (om ox : Prop) f g, good_flags om ox f -> good_flags om ox (flags_merge f g).
Proof. intros om ox f g [M X]. apply good_mk; intros H; apply merge_original in H; auto. Qed.
Lemma good_set_m : forall (om ox : Prop) b f, (b = B_original -> om) -> good_flags om ox f -> good_flags om ox (set_m b f).
Proof. intros om ox b f B [M X]. split; cbn; [|exact X]. intros H. apply constrained_original in H. auto. Qed.
Lemma good_set_x : forall (om ox : Prop) b f, (b = B_original -> ox) -> good_flags om ox f -> good_flags om ox (set_x b f).
Proof. intros om ox b f B [M X]. split; cbn; [exact M|]. intros H. apply constrained_original in H. auto. Qed.
Lemma good_set_c : forall (om ox : Prop) b f, good_flags om ox f -> good_flags om ox (set_c b f).
Proof. intros om ox b f [M X]. split; assumption. Qed.
Lemma good_xce : forall (om ox : Prop) f, good_flags om ox f -> good_flags om ox (exchange_ce f).
Proof. intros om ox f [M X]. split; cbn; intros H; apply constrained_original in H; auto. Qed.

Lemma good_rv_merge : forall a b, good_reg a -> good_reg (rv_merge a b).
Proof. intros a b A. unfold rv_merge. destruct (rv_eqb a b); [exact A|exact I]. Qed.
Lemma good_sv_merge : forall (om ox : Prop) a b, good_slot om ox a -> good_slot om ox (sv_merge a b).
Proof.
  intros om ox a b A. unfold sv_merge. destruct (sv_same_type a b); cbn [negb]; [|exact I].
  destruct a, b; try exact A; try exact I.
  - destruct (v =? v0); [exact A|exact I].
  - apply good_flags_merge. exact A.
  - destruct (Bool.eqb orig orig0); exact I.
Qed.
Lemma good_merge_lists : forall (om ox : Prop) a b l, Forall (good_slot om ox) a -> merge_lists a b = Some l -> Forall (good_slot om ox) l.
Proof.
  intros om ox a. induction a as [|x a IH]; intros [|y b] l A H; cbn [merge_lists] in H; try discriminate H; [injection H as <-; constructor|].
  destruct (can_merge x y); [|discriminate H]. destruct (merge_lists a b) as [r|] eqn:M; [|discriminate H]. injection H as <-.
  inversion A; subst. constructor; [apply good_sv_merge; assumption|]. eapply IH; eassumption.
Qed.
Lemma good_stack_merge : forall (om ox : Prop) a b, good_stack om ox a -> good_stack om ox (stack_merge a b).
Proof.
  intros om ox [|a] [|b] A; cbn; try exact I. destruct (merge_lists a b) eqn:M; [|exact I]. cbn.
  eapply good_merge_lists; [exact A|exact M].
Qed.
Lemma good_merge : forall (om ox : Prop) a b, good om ox a -> good om ox (es_merge a b).
Proof.
  intros om ox a b (A & X & Y & F & K). unfold good, es_merge. cbn [es_a es_xr es_yr es_flags es_stack].
  split; [apply good_rv_merge; exact A|]. split; [apply good_rv_merge; exact X|]. split; [apply good_rv_merge; exact Y|].
  split; [apply good_flags_merge; exact F|apply good_stack_merge; exact K].
Qed.

Lemma good_masked : forall v, 0 <= to_uint16 v < 2 ^ 16.
Proof. intros v. apply Z.mod_pos_bound. lia. Qed.
Lemma land_byte : forall v, 0 <= Z.land v 255 < 2 ^ 16.
Proof. intros v. change 255 with (Z.ones 8). rewrite Z.land_ones by lia. pose proof (Z.mod_pos_bound v (2 ^ 8)). lia. Qed.
Lemma good_rv_of_int : forall v, good_reg (rv_of_int v).
Proof. intros v. apply good_masked. Qed.
Lemma good_rv_add : forall o m r r', rv_add o m r = Ok r' -> good_reg r'.
Proof.
  intros o m [| |v] r' H; cbn in H; try (injection H as <-; exact I). bok H as s E. injection H as <-. apply good_masked.
Qed.
Lemma safe_rv_add : forall (P : ub -> Prop) o m r, good_reg r -> (2 ^ 31 - 2 ^ 16 < Z.abs o -> P UB_overflow) -> safe P (rv_add o m r).
Proof.
  intros P o m [| |v] G H; cbn [rv_add]; try exact I. apply safe_bind; [|intros; exact I]. apply safe_int. intros N. apply H.
  cbn in G. unfold int32 in N. lia.
Qed.

Lemma good_push_sv : forall (om ox : Prop) v k, good_slot om ox v -> good_stack om ox k -> good_stack om ox (push_sv v k).
Proof. intros om ox v [|l] V K; [exact I|]. constructor; assumption. Qed.
Lemma good_slot_lo : forall (om ox : Prop) t r, good_slot om ox (sv_of_lo t r).
Proof. intros om ox t [| |v]; cbn; try exact I. apply land_byte. Qed.
Lemma good_slot_hi : forall (om ox : Prop) t r, good_slot om ox (sv_of_hi t r).
Proof. intros om ox t [| |v]; cbn; try exact I. apply land_byte. Qed.
Lemma good_push_reg : forall (om ox : Prop) t r b k, good_stack om ox k -> good_stack om ox (push_reg t r b k).
Proof.
  intros om ox t r b [|l] K; [exact I|]. destruct b; cbn; try exact I.
  - constructor; [apply good_slot_lo|]. constructor; [apply good_slot_hi|exact K].
  - constructor; [apply good_slot_lo|exact K].
  - constructor; [exact I|exact K].
Qed.
Lemma good_pull_byte : forall (om ox : Prop) k v k', pull_byte k = (v, k') -> good_stack om ox k ->
  good_slot om ox v /\ good_stack om ox k'.
Proof.
  intros om ox [|[|w l]] v k' H K; cbn in H; try (injection H as <- <-; split; exact I).
  destruct (is_varsize w); injection H as <- <-; [split; exact I|]. cbn in K. inversion K; subst. split; assumption.
Qed.
Lemma good_pull_reg : forall (om ox : Prop) t b k r k', pull_reg t b k = Ok (r, k') -> good_stack om ox k ->
  good_reg r /\ good_stack om ox k'.
Proof.
  intros om ox t b [|l] r k' H K; unfold pull_reg in H; [injection H as <- <-; split; exact I|].
  destruct b.
  - destruct (pull_byte (Live l)) as [lo k1] eqn:E1. destruct (pull_byte k1) as [hi k2] eqn:E2.
    destruct (good_pull_byte _ _ _ _ _ E1 K) as [G1 K1]. destruct (good_pull_byte _ _ _ _ _ E2 K1) as [G2 K2].
    destruct (sv_same_type lo (SV_lo t) && sv_same_type hi (SV_hi t)); [injection H as <- <-; split; [exact I|exact K2]|].
    destruct lo; try (injection H as <- <-; split; [exact I|exact K2]).
    destruct hi; injection H as <- <-; (split; [try exact I; try apply good_masked|exact K2]).
  - destruct (pull_byte (Live l)) as [lo k1] eqn:E1. destruct (good_pull_byte _ _ _ _ _ E1 K) as [G1 K1].
    destruct (sv_same_type lo (SV_lo t)); [injection H as <- <-; split; [exact I|exact K1]|].
    destruct lo; injection H as <- <-; (split; [try exact I; exact G1|exact K1]).
  - bok H as p E. destruct p as [v k1]. destruct l as [|w l]; cbn in E; [discriminate E|].
    destruct (is_varsize w); injection E as <- <-.
    + destruct (sv_same_type w (SV_var t false)); [|injection H as <- <-; split; exact I]. bok H as z Z.
      cbn in K. inversion K; subst. destruct (z =? 1); injection H as <- <-; (split; [exact I|assumption]).
    + cbn in H. injection H as <- <-. split; exact I.
  - injection H as <- <-. split; exact I.
Qed.
Lemma safe_pull_reg : forall (P : ub -> Prop) t b k, (b = B_original -> P UB_oob /\ P UB_assert) -> safe P (pull_reg t b k).
Proof.
  intros P t b [|l] H; [exact I|]. unfold pull_reg. destruct b.
  - destruct (pull_byte (Live l)) as [lo k1]. destruct (pull_byte k1) as [hi k2].
    destruct (sv_same_type lo (SV_lo t) && sv_same_type hi (SV_hi t)); [exact I|]. destruct lo; try exact I. destruct hi; exact I.
  - destruct (pull_byte (Live l)) as [lo k1]. destruct (sv_same_type lo (SV_lo t)); [exact I|]. destruct lo; exact I.
  - destruct (H eq_refl) as [H1 H2]. apply safe_bind.
    + destruct l as [|w l]; cbn; [exact H1|]. destruct (is_varsize w); exact I.
    + intros [v k1] _. destruct (sv_same_type v (SV_var t false)); [|exact I]. apply safe_bind; [destruct v; cbn; auto|].
      intros z _. destruct (z =? 1); exact I.
  - exact I.
Qed.

(** ** Executing a statement. *)
Definition plain_flags (f : flags) : Prop := fl_m f <> B_original /\ fl_x f <> B_original /\ fl_e f <> B_original.
Definition plain_stmt (s : statement) : Prop :=
  match s with
  | SInstr i => match i_ret i with RC_yields f => plain_flags f | _ => True end
  | SDir d => plain_flags (d_flags d)
  end.
Lemma plain_good : forall (om ox : Prop) f, plain_flags f -> good_flags om ox f.
Proof. intros om ox f (M & X & _). split; intros; contradiction. Qed.

Lemma good_with_flags : forall (om ox : Prop) f s, good_flags om ox f -> good om ox s -> good om ox (with_flags f s).
Proof. intros om ox f s G (A & X & Y & F & K). split; [exact A|]. split; [exact X|]. split; [exact Y|]. split; [exact G|exact K]. Qed.
Lemma good_with_stack : forall (om ox : Prop) k s, good_stack om ox k -> good om ox s -> good om ox (with_stack k s).
Proof. intros om ox k s G (A & X & Y & F & K). split; [exact A|]. split; [exact X|]. split; [exact Y|]. split; [exact F|exact G]. Qed.
Lemma good_with_a : forall (om ox : Prop) r s, good_reg r -> good om ox s -> good om ox (with_a r s).
Proof. intros om ox r s G (A & X & Y & F & K). split; [exact G|]. split; [exact X|]. split; [exact Y|]. split; [exact F|exact K]. Qed.
Lemma good_with_x : forall (om ox : Prop) r s, good_reg r -> good om ox s -> good om ox (with_x r s).
Proof. intros om ox r s G (A & X & Y & F & K). split; [exact A|]. split; [exact G|]. split; [exact Y|]. split; [exact F|exact K]. Qed.
Lemma good_with_y : forall (om ox : Prop) r s, good_reg r -> good om ox s -> good om ox (with_y r s).
Proof. intros om ox r s G (A & X & Y & F & K). split; [exact A|]. split; [exact X|]. split; [exact G|]. split; [exact F|exact K]. Qed.
Lemma good_with_dbr : forall (om ox : Prop) r s, good om ox s -> good om ox (with_dbr r s).
Proof. intros om ox r s G. exact G. Qed.

Lemma good_f : forall (om ox : Prop) s, good om ox s -> good_flags om ox (es_flags s).
Proof. intros om ox s (_ & _ & _ & F & _). exact F. Qed.
Lemma good_k : forall (om ox : Prop) s, good om ox s -> good_stack om ox (es_stack s).
Proof. intros om ox s (_ & _ & _ & _ & K). exact K. Qed.

Ltac good_reg_step := match goal with
  | |- good _ _ (with_a _ _) => apply good_with_a
  | |- good _ _ (with_x _ _) => apply good_with_x
  | |- good _ _ (with_y _ _) => apply good_with_y
  end.
Lemma good_execute : forall (om ox : Prop) c i s s', execute_in c i s = Ok s' -> plain_stmt (SInstr i) -> good om ox s -> good om ox s'.
Proof.
  intros om ox c i s s' H P G. unfold execute_in in H. bok H as u U. clear U u. cbv zeta in H.
  pose proof (good_f _ _ _ G) as GF. pose proof (good_k _ _ _ G) as GK.
  assert (CARRY : forall b s, good om ox s -> good om ox (upd_flags (set_c b) s)).
  { intros b s0 G0. apply good_with_flags; [|exact G0]. apply good_set_c, good_f. exact G0. }
  assert (SETX : forall b s, b <> B_original -> good om ox s -> good om ox (upd_flags (set_x b) s)).
  { intros b s0 B G0. apply good_with_flags; [|exact G0]. apply good_set_x; [contradiction|apply good_f; exact G0]. }
  assert (SETM : forall b s, b <> B_original -> good om ox s -> good om ox (upd_flags (set_m b) s)).
  { intros b s0 B G0. apply good_with_flags; [|exact G0]. apply good_set_m; [contradiction|apply good_f; exact G0]. }
  assert (WA : good om ox (wipe_a s)) by (apply good_with_a; [exact I|exact G]).
  destruct (i_mnem i) eqn:MN; try (injection H as <-; exact G); try (injection H as <-; apply CARRY; exact G);
    try (injection H as <-; exact WA); try (injection H as <-; apply CARRY; exact WA);
    try (injection H as <-; apply good_with_stack; [|exact G]; apply good_push_reg; exact GK);
    try (injection H as <-; apply good_with_stack; [|exact G]; apply good_push_sv; [exact I|apply good_push_sv; [exact I|exact GK]]).
  all: try (destruct (i_mode i); try (injection H as <-; exact G); bok H as r R; injection H as <-;
    (good_reg_step; [eapply good_rv_add; exact R|exact G])).
  all: try (destruct (i_mode i); try (injection H as <-; exact G); bok H as r R; injection H as <-;
    (good_reg_step; [destruct r; [apply good_rv_of_int|exact I]|exact G])).
  all: try (injection H as <-; apply CARRY; unfold plain_stmt in P; destruct (i_ret i); cbn [yield_flags]; try exact G;
    (apply good_with_flags; [apply plain_good; exact P|exact G])).
  - (* mvn *) bok H as ia IA. bok H as s2 S2. bok H as db DB. injection H as <-. apply good_with_dbr.
    assert (G1 : good om ox (match fl_m (es_flags s) with B_on => with_a (rv_of_int 255) s | B_off => with_a (rv_of_int 65535) s | _ => wipe_a s end)).
    { destruct (fl_m (es_flags s)); try exact WA; (apply good_with_a; [apply good_rv_of_int|exact G]). }
    revert S2 G1. generalize (match fl_m (es_flags s) with B_on => with_a (rv_of_int 255) s | B_off => with_a (rv_of_int 65535) s | _ => wipe_a s end).
    intros s1 S2 G1. destruct ia as [v|].
    + bok S2 as o O. bok S2 as rx RX. bok S2 as ry RY. injection S2 as <-.
      apply good_with_y; [eapply good_rv_add; exact RY|]. apply good_with_x; [eapply good_rv_add; exact RX|exact G1].
    + injection S2 as <-. apply good_with_y; [exact I|]. apply good_with_x; [exact I|exact G1].
  - (* mvp *) bok H as ia IA. bok H as s2 S2. bok H as db DB. injection H as <-. apply good_with_dbr.
    assert (G1 : good om ox (match fl_m (es_flags s) with B_on => with_a (rv_of_int 255) s | B_off => with_a (rv_of_int 65535) s | _ => wipe_a s end)).
    { destruct (fl_m (es_flags s)); try exact WA; (apply good_with_a; [apply good_rv_of_int|exact G]). }
    revert S2 G1. generalize (match fl_m (es_flags s) with B_on => with_a (rv_of_int 255) s | B_off => with_a (rv_of_int 65535) s | _ => wipe_a s end).
    intros s1 S2 G1. destruct ia as [v|].
    + bok S2 as o O. bok S2 as rx RX. bok S2 as ry RY. injection S2 as <-.
      apply good_with_y; [eapply good_rv_add; exact RY|]. apply good_with_x; [eapply good_rv_add; exact RX|exact G1].
    + injection S2 as <-. apply good_with_y; [exact I|]. apply good_with_x; [exact I|exact G1].
  - (* pea *) bok H as arg A. injection H as <-. apply good_with_stack; [|exact G]. destruct arg as [v|]; cbn [push_word_opt].
    + apply good_push_sv; [apply land_byte|]. apply good_push_sv; [apply land_byte|exact GK].
    + apply good_push_sv; [exact I|]. apply good_push_sv; [exact I|exact GK].
  - (* pla *) unfold pull_a in H. bok H as p E. destruct p as [r k]. injection H as <-.
    destruct (good_pull_reg _ _ _ _ _ _ _ E GK) as [R K]. apply good_with_a; [exact R|]. apply good_with_stack; [exact K|exact G].
  - unfold pull_x in H. bok H as p E. destruct p as [r k]. injection H as <-.
    destruct (good_pull_reg _ _ _ _ _ _ _ E GK) as [R K]. apply good_with_x; [exact R|]. apply good_with_stack; [exact K|exact G].
  - unfold pull_y in H. bok H as p E. destruct p as [r k]. injection H as <-.
    destruct (good_pull_reg _ _ _ _ _ _ _ E GK) as [R K]. apply good_with_y; [exact R|]. apply good_with_stack; [exact K|exact G].
  - (* php *) injection H as <-. apply good_with_stack; [|exact G]. apply good_push_sv; [exact GF|exact GK].
  - (* plp *) injection H as <-. unfold pull_flags. destruct (pull_byte (es_stack s)) as [v k] eqn:E.
    destruct (good_pull_byte _ _ _ _ _ E GK) as [V K]. cbv zeta.
    assert (GS : good om ox (with_stack k s)) by (apply good_with_stack; assumption).
    destruct v; apply good_with_flags; try exact GS; try (apply good_mk; discriminate).
    apply good_mk; apply V.
  - (* rep *) bok H as arg A. destruct arg as [v|]; injection H as <-.
    + destruct (has_bit v 1), (has_bit v 16), (has_bit v 32); repeat first [apply SETM; [discriminate|]|apply SETX; [discriminate|]|apply CARRY]; exact G.
    + assert (good om ox (if bit_eqb (fl_c (es_flags s)) B_off then s else upd_flags (set_c B_unknown) s)) as G1 by (destruct (bit_eqb _ _); [exact G|apply CARRY; exact G]).
      revert G1. generalize (if bit_eqb (fl_c (es_flags s)) B_off then s else upd_flags (set_c B_unknown) s). intros s1 G1.
      assert (good om ox (if bit_eqb (fl_x (es_flags s1)) B_off then s1 else upd_flags (set_x B_unknown) s1)) as G2 by (destruct (bit_eqb _ _); [exact G1|apply SETX; [discriminate|exact G1]]).
      revert G2. generalize (if bit_eqb (fl_x (es_flags s1)) B_off then s1 else upd_flags (set_x B_unknown) s1). intros s2 G2.
      destruct (bit_eqb _ _); [exact G2|apply SETM; [discriminate|exact G2]].
  - (* sep *) bok H as arg A. destruct arg as [v|]; injection H as <-.
    + destruct (has_bit v 1), (has_bit v 16), (has_bit v 32); repeat first [apply SETM; [discriminate|]|apply SETX; [discriminate|]|apply CARRY]; exact G.
    + assert (good om ox (if bit_eqb (fl_c (es_flags s)) B_on then s else upd_flags (set_c B_unknown) s)) as G1 by (destruct (bit_eqb _ _); [exact G|apply CARRY; exact G]).
      revert G1. generalize (if bit_eqb (fl_c (es_flags s)) B_on then s else upd_flags (set_c B_unknown) s). intros s1 G1.
      assert (good om ox (if bit_eqb (fl_x (es_flags s1)) B_on then s1 else upd_flags (set_x B_unknown) s1)) as G2 by (destruct (bit_eqb _ _); [exact G1|apply SETX; [discriminate|exact G1]]).
      revert G2. generalize (if bit_eqb (fl_x (es_flags s1)) B_on then s1 else upd_flags (set_x B_unknown) s1). intros s2 G2.
      destruct (bit_eqb _ _); [exact G2|apply SETM; [discriminate|exact G2]].
  - (* xce *) injection H as <-. apply good_with_flags; [apply good_xce; exact GF|exact G].
Qed.
