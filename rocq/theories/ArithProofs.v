(** Proofs for numbers, addresses, expressions and data directives. *)
From Verif Require Import BaseProofs ModelNumeric ModelAddress ModelExpr ModelMnemonic ModelState
  ModelStatement SpecArith.

(** ** Addresses *)
Lemma addr_bank_spec : forall a, addr_bank a = bank_of a.
Proof. intros. apply shiftr_16. Qed.
Lemma addr_low_spec : forall a, addr_low a = offset_of a.
Proof. intros. apply land_ffff. Qed.

Lemma add_wrapped_spec : forall a off, addr24 a -> add_wrapped a off = same_bank_plus a off.
Proof.
  intros a off H. unfold addr24 in H. unfold add_wrapped, same_bank_plus, bank_of, offset_of.
  rewrite land_ff0000, land_ffff, lor_16 by lia. unfold to_uint32.
  change (2 ^ 16) with 65536. change (2 ^ 24) with 16777216 in H. lia.
Qed.

Lemma same_bank_plus_24 : forall a d, addr24 a -> addr24 (same_bank_plus a d).
Proof.
  unfold addr24, same_bank_plus, bank_of, offset_of. intros a d H.
  change (2 ^ 16) with 65536. change (2 ^ 24) with 16777216 in *. lia.
Qed.
Lemma add_wrapped_24 : forall a d, 0 <= a -> addr24 (add_wrapped a d).
Proof.
  intros a d H. unfold addr24, add_wrapped. change (2 ^ 24) with 16777216.
  rewrite land_ff0000, land_ffff, lor_16 by lia. lia.
Qed.

Lemma add_wrapped_bank_offset : forall a off, addr24 a ->
  bank_of (add_wrapped a off) = bank_of a /\
  offset_of (add_wrapped a off) = (offset_of a + off) mod 2 ^ 16.
Proof.
  intros a off H. rewrite add_wrapped_spec by assumption.
  unfold addr24, same_bank_plus, bank_of, offset_of in *.
  change (2 ^ 16) with 65536. change (2 ^ 24) with 16777216 in H. lia.
Qed.

Lemma add_wrapped_add : forall a d e, addr24 a ->
  add_wrapped (add_wrapped a d) e = add_wrapped a (d + e).
Proof.
  intros a d e H. rewrite !add_wrapped_spec; try assumption.
  - unfold addr24, same_bank_plus, bank_of, offset_of in *.
    change (2 ^ 16) with 65536. change (2 ^ 24) with 16777216 in H. lia.
  - apply add_wrapped_24. unfold addr24 in H. lia.
Qed.

Lemma subtract_wrapped_ok : forall a b d, addr24 a -> addr24 b ->
  (subtract_wrapped a b = Ok d <->
   bank_of a = bank_of b /\ - 2 ^ 15 <= d < 2 ^ 15 /\ add_wrapped b d = a).
Proof.
  intros a b d Ha Hb. rewrite add_wrapped_spec by assumption.
  unfold subtract_wrapped. rewrite !addr_bank_spec, !addr_low_spec, land_ffff.
  unfold addr24, same_bank_plus, bank_of, offset_of, to_uint32 in *.
  change (2 ^ 15) with 32768. change (2 ^ 16) with 65536. change (2 ^ 24) with 16777216 in *.
  destruct (Z.eqb_spec (a / 65536) (b / 65536)) as [E|E]; cbn [negb].
  - split.
    + intros H. injection H as H. destruct (Z.ltb_spec 32767
        (((a mod 65536 - b mod 65536) mod 4294967296) mod 65536)); lia.
    + intros (_ & Hd & H). f_equal. destruct (Z.ltb_spec 32767
        (((a mod 65536 - b mod 65536) mod 4294967296) mod 65536)); lia.
  - split; [discriminate|]. intros (H & _). contradiction.
Qed.
Lemma subtract_wrapped_total : forall a b, addr24 a -> addr24 b ->
  (exists d, subtract_wrapped a b = Ok d) \/
  (subtract_wrapped a b = Err E_bank /\ bank_of a <> bank_of b).
Proof.
  intros a b _ _. unfold subtract_wrapped. rewrite !addr_bank_spec.
  destruct (Z.eqb_spec (bank_of a) (bank_of b)); cbn [negb]; eauto.
Qed.

Lemma mk_address_ok : forall v a, -2147483648 <= v <= 2147483647 ->
  (mk_address v = Ok a <-> a = v /\ 0 <= v <= 2 ^ 24).
Proof.
  intros v a Hv. unfold mk_address, to_uint32. change (2 ^ 24) with 16777216.
  destruct (Z.leb_spec (v mod 4294967296) 16777216).
  - split; [intros H1; injection H1 as H1|intros [H1 H2]; f_equal]; lia.
  - split; [discriminate|lia].
Qed.

Lemma label_address : forall a, 0 <= a <= 2 ^ 24 -> label_to_address (label_of_address a) = Ok a.
Proof.
  intros a H. change (2 ^ 24) with 16777216 in H. unfold label_to_address, label_of_address.
  rewrite shiftl_16, addr_bank_spec, addr_low_spec. unfold bank_of, offset_of.
  change (2 ^ 16) with 65536. rewrite lor_16 by lia.
  replace (a / 65536 * 65536 + a mod 65536) with a by lia.
  unfold mk_address. rewrite to_uint32_small by lia.
  destruct (Z.leb_spec a 16777216); [reflexivity|lia].
Qed.
Lemma label_of_address_id : forall a, 0 <= a -> label_of_address a = a.
Proof.
  intros a H. unfold label_of_address. rewrite shiftl_16, addr_bank_spec, addr_low_spec.
  unfold bank_of, offset_of. change (2 ^ 16) with 65536. rewrite lor_16 by lia. lia.
Qed.

(** ** Casts *)
Lemma cast_in_type : forall t v, in_type t (cast_to t v).
Proof.
  intros [] v; cbn -[Z.pow]; rewrite ?land_ff, ?land_ffff, ?land_ffffff;
    change (2 ^ 8) with 256; change (2 ^ 16) with 65536; change (2 ^ 24) with 16777216;
    change (2 ^ 7) with 128; change (2 ^ 15) with 32768; change (2 ^ 23) with 8388608;
    try exact I;
    try match goal with |- context [if ?b then _ else _] => destruct b eqn:? end; lia.
Qed.
Lemma cast_congruent : forall t v, t <> T_unknown ->
  cast_to t v mod 2 ^ type_bits t = v mod 2 ^ type_bits t.
Proof.
  intros [] v H; try contradiction; cbn -[Z.pow]; rewrite ?land_ff, ?land_ffff, ?land_ffffff;
    change (2 ^ 8) with 256; change (2 ^ 16) with 65536; change (2 ^ 24) with 16777216;
    try match goal with |- context [if ?b then _ else _] => destruct b eqn:? end; lia.
Qed.
Lemma cast_unique : forall t v w, t <> T_unknown -> in_type t w ->
  w mod 2 ^ type_bits t = v mod 2 ^ type_bits t -> w = cast_to t v.
Proof.
  intros t v w Ht Hw E. pose proof (cast_in_type t v) as Hc.
  rewrite <- (cast_congruent t v Ht) in E. generalize dependent (cast_to t v). intros c E Hc.
  destruct t; try contradiction; cbn -[Z.pow Z.modulo] in *;
    change (2 ^ 8) with 256 in *; change (2 ^ 16) with 65536 in *;
    change (2 ^ 24) with 16777216 in *;
    change (2 ^ 7) with 128 in *; change (2 ^ 15) with 32768 in *;
    change (2 ^ 23) with 8388608 in *; lia.
Qed.
Lemma cast_id : forall t v, in_type t v -> cast_to t v = v.
Proof.
  intros t v H. destruct t; [reflexivity| ..]; symmetry; apply cast_unique; auto; discriminate.
Qed.
Lemma cast_idem : forall t v, cast_to t (cast_to t v) = cast_to t v.
Proof. intros. apply cast_id, cast_in_type. Qed.

Lemma arith_conv_comm : forall a b, arith_conv a b = arith_conv b a.
Proof. intros [] []; reflexivity. Qed.
Lemma arith_conv_assoc : forall a b c,
  arith_conv a (arith_conv b c) = arith_conv (arith_conv a b) c.
Proof. intros [] [] []; reflexivity. Qed.
Lemma arith_conv_idem : forall a, arith_conv a a = a.
Proof. intros []; reflexivity. Qed.
Lemma arith_conv_unit : forall a, arith_conv T_unknown a = a.
Proof. intros []; reflexivity. Qed.
Lemma arith_conv_bits : forall a b, a <> T_unknown -> b <> T_unknown ->
  arith_conv a b <> T_unknown /\
  type_bits (arith_conv a b) = Z.max (type_bits a) (type_bits b) /\
  type_signed (arith_conv a b) = (type_signed a || type_signed b)%bool.
Proof. intros [] [] Ha Hb; try contradiction; repeat split; discriminate. Qed.

(** ** Evaluation *)
Lemma quot_unique_trunc : forall a b q m,
  b <> 0 -> a = b * q + m -> Z.abs m < Z.abs b -> 0 <= m * a -> q = Z.quot a b.
Proof.
  intros a b q m Hb E Hm Hs.
  pose proof (Z.quot_rem' a b) as E2. pose proof (Z.rem_sign_mul a b Hb) as S2.
  pose proof (Z.rem_bound_abs a b Hb) as B2.
  set (r := Z.rem a b) in *. set (q' := Z.quot a b) in *.
  assert (D : Z.abs (r - m) < Z.abs b).
  { destruct (Z.lt_trichotomy a 0) as [L|[L|L]].
    - assert (r <= 0) by nia. assert (m <= 0) by nia. lia.
    - assert (r = 0) by (subst r a; rewrite L; apply Z.rem_0_l; assumption).
      lia.
    - assert (0 <= r) by nia. assert (0 <= m) by nia. lia. }
  assert (D2 : b * (q - q') = r - m) by lia.
  rewrite <- D2, Z.abs_mul in D.
  destruct (Z.eq_dec q q') as [E3|N3]; [exact E3|exfalso].
  assert (1 <= Z.abs (q - q')) as H1 by lia.
  pose proof (Z.mul_le_mono_nonneg_l 1 (Z.abs (q - q')) (Z.abs b) (Z.abs_nonneg b) H1). lia.
Qed.

Lemma quot_trunc : forall a b, b <> 0 ->
  a = b * Z.quot a b + Z.rem a b /\ Z.abs (Z.rem a b) < Z.abs b /\ 0 <= Z.rem a b * a.
Proof.
  intros a b Hb. split; [apply Z.quot_rem'|]. split; [apply Z.rem_bound_abs; assumption|].
  apply Z.rem_sign_mul. assumption.
Qed.

Lemma int_result_cases : forall v,
  (int32 v /\ int_result v = Ok v) \/ (~ int32 v /\ int_result v = UB UB_overflow).
Proof.
  intros v. unfold int_result. destruct (in_int v) eqn:E.
  - left. apply in_int_iff in E. split; [unfold int32; lia|reflexivity].
  - right. split; [|reflexivity]. intros H. unfold int32 in H.
    assert (in_int v = true) by (apply in_int_iff; lia). congruence.
Qed.

Lemma means_eval : forall c e v, means (env_of c) e v -> eval c e = Ok v.
Proof.
  intros c e v H. induction H; cbn [eval].
  - reflexivity.
  - unfold env_of in H. destruct (c i); try discriminate. congruence.
  - rewrite IHmeans1, IHmeans2. cbn [apply_binop].
    destruct (int_result_cases (a + b)) as [[_ E]|[N _]]; [exact E|contradiction].
  - rewrite IHmeans1, IHmeans2. cbn [apply_binop].
    destruct (int_result_cases (a - b)) as [[_ E]|[N _]]; [exact E|contradiction].
  - rewrite IHmeans1, IHmeans2. cbn [apply_binop].
    destruct (int_result_cases (a * b)) as [[_ E]|[N _]]; [exact E|contradiction].
  - rewrite IHmeans1, IHmeans2. cbn [apply_binop].
    destruct (Z.eqb_spec b 0) as [->|_]; [contradiction|].
    rewrite <- (quot_unique_trunc a b q m) by assumption.
    destruct (int_result_cases q) as [[_ E]|[N _]]; [exact E|contradiction].
  - rewrite IHmeans. cbn [bind apply_unop].
    destruct (int_result_cases (- a)) as [[_ E]|[N _]]; [exact E|contradiction].
  - rewrite IHmeans. cbn [bind apply_unop]. rewrite land_ff. reflexivity.
  - rewrite IHmeans. cbn [bind apply_unop]. rewrite shiftr_8, land_ff. reflexivity.
  - rewrite IHmeans. cbn [bind apply_unop]. rewrite shiftr_16, land_ff. reflexivity.
  - assumption.
Qed.

Lemma eval_means : forall c e v, eval c e = Ok v -> means (env_of c) e v.
Proof.
  intros c e. induction e as [v0 t|i t|op l IHl r IHr|op a IHa|n h IHh]; intros v H;
    cbn [eval] in H.
  - injection H as ->. constructor.
  - constructor. unfold env_of. rewrite H. reflexivity.
  - destruct (eval c l) as [a| | |]; try discriminate; destruct (eval c r) as [b| | |];
      try discriminate.
    specialize (IHl a eq_refl). specialize (IHr b eq_refl).
    destruct op; cbn [apply_binop] in H.
    + destruct (int_result_cases (a + b)) as [[I E]|[N E]]; rewrite E in H; inv H.
      apply m_add; assumption.
    + destruct (int_result_cases (a - b)) as [[I E]|[N E]]; rewrite E in H; inv H.
      apply m_sub; assumption.
    + destruct (int_result_cases (a * b)) as [[I E]|[N E]]; rewrite E in H; inv H.
      apply m_mul; assumption.
    + destruct (Z.eqb_spec b 0) as [->|Hb]; [discriminate|].
      destruct (int_result_cases (Z.quot a b)) as [[I E]|[N E]]; rewrite E in H; inv H.
      destruct (quot_trunc a b Hb) as (Q1 & Q2 & Q3).
      eapply m_div; eassumption.
  - apply bind_ok in H. destruct H as (w & E & H). specialize (IHa w E).
    destruct op; cbn [apply_unop] in H.
    + destruct (int_result_cases (- w)) as [[I E2]|[N E2]]; rewrite E2 in H; inv H.
      constructor; assumption.
    + injection H as <-. rewrite land_ff. constructor. assumption.
    + injection H as <-. rewrite land_ff, shiftr_8. constructor. assumption.
    + injection H as <-. rewrite land_ff, shiftr_16. constructor. assumption.
  - constructor. apply IHh. exact H.
Qed.

Lemma means_functional : forall c e v w, means (env_of c) e v -> means (env_of c) e w -> v = w.
Proof. intros c e v w A B. apply means_eval in A. apply means_eval in B. congruence. Qed.

(** No overflow in an expression that has a value. *)
Lemma means_not_overflows : forall c e a, means (env_of c) e a -> overflows (env_of c) e -> False.
Proof.
  intros c e a Hm Ho. apply means_eval in Hm. revert a Hm.
  induction Ho; intros v Hm; cbn [eval] in Hm;
    repeat match goal with A : means (env_of c) _ _ |- _ => apply means_eval in A end.
  - rewrite H, H0 in Hm. cbn [apply_binop] in Hm.
    destruct (int_result_cases (a + b)) as [[I E]|[N E]]; [contradiction|congruence].
  - rewrite H, H0 in Hm. cbn [apply_binop] in Hm.
    destruct (int_result_cases (a - b)) as [[I E]|[N E]]; [contradiction|congruence].
  - rewrite H, H0 in Hm. cbn [apply_binop] in Hm.
    destruct (int_result_cases (a * b)) as [[I E]|[N E]]; [contradiction|congruence].
  - rewrite H, H0 in Hm. cbn [apply_binop] in Hm. destruct (Z.eqb_spec b 0); [contradiction|].
    rewrite <- (quot_unique_trunc a b q m) in Hm by assumption.
    destruct (int_result_cases q) as [[I E]|[N E]]; [contradiction|congruence].
  - rewrite H in Hm. cbn [bind apply_unop] in Hm.
    destruct (int_result_cases (- a)) as [[I E]|[N E]]; [contradiction|congruence].
  - destruct (eval c l); [eapply IHHo; reflexivity|destruct (eval c r); discriminate ..].
  - destruct (eval c r); [eapply IHHo; reflexivity|destruct (eval c l); discriminate ..].
  - apply bind_ok in Hm. destruct Hm as (w & E & _). eauto.
  - eauto.
Qed.

(** All names resolve: evaluation gives a value, reports a zero divisor, or overflows. *)
Lemma eval_cases : forall c e, resolves c e ->
  (exists v, eval c e = Ok v) \/
  (eval c e = Err E_div_zero /\ divides_by_zero (env_of c) e /\ ~ overflows (env_of c) e) \/
  (eval c e = UB UB_overflow /\ overflows (env_of c) e).
Proof.
  intros c e. induction e as [v0 t|i t|op l IHl r IHr|op a IHa|n h IHh]; intros R; cbn [eval].
  - left. eauto.
  - left. destruct (R i) as [v E]; [left; reflexivity|]. eauto.
  - assert (Rl : resolves c l) by (intros i Hi; apply R; cbn; apply in_or_app; auto).
    assert (Rr : resolves c r) by (intros i Hi; apply R; cbn; apply in_or_app; auto).
    specialize (IHl Rl). specialize (IHr Rr).
    pose proof (means_not_overflows c) as NO.
    destruct IHl as [[a El]|[[El [Dl Nl]]|[El Ol]]], IHr as [[b Er]|[[Er [Dr Nr]]|[Er Or]]];
      rewrite El, ?Er.
    + pose proof (eval_means _ _ _ El) as Ml. pose proof (eval_means _ _ _ Er) as Mr.
      destruct op; cbn [apply_binop].
      * destruct (int_result_cases (a + b)) as [[I E]|[N E]]; rewrite E; [left; eauto|].
        right. right. split; [reflexivity|]. eapply o_add; eauto.
      * destruct (int_result_cases (a - b)) as [[I E]|[N E]]; rewrite E; [left; eauto|].
        right. right. split; [reflexivity|]. eapply o_sub; eauto.
      * destruct (int_result_cases (a * b)) as [[I E]|[N E]]; rewrite E; [left; eauto|].
        right. right. split; [reflexivity|]. eapply o_mul; eauto.
      * destruct (Z.eqb_spec b 0) as [->|Hb].
        -- right. left. split; [reflexivity|]. split; [eapply z_here; eauto|].
           intros O. inv O.
           ++ match goal with A : means _ r 0, B : means _ r ?b |- _ =>
                pose proof (means_functional _ _ _ _ A B); subst; contradiction end.
           ++ eapply NO; [exact Ml|assumption].
           ++ eapply NO; [exact Mr|assumption].
        -- destruct (int_result_cases (Z.quot a b)) as [[I E]|[N E]]; rewrite E; [left; eauto|].
           right. right. split; [reflexivity|]. destruct (quot_trunc a b Hb) as (Q1 & Q2 & Q3).
           eapply o_div; eauto.
    + right. left. split; [reflexivity|]. split; [apply z_right; assumption|].
      pose proof (eval_means _ _ _ El) as Ml.
      intros O. inv O; try contradiction;
        try (match goal with B : means _ r _ |- _ => apply means_eval in B; congruence end).
      eapply NO; [exact Ml|assumption].
    + right. right. split; [reflexivity|]. apply o_right. assumption.
    + right. left. split; [reflexivity|]. split; [apply z_left; assumption|].
      pose proof (eval_means _ _ _ Er) as Mr.
      intros O. inv O; try contradiction;
        try (match goal with B : means _ l _ |- _ => apply means_eval in B; congruence end).
      eapply NO; [exact Mr|assumption].
    + right. left. split; [reflexivity|]. split; [apply z_left; assumption|].
      intros O. inv O; try contradiction;
        match goal with B : means _ l _ |- _ => apply means_eval in B; congruence end.
    + right. right. split; [reflexivity|]. apply o_right. assumption.
    + right. right. split; [reflexivity|]. apply o_left. assumption.
    + right. right. split; [reflexivity|]. apply o_left. assumption.
    + right. right. split; [reflexivity|]. apply o_left. assumption.
  - assert (Ra : resolves c a) by (intros i Hi; apply R; exact Hi).
    destruct (IHa Ra) as [[v E]|[[E [D N]]|[E O]]]; rewrite E; cbn [bind].
    + pose proof (eval_means _ _ _ E) as M. destruct op; cbn [apply_unop]; [|left; eauto ..].
      destruct (int_result_cases (- v)) as [[I E2]|[N E2]]; rewrite E2; [left; eauto|].
      right. right. split; [reflexivity|]. eapply o_neg; eauto.
    + right. left. split; [reflexivity|]. split; [constructor; assumption|].
      intros O. inv O; [|contradiction].
      match goal with B : means _ a _ |- _ => apply means_eval in B; congruence end.
    + right. right. split; [reflexivity|]. apply o_un. assumption.
  - assert (Ra : resolves c h) by (intros i Hi; apply R; exact Hi).
    destruct (IHh Ra) as [[v E]|[[E [D N]]|[E O]]]; rewrite E.
    + left. eauto.
    + right. left. split; [reflexivity|]. split; [constructor; assumption|].
      intros O. inv O. contradiction.
    + right. right. split; [reflexivity|]. apply o_label. assumption.
Qed.

Lemma eval_exact : forall c e, resolves c e ->
  (forall v, eval c e = Ok v <-> means (env_of c) e v) /\
  (eval c e = Err E_div_zero <-> divides_by_zero (env_of c) e /\ ~ overflows (env_of c) e) /\
  (eval c e = UB UB_overflow <-> overflows (env_of c) e) /\
  ((exists v, eval c e = Ok v) \/ eval c e = Err E_div_zero \/ eval c e = UB UB_overflow).
Proof.
  intros c e R.
  assert (NZ : forall e v, eval c e = Ok v -> divides_by_zero (env_of c) e -> False).
  { intros e0 v E D. revert v E. induction D; intros v E; cbn [eval] in E.
    - apply means_eval in H. apply means_eval in H0. rewrite H, H0 in E. discriminate.
    - destruct (eval c l); [eapply IHD; reflexivity|destruct (eval c r); discriminate ..].
    - destruct (eval c r); [eapply IHD; reflexivity|destruct (eval c l); discriminate ..].
    - apply bind_ok in E. destruct E as (w & E & _). eauto.
    - eauto. }
  split; [|split; [|split]].
  - intros v. split; [apply eval_means|apply means_eval].
  - destruct (eval_cases c e R) as [[v E]|[[E [D N]]|[E O]]].
    + split; [congruence|]. intros [D _]. exfalso. eapply NZ; eassumption.
    + tauto.
    + split; [congruence|]. tauto.
  - destruct (eval_cases c e R) as [[v E]|[[E [D N]]|[E O]]].
    + split; [congruence|]. intros O. exfalso.
      eapply means_not_overflows; [eapply eval_means|]; eassumption.
    + split; [congruence|tauto].
    + tauto.
  - destruct (eval_cases c e R) as [[v E]|[[E _]|[E _]]]; eauto.
Qed.

Lemma eval_ext : forall c1 c2 e, (forall i, In i (names_in e) -> c1 i = c2 i) ->
  eval c1 e = eval c2 e.
Proof.
  intros c1 c2 e. induction e as [v0 t|i t|op l IHl r IHr|op a IHa|n h IHh]; intros H; cbn [eval].
  - reflexivity.
  - apply H. left. reflexivity.
  - rewrite IHl, IHr; [reflexivity| |]; intros i Hi; apply H; cbn; apply in_or_app; auto.
  - rewrite IHa; [reflexivity|]. exact H.
  - apply IHh. exact H.
Qed.

(** ** Data directives *)
Lemma encode_value_le : forall d v,
  encode_value d v = le_bytes (match d with D_dl => 3 | D_dw => 2 | _ => 1 end) v.
Proof.
  intros d v. unfold encode_value. rewrite !land_ff, shiftr_8, shiftr_16.
  assert (E : v / 65536 = v / 256 / 256) by (rewrite Z.div_div by lia; reflexivity).
  rewrite E. destruct d; reflexivity.
Qed.

Lemma encode_list_ok : forall d c l b,
  encode_list d c l = Ok b <->
  exists vs, Forall2 (means (env_of c)) l vs /\ b = flat_map (encode_value d) vs.
Proof.
  intros d c l. induction l as [|e l IH]; intros b; cbn [encode_list].
  - split.
    + intros H. injection H as <-. exists []. split; [constructor|reflexivity].
    + intros (vs & H & ->). inv H. reflexivity.
  - split.
    + intros H. apply bind_ok in H. destruct H as (v & E & H).
      apply bind_ok in H. destruct H as (r & E2 & H). injection H as <-.
      apply IH in E2. destruct E2 as (vs & F & ->). exists (v :: vs). split; [|reflexivity].
      constructor; [apply eval_means; assumption|assumption].
    + intros (vs & H & ->). inv H. rewrite (means_eval _ _ _ H2). cbn [bind].
      assert (E : encode_list d c l = Ok (flat_map (encode_value d) l')) by (apply IH; eauto).
      rewrite E. reflexivity.
Qed.

Lemma le_bytes_range : forall n v b, In b (le_bytes n v) -> 0 <= b < 256.
Proof.
  induction n as [|n IH]; intros v b; cbn [le_bytes In]; [contradiction|].
  change (2 ^ 8) with 256. intros [<-|H]; [lia|]. eapply IH. exact H.
Qed.
Lemma le_bytes_length : forall n v, List.length (le_bytes n v) = n.
Proof. induction n as [|n IH]; intros v; cbn [le_bytes List.length]; [reflexivity|]. f_equal. apply IH. Qed.

Lemma data_directive_bytes : forall c d n b,
  n = match d_name d with D_db => Some 1%nat | D_dw => Some 2%nat | D_dl => Some 3%nat | _ => None end ->
  (directive_bytes c d = Ok b <->
   match n with
   | None => b = None
   | Some k => exists vs, Forall2 (means (env_of c)) (d_list d) vs /\ b = Some (flat_map (le_bytes k) vs)
   end).
Proof.
  intros c d n b ->. unfold directive_bytes.
  assert (G : forall nm k, (forall v, encode_value nm v = le_bytes k v) ->
    ((let* b0 := encode_list nm c (d_list d) in Ok (Some b0)) = Ok b <->
     exists vs, Forall2 (means (env_of c)) (d_list d) vs /\ b = Some (flat_map (le_bytes k) vs))).
  { intros nm k Hk. split.
    - intros H. apply bind_ok in H. destruct H as (x & E & H). injection H as <-.
      apply encode_list_ok in E. destruct E as (vs & F & ->). exists vs. split; [assumption|].
      f_equal. apply flat_map_ext. exact Hk.
    - intros (vs & F & ->). assert (E : encode_list nm c (d_list d) = Ok (flat_map (encode_value nm) vs))
        by (apply encode_list_ok; eauto).
      rewrite E. cbn [bind]. do 2 f_equal. apply flat_map_ext. exact Hk. }
  destruct (d_name d); try (split; [intros H; injection H as <-; reflexivity|intros ->; reflexivity]);
    apply G; intros v; rewrite encode_value_le; reflexivity.
Qed.

(** ** Statements used by the property files *)
Lemma subtract_wrapped_full : forall a b, addr24 a -> addr24 b ->
  (forall d, subtract_wrapped a b = Ok d <->
     bank_of a = bank_of b /\ - 2 ^ 15 <= d < 2 ^ 15 /\ add_wrapped b d = a) /\
  (bank_of a = bank_of b -> exists d, subtract_wrapped a b = Ok d) /\
  (bank_of a <> bank_of b -> exists e, subtract_wrapped a b = Err e).
Proof.
  intros a b Ha Hb. split; [intros d; apply subtract_wrapped_ok; assumption|].
  unfold subtract_wrapped. rewrite !addr_bank_spec.
  split; intros H; destruct (Z.eqb_spec (bank_of a) (bank_of b)); try contradiction;
    cbn [negb]; eauto.
Qed.
Lemma cast_full : forall t v,
  in_type t (cast_to t v) /\
  (t = T_unknown -> cast_to t v = v) /\
  (t <> T_unknown -> forall w,
     w = cast_to t v <-> in_type t w /\ w mod 2 ^ type_bits t = v mod 2 ^ type_bits t).
Proof.
  intros t v. split; [apply cast_in_type|]. split; [intros ->; reflexivity|].
  intros Ht w. split.
  - intros ->. split; [apply cast_in_type|apply cast_congruent; assumption].
  - intros [Hw E]. apply cast_unique; assumption.
Qed.
Lemma data_directives_full : forall c d b,
  directive_bytes c d = Ok b <->
  match d_name d with
  | D_db => exists vs, Forall2 (means (env_of c)) (d_list d) vs /\ b = Some (flat_map (le_bytes 1) vs)
  | D_dw => exists vs, Forall2 (means (env_of c)) (d_list d) vs /\ b = Some (flat_map (le_bytes 2) vs)
  | D_dl => exists vs, Forall2 (means (env_of c)) (d_list d) vs /\ b = Some (flat_map (le_bytes 3) vs)
  | _ => b = None
  end.
Proof.
  intros c d b. rewrite (data_directive_bytes c d _ b eq_refl). destruct (d_name d); reflexivity.
Qed.
