(** Proofs about tracked states. *)
From Verif Require Import Base ModelMnemonic ModelExpr ModelAMode ModelOpcode ModelState ModelInstr.
From Verif Require Import BaseProofs SpecState NameProofs InstrProofs.

(** ** Equality tests. *)
Lemma bit_eqb_eq : forall a b, bit_eqb a b = true <-> a = b.
Proof. intros [] []; cbn; split; intros H; congruence. Qed.
Lemma flags_eqb_eq : forall f g, flags_eqb f g = true <-> f = g.
Proof.
  intros [] []. unfold flags_eqb. cbn. rewrite !andb_true_iff, !bit_eqb_eq. split.
  - intros [[[-> ->] ->] ->]. reflexivity.
  - intros H. injection H as -> -> -> ->. auto.
Qed.
Lemma rv_eqb_eq : forall a b, rv_eqb a b = true <-> a = b.
Proof. intros [] []; cbn; split; intros H; try congruence; [f_equal; lia|inversion H; lia]. Qed.
Lemma treg_eqb_eq : forall a b, treg_eqb a b = true <-> a = b.
Proof. intros [] []; cbn; split; intros H; congruence. Qed.
Lemma sv_eqb_eq : forall a b, sv_eqb a b = true <-> a = b.
Proof.
  intros a b. unfold sv_eqb.
  destruct a, b; cbn; try (split; intros H; congruence).
  - rewrite Z.eqb_eq. split; congruence.
  - rewrite flags_eqb_eq. split; congruence.
  - destruct (treg_eqb r r0) eqn:E; cbn.
    + apply treg_eqb_eq in E. subst. tauto.
    + split; [discriminate|]. intros H. inversion H. subst.
      rewrite (proj2 (treg_eqb_eq r0 r0) eq_refl) in E. discriminate.
  - destruct (treg_eqb r r0) eqn:E; cbn.
    + apply treg_eqb_eq in E. subst. tauto.
    + split; [discriminate|]. intros H. inversion H. subst.
      rewrite (proj2 (treg_eqb_eq r0 r0) eq_refl) in E. discriminate.
  - destruct (treg_eqb r r0) eqn:E; cbn.
    + apply treg_eqb_eq in E. subst. rewrite Bool.eqb_true_iff. split; congruence.
    + split; [discriminate|]. intros H. inversion H. subst.
      rewrite (proj2 (treg_eqb_eq r0 r0) eq_refl) in E. discriminate.
Qed.
Lemma svlist_eqb_eq : forall a b, svlist_eqb a b = true <-> a = b.
Proof.
  induction a as [|x a IH]; intros [|y b]; cbn; try (split; intros H; congruence).
  rewrite andb_true_iff, sv_eqb_eq, IH. split; [intros [-> ->]; reflexivity|].
  intros H. injection H as -> ->. auto.
Qed.
Lemma stack_eqb_eq : forall a b, stack_eqb a b = true <-> a = b.
Proof.
  intros [|l] [|k]; cbn; try (split; intros H; congruence).
  rewrite svlist_eqb_eq. split; congruence.
Qed.
Lemma es_eqb_eq : forall a b, es_eqb a b = true <-> a = b.
Proof.
  intros [] []. unfold es_eqb. cbn.
  rewrite !andb_true_iff, !rv_eqb_eq, flags_eqb_eq, stack_eqb_eq. split.
  - intros [[[[[-> ->] ->] ->] ->] ->]. reflexivity.
  - intros H. injection H as -> -> -> -> -> ->. repeat split.
Qed.

(** ** Consistency. *)
Lemma constrained_consistent : forall e w, width_consistent e (constrained w e).
Proof. intros [] []; cbn; auto; discriminate. Qed.
Lemma consistent_constrained : forall e w, width_consistent e w -> constrained w e = w.
Proof. intros [] []; cbn; intros H; try reflexivity; try congruence; destruct H; congruence. Qed.
Lemma mk_flags_consistent : forall e m x c, consistent (mk_flags e m x c).
Proof. intros. split; cbn; apply constrained_consistent. Qed.
Lemma consistent_mk : forall f, consistent f -> mk_flags (fl_e f) (fl_m f) (fl_x f) (fl_c f) = f.
Proof.
  intros [e m x c] [H1 H2]. cbn in *. unfold mk_flags.
  rewrite !consistent_constrained by assumption. reflexivity.
Qed.

Lemma produced_iff : forall f, produced f <-> consistent f.
Proof.
  intros f. split.
  - intros H. induction H as [e m x c|f b H IH|f b H IH|f b H IH|f H IH|f H IH|f g H1 IH1 H2 IH2].
    + apply mk_flags_consistent.
    + destruct IH as [I1 I2]. split; cbn; [apply constrained_consistent|exact I2].
    + destruct IH as [I1 I2]. split; cbn; [exact I1|apply constrained_consistent].
    + exact IH.
    + destruct f as [e m x c]. destruct IH as [I1 I2]. unfold consistent. cbn in *.
      destruct e, m, x; cbn in *; repeat split; try discriminate; try congruence;
        try (destruct I1; congruence); try (destruct I2; congruence).
    + split; cbn; apply constrained_consistent.
    + apply mk_flags_consistent.
  - intros H. rewrite <- (consistent_mk f H). apply pr_new.
Qed.

(** ** Merging: idempotent, commutative, associative. *)
Lemma bit_merge_idem : forall a, bit_merge a a = a.
Proof. intros []; reflexivity. Qed.
Lemma bit_merge_comm : forall a b, bit_merge a b = bit_merge b a.
Proof. intros [] []; reflexivity. Qed.
Lemma bit_merge_assoc : forall a b c, bit_merge (bit_merge a b) c = bit_merge a (bit_merge b c).
Proof. intros [] [] []; reflexivity. Qed.

Lemma flags_merge_idem : forall f, consistent f -> flags_merge f f = f.
Proof. intros f H. unfold flags_merge. rewrite !bit_merge_idem. apply consistent_mk. exact H. Qed.
Lemma flags_merge_comm : forall f g, flags_merge f g = flags_merge g f.
Proof.
  intros f g. unfold flags_merge.
  rewrite (bit_merge_comm (fl_e f)), (bit_merge_comm (fl_m f)), (bit_merge_comm (fl_x f)),
    (bit_merge_comm (fl_c f)). reflexivity.
Qed.
Lemma width_merge_assoc : forall e1 e2 e3 w1 w2 w3,
  width_consistent e1 w1 -> width_consistent e2 w2 -> width_consistent e3 w3 ->
  constrained (bit_merge (constrained (bit_merge w1 w2) (bit_merge e1 e2)) w3)
    (bit_merge (bit_merge e1 e2) e3) =
  constrained (bit_merge w1 (constrained (bit_merge w2 w3) (bit_merge e2 e3)))
    (bit_merge e1 (bit_merge e2 e3)).
Proof.
  intros e1 e2 e3 w1 w2 w3 H1 H2 H3.
  destruct e1, w1; cbn in H1; try congruence; try (destruct H1; congruence); clear H1;
  destruct e2, w2; cbn in H2; try congruence; try (destruct H2; congruence); clear H2;
  destruct e3, w3; cbn in H3; try congruence; try (destruct H3; congruence); reflexivity.
Qed.
Lemma flags_merge_assoc : forall f g h, consistent f -> consistent g -> consistent h ->
  flags_merge (flags_merge f g) h = flags_merge f (flags_merge g h).
Proof.
  intros f g h [F1 F2] [G1 G2] [H1 H2]. unfold flags_merge, mk_flags. cbn [fl_e fl_m fl_x fl_c].
  rewrite (width_merge_assoc (fl_e f) (fl_e g) (fl_e h) (fl_m f) (fl_m g) (fl_m h)) by assumption.
  rewrite (width_merge_assoc (fl_e f) (fl_e g) (fl_e h) (fl_x f) (fl_x g) (fl_x h)) by assumption.
  rewrite !bit_merge_assoc. reflexivity.
Qed.

Lemma rv_merge_idem : forall a, rv_merge a a = a.
Proof. intros a. unfold rv_merge. rewrite (proj2 (rv_eqb_eq a a) eq_refl). reflexivity. Qed.
Lemma rv_eqb_sym : forall a b, rv_eqb a b = rv_eqb b a.
Proof. intros [] []; cbn; auto using Z.eqb_sym. Qed.
Lemma rv_merge_comm : forall a b, rv_merge a b = rv_merge b a.
Proof.
  intros a b. unfold rv_merge. rewrite (rv_eqb_sym b a).
  destruct (rv_eqb a b) eqn:E; [apply rv_eqb_eq in E; exact E|reflexivity].
Qed.
Lemma rv_merge_assoc : forall a b c, rv_merge (rv_merge a b) c = rv_merge a (rv_merge b c).
Proof.
  assert (U : forall x, rv_merge RV_unknown x = RV_unknown).
  { intros []; reflexivity. }
  assert (U' : forall x, rv_merge x RV_unknown = RV_unknown).
  { intros []; reflexivity. }
  intros a b c. unfold rv_merge at 2 4.
  destruct (rv_eqb a b) eqn:E1; destruct (rv_eqb b c) eqn:E2.
  - apply rv_eqb_eq in E1. subst. apply rv_eqb_eq in E2. subst. reflexivity.
  - apply rv_eqb_eq in E1. subst. unfold rv_merge at 1. rewrite E2, U'. reflexivity.
  - apply rv_eqb_eq in E2. subst. rewrite U. unfold rv_merge. rewrite E1. reflexivity.
  - rewrite U, U'. reflexivity.
Qed.

Lemma treg_eqb_refl : forall t, treg_eqb t t = true.
Proof. intros []; reflexivity. Qed.
Lemma treg_eqb_sym : forall a b, treg_eqb a b = treg_eqb b a.
Proof. intros [] []; reflexivity. Qed.
Lemma sv_merge_idem : forall a, slot_consistent a -> sv_merge a a = a.
Proof.
  intros a H. unfold sv_merge. destruct a; cbn in *; rewrite ?treg_eqb_refl; cbn;
    rewrite ?Z.eqb_refl, ?Bool.eqb_reflx; try reflexivity.
  rewrite flags_merge_idem by exact H. reflexivity.
Qed.
Lemma sv_merge_comm : forall a b, sv_merge a b = sv_merge b a.
Proof.
  intros a b. unfold sv_merge. destruct a, b; cbn; try reflexivity.
  - rewrite (Z.eqb_sym v0 v). destruct (Z.eqb_spec v v0); [subst; reflexivity|reflexivity].
  - rewrite flags_merge_comm. reflexivity.
  - rewrite (treg_eqb_sym r0 r). destruct (treg_eqb r r0) eqn:E; [|reflexivity].
    apply treg_eqb_eq in E. subst. reflexivity.
  - rewrite (treg_eqb_sym r0 r). destruct (treg_eqb r r0) eqn:E; [|reflexivity].
    apply treg_eqb_eq in E. subst. reflexivity.
  - rewrite (treg_eqb_sym r0 r). destruct (treg_eqb r r0) eqn:E; [|reflexivity].
    apply treg_eqb_eq in E. subst. destruct orig, orig0; reflexivity.
Qed.
Lemma sv_merge_consistent : forall a b, slot_consistent (sv_merge a b).
Proof.
  intros a b. unfold sv_merge. destruct a, b; cbn; auto;
    repeat match goal with |- context [if ?c then _ else _] => destruct c; cbn; auto end.
  apply mk_flags_consistent.
Qed.
Lemma sv_merge_assoc : forall a b c, slot_consistent a -> slot_consistent b -> slot_consistent c ->
  sv_merge (sv_merge a b) c = sv_merge a (sv_merge b c).
Proof.
  assert (U : forall x, sv_merge SV_unknown x = SV_unknown) by (intros []; reflexivity).
  assert (U' : forall x, sv_merge x SV_unknown = SV_unknown) by (intros []; reflexivity).
  assert (D : forall x y, sv_same_type x y = false -> sv_merge x y = SV_unknown).
  { intros x y E. unfold sv_merge. rewrite E. reflexivity. }
  assert (T : forall x y z, sv_same_type x y = true -> sv_same_type x z = sv_same_type y z).
  { intros [] [] []; cbn; intros E; try discriminate; try reflexivity;
      apply treg_eqb_eq in E; subst; reflexivity. }
  assert (S : forall x y, sv_same_type x y = sv_same_type y x).
  { intros [] []; cbn; try reflexivity; apply treg_eqb_sym. }
  assert (M : forall x y, sv_same_type x y = true ->
            sv_merge x y = SV_unknown \/ forall z, sv_same_type (sv_merge x y) z = sv_same_type x z).
  { intros x y E. unfold sv_merge. rewrite E. cbn [negb].
    destruct x, y; cbn in E; try discriminate; auto.
    - destruct (v =? v0); auto.
    - destruct (Bool.eqb orig orig0); auto. }
  intros a b c Ha Hb Hc.
  destruct (sv_same_type a b) eqn:E1.
  2:{ rewrite (D a b E1), U. destruct (sv_same_type b c) eqn:E2.
      - destruct (M b c E2) as [->|K]; [rewrite U'; reflexivity|]. symmetry. apply D.
        rewrite S, K, S. exact E1.
      - rewrite (D b c E2), U'. reflexivity. }
  destruct (sv_same_type b c) eqn:E2.
  2:{ rewrite (D b c E2), U'. destruct (M a b E1) as [->|K]; [apply U|]. apply D. rewrite K.
      rewrite (T a b c E1). exact E2. }
  destruct a, b; cbn in E1; try discriminate; destruct c; cbn in E2; try discriminate; try reflexivity.
  - unfold sv_merge; cbn.
    repeat match goal with |- context [?a =? ?b] => destruct (Z.eqb_spec a b); subst; cbn end;
      congruence.
  - unfold sv_merge; cbn. f_equal. apply flags_merge_assoc; assumption.
  - apply treg_eqb_eq in E1, E2. subst. unfold sv_merge. cbn. rewrite !treg_eqb_refl. cbn.
    rewrite treg_eqb_refl. reflexivity.
  - apply treg_eqb_eq in E1, E2. subst. unfold sv_merge. cbn. rewrite !treg_eqb_refl. cbn.
    rewrite treg_eqb_refl. reflexivity.
  - apply treg_eqb_eq in E1, E2. subst. unfold sv_merge. cbn. rewrite !treg_eqb_refl. cbn.
    destruct orig, orig0, orig1; cbn; rewrite ?treg_eqb_refl; reflexivity.
Qed.

(** Whether two slots can be merged: they have the same class. *)
Definition slot_class (v : stackval) : option treg :=
  match v with SV_var t _ => Some t | _ => None end.
Lemma can_merge_class : forall a b, can_merge a b = true <-> slot_class a = slot_class b.
Proof.
  intros a b. unfold can_merge. destruct a, b; cbn; try (split; intros; congruence);
    try (rewrite orb_true_r; split; auto).
  destruct (treg_eqb r r0) eqn:E; cbn.
  - apply treg_eqb_eq in E. subst. tauto.
  - split; [discriminate|]. intros H. injection H as ->. rewrite treg_eqb_refl in E. discriminate.
Qed.
Lemma merge_class : forall a b, can_merge a b = true -> slot_class (sv_merge a b) = slot_class a.
Proof.
  intros a b H. apply can_merge_class in H. unfold sv_merge.
  destruct a, b; cbn in *; try congruence; try (destruct (v =? v0); reflexivity);
    try (destruct (treg_eqb r r0); reflexivity).
  injection H as ->. rewrite treg_eqb_refl. cbn. destruct (Bool.eqb orig orig0); reflexivity.
Qed.

Lemma merge_lists_idem : forall l, (forall v, In v l -> slot_consistent v) -> merge_lists l l = Some l.
Proof.
  induction l as [|v l IH]; intros H; cbn; [reflexivity|].
  rewrite (proj2 (can_merge_class v v) eq_refl). rewrite IH by (intros; apply H; right; assumption).
  rewrite sv_merge_idem by (apply H; left; reflexivity). reflexivity.
Qed.
Lemma can_merge_sym : forall a b, can_merge a b = can_merge b a.
Proof.
  intros a b. destruct (can_merge b a) eqn:E.
  - apply can_merge_class. symmetry. apply can_merge_class. exact E.
  - destruct (can_merge a b) eqn:E'; [|reflexivity]. apply can_merge_class in E'.
    symmetry in E'. apply can_merge_class in E'. congruence.
Qed.
Lemma merge_lists_comm : forall l k, merge_lists l k = merge_lists k l.
Proof.
  induction l as [|v l IH]; intros [|w k]; cbn; try reflexivity.
  rewrite can_merge_sym, IH, sv_merge_comm. reflexivity.
Qed.
Lemma merge_lists_assoc : forall l1 l2 l3,
  (forall v, In v l1 -> slot_consistent v) -> (forall v, In v l2 -> slot_consistent v) ->
  (forall v, In v l3 -> slot_consistent v) ->
  match merge_lists l1 l2 with Some l => merge_lists l l3 | None => None end =
  match merge_lists l2 l3 with Some l => merge_lists l1 l | None => None end.
Proof.
  induction l1 as [|a l1 IH]; intros [|b l2] [|c l3] H1 H2 H3; cbn; try reflexivity;
    try (destruct (can_merge a b); [destruct (merge_lists l1 l2)|]; reflexivity);
    try (destruct (can_merge b c); [destruct (merge_lists l2 l3)|]; reflexivity).
  specialize (IH l2 l3 ltac:(intros; apply H1; right; assumption)
    ltac:(intros; apply H2; right; assumption) ltac:(intros; apply H3; right; assumption)).
  assert (A : sv_merge (sv_merge a b) c = sv_merge a (sv_merge b c)).
  { apply sv_merge_assoc; [apply H1|apply H2|apply H3]; left; reflexivity. }
  destruct (can_merge a b) eqn:E1; destruct (can_merge b c) eqn:E2.
  - assert (C1 : can_merge (sv_merge a b) c = true).
    { apply can_merge_class. rewrite merge_class by exact E1.
      apply can_merge_class in E1, E2. congruence. }
    assert (C2 : can_merge a (sv_merge b c) = true).
    { apply can_merge_class. rewrite merge_class by exact E2.
      apply can_merge_class in E1, E2. congruence. }
    destruct (merge_lists l1 l2) as [l12|]; destruct (merge_lists l2 l3) as [l23|]; cbn.
    + rewrite C1, C2, IH, A. reflexivity.
    + rewrite C1, IH. reflexivity.
    + rewrite C2, <- IH. reflexivity.
    + reflexivity.
  - destruct (merge_lists l1 l2) as [l12|]; cbn; [|reflexivity].
    destruct (can_merge (sv_merge a b) c) eqn:E3; [|reflexivity].
    apply can_merge_class in E3. rewrite merge_class in E3 by exact E1.
    apply can_merge_class in E1. assert (can_merge b c = true) by (apply can_merge_class; congruence).
    congruence.
  - destruct (merge_lists l2 l3) as [l23|]; cbn; [|reflexivity].
    destruct (can_merge a (sv_merge b c)) eqn:E3; [|reflexivity].
    apply can_merge_class in E3. rewrite merge_class in E3 by exact E2.
    assert (can_merge a b = true) by (apply can_merge_class; congruence). congruence.
  - reflexivity.
Qed.

Lemma stack_merge_idem : forall k, stack_consistent k -> stack_merge k k = k.
Proof. intros [|l] H; cbn; [reflexivity|]. rewrite merge_lists_idem by exact H. reflexivity. Qed.
Lemma stack_merge_comm : forall a b, stack_merge a b = stack_merge b a.
Proof. intros [|l] [|k]; cbn; try reflexivity. rewrite merge_lists_comm. reflexivity. Qed.
Lemma stack_merge_assoc : forall a b c,
  stack_consistent a -> stack_consistent b -> stack_consistent c ->
  stack_merge (stack_merge a b) c = stack_merge a (stack_merge b c).
Proof.
  intros [|l1] [|l2] [|l3] H1 H2 H3; cbn; try reflexivity.
  - destruct (merge_lists l1 l2); reflexivity.
  - pose proof (merge_lists_assoc l1 l2 l3 H1 H2 H3) as A.
    destruct (merge_lists l1 l2) as [l12|]; destruct (merge_lists l2 l3) as [l23|]; cbn in *.
    + rewrite A. reflexivity.
    + rewrite A. reflexivity.
    + rewrite <- A. reflexivity.
    + reflexivity.
Qed.
Lemma merge_lists_consistent : forall l k r, merge_lists l k = Some r ->
  forall v, In v r -> slot_consistent v.
Proof.
  induction l as [|a l IH]; intros [|b k] r H; cbn in H; try discriminate.
  - injection H as <-. intros v [].
  - destruct (can_merge a b); [|discriminate].
    destruct (merge_lists l k) as [r'|] eqn:E; [|discriminate]. injection H as <-.
    intros v [<-|Hv]; [apply sv_merge_consistent|]. eapply IH; eauto.
Qed.

Lemma es_merge_consistent : forall a b, es_consistent (es_merge a b).
Proof.
  intros a b. split; cbn; [apply mk_flags_consistent|].
  destruct (es_stack a), (es_stack b); cbn; auto.
  destruct (merge_lists l l0) eqn:E; cbn; [|exact I]. eapply merge_lists_consistent; eauto.
Qed.
Lemma es_merge_idem : forall s, es_consistent s -> es_merge s s = s.
Proof.
  intros [] [H1 H2]. unfold es_merge. cbn in *.
  rewrite !rv_merge_idem, flags_merge_idem, stack_merge_idem by assumption. reflexivity.
Qed.
Lemma es_merge_comm : forall a b, es_merge a b = es_merge b a.
Proof.
  intros [] []. unfold es_merge. cbn.
  f_equal; try apply rv_merge_comm; [apply flags_merge_comm|apply stack_merge_comm].
Qed.
Lemma es_merge_assoc : forall a b c, es_consistent a -> es_consistent b -> es_consistent c ->
  es_merge (es_merge a b) c = es_merge a (es_merge b c).
Proof.
  intros [] [] [] [A1 A2] [B1 B2] [C1 C2]. unfold es_merge. cbn in *.
  f_equal; try apply rv_merge_assoc; [apply flags_merge_assoc|apply stack_merge_assoc]; assumption.
Qed.

Lemma merge_laws : forall a b c, es_consistent a -> es_consistent b -> es_consistent c ->
  es_consistent (es_merge a b) /\
  es_merge a a = a /\ es_merge a b = es_merge b a /\
  es_merge (es_merge a b) c = es_merge a (es_merge b c) /\
  (es_merge a c = c -> es_merge b c = c -> es_merge (es_merge a b) c = c).
Proof.
  intros a b c Ha Hb Hc. split; [apply es_merge_consistent|]. split; [apply es_merge_idem; exact Ha|].
  split; [apply es_merge_comm|]. split; [apply es_merge_assoc; assumption|].
  intros H1 H2. rewrite es_merge_assoc by assumption. rewrite H2. exact H1.
Qed.

(** ** Description is preserved by merging. *)
Lemma bit_merge_describes : forall o a b v,
  bit_describes o a v -> bit_describes o (bit_merge a b) v.
Proof. intros o [] [] v H; cbn in *; auto. Qed.
Lemma constrained_describes : forall oe ow e w pe pw, (pe = true -> pw = true) ->
  bit_describes oe e pe -> bit_describes ow w pw -> bit_describes ow (constrained w e) pw.
Proof. intros oe ow [] [] pe pw H H1 H2; cbn in *; auto. Qed.
Lemma flags_merge_describes : forall o f g p, modes_ok p ->
  flags_describe o f p -> flags_describe o (flags_merge f g) p.
Proof.
  intros o f g p Hp (H1 & H2 & H3 & H4). unfold flags_merge, flags_describe. cbn.
  repeat split.
  - apply bit_merge_describes. exact H1.
  - eapply constrained_describes; [intros E; apply (Hp E)|apply bit_merge_describes; exact H1|
      apply bit_merge_describes; exact H2].
  - eapply constrained_describes; [intros E; apply (Hp E)|apply bit_merge_describes; exact H1|
      apply bit_merge_describes; exact H3].
  - apply bit_merge_describes. exact H4.
Qed.
Lemma rv_merge_describes : forall o n a b v,
  reg_describes o n a v -> reg_describes o n (rv_merge a b) v.
Proof. intros o n a b v H. unfold rv_merge. destruct (rv_eqb a b); [exact H|exact I]. Qed.
Lemma sv_merge_describes : forall o a b bs, can_merge a b = true ->
  slot_describes o a bs -> slot_describes o (sv_merge a b) bs.
Proof.
  intros o a b bs C H. apply can_merge_class in C. unfold sv_merge.
  destruct (sv_same_type a b) eqn:E; cbn [negb].
  - destruct H; destruct b; cbn in *; try discriminate; try constructor.
    + destruct (b0 =? v); constructor.
    + econstructor; [eassumption| |eassumption]. apply flags_merge_describes; assumption.
    + destruct orig; cbn; constructor.
    + destruct orig; cbn; constructor.
  - destruct H; destruct b; cbn in *; try discriminate; try constructor;
      injection C as ->; rewrite treg_eqb_refl in E; discriminate.
Qed.
Lemma sv_merge_modes : forall o a b bs, can_merge a b = true ->
  slot_modes o a bs -> slot_modes o (sv_merge a b) bs.
Proof.
  intros o a b bs C H. apply can_merge_class in C. unfold sv_merge.
  destruct (sv_same_type a b) eqn:E; cbn [negb].
  - destruct H as [f p x H1 H2 H3|t orig v|v x H1 H2].
    + destruct b; cbn in *; try discriminate.
      econstructor; [eassumption| |eassumption]. apply flags_merge_describes; assumption.
    + destruct b; cbn in *; try discriminate. destruct (Bool.eqb orig orig0); constructor.
    + destruct v; cbn in H1; try discriminate; destruct b; cbn in *; try discriminate;
        try (apply sm_one; [reflexivity|discriminate]).
      * destruct (v =? v0); apply sm_one; reflexivity || discriminate.
      * exfalso. eapply H2. reflexivity.
  - destruct H as [f p x H1 H2 H3|t orig v|v x H1 H2].
    + apply sm_one; [reflexivity|discriminate].
    + destruct b; cbn in *; try discriminate. injection C as ->.
      rewrite treg_eqb_refl in E. discriminate.
    + apply sm_one; [reflexivity|discriminate].
Qed.
Lemma stack_merge_describes : forall (slot : stackval -> list Z -> Prop),
  (forall a b bs, can_merge a b = true -> slot a bs -> slot (sv_merge a b) bs) ->
  forall a b bytes, stack_describes slot a bytes -> stack_describes slot (stack_merge a b) bytes.
Proof.
  intros slot Hs [|l] [|k] bytes H; cbn; auto.
  destruct (merge_lists l k) as [r|] eqn:E; [|exact I]. cbn in *.
  revert k r E. induction H as [rest|v l bs rest Hv Hl IH]; intros [|w k] r E; cbn in E; try discriminate.
  - injection E as <-. constructor.
  - destruct (can_merge v w) eqn:C; [|discriminate].
    destruct (merge_lists l k) as [r'|] eqn:E'; [|discriminate]. injection E as <-.
    constructor; [apply Hs; assumption|]. eapply IH; eauto.
Qed.

Lemma merge_describes_left : forall o a b c, modes_ok (c_modes c) ->
  describes o a c -> describes o (es_merge a b) c.
Proof.
  intros o a b c Hp (H1 & H2 & H3 & H4 & H5 & H6). unfold describes. cbn.
  split; [apply flags_merge_describes; assumption|].
  repeat (split; [apply rv_merge_describes; assumption|]).
  apply stack_merge_describes; [|exact H6]. intros. apply sv_merge_describes; assumption.
Qed.
Lemma merge_describes : forall o a b c, modes_ok (c_modes c) ->
  describes o a c \/ describes o b c -> describes o (es_merge a b) c.
Proof.
  intros o a b c Hp [H|H]; [apply merge_describes_left; assumption|].
  rewrite es_merge_comm. apply merge_describes_left; assumption.
Qed.
Lemma merge_modes_left : forall o a b c, modes_ok (c_modes c) ->
  describes_modes o a c -> describes_modes o (es_merge a b) c.
Proof.
  intros o a b c Hp (H1 & H2). split; cbn; [apply flags_merge_describes; assumption|].
  apply stack_merge_describes; [|exact H2]. intros. apply sv_merge_modes; assumption.
Qed.
Lemma merge_modes : forall o a b c, modes_ok (c_modes c) ->
  describes_modes o a c \/ describes_modes o b c -> describes_modes o (es_merge a b) c.
Proof.
  intros o a b c Hp [H|H]; [apply merge_modes_left; assumption|].
  rewrite es_merge_comm. apply merge_modes_left; assumption.
Qed.

(** ** Shared facts survive a merge. *)
Lemma merge_keeps : forall a b,
  (es_a a = es_a b -> es_a (es_merge a b) = es_a a) /\
  (es_xr a = es_xr b -> es_xr (es_merge a b) = es_xr a) /\
  (es_yr a = es_yr b -> es_yr (es_merge a b) = es_yr a) /\
  (es_dbr a = es_dbr b -> es_dbr (es_merge a b) = es_dbr a) /\
  (fl_e (es_flags a) = fl_e (es_flags b) ->
   fl_e (es_flags (es_merge a b)) = fl_e (es_flags a)) /\
  (fl_c (es_flags a) = fl_c (es_flags b) ->
   fl_c (es_flags (es_merge a b)) = fl_c (es_flags a)) /\
  (consistent (es_flags a) ->
   fl_e (es_flags a) = fl_e (es_flags b) \/ fl_m (es_flags a) = B_on ->
   fl_m (es_flags a) = fl_m (es_flags b) ->
   fl_m (es_flags (es_merge a b)) = fl_m (es_flags a)) /\
  (consistent (es_flags a) ->
   fl_e (es_flags a) = fl_e (es_flags b) \/ fl_x (es_flags a) = B_on ->
   fl_x (es_flags a) = fl_x (es_flags b) ->
   fl_x (es_flags (es_merge a b)) = fl_x (es_flags a)) /\
  (forall l k, es_stack a = Live l -> es_stack b = Live k -> List.length l = List.length k ->
   Forall (fun v => is_varsize v = false) l -> Forall (fun v => is_varsize v = false) k ->
   exists r, es_stack (es_merge a b) = Live r /\ List.length r = List.length l /\
     forall n v, nth_error l n = Some v -> nth_error k n = Some v -> slot_consistent v ->
       nth_error r n = Some v) /\
  (es_stack a = es_stack b -> stack_consistent (es_stack a) ->
   es_stack (es_merge a b) = es_stack a).
Proof.
  intros a b.
  assert (R : forall r s, r = s -> rv_merge r s = r) by (intros r s <-; apply rv_merge_idem).
  assert (B : forall r s, r = s -> bit_merge r s = r) by (intros r s <-; apply bit_merge_idem).
  assert (W : forall ea eb wa wb, width_consistent ea wa -> ea = eb \/ wa = B_on -> wa = wb ->
             constrained (bit_merge wa wb) (bit_merge ea eb) = wa).
  { intros ea eb wa wb H [<-| ->] <-; rewrite ?bit_merge_idem.
    - apply consistent_constrained. exact H.
    - destruct ea, eb; reflexivity. }
  unfold es_merge; cbn. repeat split; auto.
  - intros [H _]. apply W. exact H.
  - intros [_ H]. apply W. exact H.
  - intros l k -> -> . revert k. cbn. induction l as [|v l IH]; intros [|w k] Hlen Hl Hk; try discriminate Hlen.
    + exists []. repeat split; auto.
    + inversion Hl as [|? ? Hv Hl']; subst. inversion Hk as [|? ? Hw Hk']; subst.
      injection Hlen as Hlen. destruct (IH k Hlen Hl' Hk') as (r & Er & Lr & Nr).
      cbn. unfold can_merge. rewrite Hv, Hw, orb_true_r.
      destruct (merge_lists l k) as [r'|]; [|discriminate]. injection Er as ->.
      exists (sv_merge v w :: r)%list. split; [reflexivity|]. split; [cbn; rewrite Lr; reflexivity|].
      intros [|n] u; cbn; [|apply Nr]. intros E1 E2 Hc. injection E1 as ->. injection E2 as ->.
      f_equal. apply sv_merge_idem. exact Hc.
  - intros <-. apply stack_merge_idem.
Qed.
