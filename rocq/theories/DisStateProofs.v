(** States recorded by the disassembler: consistency, order, and branches. *)
From Verif Require Import Base ModelNumeric ModelExpr ModelMnemonic ModelAMode ModelOpcode ModelState ModelInstr ModelMap
  SpecState BaseProofs MapProofs StateProofs.
Open Scope list_scope.
Open Scope Z_scope.
Local Opaque check_consistency.

(** ** Executing keeps states consistent. *)
Definition rc_consistent (r : retconv) : Prop := match r with RC_yields f => consistent f | _ => True end.
Lemma con_set_c : forall b f, consistent f -> consistent (set_c b f).
Proof. intros b f H. exact H. Qed.
Lemma con_set_m : forall b f, consistent f -> consistent (set_m b f).
Proof. intros b f [H1 H2]. split; cbn; [apply constrained_consistent|exact H2]. Qed.
Lemma con_set_x : forall b f, consistent f -> consistent (set_x b f).
Proof. intros b f [H1 H2]. split; cbn; [exact H1|apply constrained_consistent]. Qed.
Lemma con_xce : forall f, consistent (exchange_ce f).
Proof. intros f. split; cbn; apply constrained_consistent. Qed.
Lemma con_push_sv : forall v k, slot_consistent v -> stack_consistent k -> stack_consistent (push_sv v k).
Proof. intros v [|l] V K; [exact I|]. intros w [<-|W]; [exact V|apply K; exact W]. Qed.
Lemma con_lo : forall t r, slot_consistent (sv_of_lo t r).
Proof. intros t [| |v]; exact I. Qed.
Lemma con_hi : forall t r, slot_consistent (sv_of_hi t r).
Proof. intros t [| |v]; exact I. Qed.
Lemma con_push_reg : forall t r b k, stack_consistent k -> stack_consistent (push_reg t r b k).
Proof.
  intros t r b [|l] K; [exact I|]. destruct b; cbn [push_reg]; try exact I.
  - intros w [<-|[<-|W]]; [apply con_lo|apply con_hi|apply K; exact W].
  - intros w [<-|W]; [apply con_lo|apply K; exact W].
  - intros w [<-|W]; [exact I|apply K; exact W].
Qed.
Lemma con_pull_byte : forall k v k', pull_byte k = (v, k') -> stack_consistent k -> slot_consistent v /\ stack_consistent k'.
Proof.
  intros [|[|w l]] v k' H K; cbn in H; try (injection H as <- <-; split; exact I).
  destruct (is_varsize w); injection H as <- <-; [split; exact I|]. split; [apply K; left; reflexivity|]. intros x X. apply K. right. exact X.
Qed.
Lemma con_pull_reg : forall t b k r k', pull_reg t b k = Ok (r, k') -> stack_consistent k -> stack_consistent k'.
Proof.
  intros t b [|l] r k' H K; unfold pull_reg in H; [injection H as <- <-; exact I|]. destruct b.
  - destruct (pull_byte (Live l)) as [lo k1] eqn:E1. destruct (pull_byte k1) as [hi k2] eqn:E2.
    destruct (con_pull_byte _ _ _ E1 K) as [_ K1]. destruct (con_pull_byte _ _ _ E2 K1) as [_ K2].
    destruct (sv_same_type lo (SV_lo t) && sv_same_type hi (SV_hi t)); [injection H as <- <-; exact K2|].
    destruct lo; try (injection H as <- <-; exact K2). destruct hi; injection H as <- <-; exact K2.
  - destruct (pull_byte (Live l)) as [lo k1] eqn:E1. destruct (con_pull_byte _ _ _ E1 K) as [_ K1].
    destruct (sv_same_type lo (SV_lo t)); [injection H as <- <-; exact K1|]. destruct lo; injection H as <- <-; exact K1.
  - bok H as p E. destruct p as [v k1]. destruct l as [|w l]; cbn in E; [discriminate E|].
    destruct (is_varsize w); injection E as <- <-.
    + destruct (sv_same_type w (SV_var t false)); [|injection H as <- <-; exact I]. bok H as z Z.
      destruct (z =? 1); injection H as <- <-; intros x X; apply K; right; exact X.
    + cbn in H. injection H as <- <-. exact I.
  - injection H as <- <-. exact I.
Qed.
Lemma con_wf : forall f s, consistent f -> es_consistent s -> es_consistent (with_flags f s).
Proof. intros f s F [_ K]. split; assumption. Qed.
Lemma con_ws : forall k s, stack_consistent k -> es_consistent s -> es_consistent (with_stack k s).
Proof. intros k s K [F _]. split; assumption. Qed.
Lemma con_pull : forall t b s r k, pull_reg t b (es_stack s) = Ok (r, k) -> es_consistent s -> es_consistent (with_stack k s).
Proof. intros t b s r k E C. apply con_ws; [|exact C]. eapply con_pull_reg; [exact E|apply C]. Qed.

Lemma execute_consistent : forall c i s s', execute_in c i s = Ok s' -> rc_consistent (i_ret i) -> es_consistent s -> es_consistent s'.
Proof.
  intros c i s s' H P G. unfold execute_in in H. bok H as u U. clear U u. cbv zeta in H.
  assert (CARRY : forall b s, es_consistent s -> es_consistent (upd_flags (set_c b) s)) by (intros b s0 G0; exact G0).
  assert (SETX : forall b s, es_consistent s -> es_consistent (upd_flags (set_x b) s)) by (intros b s0 G0; apply con_wf; [apply con_set_x; apply G0|exact G0]).
  assert (SETM : forall b s, es_consistent s -> es_consistent (upd_flags (set_m b) s)) by (intros b s0 G0; apply con_wf; [apply con_set_m; apply G0|exact G0]).
  assert (WA : es_consistent (wipe_a s)) by exact G.
  destruct (i_mnem i) eqn:MN; try (injection H as <-; exact G); try (injection H as <-; apply CARRY; exact G);
    try (injection H as <-; apply con_ws; [|exact G]; apply con_push_reg; apply G);
    try (injection H as <-; apply con_ws; [|exact G]; apply con_push_sv; [exact I|apply con_push_sv; [exact I|apply G]]).
  all: try (destruct (i_mode i); try (injection H as <-; exact G); bok H as r R; injection H as <-; exact G).
  all: try (injection H as <-; apply CARRY; unfold rc_consistent in P; destruct (i_ret i); cbn [yield_flags]; try exact G; (apply con_wf; [exact P|exact G])).
  - (* mvn *) bok H as ia IA. bok H as s2 S2. bok H as db DB. injection H as <-. change (es_consistent s2).
    assert (G1 : es_consistent (match fl_m (es_flags s) with B_on => with_a (rv_of_int 255) s | B_off => with_a (rv_of_int 65535) s | _ => wipe_a s end)) by (destruct (fl_m (es_flags s)); exact G).
    revert S2 G1. generalize (match fl_m (es_flags s) with B_on => with_a (rv_of_int 255) s | B_off => with_a (rv_of_int 65535) s | _ => wipe_a s end).
    intros s1 S2 G1. destruct ia as [v|].
    + bok S2 as o O. bok S2 as rx RX. bok S2 as ry RY. injection S2 as <-. exact G1.
    + injection S2 as <-. exact G1.
  - (* mvp *) bok H as ia IA. bok H as s2 S2. bok H as db DB. injection H as <-. change (es_consistent s2).
    assert (G1 : es_consistent (match fl_m (es_flags s) with B_on => with_a (rv_of_int 255) s | B_off => with_a (rv_of_int 65535) s | _ => wipe_a s end)) by (destruct (fl_m (es_flags s)); exact G).
    revert S2 G1. generalize (match fl_m (es_flags s) with B_on => with_a (rv_of_int 255) s | B_off => with_a (rv_of_int 65535) s | _ => wipe_a s end).
    intros s1 S2 G1. destruct ia as [v|].
    + bok S2 as o O. bok S2 as rx RX. bok S2 as ry RY. injection S2 as <-. exact G1.
    + injection S2 as <-. exact G1.
  - (* pea *) bok H as arg A. injection H as <-. apply con_ws; [|exact G]. destruct arg as [v|]; cbn [push_word_opt];
      (apply con_push_sv; [exact I|]; apply con_push_sv; [exact I|apply G]).
  - unfold pull_a in H. bok H as p E. destruct p as [r k]. injection H as <-. exact (con_pull _ _ _ _ _ E G).
  - unfold pull_x in H. bok H as p E. destruct p as [r k]. injection H as <-. exact (con_pull _ _ _ _ _ E G).
  - unfold pull_y in H. bok H as p E. destruct p as [r k]. injection H as <-. exact (con_pull _ _ _ _ _ E G).
  - (* php *) injection H as <-. apply con_ws; [|exact G]. apply con_push_sv; apply G.
  - (* plp *) injection H as <-. unfold pull_flags. destruct (pull_byte (es_stack s)) as [v k] eqn:E.
    destruct (con_pull_byte _ _ _ E (proj2 G)) as [V K]. cbv zeta. destruct v; (apply con_wf; [apply mk_flags_consistent|apply con_ws; [exact K|exact G]]).
  - (* rep *) bok H as arg A. destruct arg as [v|]; injection H as <-.
    + destruct (has_bit v 1), (has_bit v 16), (has_bit v 32); repeat first [apply SETM|apply SETX|apply CARRY]; exact G.
    + assert (G1 : es_consistent (if bit_eqb (fl_c (es_flags s)) B_off then s else upd_flags (set_c B_unknown) s)) by (destruct (bit_eqb _ _); [exact G|apply CARRY; exact G]).
      revert G1. generalize (if bit_eqb (fl_c (es_flags s)) B_off then s else upd_flags (set_c B_unknown) s). intros s1 G1.
      assert (G2 : es_consistent (if bit_eqb (fl_x (es_flags s1)) B_off then s1 else upd_flags (set_x B_unknown) s1)) by (destruct (bit_eqb _ _); [exact G1|apply SETX; exact G1]).
      revert G2. generalize (if bit_eqb (fl_x (es_flags s1)) B_off then s1 else upd_flags (set_x B_unknown) s1). intros s2 G2.
      destruct (bit_eqb _ _); [exact G2|apply SETM; exact G2].
  - (* sep *) bok H as arg A. destruct arg as [v|]; injection H as <-.
    + destruct (has_bit v 1), (has_bit v 16), (has_bit v 32); repeat first [apply SETM|apply SETX|apply CARRY]; exact G.
    + assert (G1 : es_consistent (if bit_eqb (fl_c (es_flags s)) B_on then s else upd_flags (set_c B_unknown) s)) by (destruct (bit_eqb _ _); [exact G|apply CARRY; exact G]).
      revert G1. generalize (if bit_eqb (fl_c (es_flags s)) B_on then s else upd_flags (set_c B_unknown) s). intros s1 G1.
      assert (G2 : es_consistent (if bit_eqb (fl_x (es_flags s1)) B_on then s1 else upd_flags (set_x B_unknown) s1)) by (destruct (bit_eqb _ _); [exact G1|apply SETX; exact G1]).
      revert G2. generalize (if bit_eqb (fl_x (es_flags s1)) B_on then s1 else upd_flags (set_x B_unknown) s1). intros s2 G2.
      destruct (bit_eqb _ _); [exact G2|apply SETM; exact G2].
  - (* xce *) injection H as <-. apply con_wf; [apply con_xce|exact G].
Qed.

(** ** The order of states: [b] says no more than [a]. *)
Definition below (a b : estate) : Prop := es_merge a b = b.
Lemma below_refl : forall a, es_consistent a -> below a a.
Proof. intros a H. apply es_merge_idem. exact H. Qed.
Lemma below_trans : forall a b c, es_consistent a -> es_consistent b -> es_consistent c -> below a b -> below b c -> below a c.
Proof. unfold below. intros a b c A B C H K. rewrite <- K at 1. rewrite <- es_merge_assoc by assumption. rewrite H. exact K. Qed.
Lemma below_l : forall a b, es_consistent a -> es_consistent b -> below a (es_merge a b).
Proof. unfold below. intros a b A B. rewrite <- es_merge_assoc by assumption. rewrite es_merge_idem by exact A. reflexivity. Qed.
Lemma below_r : forall a b, es_consistent a -> es_consistent b -> below b (es_merge a b).
Proof. intros a b A B. rewrite es_merge_comm. apply below_l; assumption. Qed.
Lemma below_least : forall a b c, es_consistent a -> es_consistent b -> es_consistent c -> below a c -> below b c -> below (es_merge a b) c.
Proof. unfold below. intros a b c A B C H K. rewrite es_merge_assoc by assumption. rewrite K. exact H. Qed.
Lemma below_describes : forall o a b c, below a b -> modes_ok (c_modes c) -> describes o a c -> describes o b c.
Proof. unfold below. intros o a b c E M D. rewrite <- E. apply merge_describes; auto. Qed.
Lemma below_modes : forall o a b c, below a b -> modes_ok (c_modes c) -> describes_modes o a c -> describes_modes o b c.
Proof. unfold below. intros o a b c E M D. rewrite <- E. apply merge_modes; auto. Qed.

(** ** A branch changes the carry only. *)
Definition taken (m : mnemonic) (s : estate) : estate :=
  match m with M_bcc => upd_flags (set_c B_off) s | M_bcs => upd_flags (set_c B_on) s | _ => s end.
Lemma taken_merge : forall m a b, taken m (es_merge a b) = es_merge (taken m a) (taken m b).
Proof. intros m [a1 a2 a3 a4 [e f x c] k] [b1 b2 b3 b4 [e' f' x' c'] k']. destruct m; reflexivity. Qed.
Lemma taken_consistent : forall m s, es_consistent s -> es_consistent (taken m s).
Proof. intros m s H. destruct m; exact H. Qed.
Lemma branch_taken : forall i s s', relative_branch (i_mnem i) -> execute_branch i s = Ok s' -> s' = taken (i_mnem i) s.
Proof.
  intros i s s' R H. unfold execute_branch, execute, execute_in in H. bok H as s1 E. bok E as u U.
  unfold relative_branch in R. cbn [In] in R. repeat destruct R as [R|R]; try contradiction; rewrite <- R in *; cbv zeta in E; injection E as <-; injection H as <-; try reflexivity;
   destruct s as [a1 a2 a3 a4 [e f x c] k]; reflexivity.
Qed.
