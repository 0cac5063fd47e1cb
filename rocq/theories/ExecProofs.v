(** Soundness of mode tracking, and pushing and pulling. *)
From Verif Require Import Base ModelMnemonic ModelExpr ModelAMode ModelOpcode ModelState ModelInstr.
From Verif Require Import BaseProofs SpecState StateProofs.

Lemma has_bit_testbit : forall v n, 0 <= n -> has_bit v (2 ^ n) = Z.testbit v n.
Proof.
  intros v n Hn. unfold has_bit. rewrite <- Z.shiftl_1_l.
  destruct (Z.testbit v n) eqn:E.
  - apply negb_true_iff, Z.eqb_neq. intros C.
    assert (Z.testbit (Z.land v (Z.shiftl 1 n)) n = true).
    { rewrite Z.land_spec, E, Z.shiftl_1_l, Z.pow2_bits_true by lia. reflexivity. }
    rewrite C, Z.bits_0 in H. discriminate.
  - apply negb_false_iff, Z.eqb_eq. apply Z.bits_inj'. intros i Hi.
    rewrite Z.land_spec, Z.bits_0, Z.shiftl_1_l, Z.pow2_bits_eqb by lia.
    destruct (Z.eqb_spec n i); [subst; rewrite E; reflexivity|apply andb_false_r].
Qed.
Lemma has_bit_1 : forall v, has_bit v 1 = Z.testbit v 0.
Proof. intros. exact (has_bit_testbit v 0 ltac:(lia)). Qed.
Lemma has_bit_10 : forall v, has_bit v 16 = Z.testbit v 4.
Proof. intros. exact (has_bit_testbit v 4 ltac:(lia)). Qed.
Lemma has_bit_20 : forall v, has_bit v 32 = Z.testbit v 5.
Proof. intros. exact (has_bit_testbit v 5 ltac:(lia)). Qed.

(** ** Flags. *)
Definition fd := flags_describe.

Lemma fd_set_c : forall o f p b pc, fd o f p -> bit_describes (p_c o) b pc ->
  fd o (set_c b f) (Modes (p_e p) (p_m p) (p_x p) pc).
Proof. intros o f p b pc (H1 & H2 & H3 & H4) H. repeat split; cbn; assumption. Qed.
Lemma fd_set_m : forall o f p b pm, fd o f p -> (p_e p = true -> pm = true) ->
  bit_describes (p_m o) b pm ->
  fd o (set_m b f) (Modes (p_e p) pm (p_x p) (p_c p)).
Proof.
  intros o f p b pm (H1 & H2 & H3 & H4) He H. repeat split; cbn; try assumption.
  eapply constrained_describes; eauto.
Qed.
Lemma fd_set_x : forall o f p b px, fd o f p -> (p_e p = true -> px = true) ->
  bit_describes (p_x o) b px ->
  fd o (set_x b f) (Modes (p_e p) (p_m p) px (p_c p)).
Proof.
  intros o f p b px (H1 & H2 & H3 & H4) He H. repeat split; cbn; try assumption.
  eapply constrained_describes; eauto.
Qed.

(** Bits set or reset by a constant: what the new tag says of the new bit.  In emulation
    mode a width bit stays 1; [constrained] accounts for it. *)
Lemma constrained_off : forall oe ow e pe,
  bit_describes oe e pe -> bit_describes ow (constrained B_off e) pe.
Proof. intros oe ow [] pe H; cbn in *; auto. Qed.

(** ** Stack. *)
Lemma sm_pull_byte : forall o k bytes b rest v k',
  stack_describes (slot_modes o) k bytes -> pull_byte k = (v, k') -> bytes = b :: rest ->
  stack_describes (slot_modes o) k' rest /\
  (forall f, v = SV_flags f -> slot_modes o (SV_flags f) [b]).
Proof.
  intros o k bytes b rest v k' H E Eb. unfold pull_byte in E.
  destruct k as [|[|w l]].
  - injection E as <- <-. split; [exact I|discriminate].
  - injection E as <- <-. split; [exact I|discriminate].
  - destruct (is_varsize w) eqn:Ew; injection E as <- <-; [split; [exact I|discriminate]|].
    cbn in H. inversion H as [|w' l' bs rest' Hw Hl E1 E2]. subst.
    inversion Hw; subst; cbn in Ew; try discriminate; cbn in E2; injection E2 as <- <-.
    + split; [exact Hl|]. intros f' E. injection E as <-. exact Hw.
    + split; [exact Hl|]. intros f' E. subst. exact Hw.
Qed.
Lemma sm_push : forall o v b k bytes, slot_modes o v [b] ->
  stack_describes (slot_modes o) k bytes ->
  stack_describes (slot_modes o) (push_sv v k) (b :: bytes).
Proof.
  intros o v b [|l] bytes Hv H; cbn in *; [exact I|].
  change (b :: bytes) with ([b] ++ bytes)%list. constructor; assumption.
Qed.
Lemma sv_lo_plain : forall o t r b, slot_modes o (sv_of_lo t r) [b].
Proof. intros o t [] b; apply sm_one; cbn; reflexivity || discriminate. Qed.
Lemma sv_hi_plain : forall o t r b, slot_modes o (sv_of_hi t r) [b].
Proof. intros o t [] b; apply sm_one; cbn; reflexivity || discriminate. Qed.
Lemma sm_unknown : forall o b, slot_modes o SV_unknown [b].
Proof. intros. apply sm_one; [reflexivity|discriminate]. Qed.
Lemma sm_byte : forall o v b, slot_modes o (SV_byte v) [b].
Proof. intros. apply sm_one; [reflexivity|discriminate]. Qed.

Lemma sm_push_reg : forall o t r tag narrow val k bytes,
  bit_describes (orig_narrow o t) tag narrow ->
  stack_describes (slot_modes o) k bytes ->
  stack_describes (slot_modes o) (push_reg t r tag k) (reg_bytes narrow val ++ bytes)%list.
Proof.
  intros o t r tag narrow val [|l] bytes Ht H; [exact I|]. cbn [push_reg].
  destruct tag; cbn in Ht; subst.
  - apply (ss_cons _ _ _ [val mod 2 ^ 8] ([val / 2 ^ 8] ++ bytes)%list);
      [apply sv_lo_plain|]. apply (ss_cons _ _ _ [val / 2 ^ 8] bytes); [apply sv_hi_plain|exact H].
  - apply (ss_cons _ _ _ [val mod 2 ^ 8] bytes); [apply sv_lo_plain|exact H].
  - apply ss_cons; [apply sm_var|exact H].
  - exact I.
Qed.

Lemma sm_pull_reg : forall o t tag narrow k bytes rest r k',
  bit_describes (orig_narrow o t) tag narrow ->
  stack_describes (slot_modes o) k bytes ->
  pushes (width narrow) rest bytes ->
  pull_reg t tag k = Ok (r, k') ->
  stack_describes (slot_modes o) k' rest.
Proof.
  intros o t tag narrow k bytes rest r k' Ht H (bs & Hl & ->) E.
  destruct k as [|l]; [cbn in E; injection E as <- <-; exact I|]. unfold pull_reg in E.
  destruct tag; cbn in Ht; subst.
  - (* two bytes *)
    destruct bs as [|b0 [|b1 [|b2 bs]]]; cbn in Hl; try discriminate. cbn [app] in H.
    destruct (pull_byte (Live l)) as [lo k1] eqn:E1.
    destruct (pull_byte k1) as [hi k2] eqn:E2.
    destruct (sm_pull_byte _ _ _ _ _ _ _ H E1 eq_refl) as [H1 _].
    destruct (sm_pull_byte _ _ _ _ _ _ _ H1 E2 eq_refl) as [H2 _].
    destruct (sv_same_type lo (SV_lo t) && sv_same_type hi (SV_hi t)).
    + injection E as <- <-. exact H2.
    + destruct lo, hi; injection E as <- <-; exact H2.
  - destruct bs as [|b0 [|b1 bs]]; cbn in Hl; try discriminate. cbn [app] in H.
    destruct (pull_byte (Live l)) as [lo k1] eqn:E1.
    destruct (sm_pull_byte _ _ _ _ _ _ _ H E1 eq_refl) as [H1 _].
    destruct (sv_same_type lo (SV_lo t)).
    + injection E as <- <-. exact H1.
    + destruct lo; injection E as <- <-; exact H1.
  - destruct l as [|v l]; [discriminate|]. cbn [pull_varsize] in E.
    destruct (is_varsize v) eqn:Ev; cbn [bind] in E.
    + destruct v; try discriminate Ev. destruct (sv_same_type (SV_var r0 orig) (SV_var t false)).
      * discriminate.
      * injection E as <- <-. exact I.
    + injection E as <- <-. exact I.
  - injection E as <- <-. exact I.
Qed.

(** ** One instruction. *)
Lemma es_modes_eta : forall p, p = Modes (p_e p) (p_m p) (p_x p) (p_c p).
Proof. intros []. reflexivity. Qed.

Lemma rep_sep_modes : forall o (target : bitstate) (tb : bool) f p v,
  target = (if tb then B_on else B_off) ->
  modes_ok p -> fd o f p ->
  let nm := if Z.testbit v 5 then (if tb then true else p_e p) else p_m p in
  let nx := if Z.testbit v 4 then (if tb then true else p_e p) else p_x p in
  let nc := if Z.testbit v 0 then tb else p_c p in
  (forall f', f' = (let f := if has_bit v 0x01 then set_c target f else f in
               let f := if has_bit v 0x10 then set_x target f else f in
               let f := if has_bit v 0x20 then set_m target f else f in f) ->
   fd o f' (Modes (p_e p) nm nx nc)) /\
  (forall f', f' = (let f := if bit_eqb (fl_c f) target then f else set_c B_unknown f in
               let f := if bit_eqb (fl_x f) target then f else set_x B_unknown f in
               let f := if bit_eqb (fl_m f) target then f else set_m B_unknown f in f) ->
   fd o f' (Modes (p_e p) nm nx nc)).
Proof.
  intros o target tb f p v Et Hp (H1 & H2 & H3 & H4) nm nx nc.
  assert (Ho : forall ow, bit_describes ow (constrained B_off (fl_e f)) (p_e p)).
  { intros ow. eapply constrained_off. exact H1. }
  assert (Hon : forall ow, bit_describes ow (constrained B_on (fl_e f)) true).
  { intros ow. destruct (fl_e f); reflexivity. }
  assert (Hu : forall ow w, (p_e p = true -> w = true) -> bit_describes ow (constrained B_unknown (fl_e f)) w).
  { intros ow w Hw. eapply constrained_describes; [exact Hw|exact H1|exact I]. }
  assert (Hm : p_e p = true -> p_m p = true) by (intros E; apply Hp; exact E).
  assert (Hx : p_e p = true -> p_x p = true) by (intros E; apply Hp; exact E).
  assert (Hnm : p_e p = true -> nm = true).
  { intros E. unfold nm. destruct (Z.testbit v 5), tb; auto. }
  assert (Hnx : p_e p = true -> nx = true).
  { intros E. unfold nx. destruct (Z.testbit v 4), tb; auto. }
  split; intros f' ->.
  - rewrite has_bit_1, has_bit_10, has_bit_20. unfold nm, nx, nc. clear nm nx nc Hnm Hnx.
    destruct tb; subst target; destruct (Z.testbit v 5), (Z.testbit v 4), (Z.testbit v 0);
      repeat split; cbn; auto; apply Ho.
  - (* unknown operand *)
    assert (Hc : bit_describes (p_c o) (if bit_eqb (fl_c f) target then fl_c f else B_unknown) nc).
    { destruct (bit_eqb (fl_c f) target) eqn:E; [|exact I]. apply bit_eqb_eq in E.
      rewrite E in *. unfold nc. subst target. destruct tb, (Z.testbit v 0); cbn in *; auto. }
    assert (Hxd : bit_describes (p_x o) (if bit_eqb (fl_x f) target then fl_x f
                    else constrained B_unknown (fl_e f)) nx).
    { destruct (bit_eqb (fl_x f) target) eqn:E; [|apply Hu; exact Hnx]. apply bit_eqb_eq in E.
      rewrite E in *. unfold nx. subst target. destruct tb, (Z.testbit v 4); cbn in *; auto.
      destruct (p_e p) eqn:Ep; [|reflexivity]. rewrite Hx in H3 by reflexivity. discriminate. }
    assert (Hmd : bit_describes (p_m o) (if bit_eqb (fl_m f) target then fl_m f
                    else constrained B_unknown (fl_e f)) nm).
    { destruct (bit_eqb (fl_m f) target) eqn:E; [|apply Hu; exact Hnm]. apply bit_eqb_eq in E.
      rewrite E in *. unfold nm. subst target. destruct tb, (Z.testbit v 5); cbn in *; auto.
      destruct (p_e p) eqn:Ep; [|reflexivity]. rewrite Hm in H2 by reflexivity. discriminate. }
    cbv zeta.
    destruct (bit_eqb (fl_c f) target) eqn:Ec; cbn [fl_c fl_x fl_m fl_e set_c];
      destruct (bit_eqb (fl_x f) target) eqn:Ex; cbn [fl_c fl_x fl_m fl_e set_c set_x];
      destruct (bit_eqb (fl_m f) target) eqn:Em; repeat split; cbn; assumption.
Qed.

Lemma xce_modes : forall o f p, modes_ok p -> fl_e f <> B_original -> fl_c f <> B_original ->
  fd o f p -> fd o (exchange_ce f) (Modes (p_c p) (p_c p || p_m p) (p_c p || p_x p) (p_e p)).
Proof.
  intros o f p Hp He Hc (H1 & H2 & H3 & H4). unfold exchange_ce. repeat split; cbn.
  - destruct (fl_c f); cbn in *; congruence || auto.
  - destruct (fl_c f), (fl_m f); cbn in *; try congruence; rewrite ?H2, ?H4; cbn; auto using orb_true_r.
  - destruct (fl_c f), (fl_x f); cbn in *; try congruence; rewrite ?H3, ?H4; cbn; auto using orb_true_r.
  - destruct (fl_e f); cbn in *; congruence || auto.
Qed.

Lemma plp_modes : forall o f g p q b, modes_ok o -> fd o f p -> modes_ok q -> fd o g q ->
  status_byte q b ->
  fd o (mk_flags (fl_e f) (fl_m g) (fl_x g) (fl_c g))
       (Modes (p_e p) (p_e p || Z.testbit b 5) (p_e p || Z.testbit b 4) (Z.testbit b 0)).
Proof.
  intros o f g p q b Ho (H1 & H2 & H3 & H4) Hq (G1 & G2 & G3 & G4) (B1 & B2 & B3).
  rewrite B1, B2, B3. repeat split; cbn; try assumption.
  - destruct (p_e p) eqn:Ep; cbn.
    + destruct (fl_e f), (fl_m g); cbn in *; try congruence; auto. symmetry. apply Ho. congruence.
    + destruct (fl_e f), (fl_m g); cbn in *; try congruence; auto.
  - destruct (p_e p) eqn:Ep; cbn.
    + destruct (fl_e f), (fl_x g); cbn in *; try congruence; auto. symmetry. apply Ho. congruence.
    + destruct (fl_e f), (fl_x g); cbn in *; try congruence; auto.
Qed.
Lemma plp_unknown_modes : forall o f p m x c, (p_e p = true -> m = true /\ x = true) -> fd o f p ->
  fd o (mk_flags (fl_e f) B_unknown B_unknown B_unknown) (Modes (p_e p) m x c).
Proof.
  intros o f p m x c Hm (H1 & H2 & H3 & H4). repeat split; cbn; try assumption.
  - destruct (fl_e f); cbn in *; auto. apply Hm. exact H1.
  - destruct (fl_e f); cbn in *; auto. apply Hm. exact H1.
Qed.

Lemma fd_wipe : forall o f p p', fd o f p -> carry_changed p p' -> fd o (set_c B_unknown f) p'.
Proof. intros o f p p' H [c ->]. apply fd_set_c; [exact H|exact I]. Qed.

Lemma carry_changed_ok : forall p p', modes_ok p -> carry_changed p p' -> modes_ok p'.
Proof. intros p p' H [c ->]. exact H. Qed.

Local Opaque check_consistency Z.testbit.
Lemma execute_modes : forall o ctx i v s s' c c',
  modes_ok (c_modes o) -> modes_ok (c_modes c) ->
  execute_in ctx i s = Ok s' ->
  (forall w, eval_opt ctx (i_arg1 i) = Ok w -> v = w) ->
  stack_untracked (i_mnem i) = false ->
  (i_mnem i = M_xce -> fl_e (es_flags s) <> B_original /\ fl_c (es_flags s) <> B_original) ->
  describes_modes o s c -> mode_step o i v c c' ->
  describes_modes o s' c' /\ modes_ok (c_modes c').
Proof.
  intros o ctx i v s s' c c' Ho Hc H Hv Hu Hx [D1 D2] Hs.
  unfold execute_in in H. bok H as u E0. clear E0 u.
  unfold mode_step, modes_step in Hs. cbv zeta in Hs.
  unfold describes_modes.
  assert (Same : forall s2, es_flags s2 = es_flags s -> es_stack s2 = es_stack s ->
            c_modes c' = c_modes c -> c_stack c' = c_stack c ->
            (flags_describe (c_modes o) (es_flags s2) (c_modes c') /\
             stack_describes (slot_modes o) (es_stack s2) (c_stack c')) /\ modes_ok (c_modes c')).
  { intros s2 -> -> -> ->. auto. }
  assert (Carry : forall s2, es_flags s2 = set_c B_unknown (es_flags s) -> es_stack s2 = es_stack s ->
            carry_changed (c_modes c) (c_modes c') -> c_stack c' = c_stack c ->
            (flags_describe (c_modes o) (es_flags s2) (c_modes c') /\
             stack_describes (slot_modes o) (es_stack s2) (c_stack c')) /\ modes_ok (c_modes c')).
  { intros s2 -> -> Hcc ->. split; [split; [|exact D2]|].
    - eapply fd_wipe; eauto.
    - eapply carry_changed_ok; eauto. }
  assert (Call : (match i_ret i with
                  | RC_default => carry_changed (c_modes c) (c_modes c')
                  | RC_yields f => modes_ok (c_modes c') /\ flags_describe (c_modes o) f (c_modes c')
                  | RC_noreturn => False
                  end) -> c_stack c' = c_stack c ->
            Ok (upd_flags (set_c B_unknown)
                  match yield_flags (i_ret i) with Some f => with_flags f s | None => s end) = Ok s' ->
            (flags_describe (c_modes o) (es_flags s') (c_modes c') /\
             stack_describes (slot_modes o) (es_stack s') (c_stack c')) /\ modes_ok (c_modes c')).
  { intros Hr Hk E. injection E as <-. destruct (i_ret i) as [|f|] eqn:Er; cbn [yield_flags].
    - apply Carry; auto.
    - destruct Hr as [Hm Hf]. cbn. rewrite Hk. split; [split; [|exact D2]|exact Hm].
      rewrite (es_modes_eta (c_modes c')). apply fd_set_c; [exact Hf|exact I].
    - destruct Hr. }
  revert Hx.
  destruct (i_mnem i) eqn:Em; cbn [stack_untracked] in Hu; try discriminate Hu; intros Hx;
    try (injection H as <-; destruct Hs as [Hs1 Hs2]; apply Same; auto; fail);
    try (injection H as <-; destruct Hs as [Hs1 Hs2]; apply Carry; auto; fail);
    try (destruct Hs as [Hs1 Hs2]; apply Call; assumption).
  all: clear Carry Call.
  all: try match type of Em with
    | _ = M_sec => injection H as <-; destruct Hs as [-> ->]; cbn;
        split; [split; [apply fd_set_c; [exact D1|reflexivity]|exact D2]|exact Hc]
    | _ = M_clc => injection H as <-; destruct Hs as [-> ->]; cbn;
        split; [split; [apply fd_set_c; [exact D1|reflexivity]|exact D2]|exact Hc]
    | _ = M_bcc => injection H as <-; destruct Hs as [[Hcy ->] ->]; cbn;
        split; [split; [|exact D2]|exact Hc];
        rewrite (es_modes_eta (c_modes c)); apply fd_set_c; [exact D1|exact Hcy]
    | _ = M_bcs => injection H as <-; destruct Hs as [[Hcy ->] ->]; cbn;
        split; [split; [|exact D2]|exact Hc];
        rewrite (es_modes_eta (c_modes c)); apply fd_set_c; [exact D1|exact Hcy]
    end.
  all: try (destruct Hs as [Hs1 Hs2];
    match type of Em with
    | _ = M_pea => bok H as a Ea; injection H as <-
    | _ = M_pei => injection H as <-
    | _ = M_per => injection H as <-
    end; cbn; rewrite Hs1; split; [split; [exact D1|]|exact Hc];
    destruct Hs2 as ([|b0 [|b1 [|b2 bs]]] & Hl & ->); try discriminate Hl; cbn [app];
    try (destruct a; unfold push_word_opt, push_word);
    repeat (apply sm_push; [apply sm_unknown || apply sm_byte|]); exact D2).
  all: try (destruct Hs as [Hs1 Hs2]; match type of Em with
    | _ = M_pha => idtac | _ = M_phx => idtac | _ = M_phy => idtac
    end; injection H as <-; cbn; rewrite Hs1, Hs2; split; [split; [exact D1|]|exact Hc];
    apply sm_push_reg; [apply D1|exact D2]).
  all: try (destruct Hs as [Hs1 Hs2]; match type of Em with
    | _ = M_pla => idtac | _ = M_plx => idtac | _ = M_ply => idtac
    end; unfold pull_a, pull_x, pull_y in H; bok H as [r k] Er; injection H as <-; cbn; rewrite Hs1;
    split; [split; [exact D1|]|exact Hc];
    eapply sm_pull_reg; [|exact D2|exact Hs2|exact Er]; apply D1).
  all: try (destruct Hs as [Hs1 Hs2]; match type of Em with
    | _ = M_inc => idtac | _ = M_dec => idtac | _ = M_inx => idtac | _ = M_dex => idtac
    | _ = M_iny => idtac | _ = M_dey => idtac
    | _ = M_lda => idtac | _ = M_ldx => idtac | _ = M_ldy => idtac
    end; destruct (i_mode i); try bok H as r Er; injection H as <-; apply Same; auto; fail).
  1,2: destruct Hs as [Hs1 Hs2]; cbv zeta in H; bok H as a Ea; bok H as s1 Es; bok H as b Eb;
    injection H as <-.
  1,2: assert (es_flags s1 = es_flags s /\ es_stack s1 = es_stack s) as [Ef Ek].
  1,3: destruct a as [z|];
    [bok Es as n1 E1; bok Es as n2 E2; bok Es as n3 E3|]; injection Es as <-;
    destruct (fl_m (es_flags s)); split; reflexivity.
  1,2: apply Same; cbn; assumption.
  - (* PHP *)
    injection H as <-. destruct Hs as [-> (b & Hb & ->)]. cbn.
    split; [split; [exact D1|]|exact Hc]. apply sm_push; [|exact D2].
    eapply sm_flags; eauto.
  - (* PLP *)
    injection H as <-. destruct Hs as (b & Hb & ->). unfold pull_flags.
    destruct (pull_byte (es_stack s)) as [w k] eqn:Ek.
    destruct (sm_pull_byte _ _ _ _ _ _ _ D2 Ek Hb) as [Hk Hf].
    assert (Hm' : modes_ok (Modes (p_e (c_modes c)) (p_e (c_modes c) || Z.testbit b 5)
              (p_e (c_modes c) || Z.testbit b 4) (Z.testbit b 0))).
    { intros E. cbn in E. cbn. rewrite E. split; reflexivity. }
    split; [|exact Hm'].
    assert (U : flags_describe (c_modes o)
              (mk_flags (fl_e (es_flags s)) B_unknown B_unknown B_unknown)
              (Modes (p_e (c_modes c)) (p_e (c_modes c) || Z.testbit b 5)
              (p_e (c_modes c) || Z.testbit b 4) (Z.testbit b 0))).
    { apply plp_unknown_modes; [|exact D1]. intros E. rewrite E. split; reflexivity. }
    destruct w; cbn; split; try exact Hk; try exact U.
    specialize (Hf _ eq_refl). inversion Hf as [f' q b' Hq Hfd Hst| |]; subst.
    + eapply plp_modes; eauto.
    + exfalso. eapply H0. reflexivity.
  - (* REP *)
    bok H as a Ea. destruct Hs as [-> ->].
    destruct (rep_sep_modes (c_modes o) B_off false (es_flags s) (c_modes c) v eq_refl Hc D1) as [R1 R2].
    split; [|intros E; cbn in *; destruct (Hc E) as [-> ->]; rewrite E;
             destruct (Z.testbit v 5), (Z.testbit v 4); split; reflexivity].
    destruct a as [z|]; injection H as <-.
    + assert (v = z).
      { apply Hv. unfold maybe_arg in Ea. destruct (eval_opt ctx (i_arg1 i)); congruence. }
      subst z. split.
      * apply R1. destruct (has_bit v 1), (has_bit v 16), (has_bit v 32); reflexivity.
      * destruct (has_bit v 1), (has_bit v 16), (has_bit v 32); exact D2.
    + split.
      * apply R2. destruct (bit_eqb (fl_c (es_flags s)) B_off); cbn;
          destruct (bit_eqb (fl_x (es_flags s)) B_off); cbn;
          destruct (bit_eqb (fl_m (es_flags s)) B_off); reflexivity.
      * destruct (bit_eqb (fl_c (es_flags s)) B_off); cbn;
          destruct (bit_eqb (fl_x (es_flags s)) B_off); cbn;
          destruct (bit_eqb (fl_m (es_flags s)) B_off); exact D2.
  - (* SEP *)
    bok H as a Ea. destruct Hs as [Hs1 ->].
    destruct (rep_sep_modes (c_modes o) B_on true (es_flags s) (c_modes c) v eq_refl Hc D1) as [R1 R2].
    assert (Hs3 : c_modes c' = Modes (p_e (c_modes c))
        (if Z.testbit v 5 then true else p_m (c_modes c))
        (if Z.testbit v 4 then true else p_x (c_modes c))
        (if Z.testbit v 0 then true else p_c (c_modes c))).
    { rewrite Hs1. destruct (Z.testbit v 5), (Z.testbit v 4), (Z.testbit v 0); reflexivity. }
    rewrite Hs3. clear Hs1 Hs3.
    split; [|intros E; cbn in *; destruct (Hc E) as [-> ->];
             destruct (Z.testbit v 5), (Z.testbit v 4); split; reflexivity].
    destruct a as [z|]; injection H as <-.
    + assert (v = z).
      { apply Hv. unfold maybe_arg in Ea. destruct (eval_opt ctx (i_arg1 i)); congruence. }
      subst z. split.
      * apply R1. destruct (has_bit v 1), (has_bit v 16), (has_bit v 32); reflexivity.
      * destruct (has_bit v 1), (has_bit v 16), (has_bit v 32); exact D2.
    + split.
      * apply R2. destruct (bit_eqb (fl_c (es_flags s)) B_on); cbn;
          destruct (bit_eqb (fl_x (es_flags s)) B_on); cbn;
          destruct (bit_eqb (fl_m (es_flags s)) B_on); reflexivity.
      * destruct (bit_eqb (fl_c (es_flags s)) B_on); cbn;
          destruct (bit_eqb (fl_x (es_flags s)) B_on); cbn;
          destruct (bit_eqb (fl_m (es_flags s)) B_on); exact D2.
  - (* XCE *)
    injection H as <-. destruct Hs as [-> ->]. cbn. destruct (Hx eq_refl) as [X1 X2].
    split; [split; [|exact D2]|].
    + apply xce_modes; assumption.
    + intros E. cbn in E. cbn. rewrite E. split; reflexivity.
Qed.

(** ** Taken branches. *)
Lemma branch_modes : forall o i s s' c c',
  execute_branch i s = Ok s' -> relative_branch (i_mnem i) ->
  modes_ok (c_modes c) -> describes_modes o s c -> branch_step i c c' ->
  describes_modes o s' c' /\ modes_ok (c_modes c').
Proof.
  intros o i s s' c c' H Hb Hc [D1 D2] (E1 & E2 & Hs). unfold execute_branch, execute in H.
  bok H as s1 H1. unfold execute_in in H1. bok H1 as u E0. clear E0 u. cbv zeta in H1.
  unfold describes_modes. rewrite E1, E2.
  unfold relative_branch in Hb. cbn [In] in Hb.
  assert (SetC : forall b1 b2 s2, bit_describes (p_c (c_modes o)) b2 (p_c (c_modes c)) ->
    es_flags s2 = set_c b2 (set_c b1 (es_flags s)) -> es_stack s2 = es_stack s ->
    (flags_describe (c_modes o) (es_flags s2) (c_modes c) /\
     stack_describes (slot_modes o) (es_stack s2) (c_stack c)) /\ modes_ok (c_modes c)).
  { intros b1 b2 s2 Hb2 -> ->. split; [split; [|exact D2]|exact Hc].
    destruct D1 as (A1 & A2 & A3 & A4). repeat split; assumption. }
  destruct (i_mnem i);
    try (exfalso; clear - Hb; repeat destruct Hb as [Hb|Hb]; [discriminate Hb..|exact Hb]);
    injection H1 as <-; injection H as <-;
    first [eapply SetC; [|reflexivity|reflexivity]; exact Hs|split; [split; [exact D1|exact D2]|exact Hc]].
Qed.

(** ** Pushing and pulling. *)
Lemma word_parts : forall v, 0 <= v < 2 ^ 16 ->
  Z.land v 255 = v mod 2 ^ 8 /\ Z.land (Z.shiftr v 8) 255 = v / 2 ^ 8.
Proof.
  intros v Hv. rewrite !land_ff, shiftr_8. change (2 ^ 8) with 256. change (2 ^ 16) with 65536 in Hv.
  split; [reflexivity|]. apply Z.mod_small. split; [apply Z.div_pos; lia|apply Z.div_lt_upper_bound; lia].
Qed.

Lemma pull_push_narrow : forall t s l, es_stack s = Live l -> width_of t s = B_on ->
  (forall n, value_of t s = RV_value n -> 0 <= n < 2 ^ 8) ->
  pull_of t (push_of t s) = Ok s.
Proof.
  intros t [ra rx ry rd f k] l Hk Hw Hv. cbn in Hk. subst k.
  destruct t; cbn in Hw, Hv; unfold pull_of, push_of, push_a, push_x, push_y, pull_a, pull_x, pull_y;
    cbn; rewrite Hw; cbn.
  all: match goal with |- context [sv_of_lo _ ?r] => destruct r as [| |n] end; cbn; try reflexivity.
  all: assert (Hn : 0 <= n < 2 ^ 8) by (apply Hv; reflexivity);
    rewrite land_ff, (Z.mod_small n 256) by exact Hn; reflexivity.
Qed.
Lemma pull_push_wide : forall t s l, es_stack s = Live l -> width_of t s = B_off ->
  (forall n, value_of t s <> RV_value n) ->
  pull_of t (push_of t s) = Ok s.
Proof.
  intros t [ra rx ry rd f k] l Hk Hw Hv. cbn in Hk. subst k.
  destruct t; cbn in Hw, Hv; unfold pull_of, push_of, push_a, push_x, push_y, pull_a, pull_x, pull_y;
    cbn; rewrite Hw; cbn.
  all: match goal with |- context [sv_of_lo _ ?r] => destruct r as [| |n] end; cbn; try reflexivity;
    destruct (Hv n eq_refl).
Qed.
Lemma pull_push_swapped : forall t s l n, es_stack s = Live l -> width_of t s = B_off ->
  value_of t s = RV_value n -> 0 <= n < 2 ^ 16 ->
  exists s', pull_of t (push_of t s) = Ok s' /\
    value_of t s' = RV_value (2 ^ 8 * (n mod 2 ^ 8) + n / 2 ^ 8) /\ es_stack s' = es_stack s.
Proof.
  intros t [ra rx ry rd f k] l n Hk Hw Hv Hn. cbn in Hk. subst k.
  destruct (word_parts n Hn) as [P1 P2].
  assert (E : to_uint16 (Z.shiftl (n mod 2 ^ 8) 8 + n / 2 ^ 8) = 2 ^ 8 * (n mod 2 ^ 8) + n / 2 ^ 8).
  { rewrite shiftl_8. unfold to_uint16. change (2 ^ 16) with 65536 in *. change (2 ^ 8) with 256.
    rewrite Z.mod_small; [lia|].
    assert (0 <= n mod 256 < 256) by (apply Z.mod_pos_bound; lia).
    assert (0 <= n / 256 < 256) by (split; [apply Z.div_pos; lia|apply Z.div_lt_upper_bound; lia]).
    lia. }
  destruct t; cbn in Hw, Hv; subst;
    unfold pull_of, push_of, push_a, push_x, push_y, pull_a, pull_x, pull_y; cbn; rewrite Hw; cbn;
    eexists; (split; [reflexivity|]); cbn; rewrite P1, P2, E; split; reflexivity.
Qed.
Lemma pull_push_original : forall t s l, es_stack s = Live l -> width_of t s = B_original ->
  pull_of t (push_of t s) = UB UB_assert.
Proof.
  intros t [ra rx ry rd f k] l Hk Hw. cbn in Hk. subst k.
  destruct t; cbn in Hw; unfold pull_of, push_of, push_a, push_x, push_y, pull_a, pull_x, pull_y;
    cbn; rewrite Hw; reflexivity.
Qed.
Lemma pull_push_flags : forall s l, es_stack s = Live l -> consistent (es_flags s) ->
  pull_flags (push_flags s) = s.
Proof.
  intros [ra rx ry rd f k] l Hk Hf. cbn in Hk. subst k. unfold pull_flags, push_flags. cbn.
  unfold with_flags, with_stack. cbn in Hf. cbn. rewrite consistent_mk by exact Hf. reflexivity.
Qed.

(** ** Where tracking is wrong. *)
Definition ins0 (m : mnemonic) (a : amode) : instr := Instr m S_none a None None RC_default.

Lemma untracked_wrong : exists o s c i s',
  modes_ok (c_modes o) /\ modes_ok (c_modes c) /\ describes_modes o s c /\
  i_mnem i = M_phb /\ execute i s = Ok s' /\
  exists c', mode_step o i 0 c c' /\ ~ describes_modes o s' c'.
Proof.
  pose (f := mk_flags B_off B_on B_on B_on).
  pose (p := Modes false true true true).
  exists (Cpu p 0 0 0 0 []). exists (EState RV_unknown RV_unknown RV_unknown RV_unknown f (Live [SV_flags f])).
  exists (Cpu p 0 0 0 0 [0x31]), (ins0 M_phb A_imp).
  exists (EState RV_unknown RV_unknown RV_unknown RV_unknown f (Live [SV_flags f])).
  assert (K : modes_ok p) by (intros E; discriminate E).
  split; [exact K|]. split; [exact K|]. split.
  { split; [repeat split|]. cbn. apply (ss_cons _ _ _ [0x31] []); [|apply ss_nil].
    eapply (sm_flags _ _ p); [exact K|repeat split|repeat split]. }
  split; [reflexivity|]. split; [vm_compute; reflexivity|].
  exists (Cpu p 0 0 0 0 [0; 0x31]). split.
  { split; [reflexivity|]. exists [0]. split; reflexivity. }
  intros [_ D]. cbn in D. inversion D as [|v l bs rest Hv Hr E1 E2]; subst.
  inversion Hv as [g q b Hq Hf Hst| |]; subst.
  - cbn in E2. injection E2 as E2 _. subst b. destruct Hst as (T1 & T2 & T3). cbn in T1, T2, T3.
    destruct Hf as (F1 & F2 & F3 & F4). cbn in F2.
    assert (Z0 : Z.testbit 0 5 = false) by (vm_compute; reflexivity). congruence.
  - exfalso. eapply H0. reflexivity.
Qed.

Lemma xce_wrong : exists o c i s',
  modes_ok (c_modes o) /\ c = o /\ i_mnem i = M_xce /\
  describes_modes o (estate_of_flags default_flags) c /\
  execute i (estate_of_flags default_flags) = Ok s' /\
  exists c', mode_step o i 0 c c' /\ ~ describes_modes o s' c'.
Proof.
  pose (o := Cpu (Modes false false false true) 0 0 0 0 []).
  exists o, o, (ins0 M_xce A_imp). eexists.
  split; [intros E; discriminate E|]. split; [reflexivity|]. split; [reflexivity|].
  split; [split; [repeat split|apply ss_nil]|]. split; [vm_compute; reflexivity|].
  exists (Cpu (Modes true true true false) 0 0 0 0 []). split; [split; reflexivity|].
  intros [(D & _) _]. discriminate D.
Qed.

Lemma registers_wrong : exists o s c i s',
  modes_ok (c_modes c) /\ describes o s c /\
  i_mnem i = M_lda /\ i_mode i = A_dir_b /\ execute i s = Ok s' /\
  exists c', load_step c c' /\ ~ describes o s' c'.
Proof.
  pose (f := mk_flags B_off B_on B_on B_on). pose (p := Modes false true true true).
  pose (s := EState (RV_value 5) RV_unknown RV_unknown RV_unknown f (Live [])).
  pose (c := Cpu p 5 0 0 0 []).
  exists c, s, c, (Instr M_lda S_none A_dir_b (Some (mk_lit 0x12 ModelNumeric.T_byte)) None RC_default), s.
  split; [intros E; discriminate E|]. split; [repeat split; apply ss_nil|]. split; [reflexivity|].
  split; [reflexivity|]. split; [vm_compute; reflexivity|].
  exists (Cpu p 6 0 0 0 []). split.
  - exists 6. split; [vm_compute; intuition congruence|reflexivity].
  - intros (_ & D & _). cbn in D. vm_compute in D. discriminate D.
Qed.
