(** Executing in a state of which more is known: it works where it works in the other, and again
    no less is known.  Values of registers do not matter. *)
From Verif Require Import Base ModelNumeric ModelExpr ModelMnemonic ModelAMode ModelOpcode ModelState ModelInstr ModelStatement ModelMap
  SpecArith SpecState BaseProofs MapProofs ArithProofs StateProofs SafeProofs DisStateProofs DisInvProofs.
Open Scope list_scope.
Open Scope Z_scope.
Local Opaque check_consistency.

(** ** The order. *)
Definition ble (a b : bitstate) : Prop := a = b \/ b = B_unknown.
Definition fle (f g : flags) : Prop := ble (fl_e f) (fl_e g) /\ ble (fl_m f) (fl_m g) /\ ble (fl_x f) (fl_x g) /\ ble (fl_c f) (fl_c g).
Definition under (v w : stackval) : Prop :=
  match w with
  | SV_flags g => exists f, v = SV_flags f /\ fle f g
  | SV_var r _ => exists o, v = SV_var r o
  | _ => is_varsize v = false
  end.
Definition under_stack (a b : ModelState.stack) : Prop :=
  match b with Abandoned => True | Live k => exists l, a = Live l /\ Forall2 under l k end.
Definition shade (s t : estate) : Prop := fle (es_flags s) (es_flags t) /\ under_stack (es_stack s) (es_stack t).

Lemma ble_refl : forall a, ble a a.
Proof. left. reflexivity. Qed.
Lemma ble_trans : forall a b c, ble a b -> ble b c -> ble a c.
Proof. intros a b c [->|A] [B|B]; unfold ble; subst; auto. Qed.
Lemma ble_unknown : forall a, ble a B_unknown.
Proof. right. reflexivity. Qed.
Lemma fle_refl : forall f, fle f f.
Proof. intros f. repeat split; apply ble_refl. Qed.
Lemma fle_trans : forall f g h, fle f g -> fle g h -> fle f h.
Proof. intros f g h (A & B & C & D) (A' & B' & C' & D'). repeat split; eapply ble_trans; eassumption. Qed.
Lemma ble_known : forall a b, ble a b -> bit_known b = true -> a = b.
Proof. intros a b [->| ->] K; [reflexivity|discriminate K]. Qed.
Lemma constrained_ble : forall a a' e e', ble a a' -> ble e e' -> ble (constrained a e) (constrained a' e').
Proof. intros a a' e e' A E. unfold ble in *. destruct A, E; subst; auto; repeat match goal with b : bitstate |- _ => destruct b; cbn; auto end. Qed.
Lemma mk_fle : forall e m x c e' m' x' c', ble e e' -> ble m m' -> ble x x' -> ble c c' -> fle (mk_flags e m x c) (mk_flags e' m' x' c').
Proof. intros. repeat split; cbn; auto using constrained_ble. Qed.
Lemma merge_ble : forall a b c, ble a c -> ble b c -> ble (bit_merge a b) c.
Proof. intros a b c A B. unfold ble in *. destruct A, B; subst; auto. left. destruct c; reflexivity. Qed.
Lemma width_ble : forall e e' m m' E M, width_consistent E M -> ble e E -> ble e' E -> ble m M -> ble m' M -> ble (constrained (bit_merge m m') (bit_merge e e')) M.
Proof.
  intros e e' m m' E M W A B C D. destruct C as [->| ->]; [|right; reflexivity]. destruct D as [->| ->]; [|right; reflexivity].
  assert (X : bit_merge M M = M) by (destruct M; reflexivity). rewrite X.
  destruct M; [|left; destruct e, e'; reflexivity| |right; reflexivity].
  all: assert (N : E = B_off \/ E = B_original) by (destruct E; cbn in W; auto; try discriminate W; destruct W; discriminate).
  all: assert (e = E) as -> by (destruct A as [A|A]; [exact A|destruct N as [N|N]; rewrite N in A; discriminate A]).
  all: assert (e' = E) as -> by (destruct B as [B|B]; [exact B|destruct N as [N|N]; rewrite N in B; discriminate B]).
  all: destruct N as [->| ->]; try (left; reflexivity). elim W; reflexivity.
Qed.
Lemma merge_fle : forall f g h, consistent h -> fle f h -> fle g h -> fle (flags_merge f g) h.
Proof.
  intros f g h [CM CX] (A & B & C & D) (A' & B' & C' & D'). repeat split; cbn; [apply merge_ble; assumption| | |apply merge_ble; assumption]; eapply width_ble; eassumption.
Qed.
Lemma below_fle : forall f g, consistent f -> consistent g -> fbelow f g -> fle f g.
Proof.
  intros [e m x c] [e' m' x' c'] [CM CX] [CM' CX'] B. injection B as B1 B2 B3 B4. unfold fle. cbn in *.
  assert (E : ble e e') by (unfold ble; destruct e, e'; cbn in B1; auto; discriminate B1).
  assert (C : ble c c') by (unfold ble; destruct c, c'; cbn in B4; auto; discriminate B4). rewrite B1 in B2, B3.
  split; [exact E|]. split; [|split; [|exact C]].
  - clear - B2 CM CM' E. unfold ble in *. destruct m', e'; cbn in *; destruct m; cbn in *; auto; try discriminate; try (destruct CM'; discriminate); destruct E as [->|E]; try discriminate E; cbn in *; try discriminate; auto; destruct CM; discriminate.
  - clear - B3 CX CX' E. unfold ble in *. destruct x', e'; cbn in *; destruct x; cbn in *; auto; try discriminate; try (destruct CX'; discriminate); destruct E as [->|E]; try discriminate E; cbn in *; try discriminate; auto; destruct CX; discriminate.
Qed.

(** ** Stacks. *)
Lemma under_refl : forall v, under v v.
Proof. intros v. destruct v; cbn; try reflexivity; [eexists; split; [reflexivity|apply fle_refl]|eauto]. Qed.
Lemma under_var : forall v w, under v w -> is_varsize v = is_varsize w.
Proof. intros v w U. destruct w; cbn in *; try exact U; [destruct U as (g & -> & _); reflexivity|destruct U as (o & ->); reflexivity]. Qed.
Lemma under_trans : forall u v w, under u v -> under v w -> under u w.
Proof.
  intros u v w A B. destruct w; cbn in B |- *; try (rewrite (under_var _ _ A); exact B).
  - destruct B as (f1 & -> & B). destruct A as (f2 & -> & A). exists f2. split; [reflexivity|eapply fle_trans; eassumption].
  - destruct B as (o & ->). exact A.
Qed.
Lemma under_stack_refl : forall k, under_stack k k.
Proof. intros [|l]; [exact I|]. exists l. split; [reflexivity|]. induction l; constructor; auto using under_refl. Qed.
Lemma under_stack_trans : forall a b c, under_stack a b -> under_stack b c -> under_stack a c.
Proof.
  intros a b [|l] A B; [exact I|]. destruct B as (k & -> & F). destruct A as (h & -> & G). exists h. split; [reflexivity|].
  revert h G. induction F as [|x y k l X F IH]; intros h G; inversion G; subst; constructor; [eapply under_trans; eassumption|auto].
Qed.
Lemma shade_refl : forall s, shade s s.
Proof. intros s. split; [apply fle_refl|apply under_stack_refl]. Qed.
Lemma shade_trans : forall a b c, shade a b -> shade b c -> shade a c.
Proof. intros a b c [A B] [C D]. split; [eapply fle_trans|eapply under_stack_trans]; eassumption. Qed.
Lemma merge_under : forall u v w, slot_consistent w -> under u w -> under v w -> can_merge u v = true /\ under (sv_merge u v) w.
Proof.
  intros u v w C U V. destruct w as [|b|g|r|r|r o|]; cbn in U, V.
  3:{ destruct U as (f & -> & U). destruct V as (f' & -> & V). split; [reflexivity|]. cbn. exists (flags_merge f f'). split; [reflexivity|apply merge_fle; assumption]. }
  5:{ destruct U as (o1 & ->). destruct V as (o2 & ->). unfold can_merge, sv_merge. cbn. assert (X : treg_eqb r r = true) by (destruct r; reflexivity). rewrite X. split; [reflexivity|]. cbn. destruct (Bool.eqb o1 o2); eauto. }
  all: (split; [unfold can_merge; rewrite U, V; apply orb_true_r|]; cbn; unfold sv_merge; destruct (sv_same_type u v); [|reflexivity];
    destruct u; try reflexivity; try discriminate U; destruct v; try reflexivity; cbn; try destruct (_ =? _); reflexivity).
Qed.
Lemma merge_under_stack : forall a b c, stack_consistent c -> under_stack a c -> under_stack b c -> under_stack (stack_merge a b) c.
Proof.
  intros a b [|l] C A B; [exact I|]. destruct A as (h & -> & A). destruct B as (k & -> & B). cbn in C.
  assert (X : exists r, merge_lists h k = Some r /\ Forall2 under r l).
  { revert k B C. induction A as [|x y h l X A IH]; intros k B C; inversion B as [|x' ? k' ? X' B']; subst; [exists []; split; [reflexivity|constructor]|].
    destruct (merge_under x x' y (C y (or_introl eq_refl)) X X') as [M U]. destruct (IH _ B' (fun v V => C v (or_intror V))) as (r & E & F).
    cbn [merge_lists]. rewrite M, E. exists (sv_merge x x' :: r). split; [reflexivity|constructor; assumption]. }
  destruct X as (r & E & F). cbn [stack_merge]. rewrite E. exists r. split; [reflexivity|exact F].
Qed.
Lemma merge_shade : forall a b c, es_consistent c -> shade a c -> shade b c -> shade (es_merge a b) c.
Proof. intros a b c [C K] [A1 A2] [B1 B2]. split; cbn; [apply merge_fle|apply merge_under_stack]; assumption. Qed.
Lemma below_under : forall a b, stack_consistent a -> stack_consistent b -> stack_merge a b = b -> under_stack a b.
Proof.
  intros a [|l] CA CB M; [exact I|]. destruct a as [|h]; [discriminate M|]. cbn in M. exists h. split; [reflexivity|].
  destruct (merge_lists h l) as [r|] eqn:E; [|discriminate M]. injection M as ->. cbn in CA, CB. revert l E CB. induction h as [|x h IH]; intros [|y l] E CB; cbn in E; try discriminate E; [constructor|].
  destruct (can_merge x y) eqn:CM; [|discriminate E]. destruct (merge_lists h l) as [r|] eqn:E'; [|discriminate E]. injection E as EX ->. constructor.
  - pose proof (CA x (or_introl eq_refl)) as CX. pose proof (CB y (or_introl eq_refl)) as CY. unfold can_merge in CM. unfold sv_merge in EX.
    destruct (sv_same_type x y) eqn:ST; cbn [negb] in EX.
    + destruct x, y; try discriminate ST; cbn; try reflexivity.
      * injection EX as EX. exists f. split; [reflexivity|]. apply below_fle; assumption.
      * destruct r, r0; try discriminate ST; eauto.
    + subst y. cbn in CM |- *. apply andb_true_iff in CM. destruct CM as [CM _]. destruct (is_varsize x); [discriminate CM|reflexivity].
  - apply IH; [intros v V; apply CA; right; exact V|exact E'|intros v V; apply CB; right; exact V].
Qed.
Lemma below_shade : forall a b, es_consistent a -> es_consistent b -> below a b -> shade a b.
Proof.
  intros a b [A1 A2] [B1 B2] B. split; [apply below_fle; try assumption; apply below_flags; exact B|]. apply below_under; try assumption. unfold below in B. rewrite <- B at 2. reflexivity.
Qed.

(** ** Operations. *)
Lemma under_push : forall v w a b, under v w -> under_stack a b -> under_stack (push_sv v a) (push_sv w b).
Proof. intros v w a [|l] U K; [exact I|]. destruct K as (h & -> & K). exists (v :: h). split; [reflexivity|]. constructor; assumption. Qed.
Lemma push_abandoned : forall v a, under_stack (push_sv v a) Abandoned.
Proof. intros. exact I. Qed.
Lemma lo_var : forall t r, is_varsize (sv_of_lo t r) = false.
Proof. intros t [| |v]; reflexivity. Qed.
Lemma hi_var : forall t r, is_varsize (sv_of_hi t r) = false.
Proof. intros t [| |v]; reflexivity. Qed.
Lemma under_lo : forall t r r', under (sv_of_lo t r) (sv_of_lo t r').
Proof. intros t r [| |v]; cbn; apply lo_var. Qed.
Lemma under_hi : forall t r r', under (sv_of_hi t r) (sv_of_hi t r').
Proof. intros t r [| |v]; cbn; apply hi_var. Qed.
Lemma under_push_reg : forall t r r' b b' a k, ble b b' -> under_stack a k -> under_stack (push_reg t r b a) (push_reg t r' b' k).
Proof.
  intros t r r' b b' a [|l] B K; [exact I|]. destruct B as [->| ->]; [|exact I]. destruct K as (h & -> & K). destruct b'; cbn [push_reg]; [| | |exact I]; eexists; (split; [reflexivity|]).
  - constructor; [apply under_lo|]. constructor; [apply under_hi|exact K].
  - constructor; [apply under_lo|exact K].
  - constructor; [|exact K]. unfold sv_of_var. cbn. eauto.
Qed.
Lemma under_pull_byte : forall a k, under_stack a k -> under_stack (snd (pull_byte a)) (snd (pull_byte k)).
Proof.
  intros a [|[|w l]] K; [exact I|exact I|]. destruct K as (h & -> & K). inversion K as [|v ? h' ? U K']; subst. cbn. rewrite (under_var _ _ U). destruct (is_varsize w); [exact I|]. cbn. exists h'. auto.
Qed.
Lemma pulled_flags : forall a k g, under_stack a k -> fst (pull_byte k) = SV_flags g -> exists f, fst (pull_byte a) = SV_flags f /\ fle f g.
Proof.
  intros a [|[|w l]] g K E; try discriminate E. destruct K as (h & -> & K). inversion K as [|v ? h' ? U K']; subst. cbn in E |- *. rewrite (under_var _ _ U). destruct (is_varsize w); [discriminate E|].
  cbn in E |- *. subst w. destruct U as (f & -> & U). exists f. split; [reflexivity|exact U].
Qed.
(** A register can be pulled also where more is known. *)
Definition pull_fine (b : bitstate) (k : ModelState.stack) : Prop := bit_known b = true \/ b = B_original /\ exists l, k = Live l.
Lemma under_pull_reg : forall t b b' a k r k', ble b b' -> under_stack a k -> pull_fine b' k -> pull_reg t b' k = Ok (r, k') ->
  exists r1 a', pull_reg t b a = Ok (r1, a') /\ under_stack a' k'.
Proof.
  intros t b b' a k r k' B K P H. assert (b = b') as -> by (destruct P as [P|[-> _]]; [apply ble_known; assumption|]; destruct B as [->|B]; [reflexivity|discriminate B]). clear B.
  assert (PB : forall a k, under_stack a k -> forall lo k1, pull_byte k = (lo, k1) -> exists v a1, pull_byte a = (v, a1) /\ under_stack a1 k1).
  { intros a0 k0 K0 lo k1 E. pose proof (under_pull_byte _ _ K0) as U. rewrite E in U. destruct (pull_byte a0) as [v a1]. eauto. }
  assert (AB : forall k', k' = Abandoned -> bit_known b' = true -> exists r1 a', pull_reg t b' a = Ok (r1, a') /\ under_stack a' k').
  { intros k0 -> BK. unfold pull_reg. destruct a as [|la]; [do 2 eexists; split; [reflexivity|exact I]|]. destruct b'; try discriminate BK.
    - destruct (pull_byte (Live la)) as [lo k1]. destruct (pull_byte k1) as [hi k2]. destruct (_ && _); [do 2 eexists; split; [reflexivity|exact I]|]. destruct lo; try (do 2 eexists; split; [reflexivity|exact I]). destruct hi; do 2 eexists; (split; [reflexivity|exact I]).
    - destruct (pull_byte (Live la)) as [lo k1]. destruct (sv_same_type _ _); [do 2 eexists; split; [reflexivity|exact I]|]. destruct lo; do 2 eexists; (split; [reflexivity|exact I]). }
  destruct k as [|l].
  { cbn in H. injection H as <- <-. destruct P as [P|[_ (l & X)]]; [auto|discriminate X]. }
  destruct K as (h & -> & K). unfold pull_reg in H |- *.
  assert (KS : under_stack (Live h) (Live l)) by (exists h; auto).
  destruct b'.
  - destruct (pull_byte (Live l)) as [lo k1] eqn:E1. destruct (pull_byte k1) as [hi k2] eqn:E2. destruct (PB _ _ KS _ _ E1) as (v1 & a1 & -> & U1). destruct (PB _ _ U1 _ _ E2) as (v2 & a2 & -> & U2).
    assert (k' = k2) as -> by (destruct (_ && _); [congruence|]; destruct lo; try congruence; destruct hi; congruence).
    clear H. destruct (_ && _); [(do 2 eexists; split; [reflexivity|eassumption])|]. destruct v1; try (do 2 eexists; split; [reflexivity|eassumption]). destruct v2; (do 2 eexists; split; [reflexivity|eassumption]).
  - destruct (pull_byte (Live l)) as [lo k1] eqn:E1. destruct (PB _ _ KS _ _ E1) as (v1 & a1 & -> & U1).
    assert (k' = k1) as -> by (destruct (sv_same_type lo _); [congruence|]; destruct lo; congruence).
    clear H. destruct (sv_same_type v1 _); [(do 2 eexists; split; [reflexivity|eassumption])|]. destruct v1; (do 2 eexists; split; [reflexivity|eassumption]).
  - inversion K as [|v w h' l' U K']; subst; [discriminate H|]. cbn [pull_varsize] in *. rewrite (under_var _ _ U). destruct (is_varsize w) eqn:VW.
    + destruct w; try discriminate VW. destruct U as (o & ->). cbn [bind] in *. cbn [sv_same_type] in *. destruct (treg_eqb r0 t); [discriminate H|]. injection H as <- <-. do 2 eexists. split; [reflexivity|exact I].
    + cbn in *. injection H as <- <-. do 2 eexists. split; [reflexivity|exact I].
  - destruct P as [P|[P _]]; discriminate P.
Qed.

Lemma shade_wf : forall F G s t, fle F G -> shade s t -> shade (with_flags F s) (with_flags G t).
Proof. intros F G s t B [_ K]. split; [exact B|exact K]. Qed.
Lemma shade_ws : forall k k' s t, under_stack k k' -> shade s t -> shade (with_stack k s) (with_stack k' t).
Proof. intros k k' s t B [K _]. split; [exact K|exact B]. Qed.
Lemma shade_c : forall b b' s t, ble b b' -> shade s t -> shade (upd_flags (set_c b) s) (upd_flags (set_c b') t).
Proof. intros b b' s t B [(E & M & X & C) K]. split; [|exact K]. repeat split; cbn; assumption. Qed.
Lemma shade_m : forall b b' s t, ble b b' -> shade s t -> shade (upd_flags (set_m b) s) (upd_flags (set_m b') t).
Proof. intros b b' s t B [(E & M & X & C) K]. split; [|exact K]. repeat split; cbn; try assumption. apply constrained_ble; assumption. Qed.
Lemma shade_x : forall b b' s t, ble b b' -> shade s t -> shade (upd_flags (set_x b) s) (upd_flags (set_x b') t).
Proof. intros b b' s t B [(E & M & X & C) K]. split; [|exact K]. repeat split; cbn; try assumption. apply constrained_ble; assumption. Qed.
Lemma shade_wipe : forall s t, shade s t -> shade (wipe_carry s) (wipe_carry t).
Proof. intros s t H. apply (shade_c B_unknown B_unknown); [apply ble_refl|exact H]. Qed.
(** Widths stay as they are allowed to be: setting a width to what it may be in any case. *)
Lemma shade_m_any : forall s t, es_consistent s -> shade s t -> shade s (upd_flags (set_m B_unknown) t).
Proof.
  intros s t [[CM CX] _] [(E & M & X & C) K]. split; [|exact K]. repeat split; cbn; try assumption.
  clear - CM E. unfold ble in *. destruct E as [E|E]; [rewrite E in CM|]; rewrite ?E; destruct (fl_e (es_flags t)); cbn in *; auto.
Qed.
Lemma shade_x_any : forall s t, es_consistent s -> shade s t -> shade s (upd_flags (set_x B_unknown) t).
Proof.
  intros s t [[CM CX] _] [(E & M & X & C) K]. split; [|exact K]. repeat split; cbn; try assumption.
  clear - CX E. unfold ble in *. destruct E as [E|E]; [rewrite E in CX|]; rewrite ?E; destruct (fl_e (es_flags t)); cbn in *; auto.
Qed.
Lemma shade_c_any : forall s t, shade s t -> shade s (upd_flags (set_c B_unknown) t).
Proof. intros s t [(E & M & X & C) K]. split; [|exact K]. repeat split; cbn; try assumption. apply ble_unknown. Qed.

(** ** Executing. *)
(** The operands evaluate without a context to a small value or not at all. *)
Definition tame (o : option expr) : Prop := exists v, maybe_arg null_ctx o = Ok v /\ forall z, v = Some z -> Z.abs z <= 2 ^ 24.
Definition pullable (m : mnemonic) (t : estate) : Prop :=
  match m with
  | M_pla => pull_fine (fl_m (es_flags t)) (es_stack t)
  | M_plx | M_ply => pull_fine (fl_x (es_flags t)) (es_stack t)
  | _ => True
  end.
Lemma rv_add_small : forall o m r, good_reg r -> Z.abs o <= 2 ^ 25 -> exists r', rv_add o m r = Ok r'.
Proof.
  intros o m [| |v] G H; cbn [rv_add]; eauto. cbn in G. destruct (int_result_cases (v + o)) as [[_ E]|[N _]]; [rewrite E; cbn; eauto|]. elim N. unfold int32. lia.
Qed.
Lemma int_small : forall v, Z.abs v <= 2 ^ 25 -> int_result v = Ok v.
Proof. intros v H. destruct (int_result_cases v) as [[_ E]|[N _]]; [exact E|]. elim N. unfold int32. lia. Qed.

Lemma shade_plp : forall s t, shade s t -> shade (pull_flags s) (pull_flags t).
Proof.
  intros s t [(A & B & C & D) K]. pose proof (under_pull_byte _ _ K) as U. pose proof (fun g => pulled_flags _ _ g K) as W. unfold pull_flags.
  destruct (pull_byte (es_stack s)) as [v k]. destruct (pull_byte (es_stack t)) as [w k']. cbn [fst snd] in *. cbv zeta.
  assert (X : forall M N O, shade (with_flags (mk_flags (fl_e (es_flags (with_stack k s))) M N O) (with_stack k s)) (with_flags (mk_flags (fl_e (es_flags (with_stack k' t))) B_unknown B_unknown B_unknown) (with_stack k' t)))
    by (intros M N O; split; [apply mk_fle; [exact A| | |]; apply ble_unknown|exact U]).
  destruct w; try (destruct v; apply X). destruct (W _ eq_refl) as (g & -> & F). destruct F as (_ & F1 & F2 & F3). split; [apply mk_fle; assumption|exact U].
Qed.
Lemma shade_unknown : forall (get : flags -> bitstate) put tg s t, bit_known tg = true -> (ble (get (es_flags s)) (get (es_flags t))) ->
  shade (upd_flags (put B_unknown) s) (upd_flags (put B_unknown) t) -> shade s (upd_flags (put B_unknown) t) -> shade s t ->
  shade (if bit_eqb (get (es_flags s)) tg then s else upd_flags (put B_unknown) s) (if bit_eqb (get (es_flags t)) tg then t else upd_flags (put B_unknown) t).
Proof.
  intros get put tg s t K B U V W. destruct (bit_eqb (get (es_flags t)) tg) eqn:E.
  - assert (get (es_flags t) = tg) as <- by (destruct (get (es_flags t)), tg; try discriminate E; reflexivity).
    rewrite (ble_known _ _ B K), E. exact W.
  - destruct (bit_eqb (get (es_flags s)) tg); assumption.
Qed.
Lemma rep_unknown : forall tg s t, bit_known tg = true -> es_consistent s -> shade s t ->
  let nc (s : estate) := if bit_eqb (fl_c (es_flags s)) tg then s else upd_flags (set_c B_unknown) s in
  let nx (s : estate) := if bit_eqb (fl_x (es_flags s)) tg then s else upd_flags (set_x B_unknown) s in
  let nm (s : estate) := if bit_eqb (fl_m (es_flags s)) tg then s else upd_flags (set_m B_unknown) s in
  shade (nm (nx (nc s))) (nm (nx (nc t))).
Proof.
  intros tg s t K CS SH nc nx nm.
  assert (S1 : shade (nc s) (nc t)) by (apply (shade_unknown fl_c set_c); [exact K|apply SH|apply shade_c; [apply ble_refl|exact SH]|apply shade_c_any; exact SH|exact SH]).
  assert (C1 : es_consistent (nc s)) by (unfold nc; destruct (bit_eqb _ _); exact CS).
  assert (S2 : shade (nx (nc s)) (nx (nc t))) by (apply (shade_unknown fl_x set_x); [exact K|apply S1|apply shade_x; [apply ble_refl|exact S1]|apply shade_x_any; [exact C1|exact S1]|exact S1]).
  assert (C2 : es_consistent (nx (nc s))) by (unfold nx; destruct (bit_eqb _ _); [exact C1|apply con_wf; [apply con_set_x; apply C1|exact C1]]).
  apply (shade_unknown fl_m set_m); [exact K|apply S2|apply shade_m; [apply ble_refl|exact S2]|apply shade_m_any; [exact C2|exact S2]|exact S2].
Qed.
Lemma mono_exec : forall i j s t t', execute j t = Ok t' -> shade s t -> good True True s -> es_consistent s -> i_mnem i = i_mnem j -> i_ret i = i_ret j ->
  (i_mnem j = M_rep \/ i_mnem j = M_sep -> maybe_arg null_ctx (i_arg1 i) = maybe_arg null_ctx (i_arg1 j)) -> tame (i_arg1 i) -> tame (i_arg2 i) ->
  check_consistency i (es_flags s) = Ok tt -> pullable (i_mnem j) t -> exists s', execute i s = Ok s' /\ shade s' t'.
Proof.
  intros i j s t t' H SH GD CS MN RT RS TA TB CC PL. unfold execute, execute_in in *. rewrite CC. cbn [bind]. bok H as u U. clear u U CC.
  rewrite MN. rewrite RT. clear RT. destruct GD as (GA & GX & GY & GF & GK). destruct TA as (va & EA & BA). destruct TB as (vb & EB & BB).
  destruct (i_mnem j) eqn:MJ.
  all: try (injection H as <-; eexists; split; [reflexivity|]; first [exact SH|apply shade_c; [apply ble_refl|exact SH]|apply shade_wipe; exact SH]).
  (* increments and decrements *)
  1-6: (assert (SH' : shade s t') by (destruct (i_mode j); try (injection H as <-; exact SH); bok H as r R; injection H as <-; exact SH);
    destruct (i_mode i); try (eexists; split; [reflexivity|exact SH']);
    match goal with |- exists s', (let* r := rv_add ?o ?m ?v in _) = _ /\ _ => destruct (rv_add_small o m v) as (r1 & ->); [assumption|lia|]; cbn [bind]; eexists; (split; [reflexivity|exact SH']) end).
  (* loads *)
  1-3: (assert (SH' : shade s t') by (destruct (i_mode j); try (injection H as <-; exact SH); bok H as r R; injection H as <-; exact SH);
    rewrite EA; destruct (i_mode i); cbn [bind]; eexists; (split; [reflexivity|exact SH'])).
  all: match type of MN with
    | _ = M_pha => injection H as <-; eexists; split; [reflexivity|]; apply shade_ws; [|exact SH]; destruct SH as [(_ & A & B & _) K]; apply under_push_reg; assumption
    | _ = M_phx => injection H as <-; eexists; split; [reflexivity|]; apply shade_ws; [|exact SH]; destruct SH as [(_ & A & B & _) K]; apply under_push_reg; assumption
    | _ = M_phy => injection H as <-; eexists; split; [reflexivity|]; apply shade_ws; [|exact SH]; destruct SH as [(_ & A & B & _) K]; apply under_push_reg; assumption
    | _ = M_php => injection H as <-; eexists; split; [reflexivity|]; apply shade_ws; [|exact SH]; apply under_push; [eexists; split; [reflexivity|apply SH]|apply SH]
    | _ = M_pei => injection H as <-; eexists; split; [reflexivity|]; apply shade_ws; [|exact SH]; apply under_push; [reflexivity|]; apply under_push; [reflexivity|apply SH]
    | _ = M_per => injection H as <-; eexists; split; [reflexivity|]; apply shade_ws; [|exact SH]; apply under_push; [reflexivity|]; apply under_push; [reflexivity|apply SH]
    | _ = M_pea => bok H as vj EJ; injection H as <-; rewrite EA; cbn [bind]; eexists; (split; [reflexivity|]); apply shade_ws; [|exact SH];
        destruct va, vj; (apply under_push; [reflexivity|]; apply under_push; [reflexivity|apply SH])
    | _ => idtac end.
  all: match type of MN with
    | _ = M_pla => unfold pull_a in *; bok H as [r k] E; injection H as <-; destruct (under_pull_reg _ _ _ _ _ _ _ (proj1 (proj2 (proj1 SH))) (proj2 SH) PL E) as (r1 & a1 & -> & U1); cbn [bind]; eexists; (split; [reflexivity|]); exact (shade_ws _ _ _ _ U1 SH)
    | _ = M_plx => unfold pull_x in *; bok H as [r k] E; injection H as <-; destruct (under_pull_reg _ _ _ _ _ _ _ (proj1 (proj2 (proj2 (proj1 SH)))) (proj2 SH) PL E) as (r1 & a1 & -> & U1); cbn [bind]; eexists; (split; [reflexivity|]); exact (shade_ws _ _ _ _ U1 SH)
    | _ = M_ply => unfold pull_y in *; bok H as [r k] E; injection H as <-; destruct (under_pull_reg _ _ _ _ _ _ _ (proj1 (proj2 (proj2 (proj1 SH)))) (proj2 SH) PL E) as (r1 & a1 & -> & U1); cbn [bind]; eexists; (split; [reflexivity|]); exact (shade_ws _ _ _ _ U1 SH)
    | _ = M_xce => injection H as <-; eexists; (split; [reflexivity|]); apply shade_wf; [|exact SH]; destruct SH as [(A & B & C & D) _]; (repeat split; cbn; auto using constrained_ble)
    | _ => idtac end.
  all: match type of MN with
    | _ = M_plp => idtac
    | _ = M_rep => idtac
    | _ = M_sep => idtac
    | _ = M_mvn => idtac
    | _ = M_mvp => idtac
    | _ => injection H as <-; eexists; (split; [reflexivity|]); apply shade_c; [apply ble_refl|]; destruct (yield_flags (i_ret j)); [apply shade_wf; [apply fle_refl|exact SH]|exact SH]
    end.
  1-2: (bok H as ia IA; bok H as s2 S2; bok H as db DB; injection H as <-; rewrite EA, EB; cbn [bind];
    set (t1 := match fl_m (es_flags t) with B_on => _ | B_off => _ | _ => _ end) in S2; assert (T1 : es_flags t1 = es_flags t /\ es_stack t1 = es_stack t) by (unfold t1; destruct (fl_m (es_flags t)); split; reflexivity);
    set (s1 := match fl_m (es_flags s) with B_on => _ | B_off => _ | _ => _ end); assert (S1 : es_flags s1 = es_flags s /\ es_stack s1 = es_stack s /\ es_xr s1 = es_xr s /\ es_yr s1 = es_yr s) by (unfold s1; destruct (fl_m (es_flags s)); repeat split; reflexivity);
    clearbody t1 s1; destruct S1 as (F1 & K1 & X1 & Y1);
    assert (X : es_flags s2 = es_flags t /\ es_stack s2 = es_stack t) by (destruct T1; destruct ia; [bok S2 as off O; bok S2 as rx RX; bok S2 as ry RY|]; injection S2 as <-; cbn; auto);
    destruct X as [F2 K2]; rewrite X1, Y1;
    destruct va as [v|]; [|cbn [bind]; eexists; (split; [reflexivity|]); unfold shade in *; cbn; rewrite F1, K1, F2, K2; exact SH];
    specialize (BA v eq_refl); rewrite int_small by lia; cbn [bind];
    match goal with |- exists s', (let* s0 := (let* rx := rv_add ?o ?m ?a in let* ry := rv_add ?o ?m ?b in _) in _) = _ /\ _ =>
      destruct (rv_add_small o m a) as (r1 & ->); [assumption|lia|]; destruct (rv_add_small o m b) as (r2 & ->); [assumption|lia|] end;
    cbn [bind]; eexists; (split; [reflexivity|]); unfold shade in *; cbn; rewrite F1, K1, F2, K2; exact SH).
  1: (injection H as <-; eexists; split; [reflexivity|apply shade_plp; exact SH]).
  all: (rewrite <- RS in H by auto; rewrite EA in *; cbn [bind] in *; destruct va as [v|]; [|]; injection H as <-; eexists; (split; [reflexivity|])).
  1,3: (repeat match goal with |- shade (if ?b then _ else ?a) (if ?b then _ else ?c) => assert (shade a c); [|destruct b; [first [apply shade_m|apply shade_x|apply shade_c]; [apply ble_refl|assumption]|assumption]] end; exact SH).
  all: apply rep_unknown; [reflexivity|exact CS|exact SH].
Qed.
