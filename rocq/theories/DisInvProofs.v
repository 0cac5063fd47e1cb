(** What holds of the collected instructions while the disassembler works. *)
From Verif Require Import Base ModelNumeric ModelAddress ModelExpr ModelMnemonic ModelAMode ModelOpcode ModelState ModelInstr ModelMap ModelRom ModelDisasm
  SpecArith SpecInstr SpecState BaseProofs MapProofs ArithProofs StateProofs InstrProofs FlowArriveProofs FlowKindProofs DisStateProofs DisStepProofs.
Open Scope list_scope.
Open Scope Z_scope.
Local Opaque check_consistency execute_in decode_opcode.

(** ** Instructions as decoded and as recorded. *)
Definition target (pc : Z) (i : instr) (v : Z) : Z := add_wrapped (add_wrapped pc (instruction_length (i_mode i))) v.
Definition same_code (lab : string) (j i : instr) : Prop :=
  i_mnem i = i_mnem j /\ i_mode i = i_mode j /\ i_arg2 i = i_arg2 j /\
  i_arg1 i = (if is_local_branch j then apply_label lab (i_arg1 j) else i_arg1 j).
Lemma same_local : forall l j i, same_code l j i -> is_local_branch i = is_local_branch j.
Proof. intros l j i (M & A & _). unfold is_local_branch. rewrite M, A. reflexivity. Qed.
Lemma eval_label : forall c l e, eval_opt c (apply_label l e) = eval_opt c e.
Proof. intros c l [[]|]; reflexivity. Qed.
Lemma same_eval : forall c l j i, same_code l j i -> eval_opt c (i_arg1 i) = eval_opt c (i_arg1 j).
Proof. intros c l j i (_ & _ & _ & E). rewrite E. destruct (is_local_branch j); [apply eval_label|reflexivity]. Qed.
Lemma same_offset : forall l j i, same_code l j i -> branch_offset i = branch_offset j.
Proof. intros l j i H. unfold branch_offset. rewrite (same_eval _ _ _ _ H). reflexivity. Qed.
Lemma same_far : forall l j i pc, same_code l j i -> far_branch_target i pc = far_branch_target j pc.
Proof. intros l j i pc H. unfold far_branch_target. rewrite (same_eval _ _ _ _ H). destruct H as (M & A & _). rewrite M, A. reflexivity. Qed.
Lemma same_target : forall l j i pc v, same_code l j i -> target pc i v = target pc j v.
Proof. intros l j i pc v (_ & A & _). unfold target. rewrite A. reflexivity. Qed.


(** Decoding under stronger flags gives the same instruction. *)
Definition fbelow (f g : flags) : Prop := flags_merge f g = g.
Lemma fbelow_m : forall f g, consistent f -> fbelow f g -> fl_m g = B_on \/ fl_m g = B_off -> fl_m f = fl_m g.
Proof.
  intros [e m x c] [e' m' x' c'] [C _] B K. injection B as B1 B2 B3 B4. cbn in *.
  destruct e, m, e', m'; cbn in *; try reflexivity; try discriminate; destruct K as [K|K]; try discriminate; try contradiction; try (destruct C; discriminate).
Qed.
Lemma fbelow_x : forall f g, consistent f -> fbelow f g -> fl_x g = B_on \/ fl_x g = B_off -> fl_x f = fl_x g.
Proof.
  intros [e m x c] [e' m' x' c'] [_ C] B K. injection B as B1 B2 B3 B4. cbn in *.
  destruct e, x, e', x'; cbn in *; try reflexivity; try discriminate; destruct K as [K|K]; try discriminate; try contradiction; try (destruct C; discriminate).
Qed.
Lemma decode_stronger : forall bytes f g i, consistent f -> fbelow f g -> decode bytes g = Ok i -> decode bytes f = Ok i.
Proof.
  intros [|op rest] f g i C B H; [discriminate H|]. rewrite decode_eq in *.
  assert (E : forall a, decode_mode g (snd (decode_opcode op)) = Some a -> decode_mode f (snd (decode_opcode op)) = Some a).
  { intros a. destruct (snd (decode_opcode op)); cbn [decode_mode]; auto.
    - intros X. assert (K : fl_m g = B_on \/ fl_m g = B_off) by (destruct (fl_m g); cbn in X; auto; discriminate). rewrite (fbelow_m f g C B K). exact X.
    - intros X. assert (K : fl_x g = B_on \/ fl_x g = B_off) by (destruct (fl_x g); cbn in X; auto; discriminate). rewrite (fbelow_x f g C B K). exact X. }
  destruct (decode_mode g (snd (decode_opcode op))) as [a|]; [|discriminate H]. rewrite (E a eq_refl). exact H.
Qed.
Lemma below_flags : forall a b, below a b -> fbelow (es_flags a) (es_flags b).
Proof. intros a b B. unfold fbelow. unfold below in B. rewrite <- B at 2. reflexivity. Qed.
Lemma fbelow_l : forall f g, consistent f -> consistent g -> fbelow f (flags_merge f g).
Proof. unfold fbelow. intros f g A B. rewrite <- flags_merge_assoc by assumption. rewrite flags_merge_idem by exact A. reflexivity. Qed.
Lemma fbelow_r : forall f g, consistent f -> consistent g -> fbelow g (flags_merge f g).
Proof. intros f g A B. rewrite flags_merge_comm. apply fbelow_l; assumption. Qed.
Lemma fbelow_trans : forall f g h, consistent f -> consistent g -> consistent h -> fbelow f g -> fbelow g h -> fbelow f h.
Proof. unfold fbelow. intros a b c A B C H K. rewrite <- K at 1. rewrite <- flags_merge_assoc by assumption. rewrite H. exact K. Qed.

(** ** The state due at an address: what is recorded there together with what waits there. *)
Definition due (V : Z -> option dinstr) (st : omap estate) (a : Z) : option estate :=
  match om_find a st, V a with
  | Some s, Some d => Some (es_merge s (di_cur d))
  | Some s, None => Some s
  | None, Some d => Some (di_cur d)
  | None, None => None
  end.
Definition cov (V : Z -> option dinstr) (st : omap estate) (a : Z) (s : estate) : Prop := exists u, due V st a = Some u /\ below s u.
Definition con_view (V : Z -> option dinstr) : Prop := forall a d, V a = Some d -> es_consistent (di_cur d).
Lemma due_con : forall V st a u, con_view V -> all_con st -> due V st a = Some u -> es_consistent u.
Proof.
  intros V st a u CV C H. unfold due in H. destruct (om_find a st) as [s|] eqn:F, (V a) as [d|] eqn:G; try discriminate H; injection H as <-;
    [apply es_merge_consistent|exact (C _ _ F)|exact (CV _ _ G)].
Qed.
Lemma due_push1 : forall V st k t a u, con_view V -> all_con st -> sorted_keys st -> es_consistent t -> due V st a = Some u ->
  exists u', due V (om_merge es_merge k t st) a = Some u' /\ below u u'.
Proof.
  intros V st k t a u CV C S T H. pose proof (due_con _ _ _ _ CV C H) as CU. unfold due in *. rewrite om_find_merge by exact S. destruct (Z.eqb_spec k a) as [->|N].
  - destruct (om_find a st) as [s|] eqn:F, (V a) as [d|] eqn:G; try discriminate H; injection H as <-; eexists; (split; [reflexivity|]).
    + pose proof (C _ _ F) as CS. pose proof (CV _ _ G) as CD. cbn in CS. rewrite es_merge_assoc by (try assumption). rewrite (es_merge_comm t), <- es_merge_assoc by assumption.
      apply below_l; [apply es_merge_consistent|exact T].
    + apply below_l; [exact (C _ _ F)|exact T].
    + apply below_r; [exact T|exact (CV _ _ G)].
  - exists u. split; [exact H|apply below_refl; exact CU].
Qed.
Lemma due_pushed : forall V st k t, con_view V -> all_con st -> sorted_keys st -> es_consistent t ->
  exists u', due V (om_merge es_merge k t st) k = Some u' /\ below t u'.
Proof.
  intros V st k t CV C S T. unfold due. rewrite om_find_merge, Z.eqb_refl by exact S.
  assert (B : below t (match om_find k st with Some old => es_merge old t | None => t end)).
  { destruct (om_find k st) as [s|] eqn:F; [apply below_r; [exact (C _ _ F)|exact T]|apply below_refl; exact T]. }
  assert (CB : es_consistent (match om_find k st with Some old => es_merge old t | None => t end)) by (destruct (om_find k st); [apply es_merge_consistent|exact T]).
  destruct (V k) as [d|] eqn:G; [|eauto]. eexists. split; [reflexivity|].
  eapply below_trans; [exact T|exact CB|apply es_merge_consistent|exact B|apply below_l; [exact CB|exact (CV _ _ G)]].
Qed.
Lemma push1_con : forall st k t, all_con st -> sorted_keys st -> es_consistent t -> all_con (om_merge es_merge k t st).
Proof.
  intros st k t C S T j u F. rewrite om_find_merge in F by exact S. destruct (Z.eqb_spec k j) as [<-|N]; [|exact (C _ _ F)]. injection F as <-.
  destruct (om_find k st); [apply es_merge_consistent|exact T].
Qed.
Lemma cov_push : forall V ps st a s, con_view V -> all_con st -> sorted_keys st -> (forall k t, In (k, t) ps -> es_consistent t) -> es_consistent s ->
  cov V st a s \/ In (a, s) ps -> cov V (push_all ps st) a s.
Proof.
  intros V. induction ps as [|[k t] ps IH]; intros st a s CV C S P CS H; [destruct H as [H|[]]; exact H|]. cbn [push_all fold_left fst snd].
  assert (T : es_consistent t) by (apply (P k); left; reflexivity).
  apply IH; [exact CV|apply push1_con; assumption|apply om_merge_sorted; exact S|intros k' t' I; apply (P k'); right; exact I|exact CS|].
  destruct H as [(u & F & B)|[E|I]]; [left|left|right; exact I].
  - destruct (due_push1 V st k t a u CV C S T F) as (u' & F' & B'). exists u'. split; [exact F'|].
    eapply below_trans; [exact CS|exact (due_con _ _ _ _ CV C F)|exact (due_con _ _ _ _ CV (push1_con _ _ _ C S T) F')|exact B|exact B'].
  - injection E as -> ->. apply due_pushed; assumption.
Qed.
Lemma push_all_con : forall ps st, all_con st -> sorted_keys st -> (forall k t, In (k, t) ps -> es_consistent t) -> all_con (push_all ps st).
Proof. intros ps st C S P. apply push_all_all; [intros; apply es_merge_consistent|exact S|exact C|exact P]. Qed.
Lemma cov_merge : forall V st a s t, con_view V -> all_con st -> es_consistent s -> es_consistent t -> cov V st a s -> cov V st a t -> cov V st a (es_merge s t).
Proof.
  intros V st a s t CV C CS CT (u & F & B) (u' & F' & B'). rewrite F in F'. injection F' as <-. exists u. split; [exact F|].
  apply below_least; [exact CS|exact CT|exact (due_con _ _ _ _ CV C F)|exact B|exact B'].
Qed.
(** Taking the first address off the worklist and recording its state changes nothing due. *)
Lemma due_pop : forall V V' pc cur rest d', sorted_keys ((pc, cur) :: rest) -> (forall a, a <> pc -> V' a = V a) -> V' pc = Some d' ->
  di_cur d' = (match V pc with Some d => es_merge cur (di_cur d) | None => cur end) -> forall a, due V' rest a = due V ((pc, cur) :: rest) a.
Proof.
  intros V V' pc cur rest d' [S _] O N E a. unfold due. cbn [om_find]. destruct (Z.eqb_spec pc a) as [<-|X].
  - assert (R : om_find pc rest = None). { destruct (om_find pc rest) as [s|] eqn:F; [|reflexivity]. apply om_find_in in F. apply S in F. lia. }
    rewrite R, N. destruct (V pc) as [d|]; rewrite E; reflexivity.
  - rewrite O by congruence. reflexivity.
Qed.

(** ** Labels. *)
Definition old_label (old : omap dinstr) (a : Z) : string := match om_find a old with Some d => di_label d | None => "" end.
Definition label_of (old : omap dinstr) (ls : omap string) (a : Z) : string := match om_find a ls with Some s => s | None => old_label old a end.
(** Labels are generated symbols, and, while the counter is an int, different for different
    addresses. *)
Definition names_ok (lab : Z -> string) (sym : Z) : Prop :=
  0 <= sym /\ (forall a, lab a <> ""%string -> exists n, 0 < n <= sym /\ lab a = gensym n) /\
  (sym < 2 ^ 31 -> forall a b, lab a <> ""%string -> lab a = lab b -> a = b).
Definition lab_le (lab lab' : Z -> string) : Prop := forall a, lab a <> ""%string -> lab' a = lab a.
Lemma gensym_not_empty : forall n, gensym n <> ""%string.
Proof. intros n. unfold gensym. cbn. discriminate. Qed.

Lemma hex_digit_inj : forall a b, 0 <= a < 10 -> 0 <= b < 10 -> hex_digit a = hex_digit b -> a = b.
Proof.
  intros a b A B H. assert (X : forall d, 0 <= d < 10 -> In d [0;1;2;3;4;5;6;7;8;9]) by (intros d D; cbn; lia).
  assert (Y : forallb (fun p => forallb (fun q => negb (Ascii.eqb (hex_digit p) (hex_digit q)) || (p =? q)) [0;1;2;3;4;5;6;7;8;9]) [0;1;2;3;4;5;6;7;8;9] = true) by (vm_compute; reflexivity).
  rewrite forallb_forall in Y. specialize (Y a (X a A)). rewrite forallb_forall in Y. specialize (Y b (X b B)). rewrite H, Ascii.eqb_refl in Y. cbn in Y. apply Z.eqb_eq in Y. exact Y.
Qed.
Lemma append_last : forall s t a b, String.append s (String a "") = String.append t (String b "") -> s = t /\ a = b.
Proof.
  induction s as [|c s IH]; intros [|d t] a b H; cbn in H.
  - injection H as ->. auto.
  - injection H as _ H. destruct t; discriminate H.
  - injection H as _ H. destruct s; discriminate H.
  - injection H as -> H. apply IH in H. destruct H as [-> ->]. auto.
Qed.
Lemma append_one : forall s a b, String.append s (String a "") = String b "" -> s = ""%string /\ a = b.
Proof. intros [|c [|d s]] a b H; cbn in H; try discriminate H. injection H as ->. auto. Qed.
Lemma dec_not_empty : forall f v, dec_digits (Datatypes.S f) v <> ""%string.
Proof. intros f v. cbn [dec_digits]. destruct (v <? 10); [discriminate|]. destruct (dec_digits f (v / 10)); discriminate. Qed.
Lemma dec_digits_inj : forall f v w, 0 <= v < 10 ^ Z.of_nat f -> 0 <= w < 10 ^ Z.of_nat f -> dec_digits f v = dec_digits f w -> v = w.
Proof.
  induction f as [|f IH]; intros v w V W H; [cbn in V, W; lia|]. rewrite Nat2Z.inj_succ, Z.pow_succ_r in V, W by lia.
  assert (NE : forall v, 10 <= v < 10 * 10 ^ Z.of_nat f -> dec_digits f (v / 10) <> ""%string).
  { intros u U. destruct f as [|f]; [cbn in U; lia|]. apply dec_not_empty. }
  cbn [dec_digits] in H. destruct (Z.ltb_spec v 10), (Z.ltb_spec w 10).
  - injection H as H. apply hex_digit_inj; lia || exact H.
  - symmetry in H. apply append_one in H. destruct H as [H _]. destruct (NE w ltac:(lia) H).
  - apply append_one in H. destruct H as [H _]. destruct (NE v ltac:(lia) H).
  - apply append_last in H. destruct H as [H D]. apply IH in H; [|split; [apply Z.div_pos; lia|apply Z.div_lt_upper_bound; lia]|split; [apply Z.div_pos; lia|apply Z.div_lt_upper_bound; lia]].
    apply hex_digit_inj in D; [|apply Z.mod_pos_bound; lia|apply Z.mod_pos_bound; lia].
    rewrite (Z.div_mod v 10), (Z.div_mod w 10) by lia. congruence.
Qed.
Lemma append_inj_l : forall p s t, String.append p s = String.append p t -> s = t.
Proof. induction p as [|c p IH]; intros s t H; [exact H|]. cbn in H. injection H as H. auto. Qed.
Lemma dec_string_inj : forall n m, 0 <= n < 2 ^ 31 -> 0 <= m < 2 ^ 31 -> dec_string n = dec_string m -> n = m.
Proof.
  intros n m N M H. unfold dec_string in H. destruct (Z.ltb_spec n 0), (Z.ltb_spec m 0); try lia.
  eapply dec_digits_inj; [| |exact H]; change (10 ^ Z.of_nat 20) with 100000000000000000000; lia.
Qed.
Lemma gensym_inj : forall n m, 0 <= n < 2 ^ 31 -> 0 <= m < 2 ^ 31 -> gensym n = gensym m -> n = m.
Proof. intros n m N M H. unfold gensym in H. apply append_inj_l in H. apply dec_string_inj; assumption. Qed.

Lemma get_label_spec : forall old w a s w', get_label old w a = (s, w') -> sorted_keys (dw_labels w) ->
  names_ok (label_of old (dw_labels w)) (dw_sym w) ->
  (forall b t, om_find b (dw_labels w) = Some t -> t <> ""%string) ->
  s = label_of old (dw_labels w') a /\ s <> ""%string /\ sorted_keys (dw_labels w') /\ names_ok (label_of old (dw_labels w')) (dw_sym w') /\
  dw_sym w <= dw_sym w' /\ lab_le (label_of old (dw_labels w)) (label_of old (dw_labels w')) /\
  (forall b t, om_find b (dw_labels w') = Some t -> t <> ""%string /\ (b = a \/ om_find b (dw_labels w) = Some t)).
Proof.
  intros old w a s w' H S N L. unfold get_label in H. cbv zeta in H.
  assert (SAME : forall t, label_of old (dw_labels w) a = t -> t <> ""%string -> (t, w) = (s, w') ->
    s = label_of old (dw_labels w') a /\ s <> ""%string /\ sorted_keys (dw_labels w') /\ names_ok (label_of old (dw_labels w')) (dw_sym w') /\
    dw_sym w <= dw_sym w' /\ lab_le (label_of old (dw_labels w)) (label_of old (dw_labels w')) /\
    (forall b t, om_find b (dw_labels w') = Some t -> t <> ""%string /\ (b = a \/ om_find b (dw_labels w) = Some t))).
  { intros t E NE X. injection X as <- <-. split; [symmetry; exact E|]. split; [exact NE|]. split; [exact S|]. split; [exact N|]. split; [lia|].
    split; [intros b _; reflexivity|]. intros b t' F. split; [exact (L _ _ F)|auto]. }
  assert (FRESH : label_of old (dw_labels w) a = ""%string -> (gensym (dw_sym w + 1), DWork (dw_new w) (om_set a (gensym (dw_sym w + 1)) (dw_labels w)) (dw_stack w) (dw_far w) (dw_sym w + 1)) = (s, w') ->
    s = label_of old (dw_labels w') a /\ s <> ""%string /\ sorted_keys (dw_labels w') /\ names_ok (label_of old (dw_labels w')) (dw_sym w') /\
    dw_sym w <= dw_sym w' /\ lab_le (label_of old (dw_labels w)) (label_of old (dw_labels w')) /\
    (forall b t, om_find b (dw_labels w') = Some t -> t <> ""%string /\ (b = a \/ om_find b (dw_labels w) = Some t))).
  { intros E X. injection X as <- <-. cbn [dw_labels dw_sym].
    assert (LS : forall b, label_of old (om_set a (gensym (dw_sym w + 1)) (dw_labels w)) b = if a =? b then gensym (dw_sym w + 1) else label_of old (dw_labels w) b).
    { intros b. unfold label_of. rewrite om_find_set by exact S. destruct (a =? b); reflexivity. }
    rewrite LS, Z.eqb_refl. split; [reflexivity|]. split; [apply gensym_not_empty|]. split; [apply om_set_sorted; exact S|].
    destruct N as (N0 & N1 & N2). split; [|split; [lia|split]].
    - split; [lia|]. split.
      + intros b B. rewrite LS in *. destruct (a =? b); [exists (dw_sym w + 1); split; [lia|reflexivity]|]. destruct (N1 b B) as (n & R & EN). exists n. split; [lia|exact EN].
      + intros B x y X Y. rewrite !LS in *. destruct (Z.eqb_spec a x) as [<-|AX], (Z.eqb_spec a y) as [<-|AY]; [reflexivity| | |apply N2; [lia|exact X|exact Y]].
        * exfalso. destruct (N1 y) as (n & R & EN); [rewrite <- Y; apply gensym_not_empty|]. rewrite EN in Y. apply gensym_inj in Y; lia.
        * exfalso. destruct (N1 x X) as (n & R & EN). rewrite EN in Y. apply gensym_inj in Y; lia.
    - intros b B. rewrite LS. destruct (Z.eqb_spec a b) as [<-|AB]; [congruence|reflexivity].
    - intros b t F. rewrite om_find_set in F by exact S. destruct (Z.eqb_spec a b) as [<-|AB]; [injection F as <-; split; [apply gensym_not_empty|auto]|]. split; [exact (L _ _ F)|auto]. }
  destruct (om_find a (dw_labels w)) as [t|] eqn:F.
  - apply (SAME t); [unfold label_of; rewrite F; reflexivity|exact (L _ _ F)|exact H].
  - destruct (om_find a old) as [d|] eqn:O.
    + destruct (String.eqb_spec (di_label d) "") as [E|E].
      * apply FRESH; [unfold label_of, old_label; rewrite F, O; exact E|exact H].
      * apply (SAME (di_label d)); [unfold label_of, old_label; rewrite F, O; reflexivity|exact E|exact H].
    + apply FRESH; [unfold label_of, old_label; rewrite F, O; reflexivity|exact H].
Qed.

(** ** Collected instructions. *)
Definition rets_ok (rets : omap retconv) : Prop := forall t r, om_find t rets = Some r -> rc_consistent r.
(** A suffix agrees with what is known of the flag that decides the size. *)
Definition sfx_ok (m : mnemonic) (sfx : suffix) (f : flags) : Prop :=
  sfx = S_none \/
  match flag_controlling_size m with
  | NotVariable => False
  | UsesM => sfx = S_b /\ fl_m f <> B_off \/ sfx = S_w /\ fl_m f <> B_on
  | UsesX => sfx = S_b /\ fl_x f <> B_off \/ sfx = S_w /\ fl_x f <> B_on
  end.
Lemma sfx_weaker : forall m sfx f g, consistent f -> fbelow f g -> sfx_ok m sfx f -> sfx_ok m sfx g.
Proof.
  intros m sfx f g C B [H|H]; [left; exact H|right]. destruct (flag_controlling_size m); [| |exact H].
  - destruct H as [[H N]|[H N]]; [left|right]; (split; [exact H|]); intros X; apply N; rewrite (fbelow_m f g C B) by auto; exact X.
  - destruct H as [[H N]|[H N]]; [left|right]; (split; [exact H|]); intros X; apply N; rewrite (fbelow_x f g C B) by auto; exact X.
Qed.
Definition entry_ok (src : source) (rets : omap retconv) (lab : Z -> string) (pc : Z) (d : dinstr) : Prop :=
  exists bytes j far v, let i := di_instr d in
  src pc 4 = Ok bytes /\ decode bytes (es_flags (di_cur d)) = Ok j /\ far_branch_target j pc = Ok far /\ i_ret i = called rets far j /\
  (is_local_branch j = true -> branch_offset j = Ok v /\ lab (target pc j v) <> ""%string) /\ same_code (lab (target pc j v)) j i /\
  es_consistent (di_cur d) /\ es_consistent (di_next d) /\ sfx_ok (i_mnem i) (i_suffix i) (es_flags (di_cur d)) /\
  ((exists sfx, execute (i_with_suffix sfx i) (di_cur d) = Ok (di_next d)) \/ exists nx0, execute j (di_cur d) = Ok nx0 /\ di_next d = after_call far (i_ret i) nx0).
Lemma decode_ret : forall bytes f j, decode bytes f = Ok j -> i_ret j = RC_default /\ i_suffix j = S_none.
Proof.
  intros [|op rest] f j H; [discriminate H|]. rewrite decode_eq in H. destruct (decode_mode f _) as [a|]; [|discriminate H].
  bok H as p E. destruct p as [x y]. injection H as <-. auto.
Qed.
Lemma called_ok : forall rets far j, rets_ok rets -> i_ret j = RC_default -> rc_consistent (called rets far j).
Proof.
  intros rets far j R D. unfold called. destruct far as [t|]; [|rewrite D; exact I].
  destruct (i_mnem j); rewrite ?D; try exact I; destruct (om_find t rets) as [r|] eqn:F; try exact I; exact (R _ _ F).
Qed.
Lemma apply_con : forall far r s, rc_consistent r -> es_consistent s -> es_consistent (after_call far r s).
Proof. intros [t|] r s R C; [|exact C]. destruct r; try exact C. apply con_wf; [exact R|exact C]. Qed.
Lemma entry_mono : forall src rets lab lab' pc d, lab_le lab lab' -> entry_ok src rets lab pc d -> entry_ok src rets lab' pc d.
Proof.
  intros src rets lab lab' pc d L (bytes & j & far & v & RD & DE & FA & RE & LO & SC & REST). exists bytes, j, far, v. cbv zeta.
  split; [exact RD|]. split; [exact DE|]. split; [exact FA|]. split; [exact RE|].
  destruct (is_local_branch j) eqn:LB.
  - destruct (LO eq_refl) as [BO NE]. rewrite (L _ NE). split; [intros _; split; [exact BO|exact NE]|]. split; [exact SC|exact REST].
  - split; [discriminate|]. split; [|exact REST]. destruct SC as (A & B & C & D). repeat split; auto. rewrite LB in *. exact D.
Qed.
Definition left_flags (s : estate) : flags := set_c B_unknown (es_flags s).
Lemma far_kind : forall j pc t, far_branch_target j pc = Ok (Some t) -> In (i_mnem j) [M_jmp; M_jsr; M_jsl].
Proof. intros j pc t H. unfold far_branch_target in H. cbv zeta in H. destruct (i_mode j); try discriminate H; destruct (i_mnem j); try discriminate H; cbn; tauto. Qed.
Lemma call_flags : forall i s nx, In (i_mnem i) [M_jmp; M_jsr; M_jsl] -> execute i s = Ok nx -> (forall f, i_ret i <> RC_yields f) -> es_flags nx = left_flags s.
Proof.
  Local Transparent execute_in. intros i s nx K H Y. unfold execute, execute_in in H. bok H as u U. cbv zeta in H. clear U.
  assert (Z : match yield_flags (i_ret i) with Some f => with_flags f s | None => s end = s) by (destruct (i_ret i) as [|f|]; try reflexivity; destruct (Y f eq_refl)).
  rewrite Z in H. cbn [In] in K. repeat destruct K as [K|K]; try contradiction; rewrite <- K in H; injection H as <-; reflexivity.
  Local Opaque execute_in.
Qed.
