(** Cleanup of a disassembly. *)
From Verif Require Import Base ModelNumeric ModelAddress ModelExpr ModelMnemonic ModelAMode ModelOpcode ModelState ModelInstr ModelMap ModelRom ModelDisasm
  Spec65816 SpecArith SpecInstr SpecState SpecFlow SpecDisasm SpecListing BaseProofs MapProofs ArithProofs StateProofs InstrProofs NameProofs
  DisStateProofs DisStepProofs DisInvProofs DisRunProofs DisRequestProofs DisClosedProofs.
Open Scope list_scope.
Open Scope Z_scope.
Local Opaque check_consistency execute_in execute_branch decode_opcode op_form in_names op_name dec_string.

(** ** New labels. *)
Definition numbered (nl ne hi : Z) (s : string) : Prop :=
  exists k, (nl < k <= hi /\ s = String.append "label" (dec_string k)) \/ (ne < k <= hi /\ s = String.append "entry" (dec_string k)).
Lemma numbered_label : forall nl ne hi k, 0 <= nl -> 0 <= k <= nl -> hi < 2 ^ 31 -> ~ numbered nl ne hi (String.append "label" (dec_string k)).
Proof.
  intros nl ne hi k N K H (j & [[J E]|[J E]]); [|discriminate E]. apply append_inj_l in E. apply dec_string_inj in E; lia.
Qed.
Lemma numbered_entry : forall nl ne hi k, 0 <= ne -> 0 <= k <= ne -> hi < 2 ^ 31 -> ~ numbered nl ne hi (String.append "entry" (dec_string k)).
Proof.
  intros nl ne hi k N K H (j & [[J E]|[J E]]); [discriminate E|]. apply append_inj_l in E. apply dec_string_inj in E; lia.
Qed.
Lemma numbered_mono : forall nl ne nl' ne' hi hi' s, nl <= nl' -> ne <= ne' -> hi' <= hi -> numbered nl' ne' hi' s -> numbered nl ne hi s.
Proof. intros nl ne nl' ne' hi hi' s A B C (k & [[K E]|[K E]]); exists k; [left|right]; split; auto; lia. Qed.
Lemma numbered_some : forall nl ne hi s, numbered nl ne hi s -> s <> ""%string.
Proof. intros nl ne hi s (k & [[_ ->]|[_ ->]]); discriminate. Qed.

Definition same_but_label (c c' : dinstr) : Prop := di_instr c' = di_instr c /\ di_cur c' = di_cur c /\ di_next c' = di_next c.
Definition unique_labels (m : omap dinstr) : Prop :=
  forall a b c x, In (a, c) m -> In (b, x) m -> di_label c <> ""%string -> di_label c = di_label x -> a = b.
Lemma unique_tail : forall p m, unique_labels (p :: m) -> unique_labels m.
Proof. intros p m H a b c x A B. apply H; right; assumption. Qed.
Lemma rename_spec : forall entries m nl ne rw rw' m', 0 <= nl -> 0 <= ne -> nl + ne + zlen m < 2 ^ 31 -> sorted_keys m -> unique_labels m ->
  rename_labels entries nl ne rw m = (rw', m') ->
  map fst m' = map fst m /\
  (forall a c', In (a, c') m' -> exists c, In (a, c) m /\ same_but_label c c' /\ (di_label c = ""%string -> di_label c' = ""%string) /\
     (di_label c <> ""%string -> numbered nl ne (nl + ne + zlen m) (di_label c'))) /\
  unique_labels m' /\
  (forall l, l <> ""%string -> (forall a c, In (a, c) m -> di_label c <> l) -> assoc_string l rw' = assoc_string l rw) /\
  (forall a c, In (a, c) m -> di_label c <> ""%string -> exists c', In (a, c') m' /\ assoc_string (di_label c) rw' = Some (di_label c')).
Proof.
  intros entries. induction m as [|[a c] m IH]; intros nl ne rw rw' m' N1 N2 LT SO UL H; cbn [rename_labels] in H.
  { injection H as <- <-. split; [reflexivity|]. split; [intros a c []|]. split; [intros a b c x []|]. split; [reflexivity|intros a c []]. }
  assert (ZL : zlen ((a, c) :: m) = zlen m + 1) by (unfold zlen; cbn [List.length]; lia). rewrite ZL in *. assert (ZP : 0 <= zlen m) by (unfold zlen; lia).
  destruct SO as [S0 SO]. pose proof (unique_tail _ _ UL) as UT.
  destruct (String.eqb_spec (di_label c) ""%string) as [E|E].
  - destruct (rename_labels entries nl ne rw m) as [rw1 m1] eqn:R. injection H as <- <-.
    destruct (IH _ _ _ _ _ N1 N2 ltac:(lia) SO UT R) as (K & P & U & AO & AN). split; [cbn; rewrite K; reflexivity|]. split; [|split; [|split]].
    + intros b x [X|X]; [injection X as <- <-; exists c; split; [left; reflexivity|]; split; [repeat split|]; split; [auto|intros X; destruct (X E)]|].
      destruct (P _ _ X) as (y & Y & S1 & L1 & L2). exists y. split; [right; exact Y|]. split; [exact S1|]. split; [exact L1|]. intros Z1. eapply numbered_mono; [| | |exact (L2 Z1)]; lia.
    + intros b b' x y [X|X] [Y|Y] NE EQ; [injection X as <- <-; destruct (NE E)..| |exact (U _ _ _ _ X Y NE EQ)]. injection Y as <- <-. rewrite EQ in NE. destruct (NE E).
    + intros l NL NI. apply AO; [exact NL|]. intros b x X. apply (NI b x). right. exact X.
    + intros b x [X|X] NE; [injection X as <- <-; destruct (NE E)|]. destruct (AN _ _ X NE) as (y & Y & AS). exists y. split; [right; exact Y|exact AS].
  - set (ie := om_mem a entries) in *. set (nm := if ie then String.append "entry" (dec_string (ne + 1)) else String.append "label" (dec_string (nl + 1))) in *.
    destruct (rename_labels entries (if ie then nl else nl + 1) (if ie then ne + 1 else ne) ((di_label c, nm) :: rw) m) as [rw1 m1] eqn:R. injection H as <- <-.
    assert (B1 : 0 <= (if ie then nl else nl + 1)) by (destruct ie; lia). assert (B2 : 0 <= (if ie then ne + 1 else ne)) by (destruct ie; lia).
    assert (B3 : (if ie then nl else nl + 1) + (if ie then ne + 1 else ne) + zlen m = nl + ne + (zlen m + 1)) by (destruct ie; lia).
    destruct (IH _ _ _ _ _ B1 B2 ltac:(lia) SO UT R) as (K & P & U & AO & AN). rewrite B3 in P.
    assert (NM : numbered nl ne (nl + ne + (zlen m + 1)) nm) by (unfold nm; destruct ie; [exists (ne + 1); right|exists (nl + 1); left]; split; auto; lia).
    assert (NF : forall b y, In (b, y) m1 -> di_label y <> ""%string -> di_label y <> nm).
    { intros b y Y NE EQ. destruct (P _ _ Y) as (z & _ & _ & L1 & L2). destruct (String.string_dec (di_label z) ""%string) as [Z0|Z0]; [rewrite (L1 Z0) in NE; destruct NE; reflexivity|].
      specialize (L2 Z0). rewrite EQ in L2. unfold nm in L2. destruct ie; [eapply numbered_entry in L2|eapply numbered_label in L2]; try exact L2; lia. }
    pose proof (numbered_some _ _ _ _ NM) as NN.
    split; [cbn; rewrite K; reflexivity|]. split; [|split; [|split]].
    + intros b x [X|X]; [injection X as <- <-; exists c; split; [left; reflexivity|]; split; [repeat split|]; split; [intros Z0; destruct (E Z0)|intros _; exact NM]|].
      destruct (P _ _ X) as (y & Y & S1 & L1 & L2). exists y. split; [right; exact Y|]. split; [exact S1|]. split; [exact L1|]. intros Z1.
      eapply numbered_mono; [| | |exact (L2 Z1)]; destruct ie; lia.
    + intros b b' x y [X|X] [Y|Y] NE EQ.
      * injection X as <- <-. injection Y as <- <-. reflexivity.
      * injection X as <- <-. cbn in *. destruct (NF _ _ Y); congruence.
      * injection Y as <- <-. cbn in *. destruct (NF _ _ X); congruence.
      * exact (U _ _ _ _ X Y NE EQ).
    + intros l NL NI. rewrite AO; [|exact NL|intros b x X; apply (NI b x); right; exact X]. cbn [assoc_string].
      destruct (String.eqb_spec l (di_label c)) as [Z0|Z0]; [|reflexivity]. destruct (NI a c); [left; reflexivity|congruence].
    + intros b x [X|X] NE.
      * injection X as <- <-. eexists. split; [left; reflexivity|]. cbn [di_label]. rewrite AO; [cbn [assoc_string]; rewrite String.eqb_refl; reflexivity|exact NE|].
        intros b y Y EQ. assert (Q : a = b) by (apply (UL a b c y); [left; reflexivity|right; exact Y|exact NE|congruence]). specialize (S0 _ _ Y). lia.
      * destruct (AN _ _ X NE) as (y & Y & AS). exists y. split; [right; exact Y|exact AS].
Qed.

(** ** Operands. *)
Lemma name_far_label : forall entries m a d d', name_far_target entries m a d = Ok d' ->
  di_label d' = di_label d /\ di_cur d' = di_cur d /\ di_next d' = di_next d /\ i_mnem (di_instr d') = i_mnem (di_instr d) /\ i_mode (di_instr d') = i_mode (di_instr d) /\
  i_arg2 (di_instr d') = i_arg2 (di_instr d) /\ i_ret (di_instr d') = i_ret (di_instr d) /\ i_suffix (di_instr d') = i_suffix (di_instr d) /\
  (i_arg1 (di_instr d') = i_arg1 (di_instr d) \/
   exists t x ty, far_branch_target (di_instr d) a = Ok (Some t) /\ om_find t m = Some x /\ di_label x <> ""%string /\ i_arg1 (di_instr d') = Some (EId (FullId None (di_label x)) ty) /\
     (i_mode (di_instr d) = A_dir_w /\ ty = T_word \/ i_mode (di_instr d) = A_dir_l /\ ty = T_long)).
Proof.
  intros entries m a d d' H. unfold name_far_target in H. bok H as t E. injection H as <-. destruct t as [t|]; [|repeat split; auto].
  unfold ds_name_for_address. destruct (om_mem t entries); [|repeat split; auto]. destruct (om_find t m) as [x|] eqn:F; [|repeat split; auto].
  destruct (String.eqb_spec (di_label x) ""%string) as [L|L]; [repeat split; auto|].
  destruct (i_mode (di_instr d)) eqn:MD; try (repeat split; auto; fail); cbn; repeat (split; [auto|]); right; eexists t, x, _; repeat (split; [eassumption|]); (split; [reflexivity|]); auto.
Qed.
Lemma name_fars_spec : forall entries m l r, name_far_targets entries m l = Ok r -> map fst r = map fst l /\
  (forall a c, In (a, c) l -> exists c', In (a, c') r /\ name_far_target entries m a c = Ok c') /\
  (forall a c', In (a, c') r -> exists c, In (a, c) l /\ name_far_target entries m a c = Ok c').
Proof.
  intros entries m. induction l as [|[a c] l IH]; intros r H; cbn [name_far_targets] in H.
  { injection H as <-. split; [reflexivity|]. split; intros a c []. }
  bok H as c' E. bok H as r' F. injection H as <-. destruct (IH _ F) as (K & P & Q). split; [cbn; rewrite K; reflexivity|]. split.
  - intros b x [X|X]; [injection X as <- <-; exists c'; split; [left; reflexivity|exact E]|]. destruct (P _ _ X) as (y & Y & N). exists y. split; [right; exact Y|exact N].
  - intros b x [X|X]; [injection X as <- <-; exists c; split; [left; reflexivity|exact E]|]. destruct (Q _ _ X) as (y & Y & N). exists y. split; [right; exact Y|exact N].
Qed.
Lemma keys_sorted : forall A B (m : omap A) (n : omap B), map fst m = map fst n -> sorted_keys n -> sorted_keys m.
Proof.
  intros A B. induction m as [|[a x] m IH]; intros [|[b y] n] K S; try discriminate K; [exact I|]. cbn in K. injection K as -> K. destruct S as [S1 S2]. split; [|apply (IH n); assumption].
  intros j v IN. assert (J : In j (map fst n)) by (rewrite <- K; apply (in_map fst) in IN; exact IN). apply in_map_iff in J. destruct J as ([j' w] & <- & J). apply (S1 _ _ J).
Qed.
Definition operand_ok (m m3 : omap dinstr) (a : Z) (i i3 : instr) : Prop :=
  (forall l h b x, i_arg1 i = Some (ELabel l h) -> In (b, x) m -> di_label x = l -> l <> ""%string ->
     exists x3, In (b, x3) m3 /\ di_label x3 <> ""%string /\ i_arg1 i3 = Some (ELabel (di_label x3) h)) /\
  (is_label (i_arg1 i) = false -> i_arg1 i3 = i_arg1 i \/
     exists t x3 ty, far_branch_target i a = Ok (Some t) /\ In (t, x3) m3 /\ di_label x3 <> ""%string /\ i_arg1 i3 = Some (EId (FullId None (di_label x3)) ty) /\
       (i_mode i = A_dir_w /\ ty = T_word \/ i_mode i = A_dir_l /\ ty = T_long)).
Definition polished (m m3 : omap dinstr) (a : Z) (c c3 : dinstr) : Prop :=
  di_cur c3 = di_cur c /\ di_next c3 = di_next c /\ (di_label c3 = ""%string <-> di_label c = ""%string) /\
  i_mnem (di_instr c3) = i_mnem (di_instr c) /\ i_mode (di_instr c3) = i_mode (di_instr c) /\ i_arg2 (di_instr c3) = i_arg2 (di_instr c) /\
  i_ret (di_instr c3) = i_ret (di_instr c) /\ i_suffix (di_instr c3) = i_suffix (di_instr c) /\ operand_ok m m3 a (di_instr c) (di_instr c3).
Lemma polish : forall entries m rw m1 m3, zlen m < 2 ^ 31 -> sorted_keys m -> unique_labels m ->
  (forall a c, In (a, c) m -> is_label (i_arg1 (di_instr c)) = true -> i_mode (di_instr c) = A_rel8 \/ i_mode (di_instr c) = A_rel16) ->
  rename_labels entries 0 0 [] m = (rw, m1) ->
  let m2 := map (fun kv => (fst kv, rewrite_arg rw (snd kv))) m1 in
  name_far_targets entries m2 m2 = Ok m3 ->
  map fst m3 = map fst m /\ unique_labels m3 /\ (forall a c3, In (a, c3) m3 -> di_label c3 <> ""%string -> numbered 0 0 (zlen m) (di_label c3)) /\
  (forall a c3, In (a, c3) m3 -> exists c, In (a, c) m /\ polished m m3 a c c3).
Proof.
  intros entries m rw m1 m3 LN SO UL REL RN m2 NF.
  destruct (rename_spec entries m 0 0 [] rw m1 ltac:(lia) ltac:(lia) ltac:(lia) SO UL RN) as (K1 & P1 & U1 & _ & A1).
  destruct (name_fars_spec _ _ _ _ NF) as (K3 & P3 & Q3).
  assert (K2 : map fst m2 = map fst m1) by (unfold m2; rewrite map_map; reflexivity).
  assert (LB : forall d, di_label (rewrite_arg rw d) = di_label d /\ di_cur (rewrite_arg rw d) = di_cur d /\ di_next (rewrite_arg rw d) = di_next d /\
    i_mnem (di_instr (rewrite_arg rw d)) = i_mnem (di_instr d) /\ i_mode (di_instr (rewrite_arg rw d)) = i_mode (di_instr d) /\ i_arg2 (di_instr (rewrite_arg rw d)) = i_arg2 (di_instr d) /\ i_ret (di_instr (rewrite_arg rw d)) = i_ret (di_instr d) /\ i_suffix (di_instr (rewrite_arg rw d)) = i_suffix (di_instr d) /\
    i_arg1 (di_instr (rewrite_arg rw d)) = match i_arg1 (di_instr d) with Some (ELabel l h) => Some (ELabel (match assoc_string l rw with Some s => s | None => ""%string end) h) | e => e end).
  { intros d. unfold rewrite_arg. destruct (i_arg1 (di_instr d)) as [[]|] eqn:E; cbn; rewrite ?E; repeat split; auto. }
  (* from the first map to the third *)
  assert (UP : forall a c1, In (a, c1) m1 -> exists c3, In (a, c3) m3 /\ di_label c3 = di_label c1).
  { intros a c1 IN. assert (IN2 : In (a, rewrite_arg rw c1) m2) by (unfold m2; apply (in_map (fun kv => (fst kv, rewrite_arg rw (snd kv)))) in IN; exact IN).
    destruct (P3 _ _ IN2) as (c3 & IN3 & N). exists c3. split; [exact IN3|]. destruct (name_far_label _ _ _ _ _ N) as (L & _). rewrite L. apply LB. }
  assert (DOWN : forall a c3, In (a, c3) m3 -> exists c1, In (a, c1) m1 /\ name_far_target entries m2 a (rewrite_arg rw c1) = Ok c3).
  { intros a c3 IN. destruct (Q3 _ _ IN) as (c2 & IN2 & N). unfold m2 in IN2. apply in_map_iff in IN2. destruct IN2 as ([b c1] & E & IN1). cbn in E. injection E as <- <-. exists c1. auto. }
  split; [rewrite K3, K2, K1; reflexivity|]. split.
  - intros a b c x IC IX NE EQ. destruct (DOWN _ _ IC) as (c1 & IC1 & NC). destruct (DOWN _ _ IX) as (x1 & IX1 & NX).
    destruct (name_far_label _ _ _ _ _ NC) as (LC & _). destruct (name_far_label _ _ _ _ _ NX) as (LX & _). destruct (LB c1) as (LC1 & _). destruct (LB x1) as (LX1 & _).
    apply (U1 a b c1 x1 IC1 IX1); congruence.
  - split.
    { intros a c3 IN NE. destruct (DOWN _ _ IN) as (c1 & IN1 & N). destruct (P1 _ _ IN1) as (c & INC & _ & L1 & L2). destruct (name_far_label _ _ _ _ _ N) as (NL & _). destruct (LB c1) as (BL & _).
      rewrite NL, BL in *. apply L2. intros X. exact (NE (L1 X)). }
    intros a c3 IN. destruct (DOWN _ _ IN) as (c1 & IN1 & N). destruct (P1 _ _ IN1) as (c & INC & (SI & SC & SN) & L1 & L2).
    destruct (name_far_label _ _ _ _ _ N) as (NL & NC & NN & NM & NA & NA2 & NR & NS & NO). destruct (LB c1) as (BL & BC & BN & BM & BA & BA2 & BR & BS & BO).
    exists c. split; [exact INC|]. unfold polished. split; [congruence|]. split; [congruence|].
    split; [rewrite NL, BL; split; [intros X; destruct (String.string_dec (di_label c) ""%string) as [Y|Y]; [exact Y|]; apply L2 in Y; apply numbered_some in Y; destruct (Y X)|exact L1]|].
    split; [congruence|]. split; [congruence|]. split; [congruence|]. split; [congruence|]. split; [congruence|]. split.
    + intros l h b x AR IX LX NE. destruct (A1 _ _ IX ltac:(congruence)) as (x1 & IX1 & AS). rewrite LX in AS. destruct (UP _ _ IX1) as (x3 & IX3 & LX3).
      exists x3. split; [exact IX3|]. assert (X1 : di_label x1 <> ""%string).
      { destruct (P1 _ _ IX1) as (x0 & IX0 & _ & _ & L3). apply (numbered_some 0 0 (0 + 0 + zlen m)). apply L3.
        assert (x0 = x) by (apply (om_in_find _ _ _ _ SO) in IX0; apply (om_in_find _ _ _ _ SO) in IX; congruence). subst x0. congruence. }
      split; [congruence|]. rewrite SI, AR, AS in BO. rewrite LX3. destruct NO as [NO|(t & y & ty & FB & _)]; [congruence|]. exfalso.
      destruct (REL _ _ INC) as [MD|MD]; [rewrite AR; reflexivity| |]; unfold far_branch_target in FB; rewrite BA, SI, MD in FB; cbv zeta in FB; discriminate FB.
    + intros IL. assert (BO' : i_arg1 (di_instr (rewrite_arg rw c1)) = i_arg1 (di_instr c)).
      { rewrite BO, SI. destruct (i_arg1 (di_instr c)) as [[]|]; try reflexivity. discriminate IL. }
      destruct NO as [NO|(t & y & ty & FB & FY & LY & NO & TY)]; [left; congruence|]. right.
      assert (IY : In (t, y) m2) by (apply om_find_in; exact FY). destruct (P3 _ _ IY) as (y3 & IY3 & NY). destruct (name_far_label _ _ _ _ _ NY) as (LY3 & _).
      exists t, y3, ty. split; [|split; [exact IY3|split; [congruence|split; [rewrite LY3; exact NO|rewrite BA, SI in TY; exact TY]]]].
      rewrite <- FB. unfold far_branch_target. rewrite BO', BA, BM, SI. reflexivity.
Qed.

(** ** Folding. *)
Definition adjacent (m : omap dinstr) (a : Z) (c : dinstr) (b : Z) (x : dinstr) : Prop := exists l1 l2, m = l1 ++ (a, c) :: (b, x) :: l2.
Lemma adjacent_cons : forall p m a c b x, adjacent m a c b x -> adjacent (p :: m) a c b x.
Proof. intros p m a c b x (l1 & l2 & ->). exists (p :: l1), l2. reflexivity. Qed.
Definition fuse (c x : dinstr) (pm : mnemonic) : dinstr := DInstr (di_label c) (i_with_mnem pm (di_instr x)) (di_entry c) (di_cur c) (di_next x).
Lemma fold_spec : forall n m, (List.length m <= n)%nat -> sorted_keys m ->
  sorted_keys (fold_pseudo m) /\
  (forall a c', In (a, c') (fold_pseudo m) -> In (a, c') m \/
     exists c b x pm, adjacent m a c b x /\ fused_mnemonic (i_mnem (di_instr c)) (i_mnem (di_instr x)) = Some pm /\ di_label x = ""%string /\ c' = fuse c x pm /\
       forall v, ~ In (b, v) (fold_pseudo m)) /\
  (forall a c, In (a, c) m -> (exists c', In (a, c') (fold_pseudo m) /\ di_label c' = di_label c) \/
     exists p c0 pm, adjacent m p c0 a c /\ fused_mnemonic (i_mnem (di_instr c0)) (i_mnem (di_instr c)) = Some pm /\ di_label c = ""%string /\ In (p, fuse c0 c pm) (fold_pseudo m)).
Proof.
  induction n as [|n IH]; intros m LE SO.
  { destruct m; [|cbn in LE; lia]. cbn. split; [exact I|]. split; intros a c []. }
  destruct m as [|[a c] rest]; [cbn; split; [exact I|]; split; intros a c []|]. destruct SO as [S0 SO]. cbn [List.length] in LE.
  assert (KEEP : fold_pseudo ((a, c) :: rest) = (a, c) :: fold_pseudo rest -> sorted_keys (fold_pseudo ((a, c) :: rest)) /\
    (forall a' c', In (a', c') (fold_pseudo ((a, c) :: rest)) -> In (a', c') ((a, c) :: rest) \/
       exists c0 b x pm, adjacent ((a, c) :: rest) a' c0 b x /\ fused_mnemonic (i_mnem (di_instr c0)) (i_mnem (di_instr x)) = Some pm /\ di_label x = ""%string /\ c' = fuse c0 x pm /\
         forall v, ~ In (b, v) (fold_pseudo ((a, c) :: rest))) /\
    (forall a' c', In (a', c') ((a, c) :: rest) -> (exists c'', In (a', c'') (fold_pseudo ((a, c) :: rest)) /\ di_label c'' = di_label c') \/
       exists p c0 pm, adjacent ((a, c) :: rest) p c0 a' c' /\ fused_mnemonic (i_mnem (di_instr c0)) (i_mnem (di_instr c')) = Some pm /\ di_label c' = ""%string /\ In (p, fuse c0 c' pm) (fold_pseudo ((a, c) :: rest)))).
  { intros ->. destruct (IH rest ltac:(lia) SO) as (F1 & F2 & F3).
    assert (AB : forall j v, In (j, v) (fold_pseudo rest) -> a < j).
    { intros j v X. destruct (F2 _ _ X) as [Y|(c0 & b & x & pm & (l1 & l2 & E) & _)]; [exact (S0 _ _ Y)|]. apply (S0 j c0). rewrite E. apply in_or_app. right. left. reflexivity. }
    split; [split; [exact AB|exact F1]|]. split.
    - intros a' c' [X|X]; [left; left; exact X|]. destruct (F2 _ _ X) as [Y|(c0 & b & x & pm & AD & FM & LX & EQ & NI)]; [left; right; exact Y|].
      right. exists c0, b, x, pm. split; [apply adjacent_cons; exact AD|]. split; [exact FM|]. split; [exact LX|]. split; [exact EQ|]. intros v [Y|Y]; [|exact (NI v Y)].
      injection Y as <- <-. destruct AD as (l1 & l2 & E). assert (Z0 : a < a); [|lia]. apply (S0 a x). rewrite E. apply in_or_app. right. right. left. reflexivity.
    - intros a' c' [X|X]; [left; exists c'; injection X as <- <-; split; [left; reflexivity|reflexivity]|]. destruct (F3 _ _ X) as [(c'' & Y & L)|(p & c0 & pm & AD & FM & LX & Y)].
      + left. exists c''. split; [right; exact Y|exact L].
      + right. exists p, c0, pm. split; [apply adjacent_cons; exact AD|]. split; [exact FM|]. split; [exact LX|right; exact Y]. }
  destruct rest as [|[b x] rest]; [apply KEEP; reflexivity|].
  destruct (fused_mnemonic (i_mnem (di_instr c)) (i_mnem (di_instr x))) as [pm|] eqn:FM; [|apply KEEP; cbn [fold_pseudo]; rewrite FM; reflexivity].
  destruct (String.eqb_spec (di_label x) ""%string) as [LX|LX].
  2: { apply KEEP. cbn [fold_pseudo]. rewrite FM. apply String.eqb_neq in LX. rewrite LX. reflexivity. }
  assert (EQ : fold_pseudo ((a, c) :: (b, x) :: rest) = (a, fuse c x pm) :: fold_pseudo rest) by (cbn [fold_pseudo]; rewrite FM, LX; reflexivity).
  rewrite EQ. clear KEEP EQ. cbn [List.length] in LE. destruct SO as [S1 SO]. destruct (IH rest ltac:(lia) SO) as (F1 & F2 & F3).
  assert (INR : forall j v, In (j, v) (fold_pseudo rest) -> exists w, In (j, w) rest).
  { intros j v X. destruct (F2 _ _ X) as [Y|(c0 & b' & x' & pm' & (l1 & l2 & E) & _)]; [eauto|]. exists c0. rewrite E. apply in_or_app. right. left. reflexivity. }
  assert (AB : a < b) by (apply (S0 b x); left; reflexivity).
  split; [split; [|exact F1]; intros j v X; destruct (INR _ _ X) as (w & W); specialize (S1 _ _ W); lia|]. split.
  - intros a' c' [X|X].
    + injection X as <- <-. right. exists c, b, x, pm. split; [exists [], rest; reflexivity|]. split; [exact FM|]. split; [exact LX|]. split; [reflexivity|].
      intros v [Y|Y]; [injection Y as Y _; lia|]. destruct (INR _ _ Y) as (w & W). specialize (S1 _ _ W). lia.
    + destruct (F2 _ _ X) as [Y|(c0 & b' & x' & pm' & AD & FM' & LX' & EQ & NI)]; [left; right; right; exact Y|]. right. exists c0, b', x', pm'.
      split; [apply adjacent_cons, adjacent_cons; exact AD|]. split; [exact FM'|]. split; [exact LX'|]. split; [exact EQ|]. intros v [Y|Y]; [|exact (NI v Y)].
      injection Y as Y _. destruct AD as (l1 & l2 & E). assert (Z0 : b < b'); [|lia]. apply (S1 b' x'). rewrite E. apply in_or_app. right. right. left. reflexivity.
  - intros a' c' [X|[X|X]].
    + injection X as <- <-. left. exists (fuse c x pm). split; [left; reflexivity|reflexivity].
    + injection X as <- <-. right. exists a, c, pm. split; [exists [], rest; reflexivity|]. split; [exact FM|]. split; [exact LX|left; reflexivity].
    + destruct (F3 _ _ X) as [(c'' & Y & L)|(p & c0 & pm' & AD & FM' & LX' & Y)].
      * left. exists c''. split; [right; exact Y|exact L].
      * right. exists p, c0, pm'. split; [apply adjacent_cons, adjacent_cons; exact AD|]. split; [exact FM'|]. split; [exact LX'|right; exact Y].
Qed.
Lemma fused_pair : forall a b c, fused_mnemonic a b = Some c <-> pair_of a b c.
Proof.
  intros a b c. split.
  - intros H. unfold pair_of. destruct a; try discriminate H; destruct b; try discriminate H; injection H as <-; auto.
  - intros [(-> & -> & ->)|(-> & -> & ->)]; reflexivity.
Qed.
Lemma sorted_between : forall (m : omap dinstr) a c b x, sorted_keys m -> adjacent m a c b x -> forall v, In (a + 1, v) m -> b = a + 1.
Proof.
  intros m a c b x SO (l1 & l2 & ->) v IN. induction l1 as [|[p y] l1 IH].
  - destruct SO as [S0 [S1 _]]. destruct IN as [X|[X|X]]; [injection X as X _; lia|injection X as X _; exact X|].
    specialize (S0 b x (or_introl eq_refl)). specialize (S1 _ _ X). lia.
  - destruct SO as [S0 SO]. destruct IN as [X|X]; [|exact (IH SO X)]. injection X as -> _. assert (a + 1 < a); [|lia]. apply (S0 a c). apply in_or_app. right. left. reflexivity.
Qed.

(** ** Bytes. *)
Lemma bytes_cong : forall adr ctx i i', i_mnem i = i_mnem i' -> i_mode i = i_mode i' -> eval_opt ctx (i_arg1 i) = eval_opt ctx (i_arg1 i') -> eval_opt ctx (i_arg2 i) = eval_opt ctx (i_arg2 i') ->
  instr_bytes adr ctx i = instr_bytes adr ctx i'.
Proof. intros adr ctx i i' M A E1 E2. rewrite !instr_bytes_eq, M, A. unfold operand_list. rewrite E1, E2. reflexivity. Qed.
Lemma bytes_low : forall adr ctx i i' v w, i_mnem i = i_mnem i' -> i_mode i = i_mode i' -> (i_mode i = A_dir_w \/ i_mode i = A_dir_l) ->
  eval_opt ctx (i_arg1 i) = Ok v -> eval_opt ctx (i_arg1 i') = Ok w -> v mod 65536 = w mod 65536 -> (i_mode i = A_dir_l -> v mod 2 ^ 24 = w mod 2 ^ 24) ->
  instr_bytes adr ctx i = instr_bytes adr ctx i'.
Proof.
  intros adr ctx i i' v w M A MD E1 E2 LO HI. rewrite !instr_bytes_eq, <- M, <- A. unfold operand_list. rewrite E1, E2.
  assert (L1 : v mod 256 = w mod 256) by (Z.div_mod_to_equations; lia). assert (L2 : v / 256 mod 256 = w / 256 mod 256) by (Z.div_mod_to_equations; lia).
  destruct MD as [MD|MD]; rewrite MD in *; cbn [bind]; [rewrite L1, L2; reflexivity|].
  specialize (HI eq_refl). assert (L3 : v / 65536 mod 256 = w / 65536 mod 256) by (change (2 ^ 24) with 16777216 in HI; Z.div_mod_to_equations; lia). rewrite L1, L2, L3. reflexivity.
Qed.
Lemma bytes_prefix : forall adr ctx i pm b l, (i_mnem i = M_adc /\ pm = PM_add /\ b = 0x18) \/ (i_mnem i = M_sbc /\ pm = PM_sub /\ b = 0x38) ->
  instr_bytes adr ctx i = Ok l -> instr_bytes adr ctx (i_with_mnem pm i) = Ok (b :: l).
Proof.
  intros adr ctx i pm b l P H. rewrite instr_bytes_eq in H |- *. unfold i_with_mnem. cbn [i_mnem i_mode i_arg1 i_arg2].
  destruct P as [(M & -> & ->)|(M & -> & ->)]; rewrite M in H; cbn [hardware_mnemonic pseudo_prefix] in *;
    (destruct (encode_opcode _ _) as [o|]; [|discriminate H]); bok H as l0 E; rewrite E; cbn [bind app] in *; injection H as <-; reflexivity.
Qed.
Lemma plain_ops : forall op, 0 <= op < 256 -> (fst (decode_opcode op) = M_clc -> op = 0x18) /\ (fst (decode_opcode op) = M_sec -> op = 0x38) /\
  (is_relative op = true -> ~ relative_branch (fst (decode_opcode op)) -> fst (decode_opcode op) = M_per) /\
  (fst (decode_opcode op) = M_adc \/ fst (decode_opcode op) = M_sbc -> is_relative op = false /\ jump_kind op = None).
Proof.
  Local Transparent decode_opcode op_form. intros op R.
  assert (T : forallb (fun op => (negb (mnem_eqb (fst (decode_opcode op)) M_clc) || (op =? 0x18)) && (negb (mnem_eqb (fst (decode_opcode op)) M_sec) || (op =? 0x38)) &&
    (negb (is_relative op) || existsb (mnem_eqb (fst (decode_opcode op))) [M_bcc; M_bcs; M_beq; M_bmi; M_bne; M_bpl; M_bra; M_brl; M_bvc; M_bvs] || mnem_eqb (fst (decode_opcode op)) M_per) &&
    (negb (mnem_eqb (fst (decode_opcode op)) M_adc || mnem_eqb (fst (decode_opcode op)) M_sbc) || (negb (is_relative op) && match jump_kind op with None => true | _ => false end))) all_opcodes = true) by (vm_compute; reflexivity).
  Local Opaque decode_opcode op_form. pose proof (forall_opcodes _ T op R) as Q. cbv beta in Q. clear T.
  apply andb_true_iff in Q. destruct Q as [Q Q4]. apply andb_true_iff in Q. destruct Q as [Q Q3]. apply andb_true_iff in Q. destruct Q as [Q1 Q2]. split; [|split; [|split]].
  - intros E. rewrite E in Q1. cbn in Q1. lia.
  - intros E. rewrite E in Q2. cbn in Q2. lia.
  - intros RL NB. rewrite RL in Q3. cbn [negb orb] in Q3. apply orb_true_iff in Q3. destruct Q3 as [Q3|Q3]; [|apply mnem_eqb_eq; exact Q3].
    exfalso. apply NB. apply existsb_exists in Q3. destruct Q3 as (y & IN & E). apply mnem_eqb_eq in E. rewrite E. exact IN.
  - intros E. assert (X : mnem_eqb (fst (decode_opcode op)) M_adc || mnem_eqb (fst (decode_opcode op)) M_sbc = true) by (apply orb_true_iff; destruct E as [E|E]; rewrite E; auto).
    rewrite X in Q4. cbn [negb orb] in Q4. apply andb_true_iff in Q4. destruct Q4 as [Q4 Q5]. apply negb_true_iff in Q4. split; [exact Q4|]. destruct (jump_kind op); [discriminate Q5|reflexivity].
Qed.
Lemma decoded_literal : forall op rest f j, 0 <= op < 256 -> decode (op :: rest) f = Ok j -> (i_arg1 j = None \/ exists v t, i_arg1 j = Some (ELit v t)) /\ (i_arg2 j = None \/ exists v t, i_arg2 j = Some (ELit v t)).
Proof.
  intros op rest f j R H. destruct (decode_mode_of op rest f j R H) as (_ & D & _). unfold decode_operands in D.
  destruct (i_mode j); destruct rest as [|b0 [|b1 [|b2 r]]]; try discriminate D; injection D as <- <-; unfold mk_lit; split; eauto.
Qed.
Lemma sorted_bound : forall (m : omap dinstr) lo hi, lo <= hi -> sorted_keys m -> (forall a c, In (a, c) m -> lo <= a < hi) -> zlen m <= hi - lo.
Proof.
  induction m as [|[a c] m IH]; intros lo hi LE SO B; [unfold zlen; cbn; lia|]. destruct SO as [S0 SO].
  assert (A : lo <= a < hi) by (apply (B a c); left; reflexivity).
  assert (X : zlen m <= hi - (a + 1)). { apply IH; [lia|exact SO|]. intros b x IN. specialize (S0 _ _ IN). specialize (B b x (or_intror IN)). lia. }
  unfold zlen in *. cbn [List.length]. lia.
Qed.

(** ** Cleanup of a session. *)
Lemma session_maps : forall src rets q d, conventions_ok rets -> byte_source src -> session src rets q d -> ds_sym d < 2 ^ 31 ->
  sorted_keys (ds_map d) /\ unique_labels (ds_map d) /\ zlen (ds_map d) < 2 ^ 31 /\
  (forall a c, In (a, c) (ds_map d) -> is_label (i_arg1 (di_instr c)) = true -> i_mode (di_instr c) = A_rel8 \/ i_mode (di_instr c) = A_rel16) /\
  (forall a c, In (a, c) (ds_map d) -> exists t, far_branch_target (di_instr c) a = Ok t).
Proof.
  intros src rets q d CO BS S SY. pose proof (session_good _ _ _ _ CO S) as G. pose proof (good_sorted _ _ _ _ G) as SO. split; [exact SO|]. split; [|split; [|split]].
  - intros a b c x IC IX NE EQ. apply (om_in_find _ _ _ _ SO) in IC, IX. destruct (labels _ _ _ _ CO S) as [_ U]. exact (U SY a b c x IC IX NE EQ).
  - assert (X : zlen (ds_map d) <= 2 ^ 24 - 0); [|lia]. apply sorted_bound; [lia|exact SO|]. intros a c IN. apply (om_in_find _ _ _ _ SO) in IN. destruct (good_entry _ _ _ _ G _ _ IN) as [A _]. exact A.
  - intros a c IN IL. apply (om_in_find _ _ _ _ SO) in IN. destruct (good_entry _ _ _ _ G _ _ IN) as [A EN].
    destruct (entry_open _ _ _ _ _ BS A EN) as (op & rest & j & v & RD & B & R & DE & FA & RE & LO & SC & _). destruct SC as (M & MD & _ & A1). rewrite MD.
    destruct (is_local_branch j) eqn:LB; [unfold is_local_branch in LB; apply andb_true_iff in LB; destruct LB as [LB _]; destruct (i_mode j); try discriminate LB; auto|].
    rewrite A1 in IL. destruct (decoded_literal _ _ _ _ R DE) as [[X|(v0 & t & X)] _]; rewrite X in IL; discriminate IL.
  - intros a c IN. apply (om_in_find _ _ _ _ SO) in IN. destruct (good_entry _ _ _ _ G _ _ IN) as [A EN].
    destruct (entry_open _ _ _ _ _ BS A EN) as (op & rest & j & v & RD & B & R & DE & FA & RE & LO & SC & _). rewrite (same_far _ _ _ _ SC). eauto.
Qed.
Lemma cleanup_total : forall src rets q d, conventions_ok rets -> byte_source src -> session src rets q d -> ds_sym d < 2 ^ 31 -> exists d', cleanup d = Ok d'.
Proof.
  intros src rets q d CO BS S SY. destruct (session_maps _ _ _ _ CO BS S SY) as (SO & UL & LN & REL & FAR). unfold cleanup.
  destruct (rename_labels (ds_entries d) 0 0 [] (ds_map d)) as [rw m1] eqn:RN. destruct (rename_spec (ds_entries d) (ds_map d) 0 0 [] rw m1 ltac:(lia) ltac:(lia) ltac:(lia) SO UL RN) as (_ & P1 & _).
  set (m2 := map (fun kv => (fst kv, rewrite_arg rw (snd kv))) m1).
  assert (X : forall l, (forall a c, In (a, c) l -> exists c1, In (a, c1) m1 /\ c = rewrite_arg rw c1) -> exists r, name_far_targets (ds_entries d) m2 l = Ok r).
  { induction l as [|[a c] l IH]; intros H; cbn [name_far_targets]; [eauto|]. destruct (H a c (or_introl eq_refl)) as (c1 & IN1 & ->). destruct (P1 _ _ IN1) as (c0 & IN0 & (SI & _) & _).
    destruct (FAR _ _ IN0) as (t & FT). unfold name_far_target at 1. assert (E : far_branch_target (di_instr (rewrite_arg rw c1)) a = Ok t).
    { rewrite <- FT, <- SI. unfold rewrite_arg. destruct (i_arg1 (di_instr c1)) as [[]|] eqn:AR; cbn [is_label]; try reflexivity. unfold far_branch_target, di_with_instr, i_with_arg1. cbn [di_instr i_arg1 i_mode i_mnem apply_label]. rewrite AR. reflexivity. }
    rewrite E. cbn [bind]. destruct (IH ltac:(intros b x IN; apply H; right; exact IN)) as (r & ->). cbn [bind]. eauto. }
  destruct (X m2) as (r & E). { intros a c IN. unfold m2 in IN. apply in_map_iff in IN. destruct IN as ([b c1] & Q & IN). injection Q as <- <-. eauto. }
  rewrite E. cbn [bind]. eauto.
Qed.
Lemma cleanup_open : forall src rets q d d', conventions_ok rets -> byte_source src -> session src rets q d -> ds_sym d < 2 ^ 31 -> cleanup d = Ok d' ->
  exists m3, ds_map d' = fold_pseudo m3 /\ map fst m3 = map fst (ds_map d) /\ unique_labels m3 /\ (forall a c3, In (a, c3) m3 -> di_label c3 <> ""%string -> numbered 0 0 (zlen (ds_map d)) (di_label c3)) /\ (forall a c3, In (a, c3) m3 -> exists c, In (a, c) (ds_map d) /\ polished (ds_map d) m3 a c c3).
Proof.
  intros src rets q d d' CO BS S SY H. destruct (session_maps _ _ _ _ CO BS S SY) as (SO & UL & LN & REL & _). unfold cleanup in H.
  destruct (rename_labels (ds_entries d) 0 0 [] (ds_map d)) as [rw m1] eqn:RN. bok H as m3 NF. injection H as <-. exists m3. split; [reflexivity|].
  exact (polish _ _ _ _ _ LN SO UL REL RN NF).
Qed.

(** ** What folding does. *)
Lemma key_in : forall A B (m : omap A) (n : omap B) a x, map fst m = map fst n -> In (a, x) n -> exists y, In (a, y) m.
Proof. intros A B m n a x K IN. apply (in_map fst) in IN. rewrite <- K in IN. apply in_map_iff in IN. destruct IN as ([b y] & E & IN). cbn in E. subst b. eauto. Qed.
Lemma next_byte : forall pc, addr24 pc -> offset_of pc <> 2 ^ 16 - 1 -> same_bank_plus pc 1 = pc + 1.
Proof. intros pc A N. unfold same_bank_plus, offset_of, bank_of, addr24 in *. change (2 ^ 16) with 65536 in *. Z.div_mod_to_equations. lia. Qed.
Lemma carry_next : forall src rets q d pc c, conventions_ok rets -> byte_source src -> session src rets q d -> collected d pc c ->
  i_mnem (di_instr c) = M_clc \/ i_mnem (di_instr c) = M_sec -> exists x rest, collected d (same_bank_plus pc 1) x /\ src pc 4 = Ok ((if mnem_eqb (i_mnem (di_instr c)) M_clc then 0x18 else 0x38) :: rest).
Proof.
  intros src rets q d pc c CO BS S K M. pose proof (session_good _ _ _ _ CO S) as G.
  destruct (good_entry _ _ _ _ G _ _ K) as [A EN]. destruct (entry_open _ _ _ _ _ BS A EN) as (op & rest & j & v & RD & B & R & DE & FA & RE & LO & SC & _).
  destruct (decode_mode_of op rest _ j R DE) as (MJ & _). destruct SC as (MM & _). destruct (plain_ops op R) as (P1 & P2 & _). rewrite <- MJ, <- MM in P1, P2.
  destruct (closed _ _ _ _ _ _ CO BS S K) as (op' & rest' & j' & n & RD' & DE' & KL & FT & _). rewrite RD in RD'. injection RD' as <- <-.
  assert (RET : i_ret (di_instr c) = RC_default).
  { rewrite RE. unfold convention. destruct (direct_target pc op rest) as [t|] eqn:DT; [|reflexivity]. pose proof (far_kind _ _ _ FA) as FK. rewrite <- MM in FK. cbn [In] in FK.
    destruct M as [M|M]; rewrite M in FK; repeat destruct FK as [FK|FK]; try discriminate FK; contradiction. }
  assert (NS : ~ stops (di_instr c)).
  { intros [X|X]; [|rewrite RET in X; discriminate X]. cbn [In] in X. destruct M as [M|M]; rewrite M in X; repeat destruct X as [X|X]; try discriminate X; contradiction. }
  destruct (FT NS) as (x & KX & _). assert (N : n = 1 /\ op = if mnem_eqb (i_mnem (di_instr c)) M_clc then 0x18 else 0x38).
  { Local Transparent op_form. destruct M as [M|M]; [rewrite (P1 M) in KL|rewrite (P2 M) in KL]; vm_compute in KL; injection KL as <-; (split; [reflexivity|]); rewrite M; [exact (P1 M)|exact (P2 M)]. Local Opaque op_form. }
  destruct N as [-> OP]. exists x, rest. split; [exact KX|]. rewrite <- OP. exact RD.
Qed.
Lemma folds : forall src rets q d d', conventions_ok rets -> byte_source src -> session src rets q d -> ds_sym d < 2 ^ 31 -> within_banks d' -> cleanup d = Ok d' ->
  (forall pc c', collected d' pc c' ->
    (exists c, collected d pc c /\ i_mnem (di_instr c') = i_mnem (di_instr c) /\ i_mode (di_instr c') = i_mode (di_instr c) /\ di_cur c' = di_cur c /\ di_next c' = di_next c) \/
    (exists c x, collected d pc c /\ collected d (same_bank_plus pc 1) x /\ di_label x = ""%string /\ pair_of (i_mnem (di_instr c)) (i_mnem (di_instr x)) (i_mnem (di_instr c')) /\
       i_mode (di_instr c') = i_mode (di_instr x) /\ di_cur c' = di_cur c /\ di_next c' = di_next x /\ forall v, ~ collected d' (same_bank_plus pc 1) v)) /\
  (forall pc c, collected d pc c ->
    (exists c', collected d' pc c' /\ (di_label c' = ""%string <-> di_label c = ""%string)) \/
    (exists p c0 c', same_bank_plus p 1 = pc /\ collected d p c0 /\ collected d' p c' /\ pair_of (i_mnem (di_instr c0)) (i_mnem (di_instr c)) (i_mnem (di_instr c')) /\ di_label c = ""%string)).
Proof.
  intros src rets q d d' CO BS S SY WB CL. destruct (cleanup_open _ _ _ _ _ CO BS S SY CL) as (m3 & E & K & U & NB & P). destruct (session_maps _ _ _ _ CO BS S SY) as (SO & _).
  pose proof (keys_sorted _ _ _ _ K SO) as SO3. destruct (fold_spec (List.length m3) m3 ltac:(lia) SO3) as (F1 & F2 & F3).
  assert (FIND : forall a c, In (a, c) (ds_map d) -> collected d a c) by (intros a c IN; apply om_in_find; assumption).
  assert (FIND' : forall a c, In (a, c) (fold_pseudo m3) -> collected d' a c) by (intros a c IN; unfold collected; rewrite E; apply om_in_find; assumption).
  assert (ADJ : forall a c b x pm, adjacent m3 a c b x -> fused_mnemonic (i_mnem (di_instr c)) (i_mnem (di_instr x)) = Some pm -> In (a, fuse c x pm) (fold_pseudo m3) -> b = same_bank_plus a 1).
  { intros a c b x pm AD FM INF. assert (INa : In (a, c) m3) by (destruct AD as (l1 & l2 & ->); apply in_or_app; right; left; reflexivity).
    destruct (P _ _ INa) as (c0 & IN0 & PO). apply FIND in IN0. destruct PO as (_ & _ & _ & PM & _). apply fused_pair in FM.
    assert (MM : i_mnem (di_instr c0) = M_clc \/ i_mnem (di_instr c0) = M_sec) by (rewrite <- PM; destruct FM as [(X & _)|(X & _)]; auto).
    destruct (carry_next _ _ _ _ _ _ CO BS S IN0 MM) as (x' & _ & KX & _). assert (NO : offset_of a <> 2 ^ 16 - 1) by (apply (WB _ _ (FIND' _ _ INF)); cbn [fuse di_instr i_with_mnem i_mnem]; destruct FM as [(_ & _ & X)|(_ & _ & X)]; auto).
    destruct (good_entry _ _ _ _ (session_good _ _ _ _ CO S) _ _ IN0) as [A _]. rewrite (next_byte a A NO) in *.
    apply om_find_in in KX. destruct (key_in _ _ m3 _ _ _ K KX) as (y & Y). exact (sorted_between m3 a c b x SO3 AD y Y). }
  split.
  - intros pc c' KC. unfold collected in KC. rewrite E in KC. apply om_find_in in KC. destruct (F2 _ _ KC) as [IN|(c3 & b & x3 & pm & AD & FM & LX & -> & NI)].
    + left. destruct (P _ _ IN) as (c & INC & (P1 & P2 & _ & P4 & P5 & _)). exists c. auto.
    + right. pose proof (ADJ _ _ _ _ _ AD FM KC) as BE. subst b. destruct AD as (l1 & l2 & EQ).
      destruct (P pc c3) as (c & INC & PC); [rewrite EQ; apply in_or_app; right; left; reflexivity|].
      destruct (P (same_bank_plus pc 1) x3) as (x & INX & PX); [rewrite EQ; apply in_or_app; right; right; left; reflexivity|].
      destruct PC as (C1 & C2 & C3 & C4 & C5 & _). destruct PX as (X1 & X2 & X3 & X4 & X5 & _). exists c, x. split; [auto|]. split; [auto|]. split; [apply X3; exact LX|].
      split; [apply fused_pair; rewrite <- C4, <- X4; exact FM|]. split; [exact X5|]. split; [exact C1|]. split; [exact X2|].
      intros v KV. unfold collected in KV. rewrite E in KV. apply om_find_in in KV. exact (NI v KV).
  - intros pc c KC. apply om_find_in in KC. destruct (key_in _ _ m3 _ _ _ K KC) as (c3 & IN3). destruct (P _ _ IN3) as (c1 & IN1 & PC).
    assert (c1 = c) by (apply FIND in IN1, KC; unfold collected in *; congruence). subst c1. destruct PC as (C1 & C2 & C3 & C4 & C5 & _).
    destruct (F3 _ _ IN3) as [(c' & IN' & L)|(p & c0 & pm & AD & FM & LX & INP)].
    + left. exists c'. split; [auto|]. rewrite L. exact C3.
    + right. pose proof (ADJ _ _ _ _ _ AD FM INP) as EQ. destruct AD as (l1 & l2 & EQ3). destruct (P p c0) as (cp & INp & PP); [rewrite EQ3; apply in_or_app; right; left; reflexivity|].
      destruct PP as (_ & _ & _ & PM & _). exists p, cp, (fuse c0 c3 pm). split; [symmetry; exact EQ|]. split; [auto|]. split; [auto|].
      split; [apply fused_pair; cbn [fuse di_instr i_with_mnem i_mnem]; rewrite <- PM, <- C4; exact FM|apply C3; exact LX].
Qed.

(** ** What the listing assembles to. *)
Lemma far_value : forall j pc t ctx, (i_arg1 j = None \/ exists v t, i_arg1 j = Some (ELit v t)) -> far_branch_target j pc = Ok (Some t) -> exists v,
  eval_opt ctx (i_arg1 j) = Ok v /\ (i_mode j = A_dir_w \/ i_mode j = A_dir_l) /\ t mod 65536 = v mod 65536 /\ (i_mode j = A_dir_l -> t mod 2 ^ 24 = v mod 2 ^ 24).
Proof.
  intros j pc t ctx LI H. unfold far_branch_target in H. cbv zeta in H.
  assert (X : exists v, eval_opt null_ctx (i_arg1 j) = Ok v /\ ((i_mode j = A_dir_w /\ t = mk_address2 (addr_bank pc) v) \/ (i_mode j = A_dir_l /\ mk_address v = Ok t))).
  { destruct (i_mode j); try discriminate H; destruct (i_mnem j); try discriminate H; destruct (eval_opt null_ctx (i_arg1 j)) as [v| | |]; try discriminate H; exists v;
      (split; [reflexivity|]); (left; cbn [bind] in H; injection H as <-; auto; fail) || (right; split; [reflexivity|]; destruct (mk_address v); cbn [bind] in H; try discriminate H; injection H as ->; reflexivity). }
  destruct X as (v & EV & X). exists v. split.
  - destruct LI as [L|(w & ty & L)]; rewrite L in *; [discriminate EV|exact EV].
  - destruct X as [(MD & ->)|(MD & MA)]; rewrite MD; (split; [auto|]).
    + split; [|discriminate]. unfold mk_address2, to_uint8, to_uint16. rewrite Z.shiftl_mul_pow2 by lia. change 65536 with (2 ^ 16). rewrite (lor_disjoint 16) by (try lia; apply Z.mod_pos_bound; lia).
      rewrite Z.add_comm, Z.mod_add by lia. rewrite Z.mod_mod by lia. reflexivity.
    + unfold mk_address, to_uint32 in MA. cbv zeta in MA. destruct (_ <=? _) in MA; [|discriminate MA]. injection MA as <-. change (2 ^ 24) with 16777216.
      split; [|intros _]; Z.div_mod_to_equations; lia.
Qed.
Lemma take_holds : forall src pc n l, src pc 4 = Ok l -> holds src pc (firstn n l).
Proof. intros src pc n l H. apply ho_read with (r := skipn n l). rewrite firstn_skipn. exact H. Qed.
Lemma plain_size : forall j, i_mnem j <> PM_add -> i_mnem j <> PM_sub -> instr_size j = instruction_length (i_mode j).
Proof. intros j A B. unfold instr_size. destruct (i_mnem j); try lia; contradiction. Qed.
Lemma listing : forall src rets q d d' ctx pc c, conventions_ok rets -> byte_source src -> session src rets q d -> ds_sym d < 2 ^ 31 -> within_banks d' -> cleanup d = Ok d' ->
  knows ctx d' -> collected d' pc c -> i_mnem (di_instr c) <> M_per ->
  exists l, instr_bytes pc ctx (as_read (di_instr c)) = Ok l /\ holds src pc l.
Proof.
  intros src rets q d d' ctx pc c' CO BS S SY WB CL KN KC NP. destruct (cleanup_open _ _ _ _ _ CO BS S SY CL) as (m3 & E & K & U & NB & P). destruct (session_maps _ _ _ _ CO BS S SY) as (SO & UL & _).
  pose proof (keys_sorted _ _ _ _ K SO) as SO3. destruct (fold_spec (List.length m3) m3 ltac:(lia) SO3) as (F1 & F2 & F3).
  destruct (folds _ _ _ _ _ CO BS S SY WB CL) as [FO _]. pose proof (session_good _ _ _ _ CO S) as G.
  assert (FIND : forall a c, In (a, c) (ds_map d) -> collected d a c) by (intros a c IN; apply om_in_find; assumption).
  assert (NAME : forall a x3, In (a, x3) m3 -> di_label x3 <> ""%string -> ctx (FullId None (di_label x3)) = Ok a).
  { intros a x3 IN NE. destruct (F3 _ _ IN) as [(x' & IN' & L)|(p & c0 & pm & AD & FM & LX & _)]; [|destruct (NE LX)]. rewrite <- L. apply KN; [|congruence]. unfold collected. rewrite E. apply om_in_find; assumption. }
  (* one instruction *)
  assert (ONE : forall a c3, In (a, c3) m3 -> i_mnem (di_instr c3) <> M_per -> exists op rest j c, collected d a c /\ 0 <= op < 256 /\ src a 4 = Ok (op :: rest) /\ bytes_ok (op :: rest) /\ decode (op :: rest) (es_flags (di_cur c)) = Ok j /\
     i_mnem (di_instr c3) = i_mnem j /\ i_mode (di_instr c3) = i_mode j /\
     instr_bytes a ctx (as_read (di_instr c3)) = Ok (firstn (Z.to_nat (instr_size j)) (op :: rest)) /\ (i_mnem j = M_adc \/ i_mnem j = M_sbc -> is_label (i_arg1 (di_instr c3)) = false /\ forall adr, instr_bytes adr ctx (di_instr c3) = Ok (firstn (Z.to_nat (instr_size j)) (op :: rest)))).
  { intros a c3 IN NP3. destruct (P _ _ IN) as (c & INC & (P1 & P2 & P3 & P4 & P5 & P6 & P7 & PS & PL & PN)). apply FIND in INC.
    destruct (good_entry _ _ _ _ G _ _ INC) as [A EN]. destruct (entry_open _ _ _ _ _ BS A EN) as (op & rest & j & v & RD & B & R & DE & FA & RE & LO & SC & _).
    pose proof SC as (M & MD & A2 & A1). exists op, rest, j, c. split; [exact INC|]. split; [exact R|]. split; [exact RD|]. split; [exact B|]. split; [exact DE|].
    split; [congruence|]. split; [congruence|]. destruct (decoded_literal _ _ _ _ R DE) as [L1 L2]. destruct (decode_mode_of op rest _ j R DE) as (MJ & _).
    destruct (plain_ops op R) as (_ & _ & PER & ADC). rewrite <- MJ in PER, ADC.
    assert (E2 : eval_opt ctx (i_arg2 (di_instr c3)) = eval_opt ctx (i_arg2 j)) by (rewrite P6, A2; reflexivity).
    destruct (is_local_branch j) eqn:LB.
    - pose proof (proj1 (decode_local op rest _ j R DE) LB) as RB.
      destruct (closed _ _ _ _ _ _ CO BS S INC) as (op' & rest' & j' & n & RD' & DE' & KL & _ & CB & _). rewrite RD in RD'. injection RD' as <- <-. rewrite DE in DE'. injection DE' as <-.
      destruct (CB RB) as (t & x & BD & KX & LX & SH & _). destruct SH as (_ & _ & _ & SH & _). destruct (SH RB) as (e & _ & AE).
      apply om_find_in in KX. destruct (PL _ _ _ _ AE KX eq_refl LX) as (x3 & IX3 & LX3 & AX3).
      assert (NPA : i_mnem j <> PM_add /\ i_mnem j <> PM_sub) by (rewrite MJ; apply decode_not_pseudo; exact R).
      assert (SZ : instr_size j = n) by (destruct (decode_mode_of op rest _ j R DE) as (_ & _ & _ & _ & KL'); rewrite KL in KL'; injection KL' as ->; apply plain_size; apply NPA).
      split.
      + rewrite <- (decode_assemble_relative op rest _ j B DE a ctx t A); [|rewrite SZ; exact BD]. unfold as_read, with_target. rewrite AX3. apply bytes_cong; cbn [i_mnem i_mode i_arg1 i_arg2]; [congruence|congruence| |exact E2].
        cbn [eval_opt eval]. apply NAME; assumption.
      + intros MA. exfalso. destruct MA as [MA|MA]; rewrite MA in RB; cbn in RB; repeat destruct RB as [RB|RB]; try discriminate RB; contradiction.
    - assert (NRB : ~ relative_branch (i_mnem j)) by (intros X; apply (decode_local op rest _ j R DE) in X; congruence).
      assert (RL : is_relative op = false) by (destruct (is_relative op) eqn:X; [|reflexivity]; destruct NP3; rewrite P4, M; apply PER; auto).
      assert (IL : is_label (i_arg1 (di_instr c)) = false) by (rewrite A1; destruct L1 as [X|(w & ty & X)]; rewrite X; reflexivity).
      pose proof (decode_assemble_plain op rest _ j B DE RL) as PL'.
      destruct (PN IL) as [AE|(t & x3 & ty & FT & IX3 & LX3 & AE & TY)].
      + assert (AR : as_read (di_instr c3) = di_instr c3).
        { unfold as_read. rewrite AE, A1. destruct L1 as [X|(w & ty & X)]; rewrite X; rewrite A1, X in AE; rewrite <- AE; destruct (di_instr c3); reflexivity. }
        assert (ALL : forall adr, instr_bytes adr ctx (di_instr c3) = Ok (firstn (Z.to_nat (instr_size j)) (op :: rest))).
        { intros adr. rewrite <- (PL' adr ctx). apply bytes_cong; [congruence|congruence|rewrite AE, A1; reflexivity|exact E2]. }
        split; [rewrite AR; apply ALL|]. intros _. split; [rewrite AE; exact IL|exact ALL].
      + rewrite (same_far _ _ _ _ SC) in FT. destruct (far_value j a t ctx L1 FT) as (w & EV & MDJ & LO' & HI').
        split.
        * rewrite <- (PL' a ctx). unfold as_read. rewrite AE. eapply bytes_low with (v := t) (w := w); cbn [i_mnem i_mode i_arg1 i_arg2]; [congruence|congruence|rewrite P5, MD; exact MDJ| |exact EV|exact LO'|rewrite P5, MD; exact HI'].
          cbn [eval_opt eval]. apply NAME; assumption.
        * intros MA. exfalso. apply far_kind in FT. cbn [In] in FT. destruct MA as [MA|MA]; rewrite MA in FT; repeat destruct FT as [FT|FT]; try discriminate FT; contradiction. }
  unfold collected in KC. rewrite E in KC. pose proof (om_find_in _ _ _ _ KC) as IN0. destruct (F2 _ _ IN0) as [IN|(c3 & b & x3 & pm & AD & FM & LX & -> & NI)].
  - destruct (ONE _ _ IN NP) as (op & rest & j & c & _ & _ & RD & _ & _ & _ & _ & IB & _). exists (firstn (Z.to_nat (instr_size j)) (op :: rest)). split; [exact IB|]. apply take_holds. exact RD.
  - apply fused_pair in FM. assert (IC : In (pc, c3) m3) by (destruct AD as (l1 & l2 & ->); apply in_or_app; right; left; reflexivity).
    assert (IX : In (b, x3) m3) by (destruct AD as (l1 & l2 & ->); apply in_or_app; right; right; left; reflexivity).
    destruct (P _ _ IC) as (c & INC & (_ & _ & _ & P4 & _)). apply FIND in INC.
    assert (MM : i_mnem (di_instr c) = M_clc \/ i_mnem (di_instr c) = M_sec) by (rewrite <- P4; destruct FM as [(X & _)|(X & _)]; auto).
    destruct (carry_next _ _ _ _ _ _ CO BS S INC MM) as (y & rest & KY & RD).
    assert (BE : b = same_bank_plus pc 1).
    { destruct (good_entry _ _ _ _ G _ _ INC) as [A _]. assert (NO : offset_of pc <> 2 ^ 16 - 1) by (apply (WB pc (fuse c3 x3 pm)); [unfold collected; rewrite E; apply om_in_find; assumption|cbn [fuse di_instr i_with_mnem i_mnem]; destruct FM as [(_ & _ & X)|(_ & _ & X)]; auto]).
      rewrite (next_byte pc A NO) in *. apply om_find_in in KY. destruct (key_in _ _ m3 _ _ _ K KY) as (z & Z0). exact (sorted_between m3 pc c3 b x3 SO3 AD z Z0). }
    assert (NX : i_mnem (di_instr x3) <> M_per) by (intros X; rewrite X in FM; destruct FM as [(_ & Y & _)|(_ & Y & _)]; discriminate Y).
    destruct (ONE _ _ IX NX) as (op & rest' & j & cx & _ & _ & RDX & _ & _ & MX & _ & _ & ADC).
    destruct ADC as [IL ALL]; [rewrite <- MX; destruct FM as [(_ & Y & _)|(_ & Y & _)]; auto|].
    set (b0 := if mnem_eqb (i_mnem (di_instr c)) M_clc then 0x18 else 0x38) in *.
    exists (b0 :: firstn (Z.to_nat (instr_size j)) (op :: rest')). split.
    + assert (AR : as_read (di_instr (fuse c3 x3 pm)) = i_with_mnem pm (di_instr x3)).
      { unfold as_read, fuse, i_with_mnem. cbn [di_instr i_mnem i_suffix i_mode i_arg1 i_arg2 i_ret]. destruct (i_arg1 (di_instr x3)) as [[]|]; try reflexivity. discriminate IL. }
      rewrite AR. apply bytes_prefix; [|apply ALL]. unfold b0. rewrite <- P4. destruct FM as [(X & Y & Z0)|(X & Y & Z0)]; rewrite X, Y, Z0; [left|right]; repeat split.
    + apply ho_next; [change [b0] with (firstn 1 (b0 :: rest)); apply take_holds; exact RD|]. rewrite <- BE. apply take_holds. exact RDX.
Qed.

(** The cleaned listing names every address at most once. *)
Definition names_of (d : disassembler) : lookup_ctx := fun id =>
  match id with
  | FullId None n => match find (fun kv => String.eqb (di_label (snd kv)) n) (ds_map d) with Some (a, _) => Ok a | None => Err E_null_lookup end
  | _ => Err E_null_lookup
  end.
Lemma clean_labels : forall src rets q d d', conventions_ok rets -> byte_source src -> session src rets q d -> ds_sym d < 2 ^ 31 -> cleanup d = Ok d' ->
  forall a b c x, collected d' a c -> collected d' b x -> di_label c <> ""%string -> di_label c = di_label x -> a = b.
Proof.
  intros src rets q d d' CO BS S SY CL a b c x KA KB NE L. destruct (cleanup_open _ _ _ _ _ CO BS S SY CL) as (m3 & E & K & U & NB & P). destruct (session_maps _ _ _ _ CO BS S SY) as (SO & _).
  pose proof (keys_sorted _ _ _ _ K SO) as SO3. destruct (fold_spec (List.length m3) m3 ltac:(lia) SO3) as (F1 & F2 & F3).
  assert (X : forall a c, collected d' a c -> exists y, In (a, y) m3 /\ di_label y = di_label c).
  { intros a0 c0 C0. unfold collected in C0. rewrite E in C0. apply om_find_in in C0. destruct (F2 _ _ C0) as [IN|(c3 & b0 & x3 & pm & AD & FM & LX & -> & NI)]; [eauto|].
    exists c3. split; [|reflexivity]. destruct AD as (l1 & l2 & ->). apply in_or_app. right. left. reflexivity. }
  destruct (X _ _ KA) as (y & IY & LY). destruct (X _ _ KB) as (z & IZ & LZ). apply (U _ _ _ _ IY IZ); congruence.
Qed.
Lemma clean_sorted : forall src rets q d d', conventions_ok rets -> byte_source src -> session src rets q d -> ds_sym d < 2 ^ 31 -> cleanup d = Ok d' -> sorted_keys (ds_map d').
Proof.
  intros src rets q d d' CO BS S SY CL. destruct (cleanup_open _ _ _ _ _ CO BS S SY CL) as (m3 & E & K & U & NB & P). destruct (session_maps _ _ _ _ CO BS S SY) as (SO & _).
  pose proof (keys_sorted _ _ _ _ K SO) as SO3. rewrite E. apply (fold_spec (List.length m3) m3 ltac:(lia) SO3).
Qed.
Lemma names_known : forall src rets q d d', conventions_ok rets -> byte_source src -> session src rets q d -> ds_sym d < 2 ^ 31 -> cleanup d = Ok d' -> knows (names_of d') d'.
Proof.
  intros src rets q d d' CO BS S SY CL a c KC NE. unfold names_of. destruct (find _ _) as [[b x]|] eqn:F.
  - apply find_some in F. destruct F as [IN EQ]. apply String.eqb_eq in EQ. cbn in EQ. f_equal. symmetry.
    eapply (clean_labels _ _ _ _ _ CO BS S SY CL a b c x KC); [|exact NE|symmetry; exact EQ]. apply om_in_find; [|exact IN]. exact (clean_sorted _ _ _ _ _ CO BS S SY CL).
  - exfalso. pose proof (find_none _ _ F _ (om_find_in _ _ _ _ KC)) as X. cbn in X. rewrite String.eqb_refl in X. discriminate X.
Qed.
Lemma clean : forall src rets q d, conventions_ok rets -> byte_source src -> session src rets q d -> ds_sym d < 2 ^ 31 -> exists d', cleanup d = Ok d' /\
  (forall a b c x, collected d' a c -> collected d' b x -> di_label c <> ""%string -> di_label c = di_label x -> a = b) /\ (exists ctx, knows ctx d').
Proof.
  intros src rets q d CO BS S SY. destruct (cleanup_total _ _ _ _ CO BS S SY) as (d' & CL). exists d'. split; [exact CL|]. split; [exact (clean_labels _ _ _ _ _ CO BS S SY CL)|].
  exists (names_of d'). exact (names_known _ _ _ _ _ CO BS S SY CL).
Qed.
