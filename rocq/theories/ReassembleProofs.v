(** Proofs about assembling a listing: what a line of the listing is read as. *)
From Verif Require Import Base ModelNumeric ModelAddress ModelMnemonic ModelExpr ModelAMode ModelOpcode ModelState ModelInstr ModelToken ModelStatement ModelParse ModelMap ModelRom ModelDisasm
  SpecArith SpecNames SpecInstr SpecText SpecState SpecFlow SpecDisasm SpecListing Spec65816 SpecAssemble BaseProofs MapProofs ArithProofs NameProofs InstrProofs ModeProofs StateProofs TokenProofs FlowArriveProofs
  DisStateProofs DisStepProofs DisInvProofs DisRunProofs DisRequestProofs DisClosedProofs CleanProofs PrintProofs ReadProofs ListTextProofs.
Open Scope list_scope.
Open Scope Z_scope.
Local Opaque decode_opcode op_form op_name in_names check_consistency parse tokenize instr_to_string encode_opcode execute_in execute_branch.

(** ** Suffixes say what is known. *)
Definition sized (c : dinstr) : Prop :=
  match flag_controlling_size (i_mnem (di_instr c)) with
  | UsesM => bit_known (fl_m (es_flags (di_cur c))) = true -> i_suffix (di_instr c) <> S_none
  | UsesX => bit_known (fl_x (es_flags (di_cur c))) = true -> i_suffix (di_instr c) <> S_none
  | NotVariable => True
  end.
Lemma add_suffix_sized : forall d, sized (add_suffix d).
Proof.
  intros [l [m s a x y r] e c n]. unfold sized, add_suffix. cbn [di_instr di_cur i_mnem].
  destruct (flag_controlling_size m) eqn:F; [destruct (fl_m (es_flags c)) eqn:B|destruct (fl_x (es_flags c)) eqn:B|];
    cbn [i_with_suffix di_instr di_cur i_mnem i_suffix]; rewrite F, ?B; cbn; congruence || exact Logic.I.
Qed.
Definition all_sized (m : omap dinstr) : Prop := forall a c, In (a, c) m -> sized c.
Lemma set_sized : forall m a c, all_sized m -> sized c -> all_sized (om_set a c m).
Proof. intros m a c M C b x IN. apply om_set_in in IN. destruct IN as [[_ ->]|IN]; [exact C|exact (M _ _ IN)]. Qed.
Lemma labels_sized : forall ls m m', all_sized m -> apply_labels ls m = Ok m' -> all_sized m'.
Proof.
  induction ls as [|[a s] ls IH]; intros m m' M H; cbn [apply_labels] in H; [injection H as <-; exact M|].
  destruct (om_find a m) as [d|] eqn:F; [|discriminate H]. eapply IH; [|exact H]. apply set_sized; [exact M|].
  apply om_find_in in F. apply M in F. exact F.
Qed.
Lemma fold_sized : forall new m, all_sized m -> (forall a c, In (a, c) new -> sized c) -> all_sized (fold_left (fun m kv => om_set (fst kv) (snd kv) m) new m).
Proof.
  induction new as [|[a c] new IH]; intros m M N; [exact M|]. cbn [fold_left fst snd]. apply IH.
  - apply set_sized; [exact M|]. apply (N a). left. reflexivity.
  - intros b x IN. apply (N b). right. exact IN.
Qed.
Lemma session_sized : forall src rets q d, session src rets q d -> all_sized (ds_map d).
Proof.
  intros src rets q d S. induction S as [|q d fuel a f d' r S IH A C D]; [intros a c []|].
  unfold disassemble in D. destruct (get_label _ _ _) as [lab w]. destruct (disasm_loop _ _ _ _ _) as [w' r']. destruct r' as [w2| | |]; try (injection D as <- _; exact IH).
  destruct (apply_labels _ _) as [m| | |] eqn:AL; try (injection D as <- _; exact IH). injection D as <- _. cbn [ds_map].
  eapply labels_sized; [|exact AL]. apply fold_sized; [exact IH|]. intros b c IN. apply in_map_iff in IN. destruct IN as ([b' c'] & E & _). injection E as _ <-. apply add_suffix_sized.
Qed.

(** ** Two settlings of an operand with a size agree. *)
Lemma fm_acc : forall m, is_legal_combination (eff m) A_imm_fm = true -> accumulator_immediate m.
Proof.
  intros m H. assert (A : forallb (fun m => if is_legal_combination (eff m) A_imm_fm then existsb (mnem_eqb m) [M_adc; M_and; M_bit; M_cmp; M_eor; M_lda; M_ora; M_sbc; PM_add; PM_sub] else true) all_mnemonics = true) by (vm_compute; reflexivity).
  rewrite forallb_forall in A. specialize (A m (all_mnemonics_complete _)). rewrite H in A. apply existsb_exists in A. destruct A as (x & IN & E). apply mnem_eqb_eq in E. subst x. exact IN.
Qed.
Lemma fx_index : forall m, is_legal_combination (eff m) A_imm_fx = true -> index_immediate m.
Proof.
  intros m H. assert (A : forallb (fun m => if is_legal_combination (eff m) A_imm_fx then existsb (mnem_eqb m) [M_cpx; M_cpy; M_ldx; M_ldy] else true) all_mnemonics = true) by (vm_compute; reflexivity).
  rewrite forallb_forall in A. specialize (A m (all_mnemonics_complete _)). rewrite H in A. apply existsb_exists in A. destruct A as (x & IN & E). apply mnem_eqb_eq in E. subst x. exact IN.
Qed.
Lemma pinned : forall i f g u v a b, check_consistency i f = Ok u -> check_consistency i g = Ok v -> settled f (i_mode i) a -> settled g (i_mode i) b ->
  (i_mode i = A_imm_fm \/ i_mode i = A_imm_fx -> i_suffix i <> S_none) -> a = b.
Proof.
  intros i f g u v a b CF CG SF SG SX. unfold settled in *. pose proof (checked_legal _ _ _ CF) as L.
  destruct (i_mode i) eqn:M; try congruence.
  - assert (IM : immediate_mode (i_mode i)) by (rewrite M; unfold immediate_mode; cbn; tauto). apply fm_acc in L. specialize (SX (or_introl eq_refl)).
    destruct (acc_checked _ _ _ CF L IM) as (_ & w & E & B1 & W1 & _). destruct (acc_checked _ _ _ CG L IM) as (_ & w' & E' & B2 & W2 & _).
    assert (w = w') by (destruct (i_suffix i); [congruence|rewrite B1, B2 by reflexivity; reflexivity|rewrite W1, W2 by reflexivity; reflexivity]).
    subst w'. rewrite E in SF. rewrite E' in SG. destruct w; destruct SF as [[X ->]|[X ->]]; try discriminate X; destruct SG as [[Y ->]|[Y ->]]; try discriminate Y; reflexivity.
  - assert (IM : immediate_mode (i_mode i)) by (rewrite M; unfold immediate_mode; cbn; tauto). apply fx_index in L. specialize (SX (or_intror eq_refl)).
    destruct (index_checked _ _ _ CF L IM) as (_ & w & E & B1 & W1 & _). destruct (index_checked _ _ _ CG L IM) as (_ & w' & E' & B2 & W2 & _).
    assert (w = w') by (destruct (i_suffix i); [congruence|rewrite B1, B2 by reflexivity; reflexivity|rewrite W1, W2 by reflexivity; reflexivity]).
    subst w'. rewrite E in SF. rewrite E' in SG. destruct w; destruct SF as [[X ->]|[X ->]]; try discriminate X; destruct SG as [[Y ->]|[Y ->]]; try discriminate Y; reflexivity.
Qed.
Lemma fix_settled : forall i f b, fix_addressing_mode i f = Ok (with_mode b i) -> settled f (i_mode i) b.
Proof.
  intros i f b H. unfold fix_addressing_mode in H. unfold settled. destruct i as [m s a x y r]. cbn [i_mode with_mode] in *.
  destruct a; try (injection H as <-; reflexivity).
  - destruct (fl_m f); try discriminate H; injection H as <-; auto.
  - destruct (fl_x f); try discriminate H; injection H as <-; auto.
Qed.

(** ** A line of the listing. *)
Lemma variant_agrees : forall i k f, variant i k -> suffix_agrees i f -> suffix_agrees k f.
Proof.
  intros i k f [->|(pm & -> & H)] A; [exact A|]. unfold suffix_agrees in *. cbn [i_with_mnem i_suffix i_mnem] in *.
  destruct H as [[M ->]|[M ->]]; rewrite M in A; exact A.
Qed.
Lemma acc_uses : forall m, accumulator_immediate m -> flag_controlling_size m = UsesM.
Proof. intros m H. unfold accumulator_immediate in H. cbn [In] in H. repeat destruct H as [<-|H]; try contradiction; reflexivity. Qed.
Lemma index_uses : forall m, index_immediate m -> flag_controlling_size m = UsesX.
Proof. intros m H. unfold index_immediate in H. cbn [In] in H. repeat destruct H as [<-|H]; try contradiction; reflexivity. Qed.
Lemma settled_length : forall f m i, settled f m (i_mode i) -> 0 < instruction_length (i_mode i).
Proof.
  intros f m i H.
  unfold settled in H. destruct m; try (rewrite H; reflexivity); destruct H as [[_ ->]|[_ ->]]; reflexivity.
Qed.
Lemma listing_line : forall src rets q d d' pc c, conventions_ok rets -> readable rets -> byte_source src -> session src rets q d -> ds_sym d < 2 ^ 31 -> cleanup d = Ok d' ->
  collected d' pc c -> i_mnem (di_instr c) <> M_per ->
  exists ts i, tokenize (instr_to_string (di_instr c)) = Ok ts /\ parse ts = Ok [PStmt (SInstr i)] /\ i_mnem i = i_mnem (di_instr c) /\ 0 < instruction_length (i_mode (di_instr c)) /\
    (forall f m' u, check_consistency i f = Ok u -> settled f (i_mode i) m' -> m' = i_mode (di_instr c)) /\
    (within_banks d' -> forall ctx, SpecListing.knows ctx d' -> exists l, instr_bytes pc ctx (with_mode (i_mode (di_instr c)) i) = Ok l /\ holds src pc l).
Proof.
  intros src rets q d d' pc c CO RDB BS S SY CL KC NP. pose proof (session_sized _ _ _ _ S) as SZ.
  destruct (cleanup_open _ _ _ _ _ CO BS S SY CL) as (m3 & E & K & U & NB & P). destruct (session_maps _ _ _ _ CO BS S SY) as (SO & UL & _).
  pose proof (keys_sorted _ _ _ _ K SO) as SO3. destruct (fold_spec (List.length m3) m3 ltac:(lia) SO3) as (F1 & F2 & F3).
  assert (FIN : forall a c3, In (a, c3) m3 -> i_mnem (di_instr c3) <> M_per -> variant (di_instr c3) (di_instr c) ->
     exists ts i, tokenize (instr_to_string (di_instr c)) = Ok ts /\ parse ts = Ok [PStmt (SInstr i)] /\ i_mnem i = i_mnem (di_instr c) /\ 0 < instruction_length (i_mode (di_instr c)) /\
    (forall f m' u, check_consistency i f = Ok u -> settled f (i_mode i) m' -> m' = i_mode (di_instr c)) /\
    (within_banks d' -> forall ctx, SpecListing.knows ctx d' -> exists l, instr_bytes pc ctx (with_mode (i_mode (di_instr c)) i) = Ok l /\ holds src pc l)).
  { intros a c3 IN N3 V. destruct (line_text _ _ _ _ _ _ _ (di_instr c) (es_flags (di_cur c3)) CO RDB BS S SY NB P IN N3 V ltac:(auto)) as (ts & i & i' & T & PA & FX & CC & SA & IM & IMD & IS & EI & _ & _ & EV).
    exists ts, i. split; [exact T|]. split; [exact PA|]. subst i'. cbn [with_mode i_mnem] in IM. split; [exact IM|].
    pose proof (CC (variant_agrees _ _ _ V SA)) as CG. pose proof (fix_settled _ _ _ FX) as SG. split; [exact (settled_length _ _ _ SG)|].
    split.
    - intros f m' u CF SF. apply (pinned i f (es_flags (di_cur c3)) u tt m' (i_mode (di_instr c)) CF CG SF SG).
      destruct (P _ _ IN) as (c0 & IN0 & (P1 & _ & _ & P4 & P5 & _ & _ & P8 & _)). specialize (SZ _ _ IN0). unfold sized in SZ. rewrite <- P1, <- P4, <- P8 in SZ.
      destruct (variant_same _ _ V) as (V1 & V2 & _ & _ & _ & V6 & _). rewrite <- V6, <- V1, <- IM, <- IS in SZ. pose proof (checked_legal _ _ _ CF) as L.
      intros [X|X]; rewrite X in L, SG; [rewrite (acc_uses _ (fm_acc _ L)) in SZ|rewrite (index_uses _ (fx_index _ L)) in SZ]; apply SZ; destruct SG as [[-> _]|[-> _]]; reflexivity.
    - intros WB ctx KN. destruct (CleanProofs.listing _ _ _ _ _ _ _ _ CO BS S SY WB CL KN KC NP) as (l & IB & HO). exists l. split; [|exact HO].
      rewrite <- IB. destruct (EV ctx) as [E1 E2]. apply bytes_cong; [exact IM|reflexivity|exact E1|rewrite E2; reflexivity]. }
  unfold collected in KC. rewrite E in KC. pose proof (om_find_in _ _ _ _ KC) as IN0. destruct (F2 _ _ IN0) as [IN|(c3 & b & x3 & pm & AD & FM & LX & EC & NI)].
  - apply (FIN pc c IN NP). left; reflexivity.
  - apply fused_pair in FM. assert (IX : In (b, x3) m3) by (destruct AD as (l1 & l2 & ->); apply in_or_app; right; right; left; reflexivity).
    apply (FIN b x3 IX).
    + destruct FM as [(_ & X & _)|(_ & X & _)]; rewrite X; discriminate.
    + right. exists pm. rewrite EC. split; [reflexivity|]. destruct FM as [(_ & X & Y)|(_ & X & Y)]; auto.
Qed.
