(** What holds of the collected instructions is kept by every iteration. *)
From Verif Require Import Base ModelNumeric ModelAddress ModelExpr ModelMnemonic ModelAMode ModelOpcode ModelState ModelInstr ModelMap ModelRom ModelDisasm
  SpecArith SpecInstr SpecState BaseProofs MapProofs ArithProofs StateProofs InstrProofs FlowArriveProofs FlowKindProofs DisStateProofs DisStepProofs DisInvProofs.
Open Scope list_scope.
Open Scope Z_scope.
Local Opaque check_consistency execute_in execute_branch decode far_branch_target branch_offset.

(** Where an instruction leads, in which state. *)
Definition leads (pc : Z) (d : dinstr) (a : Z) (s : estate) : Prop :=
  let i := di_instr d in
  (is_exit_instruction i = false /\ a = add_wrapped pc (instruction_length (i_mode i)) /\ s = di_next d) \/
  (is_local_branch i = true /\ s = taken (i_mnem i) (di_cur d) /\ exists v, branch_offset i = Ok v /\ a = target pc i v).
(** Changed by the request. *)
Definition fresh (old : omap dinstr) (a : Z) (d : dinstr) : Prop := forall d0, om_find a old = Some d0 -> di_cur d0 <> di_cur d.
Definition far_told (far : omap flags) (pc : Z) (d : dinstr) : Prop :=
  forall t, far_branch_target (di_instr d) pc = Ok (Some t) -> (forall f, i_ret (di_instr d) <> RC_yields f) ->
  exists g, om_find t far = Some g /\ fbelow (left_flags (di_cur d)) g.

Record inv (K : Z -> Prop) (R : Z -> estate -> Prop) (src : source) (rets : omap retconv) (old : omap dinstr) (w : dwork) : Prop := Inv {
  inv_new : sorted_keys (dw_new w);
  inv_st : sorted_keys (dw_stack w);
  inv_ls : sorted_keys (dw_labels w);
  inv_fs : sorted_keys (dw_far w);
  inv_con : all_con (dw_stack w);
  inv_fcon : forall t g, om_find t (dw_far w) = Some g -> consistent g;
  inv_addr : forall a s, om_find a (dw_stack w) = Some s -> addr24 a;
  inv_entry : forall a d, view old (dw_new w) a = Some d -> addr24 a /\ entry_ok src rets (label_of old (dw_labels w)) a d;
  inv_leads : forall a d b s, view old (dw_new w) a = Some d -> leads a d b s -> cov (view old (dw_new w)) (dw_stack w) b s;
  inv_lab : forall a s, om_find a (dw_labels w) = Some s -> s <> ""%string /\ exists u, due (view old (dw_new w)) (dw_stack w) a = Some u;
  inv_names : names_ok (label_of old (dw_labels w)) (dw_sym w);
  inv_dlab : forall a d, view old (dw_new w) a = Some d -> di_label d = old_label old a;
  inv_far : forall a d, view old (dw_new w) a = Some d -> fresh old a d -> far_told (dw_far w) a d;
  inv_req : forall a s, R a s -> es_consistent s /\ cov (view old (dw_new w)) (dw_stack w) a s;
  inv_keep : forall a, K a -> label_of old (dw_labels w) a <> ""%string }.

Lemma entry_con : forall src rets lab a d, entry_ok src rets lab a d -> es_consistent (di_cur d) /\ es_consistent (di_next d).
Proof. intros src rets lab a d (bytes & j & far & v & _ & _ & _ & _ & _ & _ & C & N & _). auto. Qed.
Lemma inv_view : forall K R src rets old w, inv K R src rets old w -> con_view (view old (dw_new w)).
Proof. intros K R src rets old w I a d H. destruct (inv_entry _ _ _ _ _ _ I _ _ H) as [_ E]. apply entry_con in E. apply E. Qed.
Lemma leads_con : forall src rets lab pc d a s, entry_ok src rets lab pc d -> leads pc d a s -> es_consistent s.
Proof. intros src rets lab pc d a s E L. destruct (entry_con _ _ _ _ _ E) as [C N]. destruct L as [(_ & _ & ->)|(_ & -> & _)]; [exact N|apply taken_consistent; exact C]. Qed.

(** Far targets. *)
Lemma far_kept : forall far k g pc d, sorted_keys far -> consistent g -> (forall t h, om_find t far = Some h -> consistent h) -> es_consistent (di_cur d) ->
  far_told far pc d -> far_told (om_merge flags_merge k g far) pc d.
Proof.
  intros far k g pc d S G C CD H t F Y. destruct (H t F Y) as (h & FH & B). rewrite om_find_merge by exact S. destruct (Z.eqb_spec k t) as [->|N]; [|eauto].
  rewrite FH. eexists. split; [reflexivity|]. assert (CL : consistent (left_flags (di_cur d))) by (apply con_set_c; apply CD).
  eapply fbelow_trans; [exact CL|exact (C _ _ FH)|apply mk_flags_consistent|exact B|apply fbelow_l; [exact (C _ _ FH)|exact G]].
Qed.
Lemma far_new : forall far k g, sorted_keys far -> consistent g -> (forall t h, om_find t far = Some h -> consistent h) ->
  exists h, om_find k (om_merge flags_merge k g far) = Some h /\ fbelow g h.
Proof.
  intros far k g S G C. rewrite om_find_merge, Z.eqb_refl by exact S. eexists. split; [reflexivity|].
  destruct (om_find k far) as [h|] eqn:F; [apply fbelow_r; [exact (C _ _ F)|exact G]|]. apply flags_merge_idem. exact G.
Qed.
Lemma far_con : forall far k g, sorted_keys far -> consistent g -> (forall t h, om_find t far = Some h -> consistent h) ->
  forall t h, om_find t (om_merge flags_merge k g far) = Some h -> consistent h.
Proof.
  intros far k g S G C t h F. rewrite om_find_merge in F by exact S. destruct (k =? t); [|eauto]. injection F as <-. destruct (om_find k far); [apply mk_flags_consistent|exact G].
Qed.
Definition far_list (far : option Z) (g : flags) (m : omap flags) : omap flags := match far with Some t => om_merge flags_merge t g m | None => m end.
Lemma far_added_far : forall far s w, dw_far (far_added far s w) = far_list far (es_flags s) (dw_far w).
Proof. intros [t|] s w; reflexivity. Qed.

Lemma visited : forall old new pc nd a, sorted_keys new -> view old (om_set pc nd new) a = if pc =? a then Some nd else view old new a.
Proof. intros. unfold view. rewrite om_find_set by assumption. destruct (pc =? a); reflexivity. Qed.

(** One step in general: the first address of the worklist now holds [nd]; its successors are
    due. *)
Lemma inv_visit : forall K R src rets old w new pc cur rest nd ls sym ps far g,
  inv K R src rets old w -> dw_stack w = (pc, cur) :: rest -> sorted_keys new -> (forall a, view old new a = view old (dw_new w) a) ->
  di_cur nd = (match view old (dw_new w) pc with Some d => es_merge cur (di_cur d) | None => cur end) ->
  sorted_keys ls -> names_ok (label_of old ls) sym -> lab_le (label_of old (dw_labels w)) (label_of old ls) ->
  (forall b t, om_find b ls = Some t -> t <> ""%string /\ ((exists s, In (b, s) ps) \/ om_find b (dw_labels w) = Some t)) ->
  entry_ok src rets (label_of old ls) pc nd -> di_label nd = old_label old pc ->
  (forall k t, In (k, t) ps -> es_consistent t /\ addr24 k) ->
  (forall b s, leads pc nd b s -> In (b, s) ps \/ exists d, view old (dw_new w) pc = Some d /\ exists s1 s2, s = es_merge s1 s2 /\ In (b, s1) ps /\ leads pc d b s2 /\ es_consistent s1) ->
  consistent g -> (forall t, far_branch_target (di_instr nd) pc = Ok (Some t) -> far = Some t /\ ((forall f, i_ret (di_instr nd) <> RC_yields f) -> fbelow (left_flags (di_cur nd)) g)) ->
  inv K R src rets old (DWork (om_set pc nd new) ls (push_all ps rest) (far_list far g (dw_far w)) sym).
Proof.
  intros K R src rets old w new pc cur rest nd ls sym ps far g I ST SN VE CUR SL NM LE LS EN DL PS LD G FR.
  pose proof (inv_view _ _ _ _ _ _ I) as CV. pose proof (inv_st _ _ _ _ _ _ I) as S0. pose proof (inv_con _ _ _ _ _ _ I) as C0. rewrite ST in S0, C0.
  assert (SR : sorted_keys rest) by apply S0.
  assert (CR : all_con rest). { intros a s F. apply (C0 a s). cbn [om_find]. destruct (Z.eqb_spec pc a) as [<-|N]; [|exact F]. exfalso. apply om_find_in in F. apply S0 in F. lia. }
  assert (AR : forall a s, om_find a rest = Some s -> addr24 a).
  { intros a s F. apply (inv_addr _ _ _ _ _ _ I a s). rewrite ST. cbn [om_find]. destruct (Z.eqb_spec pc a) as [<-|N]; [|exact F]. exfalso. apply om_find_in in F. apply S0 in F. lia. }
  assert (APC : addr24 pc) by (apply (inv_addr _ _ _ _ _ _ I pc cur); rewrite ST; cbn [om_find]; rewrite Z.eqb_refl; reflexivity).
  set (V := view old (dw_new w)) in *. set (V' := view old (om_set pc nd new)).
  assert (V1 : forall a, V' a = if pc =? a then Some nd else V a). { intros a. unfold V'. rewrite visited by exact SN. rewrite VE. reflexivity. }
  assert (DU : forall a, due V' rest a = due V (dw_stack w) a).
  { intros a. rewrite ST. apply due_pop with nd; [exact S0| |rewrite V1, Z.eqb_refl; reflexivity|exact CUR].
    intros b B. rewrite V1. destruct (Z.eqb_spec pc b); [congruence|reflexivity]. }
  assert (CV' : con_view V'). { intros a d. rewrite V1. destruct (pc =? a); [intros E; injection E as <-; apply (entry_con _ _ _ _ _ EN)|apply CV]. }
  assert (COV : forall a s, es_consistent s -> cov V (dw_stack w) a s \/ In (a, s) ps -> cov V' (push_all ps rest) a s).
  { intros a s CS H. apply cov_push; [exact CV'|exact CR|exact SR|intros k t X; apply (PS k t X)|exact CS|].
    destruct H as [(u & F & B)|H]; [left|right; exact H]. exists u. rewrite DU. auto. }
  constructor; cbn [dw_new dw_labels dw_stack dw_far dw_sym]; fold V V'.
  - apply om_set_sorted. exact SN.
  - apply push_all_sorted. exact SR.
  - exact SL.
  - destruct far as [t|]; [apply om_merge_sorted|]; apply (inv_fs _ _ _ _ _ _ I).
  - apply push_all_con; [exact CR|exact SR|intros k t X; apply (PS k t X)].
  - destruct far as [t|]; [apply far_con; [apply (inv_fs _ _ _ _ _ _ I)|exact G|apply (inv_fcon _ _ _ _ _ _ I)]|apply (inv_fcon _ _ _ _ _ _ I)].
  - intros a s F. destruct (push_all_keys _ _ _ _ SR F) as [[s' X]|[s' X]]; [exact (AR _ _ X)|apply (PS _ _ X)].
  - intros a d. rewrite V1. destruct (Z.eqb_spec pc a) as [<-|N]; [intros E; injection E as <-; split; [exact APC|exact EN]|].
    intros E. destruct (inv_entry _ _ _ _ _ _ I _ _ E) as [A X]. split; [exact A|]. exact (entry_mono _ _ _ _ _ _ LE X).
  - intros a d b s. rewrite V1. destruct (Z.eqb_spec pc a) as [<-|N].
    + intros E L. injection E as <-. destruct (LD b s L) as [P|(d & VD & s1 & s2 & -> & P & L2 & C1)].
      * apply COV; [exact (leads_con _ _ _ _ _ _ _ EN L)|right; exact P].
      * pose proof (leads_con _ _ _ _ _ _ _ (proj2 (inv_entry _ _ _ _ _ _ I _ _ VD)) L2) as C2.
        apply cov_merge; [exact CV'|apply push_all_con; [exact CR|exact SR|intros k t X; apply (PS k t X)]|exact C1|exact C2| |].
        -- apply COV; [exact C1|right; exact P].
        -- apply COV; [exact C2|left; exact (inv_leads _ _ _ _ _ _ I _ _ _ _ VD L2)].
    + intros E L. apply COV; [exact (leads_con _ _ _ _ _ _ _ (proj2 (inv_entry _ _ _ _ _ _ I _ _ E)) L)|left; exact (inv_leads _ _ _ _ _ _ I _ _ _ _ E L)].
  - intros a s F. destruct (LS a s F) as [NE [[t P]|O]]; (split; [exact NE|]).
    + destruct (COV a t) as (u & U & _); [apply (PS _ _ P)|right; exact P|eauto].
    + destruct (inv_lab _ _ _ _ _ _ I _ _ O) as [_ [u U]].
      destruct (COV a u) as (u' & U' & _); [eapply due_con; [exact CV|exact (inv_con _ _ _ _ _ _ I)|exact U]|left; exists u; split; [exact U|apply below_refl; eapply due_con; [exact CV|exact (inv_con _ _ _ _ _ _ I)|exact U]]|eauto].
  - exact NM.
  - intros a d. rewrite V1. destruct (Z.eqb_spec pc a) as [<-|N]; [intros E; injection E as <-; exact DL|apply (inv_dlab _ _ _ _ _ _ I)].
  - intros a d. rewrite V1. destruct (Z.eqb_spec pc a) as [<-|N].
    + intros E _. injection E as <-. intros t F Y. destruct (FR t F) as [-> B]. cbn [far_list].
      destruct (far_new (dw_far w) t g (inv_fs _ _ _ _ _ _ I) G (inv_fcon _ _ _ _ _ _ I)) as (h & FH & BH). exists h. split; [exact FH|].
      eapply fbelow_trans; [| |exact (far_con _ t g (inv_fs _ _ _ _ _ _ I) G (inv_fcon _ _ _ _ _ _ I) _ _ FH)|exact (B Y)|exact BH]; [|exact G].
      apply con_set_c. apply (entry_con _ _ _ _ _ EN).
    + intros E FS. pose proof (inv_far _ _ _ _ _ _ I _ _ E FS) as T. destruct far as [t|]; [|exact T]. cbn [far_list].
      apply far_kept; [apply (inv_fs _ _ _ _ _ _ I)|exact G|apply (inv_fcon _ _ _ _ _ _ I)|exact (CV _ _ E)|exact T].
  - intros a s RQ. destruct (inv_req _ _ _ _ _ _ I _ _ RQ) as [CS H]. split; [exact CS|]. apply COV; [exact CS|left; exact H].
  - intros a KA. pose proof (inv_keep _ _ _ _ _ _ I _ KA) as N. rewrite (LE a N). exact N.
Qed.

Lemma checked_relative : forall i s nx, execute i s = Ok nx -> is_local_branch i = true -> relative_branch (i_mnem i).
Proof. intros i s nx H L. destruct (executed_checked _ _ _ _ H) as [u U]. exact (local_relative _ _ _ U L). Qed.

Lemma inv_new_step : forall K R src rets old w new pc cur rest w1 w', rets_ok rets -> inv K R src rets old w -> dw_stack w = (pc, cur) :: rest ->
  sorted_keys new -> (forall a, view old new a = view old (dw_new w) a) -> view old (dw_new w) pc = None ->
  visit_new src rets old pc cur (dw_set_new new (dw_set_stack rest w)) = (w1, Ok w') -> inv K R src rets old w'.
Proof.
  intros K R src rets old w new pc cur rest w1 w' RO I ST SN VE VN H. apply visit_new_spec in H. destruct H as (bytes & j & nx0 & far & i & lw & ps & H). cbv zeta in H.
  destruct H as (RD & DE & EX & FA & LB & ->). cbn [dw_set_new dw_set_stack dw_new dw_stack].
  set (r := called rets far j) in *. set (nx := after_call far r nx0). set (next_pc := add_wrapped pc (instruction_length (i_mode j))) in *.
  destruct (decode_ret _ _ _ DE) as [JR JS].
  assert (F0 : om_find pc (dw_stack w) = Some cur) by (rewrite ST; cbn [om_find]; rewrite Z.eqb_refl; reflexivity).
  pose proof (inv_con _ _ _ _ _ _ I _ _ F0) as CC. cbn in CC. pose proof (inv_addr _ _ _ _ _ _ I _ _ F0) as APC.
  assert (CN0 : es_consistent nx0) by (eapply execute_consistent; [exact EX|rewrite JR; exact Logic.I|exact CC]).
  assert (CN : es_consistent nx) by (apply apply_con; [apply called_ok; assumption|exact CN0]).
  assert (AN : addr24 next_pc) by (apply add_wrapped_24; apply APC).
  assert (LR : is_local_branch (i_with_ret r j) = is_local_branch j) by reflexivity.
  assert (FFAR : dw_far lw = dw_far (far_added far nx0 (dw_set_new new (dw_set_stack rest w)))).
  { destruct LB as [_|v lab lw bs _ _ GL _]; [reflexivity|]. apply (get_label_rest _ _ _ _ _ GL). }
  rewrite FFAR, far_added_far. cbn [dw_set_new dw_set_stack dw_far].
  assert (W0 : dw_labels (far_added far nx0 (dw_set_new new (dw_set_stack rest w))) = dw_labels w /\ dw_sym (far_added far nx0 (dw_set_new new (dw_set_stack rest w))) = dw_sym w) by (destruct far; split; reflexivity).
  destruct W0 as [WL WS].
  (* the operand, its label and the branch *)
  assert (X : exists v, (is_local_branch j = true -> branch_offset j = Ok v /\ label_of old (dw_labels lw) (target pc j v) <> ""%string) /\
      i = i_with_arg1 (if is_local_branch j then apply_label (label_of old (dw_labels lw) (target pc j v)) (i_arg1 j) else i_arg1 j) (i_with_ret r j) /\
      ps = (if is_local_branch j then [(target pc j v, taken (i_mnem j) cur)] else []) /\
      sorted_keys (dw_labels lw) /\ names_ok (label_of old (dw_labels lw)) (dw_sym lw) /\ lab_le (label_of old (dw_labels w)) (label_of old (dw_labels lw)) /\
      (forall b t, om_find b (dw_labels lw) = Some t -> t <> ""%string /\ ((exists s, In (b, s) ps) \/ om_find b (dw_labels w) = Some t))).
  { destruct LB as [LB|v lab lw bs LB BO GL EB]; rewrite LR in LB; rewrite LB.
    - exists 0. rewrite WL, WS. split; [discriminate|]. split; [destruct j; reflexivity|]. split; [reflexivity|]. split; [apply I|]. split; [apply I|]. split; [intros a _; reflexivity|].
      intros b t F. split; [apply (inv_lab _ _ _ _ _ _ I _ _ F)|auto].
    - exists v. apply get_label_spec in GL; [|rewrite WL; apply I|rewrite WL, WS; apply I|rewrite WL; intros b t F; apply (inv_lab _ _ _ _ _ _ I _ _ F)].
      rewrite WL, WS in GL. destruct GL as (-> & NE & SL & NM & _ & LE & LS). fold (target pc j v) in *.
      split; [intros _; split; [exact BO|exact NE]|]. split; [reflexivity|]. split.
      + f_equal. f_equal. apply branch_taken in EB; [exact EB|]. cbn. exact (checked_relative _ _ _ EX LB).
      + split; [exact SL|]. split; [exact NM|]. split; [exact LE|]. intros b t F. destruct (LS b t F) as [N [->|O]]; (split; [exact N|]); [left; eexists; left; reflexivity|right; exact O]. }
  destruct X as (v & LO & IE & PE & SL & NM & LE & LS).
  assert (SC : same_code (label_of old (dw_labels lw) (target pc j v)) j i) by (rewrite IE; repeat split).
  assert (IM : i_mode i = i_mode j) by (rewrite IE; reflexivity). assert (IR : i_ret i = r) by (rewrite IE; reflexivity). assert (MN : i_mnem i = i_mnem j) by (rewrite IE; reflexivity).
  assert (LI : is_local_branch i = is_local_branch j) by exact (same_local _ _ _ SC).
  assert (EN : entry_ok src rets (label_of old (dw_labels lw)) pc (DInstr "" i false cur nx)).
  { exists bytes, j, far, v. cbn [di_instr di_cur di_next]. split; [exact RD|]. split; [exact DE|]. split; [exact FA|]. split; [exact IR|]. split; [exact LO|]. split; [exact SC|].
    split; [exact CC|]. split; [exact CN|]. split; [left; rewrite IE; exact JS|]. right. exists nx0. rewrite IR. auto. }
  assert (PS : forall k t, In (k, t) (ps ++ falls i next_pc nx) -> es_consistent t /\ addr24 k).
  { intros k t IN. apply in_app_or in IN. destruct IN as [IN|IN].
    - rewrite PE in IN. destruct (is_local_branch j); [|destruct IN]. destruct IN as [E|[]]. injection E as <- <-. split; [apply taken_consistent; exact CC|apply add_wrapped_24; apply AN].
    - unfold falls in IN. destruct (is_exit_instruction i); [destruct IN|]. destruct IN as [E|[]]. injection E as <- <-. auto. }
  eapply inv_visit; try eassumption; cbn [di_cur di_label di_instr].
  - rewrite VN. reflexivity.
  - intros b t F. destruct (LS b t F) as [N [[s O]|O]]; (split; [exact N|]); [left; exists s; apply in_or_app; left; exact O|right; exact O].
  - unfold old_label. unfold view in VN. destruct (om_find pc (dw_new w)); [discriminate VN|]. rewrite VN. reflexivity.
  - intros b s L. left. apply in_or_app. unfold leads in L. cbn [di_instr di_cur di_next] in L. destruct L as [(E & -> & ->)|(E & -> & v' & BO & ->)].
    + right. unfold falls. rewrite E, IM. left. reflexivity.
    + left. rewrite LI in E. rewrite PE, E. left. rewrite (same_offset _ _ _ SC) in BO. destruct (LO E) as [BO' _]. rewrite BO in BO'. injection BO' as ->.
      rewrite (same_target _ _ _ _ _ SC), MN. reflexivity.
  - apply CN0.
  - intros t T. rewrite (same_far _ _ _ _ SC) in T. rewrite FA in T. injection T as ->. split; [reflexivity|]. intros _.
    assert (E : es_flags nx0 = left_flags cur). { apply (call_flags j); [exact (far_kind _ _ _ FA)|exact EX|rewrite JR; discriminate]. }
    rewrite E. apply flags_merge_idem. apply con_set_c. apply CC.
Qed.

Lemma inv_again_step : forall K R src rets old w new pc cur rest d w', rets_ok rets -> inv K R src rets old w -> dw_stack w = (pc, cur) :: rest ->
  sorted_keys new -> (forall a, view old new a = view old (dw_new w) a) -> view old (dw_new w) pc = Some d ->
  visit_again src pc cur d (dw_set_new new (dw_set_stack rest w)) = Ok w' -> inv K R src rets old w'.
Proof.
  intros K R src rets old w new pc cur rest d w' RO I ST SN VE VD H. apply visit_again_spec in H. cbv zeta in H.
  assert (F0 : om_find pc (dw_stack w) = Some cur) by (rewrite ST; cbn [om_find]; rewrite Z.eqb_refl; reflexivity).
  pose proof (inv_con _ _ _ _ _ _ I _ _ F0) as CC. cbn in CC. pose proof (inv_addr _ _ _ _ _ _ I _ _ F0) as APC.
  destruct (inv_entry _ _ _ _ _ _ I _ _ VD) as [_ EN0]. pose proof EN0 as EN1. destruct EN1 as (bytes & j & far & v & RD & DE & FA & RE & LO & SC & CD & CN & SF & OUT).
  destruct H as [[B ->]|(NB & bytes' & i0 & nx & far' & ps & RD' & DE' & EX & FA' & PS0 & ->)]; cbn [dw_set_new dw_set_stack dw_new dw_stack dw_labels dw_far dw_sym].
  - (* nothing new *)
    pose proof (inv_st _ _ _ _ _ _ I) as S0. rewrite ST in S0. pose proof (inv_con _ _ _ _ _ _ I) as C0. rewrite ST in C0.
    assert (DU : forall a, due (view old new) rest a = due (view old (dw_new w)) (dw_stack w) a).
    { intros a. rewrite ST. apply due_pop with d; [exact S0|intros b _; apply VE|rewrite VE; exact VD|rewrite VD; symmetry; exact B]. }
    assert (CVD : forall a s, cov (view old (dw_new w)) (dw_stack w) a s -> cov (view old new) rest a s) by (intros a s (u & U & X); exists u; rewrite DU; auto).
    assert (RR : forall a s, om_find a rest = Some s -> om_find a (dw_stack w) = Some s).
    { intros a s F. rewrite ST. cbn [om_find]. destruct (Z.eqb_spec pc a) as [<-|N]; [|exact F]. exfalso. apply om_find_in in F. apply S0 in F. lia. }
    constructor; cbn [dw_set_new dw_set_stack dw_new dw_stack dw_labels dw_far dw_sym].
    + exact SN.
    + apply S0.
    + apply I.
    + apply I.
    + intros a s F. exact (inv_con _ _ _ _ _ _ I a s (RR _ _ F)).
    + apply I.
    + intros a s F. exact (inv_addr _ _ _ _ _ _ I a s (RR _ _ F)).
    + intros a d' E. rewrite VE in E. exact (inv_entry _ _ _ _ _ _ I _ _ E).
    + intros a d' b s E L. rewrite VE in E. apply CVD. exact (inv_leads _ _ _ _ _ _ I _ _ _ _ E L).
    + intros a s F. destruct (inv_lab _ _ _ _ _ _ I _ _ F) as [N [u U]]. split; [exact N|]. exists u. rewrite DU. exact U.
    + apply I.
    + intros a d' E. rewrite VE in E. exact (inv_dlab _ _ _ _ _ _ I _ _ E).
    + intros a d' E FS. rewrite VE in E. exact (inv_far _ _ _ _ _ _ I _ _ E FS).
    + intros a s RQ. destruct (inv_req _ _ _ _ _ _ I _ _ RQ) as [CS H]. split; [exact CS|apply CVD; exact H].
    + apply (inv_keep _ _ _ _ _ _ I).
  - rewrite RD in RD'. injection RD' as <-.
    assert (CM : es_consistent (es_merge cur (di_cur d))) by apply es_merge_consistent.
    assert (J : i0 = j).
    { pose proof (decode_stronger _ _ _ _ (proj1 CD) (below_flags _ _ (below_r _ _ CC CD)) DE') as X. rewrite DE in X. injection X as ->. reflexivity. }
    subst i0. rewrite (same_far _ _ _ _ SC), FA in FA'. injection FA' as <-.
    destruct (decode_ret _ _ _ DE) as [JR JS].
    assert (RC : rc_consistent (i_ret (di_instr d))) by (rewrite RE; apply called_ok; assumption).
    assert (CX : es_consistent nx) by (eapply execute_consistent; [exact EX|exact RC|exact CM]).
    set (i := di_instr d) in *. set (next_pc := add_wrapped pc (instruction_length (i_mode i))) in *.
    assert (AN : addr24 next_pc) by (apply add_wrapped_24; apply APC).
    assert (LI : is_local_branch i = is_local_branch j) by exact (same_local _ _ _ SC).
    assert (PE : ps = if is_local_branch i then [(target pc i v, taken (i_mnem i) cur)] else []).
    { destruct PS0 as [[-> ->]|(L & v' & bs & EB & BO & ->)]; [reflexivity|]. rewrite L. rewrite (same_offset _ _ _ SC) in BO. destruct (LO (eq_trans (eq_sym LI) L)) as [BO' _].
      rewrite BO in BO'. injection BO' as ->. apply branch_taken in EB; [subst bs; reflexivity|]. exact (checked_relative _ _ _ EX L). }
    rewrite far_added_far.
    eapply (inv_visit K R src rets old w new pc cur rest); try eassumption; cbn [di_cur di_label di_instr].
    + rewrite VD. reflexivity.
    + apply I.
    + apply I.
    + intros a _. reflexivity.
    + intros b t F. split; [apply (inv_lab _ _ _ _ _ _ I _ _ F)|auto].
    + exists bytes, j, far, v. cbn [di_instr di_cur di_next]. split; [exact RD|]. split; [exact DE'|]. split; [exact FA|]. split; [exact RE|]. split; [exact LO|]. split; [exact SC|].
      split; [exact CM|]. split; [exact CX|].
      split; [eapply sfx_weaker; [exact (proj1 CD)|exact (below_flags _ _ (below_r _ _ CC CD))|exact SF]|]. left. exists (i_suffix i). replace (i_with_suffix (i_suffix i) i) with i by (destruct i; reflexivity). exact EX.
    + exact (inv_dlab _ _ _ _ _ _ I _ _ VD).
    + intros k t IN. apply in_app_or in IN. destruct IN as [IN|IN].
      * unfold falls in IN. destruct (is_exit_instruction i); [destruct IN|]. destruct IN as [E|[]]. injection E as <- <-. auto.
      * rewrite PE in IN. destruct (is_local_branch i); [|destruct IN]. destruct IN as [E|[]]. injection E as <- <-. split; [apply taken_consistent; exact CC|apply add_wrapped_24; apply AN].
    + intros b s L. unfold leads in L. cbn [di_instr di_cur di_next] in L. destruct L as [(E & -> & ->)|(E & -> & v' & BO & ->)].
      * left. apply in_or_app. left. unfold falls. rewrite E. left. reflexivity.
      * right. exists d. split; [exact VD|]. exists (taken (i_mnem i) cur), (taken (i_mnem i) (di_cur d)). split; [apply taken_merge|].
        assert (V' : v' = v). { pose proof BO as BO1. rewrite (same_offset _ _ _ SC) in BO1. destruct (LO (eq_trans (eq_sym LI) E)) as [BO' _]. congruence. } subst v'.
        split; [apply in_or_app; right; rewrite PE, E; left; reflexivity|]. split; [|apply taken_consistent; exact CC].
        right. split; [exact E|]. split; [reflexivity|]. exists v. auto.
    + apply CX.
    + intros t T. change (far_branch_target i pc = Ok (Some t)) in T. rewrite (same_far _ _ _ _ SC), FA in T. injection T as ->. split; [reflexivity|]. intros Y.
      assert (E : es_flags nx = left_flags (es_merge cur (di_cur d))).
      { apply (call_flags i); [|exact EX|exact Y]. destruct SC as (M & _). rewrite M. exact (far_kind _ _ _ FA). }
      rewrite E. apply flags_merge_idem. apply con_set_c. apply CM.
Qed.

Lemma inv_step : forall K R src rets old w w', rets_ok rets -> inv K R src rets old w -> snd (disasm_step src rets old w) = Ok w' -> inv K R src rets old w'.
Proof.
  intros K R src rets old w w' RO I H. unfold disasm_step in H. destruct (dw_stack w) as [|[pc cur] rest] eqn:ST; [injection H as <-; exact I|].
  cbn [dw_set_stack dw_new] in H. destruct (get_instruction old (dw_new w) pc) as [found new] eqn:G.
  destruct (get_spec _ _ _ _ _ (inv_new _ _ _ _ _ _ I) G) as (FV & SN & VE & _ & _). symmetry in FV. destruct found as [d|].
  - exact (inv_again_step K R src rets old w new pc cur rest d w' RO I ST SN VE FV H).
  - destruct (visit_new src rets old pc cur (dw_set_new new (dw_set_stack rest w))) as [w1 r] eqn:N. cbn [snd] in H. subst r.
    exact (inv_new_step K R src rets old w new pc cur rest w1 w' RO I ST SN VE FV N).
Qed.
Lemma inv_loop : forall fuel K R src rets old w w1 w', rets_ok rets -> inv K R src rets old w -> disasm_loop fuel src rets old w = (w1, Ok w') -> inv K R src rets old w' /\ dw_stack w' = [].
Proof.
  induction fuel as [|fuel IH]; intros K R src rets old w w1 w' RO I H; cbn [disasm_loop] in H; destruct (dw_stack w) as [|p st] eqn:ST.
  - injection H as <- <-. auto.
  - discriminate H.
  - injection H as <- <-. auto.
  - destruct (disasm_step src rets old w) as [w2 r] eqn:E. destruct r as [w3| | |]; [|discriminate H..].
    eapply IH; [exact RO| |exact H]. eapply inv_step; [exact RO|exact I|rewrite E; reflexivity].
Qed.
