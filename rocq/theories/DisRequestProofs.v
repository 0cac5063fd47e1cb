(** Requests: what holds of a disassembler after any number of them. *)
From Verif Require Import Base ModelNumeric ModelAddress ModelExpr ModelMnemonic ModelAMode ModelOpcode ModelState ModelInstr ModelMap ModelRom ModelDisasm
  SpecArith SpecInstr SpecState SpecFlow SpecDisasm BaseProofs MapProofs ArithProofs StateProofs InstrProofs FlowArriveProofs FlowKindProofs DisStateProofs DisStepProofs DisInvProofs DisRunProofs.
Open Scope list_scope.
Open Scope Z_scope.
Local Opaque check_consistency execute_in execute_branch decode far_branch_target branch_offset.

(** ** Copying the new instructions and applying labels. *)
Lemma find_map : forall A B (f : A -> B) m k, om_find k (map (fun kv => (fst kv, f (snd kv))) m) = option_map f (om_find k m).
Proof. intros A B f. induction m as [|[j x] m IH]; intros k; cbn; [reflexivity|]. destruct (j =? k); [reflexivity|apply IH]. Qed.
Lemma map_sorted : forall A B (f : A -> B) m, sorted_keys m -> sorted_keys (map (fun kv => (fst kv, f (snd kv))) m).
Proof.
  intros A B f. induction m as [|[j x] m IH]; intros S; [exact I|]. destruct S as [S1 S2]. split; [|apply IH; exact S2].
  intros k w IN. apply in_map_iff in IN. destruct IN as ([k' x'] & E & IN). injection E as <- _. exact (S1 _ _ IN).
Qed.
Lemma copy_sorted : forall (l : omap dinstr) m, sorted_keys m -> sorted_keys (fold_left (fun m kv => om_set (fst kv) (snd kv) m) l m).
Proof. induction l as [|[k x] l IH]; intros m S; [exact S|]. apply IH. apply om_set_sorted. exact S. Qed.
Lemma copy_find : forall (l : omap dinstr) m a, sorted_keys l -> sorted_keys m ->
  om_find a (fold_left (fun m kv => om_set (fst kv) (snd kv) m) l m) = match om_find a l with Some d => Some d | None => om_find a m end.
Proof.
  induction l as [|[k x] l IH]; intros m a SL S; [reflexivity|]. destruct SL as [S1 S2]. cbn [fold_left fst snd om_find].
  rewrite IH by (try exact S2; apply om_set_sorted; exact S). rewrite om_find_set by exact S. destruct (Z.eqb_spec k a) as [<-|N]; [|reflexivity].
  destruct (om_find k l) as [y|] eqn:F; [|reflexivity]. apply om_find_in in F. apply S1 in F. lia.
Qed.
Lemma labels_applied : forall ls m m', sorted_keys ls -> sorted_keys m -> apply_labels ls m = Ok m' ->
  sorted_keys m' /\ forall a, om_find a m' = option_map (fun d => match om_find a ls with Some s => di_with_label s d | None => d end) (om_find a m).
Proof.
  induction ls as [|[k s] ls IH]; intros m m' SL S H; cbn [apply_labels] in H.
  - injection H as <-. split; [exact S|]. intros a. cbn. destruct (om_find a m); reflexivity.
  - destruct SL as [S1 S2]. destruct (om_find k m) as [d|] eqn:F; [|discriminate H]. destruct (IH _ _ S2 (om_set_sorted _ _ _ _ S) H) as [S' E]. split; [exact S'|].
    intros a. rewrite E, om_find_set by exact S. cbn [om_find]. destruct (Z.eqb_spec k a) as [<-|N]; [|reflexivity]. rewrite F. cbn [option_map].
    destruct (om_find k ls) as [y|] eqn:G; [|reflexivity]. apply om_find_in in G. apply S1 in G. lia.
Qed.
Lemma labels_apply : forall ls m, sorted_keys ls -> sorted_keys m -> (forall a s, om_find a ls = Some s -> om_find a m <> None) -> exists m', apply_labels ls m = Ok m'.
Proof.
  induction ls as [|[k s] ls IH]; intros m SL S H; cbn [apply_labels]; [eauto|]. destruct SL as [S1 S2].
  destruct (om_find k m) as [d|] eqn:F. 2:{ exfalso. apply (H k s); [cbn; rewrite Z.eqb_refl; reflexivity|exact F]. }
  apply IH; [exact S2|apply om_set_sorted; exact S|]. intros a t G. rewrite om_find_set by exact S. destruct (Z.eqb_spec k a) as [<-|N]; [discriminate|].
  apply (H a t). cbn. destruct (Z.eqb_spec k a); [congruence|exact G].
Qed.

(** ** The state between requests. *)
Definition met (m : omap dinstr) (a : Z) (s : estate) : Prop := exists d, om_find a m = Some d /\ below s (di_cur d).
Record good (R : Z -> estate -> Prop) (src : source) (rets : omap retconv) (d : disassembler) : Prop := Good {
  good_sorted : sorted_keys (ds_map d);
  good_rets : ds_rets d = rets;
  good_entry : forall a c, om_find a (ds_map d) = Some c -> addr24 a /\ entry_ok src rets (old_label (ds_map d)) a c;
  good_leads : forall a c b s, om_find a (ds_map d) = Some c -> leads a c b s -> met (ds_map d) b s;
  good_names : names_ok (old_label (ds_map d)) (ds_sym d);
  good_req : forall a s, R a s -> es_consistent s /\ met (ds_map d) a s /\ old_label (ds_map d) a <> ""%string }.

Lemma inv_start : forall R src rets d start f w lab, good R src rets d -> addr24 start -> consistent f ->
  get_label (ds_map d) (DWork [] [] (om_set start (estate_of_flags f) []) [] (ds_sym d)) start = (lab, w) ->
  inv (fun a => old_label (ds_map d) a <> ""%string \/ a = start) (fun a s => R a s \/ a = start /\ s = estate_of_flags f \/ exists c, om_find a (ds_map d) = Some c /\ s = di_cur c) src rets (ds_map d) w /\
  om_find start (dw_stack w) <> None /\ label_of (ds_map d) (dw_labels w) start <> ""%string /\ dw_new w = [] /\ lab_le (old_label (ds_map d)) (label_of (ds_map d) (dw_labels w)).
Proof.
  intros R src rets d start f w lab G A C GL. pose proof (get_label_rest _ _ _ _ _ GL) as (N0 & S0 & F0). cbn [dw_new dw_stack dw_far] in N0, S0, F0.
  apply get_label_spec in GL; cbn [dw_labels dw_sym] in *; [|exact I|exact (good_names _ _ _ _ G)|intros b t F; discriminate F].
  destruct GL as (LE & NE & SL & NM & _ & LL & LS). change (label_of (ds_map d) []) with (old_label (ds_map d)) in LL.
  assert (CF : es_consistent (estate_of_flags f)). { split; [|intros v []]. cbn [es_flags estate_of_flags]. apply produced_iff. apply pr_in. apply produced_iff. exact C. }
  split; [|split; [rewrite S0; cbn; rewrite Z.eqb_refl; discriminate|split; [rewrite <- LE; exact NE|split; [exact N0|exact LL]]]].
  assert (VV : forall a, view (ds_map d) (dw_new w) a = om_find a (ds_map d)) by (intros a; rewrite N0; reflexivity).
  assert (CV : con_view (view (ds_map d) (dw_new w))).
  { intros a c E. rewrite VV in E. destruct (good_entry _ _ _ _ G _ _ E) as [_ X]. apply (entry_con _ _ _ _ _ X). }
  assert (AC : all_con []) by (intros j t F; discriminate F).
  assert (M : forall a s, es_consistent s -> met (ds_map d) a s -> cov (view (ds_map d) (dw_new w)) (dw_stack w) a s).
  { intros a s CS (c & F & B). rewrite S0. change (om_set start (estate_of_flags f) []) with (push_all [(start, estate_of_flags f)] []).
    apply cov_push; [exact CV|exact AC|exact I|intros k t [E|[]]; injection E as <- <-; exact CF|exact CS|]. left. exists (di_cur c). split; [|exact B]. unfold due. cbn. rewrite VV, F. reflexivity. }
  assert (ST : cov (view (ds_map d) (dw_new w)) (dw_stack w) start (estate_of_flags f)).
  { rewrite S0. change (om_set start (estate_of_flags f) []) with (push_all [(start, estate_of_flags f)] []).
    apply cov_push; [exact CV|exact AC|exact I|intros k t [E|[]]; injection E as <- <-; exact CF|exact CF|right; left; reflexivity]. }
  constructor.
  - rewrite N0. exact I.
  - rewrite S0. split; [intros ? ? []|exact I].
  - exact SL.
  - rewrite F0. exact I.
  - rewrite S0. intros j t F. cbn in F. destruct (start =? j); [injection F as <-; exact CF|discriminate F].
  - rewrite F0. intros t g F. discriminate F.
  - rewrite S0. intros j t F. cbn in F. destruct (Z.eqb_spec start j) as [<-|N]; [exact A|discriminate F].
  - intros a c E. rewrite VV in E. destruct (good_entry _ _ _ _ G _ _ E) as [X Y]. split; [exact X|]. exact (entry_mono _ _ _ _ _ _ LL Y).
  - intros a c b s E L. rewrite VV in E. apply M; [exact (leads_con _ _ _ _ _ _ _ (proj2 (good_entry _ _ _ _ G _ _ E)) L)|exact (good_leads _ _ _ _ G _ _ _ _ E L)].
  - intros a s F. destruct (LS a s F) as [X [->|Y]]; [|discriminate Y]. split; [exact X|]. destruct ST as (u & U & _). eauto.
  - exact NM.
  - intros a c E. rewrite VV in E. unfold old_label. rewrite E. reflexivity.
  - intros a c E FS. rewrite VV in E. destruct (FS c E eq_refl).
  - intros a s [RQ|[[-> ->]|(c & F & ->)]].
    + destruct (good_req _ _ _ _ G _ _ RQ) as (CS & MT & _). split; [exact CS|apply M; assumption].
    + split; [exact CF|exact ST].
    + assert (CS : es_consistent (di_cur c)) by (apply (CV a); rewrite VV; exact F). split; [exact CS|]. apply M; [exact CS|]. exists c. split; [exact F|apply below_refl; exact CS].
  - intros a [N| ->]; [rewrite (LL a N); exact N|rewrite <- LE; exact NE].
Qed.

(** ** The symbol counter never falls. *)
Lemma label_sym : forall old w a lab w', get_label old w a = (lab, w') -> dw_sym w <= dw_sym w'.
Proof.
  intros old w a lab w' H. unfold get_label in H. destruct (om_find a (dw_labels w)); [injection H as <- <-; lia|].
  destruct (om_find a old) as [d|]; [destruct (String.eqb (di_label d) "")|]; injection H as <- <-; cbn; lia.
Qed.
Lemma new_sym : forall src rets old pc cur w w1 r, visit_new src rets old pc cur w = (w1, r) -> dw_sym w <= dw_sym w1 /\ forall w', r = Ok w' -> w' = w1.
Proof.
  intros src rets old pc cur w w1 r H. unfold visit_new in H.
  destruct (let* bytes := src pc 4 in let* i := decode bytes (es_flags cur) in let* next := execute i cur in Ok (i, next)) as [[i0 nx0]|e|u|];
    [|injection H as <- <-; split; [lia|discriminate]..].
  cbv zeta in H. destruct (far_branch_target i0 pc) as [far|e|u|]; [|injection H as <- <-; split; [lia|discriminate]..].
  assert (X : exists i1 nx w0, match far with
    | None => (i0, nx0, w)
    | Some target => (match i_mnem i0 with M_jsr | M_jsl => match om_find target rets with Some r => i_with_ret r i0 | None => i0 end | _ => i0 end,
        rc_apply (i_ret (match i_mnem i0 with M_jsr | M_jsl => match om_find target rets with Some r => i_with_ret r i0 | None => i0 end | _ => i0 end)) nx0, dw_add_far target nx0 w)
    end = (i1, nx, w0) /\ dw_sym w0 = dw_sym w) by (destruct far; repeat eexists).
  destruct X as (i1 & nx & w0 & X & S0). rewrite X in H. rewrite <- S0. clear X.
  destruct (is_local_branch i1).
  - destruct (branch_offset i1) as [v|e|u|]; [|injection H as <- <-; split; [lia|discriminate]..].
    destruct (get_label old w0 _) as [lab lw] eqn:GL. apply label_sym in GL.
    match type of H with context [execute_branch ?a ?b] => destruct (execute_branch a b) as [bs|e|u|] end; [|injection H as <- <-; split; [lia|discriminate]..].
    injection H as <- <-. split; [destruct (is_exit_instruction _); cbn; lia|intros w' E; injection E as <-; reflexivity].
  - injection H as <- <-. split; [destruct (is_exit_instruction _); cbn; lia|intros w' E; injection E as <-; reflexivity].
Qed.
Lemma step_sym : forall src rets old w w1 r, disasm_step src rets old w = (w1, r) -> dw_sym w <= dw_sym w1 /\ forall w', r = Ok w' -> dw_sym w <= dw_sym w'.
Proof.
  intros src rets old w w1 r H. unfold disasm_step in H. destruct (dw_stack w) as [|[pc cur] rest]; [injection H as <- <-; split; [lia|intros w' E; injection E as <-; lia]|].
  cbn [dw_set_stack dw_new] in H. destruct (get_instruction old (dw_new w) pc) as [[d|] new].
  - injection H as <- <-. split; [cbn; lia|]. intros w' E. apply visit_again_spec in E. cbv zeta in E. destruct E as [[_ ->]|(_ & b & i & nx & far & ps & _ & _ & _ & _ & _ & ->)]; cbn; lia.
  - apply new_sym in H. cbn [dw_set_new dw_set_stack dw_sym] in H. destruct H as [L E]. split; [exact L|]. intros w' X. rewrite (E _ X). exact L.
Qed.
Lemma loop_sym : forall fuel src rets old w w1 r, disasm_loop fuel src rets old w = (w1, r) -> dw_sym w <= dw_sym w1 /\ forall w', r = Ok w' -> w' = w1.
Proof.
  induction fuel as [|fuel IH]; intros src rets old w w1 r H; cbn [disasm_loop] in H; destruct (dw_stack w) as [|p st].
  - injection H as <- <-. split; [lia|intros w' E; injection E as <-; reflexivity].
  - injection H as <- <-. split; [lia|discriminate].
  - injection H as <- <-. split; [lia|intros w' E; injection E as <-; reflexivity].
  - destruct (disasm_step src rets old w) as [w2 r2] eqn:E. destruct (step_sym _ _ _ _ _ _ E) as [L1 L2]. destruct r2 as [w3| | |].
    + destruct (IH _ _ _ _ _ _ H) as [L3 L4]. specialize (L2 _ eq_refl). split; [lia|exact L4].
    + injection H as <- <-. split; [lia|discriminate].
    + injection H as <- <-. split; [lia|discriminate].
    + injection H as <- <-. split; [lia|discriminate].
Qed.
Lemma names_mono : forall lab n n', n <= n' -> names_ok lab n -> names_ok lab n'.
Proof.
  intros lab n n' L (P & E & U). split; [lia|]. split; [|intros B; apply U; lia]. intros a A. destruct (E a A) as (k & K & X). exists k. split; [lia|exact X].
Qed.

(** ** A request. *)
Lemma add_suffix_rest : forall d, di_label (add_suffix d) = di_label d /\ di_cur (add_suffix d) = di_cur d /\ di_next (add_suffix d) = di_next d /\
  exists sfx, di_instr (add_suffix d) = i_with_suffix sfx (di_instr d) /\ (sfx_ok (i_mnem (di_instr d)) (i_suffix (di_instr d)) (es_flags (di_cur d)) -> sfx_ok (i_mnem (di_instr d)) sfx (es_flags (di_cur d))).
Proof.
  intros [l i e c n]. unfold add_suffix. cbn [di_label di_cur di_next di_instr]. repeat (split; [reflexivity|]).
  assert (SAME : exists sfx, i = i_with_suffix sfx i /\ (sfx_ok (i_mnem i) (i_suffix i) (es_flags c) -> sfx_ok (i_mnem i) sfx (es_flags c))).
  { exists (i_suffix i). split; [destruct i; reflexivity|auto]. }
  unfold sfx_ok in *. destruct (flag_controlling_size (i_mnem i)).
  - destruct (fl_m (es_flags c)); [eexists; split; [reflexivity|]; intros _; right; right; split; [reflexivity|discriminate]|eexists; split; [reflexivity|]; intros _; right; left; split; [reflexivity|discriminate]|exact SAME..].
  - destruct (fl_x (es_flags c)); [eexists; split; [reflexivity|]; intros _; right; right; split; [reflexivity|discriminate]|eexists; split; [reflexivity|]; intros _; right; left; split; [reflexivity|discriminate]|exact SAME..].
  - exact SAME.
Qed.
(** Only label and suffix may differ. *)
Definition relabelled (d d' : dinstr) : Prop := di_cur d' = di_cur d /\ di_next d' = di_next d /\
  exists sfx, di_instr d' = i_with_suffix sfx (di_instr d) /\ (sfx_ok (i_mnem (di_instr d)) (i_suffix (di_instr d)) (es_flags (di_cur d)) -> sfx_ok (i_mnem (di_instr d)) sfx (es_flags (di_cur d))).
Lemma relabelled_entry : forall src rets lab a d d', relabelled d d' -> entry_ok src rets lab a d -> entry_ok src rets lab a d'.
Proof.
  intros src rets lab a d d' (CE & NE & sfx & IE & SE) (bytes & j & far & v & RD & DE & FA & RE & LO & SC & CC & CN & SF & OUT).
  exists bytes, j, far, v. cbv zeta. rewrite CE, NE, IE. cbn [i_ret i_mnem i_suffix i_with_suffix].
  split; [exact RD|]. split; [exact DE|]. split; [exact FA|]. split; [exact RE|]. split; [exact LO|]. split; [exact SC|]. split; [exact CC|]. split; [exact CN|].
  split; [exact (SE SF)|]. exact OUT.
Qed.
Lemma relabelled_leads : forall a d d' b s, relabelled d d' -> leads a d' b s -> leads a d b s.
Proof.
  Local Transparent branch_offset.
  intros a d d' b s (CE & NE & sfx & IE & _) L. unfold leads in *. rewrite CE, NE, IE in L. exact L.
  Local Opaque branch_offset.
Qed.
Lemma request : forall R src rets d fuel start f d' r, rets_ok rets -> good R src rets d -> addr24 start -> consistent f ->
  disassemble fuel src start f d = (d', r) ->
  match r with
  | Ok far => good (fun a s => R a s \/ a = start /\ s = estate_of_flags f) src rets d' /\
      (forall a c, om_find a (ds_map d) = Some c -> met (ds_map d') a (di_cur c)) /\
      (forall a c, om_find a (ds_map d') = Some c -> fresh (ds_map d) a c -> far_told far a c) /\
      sorted_keys far /\ (forall t g, om_find t far = Some g -> consistent g)
  | _ => ds_map d' = ds_map d /\ ds_rets d' = ds_rets d /\ good R src rets d'
  end.
Proof.
  intros R src rets d fuel start f d' r RO G A C H. unfold disassemble in H. rewrite (good_rets _ _ _ _ G) in H.
  destruct (get_label (ds_map d) (DWork [] [] (om_set start (estate_of_flags f) []) [] (ds_sym d)) start) as [lab w0] eqn:GL.
  pose proof (label_sym _ _ _ _ _ GL) as SY0. cbn [dw_sym] in SY0.
  destruct (inv_start _ _ _ _ _ _ _ _ G A C GL) as (I0 & ST0 & LN0 & NW0 & LL0).
  destruct (disasm_loop fuel src rets (ds_map d) w0) as [w1 r1] eqn:LP. destruct (loop_sym _ _ _ _ _ _ _ LP) as [SY1 WE].
  assert (BAD : good R src rets (Disassembler (om_insert start tt (ds_entries d)) (ds_map d) rets (dw_sym w1))).
  { destruct G as [G1 G2 G3 G4 G5 G6]. constructor; cbn; auto. eapply names_mono; [|exact G5]. lia. }
  assert (FAIL : forall e, (d', r) = (Disassembler (om_insert start tt (ds_entries d)) (ds_map d) rets (dw_sym w1), e) -> ds_map d' = ds_map d /\ ds_rets d' = ds_rets d /\ good R src rets d').
  { intros e E. injection E as -> _. cbn. split; [reflexivity|]. split; [symmetry; exact (good_rets _ _ _ _ G)|exact BAD]. }
  destruct r1 as [w|e|u|]; [|injection H as <- <-; eapply FAIL; reflexivity..].
  pose proof (WE _ eq_refl) as W1. subst w1. destruct (inv_loop _ _ _ _ _ _ _ _ _ RO I0 LP) as [IV SE].
  set (V := view (ds_map d) (dw_new w)) in *.
  set (m0 := fold_left (fun m kv => om_set (fst kv) (snd kv) m) (map (fun kv => (fst kv, add_suffix (snd kv))) (dw_new w)) (ds_map d)) in *.
  pose proof (inv_new _ _ _ _ _ _ IV) as SN. pose proof (good_sorted _ _ _ _ G) as SD.
  assert (S0 : sorted_keys m0) by (apply copy_sorted; exact SD).
  assert (F0 : forall a, om_find a m0 = match om_find a (dw_new w) with Some x => Some (add_suffix x) | None => om_find a (ds_map d) end).
  { intros a. unfold m0. rewrite copy_find by (try exact SD; apply map_sorted; exact SN). rewrite find_map. destruct (om_find a (dw_new w)); reflexivity. }
  assert (DUE : forall a, due V (dw_stack w) a = option_map di_cur (V a)) by (intros a; unfold due; rewrite SE; cbn; destruct (V a); reflexivity).
  assert (LA : forall a s, om_find a (dw_labels w) = Some s -> om_find a m0 <> None).
  { intros a s F. destruct (inv_lab _ _ _ _ _ _ IV _ _ F) as [_ [u U]]. fold V in U. rewrite DUE in U. rewrite F0. unfold V, view in U. destruct (om_find a (dw_new w)); [discriminate|].
    destruct (om_find a (ds_map d)); [discriminate|discriminate U]. }
  destruct (labels_apply (dw_labels w) m0 (inv_ls _ _ _ _ _ _ IV) S0 LA) as [m AE]. rewrite AE in H. injection H as <- <-. cbn [ds_map ds_rets ds_sym].
  destruct (labels_applied _ _ _ (inv_ls _ _ _ _ _ _ IV) S0 AE) as [SM FM].
  assert (FIN : forall a, match V a with
      | Some x => exists y, om_find a m = Some y /\ relabelled x y /\ di_label y = label_of (ds_map d) (dw_labels w) a
      | None => om_find a m = None end).
  { intros a. rewrite FM, F0. unfold V, view. unfold label_of. destruct (om_find a (dw_new w)) as [x|] eqn:FN.
    - cbn [option_map]. eexists. split; [reflexivity|]. destruct (add_suffix_rest x) as (L & CU & NX & sfx & IE & SF).
      assert (LX : di_label x = old_label (ds_map d) a) by (apply (inv_dlab _ _ _ _ _ _ IV); unfold view; rewrite FN; reflexivity).
      destruct (om_find a (dw_labels w)); cbn [di_with_label di_label di_cur di_next di_instr]; (split; [split; [exact CU|split; [exact NX|exists sfx; auto]]|]); [reflexivity|congruence].
    - destruct (om_find a (ds_map d)) as [x|] eqn:FD; [|reflexivity]. cbn [option_map]. eexists. split; [reflexivity|].
      assert (RL : forall s, relabelled x (di_with_label s x) /\ relabelled x x).
      { intros s. split; (split; [reflexivity|split; [reflexivity|]]); exists (i_suffix (di_instr x)); (split; [destruct x as [? [] ? ? ?]; reflexivity|auto]). }
      unfold old_label. rewrite FD. destruct (om_find a (dw_labels w)) as [s|]; (split; [apply (RL (match Some s with Some s => s | None => s end)) || apply (RL ""%string)|reflexivity]). }
  assert (LBL : forall a, V a <> None -> old_label m a = label_of (ds_map d) (dw_labels w) a).
  { intros a N. specialize (FIN a). destruct (V a) as [x|]; [|congruence]. destruct FIN as (y & FY & _ & LY). unfold old_label. rewrite FY. exact LY. }
  assert (LBE : forall a, old_label m a <> ""%string -> V a <> None).
  { intros a N E. specialize (FIN a). rewrite E in FIN. unfold old_label in N. rewrite FIN in N. congruence. }
  assert (LLE : lab_le (label_of (ds_map d) (dw_labels w)) (old_label m)).
  { intros a N. apply LBL. intros E. apply N. unfold label_of. destruct (om_find a (dw_labels w)) as [s|] eqn:F.
    - exfalso. destruct (inv_lab _ _ _ _ _ _ IV _ _ F) as [_ [u U]]. fold V in U. rewrite DUE, E in U. discriminate U.
    - unfold old_label. unfold V, view in E. destruct (om_find a (dw_new w)); [discriminate E|]. rewrite E. reflexivity. }
  assert (BACK : forall a y, om_find a m = Some y -> exists x, V a = Some x /\ relabelled x y).
  { intros a y F. specialize (FIN a). destruct (V a) as [x|]; [|congruence]. destruct FIN as (y' & FY & RL & _). rewrite F in FY. injection FY as <-. eauto. }
  assert (MET : forall a s, cov V (dw_stack w) a s -> met m a s).
  { intros a s (u & U & B). rewrite DUE in U. specialize (FIN a). destruct (V a) as [x|]; [|discriminate U]. injection U as <-. destruct FIN as (y & FY & (CY & _) & _).
    exists y. split; [exact FY|rewrite CY; exact B]. }
  split; [|split; [|split; [|split; [exact (inv_fs _ _ _ _ _ _ IV)|exact (inv_fcon _ _ _ _ _ _ IV)]]]].
  - constructor; cbn [ds_map ds_rets ds_sym].
    + exact SM.
    + reflexivity.
    + intros a y F. destruct (BACK a y F) as (x & VX & RL). destruct (inv_entry _ _ _ _ _ _ IV _ _ VX) as [AA EN]. split; [exact AA|].
      eapply relabelled_entry; [exact RL|]. eapply entry_mono; [exact LLE|exact EN].
    + intros a y b s F L. destruct (BACK a y F) as (x & VX & RL). apply MET. eapply (inv_leads _ _ _ _ _ _ IV); [exact VX|]. eapply relabelled_leads; [exact RL|exact L].
    + destruct (inv_names _ _ _ _ _ _ IV) as (P & E & U). split; [exact P|]. split.
      * intros a N. rewrite LBL in * by (apply LBE; exact N). apply E. exact N.
      * intros B a b N X. pose proof (LBE a N) as VA. pose proof (LBE b ltac:(congruence)) as VB. rewrite !LBL in * by assumption. apply U; assumption.
    + intros a s RQ. assert (RQ' : (R a s \/ a = start /\ s = estate_of_flags f \/ exists c, om_find a (ds_map d) = Some c /\ s = di_cur c)) by tauto.
      destruct (inv_req _ _ _ _ _ _ IV _ _ RQ') as [CS CO]. split; [exact CS|]. split; [exact (MET _ _ CO)|].
      assert (N : label_of (ds_map d) (dw_labels w) a <> ""%string).
      { apply (inv_keep _ _ _ _ _ _ IV). destruct RQ as [RQ|[-> _]]; [left; apply (good_req _ _ _ _ G _ _ RQ)|right; reflexivity]. }
      rewrite (LLE a N). exact N.
  - intros a c F. apply MET. apply (inv_req _ _ _ _ _ _ IV). right. right. eauto.
  - intros a y F FS. destruct (BACK a y F) as (x & VX & (CY & _ & sfx & IE & _)). intros t FT Y. rewrite CY.
    apply (inv_far _ _ _ _ _ _ IV _ _ VX); [intros d0 D0; rewrite <- CY; exact (FS d0 D0)| |]; rewrite IE in FT, Y; [exact FT|exact Y].
Qed.
