(** Everything collected is reached from a request. *)
From Verif Require Import Base ModelNumeric ModelAddress ModelExpr ModelMnemonic ModelAMode ModelOpcode ModelState ModelInstr ModelMap ModelRom ModelDisasm
  SpecArith SpecInstr SpecState SpecFlow Spec65816 SpecDisasm BaseProofs MapProofs ArithProofs StateProofs InstrProofs FlowArriveProofs FlowKindProofs
  DisStateProofs DisStepProofs DisInvProofs DisRunProofs DisRequestProofs DisClosedProofs SpecTools ModelTools ToolRunProofs ToolProofs.
Open Scope list_scope.
Open Scope Z_scope.
Local Opaque check_consistency execute_in execute_branch decode far_branch_target branch_offset.

(** Control goes from [pc] to [b]. *)
Definition goes (pc : Z) (i : instr) (b : Z) : Prop :=
  (is_exit_instruction i = false /\ b = add_wrapped pc (instruction_length (i_mode i))) \/
  (is_local_branch i = true /\ exists v, branch_offset i = Ok v /\ b = target pc i v).
(** The same, and by jumps and calls if [F]. *)
Definition edge (F : bool) (pc : Z) (i : instr) (b : Z) : Prop := goes pc i b \/ F = true /\ far_branch_target i pc = Ok (Some b).
Inductive reach (F : bool) (V : Z -> option dinstr) (E : Z -> Prop) : Z -> Prop :=
| re_start : forall a, E a -> reach F V E a
| re_go : forall a c b, reach F V E a -> V a = Some c -> edge F a (di_instr c) b -> reach F V E b.
(** Only additions. *)
Definition extends (V V' : Z -> option dinstr) : Prop := forall a c, V a = Some c -> exists c', V' a = Some c' /\ forall F b, edge F a (di_instr c) b -> edge F a (di_instr c') b.
Lemma extends_refl : forall V, extends V V.
Proof. intros V a c H. eauto. Qed.
Lemma extends_trans : forall U V W, extends U V -> extends V W -> extends U W.
Proof. intros U V W A B a c H. destruct (A a c H) as (c' & H' & G). destruct (B a c' H') as (c2 & H2 & G2). exists c2. auto. Qed.
Lemma reach_mono : forall F V V' (E E' : Z -> Prop) a, extends V V' -> (forall a, E a -> E' a) -> reach F V E a -> reach F V' E' a.
Proof.
  intros F V V' E E' a X S R. induction R as [a H|a c b R IH H G]; [apply re_start; auto|]. destruct (X a c H) as (c' & H' & G'). eapply re_go; [exact IH|exact H'|exact (G' _ _ G)].
Qed.
(** All of [far] is led to from [V]. *)
Definition far_from (V : Z -> option dinstr) (far : omap flags) : Prop := forall t g, om_find t far = Some g -> exists a c, V a = Some c /\ edge true a (di_instr c) t.
Lemma far_from_mono : forall V V' far, extends V V' -> far_from V far -> far_from V' far.
Proof. intros V V' far X H t g F. destruct (H t g F) as (a & c & VA & J). destruct (X a c VA) as (c' & H' & G). exists a, c'. split; [exact H'|]. apply G. exact J. Qed.
Definition all_reached (F : bool) (E : Z -> Prop) (old : omap dinstr) (w : dwork) : Prop :=
  (forall a s, om_find a (dw_stack w) = Some s -> reach F (view old (dw_new w)) E a) /\
  (forall a c, view old (dw_new w) a = Some c -> reach F (view old (dw_new w)) E a) /\
  far_from (view old (dw_new w)) (dw_far w) /\ sorted_keys (dw_far w).

Lemma apply_same : forall lab i, is_local_branch (i_with_arg1 (apply_label lab (i_arg1 i)) i) = is_local_branch i /\ is_exit_instruction (i_with_arg1 (apply_label lab (i_arg1 i)) i) = is_exit_instruction i /\
  i_mode (i_with_arg1 (apply_label lab (i_arg1 i)) i) = i_mode i /\ i_mnem (i_with_arg1 (apply_label lab (i_arg1 i)) i) = i_mnem i.
Proof. intros lab []. repeat split. Qed.

Lemma reached_step : forall F E src rets old w w1 w', sorted_keys (dw_new w) -> sorted_keys (dw_stack w) -> all_reached F E old w ->
  disasm_step src rets old w = (w1, Ok w') ->
  sorted_keys (dw_new w') /\ sorted_keys (dw_stack w') /\ all_reached F E old w' /\ extends (view old (dw_new w)) (view old (dw_new w')).
Proof.
  intros F E src rets old w w1 w' SN SS (RS & RV & RF & SF) H. unfold disasm_step in H. destruct (dw_stack w) as [|[pc cur] rest] eqn:ST.
  { injection H as <- <-. split; [exact SN|]. rewrite ST. split; [exact I|]. split; [split; [rewrite ST; exact RS|split; [exact RV|auto]]|apply extends_refl]. }
  assert (SR : sorted_keys rest) by (destruct SS as [_ SS]; exact SS).
  assert (RP : reach F (view old (dw_new w)) E pc) by (apply (RS pc cur); cbn; rewrite Z.eqb_refl; reflexivity).
  assert (RR : forall a s, om_find a rest = Some s -> reach F (view old (dw_new w)) E a).
  { intros a s FA. apply (RS a s). cbn. destruct (Z.eqb_spec pc a) as [<-|N]; [|exact FA]. exfalso. destruct SS as [S1 _]. apply om_find_in in FA. apply S1 in FA. lia. }
  cbn [dw_set_stack dw_new] in H. destruct (get_instruction old (dw_new w) pc) as [found new] eqn:GI.
  destruct (get_spec _ _ _ _ _ SN GI) as (FE & SN' & VE & _ & _).
  assert (VX : forall a, reach F (view old (dw_new w)) E a -> reach F (view old new) E a).
  { intros a. apply reach_mono; [|auto]. intros b c V. exists c. rewrite VE. auto. }
  assert (FIN : forall c w2 ps, dw_new w2 = om_set pc c new -> dw_stack w2 = push_all ps rest ->
      (forall c0, view old new pc = Some c0 -> di_instr c0 = di_instr c) ->
      (forall b s, In (b, s) ps -> goes pc (di_instr c) b) ->
      (dw_far w2 = dw_far w \/ exists t s, dw_far w2 = om_merge flags_merge t s (dw_far w) /\ far_branch_target (di_instr c) pc = Ok (Some t)) ->
      sorted_keys (dw_new w2) /\ sorted_keys (dw_stack w2) /\ all_reached F E old w2 /\ extends (view old (dw_new w)) (view old (dw_new w2))).
  { intros c w2 ps NE SE KG PS FR.
    assert (EX : extends (view old new) (view old (dw_new w2))).
    { intros a c0 V. rewrite NE. unfold view at 1. rewrite om_find_set by exact SN'. destruct (Z.eqb_spec pc a) as [<-|N]; [exists c; split; [reflexivity|rewrite (KG c0 V); auto]|exists c0; auto]. }
    assert (VP : view old (dw_new w2) pc = Some c) by (rewrite NE; unfold view; rewrite om_find_set, Z.eqb_refl by exact SN'; reflexivity).
    assert (UP : forall a, reach F (view old (dw_new w)) E a -> reach F (view old (dw_new w2)) E a) by (intros a R; eapply reach_mono; [exact EX|intros x X; exact X|apply VX; exact R]).
    split; [rewrite NE; apply om_set_sorted; exact SN'|]. split; [rewrite SE; apply push_all_sorted; exact SR|]. split.
    - split; [|split].
      + intros a s FA. rewrite SE in FA. destruct (push_all_keys _ _ _ _ SR FA) as [[s' F']|[s' IN]]; [apply UP; exact (RR _ _ F')|].
        eapply re_go; [apply UP; exact RP|exact VP|left; exact (PS _ _ IN)].
      + intros a c0 V. apply UP. destruct (Z.eq_dec pc a) as [<-|N]; [exact RP|]. rewrite NE in V. unfold view in V. rewrite om_find_set in V by exact SN'. destruct (Z.eqb_spec pc a); [contradiction|].
        apply (RV a c0). rewrite <- VE. exact V.
      + assert (RF' : far_from (view old (dw_new w2)) (dw_far w)).
        { eapply far_from_mono; [exact EX|]. intros t g FT. destruct (RF t g FT) as (a & c0 & VA & J). exists a, c0. rewrite VE. auto. }
        destruct FR as [-> |(t & s & -> & FT)]; [auto|]. split; [|apply om_merge_sorted; exact SF].
        intros u g FU. rewrite om_find_merge in FU by exact SF. destruct (Z.eqb_spec t u) as [<-|N]; [|exact (RF' _ _ FU)]. exists pc, c. split; [exact VP|]. right. auto.
    - eapply extends_trans; [|exact EX]. intros b c0 V. exists c0. rewrite VE. auto. }
  destruct found as [d|].
  - injection H as <- H. apply visit_again_spec in H. cbv zeta in H. destruct H as [[_ ->]|(_ & b & i & nx & far & ps & _ & _ & _ & FA & PS & ->)].
    + cbn [dw_set_new dw_set_stack dw_new dw_stack]. split; [exact SN'|]. split; [exact SR|]. split; [split; [|split]|].
      * cbn. intros a s FA. apply VX. exact (RR _ _ FA).
      * cbn. intros a c V. rewrite VE in V. apply VX. exact (RV _ _ V).
      * cbn. split; [|exact SF]. intros t g FT. destruct (RF t g FT) as (a & c0 & VA & J). exists a, c0. rewrite VE. auto.
      * intros b c V. exists c. rewrite VE. auto.
    + match goal with |- context [all_reached F E old ?w2] => eapply (FIN (DInstr (di_label d) (di_instr d) (di_entry d) (es_merge cur (di_cur d)) nx) w2); [reflexivity|reflexivity| | |] end.
      * intros c0 V. rewrite VE, <- FE in V. injection V as <-. reflexivity.
      * cbn [di_instr]. intros t s IN. apply in_app_or in IN. destruct IN as [IN|IN].
        -- left. unfold falls in IN. destruct (is_exit_instruction (di_instr d)); [destruct IN|]. destruct IN as [IN|[]]. injection IN as <- _. auto.
        -- right. destruct PS as [[_ ->]|(LB & v & bs & _ & BO & ->)]; [destruct IN|]. destruct IN as [IN|[]]. injection IN as <- _. split; [exact LB|]. exists v. auto.
      * cbn [di_instr dw_far]. destruct far as [t|]; [right; exists t, (es_flags nx); auto|left; reflexivity].
  - apply visit_new_spec in H. cbv zeta in H. destruct H as (bytes & i0 & nx0 & far & i & lw & ps & _ & _ & _ & FA & LB & ->).
    cbn [dw_set_new dw_set_stack dw_new dw_stack] in *.
    match goal with |- context [all_reached F E old ?w2] => eapply (FIN (DInstr "" i false cur (after_call far (called rets far i0) nx0)) w2); [reflexivity|reflexivity| | |] end.
    + intros c0 V. rewrite VE, <- FE in V. discriminate V.
    + cbn [di_instr]. intros t s IN. apply in_app_or in IN.
      set (i1 := i_with_ret (called rets far i0) i0) in *. assert (MD : i_mode i1 = i_mode i0) by (destruct i0; reflexivity).
      inversion LB as [L E1 E2 E3|v lab lw' bs L BO GL EB E1 E2 E3]; subst.
      * destruct IN as [[]|IN]. left. unfold falls in IN. destruct (is_exit_instruction i1); [destruct IN|]. destruct IN as [IN|[]]. injection IN as <- _. rewrite MD. auto.
      * destruct (apply_same lab i1) as (A1 & A2 & A3 & A4). destruct IN as [[IN|[]]|IN].
        -- injection IN as <- _. right. rewrite A1. split; [exact L|]. exists v. split; [|unfold target; rewrite A3, MD; reflexivity].
           rewrite (same_offset lab i1); [exact BO|]. split; [exact A4|]. split; [exact A3|]. split; [destruct i1; reflexivity|]. rewrite L. destruct i1; reflexivity.
        -- left. unfold falls in IN. rewrite A2, A3 in *. destruct (is_exit_instruction i1); [destruct IN|]. destruct IN as [IN|[]]. injection IN as <- _. rewrite MD. auto.
    + cbn [di_instr dw_far]. set (i1 := i_with_ret (called rets far i0) i0) in *. assert (F1 : far_branch_target i1 pc = Ok far) by (destruct i0; exact FA).
      assert (X : dw_far lw = dw_far (far_added far nx0 (dw_set_new new (dw_set_stack rest w))) /\ far_branch_target i pc = Ok far).
      { inversion LB as [L E1 E2 E3|v lab lw' bs L BO GL EB E1 E2 E3]; subst; [auto|]. split; [apply (get_label_rest _ _ _ _ _ GL)|]. destruct (apply_same lab i1) as (A1 & A2 & A3 & A4).
        rewrite (same_far lab i1); [exact F1|]. split; [exact A4|]. split; [exact A3|]. split; [destruct i1; reflexivity|]. rewrite L. destruct i1; reflexivity. }
      destruct X as [-> FI]. destruct far as [t|]; [right; exists t, (es_flags nx0); auto|left; reflexivity].
Qed.
Lemma reached_loop : forall F E fuel src rets old w w1 w', sorted_keys (dw_new w) -> sorted_keys (dw_stack w) -> all_reached F E old w ->
  disasm_loop fuel src rets old w = (w1, Ok w') ->
  sorted_keys (dw_new w') /\ all_reached F E old w' /\ extends (view old (dw_new w)) (view old (dw_new w')).
Proof.
  intros F E. induction fuel as [|fuel IH]; intros src rets old w w1 w' SN SS AR H; cbn [disasm_loop] in H; destruct (dw_stack w) as [|p st] eqn:ST.
  - injection H as _ <-. split; [exact SN|]. split; [exact AR|apply extends_refl].
  - discriminate H.
  - injection H as _ <-. split; [exact SN|]. split; [exact AR|apply extends_refl].
  - rewrite <- ST in SS. destruct (disasm_step src rets old w) as [w2 [w3|e|u|]] eqn:E1; try discriminate H.
    destruct (reached_step _ _ _ _ _ _ _ _ SN SS AR E1) as (SN3 & SS3 & AR3 & EX3). destruct (IH _ _ _ _ _ _ SN3 SS3 AR3 H) as (SN4 & AR4 & EX4).
    split; [exact SN4|]. split; [exact AR4|]. eapply extends_trans; eassumption.
Qed.
Lemma suffix_edge : forall F a sfx i b, edge F a i b -> edge F a (i_with_suffix sfx i) b.
Proof.
  Local Transparent branch_offset far_branch_target. intros F a sfx i b G. destruct i. exact G. Local Opaque branch_offset far_branch_target.
Qed.
Lemma labels_same : forall ls m m', sorted_keys m -> apply_labels ls m = Ok m' -> forall a, option_map di_instr (om_find a m') = option_map di_instr (om_find a m).
Proof.
  induction ls as [|[k s] ls IH]; intros m m' S H a; cbn [apply_labels] in H; [injection H as <-; reflexivity|].
  destruct (om_find k m) as [d|] eqn:F; [|discriminate H]. rewrite (IH _ _ (om_set_sorted _ _ _ _ S) H), om_find_set by exact S.
  destruct (Z.eqb_spec k a) as [<-|N]; [rewrite F|]; reflexivity.
Qed.
Lemma request_reached : forall F (E E' : Z -> Prop) src d fuel start f d' r, sorted_keys (ds_map d) -> (forall a, E a -> E' a) ->
  (forall a c, om_find a (ds_map d) = Some c -> reach F (fun a => om_find a (ds_map d)) E a) ->
  disassemble fuel src start f d = (d', r) ->
  match r with
  | Ok far => (E' start -> forall a c, om_find a (ds_map d') = Some c -> reach F (fun a => om_find a (ds_map d')) E' a) /\
      far_from (fun a => om_find a (ds_map d')) far /\ extends (fun a => om_find a (ds_map d)) (fun a => om_find a (ds_map d'))
  | _ => ds_map d' = ds_map d
  end.
Proof.
  intros F E E' src d fuel start f d' r SD SE SR H. unfold disassemble in H.
  destruct (get_label (ds_map d) (DWork [] [] (om_set start (estate_of_flags f) []) [] (ds_sym d)) start) as [lab w0] eqn:GL.
  destruct (get_label_rest _ _ _ _ _ GL) as (N0 & S0 & FR0). cbn [dw_new dw_stack dw_far] in N0, S0, FR0.
  assert (AR : forall G : Z -> Prop, (forall a, E a -> G a) -> G start -> all_reached F G (ds_map d) w0).
  { intros G EG GS. split; [|split; [|split]].
    - rewrite S0. cbn. intros a s FA. destruct (Z.eqb_spec start a) as [<-|N]; [|discriminate FA]. apply re_start. exact GS.
    - rewrite N0. intros a c V. unfold view in V. cbn [om_find] in V. specialize (SR a c V). eapply reach_mono; [| |exact SR].
      + intros x y Y. exists y. unfold view. cbn [om_find]. auto.
      + exact EG.
    - rewrite FR0. intros t g T. discriminate T.
    - rewrite FR0. exact I. }
  destruct (disasm_loop fuel src (ds_rets d) (ds_map d) w0) as [w1 r1] eqn:LP.
  destruct r1 as [w|e|u|]; [|injection H as <- <-; reflexivity..].
  destruct (loop_sym _ _ _ _ _ _ _ LP) as [_ WE]. pose proof (WE _ eq_refl) as W1. subst w1.
  assert (SN0 : sorted_keys (dw_new w0)) by (rewrite N0; exact I). assert (SS0 : sorted_keys (dw_stack w0)) by (rewrite S0; split; [intros ? ? []|exact I]).
  destruct (reached_loop F (fun _ => True) _ _ _ _ _ _ _ SN0 SS0 (AR _ (fun _ _ => I) I) LP) as (SN & (_ & _ & RF & _) & EX).
  assert (RV : E' start -> forall a c, view (ds_map d) (dw_new w) a = Some c -> reach F (view (ds_map d) (dw_new w)) E' a).
  { intros ES. destruct (reached_loop F E' _ _ _ _ _ _ _ SN0 SS0 (AR _ SE ES) LP) as (_ & (_ & RV & _) & _). exact RV. }
  rewrite N0 in EX. clear LP WE GL AR.
  set (m0 := fold_left (fun m kv => om_set (fst kv) (snd kv) m) (map (fun kv => (fst kv, add_suffix (snd kv))) (dw_new w)) (ds_map d)) in *.
  assert (S1 : sorted_keys m0) by (apply copy_sorted; exact SD).
  assert (F0 : forall a, om_find a m0 = match om_find a (dw_new w) with Some x => Some (add_suffix x) | None => om_find a (ds_map d) end).
  { intros a. unfold m0. rewrite copy_find by (try exact SD; apply map_sorted; exact SN). rewrite find_map. destruct (om_find a (dw_new w)); reflexivity. }
  destruct (apply_labels (dw_labels w) m0) as [m|e|u|] eqn:AL; [|injection H as <- <-; reflexivity..]. injection H as <- <-. pose proof (labels_same _ _ _ S1 AL) as FM.
  assert (FX : extends (view (ds_map d) (dw_new w)) (fun a => om_find a m)).
  { intros a c V. specialize (FM a). rewrite F0 in FM. unfold view in V. destruct (om_find a m) as [y|]; [|destruct (om_find a (dw_new w)); [discriminate FM|rewrite V in FM; discriminate FM]].
    exists y. split; [reflexivity|]. intros F1 b G. destruct (om_find a (dw_new w)) as [x|].
    - injection V as ->. cbn [option_map] in FM. assert (FY : di_instr y = di_instr (add_suffix c)) by congruence. rewrite FY. destruct (add_suffix_rest c) as (_ & _ & _ & sfx & IE & _). rewrite IE. apply suffix_edge. exact G.
    - rewrite V in FM. cbn [option_map] in FM. injection FM as ->. exact G. }
  cbn [ds_map]. split; [|split].
  - intros ES a y FA. assert (V : exists x, view (ds_map d) (dw_new w) a = Some x).
    { specialize (FM a). rewrite FA, F0 in FM. unfold view. destruct (om_find a (dw_new w)); [eauto|]. destruct (om_find a (ds_map d)); [eauto|discriminate FM]. }
    destruct V as [x V]. eapply reach_mono; [exact FX| |exact (RV ES _ _ V)]. auto.
  - eapply far_from_mono; [exact FX|exact RF].
  - eapply extends_trans; [|exact FX]. intros a c V. apply EX. exact V.
Qed.
Lemma session_reaches : forall src rets q d, conventions_ok rets -> session src rets q d ->
  forall a c, om_find a (ds_map d) = Some c -> reach false (fun a => om_find a (ds_map d)) (fun a => exists f, In (a, f) q) a.
Proof.
  intros src rets q d CO S. induction S as [|q d fuel a f d' r S IH A C H].
  - intros a c F. discriminate F.
  - pose proof (good_sorted _ _ _ _ (session_good _ _ _ _ CO S)) as SD.
    pose proof (request_reached false (fun a => exists f, In (a, f) q) (fun b => exists g, In (b, g) ((a, f) :: q)) _ _ _ _ _ _ _ SD
      ltac:(intros b (g & G); exists g; right; exact G) IH H) as X. destruct r as [far|e|u|]; [|rewrite X; exact IH..].
    apply X. exists f. left. reflexivity.
Qed.

(** ** In terms of the bytes. *)
Lemma exit_stops : forall i, is_exit_instruction i = false -> ~ stops i.
Proof.
  intros i H [S|S].
  - unfold is_exit_instruction in H. cbn in S. repeat (destruct S as [S|S]; [rewrite <- S in H; discriminate H|]). destruct S.
  - unfold is_exit_instruction in H. rewrite S in H. rewrite orb_true_r in H. discriminate H.
Qed.
Lemma edge_bytes : forall F src rets q d a c b, conventions_ok rets -> byte_source src -> session src rets q d -> collected d a c -> edge F a (di_instr c) b ->
  exists op rest, src a 4 = Ok (op :: rest) /\ let l := firstn (Z.to_nat (instruction_length (i_mode (di_instr c)))) (op :: rest) in
  (~ stops (di_instr c) /\ b = same_bank_plus a (instruction_length (i_mode (di_instr c))) \/
   relative_branch (i_mnem (di_instr c)) /\ branch_destination a l = Some b \/
   F = true /\ direct_target a op rest = Some b).
Proof.
  intros F src rets q d a c b CO BS S K H. pose proof (session_good _ _ _ _ CO S) as G.
  destruct (good_entry _ _ _ _ G _ _ K) as [A EN]. destruct (entry_open _ _ _ _ _ BS A EN) as (op & rest & j & v & RD & B & R & DE & FA & RE & LO & SC & C1 & C2 & EX).
  exists op, rest. split; [exact RD|]. pose proof SC as (M & MD & _). rewrite MD. cbv zeta.
  destruct H as [[[X ->]|(LB & w & BO & ->)]|[FE FT]].
  - left. split; [apply exit_stops; exact X|]. rewrite MD. apply add_wrapped_spec. exact A.
  - right. left. assert (LJ : is_local_branch j = true) by (unfold is_local_branch in *; rewrite M, MD in LB; exact LB). rewrite M. split; [apply (decode_local op rest _ j R DE); exact LJ|].
    rewrite (same_offset _ _ _ SC) in BO. rewrite (same_target _ _ _ _ _ SC). eapply decode_branch; eassumption.
  - right. right. split; [exact FE|]. rewrite (same_far _ _ _ _ SC), FA in FT. injection FT as FT. exact FT.
Qed.
Lemma reached_control : forall src rets q d a c, conventions_ok rets -> byte_source src -> session src rets q d -> collected d a c -> control src d q a.
Proof.
  intros src rets q d a c CO BS S K. pose proof (session_reaches _ _ _ _ CO S a c K) as R. clear c K. induction R as [a (f & IN)|a c b R IH K H].
  - eapply co_request. exact IN.
  - destruct (edge_bytes _ _ _ _ _ _ _ _ CO BS S K H) as (op & rest & RD & [[NS ->]|[[RB BD]|[X _]]]); [| |discriminate X].
    + eapply co_next; eassumption.
    + eapply co_branch; [exact IH|exact K|exact RB| |exact BD]. exists (op :: rest). auto.
Qed.

(** ** The passes of quick_disassemble. *)
Definition starts (E : Z -> Prop) (d : disassembler) (seeds : omap flags) : Prop := forall a f, In (a, f) seeds -> reach true (fun a => om_find a (ds_map d)) E a.
Definition reaches (E : Z -> Prop) (d : disassembler) : Prop := forall a c, om_find a (ds_map d) = Some c -> reach true (fun a => om_find a (ds_map d)) E a.
Lemma starts_mono : forall E d d' seeds, extends (fun a => om_find a (ds_map d)) (fun a => om_find a (ds_map d')) -> starts E d seeds -> starts E d' seeds.
Proof. intros E d d' seeds X H a f IN. eapply reach_mono; [exact X| |exact (H a f IN)]. auto. Qed.
Lemma reach_join : forall F V (E : Z -> Prop) s a, reach F V E s -> reach F V (fun x => E x \/ x = s) a -> reach F V E a.
Proof. intros F V E s a S R. induction R as [a [H| ->]|a c b R IH K H]; [apply re_start; exact H|exact S|eapply re_go; eassumption]. Qed.
Lemma combine_keys : forall n m t g, In (t, g) (combine_states m n) -> (exists g', In (t, g') m) \/ (exists g', In (t, g') n).
Proof.
  induction n as [|[k x] n IH]; intros m t g IN; [left; eauto|]. change (combine_states m ((k, x) :: n)) with (combine_states (om_merge flags_merge k x m) n) in IN.
  destruct (IH _ _ _ IN) as [[g' I]|[g' I]]; [|right; exists g'; right; exact I].
  unfold om_merge in I. destruct (om_find k m); apply set_in in I; (destruct I as [-> |I]; [right; exists x; left; reflexivity|left; eauto]).
Qed.
Lemma run_seeds_reach : forall E fuel msg src seeds q d new out d' new' out', byte_source src -> seeds_ok seeds -> session src [] q d -> far_ok new ->
  starts E d seeds -> starts E d new -> reaches E d -> run_seeds fuel msg src seeds d new out = Ok (d', new', out') -> starts E d' new' /\ reaches E d'.
Proof.
  intros E fuel msg src. assert (CO : conventions_ok []) by (intros u r U; discriminate U).
  induction seeds as [|[a f] seeds IH]; intros q d new out d' new' out' BS SO S FN SS SN RD H; cbn [run_seeds] in H.
  - injection H as <- <- <-. auto.
  - destruct (SO a f (or_introl eq_refl)) as [A C]. assert (SO' : seeds_ok seeds) by (intros b g IN; apply SO; right; exact IN).
    pose proof (good_sorted _ _ _ _ (session_good _ _ _ _ CO S)) as SD.
    destruct (disassemble fuel src a f d) as [d1 r] eqn:D. pose proof (se_request _ _ _ _ _ _ _ _ _ S A C D) as S1.
    assert (EW : forall x, E x -> E x \/ x = a) by auto. pose proof (request_reached true E (fun x => E x \/ x = a) _ _ _ _ _ _ _ SD EW RD D) as X. clear EW.
    assert (TL : starts E d seeds) by (intros b g IN; apply (SS b g); right; exact IN).
    destruct r as [far|e|u|]; [| |discriminate H..].
    + destruct X as (X1 & X2 & X3). pose proof (request_far _ _ _ _ _ _ _ _ _ CO BS S A C D) as FF. destruct (combine_far _ _ FN (far_seeds _ FF)) as (FN' & _).
      assert (RA : reach true (fun a => om_find a (ds_map d1)) E a) by (eapply reach_mono; [exact X3| |exact (SS a f (or_introl eq_refl))]; auto).
      assert (RD1 : reaches E d1) by (intros b c K; eapply reach_join; [exact RA|]; exact (X1 (or_intror eq_refl) b c K)).
      eapply (IH ((a, f) :: q)); [exact BS|exact SO'|exact S1|exact FN'|eapply starts_mono; eassumption| |exact RD1|exact H].
      intros t g IN. destruct (combine_keys _ _ _ _ IN) as [[g' I]|[g' I]]; [exact (starts_mono _ _ _ _ X3 SN _ _ I)|].
      destruct (X2 t g') as (b & c & K & G); [apply om_in_find; [apply FF|exact I]|]. eapply re_go; [exact (RD1 b c K)|exact K|exact G].
    + assert (EM : forall P, starts E d P -> starts E d1 P) by (intros P Y; unfold starts; rewrite X; exact Y).
      eapply (IH q); [exact BS|exact SO'|exact S1|exact FN|apply EM; exact TL|apply EM; exact SN|unfold reaches; rewrite X; exact RD|exact H].
Qed.
Lemma run_passes_reach : forall E n fuel msg src seeds q d out d' left out', byte_source src -> seeds_ok seeds -> session src [] q d ->
  starts E d seeds -> reaches E d -> run_passes n fuel msg src seeds d out = Ok (d', left, out') -> reaches E d'.
Proof.
  intros E. induction n as [|n IH]; intros fuel msg src seeds q d out d' left out' BS SO S SS RD H; cbn [run_passes] in H; [injection H as <- <- <-; exact RD|].
  bok H as p P. destruct p as [[d1 s1] o1]. assert (FN : far_ok []) by (split; [exact I|intros t g F; discriminate F]).
  destruct (run_seeds_spec _ _ _ _ _ _ _ _ _ _ _ BS SO S FN P) as (q1 & os & S1 & F1 & _).
  destruct (run_seeds_reach E _ _ _ _ _ _ _ _ _ _ _ BS SO S FN SS ltac:(intros a f []) RD P) as [SS1 RD1].
  eapply IH; [exact BS|apply far_seeds; exact F1|exact S1|exact SS1|exact RD1|exact H].
Qed.
Lemma found : forall n fuel msg src seeds d left out a c, byte_source src -> seeds_ok seeds ->
  run_passes n fuel msg src seeds new_disassembler [] = Ok (d, left, out) -> collected d a c -> program_control src d seeds a.
Proof.
  intros n fuel msg src seeds d left out a c BS SO H K. assert (CO : conventions_ok []) by (intros u r U; discriminate U).
  assert (R : reach true (fun a => om_find a (ds_map d)) (fun a => exists f, In (a, f) seeds) a).
  { eapply (run_passes_reach _ n fuel msg src seeds [] new_disassembler); [exact BS|exact SO|exact (se_new src [])| | |exact H|exact K].
    - intros b f IN. apply re_start. eauto.
    - intros b x X. discriminate X. }
  assert (SE : exists q, session src [] q d).
  { destruct n as [|n]; [injection H as <- <- <-; exists []; exact (se_new src [])|].
    assert (NZ : Datatypes.S n <> O) by discriminate.
    destruct (run_passes_spec (Datatypes.S n) fuel msg src seeds [] new_disassembler [] d left out BS (or_intror (conj NZ SO)) (se_new src []) H) as (q & _ & S & _). eauto. }
  destruct SE as [q S]. clear c K H. induction R as [a (f & IN)|a c b R IH K H].
  - eapply pc_seed. exact IN.
  - destruct (edge_bytes _ _ _ _ _ _ _ _ CO BS S K H) as (op & rest & RD & [[NS ->]|[[RB BD]|[_ X]]]).
    + eapply pc_next; eassumption.
    + eapply pc_branch; [exact IH|exact K|exact RB| |exact BD]. exists (op :: rest). auto.
    + eapply pc_jump; eassumption.
Qed.
