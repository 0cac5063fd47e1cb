(** Undefined behaviour of quick_disassemble. *)
From Verif Require Import Base ModelNumeric ModelAddress ModelExpr ModelMnemonic ModelAMode ModelState ModelInstr ModelMap ModelRom ModelDisasm ModelTools
  SpecArith SpecInstr SpecState SpecFlow SpecDisasm SpecTools SpecDisSafe BaseProofs MapProofs DisStepProofs DisInvProofs DisRunProofs DisRequestProofs DisClosedProofs
  ToolRunProofs CleanProofs ReachProofs SafeProofs DisSafeProofs.
Open Scope list_scope.
Open Scope Z_scope.

Lemma plain_none : plain_rets [].
Proof. intros t f F. discriminate F. Qed.
(** Reached in the collected code is reached in the image. *)
Lemma reach_flows : forall src q d seeds a, byte_source src -> session src [] q d -> (forall a c, collected d a c -> addr24 a) ->
  reach true (fun a => om_find a (ds_map d)) (fun a => exists f, In (a, f) seeds) a -> flows_to src seeds a.
Proof.
  intros src q d seeds a BS S AD R. assert (CO : conventions_ok []) by (intros u r U; discriminate U).
  induction R as [a (f & IN)|a c b R IH K H]; [eapply ft_seed; exact IN|].
  destruct (good_entry _ _ _ _ (session_good _ _ _ _ CO S) _ _ K) as [A EN]. destruct EN as (bytes & j & far & v & RD & DE & FA & _ & LB & SC & _).
  destruct H as [[[X ->]|(IL & w & BO & ->)]|[_ FT]].
  - eapply ft_leads; [exact IH|]. exact (proj1 (leads_carries src a BS a bytes _ j _ _ 0 A (lt_start src a) RD DE SC) X).
  - eapply ft_leads; [exact IH|]. exact (proj2 (leads_carries src a BS a bytes _ j _ _ w A (lt_start src a) RD DE SC) IL BO).
  - pose proof (BS _ _ _ RD) as BO. destruct bytes as [|op rest]; [discriminate DE|]. eapply ft_jump; [exact IH|exact RD|].
    rewrite (same_far _ _ _ _ SC), (decode_far _ _ _ _ _ BO DE A) in FT. injection FT as FT. exact FT.
Qed.
Definition tool_cause (src : source) (seeds : omap flags) (u : ub) : Prop :=
  (u = UB_oob \/ u = UB_assert) /\ exists pc, flows_to src seeds pc /\ pulls src pc.
Lemma cause_tool : forall om ox src seeds a u, flows_to src seeds a -> cause om ox src (leads_to src a) u -> tool_cause src seeds u.
Proof.
  intros om ox src seeds a u F (U & pc & op & rest & LT & RD & OP). split; [exact U|]. exists pc. split; [eapply ft_leads; eassumption|]. exists op, rest. split; [exact RD|].
  destruct OP as [[-> _]|[[->| ->] _]]; auto.
Qed.
Lemma run_seeds_cause : forall s0 fuel msg src seeds q d new out u, let E := fun a => exists f, In (a, f) s0 in byte_source src -> calm_source src -> seeds_ok seeds -> session src [] q d -> far_ok new ->
  starts E d seeds -> starts E d new -> reaches E d -> run_seeds fuel msg src seeds d new out = UB u -> tool_cause src s0 u.
Proof.
  intros s0 fuel msg src seeds q d new out u E BS CS. assert (CO : conventions_ok []) by (intros t r U; discriminate U). revert q d new out.
  induction seeds as [|[a f] seeds IH]; intros q d new out SO S FN SS SN RD H; cbn [run_seeds] in H; [discriminate H|].
  destruct (SO a f (or_introl eq_refl)) as [A C]. assert (SO' : seeds_ok seeds) by (intros b g IN; apply SO; right; exact IN).
  pose proof (good_sorted _ _ _ _ (session_good _ _ _ _ CO S)) as SD.
  destruct (disassemble fuel src a f d) as [d1 r] eqn:D. pose proof (se_request _ _ _ _ _ _ _ _ _ S A C D) as S1.
  assert (EW : forall x, E x -> E x \/ x = a) by auto. pose proof (request_reached true E (fun x => E x \/ x = a) _ _ _ _ _ _ _ SD EW RD D) as X. clear EW.
  assert (TL : starts E d seeds) by (intros b g IN; apply (SS b g); right; exact IN).
  destruct r as [far|e|v|]; [| | |discriminate H].
  - destruct X as (X1 & X2 & X3). pose proof (request_far _ _ _ _ _ _ _ _ _ CO BS S A C D) as FF. destruct (combine_far _ _ FN (far_seeds _ FF)) as (FN' & _).
    assert (RA : reach true (fun a => om_find a (ds_map d1)) E a) by (eapply reach_mono; [exact X3| |exact (SS a f (or_introl eq_refl))]; auto).
    assert (RD1 : reaches E d1) by (intros b c K; eapply reach_join; [exact RA|]; exact (X1 (or_intror eq_refl) b c K)).
    eapply (IH ((a, f) :: q)); [exact SO'|exact S1|exact FN'|eapply starts_mono; eassumption| |exact RD1|exact H].
    intros t g IN. destruct (combine_keys _ _ _ _ IN) as [[g' I]|[g' I]]; [exact (starts_mono _ _ _ _ X3 SN _ _ I)|].
    destruct (X2 t g') as (b & c & K & G); [apply om_in_find; [apply FF|exact I]|]. eapply re_go; [exact (RD1 b c K)|exact K|exact G].
  - assert (EM : forall P, starts E d P -> starts E d1 P) by (intros P Y; unfold starts; rewrite X; exact Y).
    eapply (IH q); [exact SO'|exact S1|exact FN|apply EM; exact TL|apply EM; exact SN|unfold reaches; rewrite X; exact RD|exact H].
  - injection H as <-. eapply cause_tool; [|exact (causes _ _ _ _ _ _ _ _ _ CO plain_none BS CS S A C D)].
    eapply reach_flows; [exact BS|exact S| |exact (SS a f (or_introl eq_refl))]. intros b c K. apply (good_entry _ _ _ _ (session_good _ _ _ _ CO S) _ _ K).
Qed.
Lemma run_passes_cause : forall s0 n fuel msg src seeds q d out u, let E := fun a => exists f, In (a, f) s0 in byte_source src -> calm_source src -> seeds_ok seeds -> session src [] q d ->
  starts E d seeds -> reaches E d -> run_passes n fuel msg src seeds d out = UB u -> tool_cause src s0 u.
Proof.
  intros s0 n fuel msg src seeds q d out u E BS CS. revert seeds q d out. induction n as [|n IH]; intros seeds q d out SO S SS RD H; cbn [run_passes] in H; [discriminate H|].
  assert (FN : far_ok []) by (split; [exact Logic.I|intros t g F; discriminate F]). assert (NO : starts E d []) by (intros a f []).
  destruct (run_seeds fuel msg src seeds d [] out) as [[[d1 s1] o1]|e|v|] eqn:P; cbn [bind] in H; [|discriminate H|injection H as <-|discriminate H].
  - destruct (run_seeds_spec _ _ _ _ _ _ _ _ _ _ _ BS SO S FN P) as (q1 & os & S1 & F1 & _).
    destruct (run_seeds_reach E _ _ _ _ _ _ _ _ _ _ _ BS SO S FN SS NO RD P) as [SS1 RD1].
    eapply (IH s1 q1); [apply far_seeds; exact F1|exact S1|exact SS1|exact RD1|exact H].
  - exact (run_seeds_cause s0 _ _ _ _ _ _ _ _ _ BS CS SO S FN SS NO RD P).
Qed.
Lemma quick_cause : forall fuel msg src seeds u, byte_source src -> calm_source src -> seeds_ok seeds -> quick_disassemble fuel msg src seeds = UB u ->
  tool_cause src seeds u \/ exists d left out, run_passes 100 fuel msg src seeds new_disassembler [] = Ok (d, left, out) /\ 2 ^ 31 <= ds_sym d.
Proof.
  intros fuel msg src seeds u BS CS SO H. unfold quick_disassemble in H. assert (CO : conventions_ok []) by (intros t r U; discriminate U).
  assert (NZ : 100%nat <> O) by discriminate. revert H NZ. generalize 100%nat. intros n H NZ.
  destruct (run_passes n fuel msg src seeds new_disassembler []) as [[[d left] out]|e|v|] eqn:P; cbn [bind] in H; [|discriminate H|injection H as <-|discriminate H].
  - right. exists d, left, out. split; [reflexivity|]. destruct (run_passes_spec n fuel msg src seeds [] new_disassembler [] d left out BS (or_intror (conj NZ SO)) (se_new src []) P) as (q & _ & S & _).
    destruct (Z_lt_ge_dec (ds_sym d) (2 ^ 31)) as [L|L]; [|lia]. exfalso. destruct (clean src [] q d CO BS S L) as (d' & C & _). rewrite C in H. discriminate H.
  - left. eapply (run_passes_cause seeds n fuel msg src seeds [] new_disassembler []); [exact BS|exact CS|exact SO|exact (se_new src [])| | |exact P].
    + intros b f IN. apply re_start. eauto.
    + intros b x X. discriminate X.
Qed.
(** Reading a ROM is never undefined. *)
Lemma rom_calm : forall r, calm_source (rom_read r).
Proof.
  intros r a u _. unfold rom_read. cbn [Z.eqb Z.ltb Z.compare Pos.compare Pos.compare_cont].
  assert (SN : forall b m v, snes_to_rom b m <> UB v).
  { intros b m v. unfold snes_to_rom. cbv zeta. destruct (_ || _); [discriminate|]. destruct (_ && _); [discriminate|]. destruct m; try discriminate. destruct (_ <? _); discriminate. }
  pose proof (SN a (rom_mapping r)) as S1. destruct (snes_to_rom a (rom_mapping r)) as [x| |v|]; cbn [bind]; try discriminate; [|exfalso; exact (S1 _ eq_refl)].
  pose proof (SN (add_wrapped a (4 - 1)) (rom_mapping r)) as S2. destruct (snes_to_rom (add_wrapped a (4 - 1)) (rom_mapping r)) as [y| |v|]; cbn [bind]; try discriminate; [|exfalso; exact (S2 _ eq_refl)].
  destruct (x <? y); [destruct (_ <=? _); discriminate|]. clear S1 S2. generalize 0 at 1. generalize (Z.to_nat 4). induction n as [|k IH]; intros i; cbn [read_loop]; [discriminate|].
  pose proof (SN (add_wrapped a i) (rom_mapping r)) as S3. destruct (snes_to_rom (add_wrapped a i) (rom_mapping r)) as [o| |v|]; cbn [bind]; try discriminate; [|exfalso; exact (S3 _ eq_refl)].
  destruct (znth (rom_data r) o); [|discriminate]. specialize (IH (i + 1)). destruct (read_loop r a (i + 1) k); cbn [bind]; try discriminate. exact IH.
Qed.
