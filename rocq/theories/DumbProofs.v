(** What util/dumb_disassemble.cc prints. *)
From Verif Require Import TermProofs Base ModelNumeric ModelAddress ModelExpr ModelMnemonic ModelAMode ModelOpcode ModelState ModelInstr ModelMap ModelRom ModelDisasm
  Spec65816 SpecArith SpecInstr SpecState SpecFlow SpecDisasm BaseProofs MapProofs ArithProofs StateProofs ExecProofs InstrProofs FlowArriveProofs FlowKindProofs
  NameProofs ParseProofs SafeAssembleProofs DisStateProofs DisStepProofs DisInvProofs DisRunProofs DisRequestProofs DisClosedProofs DisTermProofs StableProofs ToolProofs ModelTools ModelDumb SpecDumb.
Open Scope list_scope.
Open Scope Z_scope.
Local Opaque check_consistency execute_in execute decode_opcode.

Lemma decode_offset : forall op rest f j, bytes_ok (op :: rest) -> decode (op :: rest) f = Ok j -> is_local_branch j = true -> exists v, branch_offset j = Ok v.
Proof.
  intros op rest f j B H L. inversion B as [|? ? R Br]; subst. destruct (decode_mode_of op rest f j R H) as (_ & D & _ & FO & _).
  unfold is_local_branch in L. apply andb_true_iff in L. destruct L as [L _]. unfold branch_offset.
  destruct (i_mode j) eqn:MD; try discriminate L.
  - cbn [decode_operands] in D. destruct rest as [|b0 rest]; [discriminate D|]. injection D as D _. rewrite <- D.
    cbn [eval_opt]. cbv zeta. eexists. unfold mk_lit. cbn. reflexivity.
  - cbn [decode_operands] in D. destruct rest as [|b0 [|b1 rest]]; try discriminate D. injection D as D _. rewrite <- D.
    cbn [eval_opt]. cbv zeta. eexists. unfold mk_lit. cbn. reflexivity.
Qed.

Lemma mnemonic_eq_dec : forall a b : mnemonic, {a = b} + {a <> b}.
Proof. intros a b. destruct (mnem_eqb a b) eqn:E; [left; apply mnem_eqb_eq; exact E|right; intros X; apply mnem_eqb_eq in X; congruence]. Qed.

(** ** The jumps recorded. *)
Definition jumps_are (src : source) (es : list printed) (jumps : omap estate) : Prop :=
  sorted_keys jumps /\ forall t s, om_find t jumps = Some s <-> last_branch src es t s.
Lemma leads_same : forall src e t t', leads_to src e t -> leads_to src e t' -> t = t'.
Proof. intros src e t t' (_ & b & R & D) (_ & b' & R' & D'). rewrite R in R'. injection R' as <-. congruence. Qed.
Lemma last_snoc : forall src es e t s, last_branch src (es ++ [e]) t s <-> (leads_to src e t /\ s = pr_after e) \/ (~ leads_to src e t /\ last_branch src es t s).
Proof.
  intros src es e t s. split.
  - intros (a & x & b & E & L & A & N). destruct (List.rev b) as [|y c] eqn:RB.
    + assert (b = []) as -> by (rewrite <- (rev_involutive b), RB; reflexivity). apply app_inj_tail in E. destruct E as [-> ->]. left. auto.
    + assert (b = List.rev c ++ [y]) as -> by (rewrite <- (rev_involutive b), RB; reflexivity).
      rewrite app_comm_cons, app_assoc in E. apply app_inj_tail in E. destruct E as [-> ->]. right. split; [apply N, in_or_app; right; left; reflexivity|].
      exists a, x, (List.rev c). split; [reflexivity|]. split; [exact L|]. split; [exact A|]. intros z Z. apply N, in_or_app. left. exact Z.
  - intros [[L ->]|[N (a & x & b & -> & L & A & M)]].
    + exists es, e, []. split; [reflexivity|]. split; [exact L|]. split; [reflexivity|]. intros x [].
    + exists a, x, (b ++ [e]). split; [rewrite <- app_assoc; reflexivity|]. split; [exact L|]. split; [exact A|].
      intros z Z. apply in_app_or in Z. destruct Z as [Z|[<-|[]]]; auto.
Qed.
Lemma jumps_none : forall src es jumps t, jumps_are src es jumps -> om_find t jumps = None -> no_branch src es t.
Proof.
  intros src es jumps t [_ J] N e IN L.
  assert (X : exists s, last_branch src es t s).
  { clear J N. revert e IN L. induction es as [|x es IH] using rev_ind; intros e IN L; [destruct IN|].
    assert (DEC : leads_to src x t \/ ~ leads_to src x t).
    { unfold leads_to, relative_branch. destruct (in_dec mnemonic_eq_dec (i_mnem (pr_instr x)) [M_bcc; M_bcs; M_beq; M_bmi; M_bne; M_bpl; M_bra; M_brl; M_bvc; M_bvs]) as [RB|NB];
        [|right; intros [A _]; contradiction].
      destruct (src (pr_pc x) 4) as [bytes|er|u|] eqn:RD; [|right; intros (_ & b & E & _); discriminate E..].
      destruct (branch_destination (pr_pc x) (firstn (Z.to_nat (instruction_length (i_mode (pr_instr x)))) bytes)) as [d|] eqn:BD.
      - destruct (Z.eq_dec d t) as [->|NE]; [left; split; [exact RB|eauto]|right; intros (_ & b & E & D); injection E as <-; congruence].
      - right. intros (_ & b & E & D). injection E as <-. congruence. }
    destruct DEC as [Y|Y]; [exists (pr_after x); apply last_snoc; auto|].
    apply in_app_or in IN. destruct IN as [IN|[<-|[]]]; [|contradiction]. destruct (IH _ IN L) as [s S]. exists s. apply last_snoc. auto. }
  destruct X as [s X]. apply J in X. congruence.
Qed.
Lemma jumps_snoc_branch : forall src es jumps e t, jumps_are src es jumps -> leads_to src e t -> jumps_are src (es ++ [e]) (om_set t (pr_after e) jumps).
Proof.
  intros src es jumps e t [S J] L. split; [apply om_set_sorted; exact S|]. intros t' s. rewrite om_find_set by exact S. rewrite last_snoc.
  destruct (Z.eqb_spec t t') as [<-|NE].
  - split; [intros E; injection E as <-; auto|]. intros [[_ ->]|[N _]]; [reflexivity|contradiction].
  - rewrite J. split; [intros X; right; split; [|exact X]; intros Y; apply NE; eapply leads_same; eassumption|]. intros [[Y _]|[_ X]]; [|exact X].
    destruct NE. eapply leads_same; eassumption.
Qed.
Lemma jumps_snoc_plain : forall src es jumps e, jumps_are src es jumps -> (forall t, ~ leads_to src e t) -> jumps_are src (es ++ [e]) jumps.
Proof. intros src es jumps e [S J] N. split; [exact S|]. intros t s. rewrite J, last_snoc. split; [auto|]. intros [[X _]|[_ X]]; [destruct (N _ X)|exact X]. Qed.
Lemma lower_bound : forall A (m : omap A) k, sorted_keys m ->
  match om_lower_bound k m with
  | Some (j, v) => k <= j /\ om_find j m = Some v /\ forall j', k <= j' < j -> om_find j' m = None
  | None => forall j, k <= j -> om_find j m = None
  end.
Proof.
  intros A m k. induction m as [|[j v] m IH]; intros S; cbn [om_lower_bound]; [reflexivity|]. destruct S as [S0 S]. specialize (IH S).
  destruct (Z.ltb_spec j k) as [L|L].
  - destruct (om_lower_bound k m) as [[i w]|].
    + destruct IH as (K & F & N). split; [exact K|]. split; [cbn [om_find]; destruct (Z.eqb_spec j i); [lia|exact F]|].
      intros j' R. cbn [om_find]. destruct (Z.eqb_spec j j'); [lia|auto].
    + intros i K. cbn [om_find]. destruct (Z.eqb_spec j i); [lia|auto].
  - split; [exact L|]. split; [cbn [om_find]; rewrite Z.eqb_refl; reflexivity|].
    intros j' R. cbn [om_find]. destruct (Z.eqb_spec j j'); [lia|]. destruct (om_find j' m) as [w|] eqn:F; [|reflexivity].
    apply om_find_in in F. apply S0 in F. lia.
Qed.

(** ** The loop. *)
Lemma exit_stops : forall i, is_exit_instruction i = true -> stops i.
Proof.
  intros i H. unfold is_exit_instruction in H. apply orb_true_iff in H. destruct H as [H|H].
  - left. destruct (i_mnem i); try discriminate H; cbn; tauto.
  - right. destruct (i_ret i); try discriminate H. reflexivity.
Qed.
Lemma leads_some : forall src pc i s s' op rest f, byte_source src -> addr24 pc -> src pc 4 = Ok (op :: rest) -> decode (op :: rest) f = Ok i ->
  (is_local_branch i = true -> exists v, branch_offset i = Ok v /\ leads_to src (Printed pc i s s') (add_wrapped (add_wrapped pc (instruction_length (i_mode i))) v)) /\
  (is_local_branch i = false -> forall t, ~ leads_to src (Printed pc i s s') t).
Proof.
  intros src pc i s s' op rest f BS A RD DE. pose proof (BS _ _ _ RD) as B. pose proof B as B0. inversion B0 as [|? ? R Br]; subst.
  pose proof (decode_local op rest f i R DE) as DL. split.
  - intros L. destruct (decode_offset _ _ _ _ B DE L) as [v BO]. exists v. split; [exact BO|]. split; [cbn [pr_instr]; apply DL; exact L|].
    exists (op :: rest). cbn [pr_pc pr_instr]. split; [exact RD|]. rewrite (decode_branch _ _ _ _ _ _ B DE L BO A). reflexivity.
  - intros L t [RB _]. cbn [pr_instr] in RB. apply DL in RB. congruence.
Qed.
Lemma from_image_length : forall src pc i s s' op rest, byte_source src -> src pc 4 = Ok (op :: rest) -> decode (op :: rest) (es_flags s) = Ok i -> execute i s = Ok s' ->
  from_image src (Printed pc i s s') (instruction_length (i_mode i)).
Proof.
  intros src pc i s s' op rest BS RD DE EX. pose proof (BS _ _ _ RD) as B. inversion B as [|? ? R Br]; subst.
  destruct (decode_mode_of op rest _ i R DE) as (_ & _ & _ & _ & KL). exists op, rest. cbn. auto.
Qed.

Local Opaque decode branch_offset.
Lemma summary_of : forall src es jumps, jumps_are src es jumps -> summary src es (earliest_lines jumps).
Proof.
  intros src es [|[t s] jumps] J; cbn [earliest_lines].
  - apply su_none. intros t. eapply jumps_none; [exact J|reflexivity].
  - apply su_first.
    + apply J. cbn [om_find]. rewrite Z.eqb_refl. reflexivity.
    + intros t' L. eapply jumps_none; [exact J|]. cbn [om_find]. destruct (Z.eqb_spec t t'); [lia|]. destruct (om_find t' jumps) as [w|] eqn:F; [|reflexivity].
      apply om_find_in in F. destruct J as [[S0 _] _]. apply S0 in F. lia.
Qed.
Lemma dumb_next_spec : forall src es jumps i next s lines e, jumps_are src es jumps -> dumb_next i next s jumps = (lines, e) ->
  (is_exit_instruction i = false /\ lines = [] /\ e = Again (Dumb next s jumps)) \/
  (is_exit_instruction i = true /\ exists s', last_branch src es next s' /\ lines = [] /\ e = Again (Dumb next s' jumps)) \/
  (is_exit_instruction i = true /\ ending src es next lines /\ e = Break (Dumb next s jumps)).
Proof.
  intros src es jumps i next s lines e J H. unfold dumb_next in H. destruct (is_exit_instruction i); [|injection H as <- <-; auto].
  pose proof (lower_bound _ jumps next (proj1 J)) as LB. destruct (om_lower_bound next jumps) as [[t s']|].
  - destruct LB as (LE & F & N). destruct (Z.ltb_spec next t) as [LT|GE]; injection H as <- <-; right.
    + right. split; [reflexivity|]. split; [|reflexivity]. apply en_gap; [|exact LT]. split; [exact LE|]. split; [apply J; exact F|].
      intros t' R. eapply jumps_none; [exact J|]. apply N. lia.
    + left. split; [reflexivity|]. exists s'. assert (t = next) as -> by lia. split; [apply J; exact F|auto].
  - injection H as <- <-. right. right. split; [reflexivity|]. split; [|reflexivity]. apply en_end. intros t L. eapply jumps_none; [exact J|auto].
Qed.
Lemma dumb_loop_spec : forall msg src a f, byte_source src -> answers src ->
  forall fuel es pc s jumps lines out r, listed src a f es pc s -> addr24 pc -> prints src es lines -> jumps_are src es jumps ->
  dumb_loop fuel msg src (Dumb pc s jumps) = (out, r) ->
  exists es' pc' s' lines', listed src a f es' pc' s' /\ prints src es' lines' /\
    finishes msg src a f es' pc' s' lines' (List.length es + fuel)%nat (lines ++ out) r.
Proof.
  intros msg src a f BS AN. induction fuel as [|fuel IH]; intros es pc s jumps lines out r LI A PR J H; cbn [dumb_loop] in H.
  { injection H as <- <-. exists es, pc, s, lines. split; [exact LI|]. split; [exact PR|]. right. right. left. rewrite app_nil_r, Nat.add_0_r. auto. }
  unfold dumb_step in H. cbn [du_pc du_state du_jumps] in H. cbv zeta in H.
  destruct (AN pc A) as [[bytes RD]|[er RD]].
  2: { rewrite RD in H. cbn [bind] in H. injection H as <- <-. exists es, pc, s, lines. split; [exact LI|]. split; [exact PR|]. left. split; [reflexivity|].
       exists er. split; [left; exact RD|reflexivity]. }
  rewrite RD in H. cbn [bind] in H. pose proof (BS _ _ _ RD) as B.
  destruct (decode_exact bytes (es_flags s) B) as (_ & DI & DT). destruct (decode bytes (es_flags s)) as [i|er|u|] eqn:DE.
  2: { cbn [bind] in H. injection H as <- <-. exists es, pc, s, lines. split; [exact LI|]. split; [exact PR|]. left. split; [reflexivity|].
       exists er. split; [right; exists bytes; auto|reflexivity]. }
  2: { exfalso. destruct DT as [[? X]|[? X]]; discriminate X. }
  2: { exfalso. destruct DT as [[? X]|[? X]]; discriminate X. }
  destruct (DI _ eq_refl) as (op & rest & -> & _ & _ & _). cbn [bind] in H. destruct (execute i s) as [s'|er|u|] eqn:EX; cbn [bind] in H.
  2: { injection H as <- <-. exists es, pc, s, lines. split; [exact LI|]. split; [exact PR|]. left. split; [reflexivity|].
       exists er. split; [right; exists (op :: rest); split; [exact RD|right; exists i; auto]|reflexivity]. }
  2: { injection H as <- <-. exists es, pc, s, lines. split; [exact LI|]. split; [exact PR|]. right. right. right. exists u, (op :: rest), i. rewrite app_nil_r. auto. }
  2: { destruct (nf_execute i s EX). }
  set (next := add_wrapped pc (instruction_length (i_mode i))) in *. set (e := Printed pc i s s').
  assert (NX : next = same_bank_plus pc (instruction_length (i_mode i))) by (apply add_wrapped_spec; exact A).
  assert (A' : addr24 next) by (rewrite NX; apply same_bank_plus_24; exact A).
  pose proof (from_image_length src pc i s s' op rest BS RD DE EX) as FI. fold e in FI.
  destruct (leads_some src pc i s s' op rest (es_flags s) BS A RD DE) as [LB NB]. fold e in LB, NB. fold next in LB.
  assert (GO : exists note jumps', remark src es e note /\ jumps_are src (es ++ [e]) jumps' /\
     (let (more, k) := dumb_next i next s' jumps' in (instruction_line pc i (es_flags s') note :: more, Ok k)) =
       (if is_local_branch i then
         match branch_offset i with
         | Ok value =>
             let (lines0, next0) := dumb_next i next s' (om_set (add_wrapped next value) s' jumps) in
             (instruction_line pc i (es_flags s') (branch_note (add_wrapped next value) (om_find (add_wrapped next value) jumps)) :: lines0, Ok next0)
         | Err e => ([], Err e) | UB u => ([], UB u) | OutOfFuel => ([], OutOfFuel)
         end
        else let (lines0, next0) := dumb_next i next s' jumps in (instruction_line pc i (es_flags s') ""%string :: lines0, Ok next0))).
  { destruct (is_local_branch i) eqn:LO.
    - destruct (LB eq_refl) as (v & BO & LT). rewrite BO. exists (branch_note (add_wrapped next v) (om_find (add_wrapped next v) jumps)), (om_set (add_wrapped next v) s' jumps).
      split; [|split; [exact (jumps_snoc_branch _ _ _ _ _ J LT)|reflexivity]]. unfold branch_note. destruct (om_find (add_wrapped next v) jumps) as [t|] eqn:F.
      + apply re_was; [exact LT|]. apply J. exact F.
      + apply re_new; [exact LT|]. eapply jumps_none; [exact J|exact F].
    - exists ""%string, jumps. split; [apply re_none; auto|]. split; [apply jumps_snoc_plain; auto|reflexivity]. }
  destruct GO as (note & jumps' & RM & J' & GO). rewrite <- GO in H. clear GO.
  assert (PR' : prints src (es ++ [e]) (lines ++ [instruction_line pc i (es_flags s') note])) by (apply pr_line; assumption).
  destruct (dumb_next i next s' jumps') as [more k] eqn:DN.
  destruct (dumb_next_spec _ _ _ _ _ _ _ _ J' DN) as [(XI & -> & ->)|[(XI & s2 & LA & -> & ->)|(XI & EN & ->)]].
  - destruct (dumb_loop fuel msg src (Dumb next s' jumps')) as [out' r'] eqn:LP. injection H as <- <-.
    assert (LI' : listed src a f (es ++ [e]) next s') by (rewrite NX; eapply li_next; [exact LI|exact FI|apply falls_next; exact XI]).
    destruct (IH _ _ _ _ _ _ _ LI' A' PR' J' LP) as (es' & pc' & s3 & lines' & LI3 & PR3 & FN). exists es', pc', s3, lines'. split; [exact LI3|]. split; [exact PR3|].
    rewrite app_length in FN. cbn [List.length] in FN. rewrite <- app_assoc in FN. cbn [app] in FN. replace (List.length es + Datatypes.S fuel)%nat with (List.length es + 1 + fuel)%nat by lia. exact FN.
  - destruct (dumb_loop fuel msg src (Dumb next s2 jumps')) as [out' r'] eqn:LP. injection H as <- <-.
    assert (LI' : listed src a f (es ++ [e]) next s2) by (rewrite NX; eapply li_resume; [exact LI|exact FI|apply exit_stops; exact XI|rewrite <- NX; exact LA]).
    destruct (IH _ _ _ _ _ _ _ LI' A' PR' J' LP) as (es' & pc' & s3 & lines' & LI3 & PR3 & FN). exists es', pc', s3, lines'. split; [exact LI3|]. split; [exact PR3|].
    rewrite app_length in FN. cbn [List.length] in FN. rewrite <- app_assoc in FN. cbn [app] in FN. replace (List.length es + Datatypes.S fuel)%nat with (List.length es + 1 + fuel)%nat by lia. exact FN.
  - injection H as <- <-. exists es, pc, s, lines. split; [exact LI|]. split; [exact PR|]. right. left. split; [reflexivity|].
    exists i, s', (instruction_length (i_mode i)), (lines ++ [instruction_line pc i (es_flags s') note]), more, (earliest_lines jumps').
    split; [exact FI|]. split; [apply exit_stops; exact XI|]. split; [exact PR'|]. split; [rewrite <- NX; exact EN|]. split; [apply summary_of; exact J'|].
    cbn [du_jumps]. rewrite <- app_assoc. reflexivity.
Qed.
Lemma start_address : forall a, addr24 a -> mk_address a = Ok a.
Proof.
  intros a A. unfold mk_address, to_uint32. unfold addr24 in A. rewrite Z.mod_small by lia. destruct (Z.leb_spec a 0x1000000); [reflexivity|lia].
Qed.
Lemma dumb_output : forall fuel msg src a f out r, byte_source src -> answers src -> addr24 a -> dumb_disassemble fuel msg src a f = (out, r) ->
  exists es pc s lines, listed src a f es pc s /\ prints src es lines /\ finishes msg src a f es pc s lines fuel out r.
Proof.
  intros fuel msg src a f out r BS AN A H. unfold dumb_disassemble in H. rewrite (start_address a A) in H.
  apply (dumb_loop_spec msg src a f BS AN fuel [] a (estate_of_flags f) [] [] out r); [constructor|exact A|constructor| |exact H].
  split; [exact Logic.I|]. intros t s. split; [discriminate|]. intros (x & e & b & E & _). destruct x; discriminate E.
Qed.

(** ** Straight-line code. *)
Lemma fall_plain : forall op rest j s s' o k k', bytes_ok (op :: rest) -> decode (op :: rest) (es_flags s) = Ok j -> execute j s = Ok s' ->
  stack_untracked (i_mnem j) = false -> (i_mnem j = M_xce -> fl_e (es_flags s) <> B_original /\ fl_c (es_flags s) <> B_original) ->
  modes_ok (c_modes o) -> modes_ok (c_modes k) -> describes_modes o s k -> mode_step o j (nth 0 rest 0) k k' ->
  describes_modes o s' k' /\ modes_ok (c_modes k').
Proof.
  intros op rest j s s' o k k' B DE EX SU XC MO MK D ST.
  assert (OP : exists w, mode_step o j w k k' /\ (forall x, eval_opt null_ctx (i_arg1 j) = Ok x -> w = x)).
  { destruct (mnem_eqb (i_mnem j) M_rep || mnem_eqb (i_mnem j) M_sep) eqn:RS.
    - exists (nth 0 rest 0). split; [exact ST|]. intros x E. eapply rep_operand; try eassumption.
      apply orb_true_iff in RS. destruct RS as [RS|RS]; apply mnem_eqb_eq in RS; auto.
    - apply orb_false_iff in RS. destruct RS as [R1 R2].
      assert (N1 : i_mnem j <> M_rep) by (intros X; rewrite X in R1; discriminate R1).
      assert (N2 : i_mnem j <> M_sep) by (intros X; rewrite X in R2; discriminate R2).
      destruct (eval_opt null_ctx (i_arg1 j)) as [x| | |] eqn:EV;
        [exists x; split; [eapply step_other; eassumption|intros y E; injection E as <-; reflexivity]|exists 0; split; [eapply step_other; eassumption|intros y E; discriminate E]..]. }
  destruct OP as (w & ST' & EV). Local Transparent execute. unfold execute in EX. Local Opaque execute.
  eapply execute_modes with (i := j) (v := w); eassumption.
Qed.
Lemma no_convention : forall pc op rest, convention [] pc op rest = RC_default.
Proof. intros. unfold convention. destruct (direct_target pc op rest); [|reflexivity]. destruct (in_names _ _); reflexivity. Qed.
Definition at_entry (es : list printed) (pc : Z) (s : estate) (n : nat) (a : Z) (t : estate) : Prop :=
  match nth_error es n with Some e => a = pr_pc e /\ t = pr_before e | None => a = pc /\ t = s end.
Lemma straight_all : forall src a f es pc s, byte_source src -> addr24 a -> listed src a f es pc s ->
  Forall (fun e => ~ stops (pr_instr e) /\ tractable e) es ->
  addr24 pc /\ forall o n pc' c, falls src a f o n pc' c -> (n <= List.length es)%nat ->
    modes_ok (c_modes o) /\ modes_ok (c_modes c) /\ exists t, at_entry es pc s n pc' t /\ describes_modes o t c.
Proof.
  intros src a f es pc s BS A LI. induction LI as [|es pc s i s' n LI IH FI NS|es pc s i s' n t LI IH FI ST LA]; intros TR.
  - split; [exact A|]. intros o n pc' c FA L. cbn in L. assert (n = 0%nat) as -> by lia. inversion FA; subst.
    split; [assumption|]. split; [assumption|]. exists (estate_of_flags f). split; [split; reflexivity|]. apply entry_describes. assumption.
  - apply Forall_app in TR. destruct TR as [TR TE]. specialize (IH TR). destruct IH as [A' IH].
    split; [apply same_bank_plus_24; exact A'|].
    intros o m pc' c FA L. rewrite app_length in L. cbn in L. destruct (Nat.eq_dec m (List.length es + 1)) as [->|NE].
    2: { destruct (IH o m pc' c FA) as (MO & MC & t & AT & D); [lia|]. split; [exact MO|]. split; [exact MC|]. exists t. split; [|exact D].
         unfold at_entry in *. destruct (Nat.eq_dec m (List.length es)) as [->|NE'].
         - rewrite nth_error_app2, Nat.sub_diag by lia. rewrite (proj2 (nth_error_None es (List.length es))) in AT by lia. exact AT.
         - rewrite nth_error_app1 by lia. destruct (nth_error es m) eqn:NT; [exact AT|]. apply nth_error_None in NT. lia. }
    replace (List.length es + 1)%nat with (Datatypes.S (List.length es)) in * by lia. inversion FA as [|n0 pc0 c0 c1 op rest j FA0 RD EX NJ MS E1 E2 E3]; subst.
    destruct (IH o _ _ _ FA0 (le_n _)) as (MO & MC & t & AT & D). unfold at_entry in AT. rewrite (proj2 (nth_error_None es (List.length es))) in AT by lia. destruct AT as [-> ->].
    destruct FI as (op' & rest' & RD' & KL & DE & EXE). cbn [pr_pc pr_instr pr_before pr_after] in *. rewrite RD in RD'. injection RD' as <- <-.
    pose proof (BS _ _ _ RD) as B. inversion B as [|? ? R Br]; subst. destruct EX as [E1 E2]. rewrite no_convention in E2. destruct (decode_ret _ _ _ DE) as [RJ _].
    assert (SM : i_mnem j = i_mnem i) by (apply mnem_name_inj; rewrite E1; symmetry; eapply op_mnem; eassumption).
    pose proof (step_same _ _ _ _ _ _ SM (eq_trans E2 (eq_sym RJ)) MS) as MS'. inversion TE as [|? ? [_ [T1 T2]] _]; subst. cbn [pr_instr pr_before] in *.
    destruct (fall_plain _ _ _ _ _ _ _ _ B DE EXE T1 T2 MO MC D MS') as [D' MC'].
    split; [exact MO|]. split; [exact MC'|]. exists s'. split; [|exact D']. unfold at_entry. rewrite (proj2 (nth_error_None _ _)) by (rewrite app_length; cbn; lia).
    rewrite (actual_length _ _ _ _ _ KL (proj1 D)). auto.
  - apply Forall_app in TR. destruct TR as [_ TR]. inversion TR as [|? ? [NS _] _]; subst. destruct (NS ST).
Qed.
Lemma straight : forall src a f es pc s o n pc' c, byte_source src -> addr24 a -> listed src a f es pc s ->
  (forall e, In e es -> ~ stops (pr_instr e) /\ tractable e) -> falls src a f o n pc' c ->
  ((n < List.length es)%nat -> exists e, nth_error es n = Some e /\ pr_pc e = pc' /\ describes_modes o (pr_before e) c) /\
  (n = List.length es -> pc = pc' /\ describes_modes o s c).
Proof.
  intros src a f es pc s o n pc' c BS A LI TR FA. apply Forall_forall in TR. destruct (straight_all _ _ _ _ _ _ BS A LI TR) as [_ SA]. split.
  - intros L. destruct (SA o n pc' c FA) as (_ & _ & t & AT & D); [lia|]. unfold at_entry in AT. destruct (nth_error es n) as [e|] eqn:NT; [|apply nth_error_None in NT; lia].
    destruct AT as [-> ->]. exists e. auto.
  - intros ->. destruct (SA o _ pc' c FA (le_n _)) as (_ & _ & t & AT & D). unfold at_entry in AT. rewrite (proj2 (nth_error_None es (List.length es))) in AT by lia. destruct AT as [-> ->]. auto.
Qed.

(** ** The end. *)
Lemma length_range : forall op rest f j, 0 <= op < 256 -> decode (op :: rest) f = Ok j -> 1 <= instruction_length (i_mode j) <= 4.
Proof.
  intros op rest f j R DE. destruct (decode_mode_of op rest f j R DE) as (_ & _ & _ & _ & KL). unfold known_length, cpu_length in KL.
  destruct (op_form op); try (injection KL as <-; lia).
  - destruct (known_bit (fl_m f)) as [b|]; [|discriminate KL]. injection KL as <-. destruct b; lia.
  - destruct (known_bit (fl_x f)) as [b|]; [|discriminate KL]. injection KL as <-. destruct b; lia.
Qed.
Lemma next_pc : forall i next s jumps lines d, dumb_next i next s jumps = (lines, Again d) -> du_pc d = next.
Proof.
  intros i next s jumps lines d H. unfold dumb_next in H. destruct (is_exit_instruction i); [|injection H as <- <-; reflexivity].
  destruct (om_lower_bound next jumps) as [[t s']|]; [|discriminate H]. destruct (next <? t); [discriminate H|]. injection H as <- <-. reflexivity.
Qed.
Lemma step_moves : forall msg src d lines r, byte_source src -> answers src -> addr24 (du_pc d) -> dumb_step msg src d = (lines, r) ->
  r <> OutOfFuel /\ forall d', r = Ok (Again d') -> exists n, 1 <= n <= 4 /\ du_pc d' = same_bank_plus (du_pc d) n.
Proof.
  intros msg src d lines r BS AN A H. unfold dumb_step in H. destruct (AN _ A) as [[bytes RD]|[er RD]]; rewrite RD in H; cbn [bind] in H.
  2: { injection H as <- <-. split; [discriminate|intros d' E; discriminate E]. }
  pose proof (BS _ _ _ RD) as B. destruct (decode_exact bytes (es_flags (du_state d)) B) as (_ & DI & DT).
  destruct (decode bytes (es_flags (du_state d))) as [i|er|u|] eqn:DE; cbn [bind] in H.
  2: { injection H as <- <-. split; [discriminate|intros d' E; discriminate E]. }
  2: { exfalso. destruct DT as [[? X]|[? X]]; discriminate X. }
  2: { exfalso. destruct DT as [[? X]|[? X]]; discriminate X. }
  destruct (DI _ eq_refl) as (op & rest & -> & _ & _ & _). inversion B as [|? ? R Br]; subst.
  destruct (execute i (du_state d)) as [s'|er|u|] eqn:EX; cbn [bind] in H.
  2: { injection H as <- <-. split; [discriminate|intros d' E; discriminate E]. }
  2: { injection H as <- <-. split; [discriminate|intros d' E; discriminate E]. }
  2: { destruct (nf_execute _ _ EX). }
  pose proof (length_range _ _ _ _ R DE) as LR. cbv zeta in H.
  assert (GO : forall jumps note, (let (lines0, next) := dumb_next i (add_wrapped (du_pc d) (instruction_length (i_mode i))) s' jumps in
     (instruction_line (du_pc d) i (es_flags s') note :: lines0, Ok next)) = (lines, r) ->
     r <> OutOfFuel /\ forall d', r = Ok (Again d') -> exists n, 1 <= n <= 4 /\ du_pc d' = same_bank_plus (du_pc d) n).
  { intros jumps note E. destruct (dumb_next i (add_wrapped (du_pc d) (instruction_length (i_mode i))) s' jumps) as [more k] eqn:DN. injection E as <- <-. split; [discriminate|]. intros d' E. injection E as ->.
    exists (instruction_length (i_mode i)). split; [exact LR|]. rewrite (next_pc _ _ _ _ _ _ DN). apply add_wrapped_spec. exact A. }
  destruct (is_local_branch i) eqn:LO; [|exact (GO _ _ H)]. destruct (decode_offset _ _ _ _ B DE LO) as [v BO]. rewrite BO in H. exact (GO _ _ H).
Qed.
Lemma loop_ends : forall msg src h, byte_source src -> answers src -> addr24 h -> hole src h ->
  forall fuel d k, 0 <= k < Z.of_nat fuel -> du_pc d = same_bank_plus h (3 - k) -> snd (dumb_loop fuel msg src d) <> OutOfFuel.
Proof.
  intros msg src h BS AN A H. induction fuel as [|fuel IH]; intros d k K PC; [lia|]. cbn [dumb_loop].
  assert (AP : addr24 (du_pc d)) by (rewrite PC; apply same_bank_plus_24; exact A).
  destruct (dumb_step msg src d) as [lines r] eqn:ST. destruct (step_moves _ _ _ _ _ BS AN AP ST) as [NO NX].
  destruct r as [[d'|d'|]|e|u|]; try (cbn; discriminate); [|congruence]. destruct (NX d' eq_refl) as (n & N & PC').
  destruct (Z.le_gt_cases k 3) as [L|G].
  - exfalso. destruct (H (3 - k) ltac:(lia)) as [e RD]. unfold dumb_step in ST. rewrite PC, RD in ST. cbn [bind] in ST. discriminate ST.
  - specialize (IH d' (k - n)). destruct (dumb_loop fuel msg src d') as [more r'] eqn:LP. cbn [snd] in *. apply IH; [lia|].
    rewrite PC', PC, bank_steps. f_equal. lia.
Qed.
Lemma dumb_halts : forall fuel msg src a f h, byte_source src -> answers src -> addr24 a -> addr24 h -> bank_of h = bank_of a -> hole src h ->
  2 ^ 16 <= Z.of_nat fuel -> snd (dumb_disassemble fuel msg src a f) <> OutOfFuel.
Proof.
  intros fuel msg src a f h BS AN A AH BK H L. unfold dumb_disassemble. rewrite (start_address a A).
  apply (loop_ends msg src h BS AN AH H fuel _ ((offset_of h + 3 - offset_of a) mod 65536)).
  - pose proof (Z.mod_pos_bound (offset_of h + 3 - offset_of a) 65536 ltac:(lia)). lia.
  - cbn [du_pc]. unfold same_bank_plus. rewrite BK. unfold bank_of, offset_of. change (2 ^ 16) with 65536.
    pose proof (Z.mod_pos_bound a 65536 ltac:(lia)) as Y. pose proof (Z.div_mod a 65536 ltac:(lia)) as D. set (y := a mod 65536) in *. set (x := h mod 65536).
    pose proof (Z.div_mod (x + 3 - y) 65536 ltac:(lia)) as Q. set (q := (x + 3 - y) / 65536) in *. set (m := (x + 3 - y) mod 65536) in *.
    replace (x + (3 - m)) with (y + q * 65536) by lia. rewrite Z.mod_add, Z.mod_small by lia. lia.
Qed.
