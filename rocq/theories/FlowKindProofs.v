(** Modules without backward branches, and modules in one mode. *)
From Verif Require Import Base ModelNumeric ModelExpr ModelMnemonic ModelAMode ModelOpcode ModelState ModelInstr ModelToken ModelStatement
  ModelParse ModelMap ModelModule ModelAssembler SpecArith SpecText SpecScope SpecState SpecAssemble SpecSafe SpecFlow BaseProofs MapProofs ArithProofs
  NameProofs StateProofs ExecProofs OrderProofs LoadProofs ScopeProofs PassProofs LayoutProofs ProgramProofs TermProofs SafeProofs SafeRunProofs
  FlowProofs FlowRunProofs FlowArriveProofs.
Open Scope list_scope.
Open Scope Z_scope.

Lemma local_relative : forall i f u, check_consistency i f = Ok u -> is_local_branch i = true -> relative_branch (i_mnem i).
Proof.
  Local Transparent is_legal_combination.
  intros i f u H B. apply checked_legal in H. unfold is_local_branch in B. apply andb_true_iff in B. destruct B as [B N].
  assert (A : forallb (fun m => if negb (mnem_eqb m M_per) && (is_legal_combination (eff m) A_rel8
      || is_legal_combination (eff m) A_rel16)
    then existsb (mnem_eqb m) [M_bcc; M_bcs; M_beq; M_bmi; M_bne; M_bpl; M_bra; M_brl; M_bvc; M_bvs] else true) all_mnemonics = true) by (vm_compute; reflexivity).
  rewrite forallb_forall in A. specialize (A (i_mnem i) (all_mnemonics_complete _)). rewrite N in A. cbn [andb] in A.
  Local Opaque is_legal_combination.
  destruct (i_mode i); try discriminate B; rewrite H in A; rewrite ?orb_true_r in A; cbn [orb] in A; apply existsb_exists in A;
    destruct A as (x & IN & E); apply mnem_eqb_eq in E; subst x; exact IN.
Qed.
Local Opaque execute_in check_consistency is_legal_combination.
Lemma flows_forward : forall file m name src ls k l s j s', load_asm_file file = Ok m -> SpecScope.reads file src -> m = module_of name src -> forward src ->
  map core2 ls = map core2 (md_lines m) -> znth ls k = Some l -> flows m l k s j s' -> k < j.
Proof.
  intros file m name src ls k l s j s' LD RD EM FW CO L F. destruct (core_nth _ _ _ _ CO L) as (l0 & L0 & C0). unfold core2 in C0. injection C0 as S0 SC0.
  pose proof L0 as L0'. rewrite EM in L0'. destruct (line_stmt _ _ _ _ L0') as [K ST]. rewrite <- S0 in ST.
  destruct F as [s' NX E|i n j s' SI B A J E]; [lia|]. rewrite SI in ST. rewrite SC0 in J.
  assert (L1 : nth_error (md_lines m) (Z.to_nat k) = Some l0) by (unfold znth in L0; destruct (k <? 0); [discriminate L0|exact L0]).
  pose proof (lookup_denotes _ _ _ _ _ _ n j LD RD (same_scopes_refl m) L1) as [D _]. specialize (D J).
  destruct (branch_e _ _ _ E) as (s1 & E1 & _). destruct (executed_checked _ _ _ _ E1) as [u U].
  pose proof (local_relative _ _ _ U B) as RB. unfold simple_identifier_opt in A. destruct (i_arg1 i) as [e|] eqn:AG; [|discriminate A].
  unfold simple_identifier in A. destruct e as [|[mo nm] ty| | |]; try discriminate A. destruct mo as [mo|]; [discriminate A|]. cbn in A. injection A as ->.
  specialize (FW _ _ _ _ _ ST RB AG D). lia.
Qed.

Definition settled_lines (V : Z -> estate -> Prop) (ls : list line) (st : omap estate) : Prop :=
  (forall k s, V k s -> exists l, znth ls k = Some l /\ ln_reached l = true /\ ln_in l = s) /\
  (forall k s j t, V k s -> om_find j st = Some t -> k <= j /\ (j = k -> t = s)).
Lemma sorted_head_min : forall k (s : estate) rest j t, sorted_keys ((k, s) :: rest) -> om_find j ((k, s) :: rest) = Some t -> k <= j.
Proof.
  intros k s rest j t [S _] F. apply om_find_in in F. destruct F as [F|F]; [injection F as -> _; lia|]. apply S in F. lia.
Qed.
Lemma forward_exact : forall fuel sk files ws a n file m src o k c l, assemble fuel sk files = (ws, Ok a) ->
  nth_error files n = Some file -> nth_error (as_mods a) n = Some m -> SpecScope.reads file src -> tracked src -> forward src -> arrives src o k c ->
  nth_error (md_lines m) k = Some l ->
  describes_modes o (ln_in l) c /\ forall i, ln_stmt l = SInstr i -> immediate_fits i (c_modes c).
Proof.
  intros fuel sk files ws a n file m src o k c l H NF NM RD TR FW AR L.
  destruct (program_analysed _ _ _ _ _ _ _ _ _ H NF NM RD) as (m0 & name & ls & LD & EM & LP & EA).
  destruct (run_covered _ _ _ _ _ _ settled_lines LD RD EM TR LP) as (V & IV & CO & [S1 _]).
  - split; [intros k0 s0 []|intros k0 s0 j t []].
  - intros V ls0 k0 s0 rest CO0 [A B] S. split; [exact A|]. intros k1 s1 j t HV F. eapply B; [exact HV|]. cbn [om_find].
    destruct (Z.eqb_spec k0 j) as [->|NE]; [|exact F]. exfalso. apply om_find_in in F. destruct S as [S _]. apply S in F. lia.
  - intros V ls0 k0 s0 rest l0 st' CO0 [A B] S L0 NV O S'.
    assert (HD : om_find k0 ((k0, s0) :: rest) = Some s0) by (cbn [om_find]; rewrite Z.eqb_refl; reflexivity).
    assert (NOV : forall s1, ~ V k0 s1).
    { intros s1 HV. destruct (B _ _ _ _ HV HD) as [_ E]. specialize (E eq_refl). destruct (A _ _ HV) as (l1 & L1 & R1 & I1). apply NV.
      assert (l1 = l0) as -> by congruence. split; congruence. }
    assert (OLD : forall j, j <= k0 -> om_find j st' = om_find j ((k0, s0) :: rest)).
    { intros j J. apply O. intros s1 F. pose proof (flows_forward _ _ _ _ _ _ _ _ _ _ LD RD EM FW CO0 L0 F). lia. }
    assert (MIN : forall j t, om_find j st' = Some t -> k0 <= j).
    { intros j t F. destruct (Z.le_gt_cases k0 j); [assumption|]. rewrite OLD in F by lia. eapply sorted_head_min; eassumption. }
    split.
    + intros k1 s1 [HV|[-> ->]].
      * destruct (A _ _ HV) as (l1 & L1 & R1 & I1). destruct (Z.eq_dec k0 k1) as [<-|NE]; [destruct (NOV _ HV)|].
        exists l1. rewrite znth_zset_other by exact NE. auto.
      * exists (ln_visit s0 l0). rewrite znth_zset_same by (eapply znth_some; exact L0). repeat split.
    + intros k1 s1 j t HV F. pose proof (MIN _ _ F) as J. destruct HV as [HV|[-> ->]].
      * destruct (B _ _ _ _ HV HD) as [K1 _]. split; [lia|]. intros ->. assert (k1 = k0) by lia. subst k1. destruct (NOV _ HV).
      * split; [exact J|]. intros ->. rewrite OLD in F by lia. congruence.
  - destruct (arrives_covered _ _ _ _ _ _ _ _ _ LD RD EM TR IV CO AR) as (MO & MC & s & HV & D).
    destruct (S1 _ _ HV) as (l1 & L1 & R1 & I1). destruct (ends_line _ _ _ _ EA L1) as (l' & L' & EI & ER & ES). assert (l' = l) as -> by congruence.
    rewrite EI, I1. split; [exact D|]. intros i SI.
    destruct (v_visited _ _ _ _ _ _ IV _ _ HV) as (_ & l2 & L2 & _ & [s' E] & _). assert (l2 = l1) as -> by congruence.
    destruct (ln_stmt l1) as [i0|d]; [|congruence]. destruct ES as (_ & b & SE & M). rewrite SI in M. injection M as ->. rewrite I1 in SE.
    destruct (executed_checked _ _ _ _ E) as [u U]. destruct D as [(_ & DM & DX & _) _]. eapply settled_fits; [exact U|exact U|exact SE|exact DM|exact DX|]. right. auto.
Qed.

(** ** Modules in one mode. *)
Definition in_mode (f : flags) (p : modes) : Prop := flags_describe (Modes false false false false) (RawFlags (fl_e f) (fl_m f) (fl_x f) B_unknown) p.
Lemma steady_modes : forall f src o k c, steady f src -> arrives src o k c -> in_mode f (c_modes o) /\ in_mode f (c_modes c).
Proof.
  intros f src o k c (KE & KM & KX & _ & SD & SI) AR.
  assert (KN : forall b q v, In b [B_on; B_off] -> bit_describes q b v -> forall q', bit_describes q' b v).
  { intros b q v [<-|[<-|[]]] D q'; exact D. }
  assert (CC : forall p p', in_mode f p -> carry_changed p p' -> in_mode f p') by (intros p p' H [x ->]; exact H).
  induction AR as [k d ST DN MO FD|k i v c c' AR IH ST NS OV MS|k d c AR IH ST NH MD|k i n ty t c c' AR IH ST RB AG DE BS].
  - destruct (stmt_at_in _ _ _ ST) as [labels IN]. destruct (SD _ _ IN) as [_ X]. destruct (X DN) as (E & M & X0). destruct FD as (FE & FM & FX & _).
    assert (IM : in_mode f (c_modes o)).
    { split; [|split; [|split; [|exact I]]]; cbn [fl_e fl_m fl_x]; [rewrite <- E|rewrite <- M|rewrite <- X0];
        (eapply KN; [|eassumption]); congruence. }
    split; exact IM.
  - destruct IH as [IO IC]. split; [exact IO|]. destruct (stmt_at_in _ _ _ ST) as [labels IN]. destruct (SI _ _ IN) as [NM NY].
    unfold mode_step, modes_step in MS. cbv zeta in MS.
    destruct (i_mnem i); try (exfalso; apply NM; cbn; tauto); destruct MS as [MS _]; try (rewrite MS; exact IC); try (eapply CC; eassumption).
    all: try (destruct MS as [_ ->]; exact IC).
    all: destruct (i_ret i) as [|g|]; [eapply CC; eassumption|destruct (NY g eq_refl)|destruct MS].
  - destruct IH as [IO IC]. split; assumption.
  - destruct IH as [IO IC]. split; [exact IO|]. destruct BS as [-> _]. exact IC.
Qed.
Definition flags_are (f : flags) (k : Z) (s : estate) : Prop := same_emx (es_flags s) f.
Lemma constrained_same : forall b e, (e = B_on -> b = B_on) -> In e [B_on; B_off] -> constrained b e = b.
Proof. intros b e H [<-|[<-|[]]]; [rewrite (H eq_refl); reflexivity|reflexivity]. Qed.
Lemma bit_merge_same : forall b, bit_merge b b = b.
Proof. intros []; reflexivity. Qed.
Lemma steady_fits : forall fuel sk files ws a n file m src f o k c l i, assemble fuel sk files = (ws, Ok a) ->
  nth_error files n = Some file -> nth_error (as_mods a) n = Some m -> SpecScope.reads file src -> steady f src -> arrives src o k c ->
  nth_error (md_lines m) k = Some l -> ln_stmt l = SInstr i -> immediate_fits i (c_modes c).
Proof.
  intros fuel sk files ws a n file m src f o k c l i H NF NM RD SF AR L SI.
  destruct (steady_modes _ _ _ _ _ SF AR) as [_ IC]. destruct SF as (KE & KM & KX & CN & SD & SIN).
  destruct (program_analysed _ _ _ _ _ _ _ _ _ H NF NM RD) as (m0 & name & ls & LD & EM & LP & EA).
  assert (MG : merges (flags_are f)).
  { intros k0 s1 s2 (E1 & M1 & X1) (E2 & M2 & X2). unfold flags_are, same_emx. cbn.
    rewrite E1, E2, M1, M2, X1, X2, !bit_merge_same. repeat split; apply constrained_same; try assumption; intros E; apply CN in E; tauto. }
  destruct (loop_inv m0 (flags_are f) (entry_at m0) (fun V ls st => map core2 ls = map core2 (md_lines m0))) with
    (fuel := fuel) (V := nowhere) (ls := md_lines m0) (st := entry_states 0 (md_lines m0) []) (ls' := ls) as (V & IV & CO); auto.
  - intros V l0 k0 s rest lx st' C S LL NV O S'. rewrite zset_core2; assumption.
  - intros k0 l0 s j s' L0 P F. rewrite EM in L0. destruct (line_stmt _ _ _ _ L0) as [_ ST]. destruct (stmt_at_in _ _ _ ST) as [labels IN].
    assert (EXE : forall i s', ln_stmt l0 = SInstr i -> execute i s = Ok s' -> flags_are f j s').
    { intros i0 s1 SE E. rewrite SE in IN. destruct (SIN _ _ IN) as [N Y]. destruct (keeps_flags _ _ _ _ E N Y) as (A & B & C). destruct P as (P1 & P2 & P3).
      split; [|split]; congruence. }
    destruct F as [s' NX E|i0 nm j s' SE B A J E].
    + destruct (ln_stmt l0) as [i0|d] eqn:SL; [eapply EXE; eauto|]. cbn [stmt_execute] in E. unfold directive_execute in E. destruct (SD _ _ IN) as [DM _].
      destruct (d_name d); try discriminate E; injection E as <-; try exact P. destruct (DM eq_refl).
    + destruct (branch_e _ _ _ E) as (s1 & E1 & A1 & A2 & A3). destruct (EXE _ _ SE E1) as (P1 & P2 & P3). split; [|split]; congruence.
  - eapply start_inv; [exact EM|exact MG|]. intros j s (k0 & l0 & d & L0 & SL & DN & -> & ->). rewrite EM in L0. destruct (line_stmt _ _ _ _ L0) as [_ ST].
    rewrite SL in ST. destruct (stmt_at_in _ _ _ ST) as [labels IN]. destruct (SD _ _ IN) as [_ X]. destruct (X DN) as (E & M & X0).
    assert (U : forall b, In b [B_on; B_off] -> unk_to_orig b = b) by (intros b [<-|[<-|[]]]; reflexivity).
    unfold flags_are, same_emx. cbn. rewrite E, M, X0, !U by assumption. auto.
  - assert (LL : exists l0, znth ls (Z.of_nat k) = Some l0 /\ ends_as l0 l).
    { rewrite <- nat_znth. clear - EA L. revert k L. induction EA as [|x y ls0 ls' R F IH]; intros k L; [destruct k; discriminate L|].
      destruct k as [|k]; cbn in *; [injection L as <-; eauto|eauto]. }
    destruct LL as (l0 & L0 & EI & ER & ES). destruct (ln_stmt l0) as [i0|d] eqn:SL0; [|congruence]. destruct ES as (R0 & b & SE & M).
    rewrite SI in M. injection M as ->. pose proof (v_reached _ _ _ _ _ _ IV _ _ L0 R0) as HV.
    destruct (v_visited _ _ _ _ _ _ IV _ _ HV) as ((P1 & P2 & P3) & l2 & L2 & _ & [s' E] & _). assert (l2 = l0) as -> by congruence. rewrite SL0 in E.
    destruct (executed_checked _ _ _ _ E) as [u U].
    destruct IC as (_ & DM & DX & _). cbn [fl_m fl_x] in DM, DX. rewrite <- P2 in DM. rewrite <- P3 in DX.
    eapply settled_fits; [exact U|exact U|exact SE|exact DM|exact DX|]. right. auto.
Qed.

(** ** Only what can be reached is reached. *)
Definition on_path (src : source) (k : Z) (s : estate) : Prop := 0 <= k /\ path src (Z.to_nat k).
Lemma falls_next : forall i, is_exit_instruction i = false -> ~ stops i.
Proof.
  intros i H [IN|R]; unfold is_exit_instruction in H; apply orb_false_iff in H; destruct H as [H1 H2].
  - cbn [In] in IN. repeat (destruct IN as [IN|IN]; [rewrite <- IN in H1; discriminate H1|]). destruct IN.
  - rewrite R in H2. discriminate H2.
Qed.
Lemma reached_path : forall fuel sk files ws a n file m src k l, assemble fuel sk files = (ws, Ok a) ->
  nth_error files n = Some file -> nth_error (as_mods a) n = Some m -> SpecScope.reads file src ->
  nth_error (md_lines m) k = Some l -> (ln_reached l = true <-> path src k).
Proof.
  intros fuel sk files ws a n file m src k l H NF NM RD L.
  destruct (program_analysed _ _ _ _ _ _ _ _ _ H NF NM RD) as (m0 & name & ls & LD & EM & LP & EA).
  destruct (loop_inv m0 (on_path src) (entry_at m0) (fun V ls st => map core2 ls = map core2 (md_lines m0))) with
    (fuel := fuel) (V := nowhere) (ls := md_lines m0) (st := entry_states 0 (md_lines m0) []) (ls' := ls) as (V & IV & CO); auto.
  - intros k0 s1 s2 A _. exact A.
  - intros V l0 k0 s rest lx st' C S LL NV O S'. rewrite zset_core2; assumption.
  - intros k0 l0 s j s' L0 [K P] F. pose proof L0 as L0'. rewrite EM in L0'. destruct (line_stmt _ _ _ _ L0') as [_ ST].
    destruct F as [s' NX E|i0 nm j s' SE B A J E].
    + split; [lia|]. replace (Z.to_nat (k0 + 1)) with (S (Z.to_nat k0)) by lia. destruct (ln_stmt l0) as [i0|d] eqn:SL.
      * eapply pa_next; [exact P|exact ST|]. apply falls_next. exact NX.
      * eapply pa_directive; [exact P|exact ST|]. intros D. cbn in NX. rewrite D in NX. discriminate NX.
    + rewrite SE in ST. assert (L1 : nth_error (md_lines m0) (Z.to_nat k0) = Some l0) by (unfold znth in L0; destruct (k0 <? 0); [discriminate L0|exact L0]).
      pose proof (lookup_denotes _ _ _ _ _ _ nm j LD RD (same_scopes_refl m0) L1) as [D _]. specialize (D J).
      destruct (branch_e _ _ _ E) as (s1 & E1 & _). destruct (executed_checked _ _ _ _ E1) as [u U].
      pose proof (local_relative _ _ _ U B) as RB. unfold simple_identifier_opt in A. destruct (i_arg1 i0) as [e|] eqn:AG; [|discriminate A].
      unfold simple_identifier in A. destruct e as [|[mo nm'] ty| | |]; try discriminate A. destruct mo as [mo|]; [discriminate A|]. cbn in A. injection A as ->.
      split; [|eapply pa_branch; eassumption].
      destruct D as (bf & af & _ & _ & D). cbv zeta in D. assert (X : exists sc, defined src sc nm j) by (destruct D as [(b & _ & X & _)|[X _]]; eauto).
      destruct X as (sc & p & before & labels & st & after & x & _ & -> & _). lia.
  - eapply start_inv; [exact EM|intros k0 s1 s2 A _; exact A|]. intros j s (k0 & l0 & d & L0 & SL & DN & -> & ->). rewrite EM in L0.
    destruct (line_stmt _ _ _ _ L0) as [K ST]. rewrite SL in ST. split; [lia|]. replace (Z.to_nat (k0 + 1)) with (S (Z.to_nat k0)) by lia. eapply pa_entry; eassumption.
  - assert (LL : forall k l, nth_error (md_lines m) k = Some l -> exists l0, znth ls (Z.of_nat k) = Some l0 /\ ends_as l0 l).
    { clear - EA. intros k l L. rewrite <- nat_znth. revert k L. induction EA as [|x y ls0 ls' R F IH]; intros k L; [destruct k; discriminate L|].
      destruct k as [|k]; cbn in *; [injection L as <-; eauto|eauto]. }
    split.
    + intros R. destruct (LL _ _ L) as (l0 & L0 & EI & ER & ES). rewrite ER in R.
      destruct (v_visited _ _ _ _ _ _ IV _ _ (v_reached _ _ _ _ _ _ IV _ _ L0 R)) as ([_ P] & _). rewrite Nat2Z.id in P. exact P.
    + intros P.
      assert (GO : forall k, path src k -> exists s, V (Z.of_nat k) s).
      { clear k l L P. intros k P.
        assert (COV : forall j s, covered V [] j s -> exists t, V j t) by (intros j s [(t & X & _)|(t & X & _)]; [eauto|discriminate X]).
        assert (LINE : forall k s stm, V (Z.of_nat k) s -> stmt_at src k stm -> exists l l0, znth ls (Z.of_nat k) = Some l /\ nth_error (md_lines m0) k = Some l0 /\
          ln_scopes l = ln_scopes l0 /\ ln_stmt l = stm /\ (exists s', stmt_execute stm s = Ok s') /\ forall j s', flows m0 l (Z.of_nat k) s j s' -> covered V [] j s').
        { intros k0 s stm HV ST. destruct (v_visited _ _ _ _ _ _ IV _ _ HV) as (_ & l & L & _ & X & F). destruct (core_nth _ _ _ _ CO L) as (l0 & L0 & C0).
          pose proof L0 as L0'. rewrite EM in L0'. destruct (line_stmt _ _ _ _ L0') as [_ ST0]. rewrite Nat2Z.id in ST0. unfold core2 in C0. injection C0 as S0 SC0.
          assert (SE : ln_stmt l = stm) by (unfold stmt_at in ST, ST0; congruence). rewrite SE in X. rewrite <- nat_znth in L0. exists l, l0. auto 8. }
        induction P as [k d ST DN|k i P [s HV] ST NS|k d P [s HV] ST NH|k i n0 ty t P [s HV] ST RB AG DE].
        - destruct (stmt_line name _ _ _ ST) as (l & L & SL). rewrite <- EM in L. replace (Z.of_nat (S k)) with (Z.of_nat k + 1) by lia.
          eapply COV, (v_entry _ _ _ _ _ _ IV). exists (Z.of_nat k), l, d. eauto 6.
        - destruct (LINE _ _ _ HV ST) as (l & l0 & L & L0 & SC & SE & [s' E] & F). replace (Z.of_nat (S k)) with (Z.of_nat k + 1) by lia.
          eapply COV, F, f_next; rewrite SE; [cbn; apply next_falls; exact NS|exact E].
        - destruct (LINE _ _ _ HV ST) as (l & l0 & L & L0 & SC & SE & [s' E] & F). replace (Z.of_nat (S k)) with (Z.of_nat k + 1) by lia.
          eapply COV, F, f_next; [|rewrite SE; exact E]. rewrite SE. cbn. destruct (d_name d); try reflexivity. destruct (NH eq_refl).
        - destruct (LINE _ _ _ HV ST) as (l & l0 & L & L0 & SC & SE & [s' E] & F). cbn [stmt_execute] in E. destruct (executed_checked _ _ _ _ E) as [u U].
          assert (T0 : 0 <= t).
          { destruct DE as (bf & af & _ & _ & DE). cbv zeta in DE. assert (X : exists sc, defined src sc n0 t) by (destruct DE as [(b & _ & X & _)|[X _]]; eauto).
            destruct X as (sc & p & before & labels & st & after & x & _ & -> & _). lia. }
          pose proof (lookup_denotes _ _ _ _ _ _ n0 t LD RD (same_scopes_refl m0) L0) as [_ X]. specialize (X DE). rewrite <- SC in X.
          destruct (execute_branch i s) as [s2|e|u2|] eqn:B.
          2,3,4: exfalso; unfold execute_branch, execute in B, E; rewrite E in B; cbn [bind] in B; discriminate B.
          rewrite Z2Nat.id by exact T0. eapply COV, F, f_branch; [exact SE|eapply branch_local; eassumption|rewrite AG; reflexivity|exact X|exact B]. }
      destruct (GO _ P) as [s HV]. destruct (v_visited _ _ _ _ _ _ IV _ _ HV) as (_ & l0 & L0 & R0 & _).
      destruct (LL _ _ L) as (l1 & L1 & EI & ER & ES). assert (l1 = l0) as -> by congruence. congruence.
Qed.
