(** Recorded states that are closed describe every arrival. *)
From Verif Require Import Base ModelNumeric ModelExpr ModelMnemonic ModelAMode ModelOpcode ModelState ModelInstr ModelToken ModelStatement
  ModelParse ModelMap ModelModule ModelAssembler SpecArith SpecText SpecScope SpecState SpecAssemble SpecSafe SpecFlow SpecStable BaseProofs MapProofs ArithProofs
  NameProofs StateProofs ExecProofs OrderProofs LoadProofs ScopeProofs PassProofs LayoutProofs ProgramProofs TermProofs SafeProofs SafeRunProofs
  FlowProofs FlowRunProofs FlowArriveProofs FlowKindProofs.
Open Scope list_scope.
Open Scope Z_scope.
Local Opaque execute_in check_consistency is_legal_combination.

Lemma ends_back : forall ls ls' k l', Forall2 ends_as ls ls' -> nth_error ls' k = Some l' -> exists l, nth_error ls k = Some l /\ ends_as l l'.
Proof.
  intros ls ls' k l' F. revert k. induction F as [|a b ls ls' R F IH]; intros k L; [destruct k; discriminate L|].
  destruct k as [|k]; cbn in *; [injection L as <-; eauto|eauto].
Qed.
Lemma falls_next : forall i, is_exit_instruction i = false -> ~ stops i.
Proof.
  intros i H [S|S]; unfold is_exit_instruction in H; apply orb_false_iff in H; destruct H as [H1 H2].
  - cbn [In] in S. repeat destruct S as [S|S]; try contradiction; rewrite <- S in H1; discriminate H1.
  - rewrite S in H2. discriminate H2.
Qed.
Definition recorded (ls : list line) (k : Z) (s : estate) : Prop :=
  exists l, znth ls k = Some l /\ ln_reached l = true /\ s = ln_in l.

Lemma stable_exact : forall fuel sk files ws a n file m src o k c l, assemble fuel sk files = (ws, Ok a) ->
  nth_error files n = Some file -> nth_error (as_mods a) n = Some m -> SpecScope.reads file src -> tracked src -> stable src (md_lines m) ->
  arrives src o k c -> nth_error (md_lines m) k = Some l ->
  describes_modes o (ln_in l) c /\ forall i, ln_stmt l = SInstr i -> immediate_fits i (c_modes c).
Proof.
  intros fuel sk files ws a n file m src o k c l H NF NM RD TR (SE & SN & SB) AR L.
  destruct (program_analysed _ _ _ _ _ _ _ _ _ H NF NM RD) as (m0 & name & ls & LD & EM & LP & EA).
  destruct (run_covered _ _ _ _ _ _ nothing LD RD EM TR LP I) as (V & IV & CO & _); [exact (fun _ _ _ _ _ _ _ _ => I)|exact (fun _ _ _ _ _ _ _ _ _ _ _ _ _ _ => I)|].
  assert (COV : forall j s, includes (md_lines m) j s -> covered (recorded ls) [] (Z.of_nat j) s).
  { intros j s (l' & L' & R' & MF & MS). destruct (ends_back _ _ _ _ EA L') as (l0 & L0 & EI & ER & _). left. exists (ln_in l0). split.
    - exists l0. rewrite <- nat_znth. split; [exact L0|]. split; [congruence|reflexivity].
    - rewrite <- EI. intros o0 c0 M0 D0. pose proof (ext_merge_r (ln_in l') s o0 c0 M0 D0) as [D1 D2]. cbn in D1, D2.
      rewrite MF in D1. rewrite MS in D2. split; assumption. }
  assert (IV' : inv m0 (xce_ok src) (entry_at m0) (recorded ls) ls []).
  { constructor.
    - exact (v_sorted _ _ _ _ _ _ IV).
    - intros j s (k0 & l0 & d & L0 & SL & DN & -> & ->). rewrite EM in L0. destruct (line_stmt _ _ _ _ L0) as [K0 ST]. rewrite SL in ST.
      specialize (SE _ _ ST DN). apply COV in SE. replace (k0 + 1) with (Z.of_nat (Datatypes.S (Z.to_nat k0))) by lia. exact SE.
    - intros j t F. discriminate F.
    - intros k0 s (l0 & L0 & R0 & ->).
      destruct (v_visited _ _ _ _ _ _ IV _ _ (v_reached _ _ _ _ _ _ IV _ _ L0 R0)) as (XO & l1 & L1 & _ & X1 & _).
      assert (l1 = l0) as -> by congruence. split; [exact XO|]. exists l0. split; [exact L0|]. split; [exact R0|]. split; [exact X1|].
      destruct (core_nth _ _ _ _ CO L0) as (l2 & L2 & C2). pose proof L2 as L2'. rewrite EM in L2'. destruct (line_stmt _ _ _ _ L2') as [K0 ST].
      unfold core2 in C2. injection C2 as SQ SC. rewrite <- SQ in ST.
      assert (L0' : znth ls (Z.of_nat (Z.to_nat k0)) = Some l0) by (rewrite Z2Nat.id by exact K0; exact L0).
      destruct (ends_line _ _ _ _ EA L0') as (l3 & L3 & EI & ER & _). rewrite R0 in ER.
      intros j s' F. destruct F as [s' NX E|i n0 j s' SI B A J E].
      + replace (k0 + 1) with (Z.of_nat (Datatypes.S (Z.to_nat k0))) by lia. apply COV. rewrite <- EI in E.
        eapply (SN _ _ _ _ L3 ER ST E).
        * intros i SI. rewrite SI in NX. apply falls_next. exact NX.
        * intros d SI DH. rewrite SI in NX. cbn in NX. rewrite DH in NX. discriminate NX.
      + destruct (branch_e _ _ _ E) as (s1 & E1 & _). destruct (executed_checked _ _ _ _ E1) as [u U].
        pose proof (local_relative _ _ _ U B) as RB. unfold simple_identifier_opt in A. destruct (i_arg1 i) as [e|] eqn:AG; [|discriminate A].
        unfold simple_identifier in A. destruct e as [|[mo nm] ty| | |]; try discriminate A. destruct mo as [mo|]; [discriminate A|]. cbn in A. injection A as ->.
        rewrite SC in J.
        assert (L2n : nth_error (md_lines m0) (Z.to_nat k0) = Some l2) by (unfold znth in L2; destruct (k0 <? 0); [discriminate L2|exact L2]).
        pose proof (lookup_denotes _ _ _ _ _ _ n0 j LD RD (same_scopes_refl m0) L2n) as [D _]. specialize (D J).
        assert (T0 : 0 <= j).
        { destruct D as (bf & af & _ & _ & DE). cbv zeta in DE. assert (X : exists sc, defined src sc n0 j) by (destruct DE as [(b & _ & X & _)|[X _]]; eauto).
          destruct X as (sc & p & before & labels & st & after & x & _ & -> & _). lia. }
        rewrite <- (Z2Nat.id j) by exact T0. apply COV. rewrite SI in ST. rewrite <- EI in E. eapply (SB _ _ _ _ _ _ _ L3 ER ST RB AG D E).
    - intros k0 l0 L0 R0. exists l0. auto. }
  destruct (arrives_covered _ _ _ _ _ _ _ _ _ LD RD EM TR IV' CO AR) as (MO & MC & s & HV & D).
  destruct HV as (l1 & L1 & R1 & ->). destruct (ends_line _ _ _ _ EA L1) as (l' & L' & EI & ER & ES). assert (l' = l) as -> by congruence.
  rewrite EI. split; [exact D|]. intros i SI.
  destruct (v_visited _ _ _ _ _ _ IV _ _ (v_reached _ _ _ _ _ _ IV _ _ L1 R1)) as (_ & l2 & L2 & _ & [s' E] & _). assert (l2 = l1) as -> by congruence.
  destruct (ln_stmt l1) as [i0|d]; [|congruence]. destruct ES as (_ & b & SX & M). rewrite SI in M. injection M as ->.
  destruct (executed_checked _ _ _ _ E) as [u U]. destruct D as [(_ & DM & DX & _) _]. eapply settled_fits; [exact U|exact U|exact SX|exact DM|exact DX|]. right. auto.
Qed.
