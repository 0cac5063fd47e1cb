(** Arrivals at statements, and the states in which they were analysed. *)
From Verif Require Import Base ModelNumeric ModelExpr ModelMnemonic ModelAMode ModelOpcode ModelState ModelInstr ModelToken ModelStatement
  ModelParse ModelMap ModelModule ModelAssembler SpecArith SpecText SpecScope SpecState SpecAssemble SpecSafe SpecFlow BaseProofs MapProofs ArithProofs
  NameProofs StateProofs ExecProofs OrderProofs LoadProofs ScopeProofs PassProofs LayoutProofs ProgramProofs TermProofs SafeProofs SafeRunProofs
  FlowProofs FlowRunProofs.
Open Scope list_scope.
Open Scope Z_scope.

(** ** What the consistency check of an analysed instruction guarantees. *)
Lemma executed_checked : forall c i s s', execute_in c i s = Ok s' -> exists u, check_consistency i (es_flags s) = Ok u.
Proof. Local Opaque check_consistency. intros c i s s' H. unfold execute_in in H. bok H as u U. eauto. Local Transparent check_consistency. Qed.
Definition eff (m : mnemonic) : mnemonic := match m with PM_add | PM_sub => M_adc | m => m end.
Lemma checked_legal : forall i f u, check_consistency i f = Ok u -> is_legal_combination (eff (i_mnem i)) (i_mode i) = true.
Proof.
  Local Opaque is_legal_combination. intros i f u H. unfold check_consistency in H. cbv zeta in H. revert H.
  match goal with |- context [negb (is_legal_combination ?e ?a)] =>
    assert (E : e = eff (i_mnem i)) by (destruct (i_mnem i); reflexivity);
    rewrite <- E; destruct (is_legal_combination e a); [reflexivity|discriminate] end.
  Local Transparent is_legal_combination.
Qed.
Lemma branch_legal : forall m a, relative_branch m -> is_legal_combination m a = true -> a = A_rel8 \/ a = A_rel16.
Proof.
  intros m a R H. unfold relative_branch in R. cbn [In] in R.
  repeat (destruct R as [<-|R]; [destruct a; try (left; reflexivity); try (right; reflexivity); exfalso; revert H; vm_compute; discriminate|]). destruct R.
Qed.
Lemma branch_local : forall i f u, check_consistency i f = Ok u -> relative_branch (i_mnem i) -> is_local_branch i = true.
Proof.
  intros i f u H R. apply checked_legal in H. unfold is_local_branch.
  assert (E : eff (i_mnem i) = i_mnem i).
  { unfold relative_branch in R. cbn [In] in R. destruct (i_mnem i); try reflexivity; repeat destruct R as [R|R]; discriminate R || contradiction. }
  rewrite E in H. assert (P : mnem_eqb (i_mnem i) M_per = false).
  { unfold relative_branch in R. cbn [In] in R. repeat (destruct R as [<-|R]; [reflexivity|]). destruct R. }
  rewrite P. destruct (branch_legal _ _ R H) as [-> | ->]; reflexivity.
Qed.

Lemma next_falls : forall i, ~ stops i -> is_exit_instruction i = false.
Proof.
  intros i N. unfold is_exit_instruction. destruct (rc_is_exit (i_ret i)) eqn:R.
  - exfalso. apply N. right. destruct (i_ret i); try discriminate R. reflexivity.
  - rewrite orb_false_r. destruct (i_mnem i) eqn:M; try reflexivity; exfalso; apply N; left; rewrite M; cbn; tauto.
Qed.
Lemma entry_describes : forall o f, flags_describe (c_modes o) f (c_modes o) -> describes_modes o (estate_of_flags f) o.
Proof.
  intros o f (E & M & X & C). split; [|constructor]. cbn.
  assert (U : forall p b, bit_describes p b p -> bit_describes p (unk_to_orig b) p) by (intros p []; cbn; auto).
  repeat split; cbn; apply U; assumption.
Qed.

(** ** The theorem: arrivals are covered. *)
Local Opaque execute_in check_consistency is_legal_combination.
Lemma arrives_covered : forall file m name src V ls o k c, load_asm_file file = Ok m -> SpecScope.reads file src -> m = module_of name src ->
  tracked src -> inv m (xce_ok src) (entry_at m) V ls [] -> map core2 ls = map core2 (md_lines m) -> arrives src o k c ->
  modes_ok (c_modes o) /\ modes_ok (c_modes c) /\ exists s, V (Z.of_nat k) s /\ describes_modes o s c.
Proof.
  intros file m name src V ls o k c LD RD EM TR IV CO AR.
  assert (COV : forall j s c, modes_ok (c_modes c) -> covered V [] j s -> describes_modes o s c -> exists t, V j t /\ describes_modes o t c).
  { intros j s c0 M [(t & HV & HX)|(t & F & _)] D; [|discriminate F]. exists t. split; [exact HV|]. apply HX; assumption. }
  assert (LINE : forall k s, V k s -> exists l l0, znth ls k = Some l /\ znth (md_lines m) k = Some l0 /\ core2 l = core2 l0 /\ xce_ok src k s /\
     stmt_at src (Z.to_nat k) (ln_stmt l) /\ (exists s', stmt_execute (ln_stmt l) s = Ok s') /\ forall j s', flows m l k s j s' -> covered V [] j s').
  { intros k0 s HV. destruct (v_visited _ _ _ _ _ _ IV _ _ HV) as (XO & l & L & _ & X & F). destruct (core_nth _ _ _ _ CO L) as (l0 & L0 & C0).
    exists l, l0. split; [exact L|]. split; [exact L0|]. split; [exact C0|]. split; [exact XO|]. split; [|split; assumption].
    rewrite EM in L0. destruct (line_stmt _ _ _ _ L0) as [_ ST]. unfold core2 in C0. injection C0 as -> _. exact ST. }
  induction AR as [k d ST DN MO FD|k i v c c' AR IH ST NS OV MS|k d c AR IH ST NH MD|k i n ty t c c' AR IH ST RB AG DE BS].
  - split; [exact MO|]. split; [exact MO|]. destruct (stmt_line name _ _ _ ST) as (l & L & SL). rewrite <- EM in L.
    replace (Z.of_nat (S k)) with (Z.of_nat k + 1) by lia. apply (COV _ (estate_of_flags (d_flags d))); [exact MO| |apply entry_describes; exact FD].
    apply (v_entry _ _ _ _ _ _ IV). exists (Z.of_nat k), l, d. auto 6.
  - destruct IH as (MO & MC & s & HV & D). split; [exact MO|]. destruct (LINE _ _ HV) as (l & l0 & L & L0 & C0 & XO & SL & [s' E] & F).
    rewrite Nat2Z.id in SL. assert (SE : ln_stmt l = SInstr i) by (unfold stmt_at in SL, ST; congruence).
    destruct XO as (_ & X1 & X2). rewrite SE in E. cbn [stmt_execute] in E.
    assert (R : describes_modes o s' c' /\ modes_ok (c_modes c')).
    { eapply (execute_modes o null_ctx i v s s' c c'); try eassumption.
      - intros w W. unfold eval_opt in W. destruct (i_arg1 i) as [e|] eqn:A; [|discriminate W]. apply (OV e w A). apply eval_means in W. exact W.
      - destruct (stmt_at_in _ _ _ ST) as [labels IN]. destruct TR as [T1 _]. eapply T1. exact IN.
      - intros X. destruct (stmt_at_in _ _ _ ST) as [labels IN]. split; [eapply X1; eassumption|]. apply X2 with i; [rewrite Nat2Z.id; exact ST|exact X]. }
    destruct R as [D' MC']. split; [exact MC'|]. replace (Z.of_nat (S k)) with (Z.of_nat k + 1) by lia. apply (COV _ s'); [exact MC'| |exact D'].
    apply F. apply f_next; rewrite SE; [cbn; apply next_falls; exact NS|exact E].
  - destruct IH as (MO & MC & s & HV & D). split; [exact MO|]. split; [exact MC|].
    destruct (LINE _ _ HV) as (l & l0 & L & L0 & C0 & XO & SL & [s' E] & F).
    rewrite Nat2Z.id in SL. assert (SE : ln_stmt l = SDir d) by (unfold stmt_at in SL, ST; congruence).
    replace (Z.of_nat (S k)) with (Z.of_nat k + 1) by lia. apply (COV _ s'); [exact MC| |].
    + apply F. apply f_next; [|exact E]. rewrite SE. cbn. destruct (d_name d); try reflexivity. destruct (NH eq_refl).
    + rewrite SE in E. cbn [stmt_execute] in E. unfold directive_execute in E.
      destruct (d_name d) eqn:DN; try discriminate E; injection E as <-; try exact D. destruct D as [_ D2]. split; [apply MD; reflexivity|exact D2].
  - destruct IH as (MO & MC & s & HV & D). split; [exact MO|]. destruct (LINE _ _ HV) as (l & l0 & L & L0 & C0 & XO & SL & [s' E] & F).
    rewrite Nat2Z.id in SL. assert (SE : ln_stmt l = SInstr i) by (unfold stmt_at in SL, ST; congruence).
    rewrite SE in E. cbn [stmt_execute] in E. destruct (executed_checked _ _ _ _ E) as [u U].
    assert (T0 : 0 <= t).
    { destruct DE as (bf & af & _ & _ & DE). cbv zeta in DE. assert (X : exists sc, defined src sc n t) by (destruct DE as [(b & _ & X & _)|[X _]]; eauto).
      destruct X as (sc & p & before & labels & st & after & x & _ & -> & _). lia. }
    assert (LI : local_index m n (ln_scopes l0) = Ok t).
    { rewrite <- (nat_znth _ (md_lines m) k) in L0. pose proof (lookup_denotes _ _ _ _ _ _ n t LD RD (same_scopes_refl m) L0) as [_ X]. apply X. exact DE. }
    destruct (execute_branch i s) as [s2|e|u2|] eqn:B.
    2,3,4: exfalso; unfold execute_branch, execute in B, E; cbn [stmt_execute] in E; rewrite E in B; cbn [bind] in B; discriminate B.
    destruct (branch_modes _ _ _ _ _ _ B RB MC D BS) as [D' MC']. split; [exact MC'|]. rewrite Z2Nat.id by exact T0. apply (COV _ s2); [exact MC'| |exact D'].
    apply F. eapply f_branch; [exact SE|eapply branch_local; eassumption| |unfold core2 in C0; injection C0 as _ ->; exact LI|exact B]. rewrite AG. reflexivity.
Qed.

(** ** Results. *)
Lemma zset_core2 : forall k s l (ls : list line), znth ls k = Some l -> map core2 (zset k (ln_visit s l) ls) = map core2 ls.
Proof.
  intros k s l ls H. destruct (znth_split _ _ _ _ H) as (a & b & -> & L). rewrite <- L, zset_mid. rewrite !map_app. reflexivity.
Qed.
Lemma entry_xce : forall file m src name, load_asm_file file = Ok m -> SpecScope.reads file src -> m = module_of name src -> tracked src ->
  forall j s, entry_at m j s -> xce_ok src j s.
Proof.
  intros file m src name LD RD EM [_ TX] j s (k & l & d & L & SL & DN & -> & ->). rewrite EM in L. destruct (line_stmt _ _ _ _ L) as [K ST]. rewrite SL in ST.
  destruct (stmt_at_in _ _ _ ST) as [lab IN].
  split; [lia|]. split.
  - intros labels i I X. apply in_split in I. destruct I as (a & b & EQ). destruct (TX _ _ _ _ EQ X) as (_ & _ & U). specialize (U _ _ IN DN).
    assert (PL : plain_stmt (SDir d)) by (apply (source_plain [file]); exists file, src, lab; split; [left; reflexivity|split; assumption]).
    destruct PL as (_ & _ & PL). cbn. destruct (fl_e (d_flags d)); cbn; congruence.
  - intros i SI X. exfalso. apply stmt_at_split in SI. destruct SI as (a & labels & b & EQ & LN).
    destruct (TX _ _ _ _ EQ X) as (_ & (a' & labels' & i' & -> & _) & _).
    assert (S0 : stmt_at src (Z.to_nat k) (SInstr i')).
    { apply stmt_at_split. exists a', labels', ((labels, SInstr i) :: b). split; [rewrite EQ, <- app_assoc; reflexivity|]. rewrite app_length in LN. cbn in LN. lia. }
    unfold stmt_at in S0, ST. congruence.
Qed.
Lemma run_covered : forall file m name src fuel ls (Q : (Z -> estate -> Prop) -> list line -> omap estate -> Prop), load_asm_file file = Ok m -> SpecScope.reads file src -> m = module_of name src ->
  tracked src -> first_pass_loop fuel m (md_lines m) (entry_states 0 (md_lines m) []) = Ok ls ->
  Q nowhere (md_lines m) (entry_states 0 (md_lines m) []) ->
  (forall V ls k s rest, map core2 ls = map core2 (md_lines m) -> Q V ls ((k, s) :: rest) -> sorted_keys ((k, s) :: rest) -> Q V ls rest) ->
  (forall V ls k s rest l st', map core2 ls = map core2 (md_lines m) -> Q V ls ((k, s) :: rest) -> sorted_keys ((k, s) :: rest) -> znth ls k = Some l -> ~ (ln_reached l = true /\ ln_in l = s) ->
     (forall j, (forall s', ~ flows m l k s j s') -> om_find j st' = om_find j ((k, s) :: rest)) -> sorted_keys st' ->
     Q (fun k' s' => V k' s' \/ k' = k /\ s' = s) (zset k (ln_visit s l) ls) st') ->
  exists V, inv m (xce_ok src) (entry_at m) V ls [] /\ map core2 ls = map core2 (md_lines m) /\ Q V ls [].
Proof.
  intros file m name src fuel ls Q LD RD EM TR H Q0 Q1 Q2.
  destruct (loop_inv m (xce_ok src) (entry_at m) (fun V ls st => map core2 ls = map core2 (md_lines m) /\ Q V ls st)) with
    (fuel := fuel) (V := nowhere) (ls := md_lines m) (st := entry_states 0 (md_lines m) []) (ls' := ls) as (V & I & C & HQ).
  - apply xce_merges.
  - intros V l0 k s rest [C HQ] S. split; [exact C|eauto].
  - intros V l0 k s rest l st' [C HQ] S L NV O S'. split; [rewrite zset_core2; assumption|eauto].
  - eapply xce_closed; eassumption.
  - eapply start_inv; [exact EM|apply xce_merges|eapply entry_xce; eassumption].
  - split; [reflexivity|exact Q0].
  - exact H.
  - exists V. auto.
Qed.

(** Lines of the finished module. *)
Lemma ends_line : forall ls ls' k l, Forall2 ends_as ls ls' -> znth ls (Z.of_nat k) = Some l -> exists l', nth_error ls' k = Some l' /\ ends_as l l'.
Proof.
  intros ls ls' k l F L. rewrite <- nat_znth in L. revert k L. induction F as [|a b ls ls' R F IH]; intros k L; [destruct k; discriminate L|].
  destruct k as [|k]; cbn in *; [injection L as <-; eauto|eauto].
Qed.

(** Instructions that pass the check have known widths. *)
Definition immediate_mode (a : amode) : Prop := In a [A_imm_b; A_imm_w; A_imm_fm; A_imm_fx].
Definition knows (b : bitstate) (i : instr) : Prop :=
  exists w : bool, b = (if w then B_on else B_off) /\ (i_suffix i = S_b -> w = true) /\ (i_suffix i = S_w -> w = false) /\
    (i_mode i = A_imm_b -> w = true) /\ (i_mode i = A_imm_w -> w = false).
Local Transparent check_consistency is_legal_combination.
Lemma acc_checked : forall i f u, check_consistency i f = Ok u -> accumulator_immediate (i_mnem i) -> immediate_mode (i_mode i) ->
  i_mode i <> A_imm_fx /\ knows (fl_m f) i.
Proof.
  intros i f u H A M. destruct i as [mn sx md a1 a2 rc]. unfold knows, check_consistency in *. cbn [i_mnem i_mode i_suffix] in *. cbv zeta in H.
  unfold accumulator_immediate, immediate_mode in *. cbn [In] in A, M.
  repeat destruct A as [<-|A]; try contradiction; (repeat destruct M as [<-|M]; try contradiction).
  all: (match type of H with context [is_legal_combination ?x ?y] => let v := eval vm_compute in (is_legal_combination x y) in change (is_legal_combination x y) with v in H end;
     repeat match type of H with context [imm_uses_m ?x] => let v := eval vm_compute in (imm_uses_m x) in change (imm_uses_m x) with v in H end;
     cbn [negb flag_controlling_size] in H; try discriminate H; (split; [discriminate|]);
     destruct (fl_m f), sx; cbn in H; try discriminate H;
       (exists true; split; [reflexivity|repeat split; intros; congruence]) || (exists false; split; [reflexivity|repeat split; intros; congruence])).
Qed.
Lemma index_checked : forall i f u, check_consistency i f = Ok u -> index_immediate (i_mnem i) -> immediate_mode (i_mode i) ->
  i_mode i <> A_imm_fm /\ knows (fl_x f) i.
Proof.
  intros i f u H A M. destruct i as [mn sx md a1 a2 rc]. unfold knows, check_consistency in *. cbn [i_mnem i_mode i_suffix] in *. cbv zeta in H.
  unfold index_immediate, immediate_mode in *. cbn [In] in A, M.
  repeat destruct A as [<-|A]; try contradiction; (repeat destruct M as [<-|M]; try contradiction).
  all: (match type of H with context [is_legal_combination ?x ?y] => let v := eval vm_compute in (is_legal_combination x y) in change (is_legal_combination x y) with v in H end;
     repeat match type of H with context [imm_uses_m ?x] => let v := eval vm_compute in (imm_uses_m x) in change (imm_uses_m x) with v in H end;
     repeat match type of H with context [imm_uses_x ?x] => let v := eval vm_compute in (imm_uses_x x) in change (imm_uses_x x) with v in H end;
     cbn [negb flag_controlling_size] in H; try discriminate H; (split; [discriminate|]);
     destruct (fl_x f), sx; cbn in H; try discriminate H;
       (exists true; split; [reflexivity|repeat split; intros; congruence]) || (exists false; split; [reflexivity|repeat split; intros; congruence])).
Qed.
Local Opaque check_consistency is_legal_combination.

(** A processor described by one state that passes the check, and an operand settled by another. *)
Lemma settled_fits : forall i f g u v q q' p a, check_consistency i f = Ok u -> check_consistency i g = Ok v -> settled f (i_mode i) a ->
  bit_describes q (fl_m g) (p_m p) -> bit_describes q' (fl_x g) (p_x p) -> (i_suffix i <> S_none \/ (fl_m f = fl_m g /\ fl_x f = fl_x g)) -> immediate_fits (with_mode a i) p.
Proof.
  intros i f g u v qm qx p a CF CG ST DM DX SU. unfold immediate_fits. cbn [i_mnem i_mode with_mode].
  assert (KEY : forall (bf bg : bitstate) (q q0 : bool), (i_suffix i <> S_none \/ bf = bg) -> knows bf i -> knows bg i -> bit_describes q0 bg q ->
     (a = A_imm_b -> i_mode i = A_imm_b \/ bf = B_on) -> (a = A_imm_w -> i_mode i = A_imm_w \/ bf = B_off) ->
     (a = A_imm_b -> q = true) /\ (a = A_imm_w -> q = false)).
  { intros bf bg q q0 S (w & Ew & W1 & W2 & W3 & W4) (w' & Ew' & W1' & W2' & W3' & W4') D AB AW.
    assert (WW : w = w').
    { destruct S as [S|S]; [|rewrite Ew, Ew' in S; destruct w, w'; congruence]. destruct (i_suffix i); [congruence| |].
      - rewrite W1, W1' by reflexivity. reflexivity.
      - rewrite W2, W2' by reflexivity. reflexivity. }
    assert (Q : q = w'). { rewrite Ew' in D. destruct w'; exact D. }
    rewrite Q, <- WW. split; intros EA.
    - destruct (AB EA) as [X|X]; [auto|]. rewrite Ew in X. destruct w; congruence.
    - destruct (AW EA) as [X|X]; [auto|]. rewrite Ew in X. destruct w; congruence. }
  assert (IMM : a = A_imm_b \/ a = A_imm_w -> immediate_mode (i_mode i)).
  { unfold immediate_mode, settled in *. cbn [In]. destruct (i_mode i); try tauto; intros [-> | ->]; discriminate ST. }
  assert (DEC : (a = A_imm_b \/ a = A_imm_w) \/ a <> A_imm_b /\ a <> A_imm_w) by (destruct a; try tauto; right; split; discriminate).
  destruct DEC as [DEC|[N1 N2]]; [|split; intros _; split; intros; contradiction]. specialize (IMM DEC). split; intros AI.
  - destruct (acc_checked _ _ _ CF AI IMM) as [NX KF]. destruct (acc_checked _ _ _ CG AI IMM) as [_ KG].
    apply (KEY (fl_m f) (fl_m g) (p_m p) qm); try assumption; [tauto| |].
    + intros ->. unfold settled in ST. destruct (i_mode i); try (left; congruence); try (destruct ST as [[X Y]|[X Y]]; [right; exact X|discriminate Y]).
    + intros ->. unfold settled in ST. destruct (i_mode i); try (left; congruence); try (destruct ST as [[X Y]|[X Y]]; [discriminate Y|right; exact X]).
  - destruct (index_checked _ _ _ CF AI IMM) as [NX KF]. destruct (index_checked _ _ _ CG AI IMM) as [_ KG].
    apply (KEY (fl_x f) (fl_x g) (p_x p) qx); try assumption; [tauto| |].
    + intros ->. unfold settled in ST. destruct (i_mode i); try (left; congruence); try (destruct ST as [[X Y]|[X Y]]; [right; exact X|discriminate Y]).
    + intros ->. unfold settled in ST. destruct (i_mode i); try (left; congruence); try (destruct ST as [[X Y]|[X Y]]; [discriminate Y|right; exact X]).
Qed.

(** An arrival, the line and its states. *)
Definition nothing : (Z -> estate -> Prop) -> list line -> omap estate -> Prop := fun _ _ _ => True.
Lemma arrival : forall fuel sk files ws a n file m src o k c, assemble fuel sk files = (ws, Ok a) ->
  nth_error files n = Some file -> nth_error (as_mods a) n = Some m -> SpecScope.reads file src -> tracked src -> arrives src o k c ->
  exists l s stm, nth_error (md_lines m) k = Some l /\ stmt_at src k stm /\ (exists s', stmt_execute stm s = Ok s') /\ describes_modes o s c /\
    ln_reached l = true /\ (exists s', stmt_execute stm (ln_in l) = Ok s') /\
    match stm with
    | SInstr i => exists b, settled (es_flags (ln_in l)) (i_mode i) b /\ ln_stmt l = SInstr (with_mode b i)
    | SDir d => ln_stmt l = SDir d
    end.
Proof.
  intros fuel sk files ws a n file m src o k c H NF NM RD TR AR.
  destruct (program_analysed _ _ _ _ _ _ _ _ _ H NF NM RD) as (m0 & name & ls & LD & EM & LP & EA).
  destruct (run_covered _ _ _ _ _ _ nothing LD RD EM TR LP I) as (V & IV & CO & _); [exact (fun _ _ _ _ _ _ _ _ => I)|exact (fun _ _ _ _ _ _ _ _ _ _ _ _ _ _ => I)|].
  destruct (arrives_covered _ _ _ _ _ _ _ _ _ LD RD EM TR IV CO AR) as (MO & MC & s & HV & D).
  destruct (v_visited _ _ _ _ _ _ IV _ _ HV) as (_ & l0 & L0 & R0 & X0 & _).
  destruct (v_visited _ _ _ _ _ _ IV _ _ (v_reached _ _ _ _ _ _ IV _ _ L0 R0)) as (_ & l1 & L1 & _ & X1 & _).
  assert (l1 = l0) as -> by congruence. destruct (core_nth _ _ _ _ CO L0) as (l2 & L2 & C2). rewrite EM in L2. destruct (line_stmt _ _ _ _ L2) as [_ ST].
  rewrite Nat2Z.id in ST. unfold core2 in C2. injection C2 as SE _. rewrite <- SE in ST.
  destruct (ends_line _ _ _ _ EA L0) as (l & L & EI & ER & ES). exists l, s, (ln_stmt l0). rewrite EI, ER. split; [exact L|]. split; [exact ST|]. split; [exact X0|].
  split; [exact D|]. split; [exact R0|]. split; [exact X1|]. destruct (ln_stmt l0); [apply ES|exact ES].
Qed.

(** Arrivals are at statements that were reached by the analysis, not at data or past the end. *)
Lemma arrivals_reached : forall fuel sk files ws a n file m src o k c, assemble fuel sk files = (ws, Ok a) ->
  nth_error files n = Some file -> nth_error (as_mods a) n = Some m -> SpecScope.reads file src -> tracked src -> arrives src o k c ->
  exists l, nth_error (md_lines m) k = Some l /\ ln_reached l = true /\
    forall d, ln_stmt l = SDir d -> ~ In (d_name d) [D_db; D_dw; D_dl; D_org].
Proof.
  intros fuel sk files ws a n file m src o k c H NF NM RD TR AR.
  destruct (arrival _ _ _ _ _ _ _ _ _ _ _ _ H NF NM RD TR AR) as (l & s & stm & L & ST & [s' E] & D & R & [s1 E1] & M). exists l. split; [exact L|]. split; [exact R|].
  intros d SD IN. destruct stm as [i|d']; [destruct M as (b & _ & M); congruence|]. assert (d' = d) as -> by congruence.
  cbn [stmt_execute] in E. unfold directive_execute in E. cbn [In] in IN. destruct IN as [X|[X|[X|[X|[]]]]]; rewrite <- X in E; discriminate E.
Qed.
(** Immediate operands with a size suffix always have the right size. *)
Lemma suffix_sound : forall fuel sk files ws a n file m src o k c l i, assemble fuel sk files = (ws, Ok a) ->
  nth_error files n = Some file -> nth_error (as_mods a) n = Some m -> SpecScope.reads file src -> tracked src -> arrives src o k c ->
  nth_error (md_lines m) k = Some l -> ln_stmt l = SInstr i -> i_suffix i <> S_none -> immediate_fits i (c_modes c).
Proof.
  intros fuel sk files ws a n file m src o k c l i H NF NM RD TR AR L0 SI SU.
  destruct (arrival _ _ _ _ _ _ _ _ _ _ _ _ H NF NM RD TR AR) as (l' & s & stm & L & ST & [s' E] & D & R & [s1 E1] & M).
  assert (l' = l) as -> by congruence. destruct stm as [i0|d']; [|congruence]. destruct M as (b & SE & M). rewrite SI in M. injection M as ->.
  destruct (executed_checked _ _ _ _ E) as [u U]. destruct (executed_checked _ _ _ _ E1) as [u1 U1].
  destruct D as [(_ & DM & DX & _) _]. eapply settled_fits; [exact U1|exact U|exact SE|exact DM|exact DX|]. left. exact SU.
Qed.
