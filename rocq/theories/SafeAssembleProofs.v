(** Undefined behaviour of a program has one of the listed causes: placement, constants and output. *)
From Verif Require Import Base ModelNumeric ModelAddress ModelExpr ModelMnemonic ModelAMode ModelOpcode ModelState ModelInstr ModelToken
  ModelStatement ModelParse ModelMap ModelRanges ModelModule ModelAssembler SpecArith SpecText SpecScope SpecRanges SpecLayout SpecAssemble SpecSafe
  BaseProofs MapProofs ArithProofs RangesProofs StateProofs TokenProofs ParseProofs OrderProofs LoadProofs ScopeProofs PassProofs LayoutProofs
  AssembleProofs ProgramProofs TermProofs SafeProofs SafeRunProofs SafeProgramProofs.
Open Scope list_scope.
Open Scope Z_scope.

(** ** Placement. *)
Definition unplaced (files : list (list string)) (l : line) : Prop := from_source files (ln_stmt l) /\ ln_value l = None.
Lemma add_wrapped_range : forall a n, 0 <= a -> addr24 (add_wrapped a n).
Proof.
  intros a n A. unfold add_wrapped, addr24. change (Z.land a 16711680) with (Z.land a 0xff0000).
  rewrite land_ff0000, land_ffff, lor_16 by lia. change (2 ^ 24) with 16777216. lia.
Qed.
Lemma layout_safe : forall files ls pc, Forall (unplaced files) ls -> (forall a, pc = Some a -> addr24 a) ->
  safe (ub_cause files) (layout pc ls) /\ forall ls', layout pc ls = Ok ls' -> Forall (fair_line files) ls'.
Proof.
  intros files ls. induction ls as [|l ls IH]; intros pc F P; cbn [layout]; [split; [exact I|]; intros ls' H; injection H as <-; constructor|].
  inversion F as [|? ? [S V] F']; subst.
  assert (E : exists r, r = (match ln_stmt l with
        | SDir d => match d_name d with
            | D_org => let* v := eval_opt null_ctx (d_arg d) in let* a := mk_address v in Ok (Some a)
            | _ => Ok pc end
        | SInstr _ => Ok pc end) /\ safe (ub_cause files) r /\
        forall pc', r = Ok pc' -> (is_dir D_org (ln_stmt l) /\ exists a, pc' = Some a /\ 0 <= a <= 2 ^ 24) \/ pc' = pc).
  { eexists. split; [reflexivity|]. destruct (ln_stmt l) as [i|d] eqn:SL; [split; [exact I|]; intros pc' H; right; congruence|].
    destruct (d_name d) eqn:D; try (split; [exact I|]; intros pc' H; right; congruence).
    assert (B := believable_null files). split.
    - apply safe_bind; [eapply operand_opt_safe; [exact B|exact S|]; intros e E; left; exact E|]. intros v EV.
      apply safe_bind; [|intros; exact I]. destruct (d_arg d) as [e|] eqn:DA; [|discriminate EV]. cbn in EV. apply eval_means in EV.
      eapply address_safe; [exact B|exact S| |exact EV]. cbn. rewrite DA, D. cbn. auto.
    - intros pc' H. left. split; [exists d; auto|]. bok H as v EV. bok H as a A. injection H as <-. exists a. split; [reflexivity|].
      destruct (address_cases v) as [[Q R]|[Q _]]; rewrite Q in A; [|discriminate A]. injection A as <-.
      split; [apply Z.mod_pos_bound; lia|exact R]. }
  destruct E as (r & <- & SR & C). destruct r as [pc'|e|u|]; cbn [bind]; [|split; [exact I|discriminate]|split; [exact SR|discriminate]|destruct SR].
  specialize (C pc' eq_refl). destruct pc' as [a|].
  - assert (RA : 0 <= a <= 2 ^ 24 /\ (0 < stmt_size (ln_stmt l) -> a < 2 ^ 24)).
    { destruct C as [((d & SD & D) & a' & E & R)|<-].
      - injection E as <-. split; [exact R|]. rewrite SD. cbn. unfold directive_size. rewrite D. lia.
      - specialize (P a eq_refl). unfold addr24 in P. lia. }
    assert (AW : addr24 (add_wrapped a (stmt_size (ln_stmt l)))) by (apply add_wrapped_range; lia).
    destruct (IH (Some (add_wrapped a (stmt_size (ln_stmt l)))) F') as [S1 K1]; [intros x X; injection X as <-; exact AW|].
    split; [apply safe_bind; [exact S1|intros; exact I]|]. intros ls' H. bok H as rest R. injection H as <-.
    constructor; [|apply K1; reflexivity || exact R || (rewrite <- R; reflexivity)].
    destruct (stmt_is_dir D_equ (ln_stmt l)) eqn:Q.
    + split; [exact S|]. intros v VV. congruence.
    + split; [exact S|]. cbn [ln_value ln_with_value ln_stmt]. intros v VV. injection VV as <-. rewrite label_of_address_id by lia.
      right. split; [|exact RA]. rewrite <- is_dir_dec, Q. discriminate.
  - destruct (Z.ltb_spec 0 (stmt_size (ln_stmt l))) as [Z|Z]; [split; [exact I|discriminate]|].
    destruct (IH None F') as [S1 K1]; [discriminate|].
    split; [apply safe_bind; [exact S1|intros; exact I]|]. intros ls' H. bok H as rest R. injection H as <-.
    constructor; [|apply K1; reflexivity || exact R]. split; [exact S|]. intros v VV. congruence.
Qed.

Lemma fix_safe : forall P ls, safe P (fix_modes ls).
Proof.
  intros P. induction ls as [|l ls IH]; cbn [fix_modes]; [exact I|]. apply safe_bind.
  - destruct (ln_stmt l) as [i|d]; [|exact I]. destruct (negb (ln_reached l)); [exact I|]. apply safe_bind; [|intros; exact I].
    unfold fix_addressing_mode. destruct (i_mode i); try exact I; [destruct (fl_m _)|destruct (fl_x _)]; exact I.
  - intros l' _. apply safe_bind; [exact IH|intros; exact I].
Qed.
Lemma fix_unplaced : forall files ls ls', fix_modes ls = Ok ls' -> all_source files ls -> (forall l, In l ls -> ln_value l = None) ->
  Forall (unplaced files) ls'.
Proof.
  intros files ls ls' H A V. apply fix_modes_spec in H. induction H as [|l l' ls ls' R F IH]; constructor.
  - pose proof (A l (or_introl eq_refl)) as S. pose proof (V l (or_introl eq_refl)) as VL. unfold resolves_to in R.
    destruct (ln_stmt l) as [i|d] eqn:SL; [|subst l'; split; [left; rewrite SL; exact S|exact VL]].
    destruct R as (_ & i' & X & ->). split; [|exact VL]. cbn [ln_stmt ln_with_stmt].
    unfold fix_addressing_mode in X. assert (K : forall m', (m' = A_imm_b \/ m' = A_imm_w) -> from_source files (SInstr (with_mode m' i))).
    { intros m' M. right. exists i, m'. auto. }
    destruct (i_mode i) eqn:M; try (injection X as <-; left; exact S).
    + destruct (fl_m _); try discriminate X; injection X as <-; apply K; auto.
    + destruct (fl_x _); try discriminate X; injection X as <-; apply K; auto.
  - apply IH; intros x X; [apply A|apply V]; right; exact X.
Qed.

(** ** The first pass. *)
Definition fresh (files : list (list string)) (m : module) : Prop :=
  all_source files (md_lines m) /\ forall l, In l (md_lines m) -> ln_value l = None.
Lemma scopes_fair : forall m m', same_scopes m m' -> fair_indices m -> fair_indices m'.
Proof.
  intros m m' (_ & G & A) F n i H.
  assert (L : zlen (md_lines m') = zlen (md_lines m)).
  { unfold zlen. rewrite <- (map_length (fun l => (ln_scopes l, ln_locals l)) (md_lines m')), A, map_length. reflexivity. }
  rewrite L. apply (F n). rewrite G in H. destruct H as [H|(l & I & H)]; [left; exact H|right].
  apply (in_map (fun l => (ln_scopes l, ln_locals l))) in I. rewrite A in I. apply in_map_iff in I. destruct I as (l0 & E & I).
  exists l0. split; [exact I|]. injection E as _ E. rewrite E. exact H.
Qed.
Lemma loop_lines : forall files fuel m ls, first_pass_loop fuel m (md_lines m) (entry_states 0 (md_lines m) []) = Ok ls -> fresh files m ->
  all_source files ls /\ forall l, In l ls -> ln_value l = None.
Proof.
  intros files fuel m ls H [A V]. apply first_pass_loop_core in H.
  assert (K : forall l, In l ls -> exists l0, In l0 (md_lines m) /\ line_core l0 = line_core l).
  { intros l I. apply (in_map line_core) in I. rewrite H in I. apply in_map_iff in I. destruct I as (l0 & E & I). eauto. }
  split; intros l I; destruct (K l I) as (l0 & I0 & E); injection E as E1 E2; [rewrite <- E1; apply A|rewrite <- E2; apply V]; exact I0.
Qed.
Lemma first_pass_tame : forall files fuel m, sane files m -> fresh files m -> tame (ub_cause files) (run_first_pass fuel m).
Proof.
  intros files fuel m (_ & FI & _) FR. unfold run_first_pass. apply tame_bind.
  - apply loop_tame; [exact FI|reflexivity|apply FR|]. apply entries_fair; [apply FR|lia|lia|intros k s []].
  - intros ls L. destruct (loop_lines _ _ _ _ L FR) as [A V]. apply safe_tame. apply safe_bind; [apply fix_safe|]. intros ls2 L2.
    apply safe_bind; [|intros; exact I]. apply layout_safe; [eapply fix_unplaced; eassumption|discriminate].
Qed.
Lemma first_pass_sane : forall files fuel m m', run_first_pass fuel m = Ok m' -> sane files m -> fresh files m -> sane files m'.
Proof.
  intros files fuel m m' H (_ & FI & CA) FR. split; [|split].
  - unfold run_first_pass in H. bok H as ls L. bok H as ls2 L2. bok H as ls3 L3. injection H as <-. cbn [md_lines md_with_lines].
    destruct (loop_lines _ _ _ _ L FR) as [A V].
    destruct (layout_safe files ls2 None) as [_ K]; [eapply fix_unplaced; eassumption|discriminate|]. apply K. exact L3.
  - eapply scopes_fair; [eapply first_pass_scopes; exact H|exact FI].
  - rewrite (first_pass_owned _ _ _ H). exact CA.
Qed.

(** ** Lookups. *)
Lemma fair_possible : forall files l v, fair_line files l -> ln_value l = Some v -> possible files v.
Proof.
  intros files l v [S F] V. destruct (F v V) as [(d & e & env & E & D & A & P & M)|(_ & R & _)]; [|apply p_address; exact R].
  rewrite E in S. eapply p_constant; [apply from_dir; exact S|exact D|exact A|exact P|exact M].
Qed.
Lemma lookup_fair : forall files m i, sane files m -> 0 <= i < zlen (md_lines m) ->
  safe (fun _ => False) (local_lookup m i) /\ forall v, local_lookup m i = Ok v -> possible files v.
Proof.
  intros files m i (F & _) R. unfold local_lookup. destruct (znth_in_range _ _ _ R) as [l L]. rewrite L.
  destruct (ln_value l) as [v|] eqn:V; [|split; [exact I|discriminate]]. split; [exact I|]. intros w E. injection E as <-.
  rewrite Forall_forall in F. eapply fair_possible; [apply F; eapply znth_in; exact L|exact V].
Qed.
Definition answers (files : list (list string)) (r : res Z) : Prop :=
  safe (fun _ => False) r /\ forall v, r = Ok v -> possible files v.
Lemma believable_answers : forall files c, (forall id, answers files (c id)) <-> believable files c.
Proof.
  intros files c. unfold believable, quiet, plausible, env_of, answers. split.
  - intros H. split; [intros id; apply H|]. intros id w E. destruct (H id) as [_ K]. destruct (c id); try discriminate E.
    injection E as ->. apply K. reflexivity.
  - intros [Q P] id. split; [apply Q|]. intros v E. apply (P id). rewrite E. reflexivity.
Qed.
Lemma module_believable : forall files m sc ext, sane files m -> believable files ext -> believable files (module_ctx m sc ext).
Proof.
  intros files m sc ext S B. apply believable_answers. rewrite <- believable_answers in B. intros [[mn|] n]; unfold module_ctx; cbn [fi_module fi_name].
  - destruct (String.eqb mn (md_name m)); [|apply B]. destruct (local_index m n []) as [i|e|u|] eqn:X; [|apply B..].
    apply lookup_fair; [exact S|]. eapply index_fair; [apply S|exact X].
  - destruct (local_index m n sc) as [i|e|u|] eqn:X; [|apply B..].
    apply lookup_fair; [exact S|]. eapply index_fair; [apply S|exact X].
Qed.
Definition fair_names (n : Z) (names : list (fullid * Z)) : Prop := forall id i, In (id, i) names -> 0 <= i < n.
Lemma value_fair : forall files m id, sane files m -> answers files (value_for_name m id).
Proof.
  intros files m [[mn|] n] (F & FI & _); unfold value_for_name; cbn [fi_module fi_name]; [|split; [exact I|discriminate]].
  destruct (String.eqb mn (md_name m)); [|split; [exact I|discriminate]].
  destruct (assoc_string n (md_globals m)) as [i|] eqn:A; [|split; [exact I|discriminate]].
  apply assoc_string_in in A. destruct A as [n' A]. destruct (znth_in_range _ (md_lines m) i) as [l L]; [apply (FI n'); left; exact A|].
  rewrite L. destruct (ln_value l) as [v|] eqn:V; [|split; [exact I|discriminate]]. split; [exact I|]. intros w E. injection E as <-.
  rewrite Forall_forall in F. eapply fair_possible; [apply F; eapply znth_in; exact L|exact V].
Qed.
Lemma assembler_believable : forall files ms names, Forall (sane files) ms -> fair_names (zlen ms) names ->
  believable files (assembler_ctx ms names).
Proof.
  intros files ms names S N. apply believable_answers. intros id. unfold assembler_ctx.
  destruct (negb (fi_qualified id)); [split; [exact I|discriminate]|].
  destruct (assoc_id id names) as [i|] eqn:A; [|split; [exact I|discriminate]]. apply assoc_id_in in A.
  destruct (znth_in_range _ ms i (N _ _ A)) as [m M]. rewrite M. apply value_fair. rewrite Forall_forall in S. apply S. eapply znth_in. exact M.
Qed.

(** ** The second pass. *)
Lemma Forall_zset : forall A (P : A -> Prop) l i x, Forall P l -> P x -> Forall P (zset i x l).
Proof.
  intros A P l i x F X. destruct (Z_lt_dec i 0) as [N|N].
  - unfold zset. destruct (Z.ltb_spec i 0); [exact F|lia].
  - destruct (Z_lt_dec i (zlen l)) as [L|L].
    + destruct (znth_in_range _ l i) as [y Y]; [lia|]. apply znth_split in Y. destruct Y as (a & b & -> & K). rewrite <- K, zset_mid.
      apply Forall_app in F. destruct F as [F1 F2]. inversion F2; subst. apply Forall_app. split; [exact F1|]. constructor; assumption.
    + apply Forall_forall. intros y Y. apply in_znth in Y. destruct Y as [j J]. pose proof (znth_some _ _ _ _ J) as R. rewrite zlen_zset in R.
      rewrite znth_zset_other in J by lia. rewrite Forall_forall in F. apply F. eapply znth_in. exact J.
Qed.
Lemma second_safe : forall files n k ext m, sane files m -> (forall m', sane files m' -> believable files (ext m')) ->
  safe (ub_cause files) (second_pass_loop n k ext m) /\ forall m', second_pass_loop n k ext m = Ok m' -> sane files m'.
Proof.
  intros files n. induction n as [|n IH]; intros k ext m S B; cbn [second_pass_loop]; [split; [exact I|]; intros m' H; injection H as <-; exact S|].
  destruct (znth (md_lines m) k) as [l|] eqn:L; [|split; [exact I|]; intros m' H; injection H as <-; exact S].
  assert (FL : fair_line files l) by (destruct S as [F _]; rewrite Forall_forall in F; apply F; eapply znth_in; exact L).
  assert (NEXT : forall r, safe (ub_cause files) r -> (forall m1, r = Ok m1 -> sane files m1) ->
     safe (ub_cause files) (let* m' := r in second_pass_loop n (k + 1) ext m') /\
     forall m', (let* m' := r in second_pass_loop n (k + 1) ext m') = Ok m' -> sane files m').
  { intros r SR KR. split.
    - apply safe_bind; [exact SR|]. intros m1 E. apply IH; [apply KR; exact E|exact B].
    - intros m' H. bok H as m1 E. eapply IH; [apply KR; reflexivity || exact E|exact B|exact H]. }
  apply NEXT; clear NEXT.
  - destruct (ln_stmt l) as [i|d] eqn:SL; [exact I|]. destruct (d_name d) eqn:D; try exact I. destruct (ln_value l); [exact I|].
    apply safe_bind; [|intros; exact I]. apply (operand_opt_safe files _ (SDir d)); [apply module_believable; [exact S|apply B; exact S]| |].
    + rewrite <- SL. apply FL.
    + intros e E. left. exact E.
  - intros m1 H. destruct (ln_stmt l) as [i|d] eqn:SL; [injection H as <-; exact S|].
    destruct (d_name d) eqn:D; try (injection H as <-; exact S). destruct (ln_value l) eqn:V; [injection H as <-; exact S|].
    bok H as v E. injection H as <-. destruct (d_arg d) as [e|] eqn:DA; [|discriminate E]. cbn in E. apply eval_means in E.
    destruct (module_believable files m (ln_scopes l) (ext m) S (B m S)) as [_ PL].
    destruct S as (F & FI & CA). split; [|split].
    + cbn [md_lines md_with_lines]. apply Forall_zset; [exact F|]. split; [apply FL|]. cbn [ln_value ln_with_value ln_stmt]. rewrite SL.
      intros w W. injection W as <-. left. exists d, e, (env_of (module_ctx m (ln_scopes l) (ext m))). auto.
    + eapply scopes_fair; [|exact FI]. split; [reflexivity|]. split; [reflexivity|]. cbn [md_lines md_with_lines].
      apply (zset_scopes _ _ l); [exact L|reflexivity].
    + exact CA.
Qed.
Lemma second_passes_safe : forall files order names ms, Forall (sane files) ms -> fair_names (zlen ms) names ->
  (forall i, In i order -> 0 <= i < zlen ms) ->
  safe (ub_cause files) (second_passes order names ms) /\
  forall ms', second_passes order names ms = Ok ms' -> Forall (sane files) ms' /\ zlen ms' = zlen ms.
Proof.
  intros files order names. induction order as [|i order IH]; intros ms S N R; cbn [second_passes].
  - split; [exact I|]. intros ms' H. injection H as <-. auto.
  - destruct (znth_in_range _ ms i (R i (or_introl eq_refl))) as [m M]. rewrite M.
    assert (SM : sane files m) by (rewrite Forall_forall in S; apply S; eapply znth_in; exact M).
    destruct (second_safe files (List.length (md_lines m)) 0 (fun cur => assembler_ctx (zset i cur ms) names) m SM) as [S1 K1].
    { intros m' S'. apply assembler_believable; [apply Forall_zset; assumption|rewrite zlen_zset; exact N]. }
    fold (run_second_pass (fun cur => assembler_ctx (zset i cur ms) names) m) in S1, K1.
    destruct (run_second_pass (fun cur => assembler_ctx (zset i cur ms) names) m) as [m1|e|u|]; cbn [bind];
      [|split; [exact I|discriminate]|split; [exact S1|discriminate]|destruct S1].
    specialize (K1 m1 eq_refl). destruct (IH (zset i m1 ms)) as [S2 K2].
    + apply Forall_zset; assumption.
    + rewrite zlen_zset. exact N.
    + intros j J. rewrite zlen_zset. apply R. right. exact J.
    + split; [exact S2|]. intros ms' H. destruct (K2 ms' H) as [A B]. rewrite zlen_zset in B. auto.
Qed.

(** ** Output. *)
Lemma instr_bytes_safe : forall files a c i, believable files c -> from_source files (SInstr i) -> safe (ub_cause files) (instr_bytes a c i).
Proof.
  intros files a c i B S. unfold instr_bytes.
  generalize (match i_mnem i with PM_add => ([24], M_adc) | PM_sub => ([56], M_sbc) | m => ([], m) end). intros [prefix tm].
  destruct (encode_opcode tm (i_mode i)) as [op|]; [|exact I]. cbv zeta.
  pose proof (arg1_safe files c i B S) as A1. pose proof (arg2_safe files c i B S) as A2.
  assert (AD : In (i_mode i) [A_rel8; A_rel16] -> forall v, eval_opt c (i_arg1 i) = Ok v -> safe (ub_cause files) (mk_address v)).
  { intros M v E. destruct (i_arg1 i) as [e|] eqn:AE; [|discriminate E]. cbn in E. apply eval_means in E.
    eapply address_safe; [exact B|exact S| |exact E]. cbn. rewrite AE. auto. }
  assert (SUB : forall x y, safe (ub_cause files) (subtract_wrapped x y)).
  { intros x y. unfold subtract_wrapped. destruct (negb _); exact I. }
  destruct (i_mode i) eqn:M; try exact I; try (apply safe_bind; [exact A1|intros; exact I]).
  - apply safe_bind; [exact A1|]. intros v1 _. apply safe_bind; [exact A2|intros; exact I].
  - apply safe_bind; [exact A1|]. intros v1 E. apply safe_bind; [apply AD; [cbn; auto|exact E]|]. intros t _.
    apply safe_bind; [apply SUB|]. intros o _. destruct (_ || _); exact I.
  - apply safe_bind; [exact A1|]. intros v1 E. apply safe_bind; [apply AD; [cbn; auto|exact E]|]. intros t _.
    apply safe_bind; [apply SUB|]. intros o _. exact I.
Qed.
Lemma stmt_bytes_safe : forall files a c s, believable files c -> from_source files s -> safe (ub_cause files) (stmt_bytes a c s).
Proof.
  intros files a c [i|d] B S; cbn [stmt_bytes].
  - apply safe_bind; [apply instr_bytes_safe; assumption|intros; exact I].
  - assert (EL : forall n l, incl l (d_list d) -> safe (ub_cause files) (encode_list n c l)).
    { intros n l. induction l as [|e l IH]; intros N; cbn [encode_list]; [exact I|].
      apply safe_bind; [eapply operand_safe; [exact B|exact S|right; apply N; left; reflexivity]|]. intros v _.
      apply safe_bind; [apply IH; intros x X; apply N; right; exact X|intros; exact I]. }
    unfold directive_bytes. destruct (d_name d); try exact I; (apply safe_bind; [apply EL, incl_refl|intros; exact I]).
Qed.
Lemma wsafe_bind : forall P A B (x : wres A) (f : list write -> A -> wres B), safe P (snd x) ->
  (forall ws a, x = (ws, Ok a) -> safe P (snd (f ws a))) -> safe P (snd (wbind x f)).
Proof. intros P A B [ws [a|e|u|]] f H K; cbn in *; auto. Qed.
Lemma stmt_assemble_safe : forall files sk ws a c s, returns sk -> believable files c -> from_source files s ->
  safe (ub_cause files) (snd (stmt_assemble sk ws a c s)).
Proof.
  intros files sk ws a c s R B S. unfold stmt_assemble. pose proof (stmt_bytes_safe files a c s B S) as SB.
  destruct (stmt_bytes a c s) as [[b|]|e|u|]; cbn [snd]; try exact I; [|exact SB|destruct SB].
  unfold sink_write. destruct (R ws (a, b)) as [->|[e ->]]; exact I.
Qed.
Lemma sized_fair : forall files l v, fair_line files l -> ln_value l = Some v -> 0 < stmt_size (ln_stmt l) -> addr24 v.
Proof.
  intros files l v [_ F] V Z. destruct (F v V) as [(d & e & env & E & D & _)|(_ & R & H)].
  - rewrite E in Z. cbn in Z. unfold directive_size in Z. rewrite D in Z. lia.
  - unfold addr24. specialize (H Z). lia.
Qed.
Lemma assemble_stmt_safe : forall files sk ext l ws m, returns sk -> believable files ext -> sane files m -> fair_line files l ->
  safe (ub_cause files) (snd (assemble_stmt sk ext l ws m)).
Proof.
  intros files sk ext l ws m R B S FL. unfold assemble_stmt. cbv zeta.
  pose proof (module_believable files m (ln_scopes l) ext S B) as MB.
  destruct (Z.ltb_spec 0 (stmt_size (ln_stmt l))) as [Z|Z].
  - destruct (ln_value l) as [v|] eqn:V; [|exact I]. pose proof (sized_fair _ _ _ FL V Z) as A. unfold addr24 in A.
    unfold label_to_address. rewrite address_ok by lia. cbn [wbind].
    apply wsafe_bind; [apply stmt_assemble_safe; [exact R|exact MB|apply FL]|]. intros ws1 _ _.
    destruct (claim_bytes_spec (md_owned m) v (stmt_size (ln_stmt l))) as (ok & r' & E & _); [apply S|exact A|].
    rewrite E. cbn [wbind]. destruct ok; exact I.
  - destruct (ln_stmt l) as [i|d] eqn:SL; [exact I|]. destruct (d_name d) eqn:D; try exact I.
    + destruct (ln_value l) as [v|] eqn:V; [|exact I]. destruct FL as [_ F]. destruct (F v V) as [(d' & e & env & E & D' & _)|(_ & RV & _)].
      * rewrite SL in E. injection E as <-. congruence.
      * unfold label_to_address. rewrite address_ok by exact RV. exact I.
    + cbn [snd]. assert (FS : from_source files (SDir d)) by (rewrite <- SL; apply FL).
      apply safe_bind; [eapply operand_opt_safe; [exact MB|exact FS|]; intros e E; left; exact E|]. intros v E.
      apply safe_bind; [|intros; exact I]. destruct (d_arg d) as [e|] eqn:DA; [|discriminate E]. cbn in E. apply eval_means in E.
      eapply address_safe; [exact MB|exact FS| |exact E]. cbn. rewrite DA, D. cbn. auto.
Qed.
Definition sized_line (l : line) : Prop := forall i, ln_stmt l = SInstr i -> 0 < instr_size i.
Definition ready (m : module) : Prop := Forall sized_line (md_lines m).
Lemma fixed_size : forall i f i', fix_addressing_mode i f = Ok i' -> 0 < instr_size i'.
Proof.
  intros i f i' H. assert (L : 1 <= instruction_length (i_mode i')).
  { unfold fix_addressing_mode in H. destruct (i_mode i) eqn:M; try (injection H as <-; rewrite M; cbn; lia).
    - destruct (fl_m f); try discriminate H; injection H as <-; cbn; lia.
    - destruct (fl_x f); try discriminate H; injection H as <-; cbn; lia. }
  unfold instr_size. destruct (i_mnem i'); lia.
Qed.
Lemma first_pass_ready : forall fuel m m', run_first_pass fuel m = Ok m' -> ready m'.
Proof.
  intros fuel m m' H. unfold run_first_pass in H. bok H as ls L. bok H as ls2 L2. bok H as ls3 L3. injection H as <-. unfold ready.
  cbn [md_lines md_with_lines]. apply fix_modes_spec in L2. apply layout_keeps in L3.
  assert (S : Forall sized_line ls2).
  { clear L3 L. induction L2 as [|l l2 ls0 ls2 R F IH]; constructor; [|exact IH].
    intros i E. unfold resolves_to in R. destruct (ln_stmt l) as [j|d] eqn:SL; [|subst l2; congruence].
    destruct R as (_ & i' & X & ->). cbn in E. injection E as <-. eapply fixed_size. exact X. }
  clear L2. induction L3 as [|l2 l3 ls2 ls3 (E & _) F IH]; constructor; inversion S; subst; [|apply IH; assumption].
  intros i SI. rewrite E in SI. eauto.
Qed.
Lemma ready_stmts : forall m m', map ln_stmt (md_lines m') = map ln_stmt (md_lines m) -> ready m -> ready m'.
Proof.
  unfold ready. intros m m' E R. apply Forall_forall. intros l L i SI. apply (in_map ln_stmt) in L. rewrite E in L.
  apply in_map_iff in L. destruct L as (l0 & E0 & L0). rewrite Forall_forall in R. apply (R l0 L0). congruence.
Qed.
Lemma far_safe : forall files l i m, fair_line files l -> sized_line l -> ln_stmt l = SInstr i -> (exists v, ln_value l = Some v) ->
  safe (ub_cause files) (record_far_target l i m).
Proof.
  intros files l i m FL SZ SL [v V]. unfold record_far_target. rewrite V.
  assert (A : addr24 v) by (eapply sized_fair; [exact FL|exact V|rewrite SL; apply SZ; exact SL]). unfold addr24 in A.
  unfold label_to_address. rewrite address_ok by lia. cbn [bind]. apply safe_bind; [|intros [t|] _; exact I].
  assert (FS : from_source files (SInstr i)) by (rewrite <- SL; apply FL).
  pose proof (arg1_safe files null_ctx i (believable_null files) FS) as A1. unfold far_branch_target. cbv zeta.
  assert (W : safe (ub_cause files) (match eval_opt null_ctx (i_arg1 i) with
      | Ok v0 => let* a := Ok (mk_address2 (addr_bank v) v0) in Ok (Some a)
      | Err _ => Ok None | UB u => UB u | OutOfFuel => OutOfFuel end)).
  { destruct (eval_opt null_ctx (i_arg1 i)); cbn; try exact I; exact A1. }
  assert (G : i_mode i = A_dir_l -> In (i_mnem i) [M_jmp; M_jsl] ->
      safe (ub_cause files) (match eval_opt null_ctx (i_arg1 i) with
      | Ok v0 => let* a := mk_address v0 in Ok (Some a)
      | Err _ => Ok None | UB u => UB u | OutOfFuel => OutOfFuel end)).
  { intros M MN. destruct (eval_opt null_ctx (i_arg1 i)) as [w|e|u|] eqn:E; [|exact I|exact A1|exact A1].
    apply safe_bind; [|intros; exact I]. destruct (i_arg1 i) as [e|] eqn:AE; [|discriminate E]. cbn in E. apply eval_means in E.
    eapply address_safe; [apply believable_null|exact FS| |exact E]. cbn [address_operand]. rewrite AE. auto. }
  destruct (i_mode i) eqn:M; try exact I.
  - destruct (i_mnem i) eqn:MN; try exact I; exact W.
  - destruct (i_mnem i) eqn:MN; try exact I; apply G; cbn; auto.
Qed.
Lemma sane_code : forall files m m', same_code m m' -> canonical (md_owned m') -> sane files m -> sane files m'.
Proof.
  intros files m m' (_ & L & G & _) C (F & FI & _). split; [rewrite L; exact F|]. split; [|exact C].
  intros n i H. rewrite L, G in *. exact (FI n i H).
Qed.
Lemma lines_safe : forall files sk ext ls ws m, returns sk -> believable files ext -> sane files m -> Forall (fair_line files) ls -> Forall sized_line ls ->
  safe (ub_cause files) (snd (assemble_lines sk ext ls ws m)).
Proof.
  intros files sk ext ls. induction ls as [|l ls IH]; intros ws m R B S F Q; cbn [assemble_lines]; [exact I|].
  inversion F as [|? ? FL F']; subst. inversion Q as [|? ? SZ Q']; subst. apply wsafe_bind; [apply assemble_stmt_safe; assumption|]. intros ws1 m1 E.
  destruct (line_assemble_spec sk ext l ws m ws1 m1) as (SC & C1 & _); [apply S|exact E|].
  pose proof (sane_code _ _ _ SC C1 S) as S1. apply wsafe_bind.
  - cbn [snd]. destruct (ln_stmt l) as [i|d] eqn:SL; [|exact I]. apply (far_safe files); [exact FL|exact SZ|exact SL|].
    unfold assemble_stmt in E. cbv zeta in E. rewrite SL in E. cbn [stmt_size] in E. pose proof (SZ i SL) as Z.
    destruct (Z.ltb_spec 0 (instr_size i)); [|lia]. destruct (ln_value l) as [v|]; [eauto|discriminate E].
  - intros ws2 m2 E2. injection E2 as <- E2. apply IH; [exact R|exact B| |exact F'|exact Q'].
    destruct (ln_stmt l) as [i|d]; [|injection E2 as <-; exact S1]. apply far_target_code in E2. destruct E2 as [SC2 O].
    eapply sane_code; [exact SC2|rewrite O; exact C1|exact S1].
Qed.
Lemma names_safe : forall files ls gs acc, Forall (fair_line files) ls -> (forall n i, In (n, i) gs -> 0 <= i < zlen ls) ->
  safe (ub_cause files) (name_addresses ls gs acc).
Proof.
  intros files ls gs. induction gs as [|[n i] gs IH]; intros acc F R; cbn [name_addresses]; [exact I|].
  destruct (znth_in_range _ ls i (R n i (or_introl eq_refl))) as [l L]. rewrite L. destruct (ln_value l) as [v|] eqn:V; [|exact I].
  assert (FL : fair_line files l) by (rewrite Forall_forall in F; apply F; eapply znth_in; exact L).
  apply safe_bind; [|intros a _; apply IH; [exact F|intros n' i' I'; apply (R n'); right; exact I']].
  unfold label_to_address. destruct FL as [S FV]. destruct (FV v V) as [(d & e & env & E & D & A & P & M)|(_ & RV & _)].
  - destruct (address_cases v) as [[-> _]|[-> G]]; [exact I|]. rewrite E in S.
    eapply c_address; [apply from_dir; exact S| |exact P|exact M|exact G]. cbn. rewrite A, D. cbn. auto.
  - rewrite address_ok by exact RV. exact I.
Qed.
Lemma module_assemble_safe : forall files sk ext ws m, returns sk -> believable files ext -> sane files m -> ready m ->
  safe (ub_cause files) (snd (module_assemble sk ext ws m)).
Proof.
  intros files sk ext ws m R B S Q. unfold module_assemble. apply wsafe_bind; [apply lines_safe; [exact R|exact B|exact S|apply S|exact Q]|].
  intros ws1 m1 E. cbn [snd]. apply safe_bind; [|intros; exact I].
  destruct (assemble_lines_spec _ _ _ _ _ _ _ (proj2 (proj2 S)) E) as (rs & _ & _ & SC & C1 & _).
  destruct (sane_code _ _ _ SC C1 S) as (F & FI & _). apply names_safe; [exact F|]. intros n i I'. apply (FI n). left. exact I'.
Qed.
Lemma modules_safe : forall files sk order names ws ms rm, returns sk -> Forall (sane files) ms -> Forall ready ms -> fair_names (zlen ms) names ->
  (forall i, In i order -> 0 <= i < zlen ms) -> safe (ub_cause files) (snd (assemble_modules sk order names ws ms rm)).
Proof.
  intros files sk order names. induction order as [|i order IH]; intros ws ms rm R S Q N O; cbn [assemble_modules]; [exact I|].
  destruct (znth_in_range _ ms i (O i (or_introl eq_refl))) as [m M]. rewrite M.
  assert (SM : sane files m) by (rewrite Forall_forall in S; apply S; eapply znth_in; exact M).
  assert (QM : ready m) by (rewrite Forall_forall in Q; apply Q; eapply znth_in; exact M).
  pose proof (assembler_believable files ms names S N) as B.
  apply wsafe_bind; [apply module_assemble_safe; assumption|]. intros ws1 m1 E.
  destruct (rm_insert rm (md_owned m1) i) as [ok rm']. destruct ok; [|exact I].
  destruct (module_assemble_spec _ _ _ _ _ _ (proj2 (proj2 SM)) E) as (rs & _ & _ & SC & C1 & _).
  apply IH; [exact R|apply Forall_zset; [exact S|eapply sane_code; eassumption]| |rewrite zlen_zset; exact N|].
  - apply Forall_zset; [exact Q|]. eapply ready_stmts; [|exact QM]. destruct SC as (_ & L & _). rewrite L. reflexivity.
  - intros j J. rewrite zlen_zset. apply O. right. exact J.
Qed.

(** ** Programs. *)
Lemma first_passes_tame : forall files fuel order ms, Forall (sane files) ms -> NoDup order ->
  (forall i, In i order -> exists m, znth ms i = Some m /\ fresh files m) ->
  tame (ub_cause files) (first_passes fuel order ms) /\
  forall ms', first_passes fuel order ms = Ok ms' -> Forall (sane files) ms'.
Proof.
  intros files fuel order. induction order as [|i order IH]; intros ms S N FR; cbn [first_passes].
  - split; [exact I|]. intros ms' H. injection H as <-. exact S.
  - destruct (FR i (or_introl eq_refl)) as (m & M & F). rewrite M. inversion N as [|? ? NI N']; subst.
    assert (SM : sane files m) by (rewrite Forall_forall in S; apply S; eapply znth_in; exact M).
    pose proof (first_pass_tame files fuel m SM F) as T. pose proof (fun m' E => first_pass_sane files fuel m m' E SM F) as K.
    destruct (run_first_pass fuel m) as [m1|e|u|]; cbn [bind]; [|split; [exact I|discriminate]|split; [exact T|discriminate]|split; [exact I|discriminate]].
    apply IH; [apply Forall_zset; [exact S|apply K; reflexivity]|exact N'|].
    intros j J. destruct (FR j (or_intror J)) as (mj & MJ & FJ). exists mj. split; [|exact FJ].
    rewrite znth_zset_other; [exact MJ|]. intros ->. contradiction.
Qed.
Lemma order_safe : forall P ms, safe P (find_assembly_order ms).
Proof. intros P ms. pose proof (order_ends ms) as E. destruct (find_assembly_order ms) as [[o n]|e|u|]; cbn in *; try exact I; destruct E. Qed.
Lemma names_fair : forall ms order names, ord_ok ms order names -> fair_names (zlen ms) names.
Proof.
  intros ms order names (_ & R & -> & _) id i H. unfold names_of in H. apply in_flat_map in H. destruct H as (j & J & H).
  apply in_map_iff in H. destruct H as (x & E & _). injection E as _ <-. apply R. exact J.
Qed.
Lemma files_safe : forall files fs a, incl fs files -> Forall (fun m => sane files m /\ fresh files m) (as_mods a) ->
  safe (ub_cause files) (add_files a fs) /\
  forall a', add_files a fs = Ok a' -> Forall (fun m => sane files m /\ fresh files m) (as_mods a').
Proof.
  intros files fs. induction fs as [|f fs IH]; intros a I F; cbn [add_files]; [split; [exact Logic.I|]; intros a' H; injection H as <-; exact F|].
  unfold add_asm_file. pose proof (load_safe files f (I f (or_introl eq_refl))) as L.
  pose proof (loaded_sane files f) as LS. pose proof (loaded_fresh f) as LF.
  destruct (load_asm_file f) as [m|e|u|]; cbn [bind]; [|split; [exact Logic.I|discriminate]|split; [exact L|discriminate]|destruct L].
  apply IH; [intros x X; apply I; right; exact X|]. cbn [as_mods]. apply Forall_app. split; [exact F|]. constructor; [|constructor].
  destruct (LS m (I f (or_introl eq_refl)) eq_refl) as [S A]. split; [exact S|]. split; [exact A|]. intros l X. apply (LF m eq_refl l X).
Qed.
Lemma Forall2_trans2 : forall A B C (P : A -> B -> Prop) (Q : B -> C -> Prop) l1 l2 l3, Forall2 P l1 l2 -> Forall2 Q l2 l3 ->
  Forall2 (fun a c => exists b, P a b /\ Q b c) l1 l3.
Proof.
  intros A B C P Q l1 l2 l3 F. revert l3. induction F as [|a b l1 l2 H F IH]; intros l3 G; inversion G; subst; constructor; eauto.
Qed.
(** Fuel can only run out in the first passes. *)
Definition starved (fuel : nat) (files : list (list string)) : Prop :=
  exists a order names, add_files empty_assembler files = Ok a /\ find_assembly_order (as_mods a) = Ok (order, names) /\
    first_passes fuel order (as_mods a) = OutOfFuel.
Definition fed (P : ub -> Prop) (F : Prop) {A} (r : res A) : Prop :=
  match r with UB u => P u | OutOfFuel => F | _ => True end.
Lemma safe_fed : forall P F A (r : res A), safe P r -> fed P F r.
Proof. intros P F A [a|e|u|] H; cbn in *; auto. destruct H. Qed.
Lemma assemble_fed : forall files sk fuel ws r, returns sk -> assemble fuel sk files = (ws, r) -> fed (ub_cause files) (starved fuel files) r.
Proof.
  intros files sk fuel ws r R H. assert (T : fed (ub_cause files) (starved fuel files) (snd (assemble fuel sk files))); [|rewrite H in T; exact T]. clear H.
  assert (WT : forall A B (x : wres A) (f : list write -> A -> wres B), fed (ub_cause files) (starved fuel files) (snd x) ->
     (forall ws a, x = (ws, Ok a) -> fed (ub_cause files) (starved fuel files) (snd (f ws a))) -> fed (ub_cause files) (starved fuel files) (snd (wbind x f))).
  { intros A B [w [a|e|u|]] f H K; cbn in *; auto. }
  unfold assemble. apply WT.
  - apply safe_fed. apply files_safe; [apply incl_refl|constructor].
  - intros w a EA. injection EA as _ EA. destruct (files_safe files files empty_assembler (incl_refl _)) as [_ K]; [constructor|].
    specialize (K a EA). unfold assembler_assemble. apply WT; [apply safe_fed, order_safe|].
    intros w1 [order names] E. injection E as _ E. pose proof (order_ends (as_mods a)) as OE. rewrite E in OE. destruct OE as [OK _].
    assert (SM : Forall (sane files) (as_mods a)) by (eapply Forall_impl; [|exact K]; intros m [S _]; exact S).
    destruct OK as (ND & RG & NM & OK'). assert (FN : fair_names (zlen (as_mods a)) names) by (eapply names_fair; split; [exact ND|split; [exact RG|split; [exact NM|exact OK']]]).
    destruct (first_passes_tame files fuel order (as_mods a) SM ND) as [T1 K1].
    { intros i I'. destruct (znth_in_range _ _ _ (RG i I')) as [m M]. exists m. split; [exact M|].
      rewrite Forall_forall in K. apply K. eapply znth_in. exact M. }
    apply WT; [cbn [snd]; destruct (first_passes fuel order (as_mods a)) eqn:FP; [exact I|exact I|exact T1|exists a, order, names; auto]|]. intros w2 ms1 E1. injection E1 as _ E1. pose proof (K1 ms1 E1) as S1.
    pose proof (first_passes_zlen _ _ _ _ E1) as Z1.
    destruct (second_passes_safe files order names ms1 S1) as [T2 K2]; [rewrite Z1; exact FN|rewrite Z1; exact RG|].
    apply WT; [apply safe_fed; exact T2|]. intros w3 ms2 E2. injection E2 as _ E2. destruct (K2 ms2 E2) as [S2 Z2].
    apply WT; [|intros w4 [ms3 rm] _; exact I]. apply safe_fed. apply modules_safe; [exact R|exact S2| |rewrite Z2, Z1; exact FN|rewrite Z2, Z1; exact RG].
  pose proof (first_passes_all _ _ _ _ _ E E1) as FA. destruct (second_passes_spec _ _ _ _ E2) as [GR _].
    clear -FA GR. apply Forall_forall. intros m2 M2.
    assert (X : exists m0 m1, run_first_pass fuel m0 = Ok m1 /\ grows m1 m2).
    { destruct (Forall2_in_r _ _ _ _ _ m2 (Forall2_trans2 _ _ _ _ _ _ _ _ FA GR) M2) as (m0 & m1 & X). eauto. }
    destruct X as (m0 & m1 & A & B). eapply ready_stmts; [apply grows_stmts; exact B|eapply first_pass_ready; exact A].
Qed.
Lemma first_passes_end : forall order ms, exists N, forall fuel, (N <= fuel)%nat -> first_passes fuel order ms <> OutOfFuel.
Proof.
  induction order as [|i order IH]; intros ms; [exists 0%nat; intros; discriminate|]. cbn [first_passes].
  destruct (znth ms i) as [m|]; [|exists 0%nat; intros; discriminate].
  destruct (first_pass_terminates m) as [N1 T]. pose proof (T N1 (le_n _)) as T1.
  assert (C : forall fuel, (N1 <= fuel)%nat -> run_first_pass fuel m = run_first_pass N1 m) by (intros fuel L; apply first_pass_more; assumption).
  destruct (run_first_pass N1 m) as [m1|e|u|]; [| | |congruence].
  - destruct (IH (zset i m1 ms)) as [N2 H]. exists (Nat.max N1 N2). intros fuel L. rewrite C by lia. cbn [bind]. apply H. lia.
  - exists N1. intros fuel L. rewrite C by exact L. discriminate.
  - exists N1. intros fuel L. rewrite C by exact L. discriminate.
Qed.
Lemma assemble_ends : forall sk files, returns sk -> exists N, forall fuel, (N <= fuel)%nat -> snd (assemble fuel sk files) <> OutOfFuel.
Proof.
  intros sk files R.
  assert (E : exists N, forall fuel, (N <= fuel)%nat -> ~ starved fuel files).
  { unfold starved. destruct (add_files empty_assembler files) as [a|e|u|];
      try (exists 0%nat; intros fuel _ (a & o & n & A & _); discriminate A).
    destruct (find_assembly_order (as_mods a)) as [[order names]|e|u|] eqn:O;
      try (exists 0%nat; intros fuel _ (a' & o & n & A & B & _); injection A as <-; congruence).
    destruct (first_passes_end order (as_mods a)) as [N H]. exists N. intros fuel L (a' & o & n & A & B & C).
    injection A as <-. rewrite O in B. injection B as <- <-. exact (H fuel L C). }
  destruct E as [N H]. exists N. intros fuel L. destruct (assemble fuel sk files) as [ws r] eqn:A.
  pose proof (assemble_fed _ _ _ _ _ R A) as F. cbn [snd]. intros ->. exact (H fuel L F).
Qed.
Lemma assemble_causes : forall files sk fuel ws u, returns sk -> assemble fuel sk files = (ws, UB u) -> ub_cause files u.
Proof. intros files sk fuel ws u R H. exact (assemble_fed _ _ _ _ _ R H). Qed.
Lemma cause_not_null : forall files, ~ ub_cause files UB_null.
Proof. intros files H. inversion H as [| | | |? ? ? ? [E|E]]; discriminate E. Qed.
(** A result does not depend on how much fuel is left. *)
Lemma first_passes_more : forall fuel fuel' order ms, (fuel <= fuel')%nat -> first_passes fuel order ms <> OutOfFuel ->
  first_passes fuel' order ms = first_passes fuel order ms.
Proof.
  intros fuel fuel' order. induction order as [|i order IH]; intros ms L H; cbn [first_passes] in *; [reflexivity|].
  destruct (znth ms i) as [m|]; [|reflexivity].
  assert (NF : run_first_pass fuel m <> OutOfFuel) by (intros X; rewrite X in H; apply H; reflexivity).
  rewrite (first_pass_more fuel fuel' m L NF). destruct (run_first_pass fuel m); cbn [bind] in *; try reflexivity. apply IH; assumption.
Qed.
Lemma assemble_more : forall fuel fuel' sk files, (fuel <= fuel')%nat -> snd (assemble fuel sk files) <> OutOfFuel ->
  assemble fuel' sk files = assemble fuel sk files.
Proof.
  intros fuel fuel' sk files L H. unfold assemble in *. destruct (add_files empty_assembler files) as [a|e|u|]; cbn [wbind] in *; try reflexivity.
  unfold assembler_assemble in *. destruct (find_assembly_order (as_mods a)) as [[order names]|e|u|]; cbn [wbind] in *; try reflexivity.
  rewrite (first_passes_more fuel fuel'); [reflexivity|exact L|]. intros X. rewrite X in H. apply H. reflexivity.
Qed.
