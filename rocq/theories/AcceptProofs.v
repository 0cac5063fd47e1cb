(** Proofs that the passes of the assembler succeed. *)
From Verif Require Import Base ModelNumeric ModelAddress ModelExpr ModelMnemonic ModelAMode ModelOpcode ModelState ModelInstr ModelToken ModelStatement
  ModelParse ModelMap ModelRanges ModelModule ModelAssembler SpecArith SpecText SpecScope SpecState SpecRanges SpecAssemble SpecFlow BaseProofs MapProofs ArithProofs StateProofs
  ExecProofs OrderProofs LoadProofs ScopeProofs PassProofs LayoutProofs RangesProofs AssembleProofs ProgramProofs TermProofs SafeProofs SafeRunProofs FlowProofs FlowRunProofs FlowArriveProofs ModelDisasm ModelTools PrintProofs ToolTextProofs.
Import SpecRanges RangesProofs AssembleProofs.
Open Scope list_scope.
Open Scope Z_scope.
Local Opaque check_consistency execute_in execute_branch local_index.

(** ** The first pass does not fail where every statement can be executed in the states
    that can come up there. *)
Definition runnable (m : module) (P : Z -> estate -> Prop) : Prop := forall k s, P k s -> exists l, znth (md_lines m) k = Some l /\
  (exists s', stmt_execute (ln_stmt l) s = Ok s') /\
  (forall i, ln_stmt l = SInstr i -> is_local_branch i = true -> exists n j s',
     simple_identifier_opt (i_arg1 i) = Some n /\ local_index m n (ln_scopes l) = Ok j /\ execute_branch i s = Ok s').
(** The statements that are reached. *)
Inductive lpath (m : module) : Z -> Prop :=
| lp_entry : forall j s, entry_at m j s -> lpath m j
| lp_next : forall k l, lpath m k -> znth (md_lines m) k = Some l -> stmt_is_exit (ln_stmt l) = false -> lpath m (k + 1)
| lp_branch : forall k l i n j, lpath m k -> znth (md_lines m) k = Some l -> ln_stmt l = SInstr i -> is_local_branch i = true ->
    simple_identifier_opt (i_arg1 i) = Some n -> local_index m n (ln_scopes l) = Ok j -> lpath m j.

Lemma core_zlen : forall (ls ls0 : list line), map core2 ls = map core2 ls0 -> zlen ls = zlen ls0.
Proof. intros ls ls0 C. unfold zlen. apply (f_equal (@List.length _)) in C. rewrite !map_length in C. lia. Qed.
Lemma step_runs : forall m P ls k s rest, runnable m P -> map core2 ls = map core2 (md_lines m) -> P k s ->
  exists p, first_pass_step m ls ((k, s) :: rest) = Ok p.
Proof.
  intros m P ls k s rest RU CO PK. destruct (RU _ _ PK) as (l0 & L0 & (s' & E) & B). unfold first_pass_step.
  destruct (core_nth _ _ _ _ (eq_sym CO) L0) as (l & L & C). unfold core2 in C. injection C as C1 C2. rewrite C1 in E, B. rewrite C2 in B.
  pose proof (znth_some _ _ _ _ L) as R. destruct (Z.eqb_spec k (zlen ls)) as [X|X]; [lia|]. rewrite L.
  destruct (ln_reached l && es_eqb (ln_in l) s); [eauto|]. rewrite E. cbn [bind]. cbv zeta.
  destruct (ln_stmt l) as [i|d]; [|eauto]. destruct (is_local_branch i) eqn:LB; [|eauto].
  destruct (B i eq_refl LB) as (n & j & s2 & A & J & E2). rewrite A, J, E2. cbn [bind]. eauto.
Qed.
Lemma loop_runs : forall m P E, merges P -> runnable m P -> closed_under m (md_lines m) P ->
  forall fuel V ls st, map core2 ls = map core2 (md_lines m) -> inv m P E V ls st ->
  first_pass_loop fuel m ls st = OutOfFuel \/ exists ls', first_pass_loop fuel m ls st = Ok ls'.
Proof.
  intros m P E MP RU CL. induction fuel as [|f IH]; intros V ls [|[k s] st] CO I; cbn [first_pass_loop]; eauto.
  assert (PK : P k s) by (apply (v_pending _ _ _ _ _ _ I); cbn [om_find]; rewrite Z.eqb_refl; reflexivity).
  destruct (step_runs _ _ _ _ _ st RU CO PK) as [[ls1 st1] ST]. rewrite ST. cbn [bind].
  assert (CL' : closed_under m ls P).
  { intros k0 l s0 j s' L P0 F. destruct (core_nth _ _ _ _ CO L) as (l0 & L0 & C0). eapply CL; [exact L0|exact P0|]. eapply flows_core; [exact C0|exact F]. }
  destruct (inv_step _ _ _ _ _ _ _ _ MP CL' I ltac:(discriminate) ST) as [(k0 & s0 & rest & EQ & D) _].
  destruct D as [(-> & -> & I1)|(l & L & NV & -> & _ & I1)]; [eapply IH; eassumption|].
  eapply IH; [|exact I1]. rewrite zset_core2 by exact L. exact CO.
Qed.
Lemma first_pass_accepts : forall m name src P, m = module_of name src -> merges P -> runnable m P -> closed_under m (md_lines m) P ->
  (forall j s, entry_at m j s -> P j s) ->
  exists N, forall fuel, (N <= fuel)%nat -> exists ls, first_pass_loop fuel m (md_lines m) (entry_states 0 (md_lines m) []) = Ok ls /\
    map core2 ls = map core2 (md_lines m) /\
    (forall k l, znth ls k = Some l -> (lpath m k -> ln_reached l = true) /\ (ln_reached l = true -> P k (ln_in l))).
Proof.
  intros m name src P EM MP RU CL HE. pose proof (start_inv _ _ _ _ EM MP HE) as I0.
  destruct (loop_terminates m (md_lines m) (entry_states 0 (md_lines m) []) (v_sorted _ _ _ _ _ _ I0)) as [N T].
  exists N. intros fuel LE. specialize (T fuel LE). destruct (loop_runs _ _ _ MP RU CL fuel _ _ _ eq_refl I0) as [X|[ls H]]; [contradiction|].
  exists ls. split; [exact H|].
  destruct (loop_inv m P (entry_at m) (fun V ls st => map core2 ls = map core2 (md_lines m)) MP) with
    (fuel := fuel) (V := nowhere) (ls := md_lines m) (st := entry_states 0 (md_lines m) []) (ls' := ls) as (V & IV & CO); auto.
  { intros V ls0 k0 s rest lx st' C S LL NV O S'. rewrite zset_core2; assumption. }
  split; [exact CO|]. intros k l L.
  assert (PA : forall k, lpath m k -> exists s, V k s).
  { intros k0 LP. induction LP as [j s HE0|k0 l0 LP [s0 HV] L0 NX|k0 l0 i n j LP [s0 HV] L0 SI B A J].
    - destruct (v_entry _ _ _ _ _ _ IV _ _ HE0) as [(t & HV & _)|(t & F & _)]; [eauto|discriminate F].
    - destruct (v_visited _ _ _ _ _ _ IV _ _ HV) as (PK & l1 & L1 & _ & [s' EX] & FL).
      destruct (core_nth _ _ _ _ CO L1) as (l2 & L2 & C2). assert (l2 = l0) as -> by congruence. unfold core2 in C2. injection C2 as C1 C2.
      assert (F : flows m l1 k0 s0 (k0 + 1) s') by (apply f_next; [rewrite C1; exact NX|exact EX]).
      destruct (FL _ _ F) as [(t & HV' & _)|(t & F' & _)]; [eauto|discriminate F'].
    - destruct (v_visited _ _ _ _ _ _ IV _ _ HV) as (PK & l1 & L1 & _ & [s' EX] & FL).
      destruct (core_nth _ _ _ _ CO L1) as (l2 & L2 & C2). assert (l2 = l0) as -> by congruence. unfold core2 in C2. injection C2 as C1 C2.
      destruct (RU _ _ PK) as (l3 & L3 & _ & BR). assert (l3 = l0) as -> by congruence. destruct (BR _ SI B) as (n' & j' & s2 & A' & J' & E2).
      assert (n' = n) as -> by congruence. assert (j' = j) as -> by congruence.
      assert (F : flows m l1 k0 s0 j s2) by (eapply f_branch; [rewrite C1; exact SI|exact B|exact A|rewrite C2; exact J|exact E2]).
      destruct (FL _ _ F) as [(t & HV' & _)|(t & F' & _)]; [eauto|discriminate F']. }
  split.
  - intros LP. destruct (PA _ LP) as [s HV]. destruct (v_visited _ _ _ _ _ _ IV _ _ HV) as (_ & l1 & L1 & R1 & _). congruence.
  - intros R. apply (v_visited _ _ _ _ _ _ IV). apply (v_reached _ _ _ _ _ _ IV); assumption.
Qed.

(** ** The other passes over a simple source. *)
Inductive simple : statement -> Prop :=
| si_instr : forall i, simple (SInstr i)
| si_org : forall a, addr24 a -> simple (org_stmt a)
| si_entry : forall g, simple (entry_stmt g).
Lemma fix_accepts : forall ls, (forall l i, In l ls -> ln_stmt l = SInstr i -> ln_reached l = true /\ exists i', fix_addressing_mode i (es_flags (ln_in l)) = Ok i') ->
  exists ls', fix_modes ls = Ok ls'.
Proof.
  induction ls as [|l ls IH]; intros H; cbn [fix_modes]; [eauto|]. destruct IH as [rest R]; [intros x i IN; apply H; right; exact IN|].
  destruct (ln_stmt l) as [i|d] eqn:S.
  - destruct (H l i (or_introl eq_refl) S) as [RE [i' F]]. rewrite RE. cbn [negb]. rewrite F. cbn [bind]. rewrite R. cbn [bind]. eauto.
  - cbn [bind]. rewrite R. cbn [bind]. eauto.
Qed.
Lemma org_eval_ok : forall a, addr24 a -> (let* v := eval_opt null_ctx (Some (ELit a T_long)) in let* a := mk_address v in Ok (Some a)) = Ok (Some a).
Proof.
  intros a A. unfold addr24 in A. cbn [eval_opt eval bind]. assert (M : mk_address a = Ok a) by (apply mk_address_ok; change (2 ^ 24) with 16777216 in *; lia). rewrite M. reflexivity.
Qed.
Lemma layout_accepts : forall ls pc, Forall simple (map ln_stmt ls) -> (pc = None -> exists l rest a, ls = l :: rest /\ ln_stmt l = org_stmt a) ->
  exists ls', layout pc ls = Ok ls'.
Proof.
  induction ls as [|l ls IH]; intros pc F H; cbn [layout]; [eauto|]. inversion F as [|? ? S F']; subst.
  assert (NX : forall a, exists ls', layout (Some a) ls = Ok ls') by (intros a; apply IH; [exact F'|discriminate]).
  remember (ln_stmt l) as s eqn:SL. destruct S as [i|a A|g].
  - destruct pc as [a|]; [|destruct (H eq_refl) as (l0 & r0 & a0 & E & X); injection E as <- <-; rewrite X in SL; discriminate SL].
    destruct (NX (add_wrapped a (stmt_size (SInstr i)))) as [ls' L]. cbn [bind]. rewrite L. cbn [bind]. eauto.
  - destruct (NX (add_wrapped a (stmt_size (org_stmt a)))) as [ls' L]. unfold org_stmt at 1. cbn [d_name d_arg]. rewrite (org_eval_ok a A). cbn [bind]. rewrite L. cbn [bind]. eauto.
  - destruct pc as [a|]; [|destruct (H eq_refl) as (l0 & r0 & a0 & E & X); injection E as <- <-; rewrite X in SL; discriminate SL].
    destruct (NX (add_wrapped a (stmt_size (entry_stmt g)))) as [ls' L]. unfold entry_stmt at 1. cbn [d_name bind]. rewrite L. cbn [bind]. eauto.
Qed.

(** ** Assembling the lines. *)
Fixpoint places (ctx : list Z -> lookup_ctx) (b : Z) (ls : list line) : Prop :=
  match ls with
  | [] => True
  | l :: ls' =>
      match ln_stmt l with
      | SDir d => (d_name d = D_org \/ d_name d = D_entry /\ d_ret d = RC_default /\ exists a, ln_value l = Some a /\ addr24 a) /\ places ctx b ls'
      | SInstr i => exists a bytes t, ln_value l = Some a /\ addr24 a /\ 0 < instr_size i /\ instr_bytes a (ctx (ln_scopes l)) i = Ok bytes /\
          far_branch_target i a = Ok t /\ b <= a /\ offset_of a + instr_size i <= 65536 /\ places ctx (a + instr_size i) ls'
      end
  end.
Lemma address_label : forall a, addr24 a -> label_to_address a = Ok a.
Proof. intros a A. unfold addr24 in A. apply mk_address_ok; change (2 ^ 24) with 16777216 in *; lia. Qed.
Lemma claimed_within : forall a n x, addr24 a -> offset_of a + n <= 65536 -> claimed a n x -> a <= x < a + n.
Proof.
  intros a n x A O (k & K & ->). unfold same_bank_plus, bank_of, offset_of, addr24 in *. change (2 ^ 16) with 65536 in *. Z.div_mod_to_equations. lia.
Qed.
Lemma lines_accept : forall sk ext m0, (forall ws w, sk ws w = Ok tt) -> forall ls b ws m, same_code m0 m -> canonical (md_owned m) ->
  (forall x, covers (md_owned m) x -> x < b) -> places (fun sc => module_ctx m0 sc ext) b ls ->
  exists ws' m', assemble_lines sk ext ls ws m = (ws', Ok m') /\ canonical (md_owned m') /\ same_code m0 m'.
Proof.
  intros sk ext m0 SK. induction ls as [|l ls IH]; intros b ws m SC CN CV PL; cbn [assemble_lines places] in *; [eauto 6|].
  unfold assemble_stmt. cbv zeta. destruct (ln_stmt l) as [i|d] eqn:SL.
  - destruct PL as (a & bytes & t & V & A & Z & IB & FT & BA & OF & PL). cbn [stmt_size]. destruct (Z.ltb_spec 0 (instr_size i)); [|lia].
    rewrite V, (address_label a A). cbn [wbind]. unfold stmt_assemble. cbn [stmt_bytes]. rewrite (same_code_ctx _ _ _ _ SC), IB. cbn [bind].
    unfold sink_write. rewrite SK. cbn [wbind].
    destruct (claim_bytes_spec (md_owned m) a (instr_size i) CN A) as (ok & r' & E & C' & CV' & OK).
    assert (T : ok = true).
    { apply OK. split; [unfold offset_of in OF; change (2 ^ 16) with 65536 in OF; Z.div_mod_to_equations; lia|]. intros x CL C0. apply CV in C0. apply claimed_within in CL; [lia|exact A|exact OF]. }
    subst ok. rewrite E. cbn [wbind]. unfold record_far_target. rewrite V, (address_label a A). cbn [bind]. rewrite FT. cbn [bind].
    assert (CVR : forall x, covers r' x -> x < a + instr_size i).
    { intros x C0. apply CV' in C0. destruct C0 as [C0|C0]; [apply CV in C0; lia|]. apply claimed_within in C0; [lia|exact A|exact OF]. }
    destruct t as [t|]; cbn [wbind]; (eapply (IH (a + instr_size i)); [|exact C'|exact CVR|exact PL]); (eapply same_code_trans; [exact SC|]); repeat split.
  - destruct PL as [D PL]. assert (Z : stmt_size (SDir d) = 0) by (cbn [stmt_size]; unfold directive_size; destruct D as [D|(D & _)]; rewrite D; reflexivity).
    rewrite Z. cbn [Z.ltb Z.compare]. destruct D as [D|(D & RD & a & V & A)]; rewrite D.
    + cbn [wbind]. eapply IH; eassumption.
    + rewrite V, (address_label a A), RD. cbn [bind rc_is_default wbind]. eapply IH; eassumption.
Qed.
Lemma names_accept : forall ls gs acc, (forall n i, In (n, i) gs -> exists l a, znth ls i = Some l /\ ln_value l = Some a /\ addr24 a) ->
  exists r, name_addresses ls gs acc = Ok r.
Proof.
  intros ls. induction gs as [|[n i] gs IH]; intros acc H; cbn [name_addresses]; [eauto|].
  destruct (H n i (or_introl eq_refl)) as (l & a & L & V & A). rewrite L, V, (address_label a A). cbn [bind]. apply IH. intros n0 i0 IN. apply (H n0 i0). right. exact IN.
Qed.
Lemma exports_accept : forall name gs names, NoDup (map fst gs) -> (forall n i, In (n, i) gs -> has_id (FullId (Some name) n) names = false) ->
  exists r, add_exports 0 (map (fun nv : string * Z => FullId (Some name) (fst nv)) gs) names = Ok r.
Proof.
  intros name. induction gs as [|[n i] gs IH]; intros names ND H; cbn [map add_exports]; [eauto|]. inversion ND as [|? ? NI ND']; subst. cbn [fst].
  rewrite (H n i (or_introl eq_refl)). apply IH; [exact ND'|]. intros n0 i0 IN. specialize (H n0 i0 (or_intror IN)).
  assert (NE : n <> n0) by (intros ->; apply NI; apply (in_map fst) in IN; exact IN).
  clear - H NE. unfold has_id in *. induction names as [|[k v] names IH]; cbn [app assoc_id] in *.
  - destruct (fullid_eqb (FullId (Some name) n) (FullId (Some name) n0)) eqn:E; [|reflexivity]. apply fullid_eqb_eq in E. congruence.
  - destruct (fullid_eqb k (FullId (Some name) n0)); [discriminate H|]. apply IH. exact H.
Qed.
Lemma no_equ_deps : forall m, Forall simple (map ln_stmt (md_lines m)) -> compute_deps m = [].
Proof.
  intros m F. unfold compute_deps. generalize (is_local_ctx m) as g. induction (md_lines m) as [|l ls IH]; intros g; [reflexivity|].
  cbn [map flat_map] in *. inversion F as [|? ? S F']; subst. rewrite (IH F' g). rewrite app_nil_r. destruct S; reflexivity.
Qed.
Lemma no_equ_pass : forall n k ext m, Forall simple (map ln_stmt (md_lines m)) -> second_pass_loop n k ext m = Ok m.
Proof.
  induction n as [|n IH]; intros k ext m F; [reflexivity|]. cbn [second_pass_loop]. destruct (znth (md_lines m) k) as [l|] eqn:E; [|reflexivity].
  assert (P : simple (ln_stmt l)) by (rewrite Forall_forall in F; apply F; apply in_map; eapply znth_in; exact E).
  destruct P; cbn [bind org_stmt entry_stmt d_name]; apply IH; exact F.
Qed.
Lemma dlist_range : forall src i sc x n t, In (x, n, t) (dlist_from i sc src) -> i <= t < i + zlen src.
Proof.
  induction src as [|[labels s] src IH]; intros i sc x n t IN; cbn [dlist_from] in IN; [destruct IN|]. rewrite zlen_cons. pose proof (zlen_nonneg _ src). apply in_app_or in IN. destruct IN as [IN|IN].
  - unfold label_defs in IN. apply in_map_iff in IN. destruct IN as (nx & E & _). injection E as _ _ <-. lia.
  - apply IH in IN. lia.
Qed.
Lemma single_accepts : forall fuel sk file m0 m1, (forall ws w, sk ws w = Ok tt) -> load_asm_file file = Ok m0 -> Forall simple (map ln_stmt (md_lines m0)) ->
  run_first_pass fuel m0 = Ok m1 -> Forall simple (map ln_stmt (md_lines m1)) ->
  (forall l, In l (md_lines m1) -> exists a, ln_value l = Some a /\ addr24 a) ->
  (forall ext, places (fun sc => module_ctx m1 sc ext) 0 (md_lines m1)) ->
  exists ws asm, assemble fuel sk [file] = (ws, Ok asm).
Proof.
  intros fuel sk file m0 m1 SK LD S0 FP S1 VAL PL. pose proof (proj1 (load_exact file m0) LD) as (src & name & RD & (ND & _) & _ & EM).
  pose proof (first_pass_scopes _ _ _ FP) as (SN & SG & SL).
  assert (DEP : md_deps m0 = []).
  { rewrite EM. change (md_deps (module_of name src)) with (compute_deps (closed name src)). apply no_equ_deps. rewrite EM in S0. exact S0. }
  assert (GL : md_globals m0 = in_scope None (dlist src)) by (rewrite EM; reflexivity).
  assert (NDG : NoDup (map fst (md_globals m0))).
  { rewrite GL. clear - ND. induction (dlist src) as [|[[sc n] t] d IH]; [constructor|]. cbn [keys map fst] in ND. inversion ND as [|? ? NI ND']; subst.
    change (in_scope None ((sc, n, t) :: d)) with ((if scope_eqb None sc then [(n, t)] else []) ++ in_scope None d). destruct (scope_eqb None sc) eqn:E; [|apply IH; exact ND'].
    apply scope_eqb_eq in E. subst sc. cbn [app map fst]. constructor; [|apply IH; exact ND']. intros IN. apply in_map_iff in IN. destruct IN as ([n' t'] & X & IN). cbn in X. subst n'.
    apply in_scope_in in IN. apply NI. change (None, n) with (fst (@None Z, n, t')). apply in_map. exact IN. }
  destruct (exports_accept (md_name m0) (md_globals m0) [] NDG) as [names EX]; [reflexivity|].
  assert (FO : find_assembly_order [m0] = Ok ([0], names)).
  { unfold find_assembly_order. cbn [List.length order_loop]. change (zlen (@nil Z) <? zlen [m0]) with true. cbn iota. cbn [order_sweep existsb]. rewrite DEP. cbn [forallb].
    unfold exported_names. rewrite EX. cbn [bind app]. reflexivity. }
  assert (LEN : zlen (md_lines m1) = zlen (md_lines m0)) by (unfold zlen; apply (f_equal (@List.length _)) in SL; rewrite !map_length in SL; lia).
  unfold assemble. cbn [add_files]. unfold add_asm_file. rewrite LD. cbn [bind wbind]. unfold assembler_assemble. cbn [as_mods app empty_assembler as_map as_names]. rewrite FO. cbn [wbind].
  assert (P1 : first_passes fuel [0] [m0] = Ok [m1]) by (cbn [first_passes]; change (znth [m0] 0) with (Some m0); cbn iota; rewrite FP; reflexivity). rewrite P1. cbn [wbind].
  assert (P2 : second_passes [0] names [m1] = Ok [m1]).
  { cbn [second_passes]. change (znth [m1] 0) with (Some m1). cbn iota. unfold run_second_pass. rewrite no_equ_pass by exact S1. reflexivity. }
  rewrite P2. cbn [wbind assemble_modules]. change (znth [m1] 0) with (Some m1). cbn iota. unfold module_assemble.
  assert (OW : md_owned m1 = []) by (rewrite (first_pass_owned _ _ _ FP); eapply loaded_owned; exact LD).
  destruct (lines_accept sk (assembler_ctx [m1] names) m1 SK (md_lines m1) 0 [] m1 (same_code_refl _)) as (ws' & m2 & AL & CN & SC2).
  { rewrite OW. exact Logic.I. }
  { rewrite OW. intros x (c & [] & _). }
  { apply PL. }
  rewrite AL. cbn [wbind]. destruct SC2 as (N2 & L2 & G2 & X2).
  destruct (names_accept (md_lines m2) (md_globals m2) (md_addr_names m2)) as [r NA].
  { rewrite L2, G2, SG, GL. intros n i IN. apply in_scope_in in IN. 
    assert (R : 0 <= i < zlen (md_lines m1)).
    { rewrite LEN, EM. change (md_lines (module_of name src)) with (mk_lines (dlist src) 0 [] src). replace (zlen (mk_lines (dlist src) 0 [] src)) with (zlen src).
      - apply dlist_range in IN. exact IN.
      - unfold zlen. rewrite <- (map_length ln_stmt), mk_lines_stmts, map_length. reflexivity. }
    destruct (znth_in_range _ _ _ R) as [l L]. exists l. destruct (VAL l) as (a & V & A); [eapply znth_in; exact L|]. eauto. }
  rewrite NA. cbn [bind wbind]. set (m3 := md_with_addr_names r m2).
  destruct (rm_insert (RangeMap [] []) (md_owned m3) 0) as [ok rm'] eqn:RI. assert (OK : ok = true).
  { pose proof (rangemap_insert Z (RangeMap [] []) [] (md_owned m3) 0 in_none CN) as ((_ & R) & _). rewrite RI in R. apply R. intros ? ? ? []. }
  rewrite OK. cbn [wbind]. eauto.
Qed.
